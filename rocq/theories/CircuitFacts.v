(* CircuitFacts.v -- the constraint system generated by the circuit, and when it is satisfiable *)
From Verif Require Import Base BaseFacts Algebra Utils VecFacts Circuit.

Section CircuitFacts.
Context {K : prime_field}.
Add Ring K_ring_c : (@scalar_ring_theory K).
Notation B := (Z.to_nat (modulus_bit_size K)).

(* a system extended with dw witnesses, constraints, and (in prove mode) witness values *)
Definition ext (s : csys K) (dw : nat) (cons : list (constraint K)) (wits : list (scalar K)) : csys K :=
  CSys (cs_mode s) (cs_num_inst s) (cs_num_wit s + dw) (cs_cons s ++ cons) (cs_inst s)
       (match cs_mode s with Setup => cs_wit s | Prove => cs_wit s ++ wits end).
Lemma ext_ext s a c w a' c' w' : ext (ext s a c w) a' c' w' = ext s (a + a') (c ++ c') (w ++ w').
Proof. unfold ext; cbn. rewrite Nat.add_assoc. destruct (cs_mode s); rewrite <- !app_assoc; reflexivity. Qed.
Lemma ext_nil s : ext s 0 [] [] = s.
Proof. unfold ext. rewrite Nat.add_0_r, !app_nil_r. destruct s as [[] ? ? ? ? ?]; reflexivity. Qed.

Lemma ext_wit s a c w : cs_num_wit (ext s a c w) = (cs_num_wit s + a)%nat.
Proof. reflexivity. Qed.

Definition boolc (v : var) : constraint K := Constraint [(fone, VOne); (fneg fone, v)] [(fone, v)] [].
Definition orc (a b c : var) : constraint K :=
  Constraint [(fone, VOne); (fneg fone, a)] [(fone, VOne); (fneg fone, b)] [(fone, VOne); (fneg fone, c)].
Definition zeroc (v : var) : constraint K := Constraint [(fone, v)] [(fone, VOne)] [].
Fixpoint pk (vars : list var) (c : scalar K) : lincomb K :=
  match vars with [] => [] | v :: r => (c, v) :: pk r (fadd c c) end.
Definition packc (v : var) (vars : list var) : constraint K := Constraint [] [] (pk vars fone ++ [(fneg fone, v)]).
Fixpoint or_cons (a : var) (vars : list var) (w : nat) : list (constraint K) :=
  match vars with [] => [] | v :: r => orc a v (VWit w) :: or_cons (VWit w) r (S w) end.
Fixpoint or_out (a : var) (vars : list var) (w : nat) : var :=
  match vars with [] => a | v :: r => or_out (VWit w) r (S w) end.
Fixpoint or_vals (a : bool) (bs : list bool) : list bool :=
  match bs with [] => [] | b :: r => (a || b) :: or_vals (a || b) r end.

Definition wvars (w n : nat) : list var := map VWit (seq w n).
Lemma wvars_length w n : length (wvars w n) = n.
Proof. unfold wvars. rewrite map_length, seq_length. reflexivity. Qed.
Definition wires (vars : list var) (vals : list (option bool)) : list boolean :=
  map (fun '(v, x) => BIs v x) (combine vars vals).
Lemma wires_length vars vals : length vars = length vals -> length (wires vars vals) = length vars.
Proof. intros H. unfold wires. rewrite map_length, combine_length. lia. Qed.
Definition dflt (o : option bool) : bool := match o with Some b => b | None => false end.
Definition vals_ok (s : csys K) (vals : list (option bool)) : Prop := cs_mode s = Prove -> Forall (fun o => o <> None) vals.

Lemma new_witness_ext s (o : option bool) : (cs_mode s = Prove -> o <> None) ->
  new_witness_variable s (b <- value_or_missing o ;; Ok (bool_scalar b)) = Ok (VWit (cs_num_wit s), ext s 1 [] [bool_scalar (dflt o)]).
Proof.
  intros H. unfold new_witness_variable, ext. destruct (cs_mode s) eqn:E.
  - rewrite app_nil_r, Nat.add_1_r. reflexivity.
  - destruct o as [b|]; [|exfalso; apply H; reflexivity]. cbn. rewrite app_nil_r, Nat.add_1_r. reflexivity.
Qed.
Lemma enforce_ext s c : enforce s c = ext s 0 [c] [].
Proof. unfold enforce, ext. rewrite Nat.add_0_r, app_nil_r. destruct (cs_mode s); reflexivity. Qed.

Lemma new_bool_witnesses_ext vals : forall s, vals_ok s vals ->
  new_bool_witnesses vals s = Ok (wires (wvars (cs_num_wit s) (length vals)) vals,
    ext s (length vals) (map boolc (wvars (cs_num_wit s) (length vals))) (map (fun o => bool_scalar (dflt o)) vals)).
Proof.
  induction vals as [|o vals IH]; intros s Hok; [cbn; rewrite ext_nil; reflexivity|].
  cbn [new_bool_witnesses]. unfold new_bool_witness. rewrite new_witness_ext by (intros Hm; specialize (Hok Hm); inversion Hok; assumption).
  cbn [bind]. rewrite enforce_ext, ext_ext. cbn [bind]. rewrite IH; [|intros Hm; cbn in Hm; specialize (Hok Hm); inversion Hok; assumption].
  cbn [bind]. rewrite ext_ext. cbn [length wvars seq map combine wires]. rewrite !ext_wit.
  cbn [Nat.add app]. rewrite !Nat.add_1_r. reflexivity.
Qed.

Lemma pack_wires vars : forall vals c, length vars = length vals -> pack_lc (wires vars vals) c = pk vars c.
Proof.
  induction vars as [|v vars IH]; intros [|x vals] c H; try discriminate; [reflexivity|].
  cbn. f_equal. apply IH. cbn in H; lia.
Qed.

Definition oval (va vb : option bool) : option bool := match va, vb with Some p, Some q => Some (p || q) | _, _ => None end.
Lemma or_all_ext vars : forall vals a va s, length vars = length vals -> vals_ok s (va :: vals) ->
  exists v, or_all (BIs a va) (wires vars vals) s = Ok (BIs (or_out a vars (cs_num_wit s)) v,
    ext s (length vars) (or_cons a vars (cs_num_wit s)) (map bool_scalar (or_vals (dflt va) (map dflt vals)))).
Proof.
  induction vars as [|x vars IH]; intros [|o vals] a va s Hlen Hok; try discriminate; [cbn; rewrite ext_nil; eauto|].
  cbn [wires combine map or_all boolean_or]. fold (oval va o).
  assert (Ho : cs_mode s = Prove -> oval va o <> None).
  { intros Hm. specialize (Hok Hm). inversion Hok as [|? ? H1 H2]; subst. inversion H2; subst.
    destruct va as [p|]; [|congruence]. destruct o as [q|]; [|congruence]. discriminate. }
  rewrite new_witness_ext by exact Ho. cbn [bind]. rewrite enforce_ext, ext_ext. cbn [bind app Nat.add].
  fold (wires vars vals).
  destruct (IH vals (VWit (cs_num_wit s)) (oval va o)
    (ext s (1 + 0) ([] ++ [orc a x (VWit (cs_num_wit s))]) ([bool_scalar (dflt (oval va o))] ++ []))) as [v Hv].
  { cbn in Hlen; lia. }
  { intros Hm. cbn in Hm. constructor; [apply Ho; exact Hm|]. specialize (Hok Hm). inversion Hok as [|? ? ? H2]; subst. inversion H2; assumption. }
  exists v. cbn [app Nat.add] in Hv. etransitivity; [exact Hv|]. rewrite ext_ext, !ext_wit. cbn [or_out or_cons or_vals length]. rewrite !Nat.add_1_r.
  f_equal. f_equal. cbn [Nat.add app map]. unfold ext. destruct (cs_mode s) eqn:Em; [reflexivity|].
  specialize (Ho eq_refl). destruct va as [p|]; [|exfalso; apply Ho; reflexivity]. destruct o as [q|]; [|exfalso; apply Ho; reflexivity]. reflexivity.
Qed.

(* constraints and witness values contributed by one value held in variable v, with the next witness index w *)
Definition vcons (b : nat) (v : var) (w : nat) : list (constraint K) :=
  map boolc (wvars w B) ++ [packc v (wvars w B)] ++
  match skipn b (wvars w B) with
  | [] => []
  | a :: r => or_cons a r (w + B) ++ [zeroc (or_out a r (w + B))]
  end.
Definition vbits (x : scalar K) : list bool := map (fun i => Z.testbit (sval x) (Z.of_nat i)) (seq 0 B).
Definition vwits (b : nat) (x : scalar K) : list (scalar K) :=
  map bool_scalar (vbits x ++ match skipn b (vbits x) with [] => [] | a :: r => or_vals a r end).
Definition vnum (b : nat) : nat := (B + (B - b - 1))%nat.

Lemma skipn_wires b vars vals : skipn b (wires vars vals) = wires (skipn b vars) (skipn b vals).
Proof. unfold wires. rewrite skipn_map. f_equal. revert vars vals; induction b as [|b IH]; intros [|v vars] [|x vals]; cbn; try reflexivity; [destruct (skipn b vars); reflexivity|apply IH]. Qed.
Lemma Forall_skipn {A} (P : A -> Prop) b l : Forall P l -> Forall P (skipn b l).
Proof. intros H. revert b; induction H; intros [|b]; cbn; auto. Qed.
Lemma or_vals_length a bs : length (or_vals a bs) = length bs.
Proof. revert a; induction bs as [|b bs IH]; intros a; cbn; [reflexivity|rewrite IH; reflexivity]. Qed.

Lemma check_value_ext (b : Z) s v value : 0 <= b <= modulus_bit_size K -> (cs_mode s = Prove -> value <> None) -> 
  (cs_mode s = Setup -> value = None) ->
  check_value b s (v, value) = Ok (ext s (vnum (Z.to_nat b)) (vcons (Z.to_nat b) v (cs_num_wit s))
    (match value with Some x => vwits (Z.to_nat b) x | None => [] end)).
Proof.
  intros Hb Hp Hs. unfold check_value, to_non_unique_bits_le. cbn [fst snd].
  set (vals := match value with Some x => _ | None => _ end).
  assert (Hlen : length vals = B) by (unfold vals; destruct value; [rewrite map_length, seq_length|rewrite repeat_length]; reflexivity).
  assert (Hok : vals_ok s vals).
  { intros Hm. specialize (Hp Hm). unfold vals. destruct value as [x|]; [|congruence]. apply Forall_map, Forall_forall. discriminate. }
  rewrite new_bool_witnesses_ext by exact Hok. rewrite Hlen. cbn [bind]. rewrite enforce_ext, ext_ext, pack_wires by (rewrite wvars_length; lia).
  cbn [bind]. set (bn := Z.to_nat b). assert (Hbn : (bn <= B)%nat) by (unfold bn; lia).
  unfold slice_from. rewrite wires_length by (rewrite wvars_length; lia). rewrite wvars_length. destruct (Nat.leb_spec bn B); [|lia]. cbn [bind].
  rewrite skipn_wires. set (s1 := ext s (B + 0) _ _).
  assert (Hw1 : cs_num_wit s1 = (cs_num_wit s + B)%nat) by (unfold s1, ext; cbn; lia).
  assert (Hm1 : cs_mode s1 = cs_mode s) by reflexivity.
  assert (Hl1 : length (skipn bn (wvars (cs_num_wit s) B)) = (B - bn)%nat) by (rewrite skipn_length, wvars_length; reflexivity).
  assert (Hl2 : length (skipn bn vals) = (B - bn)%nat) by (rewrite skipn_length, Hlen; reflexivity).
  assert (Hok' : vals_ok s1 (skipn bn vals)) by (intros Hm; apply Forall_skipn, Hok; exact Hm).
  assert (Hvw : cs_mode s = Prove -> exists x, value = Some x) by (intros Hm; destruct value; [eauto|exfalso; apply (Hp Hm); reflexivity]).
  assert (Hbits : forall x, value = Some x -> map dflt vals = vbits x).
  { intros x ->. unfold vals, vbits. rewrite map_map. reflexivity. }
  assert (Hd : map (fun o => @bool_scalar K (dflt o)) vals = map bool_scalar (map dflt vals)) by (rewrite map_map; reflexivity).
  unfold vcons. unfold vnum.
  destruct (skipn bn (wvars (cs_num_wit s) B)) as [|a r] eqn:Ea.
  - cbn in Hl1. destruct (skipn bn vals) as [|o vs] eqn:Eo; [|cbn in Hl2; lia]. cbn [wires combine map or_all bind enforce_false].
    f_equal. unfold s1. rewrite app_nil_r. replace (B + (B - bn - 1))%nat with (B + 0)%nat by lia.
    unfold ext. destruct (cs_mode s) eqn:Em; [reflexivity|]. destruct (Hvw eq_refl) as [x Hx]. rewrite Hd, (Hbits x Hx), Hx.
    unfold vwits. fold bn. assert (E : skipn bn (vbits x) = []). { rewrite <- (Hbits x Hx), skipn_map, Eo. reflexivity. } rewrite E, !app_nil_r. reflexivity.
  - destruct (skipn bn vals) as [|o vs] eqn:Eo; [cbn in Hl1, Hl2; lia|]. cbn in Hl1, Hl2.
    cbn [wires combine map or_all boolean_or bind]. fold (wires r vs).
    destruct (or_all_ext r vs a o s1 ltac:(lia) Hok') as [fv Hv]. rewrite Hv. cbn [bind enforce_false].
    rewrite enforce_ext. rewrite ext_ext. unfold s1 at 1. rewrite ext_ext. rewrite Hw1. f_equal.
    replace (B + (B - bn - 1))%nat with (B + 0 + (length r + 0))%nat by lia.
    unfold ext. rewrite <- !app_assoc. f_equal. destruct (cs_mode s) eqn:Em; [reflexivity|]. destruct (Hvw eq_refl) as [x Hx].
    f_equal. rewrite Hd, (Hbits x Hx), Hx. unfold vwits.
    assert (E : skipn bn (vbits x) = dflt o :: map dflt vs). { rewrite <- (Hbits x Hx), skipn_map, Eo. reflexivity. }
    rewrite E, map_app. cbn [app]. rewrite app_nil_r. reflexivity.
Qed.

(* all values; variable k sits in vars !! k *)
Fixpoint all_cons (b : nat) (vars : list var) (w : nat) : list (constraint K) :=
  match vars with [] => [] | v :: r => vcons b v w ++ all_cons b r (w + vnum b) end.
Lemma check_all_ext (b : Z) vars : forall s vals, 0 <= b <= modulus_bit_size K -> length vars = length vals ->
  match cs_mode s with Setup => vals = repeat None (length vals) | Prove => Forall (fun o => o <> None) vals end ->
  foldM (check_value b) (combine vars vals) s = Ok (ext s (length vars * vnum (Z.to_nat b)) (all_cons (Z.to_nat b) vars (cs_num_wit s))
    (flat_map (fun o => match o with Some x => vwits (Z.to_nat b) x | None => [] end) vals)).
Proof.
  induction vars as [|v vars IH]; intros s vals Hb Hlen Hm; destruct vals as [|o vals]; try discriminate; [cbn; rewrite ext_nil; reflexivity|].
  cbn [combine foldM]. rewrite check_value_ext; [|exact Hb| |].
  - cbn [bind]. rewrite IH; [|exact Hb|cbn in Hlen; lia|].
    + rewrite ext_ext. cbn [all_cons flat_map length Nat.mul]. rewrite ext_wit. reflexivity.
    + cbn [ext cs_mode]. destruct (cs_mode s); [cbn in Hm; congruence|inversion Hm; assumption].
  - intros E. rewrite E in Hm. inversion Hm; assumption.
  - intros E. rewrite E in Hm. cbn in Hm. congruence.
Qed.

(* allocation of the values *)
Definition alloc_vars (public : bool) (ni nw n : nat) : list var := if public then map VInst (seq ni n) else map VWit (seq nw n).
Definition alloc_cs (public : bool) (s : csys K) (n : nat) (vs : list (scalar K)) : csys K :=
  if public then CSys (cs_mode s) (cs_num_inst s + n) (cs_num_wit s) (cs_cons s)
                      (match cs_mode s with Setup => cs_inst s | Prove => cs_inst s ++ vs end) (cs_wit s)
            else CSys (cs_mode s) (cs_num_inst s) (cs_num_wit s + n) (cs_cons s) (cs_inst s)
                      (match cs_mode s with Setup => cs_wit s | Prove => cs_wit s ++ vs end).
Lemma alloc_cs_S public s n v vs : alloc_cs public s (S n) (v :: vs) = alloc_cs public (alloc_cs public s 1 [v]) n vs.
Proof. destruct public; unfold alloc_cs; cbn; rewrite <- Nat.add_assoc; destruct (cs_mode s); rewrite <- ?app_assoc; reflexivity. Qed.
Lemma alloc_setup public n : forall s vs, cs_mode s = Setup -> length vs = n ->
  alloc_values public (repeat None n) s = Ok (combine (alloc_vars public (cs_num_inst s) (cs_num_wit s) n) (repeat None n), alloc_cs public s n vs).
Proof.
  induction n as [|n IH]; intros s vs Hm Hl; [destruct s; destruct public; unfold alloc_cs; cbn in *; rewrite ?Nat.add_0_r, Hm; reflexivity|].
  destruct vs as [|v vs]; [discriminate|]. rewrite alloc_cs_S. cbn [repeat alloc_values]. unfold alloc_fp.
  assert (E : (if public then new_input_variable s (value_or_missing None) else new_witness_variable s (value_or_missing None)) =
    Ok (if public then VInst (cs_num_inst s) else VWit (cs_num_wit s), alloc_cs public s 1 [v])).
  { destruct public; unfold new_input_variable, new_witness_variable, alloc_cs; rewrite Hm, Nat.add_1_r; reflexivity. }
  rewrite E. cbn [bind]. rewrite Hm. cbn [bind]. rewrite (IH _ vs); [|destruct public; exact Hm|cbn in Hl; lia]. cbn [bind].
  f_equal. destruct public; cbn [alloc_vars seq map combine alloc_cs cs_num_inst cs_num_wit]; rewrite Nat.add_1_r; reflexivity.
Qed.
Lemma alloc_prove public vs : forall s, cs_mode s = Prove ->
  alloc_values public (map Some vs) s = Ok (combine (alloc_vars public (cs_num_inst s) (cs_num_wit s) (length vs)) (map Some vs), alloc_cs public s (length vs) vs).
Proof.
  induction vs as [|v vs IH]; intros s Hm; [destruct s; destruct public; unfold alloc_cs; cbn in *; rewrite ?Nat.add_0_r, Hm, app_nil_r; reflexivity|].
  cbn [length]. rewrite alloc_cs_S. cbn [map alloc_values]. unfold alloc_fp.
  assert (E : (if public then new_input_variable s (value_or_missing (Some v)) else new_witness_variable s (value_or_missing (Some v))) =
    Ok (if public then VInst (cs_num_inst s) else VWit (cs_num_wit s), alloc_cs public s 1 [v])).
  { destruct public; unfold new_input_variable, new_witness_variable, alloc_cs; rewrite Hm, Nat.add_1_r; reflexivity. }
  rewrite E. cbn [bind]. rewrite Hm. cbn [bind]. rewrite IH by (destruct public; exact Hm). cbn [bind].
  f_equal. destruct public; cbn [alloc_vars seq map combine alloc_cs cs_num_inst cs_num_wit]; rewrite Nat.add_1_r; reflexivity.
Qed.
Lemma alloc_setup_some public vs : forall s, cs_mode s = Setup ->
  alloc_values public (map Some vs) s = Ok (combine (alloc_vars public (cs_num_inst s) (cs_num_wit s) (length vs)) (repeat None (length vs)), alloc_cs public s (length vs) vs).
Proof.
  induction vs as [|v vs IH]; intros s Hm; [destruct s; destruct public; unfold alloc_cs; cbn in *; rewrite ?Nat.add_0_r, Hm; reflexivity|].
  cbn [length]. rewrite alloc_cs_S. cbn [map alloc_values]. unfold alloc_fp.
  assert (E : (if public then new_input_variable s (value_or_missing (Some v)) else new_witness_variable s (value_or_missing (Some v))) =
    Ok (if public then VInst (cs_num_inst s) else VWit (cs_num_wit s), alloc_cs public s 1 [v])).
  { destruct public; unfold new_input_variable, new_witness_variable, alloc_cs; rewrite Hm, Nat.add_1_r; reflexivity. }
  rewrite E. cbn [bind]. rewrite Hm. cbn [bind]. rewrite IH by (destruct public; exact Hm). cbn [bind].
  f_equal. destruct public; cbn [alloc_vars seq map combine alloc_cs cs_num_inst cs_num_wit repeat]; rewrite Nat.add_1_r; reflexivity.
Qed.
Lemma alloc_vars_length public ni nw n : length (alloc_vars public ni nw n) = n.
Proof. destruct public; cbn; rewrite map_length, seq_length; reflexivity. Qed.

Definition circuit_vars (public : bool) (n : nat) : list var := alloc_vars public 1 0 n.
Definition wit0 (public : bool) (n : nat) : nat := if public then 0%nat else n.

Theorem generate_setup (b n : Z) (public : bool) : 0 <= b <= modulus_bit_size K ->
  exists s, generate_constraints (BitsizeCheckCircuit b n None public) (@cs_new K Setup) = Ok s /\
    cs_num_inst s = (if public then 1 + Z.to_nat n else 1)%nat /\
    cs_num_wit s = (wit0 public (Z.to_nat n) + Z.to_nat n * vnum (Z.to_nat b))%nat /\
    cs_cons s = all_cons (Z.to_nat b) (circuit_vars public (Z.to_nat n)) (wit0 public (Z.to_nat n)).
Proof.
  intros Hb. unfold generate_constraints. cbn [values num_values alloc_as_public required_bit_size]. set (m := Z.to_nat n).
  rewrite (alloc_setup public m (cs_new Setup) (repeat fzero m)) by (try reflexivity; apply repeat_length). cbn [bind].
  rewrite check_all_ext; [|exact Hb|rewrite alloc_vars_length, repeat_length; reflexivity|].
  - eexists. split; [reflexivity|]. rewrite alloc_vars_length. destruct public; cbn; repeat split; reflexivity.
  - destruct public; cbn; rewrite repeat_length; reflexivity.
Qed.
Theorem generate_setup_some (b n : Z) (public : bool) vs : 0 <= b <= modulus_bit_size K ->
  exists s, generate_constraints (BitsizeCheckCircuit b n (Some vs) public) (@cs_new K Setup) = Ok s /\
    cs_num_inst s = (if public then 1 + length vs else 1)%nat /\
    cs_num_wit s = (wit0 public (length vs) + length vs * vnum (Z.to_nat b))%nat /\
    cs_cons s = all_cons (Z.to_nat b) (circuit_vars public (length vs)) (wit0 public (length vs)).
Proof.
  intros Hb. unfold generate_constraints. cbn [values num_values alloc_as_public required_bit_size]. set (m := length vs).
  rewrite (alloc_setup_some public vs (cs_new Setup)) by reflexivity. cbn [bind]. fold m.
  rewrite check_all_ext; [|exact Hb|rewrite alloc_vars_length, repeat_length; reflexivity|].
  - eexists. split; [reflexivity|]. rewrite alloc_vars_length. destruct public; cbn; repeat split; reflexivity.
  - destruct public; cbn; rewrite repeat_length; reflexivity.
Qed.
Theorem generate_prove (b n : Z) (public : bool) vs : 0 <= b <= modulus_bit_size K ->
  exists s, generate_constraints (BitsizeCheckCircuit b n (Some vs) public) (@cs_new K Prove) = Ok s /\
    cs_num_inst s = (if public then 1 + length vs else 1)%nat /\
    cs_num_wit s = (wit0 public (length vs) + length vs * vnum (Z.to_nat b))%nat /\
    cs_cons s = all_cons (Z.to_nat b) (circuit_vars public (length vs)) (wit0 public (length vs)) /\
    cs_inst s = (if public then fone :: vs else [fone]) /\
    cs_wit s = (if public then [] else vs) ++ flat_map (vwits (Z.to_nat b)) vs.
Proof.
  intros Hb. unfold generate_constraints. cbn [values alloc_as_public required_bit_size].
  rewrite alloc_prove by reflexivity. cbn [bind].
  assert (Hfm : flat_map (fun o => match o with Some x => vwits (Z.to_nat b) x | None => [] end) (map Some vs) = flat_map (vwits (Z.to_nat b)) vs)
    by (clear; induction vs as [|v vs IH]; cbn; [reflexivity|rewrite IH; reflexivity]).
  rewrite check_all_ext; [|exact Hb|rewrite alloc_vars_length, map_length; reflexivity|].
  - eexists. split; [reflexivity|]. rewrite alloc_vars_length, Hfm. destruct public; cbn; repeat split; reflexivity.
  - destruct public; cbn; apply Forall_map, Forall_forall; discriminate.
Qed.
(* a missing assignment while proving is an error *)
Lemma generate_prove_missing (b n : Z) (public : bool) : 0 < n ->
  generate_constraints (BitsizeCheckCircuit b n None public) (@cs_new K Prove) = Err (SynthesisError AssignmentMissing).
Proof.
  intros Hn. unfold generate_constraints. cbn [values num_values alloc_as_public]. destruct (Z.to_nat n) as [|m] eqn:E; [lia|].
  destruct public; reflexivity.
Qed.
End CircuitFacts.
