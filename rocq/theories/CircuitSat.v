(* CircuitSat.v -- when the generated constraints are satisfiable *)
From Verif Require Import Base BaseFacts Algebra Utils VecFacts Circuit CircuitFacts.

Section Sat.
Context {K : prime_field}.
Add Ring K_ring_s : (@scalar_ring_theory K).
Notation B := (Z.to_nat (modulus_bit_size K)).

Definition env := var -> scalar K.
Definition lce (e : env) (l : lincomb K) : scalar K := fsum (map (fun '(c, v) => fmul c (e v)) l).
Definition holds (e : env) (c : constraint K) : Prop := fmul (lce e (c_a c)) (lce e (c_b c)) = lce e (c_c c).
Lemma holds_iff inst wit c : constraint_holds inst wit c <-> holds (var_value inst wit) c.
Proof. reflexivity. Qed.

Lemma lce_cons e c v l : lce e ((c, v) :: l) = fadd (fmul c (e v)) (lce e l).
Proof. reflexivity. Qed.
Lemma lce_nil e : lce e [] = fzero.
Proof. reflexivity. Qed.
Lemma lce_app e l1 l2 : lce e (l1 ++ l2) = fadd (lce e l1) (lce e l2).
Proof. unfold lce. rewrite map_app. apply fsum_app. Qed.

Definition is_bit (x : scalar K) (b : bool) : Prop := x = bool_scalar b.

Lemma boolc_holds e v : e VOne = fone -> (holds e (boolc v) <-> exists b, is_bit (e v) b).
Proof.
  intros H1. unfold holds, boolc. cbn [c_a c_b c_c]. rewrite !lce_cons, !lce_nil, H1. split.
  - intros H. assert (P : fmul (fsub fone (e v)) (e v) = fzero) by (rewrite <- H; ring).
    apply fmul_integral in P. destruct P as [P|P].
    + exists true. apply fsub_zero_eq in P. symmetry; exact P.
    + exists false. exact P.
  - intros [[] ->]; cbn; ring.
Qed.
Lemma orc_holds e a b c x y : e VOne = fone -> is_bit (e a) x -> is_bit (e b) y ->
  (holds e (orc a b c) <-> is_bit (e c) (x || y)).
Proof.
  intros H1 Ha Hb. unfold holds, orc. cbn [c_a c_b c_c]. rewrite !lce_cons, !lce_nil, H1, Ha, Hb. unfold is_bit. split.
  - intros H. transitivity (fsub fone (fsub fone (e c))); [ring|].
    transitivity (@fsub K fone (fmul (fsub fone (bool_scalar x)) (fsub fone (bool_scalar y)))).
    + f_equal. transitivity (fadd (fmul fone fone) (fadd (fmul (fneg fone) (e c)) fzero)); [ring|]. rewrite <- H. ring.
    + destruct x, y; cbn; ring.
  - intros ->. destruct x, y; cbn; ring.
Qed.
Lemma zeroc_holds e v : e VOne = fone -> (holds e (zeroc v) <-> e v = fzero).
Proof.
  intros H1. unfold holds, zeroc. cbn [c_a c_b c_c]. rewrite !lce_cons, !lce_nil, H1. split.
  - intros H. transitivity (fmul (fadd (fmul fone (e v)) fzero) (fadd (fmul fone fone) fzero)); [ring|exact H].
  - intros ->. ring.
Qed.

Fixpoint bits_int (bs : list bool) : Z := match bs with [] => 0 | b :: r => Z.b2z b + 2 * bits_int r end.
Lemma bits_int_bound bs : 0 <= bits_int bs < 2 ^ Z.of_nat (length bs).
Proof.
  induction bs as [|b bs IH]; cbn [bits_int length]; [cbn; lia|]. rewrite Nat2Z.inj_succ, Z.pow_succ_r by lia. destruct b; cbn [Z.b2z]; lia.
Qed.
Lemma bits_int_false bs : Forall (fun b => b = false) bs -> bits_int bs = 0.
Proof. induction 1 as [|b bs -> _ IH]; cbn; [reflexivity|rewrite IH; reflexivity]. Qed.
Lemma bits_int_high n bs : Forall (fun b => b = false) (skipn n bs) -> 0 <= bits_int bs < 2 ^ Z.of_nat n.
Proof.
  revert bs; induction n as [|n IH]; intros bs H; [rewrite (bits_int_false bs H); cbn; lia|].
  destruct bs as [|b bs]; [split; [cbn; lia|apply Z.pow_pos_nonneg; lia]|].
  cbn [skipn] in H. specialize (IH bs H). cbn [bits_int]. rewrite Nat2Z.inj_succ, Z.pow_succ_r by lia. destruct b; cbn [Z.b2z]; lia.
Qed.
Lemma bits_int_testbit n : forall z k, bits_int (map (fun i => Z.testbit z (Z.of_nat i)) (seq k n)) = (z / 2 ^ Z.of_nat k) mod 2 ^ Z.of_nat n.
Proof.
  induction n as [|n IH]; intros z k; [cbn; rewrite Z.mod_1_r; reflexivity|].
  cbn [seq map bits_int]. rewrite IH. rewrite !Nat2Z.inj_succ, !Z.pow_succ_r by lia.
  rewrite (Z.mul_comm 2 (2 ^ Z.of_nat k)), <- Z.div_div by (try lia; apply Z.pow_nonzero; lia).
  rewrite Z.testbit_spec' by lia. set (y := z / 2 ^ Z.of_nat k). rewrite Z.rem_mul_r by (try lia; apply Z.pow_pos_nonneg; lia). ring.
Qed.

Lemma pk_value e vars : forall bs c, Forall2 (fun v b => is_bit (e v) b) vars bs -> lce e (pk vars c) = fmul c (of_Z (bits_int bs)).
Proof.
  intros bs c H. revert c; induction H as [|v b vars bs Hb H IH]; intros c; cbn [pk bits_int]; [rewrite lce_nil; change (of_Z 0) with (@fzero K); ring|].
  rewrite lce_cons, IH, Hb, of_Z_add, of_Z_mul. change (of_Z 2) with (@of_Z K (1 + 1)). rewrite of_Z_add. change (of_Z 1) with (@fone K).
  destruct b; cbn; change (of_Z 0) with (@fzero K); change (of_Z 1) with (@fone K); ring.
Qed.
Lemma packc_holds e v vars bs : Forall2 (fun v b => is_bit (e v) b) vars bs ->
  (holds e (packc v vars) <-> e v = of_Z (bits_int bs)).
Proof.
  intros H. unfold holds, packc. cbn [c_a c_b c_c]. rewrite lce_app, (pk_value e vars bs fone H), lce_cons, !lce_nil. split.
  - intros E. symmetry. apply fsub_zero_eq.
    transitivity (fadd (fmul fone (of_Z (bits_int bs))) (fadd (fmul (fneg fone) (e v)) fzero)); [ring|]. rewrite <- E. ring.
  - intros ->. ring.
Qed.

(* a chain of ORs *)
Fixpoint or_fold (a : bool) (bs : list bool) : bool := match bs with [] => a | b :: r => or_fold (a || b) r end.
Lemma or_fold_false a bs : or_fold a bs = false <-> a = false /\ Forall (fun b => b = false) bs.
Proof.
  revert a; induction bs as [|b bs IH]; intros a; cbn; [intuition|]. rewrite IH, orb_false_iff. split.
  - intros [[-> ->] H]. split; [reflexivity|constructor; auto].
  - intros [-> H]. inversion H; subst. auto.
Qed.
Lemma or_chain e vars : e VOne = fone -> forall a w x bs, is_bit (e a) x -> Forall2 (fun v b => is_bit (e v) b) vars bs ->
  Forall (holds e) (or_cons a vars w) -> is_bit (e (or_out a vars w)) (or_fold x bs).
Proof.
  intros H1. induction vars as [|v vars IH]; intros a w x bs Ha Hbs Hh; inversion Hbs; subst; [exact Ha|].
  cbn [or_cons] in Hh. inversion Hh; subst. cbn [or_out or_fold]. apply IH; try assumption. eapply orc_holds; eassumption.
Qed.

Lemma or_zero e vars : e VOne = fone -> forall a w, e a = fzero -> Forall (fun v => e v = fzero) vars ->
  (forall j, (j < length vars)%nat -> e (VWit (w + j)) = fzero) ->
  Forall (holds e) (or_cons a vars w) /\ e (or_out a vars w) = fzero.
Proof.
  intros H1. induction vars as [|v vars IH]; intros a w Ha Hv Hw; cbn; [auto|]. inversion Hv; subst.
  assert (E0 : e (VWit w) = fzero) by (rewrite <- (Nat.add_0_r w); apply Hw; cbn; lia).
  destruct (IH (VWit w) (S w) E0) as [A1 A2]; [assumption|intros j Hj; rewrite Nat.add_succ_comm; apply Hw; cbn; lia|].
  split; [|exact A2]. constructor; [|exact A1]. apply (orc_holds e a v (VWit w) false false); assumption.
Qed.

(* soundness for one value *)
Lemma vcons_sound e (b : nat) v w : (b <= B)%nat -> e VOne = fone -> Forall (holds e) (vcons b v w) -> sval (e v) < 2 ^ Z.of_nat b.
Proof.
  intros Hb H1 H. unfold vcons in H. apply Forall_app in H. destruct H as [Hbool H]. apply Forall_app in H. destruct H as [Hpack Htail].
  assert (Hbits : exists bs, Forall2 (fun v b => is_bit (e v) b) (wvars w B) bs).
  { clear Hpack Htail. induction (wvars w B) as [|x l IH]; [exists []; constructor|]. cbn in Hbool. inversion Hbool; subst.
    destruct IH as [bs Hbs]; [assumption|]. apply boolc_holds in H2; [|exact H1]. destruct H2 as [bb Hbb]. exists (bb :: bs). constructor; assumption. }
  destruct Hbits as [bs Hbs]. inversion Hpack as [|? ? Hp _]; subst. apply (packc_holds e v _ bs Hbs) in Hp.
  assert (Hlen : length bs = B) by (rewrite <- (wvars_length w B); clear -Hbs; induction Hbs; cbn; congruence).
  assert (Hhigh : Forall (fun b => b = false) (skipn b bs)).
  { assert (Hs : Forall2 (fun v b => is_bit (e v) b) (skipn b (wvars w B)) (skipn b bs)).
    { clear -Hbs. revert b; induction Hbs; intros [|b]; cbn; auto. }
    destruct (skipn b (wvars w B)) as [|a r]; inversion Hs; subst; [constructor|].
    apply Forall_app in Htail. destruct Htail as [Hor Hz]. inversion Hz as [|? ? Hz0 _]; subst. apply zeroc_holds in Hz0; [|exact H1].
    match goal with Ha : is_bit (e a) ?y, Hl : Forall2 _ r ?l' |- _ => pose proof (or_chain e r H1 a (w + B) y l' Ha Hl Hor) as Hc; assert (Hf : or_fold y l' = false) end.
    { unfold is_bit in Hc. rewrite Hz0 in Hc. destruct (or_fold _ _); [|reflexivity]. exfalso. apply (@fneq01 K). symmetry; exact Hc. }
    apply or_fold_false in Hf. destruct Hf; constructor; assumption. }
  pose proof (bits_int_high b bs Hhigh). rewrite Hp, sval_of_Z. pose proof (@modulus_gt1 K).
  assert (bits_int bs mod modulus K <= bits_int bs) by (apply Z.mod_le; lia). lia.
Qed.

(* completeness for one value: the environment holds the bits of x and zeros *)
Lemma vcons_complete e (b : nat) v w x : (b <= B)%nat -> e VOne = fone -> e v = x -> sval x < 2 ^ Z.of_nat b ->
  (forall i, (i < @vnum K b)%nat -> e (VWit (w + i)) = nth i (vwits b x) fzero) -> @vnum K b = length (vwits b x) /\ Forall (holds e) (vcons b v w).
Proof.
  intros Hb H1 Hv Hx Hw.
  assert (HB : Z.of_nat B = modulus_bit_size K) by (unfold modulus_bit_size; pose proof (Z.log2_nonneg (modulus K)); lia).
  pose proof (sval_range x) as Hr. assert (Hlt : sval x < 2 ^ Z.of_nat B).
  { rewrite HB. unfold modulus_bit_size. pose proof (Z.log2_spec (modulus K) ltac:(lia)). rewrite Z.add_1_r. lia. }
  assert (Lb : length (vbits x) = B) by (unfold vbits; rewrite map_length, seq_length; reflexivity).
  assert (Hlen : @vnum K b = length (vwits b x)).
  { unfold vwits, vnum. rewrite map_length, app_length, Lb. f_equal. pose proof (skipn_length b (vbits x)) as L. rewrite Lb in L.
    destruct (skipn b (vbits x)) as [|a r]; cbn in L |- *; [lia|]. rewrite or_vals_length. lia. }
  split; [exact Hlen|].
  assert (Hbits : Forall2 (fun v b => is_bit (e v) b) (wvars w B) (vbits x)).
  { unfold wvars, vbits. assert (G : forall n k, (k + n <= B)%nat -> Forall2 (fun v b => is_bit (e v) b) (map VWit (seq (w + k) n)) (map (fun i => Z.testbit (sval x) (Z.of_nat i)) (seq k n))).
    { induction n as [|n IH]; intros k Hk; cbn; [constructor|]. constructor; [|replace (S (w + k)) with (w + S k)%nat by lia; apply IH; lia].
      unfold is_bit. rewrite Hw by (unfold vnum; lia). unfold vwits. rewrite map_app, app_nth1 by (rewrite map_length, Lb; lia).
      rewrite (nth_map_default (@bool_scalar K) _ k false fzero eq_refl). unfold vbits. rewrite (map_seq_nth (fun i => Z.testbit (sval x) (Z.of_nat i))) by lia. reflexivity. }
    rewrite <- (Nat.add_0_r w) at 1. apply G. lia. }
  assert (Hint : bits_int (vbits x) = sval x).
  { unfold vbits. rewrite bits_int_testbit. cbn [Z.of_nat]. rewrite Z.pow_0_r, Z.div_1_r. apply Z.mod_small. lia. }
  assert (Hhigh : Forall (fun b => b = false) (skipn b (vbits x))).
  { unfold vbits. rewrite skipn_map. apply Forall_map, Forall_forall. intros i Hi.
    assert (Hge : (b <= i)%nat). { clear -Hi. revert Hi. generalize B; intros n. assert (G : forall b k n i, In i (skipn b (seq k n)) -> (b + k <= i)%nat).
      { induction b0 as [|b0 IH]; intros k n0 i0; cbn; [intros H; apply in_seq in H; lia|]. destruct n0; cbn; [contradiction|]. intros H; apply IH in H; lia. }
      intros Hi. apply G in Hi. lia. }
    rewrite <- (Z.mod_small (sval x) (2 ^ Z.of_nat b)) by lia. apply Z.mod_pow2_bits_high. lia. }
  unfold vcons. apply Forall_app. split; [|apply Forall_app; split].
  - clear -Hbits H1. induction Hbits as [|a ba l lb Hb H IH]; cbn; constructor; [|exact IH]. apply boolc_holds; [exact H1|eauto].
  - constructor; [|constructor]. apply (packc_holds e v _ (vbits x) Hbits). rewrite Hint, of_Z_sval. exact Hv.
  - assert (Hs : Forall2 (fun v b => is_bit (e v) b) (skipn b (wvars w B)) (skipn b (vbits x))).
    { clear -Hbits. revert b; induction Hbits; intros [|b]; cbn; auto. }
    pose proof (skipn_length b (vbits x)) as L. rewrite Lb in L.
    unfold vwits in Hw.
    destruct (skipn b (wvars w B)) as [|a r]; [constructor|]. destruct (skipn b (vbits x)) as [|a' r']; [inversion Hs|]. inversion Hs as [|? ? ? ? H3 H5]; subst. inversion Hhigh as [|? ? Hf1 H6]; subst.
    assert (Lr : length r = length r') by (clear -H5; induction H5; cbn; congruence). cbn in L.
    assert (Hor : forall j, (j < length r)%nat -> e (VWit (w + B + j)) = fzero).
    { intros j Hj. rewrite <- Nat.add_assoc, Hw by (unfold vnum; lia).
      rewrite map_app, app_nth2, map_length, Lb by (rewrite map_length; lia). replace (B + j - B)%nat with j by lia.
      rewrite (nth_map_default (@bool_scalar K) _ j false fzero eq_refl).
      assert (G : forall r' j, Forall (fun b => b = false) r' -> nth j (or_vals false r') false = false).
      { clear. induction r' as [|c r' IH]; intros j H; cbn; [destruct j; reflexivity|]. inversion H; subst. destruct j; cbn; [reflexivity|apply IH; assumption]. }
      rewrite G by assumption. reflexivity. }
    assert (Hr0 : Forall (fun v => e v = fzero) r).
    { clear -H5 H6. induction H5 as [|? ? ? ? Hy ? IH]; constructor; inversion H6; subst; [exact Hy|apply IH; assumption]. }
    destruct (or_zero e r H1 a (w + B)%nat H3 Hr0 Hor) as [A1 A2]. apply Forall_app. split; [exact A1|]. constructor; [|constructor]. apply zeroc_holds; assumption.
Qed.

(* all values *)
Lemma all_cons_sound e (b : nat) vars : (b <= B)%nat -> e VOne = fone -> forall w,
  Forall (holds e) (all_cons b vars w) -> Forall (fun v => sval (e v) < 2 ^ Z.of_nat b) vars.
Proof.
  intros Hb H1. induction vars as [|v vars IH]; intros w H; [constructor|]. cbn [all_cons] in H. apply Forall_app in H. destruct H as [A A'].
  constructor; [apply (vcons_sound e b v w Hb H1 A)|apply (IH _ A')].
Qed.
Lemma vwits_length b x : (b <= B)%nat -> length (@vwits K b x) = @vnum K b.
Proof.
  intros Hb. assert (Lb : length (vbits x) = B) by (unfold vbits; rewrite map_length, seq_length; reflexivity).
  unfold vwits, vnum. rewrite map_length, app_length, Lb. f_equal. pose proof (skipn_length b (vbits x)) as L. rewrite Lb in L.
  destruct (skipn b (vbits x)) as [|a r]; cbn in L |- *; [lia|]. rewrite or_vals_length. lia.
Qed.
Lemma all_cons_complete e (b : nat) vars : (b <= B)%nat -> e VOne = fone -> forall w,
  Forall (fun v => sval (e v) < 2 ^ Z.of_nat b) vars ->
  (forall i, (i < length vars * @vnum K b)%nat -> e (VWit (w + i)) = nth i (flat_map (fun v => vwits b (e v)) vars) fzero) ->
  Forall (holds e) (all_cons b vars w).
Proof.
  intros Hb H1. induction vars as [|v vars IH]; intros w Hr Hw; [constructor|]. cbn [all_cons]. inversion Hr; subst. cbn [length Nat.mul flat_map] in Hw.
  apply Forall_app. split.
  - eapply (vcons_complete e b v w (e v) Hb H1 eq_refl H2). intros i Hi. rewrite Hw by lia. rewrite app_nth1 by (rewrite vwits_length; lia). reflexivity.
  - apply IH; [assumption|]. intros i Hi. rewrite <- Nat.add_assoc, Hw by lia. rewrite app_nth2 by (rewrite vwits_length; lia).
    f_equal. rewrite vwits_length by exact Hb. lia.
Qed.

Lemma nth_inst_vars (vs : list (scalar K)) wit : map (var_value (fone :: vs) wit) (circuit_vars true (length vs)) = vs.
Proof.
  unfold circuit_vars, alloc_vars. rewrite map_map, <- seq_shift, map_map. cbn [var_value nth]. symmetry. apply list_as_map.
Qed.
Lemma nth_wit_vars (vs wit : list (scalar K)) inst : map (var_value inst (vs ++ wit)) (circuit_vars false (length vs)) = vs.
Proof.
  unfold circuit_vars, alloc_vars. rewrite map_map. etransitivity; [|symmetry; apply (list_as_map fzero vs)]. apply map_ext_in. intros i Hi. apply in_seq in Hi. cbn [var_value].
  apply app_nth1. lia.
Qed.

(* public inputs *)
Theorem satisfiable_public (b : nat) (vs : list (scalar K)) : (b <= B)%nat ->
  (exists wit, Forall (constraint_holds (fone :: vs) wit) (all_cons b (circuit_vars true (length vs)) 0)) <->
  Forall (fun v => sval v < 2 ^ Z.of_nat b) vs.
Proof.
  intros Hb. split.
  - intros [wit H]. pose proof (all_cons_sound (var_value (fone :: vs) wit) b _ Hb eq_refl 0 H) as S.
    rewrite <- (nth_inst_vars vs wit). apply Forall_map. exact S.
  - intros H. exists (flat_map (vwits b) vs). apply (all_cons_complete (var_value (fone :: vs) (flat_map (vwits b) vs)) b _ Hb eq_refl).
    + rewrite <- (nth_inst_vars vs (flat_map (vwits b) vs)) in H at 1. apply Forall_map in H. exact H.
    + intros i _. cbn [var_value Nat.add]. f_equal. rewrite <- (nth_inst_vars vs (flat_map (vwits b) vs)) at 1.
      rewrite flat_map_concat_map, map_map, <- flat_map_concat_map. reflexivity.
Qed.
Theorem honest_public (b : nat) (vs : list (scalar K)) : (b <= B)%nat ->
  (Forall (constraint_holds (fone :: vs) (flat_map (vwits b) vs)) (all_cons b (circuit_vars true (length vs)) 0)) <->
  Forall (fun v => sval v < 2 ^ Z.of_nat b) vs.
Proof.
  intros Hb. split.
  - intros H. apply (satisfiable_public b vs Hb). eexists; exact H.
  - intros H. apply (all_cons_complete (var_value (fone :: vs) (flat_map (vwits b) vs)) b _ Hb eq_refl).
    + rewrite <- (nth_inst_vars vs (flat_map (vwits b) vs)) in H at 1. apply Forall_map in H. exact H.
    + intros i _. cbn [var_value Nat.add]. f_equal. rewrite <- (nth_inst_vars vs (flat_map (vwits b) vs)) at 1.
      rewrite flat_map_concat_map, map_map, <- flat_map_concat_map. reflexivity.
Qed.
(* private values (alloc_as_public = false): the witness starts with the values *)
Theorem satisfiable_private (b : nat) (vs : list (scalar K)) : (b <= B)%nat ->
  (exists wit, Forall (constraint_holds [fone] (vs ++ wit)) (all_cons b (circuit_vars false (length vs)) (length vs))) <->
  Forall (fun v => sval v < 2 ^ Z.of_nat b) vs.
Proof.
  intros Hb. split.
  - intros [wit H]. pose proof (all_cons_sound (var_value [fone] (vs ++ wit)) b _ Hb eq_refl (length vs) H) as S.
    rewrite <- (nth_wit_vars vs wit [fone]). apply Forall_map. exact S.
  - intros H. exists (flat_map (vwits b) vs). apply (all_cons_complete (var_value [fone] (vs ++ flat_map (vwits b) vs)) b _ Hb eq_refl).
    + rewrite <- (nth_wit_vars vs (flat_map (vwits b) vs) [fone]) in H at 1. apply Forall_map in H. exact H.
    + intros i _. cbn [var_value]. rewrite app_nth2 by lia. replace (length vs + i - length vs)%nat with i by lia. f_equal.
      rewrite <- (nth_wit_vars vs (flat_map (vwits b) vs) [fone]) at 1.
      rewrite flat_map_concat_map, map_map, <- flat_map_concat_map. reflexivity.
Qed.

Lemma or_cons_length a vars w : length (@or_cons K a vars w) = length vars.
Proof. revert a w; induction vars as [|v vars IH]; intros a w; cbn; [reflexivity|rewrite IH; reflexivity]. Qed.
Lemma vcons_length b v w : (b < B)%nat -> length (@vcons K b v w) = (2 * B - b + 1)%nat.
Proof.
  intros Hb. unfold vcons. rewrite !app_length, map_length, wvars_length. pose proof (skipn_length b (wvars w B)) as L. rewrite wvars_length in L.
  destruct (skipn b (wvars w B)) as [|a r]; cbn in L |- *; [lia|]. rewrite app_length, or_cons_length. cbn. lia.
Qed.
Lemma all_cons_length b vars : (b < B)%nat -> forall w, length (@all_cons K b vars w) = (length vars * (2 * B - b + 1))%nat.
Proof. intros Hb. induction vars as [|v vars IH]; intros w; cbn [all_cons length Nat.mul]; [reflexivity|]. rewrite app_length, vcons_length, IH by exact Hb. reflexivity. Qed.
Lemma is_satisfied_iff (s : csys K) : is_satisfied s = true <-> Forall (constraint_holds (cs_inst s) (cs_wit s)) (cs_cons s).
Proof.
  unfold is_satisfied. rewrite forallb_forall, Forall_forall. split; intros H c Hc; specialize (H c Hc); apply feqb_spec; exact H.
Qed.
End Sat.
