(* Mix.v -- what a mixer makes of ciphertexts looks like fresh ciphertexts of the same messages (for C91) *)
From Verif Require Import Base BaseFacts Algebra Utils UtilsFacts Setup Keygen Encryption Circuit CircuitFacts CircuitSat CommitmentFacts VecFacts KeySpec KeygenFacts
  EncryptFacts DecryptFacts Spec VerifyFacts Protocol ReencFacts DistFacts PropVerify Groth16 ArkGroth16 PolyFacts Groth16Spec ArkFacts Groth16Facts SchwartzZippel SoundCore SoundSpec
  SoundAlg SoundGame SoundLink SoundFacts SoundCount SoundHonest PropGroth16 PropSoundCases PropZK PrivacySpec PrivacyAlg PrivacyGame PrivacyLink PrivacyCount PrivacySpan PrivacyMany
  NonmalCore NonmalAlg NonmalSpec NonmalGame NonmalRows NonmalLink NonmalCount RoundTrip PropCca MixSpec.

(* ----- lists ----- *)
Lemma count_bij {A C} (f : A -> C) (g : C -> A) (P : A -> bool) (Q : C -> bool) LA LC : NoDup LA -> NoDup LC ->
  (forall a, In a LA -> In (f a) LC /\ g (f a) = a /\ P a = Q (f a)) -> (forall c, In c LC -> In (g c) LA /\ f (g c) = c) ->
  length (filter P LA) = length (filter Q LC).
Proof.
  assert (inj : forall {X Y} (h : X -> Y) (k : Y -> X) l, NoDup l -> (forall x, In x l -> k (h x) = x) -> NoDup (map h l)).
  { intros X Y h k l Hn Hk. induction Hn as [|x l Hx Hn IH]; cbn [map]; constructor.
    - intros Z. apply in_map_iff in Z. destruct Z as (y & Ey & Hy). apply Hx. rewrite <- (Hk x (or_introl eq_refl)), <- Ey, (Hk y (or_intror Hy)). exact Hy.
    - apply IH. intros y Hy. apply Hk. right. exact Hy. }
  intros HA HC Hf Hg. apply Nat.le_antisymm.
  - rewrite <- (map_length f). apply NoDup_incl_length.
    + apply (inj _ _ f g); [apply NoDup_filter; exact HA|]. intros a Ha. apply filter_In in Ha. apply Hf, Ha.
    + intros c Hc. apply in_map_iff in Hc. destruct Hc as (a & <- & Ha). apply filter_In in Ha. destruct Ha as [Ha Hp]. destruct (Hf a Ha) as (H1 & _ & H2).
      apply filter_In. split; [exact H1|]. rewrite <- H2. exact Hp.
  - rewrite <- (map_length g (filter Q LC)). apply NoDup_incl_length.
    + apply (inj _ _ g f); [apply NoDup_filter; exact HC|]. intros c Hc. apply filter_In in Hc. apply Hg, Hc.
    + intros a Ha. apply in_map_iff in Ha. destruct Ha as (c & <- & Hc). apply filter_In in Hc. destruct Hc as [Hc Hq]. destruct (Hg c Hc) as [H1 H2].
      apply filter_In. split; [exact H1|]. destruct (Hf _ H1) as (_ & _ & H3). rewrite H3, H2. exact Hq.
Qed.
Lemma filter_fst {A C} (P : A -> bool) (LA : list A) (LC : list C) : length (filter (fun ac => P (fst ac)) (list_prod LA LC)) = (length (filter P LA) * length LC)%nat.
Proof.
  induction LA as [|a LA IH]; cbn [list_prod filter]; [reflexivity|]. rewrite filter_app, app_length, IH.
  assert (X : forall l : list C, length (filter (fun ac => P (fst ac)) (map (fun y => (a, y)) l)) = if P a then length l else 0%nat).
  { induction l as [|y l IHl]; cbn [map filter]; [destruct (P a); reflexivity|]. cbn [fst]. destruct (P a) eqn:Ep; cbn [length]; rewrite IHl; reflexivity. }
  rewrite X. destruct (P a); cbn [length]; lia.
Qed.
Lemma NoDup_prod {A C} (LA : list A) (LC : list C) : NoDup LA -> NoDup LC -> NoDup (list_prod LA LC).
Proof.
  intros HA HC. induction HA as [|a LA Ha HA IH]; cbn [list_prod]; [constructor|]. apply NoDup_app_intro.
  - clear -HC. induction HC as [|c LC Hc HC IH]; cbn [map]; constructor; [|exact IH]. intros Z. apply in_map_iff in Z. destruct Z as (d & Ed & Hd). injection Ed as ->. contradiction.
  - exact IH.
  - intros [x y] H1 H2. apply in_map_iff in H1. destruct H1 as (z & Z & _). injection Z as <- <-. apply in_prod_iff in H2. destruct H2. contradiction.
Qed.

Section Tape.
Context {K : prime_field}.
Add Ring Kmt : (@scalar_ring_theory K).
(* the coins of fresh encryptions that look like the re-randomized ones *)
Fixpoint weave (rs cm d : list (scalar K)) : list (scalar K) :=
  match rs, cm, d with r :: rs', w :: cm', x :: y :: d' => fadd r w :: x :: y :: weave rs' cm' d' | _, _, _ => [] end.
Fixpoint unweave (rs l : list (scalar K)) : list (scalar K) * list (scalar K) :=
  match rs, l with r :: rs', w :: x :: y :: l' => let '(cm, d) := unweave rs' l' in (fsub w r :: cm, x :: y :: d) | _, _ => ([], []) end.
Lemma weave_length rs : forall cm d, length cm = length rs -> length d = (2 * length rs)%nat -> length (weave rs cm d) = (3 * length rs)%nat.
Proof.
  induction rs as [|r rs IH]; intros [|w cm] [|x [|y d]] Hc Hd; cbn in Hc, Hd; try lia; [reflexivity|]. cbn [weave length]. rewrite IH by lia. lia.
Qed.
Lemma unweave_length rs : forall l, length l = (3 * length rs)%nat -> length (fst (unweave rs l)) = length rs /\ length (snd (unweave rs l)) = (2 * length rs)%nat.
Proof.
  induction rs as [|r rs IH]; intros l Hl; cbn in Hl; [destruct l; [split; reflexivity|discriminate]|]. destruct l as [|w [|x [|y l]]]; cbn in Hl; try lia.
  destruct (IH l ltac:(lia)) as [A B]. cbn [unweave]. destruct (unweave rs l) as [cm d]. cbn [fst snd length] in *. lia.
Qed.
Lemma unweave_weave rs : forall cm d, length cm = length rs -> length d = (2 * length rs)%nat -> unweave rs (weave rs cm d) = (cm, d).
Proof.
  induction rs as [|r rs IH]; intros [|w cm] [|x [|y d]] Hc Hd; cbn in Hc, Hd; try lia; [reflexivity|]. cbn [weave unweave]. rewrite IH by lia. f_equal. f_equal. ring.
Qed.
Lemma weave_unweave rs : forall l, length l = (3 * length rs)%nat -> weave rs (fst (unweave rs l)) (snd (unweave rs l)) = l.
Proof.
  induction rs as [|r rs IH]; intros l Hl; cbn in Hl; [destruct l; [reflexivity|discriminate]|]. destruct l as [|w [|x [|y l]]]; cbn in Hl; try lia.
  specialize (IH l ltac:(lia)). cbn [unweave]. destruct (unweave rs l) as [cm d]. cbn [fst snd weave] in *. rewrite IH. f_equal. ring.
Qed.
End Tape.

(* ----- the observer that ignores the proofs of the last m ciphertexts ----- *)
Section Rows.
Context {E : pairing}.
Fixpoint takepad (k : nat) (q : list (list (Fr E))) : list (list (Fr E)) :=
  match k with O => [] | S k' => match q with [] => [] :: takepad k' [] | r :: q' => r :: takepad k' q' end end.
Fixpoint blocks (n m : nat) (q : list (list (Fr E))) : list (list (Fr E)) :=
  match m with O => [] | S m' => takepad (n + 2) q ++ [[]; []] ++ blocks n m' (skipn (n + 2) q) end.
Definition lift_question (N1 N2 n m : nat) (q : list (list (Fr E))) : list (list (Fr E)) := map (firstn N2) (takepad N1 q ++ blocks n m (skipn N1 q)).
Fixpoint lift (N1 N2 n m : nat) (O : observer E) : observer E :=
  match O with Guess g => Guess g | Ask q O1 O2 => Ask (lift_question N1 N2 n m q) (lift N1 N2 n m O1) (lift N1 N2 n m O2) end.
Lemma lift_questions N1 N2 n m O : questions (lift N1 N2 n m O) = questions O.
Proof. induction O as [g|q O1 IH1 O2 IH2]; cbn [lift questions]; [reflexivity|]. rewrite IH1, IH2. reflexivity. Qed.
Lemma takepad_length k : forall q, length (takepad k q) = k.
Proof. induction k as [|k IH]; intros [|r q]; cbn [takepad length]; rewrite ?IH; reflexivity. Qed.
Lemma pp_nil (Ps : list (G1 E)) Qs : pairing_product [] Ps Qs = gzero.
Proof. destruct Ps; reflexivity. Qed.
Lemma pp_split (Ps1 Ps2 : list (G1 E)) Qs : forall q, pairing_product q (Ps1 ++ Ps2) Qs = pairing_product (takepad (length Ps1) q) Ps1 Qs [+] pairing_product (skipn (length Ps1) q) Ps2 Qs.
Proof.
  induction Ps1 as [|P Ps1 IH]; intros q; cbn [app length takepad skipn pairing_product]; [rewrite gadd_0_l; reflexivity|].
  destruct q as [|r q].
  - cbn [pairing_product]. specialize (IH []). rewrite pp_nil in IH. rewrite skipn_nil in IH. rewrite pp_nil in *. rewrite gadd_0_r in *. cbn [dot]. rewrite pair_zero_r, <- IH, gadd_0_l. reflexivity.
  - cbn [pairing_product]. rewrite IH. apply gadd_assoc.
Qed.
Lemma pp_app q1 q2 (Ps1 Ps2 : list (G1 E)) Qs : length q1 = length Ps1 -> pairing_product (q1 ++ q2) (Ps1 ++ Ps2) Qs = pairing_product q1 Ps1 Qs [+] pairing_product q2 Ps2 Qs.
Proof.
  revert q1; induction Ps1 as [|P Ps1 IH]; intros [|r q1] Hl; try discriminate; cbn [app pairing_product]; [rewrite gadd_0_l; reflexivity|]. rewrite IH by (cbn in Hl; lia). apply gadd_assoc.
Qed.
Lemma dot_firstn (r : list (Fr E)) (Qs Qs' : list (G2 E)) : dot (firstn (length Qs) r) (Qs ++ Qs') = dot r Qs.
Proof. revert Qs; induction r as [|a r IH]; intros [|Q Qs]; cbn [firstn length app dot]; try reflexivity. rewrite IH. reflexivity. Qed.
Lemma pp_firstn (q : list (list (Fr E))) (Ps : list (G1 E)) Qs Qs' : pairing_product (map (firstn (length Qs)) q) Ps (Qs ++ Qs') = pairing_product q Ps Qs.
Proof. revert Ps; induction q as [|r q IH]; intros [|P Ps]; cbn [map pairing_product]; try reflexivity. rewrite IH, dot_firstn. reflexivity. Qed.
Lemma blocks_product n (cps : list (ciphertext E * proof E)) Qs : Forall (fun cp => length (ct_enc_chunks (fst cp)) = n) cps -> forall q,
  pairing_product (blocks n (length cps) q) (concat (map pair_g1 cps)) Qs = pairing_product q (concat (map (fun cp => ct_vec (fst cp)) cps)) Qs.
Proof.
  intros H. induction H as [|[ct pr] cps Hc H IH]; intros q; cbn [map concat length blocks]; [destruct q; reflexivity|]. cbn [fst] in *.
  assert (L : length (ct_vec ct) = (n + 2)%nat) by (unfold ct_vec; cbn [length]; rewrite app_length; cbn [length]; lia).
  assert (P : pair_g1 (ct, pr) = ct_vec ct ++ [pr_a pr; pr_c pr]) by (unfold pair_g1, ct_vec; cbn [fst snd app]; rewrite <- app_assoc; reflexivity).
  rewrite P, <- app_assoc. rewrite pp_app by (rewrite takepad_length; lia). rewrite pp_app by reflexivity. rewrite IH. cbn [pairing_product dot]. rewrite !pair_zero_r, !gadd_0_l.
  rewrite pp_split, L. reflexivity.
Qed.
Lemma lift_observes n O (cps : list (ciphertext E * proof E)) (Ps : list (G1 E)) Qs Qs' : Forall (fun cp => length (ct_enc_chunks (fst cp)) = n) cps ->
  observe (lift (length Ps) (length Qs) n (length cps) O) (Ps ++ concat (map pair_g1 cps)) (Qs ++ Qs') = observe O (Ps ++ concat (map (fun cp => ct_vec (fst cp)) cps)) Qs.
Proof.
  intros H. induction O as [g|q O1 IH1 O2 IH2]; cbn [lift observe]; [reflexivity|]. unfold lift_question. rewrite pp_firstn, pp_app by apply takepad_length.
  rewrite blocks_product by exact H. rewrite <- pp_split, IH1, IH2. reflexivity.
Qed.
End Rows.

Section Mixing.
Context {E : pairing}.
Notation K := (K_of E).
Notation F := (Fr E).
Add Ring Kmx : (@scalar_ring_theory K).
Notation e i env := (nth i env fzero).
Notation p := (modulus K).

Variables (n : nat) (cs : csys K) (xs : list F) (pf : profile) (domain : nat -> option (list F)) (fuel : nat) (b : Z) (gens : encryption_gens E).
Let ni := cs_num_inst cs.
Let nw := cs_num_wit cs.
Let nc := length (cs_cons cs).
Let N := length xs.
Notation G := (eg_G gens).
Notation H := (eg_H gens).
Notation B := (ark_backend pf domain fuel).
Hypothesis HG : G <> gzero.
Hypothesis HH : H <> gzero.
Hypothesis Hdom_ok : domain_ok domain.
Hypothesis Hb : supported b.
Hypothesis HbM : 2 ^ b <= modulus K.
Hypothesis Hcomp : chunk_compatible K b.
Hypothesis Hcount : chunks_count K b = Ok (Z.of_nat n).
Hypothesis Hn0 : (0 < n)%nat.
Hypothesis Hcs : generate_constraints (BitsizeCheckCircuit b (Z.of_nat n) None true) (@cs_new K Circuit.Setup) = Ok cs.
Hypothesis Hdomain : domain (nc + ni)%nat = Some xs.
Let D1 := 3 * Z.of_nat N + 9 * (3 * Z.of_nat n + 9).


Lemma vec_inj (a c : ciphertext E) : ct_vec a = ct_vec c -> a = c.
Proof. intros X. apply (f_equal ct_of_vec) in X. rewrite !ct_of_vec_ct_vec in X. injection X as X. exact X. Qed.

(* every ciphertext is the formula, with the scalar at the front of the tape *)
Definition contents (m : F) : list Z := match decompose pf m b with Ok ds => ds | _ => [] end.
Lemma enc_formula msg r rr ss : forall pk ek dk g_i, good_setup n xs pf domain fuel b gens pk ek dk -> get_gs_for_encryption (gpk_vk (pk_pk pk)) = Ok g_i ->
  length (contents msg) = n /\ wf_key n ek /\ (n <= length g_i)%nat /\
  exists q, forall rest, encrypt_with_proof pf B (replay_rng E) msg ek pk b (r :: rr :: ss :: rest) = Ok (ct_formula ek g_i (contents msg) r, r, q, rest).
Proof.
  destruct (enc_forged n cs xs pf domain fuel b gens Hdom_ok Hb HbM Hcomp Hcount Hcs Hdomain msg r rr ss) as (S & HS).
  destruct (decompose_spec pf K msg b Hb) as (ds & Hd & _). unfold contents. rewrite Hd.
  assert (Hn' : length ds = n) by (destruct (compatible_count pf b msg ds Hb Hcomp Hd) as [X _]; rewrite Hcount in X; injection X as X; lia).
  intros pk ek dk g_i Hg Hgi.
  pose proof (HS pk ek dk [] Hg) as HR. pose proof (with_proof_encrypts pf B (replay_rng E) msg ek pk b _ _ _ _ _ g_i ds Hgi Hd HR) as He.
  apply encrypts_inv in He. destruct He as (n' & Hw & Hl & Hgl & Hct). assert (Hnn : n' = n) by lia. rewrite Hnn in *. split; [exact Hn'|]. split; [exact Hw|]. split; [exact Hgl|].
  exists (forge_proof S gens pk ek dk). intros rest. rewrite (HS pk ek dk rest Hg).
  assert (X : forge_ciphertext S gens pk ek = ct_formula ek g_i ds r) by (apply vec_inj; exact Hct).
  rewrite X. reflexivity.
Qed.
Lemma good_gs pk ek dk : good_setup n xs pf domain fuel b gens pk ek dk -> exists g_i, get_gs_for_encryption (gpk_vk (pk_pk pk)) = Ok g_i.
Proof.
  intros (c0 & sk & _ & _ & Hs). unfold setup_for_groth16 in Hs. apply bind_Ok_inv in Hs. destruct Hs as (circ & _ & Hs). apply bind_Ok_inv in Hs. destruct Hs as ([pk0 st1] & _ & Hs).
  apply bind_Ok_inv in Hs. destruct Hs as (g_i & Hg & Hs). apply bind_Ok_inv in Hs. destruct Hs as ([[[sk0 ek0] dk0] st3] & _ & Hs). injection Hs as <- _ _ _. exists g_i. exact Hg.
Qed.

Lemma enc_all_formula msgs cb : length cb = (3 * length msgs)%nat ->
  forall pk ek dk g_i, good_setup n xs pf domain fuel b gens pk ek dk -> get_gs_for_encryption (gpk_vk (pk_pk pk)) = Ok g_i ->
  exists cps, (forall rest, encrypt_all pf B (replay_rng E) msgs ek pk b (cb ++ rest) = Ok (cps, rest)) /\ length cps = length msgs /\
    Forall (fun cp => length (ct_enc_chunks (fst cp)) = n) cps /\
    forall i m, nth_error msgs i = Some m -> nth_error (map fst cps) i = Some (ct_formula ek g_i (contents m) (e (3 * i) cb)).
Proof.
  intros Hl pk ek dk g_i Hg Hgi. revert cb Hl; induction msgs as [|m msgs IH]; intros cb Hl; cbn [length] in Hl.
  - destruct cb; [|discriminate]. exists []. repeat split; [constructor|]. intros [|i] m Hi; discriminate.
  - destruct cb as [|r [|rr [|ss cb]]]; try (cbn in Hl; lia). destruct (IH cb ltac:(cbn in Hl; lia)) as (cps & HC & Lc & Ln & Hcp).
    destruct (enc_formula m r rr ss pk ek dk g_i Hg Hgi) as (Hds & _ & _ & q & Hq).
    exists ((ct_formula ek g_i (contents m) r, q) :: cps). split; [|split; [cbn; congruence|split]].
    + intros rest. cbn [encrypt_all app]. rewrite Hq. cbn [bind]. rewrite HC. reflexivity.
    + constructor; [|exact Ln]. cbn [fst]. unfold ct_formula; cbn [ct_enc_chunks]. rewrite body_formula_length. exact Hds.
    + intros [|i] m' Hi; cbn [nth_error map] in *; [injection Hi as <-; reflexivity|]. rewrite (Hcp i m' Hi). do 2 f_equal. replace (3 * S i)%nat with (S (S (S (3 * i)))) by lia. reflexivity.
Qed.

Lemma mix_formula ek g_i ds (r w : F) : wf_key n ek -> length ds = n -> (n <= length g_i)%nat ->
  forall cts st, mix (replay_rng E) ek g_i (ct_formula ek g_i ds r :: cts) (w :: st) = ('(rest, st2) <- mix (replay_rng E) ek g_i cts st ;; Ok (ct_vec (ct_formula ek g_i ds (fadd r w)) :: rest, st2)).
Proof.
  intros Hw Hl Hg cts st. cbn [mix]. assert (L : length (ct_enc_chunks (ct_formula ek g_i ds r)) = n) by (unfold ct_formula; cbn [ct_enc_chunks]; rewrite body_formula_length; exact Hl).
  rewrite L. pose proof Hw as (H256 & LX & LY & LZ).
  assert (Hz : encrypt_decomposed_message (replay_rng E) (repeat 0 n) ek g_i (w :: st) = Ok (ct_vec (ct_formula ek g_i (repeat 0 n) w), w, st)).
  { rewrite encrypt_chunks_ok by (rewrite ?repeat_length; lia). reflexivity. }
  rewrite Hz. cbn [bind].
  assert (H0 : encrypts ek g_i (repeat 0 n) (ct_vec (ct_formula ek g_i (repeat 0 n) w)) w) by (eexists _, _, _; exact Hz).
  assert (H1 : encrypts ek g_i ds (ct_vec (ct_formula ek g_i ds r)) r) by (exists (replay_rng E), [r], []; apply (encrypts_intro n); assumption).
  destruct (add_is_encryption_of_sum ek g_i ds (repeat 0 n) _ _ r w H1 H0) as (v & W & W'). rewrite chunk_add_0_r in W' by exact Hl.
  rewrite (encrypts_intro n) in W' by assumption. injection W' as W'. fold (ct_vec (ct_formula ek g_i ds r)). rewrite W. cbn [bind]. rewrite <- W'. reflexivity.
Qed.

(* the mixer's work on the tape cm is an encryption of the same messages on the woven tape *)
Lemma mix_is_encryption msgs cb pk ek dk g_i (cps : list (ciphertext E * proof E)) : good_setup n xs pf domain fuel b gens pk ek dk -> get_gs_for_encryption (gpk_vk (pk_pk pk)) = Ok g_i ->
  (forall i m, nth_error msgs i = Some m -> nth_error (map fst cps) i = Some (ct_formula ek g_i (contents m) (e (3 * i) cb))) ->
  forall order cm d, Forall (fun i => (i < length msgs)%nat) order -> length cm = length order -> length d = (2 * length order)%nat ->
  exists cps', encrypt_all pf B (replay_rng E) (chosen order msgs) ek pk b (weave (map (fun i => e (3 * i) cb) order) cm d) = Ok (cps', []) /\ length cps' = length order /\
    Forall (fun cp => length (ct_enc_chunks (fst cp)) = n) cps' /\
    mix (replay_rng E) ek g_i (chosen order (map fst cps)) cm = Ok (map (fun cp => ct_vec (fst cp)) cps', []).
Proof.
  intros Hg Hgi Hcps order. induction order as [|i order IH]; intros cm d Ho Lm Ld.
  - exists []. destruct cm; [|discriminate]. repeat split; constructor.
  - destruct cm as [|w cm]; [discriminate|]. destruct d as [|x [|y d]]; try (cbn in Ld; lia). inversion Ho as [|? ? Hi Ho']; subst.
    destruct (IH cm d Ho' ltac:(cbn in Lm; lia) ltac:(cbn in Ld; lia)) as (cps' & H1 & H2 & H3 & H4).
    destruct (nth_error msgs i) as [m|] eqn:Em; [|apply nth_error_None in Em; lia]. pose proof (Hcps i m Em) as Ec.
    cbn [chosen map weave]. rewrite Em, Ec. set (r := e (3 * i) cb) in *.
    destruct (enc_formula m (fadd r w) x y pk ek dk g_i Hg Hgi) as (Hds & Hw & Hgl & q & Hq).
    exists ((ct_formula ek g_i (contents m) (fadd r w), q) :: cps'). split; [|split; [cbn; congruence|split]].
    + cbn [encrypt_all]. rewrite Hq. cbn [bind]. rewrite H1. reflexivity.
    + constructor; [|exact H3]. cbn [fst]. unfold ct_formula; cbn [ct_enc_chunks]. rewrite body_formula_length. exact Hds.
    + rewrite (mix_formula ek g_i (contents m) r w Hw Hds Hgl), H4. reflexivity.
Qed.

(* one execution of the mixer is one of C66, with more messages, and the observer that ignores the proofs of the last ones *)
Variable msgs : list F.
Let k := length msgs.
Let M := (3 * n + 7 + 3 * k)%nat.
Notation Q1 := (P1 n cs xs).
Notation Q2 := (P2 n cs).
Definition lifted (m : nat) (O : observer E) : observer E := lift (Q1 + k * (n + 4)) (Q2 + k) n m O.
Definition scalars_of (order : list nat) (c : list F) : list F := map (fun i => e (3 * i) (skipn (3 * n + 7) c)) order.
Definition woven (order : list nat) (c d : list F) : list F := firstn M c ++ weave (scalars_of order (firstn M c)) (skipn M c) d.
Lemma mix_experiment order O c d : Forall (fun i => (i < k)%nat) order -> length c = (M + length order)%nat -> length d = (2 * length order)%nat -> vanishing_at xs (e 4 c) <> fzero ->
  experiment_mix pf B gens b O msgs order c = experiment_many pf B gens b (lifted (length order) O) (msgs ++ chosen order msgs) (woven order c d).
Proof.
  intros Ho Lc Ld Hv. set (c0 := firstn (3 * n + 7) c). set (cb := firstn (3 * k) (skipn (3 * n + 7) c)). set (cm := skipn M c).
  assert (L0 : length c0 = (3 * n + 7)%nat) by (unfold c0; rewrite firstn_length; unfold M in Lc; lia).
  assert (Lb : length cb = (3 * k)%nat) by (unfold cb; rewrite firstn_length, skipn_length; unfold M in Lc; lia).
  assert (Lm : length cm = length order) by (unfold cm; rewrite skipn_length; lia).
  assert (Ec : c = c0 ++ cb ++ cm).
  { unfold c0, cb, cm, M. rewrite <- (firstn_skipn (3 * n + 7) c) at 1. f_equal. rewrite <- (firstn_skipn (3 * k) (skipn (3 * n + 7) c)) at 1. f_equal. apply skipn_plus. }
  assert (Ef : firstn M c = c0 ++ cb).
  { rewrite Ec, app_assoc. rewrite firstn_app. replace (M - length (c0 ++ cb))%nat with 0%nat by (rewrite app_length; unfold M; lia). cbn [firstn]. rewrite app_nil_r. apply firstn_all2. rewrite app_length. unfold M. lia. }
  assert (Es : scalars_of order (firstn M c) = map (fun i => e (3 * i) cb) order).
  { unfold scalars_of. rewrite Ef, skipn_app. replace (3 * n + 7 - length c0)%nat with 0%nat by lia. cbn [skipn]. rewrite skipn_all2 by lia. reflexivity. }
  unfold woven. fold cm. rewrite Es, Ef, <- app_assoc. rewrite Ec at 1. clearbody c0 cb cm.
  assert (Hv0 : vanishing_at xs (e 4 c0) <> fzero) by (rewrite Ec, app_nth1 in Hv by lia; exact Hv).
  unfold experiment_mix, experiment_many.
  destruct (setup_local n cs xs pf domain fuel b gens Hb HbM Hcount Hn0 Hcs Hdomain c0 L0 Hv0) as [(pk & sk & ek & dk & HS)|HS].
  2: { destruct (setup_for_groth16 B (replay_rng E) b gens (c0 ++ cb ++ cm)) as [r|er|] eqn:E1; [destruct (HS _ _ E1)| |];
       (destruct (setup_for_groth16 B (replay_rng E) b gens (c0 ++ cb ++ weave (map (fun i => e (3 * i) cb) order) cm d)) as [r2|er2|] eqn:E2; [destruct (HS _ _ E2)|reflexivity|reflexivity]). }
  rewrite !HS.
  assert (Hg : good_setup n xs pf domain fuel b gens pk ek dk) by (exists c0, sk; split; [exact L0|]; split; [exact Hv0|]; rewrite <- (app_nil_r c0) at 1; apply HS).
  destruct (good_gs pk ek dk Hg) as (g_i & Hgi). destruct (enc_all_formula msgs cb Lb pk ek dk g_i Hg Hgi) as (cps & HC & Lcps & Ln & Hcp).
  destruct (mix_is_encryption msgs cb pk ek dk g_i cps Hg Hgi Hcp order cm d Ho Lm Ld) as (cps' & H1 & H2 & H3 & H4).
  rewrite (encrypt_all_app pf B (replay_rng E) msgs (chosen order msgs) ek pk b _ cps _ (HC _)), H1, HC, Hgi, H4. cbn [bind].
  unfold lifted. rewrite <- H2.
  assert (P : length (public_g1 gens pk ek) = Q1 /\ length (public_g2 gens pk ek dk) = Q2).
  { destruct Hg as (c1 & sk1 & A1 & A2 & A3).
    pose proof (setup_tape_rest n cs xs pf domain fuel b gens Hcount Hcs Hdomain (proj1 (cs_shape n cs xs b (bits_of _ b Hb HbM) Hn0 Hcs)) c1 pk sk1 ek dk [] ltac:(lia) A2 A3)
    as (_ & _ & _ & _ & _ & _ & _ & _ & _ & X1 & X2 & _). rewrite X1, X2, !map_length. unfold g1e, g2e. rewrite g1b_length, g2b_length. split; reflexivity. }
  assert (LT1 : length (table_g1 gens pk ek cps) = (Q1 + k * (n + 4))%nat).
  { unfold table_g1. rewrite app_length, (proj1 P). f_equal. fold k in Lcps. rewrite <- Lcps. clear -Ln. induction Ln as [|cp cps Hc Ln IH]; [reflexivity|].
    cbn [map concat length]. rewrite app_length, IH. unfold pair_g1. rewrite !app_length, Hc. cbn [length]. lia. }
  assert (LT2 : length (table_g2 gens pk ek dk cps) = (Q2 + k)%nat) by (unfold table_g2; rewrite app_length, map_length, (proj2 P), Lcps; reflexivity).
  rewrite <- LT1, <- LT2. rewrite <- (lift_observes n O cps' (table_g1 gens pk ek cps) (table_g2 gens pk ek dk cps) (map (fun cp => pr_b (snd cp)) cps') H3).
  unfold table_g1, table_g2. rewrite !map_app, concat_app, <- !app_assoc. reflexivity.
Qed.
End Mixing.
