(* Groth16Facts.v -- SAVER on top of any correct Groth16 backend *)
From Verif Require Import Base BaseFacts Algebra Utils UtilsFacts Setup Commitment CommitmentFacts Keygen KeygenFacts Encryption EncryptFacts
  DecryptFacts RoundTrip VerifyFacts Spec KeySpec VecFacts Protocol ReencFacts DistFacts PropVerify Circuit CircuitFacts CircuitSat Groth16 Groth16Spec.

(* ---------- every variable of the bit-size circuit is allocated ---------- *)
Section Ok.
Context {K : prime_field}.
Notation B := (Z.to_nat (modulus_bit_size K)).

Definition cons_ok (ni nw : nat) (c : constraint K) : Prop := lc_ok ni nw (c_a c) /\ lc_ok ni nw (c_b c) /\ lc_ok ni nw (c_c c).

Lemma lc_ok_app ni nw (l1 l2 : lincomb K) : lc_ok ni nw l1 -> lc_ok ni nw l2 -> lc_ok ni nw (l1 ++ l2).
Proof. intros. apply Forall_app; split; assumption. Qed.
Lemma wvars_ok ni nw w n : (w + n <= nw)%nat -> Forall (var_ok ni nw) (wvars w n).
Proof. intros H. unfold wvars. rewrite Forall_map. apply Forall_forall. intros i Hi. apply in_seq in Hi. cbn. lia. Qed.
Lemma pk_ok ni nw vars (c : scalar K) : Forall (var_ok ni nw) vars -> lc_ok ni nw (pk vars c).
Proof. intros H. revert c; induction H as [|v vars Hv Hvs IH]; intros c; cbn; [constructor|]. constructor; [exact Hv|]. apply IH. Qed.
Lemma or_out_ok ni nw vars : forall a w, var_ok ni nw a -> (w + length vars <= nw)%nat -> var_ok ni nw (or_out a vars w).
Proof. induction vars as [|v vars IH]; intros a w Ha Hw; cbn [or_out]; [exact Ha|]. apply IH; cbn in *; lia. Qed.
Lemma or_cons_ok ni nw vars : forall a w, var_ok ni nw a -> Forall (var_ok ni nw) vars -> (w + length vars <= nw)%nat ->
  Forall (cons_ok ni nw) (or_cons a vars w).
Proof.
  induction vars as [|v vars IH]; intros a w Ha Hv Hw; cbn [or_cons]; [constructor|]. inversion Hv; subst. cbn [length] in Hw. constructor.
  - unfold cons_ok, orc; cbn. repeat split; repeat constructor; cbn; auto; lia.
  - apply IH; [cbn; lia|assumption|lia].
Qed.
Lemma vcons_ok ni nw b v w : var_ok ni nw v -> (w + @vnum K b <= nw)%nat -> Forall (cons_ok ni nw) (@vcons K b v w).
Proof.
  intros Hv Hw. unfold vnum in Hw. pose proof (wvars_ok ni nw w B ltac:(lia)) as Hws. unfold vcons. apply Forall_app. split; [|apply Forall_app; split].
  - rewrite Forall_map. eapply Forall_impl; [|exact Hws]. intros x Hx. unfold cons_ok, boolc; cbn. repeat split; repeat constructor; cbn; auto.
  - constructor; [|constructor]. unfold cons_ok, packc; cbn. repeat split; try constructor. apply lc_ok_app; [apply pk_ok; exact Hws|]. constructor; [exact Hv|constructor].
  - pose proof (Forall_skipn _ b _ Hws) as Hs. pose proof (skipn_length b (wvars w B)) as L. rewrite wvars_length in L.
    destruct (skipn b (wvars w B)) as [|a r]; [constructor|]. inversion Hs; subst. cbn [length] in L. apply Forall_app. split.
    + apply or_cons_ok; [assumption|assumption|lia].
    + constructor; [|constructor]. unfold cons_ok, zeroc; cbn. repeat split; repeat constructor; cbn; auto. apply or_out_ok; [assumption|lia].
Qed.
Lemma all_cons_ok ni nw b vars : Forall (var_ok ni nw) vars -> forall w, (w + length vars * @vnum K b <= nw)%nat ->
  Forall (cons_ok ni nw) (@all_cons K b vars w).
Proof.
  intros H. induction H as [|v vars Hv Hvs IH]; intros w Hw; cbn [all_cons]; [constructor|]. cbn [length Nat.mul] in Hw.
  apply Forall_app. split; [apply vcons_ok; [exact Hv|lia]|apply IH; lia].
Qed.

(* proving with in-range values is a satisfied instance of the circuit seen at setup *)
Lemma bitsize_satisfied (b n : Z) (vs : list (scalar K)) : 0 <= b <= modulus_bit_size K -> Z.of_nat (length vs) = n ->
  Forall (fun v => into_bigint v < 2 ^ b) vs -> forall s, generate_constraints (BitsizeCheckCircuit b n None true) (@cs_new K Circuit.Setup) = Ok s ->
  cs_num_inst s = S (length vs) /\
  forall n', exists sp, generate_constraints (BitsizeCheckCircuit b n' (Some vs) true) (@cs_new K Prove) = Ok sp /\ satisfied_instance s sp vs.
Proof.
  intros Hb Hn Hr s Hs. destruct (@generate_setup K b n true Hb) as (s0 & Hs0 & Hi & Hw & Hc). rewrite Hs in Hs0. injection Hs0 as <-.
  replace (Z.to_nat n) with (length vs) in * by lia. split; [exact Hi|]. intros n'.
  destruct (@generate_prove K b n' true vs Hb) as (sp & Hsp & Hip & Hwp & Hcp & Hinst & Hwit). exists sp. split; [exact Hsp|].
  unfold satisfied_instance. split; [|split; [congruence|split; [congruence|split; [exact Hinst|split; [rewrite Hinst, Hi; reflexivity|split]]]]].
  - unfold cs_ok. rewrite Hi, Hw, Hc. cbn [wit0]. apply all_cons_ok.
    + unfold circuit_vars, alloc_vars. rewrite Forall_map. apply Forall_forall. intros i Hi'. apply in_seq in Hi'. cbn. lia.
    + unfold circuit_vars. rewrite alloc_vars_length. lia.
  - rewrite Hwit, Hw. cbn [wit0 app Nat.add]. clear -Hb. induction vs as [|v vs IH]; cbn [flat_map length Nat.mul]; [reflexivity|].
    rewrite app_length, vwits_length, IH by lia. reflexivity.
  - rewrite is_satisfied_iff, Hcp, Hinst, Hwit. cbn [wit0 app]. apply (honest_public (Z.to_nat b) vs); [lia|]. rewrite Z2Nat.id by lia. exact Hr.
Qed.
End Ok.

Section G.
Context {E : pairing}.
Notation K := (K_of E).
Add Ring Kr : (@scalar_ring_theory K).

(* the relation between the parts of the SRS that generate_srs establishes *)
Definition srs_of (gens : encryption_gens E) (pk : proving_key E) : Prop :=
  exists gamma delta : Fr E, gamma <> fzero /\ delta <> fzero /\
    vk_gamma_g2 (gpk_vk (pk_pk pk)) = gamma [*] eg_H gens /\ vk_delta_g2 (gpk_vk (pk_pk pk)) = delta [*] eg_H gens /\
    gpk_delta_g1 (pk_pk pk) = delta [*] eg_G gens /\ pk_gamma_g1 pk = fneg gamma [*] eg_G gens.

Lemma generate_srs_ok (Bk : groth16_backend E) (R : rng_impl E) circ gens st pk st' : backend_correct Bk ->
  generate_srs Bk R circ gens st = Ok (pk, st') -> srs_of gens pk /\
  exists s, circ (cs_new Circuit.Setup) = Ok s /\ length (vk_gamma_abc_g1 (gpk_vk (pk_pk pk))) = cs_num_inst s.
Proof.
  intros HB H. unfold generate_srs in H. destruct (rand_scalar R st) as [alpha st1]. destruct (rand_scalar R st1) as [beta st2].
  destruct (rand_scalar R st2) as [gamma st3]. destruct (rand_scalar R st3) as [delta st4].
  apply bind_Ok_inv in H. destruct H as ([gpk st5] & Hg & H). injection H as <- _.
  destruct (setup_shape Bk HB _ _ _ _ _ _ _ _ _ _ _ Hg) as (A1 & A2 & A3 & A4 & A5 & A6 & A7 & A8).
  split; [|exact A8]. exists gamma, delta. cbn [pk_pk pk_gamma_g1]. repeat (split; [assumption|]). reflexivity.
Qed.

Lemma body_formula_cons x X g g_i m0 m (r : Fr E) :
  body_formula (x :: X) (g :: g_i) (m0 :: m) r = ((r [*] x) [+] (of_Z m0 [*] g)) :: body_formula X g_i m r.
Proof. unfold body_formula. cbn [length seq map nth]. rewrite <- seq_shift, map_map. reflexivity. Qed.

Lemma gsum_body X g_i (m : list Z) (r : Fr E) : length X = length m -> (length m <= length g_i)%nat ->
  gsum (body_formula X g_i m r) = (r [*] gsum X) [+] dot (map of_Z m) g_i.
Proof.
  revert g_i m; induction X as [|x X IH]; intros g_i [|m0 m] HX Hg; cbn [length] in *; try lia.
  - cbn. rewrite smul_0_r, gadd_0_l. reflexivity.
  - destruct g_i as [|g g_i]; [cbn in Hg; lia|]. rewrite body_formula_cons, !gsum_cons, (IH g_i m) by (cbn in *; lia).
    cbn [map dot]. glin.
Qed.

Lemma verify_proof_unfold (vk : verifying_key E) p ct g0 gs : vk_gamma_abc_g1 vk = g0 :: gs ->
  verify_proof (prepare_verifying_key vk) p ct =
  if geqb (pair (pr_a p) (prep (pr_b p)) [+] pair (pr_c p) (prep ([-] vk_delta_g2 vk)) [+]
           pair (ct_X_r ct [+] gsum (ct_enc_chunks ct) [+] g0) (prep ([-] vk_gamma_g2 vk))) (pair (vk_alpha_g1 vk) (prep (vk_beta_g2 vk)))
  then Ok tt else Err PairingCheckFailed.
Proof.
  intros Hg. unfold verify_proof, calculate_d. cbn [prepare_verifying_key pvk_vk]. rewrite Hg. cbn [idx nth_error bind]. rewrite fold_left_gadd.
  unfold verify_qap_proof, multi_pairing. cbn [length Nat.eqb combine map bind pvk_delta_g2_neg_pc pvk_gamma_g2_neg_pc pvk_alpha_g1_beta_g2 prepare_verifying_key].
  unfold gsum at 1. cbn [fold_right]. rewrite gadd_0_r, gadd_assoc. destruct (geqb _ _); reflexivity.
Qed.

Lemma dot_app_zeros (x : list (Fr E)) n (g : list (G1 E)) : (length x + n <= length g)%nat -> dot (x ++ repeat fzero n) g = dot x g.
Proof.
  revert g; induction x as [|a x IH]; intros g Hl; cbn [app length] in *.
  - revert g Hl; induction n as [|n IHn]; intros [|g0 g] Hl; cbn [repeat dot length] in *; try reflexivity; try lia.
    rewrite IHn by lia. cbn [dot]. rewrite smul_0_l, gadd_0_l. reflexivity.
  - destruct g as [|g0 g]; [cbn in Hl; lia|]. cbn [dot]. rewrite IH by (cbn in Hl; lia). reflexivity.
Qed.

(* the heart of C33/C34; chunks the ciphertext does not have count as 0 *)
Theorem verify_proof_exact b gens (pk : proving_key E) g_i ek m c_0 c psi (r : Fr E) (p : proof E) :
  let vk := gpk_vk (pk_pk pk) in
  srs_of gens pk -> get_gs_for_encryption vk = Ok g_i ->
  honest_key b gens g_i (gpk_delta_g1 (pk_pk pk)) (pk_gamma_g1 pk) ek -> encrypts ek g_i m (c_0 :: c ++ [psi]) r ->
  let res := verify_proof (prepare_verifying_key vk) (Proof (pr_a p) (pr_b p) (pr_c p [+] (r [*] ek_P_2 ek))) (Ciphertext c_0 c psi) in
  (res = Ok tt <-> groth16_accepts vk (map of_Z m ++ repeat fzero (length g_i - length m)) p) /\ (res = Ok tt \/ res = Err PairingCheckFailed).
Proof.
  intros vk (gamma & delta & Hg0 & Hd0 & Hgam & Hdel & Hd1 & Hg1) Hgi Hk He. fold vk in Hgam, Hdel.
  apply honest_key_inv in Hk. destruct Hk as (n & s & t0 & t & Hn & Hgl & Hlt & Hs & Ht & Hek).
  apply encrypts_inv in He. destruct He as (n' & Hw & Hm & Hg' & Hct). apply ct_vec_eq in Hct. destruct Hct as (-> & -> & ->).
  assert (Hl : (length m <= length g_i)%nat) by lia.
  unfold get_gs_for_encryption, slice_from in Hgi. destruct (Nat.leb_spec 1 (length (vk_gamma_abc_g1 vk))) as [Hle|]; [|discriminate].
  destruct (vk_gamma_abc_g1 vk) as [|w0 ws] eqn:Ew; [cbn in Hle; lia|]. cbn [skipn] in Hgi. injection Hgi as ->.
  intros res. unfold res. rewrite (verify_proof_unfold vk _ _ w0 g_i Ew). cbn [pr_a pr_b pr_c ct_X_r ct_enc_chunks ct_formula].
  assert (LX : length (ek_X ek) = length m) by (destruct Hw as (_ & A & _); congruence).
  rewrite gsum_body by (try assumption; lia).
  assert (HX : ek_X_0 ek [+] gsum (ek_X ek) = (fadd fone (fsum s) [*] (delta [*] eg_G gens))).
  { rewrite Hek. cbn [ek_X_0 ek_X ek_formula]. rewrite gsum_map_smul, Hd1. glin. }
  assert (HP : ek_P_2 ek = fadd fone (fsum s) [*] (fneg gamma [*] eg_G gens)) by (rewrite Hek; cbn [ek_P_2 ek_formula]; rewrite Hg1; reflexivity).
  set (D := dot (map of_Z m) g_i).
  replace (r [*] ek_X_0 ek [+] (r [*] gsum (ek_X ek) [+] D) [+] w0) with ((r [*] (ek_X_0 ek [+] gsum (ek_X ek))) [+] (w0 [+] D)) by glin.
  rewrite HX, HP, Hgam, Hdel.
  unfold groth16_accepts. rewrite Ew, Hgam, Hdel. cbn [length dot]. rewrite app_length, map_length, repeat_length.
  rewrite dot_app_zeros by (rewrite map_length; lia). fold D.
  rewrite !pair_neg_r, !pair_add_l, !pair_smul_r, !pair_smul_l. set (e := pair (eg_G gens) (prep (eg_H gens))).
  set (T := pair (pr_a p) (prep (pr_b p))). set (cH := pair (pr_c p) (prep (eg_H gens))).
  rewrite smul_1_l. set (wH := pair w0 (prep (eg_H gens))). set (DH := pair D (prep (eg_H gens))).
  set (ab := pair (vk_alpha_g1 vk) (prep (vk_beta_g2 vk))).
  match goal with |- context [geqb ?x ab] => replace x with (T [+] [-] ((gamma [*] (wH [+] DH)) [+] (delta [*] cH))) by glin end.
  destruct (geqb _ ab) eqn:Eq.
  - apply geqb_spec in Eq. split; [|left; reflexivity]. split; [|reflexivity]. intros _. split; [lia|].
    transitivity ((T [+] [-] ((gamma [*] (wH [+] DH)) [+] (delta [*] cH))) [+] ((gamma [*] (wH [+] DH)) [+] (delta [*] cH))); [glin|]. rewrite Eq. glin.
  - apply geqb_false in Eq. split; [|right; reflexivity]. split; [discriminate|]. intros [_ HT]. exfalso. apply Eq. rewrite HT. glin.
Qed.
End G.
