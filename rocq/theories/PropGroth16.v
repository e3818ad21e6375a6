(* PropGroth16.v -- properties C33-C36 and C39: the SNARK proof attached to a ciphertext *)
From Coq Require Import Permutation.
From Verif Require Import Base BaseFacts Algebra Utils UtilsFacts Setup Commitment CommitmentFacts Keygen KeygenFacts Encryption EncryptFacts
  DecryptFacts RoundTrip VerifyFacts Spec KeySpec VecFacts Protocol ReencFacts DistFacts PropVerify Circuit CircuitFacts CircuitSat
  Groth16 ArkGroth16 PolyFacts Groth16Spec ArkFacts Groth16Facts.

(* A structured reference string some run of generate_srs returned. *)
Definition from_srs {E} (B : groth16_backend E) (circ : synthesizer E) (gens : encryption_gens E) (pk : proving_key E) : Prop :=
  exists (R : rng_impl E) (st st' : rng_st R), generate_srs B R circ gens st = Ok (pk, st').

(* The public inputs a ciphertext with chunks m stands for: the chunks, 0 for positions the ciphertext does not have. *)
Definition inputs_of {E : pairing} (m : list Z) (positions : nat) : list (Fr E) :=
  map of_Z m ++ repeat fzero (positions - length m).

(* The proof that verify_proof expects for a Groth16 proof p and encryption randomness r. *)
Definition blinded {E} (p : proof E) (r : Fr E) (ek : encryption_key E) : proof E :=
  Proof (pr_a p) (pr_b p) (pr_c p [+] (r [*] ek_P_2 ek)).

Section C33.
Context {E : pairing}.
Add Ring Kr' : (@scalar_ring_theory (K_of E)).

Lemma exact_any_key (B : groth16_backend E) circ gens pk g_i b ek m c_0 c psi r p : backend_correct B -> from_srs B circ gens pk ->
  let vk := gpk_vk (pk_pk pk) in
  get_gs_for_encryption vk = Ok g_i -> honest_key b gens g_i (gpk_delta_g1 (pk_pk pk)) (pk_gamma_g1 pk) ek ->
  encrypts ek g_i m (c_0 :: c ++ [psi]) r ->
  let res := verify_proof (prepare_verifying_key vk) (blinded p r ek) (Ciphertext c_0 c psi) in
  (res = Ok tt <-> groth16_accepts vk (inputs_of m (length g_i)) p) /\ (res = Ok tt \/ res = Err PairingCheckFailed).
Proof.
  intros HB (R & st & st' & Hs) vk Hg Hk He. apply generate_srs_ok in Hs; [|exact HB]. destruct Hs as [Hs _].
  exact (verify_proof_exact b gens pk g_i ek m c_0 c psi r p Hs Hg Hk He).
Qed.

Lemma unblind (q : proof E) r ek : blinded (Proof (pr_a q) (pr_b q) (pr_c q [+] [-] (r [*] ek_P_2 ek))) r ek = q.
Proof. destruct q as [a b c]. unfold blinded. cbn [pr_a pr_b pr_c]. f_equal. rewrite <- gadd_assoc, gadd_neg_l, gadd_0_r. reflexivity. Qed.

Lemma create_proof_inv (B : groth16_backend E) R circ r pk ek st q st' : create_proof B R circ r pk ek st = Ok (q, st') ->
  exists t s p, create_proof_with_reduction B circ (pk_pk pk) t s = Ok p /\ q = blinded p r ek.
Proof.
  unfold create_proof. destruct (rand_scalar R st) as [t st1]. destruct (rand_scalar R st1) as [s st2]. intros H.
  apply bind_Ok_inv in H. destruct H as (p & Hp & H). injection H as <- _. exists t, s, p. split; [exact Hp|].
  reflexivity.
Qed.
Lemma blind_shift (p : proof E) r r' ek :
  blinded p r' ek = blinded (Proof (pr_a p) (pr_b p) (pr_c p [+] (fsub r' r [*] ek_P_2 ek))) r ek.
Proof. unfold blinded. cbn [pr_a pr_b pr_c]. f_equal. glin. Qed.
Lemma gsum_moved (x y d : G1 E) pre mid post :
  gsum (pre ++ (x [+] d) :: mid ++ (y [+] [-] d) :: post) = gsum (pre ++ x :: mid ++ y :: post).
Proof. rewrite !gsum_app, !gsum_cons, !gsum_app, !gsum_cons. glin. Qed.
Lemma fsub_diag (a : Fr E) : fsub a a = fzero.
Proof. ring. Qed.
Lemma dot_app_l (t : list (Fr E)) (l1 l2 : list (G1 E)) : dot t (l1 ++ l2) = dot t l1 [+] dot (skipn (length l1) t) l2.
Proof.
  revert t; induction l1 as [|x l1 IH]; intros t; cbn [app length skipn].
  - replace (dot t (@nil (G1 E))) with (@gzero _ (G1 E)) by (destruct t; reflexivity). rewrite gadd_0_l. reflexivity.
  - destruct t as [|a t]; cbn [dot skipn]; [rewrite gadd_0_l; reflexivity|]. rewrite IH, gadd_assoc. reflexivity.
Qed.
Lemma dot_skip_cons (t : list (Fr E)) k x (l : list (G1 E)) : (k < length t)%nat ->
  dot (skipn k t) (x :: l) = (nth k t fzero [*] x) [+] dot (skipn (S k) t) l.
Proof.
  revert t; induction k as [|k IH]; intros [|a t] Hk; cbn [length] in Hk; try lia; [reflexivity|]. cbn [skipn nth]. rewrite IH by lia. reflexivity.
Qed.
Lemma dot_moved (t : list (Fr E)) (x y d : G1 E) pre mid post : (length pre + S (length mid) < length t)%nat ->
  dot t (pre ++ (x [+] d) :: mid ++ (y [+] [-] d) :: post) =
  dot t (pre ++ x :: mid ++ y :: post) [+] (fsub (nth (length pre) t fzero) (nth (length pre + S (length mid)) t fzero) [*] d).
Proof.
  intros Hl. rewrite !dot_app_l, !dot_skip_cons by lia. rewrite !dot_app_l.
  assert (Sk : forall k, skipn (length mid) (skipn k t) = skipn (k + length mid) t).
  { intros k. clear. revert k; induction t as [|a t IH]; intros k; [rewrite !skipn_nil; reflexivity|]. destruct k as [|k]; [reflexivity|]. cbn [skipn]. apply IH. }
  rewrite Sk. replace (S (length pre) + length mid)%nat with (length pre + S (length mid))%nat by lia. rewrite !dot_skip_cons by lia. glin.
Qed.
End C33.

(* ===== C33 ===== *)
(* For every Groth16 proof p, valid or not: p blinded with the randomness of the ciphertext is accepted exactly when p
   verifies for the chunks of the ciphertext; otherwise the answer is PairingCheckFailed. *)
Theorem C33_proof_verification_is_groth16 :
  forall (E : pairing) (B : groth16_backend E) circ gens pk g_i b sk ek dk m c_0 c psi r p,
  backend_correct B -> from_srs B circ gens pk -> get_gs_for_encryption (gpk_vk (pk_pk pk)) = Ok g_i ->
  from_keygen b gens g_i (gpk_delta_g1 (pk_pk pk)) (pk_gamma_g1 pk) sk ek dk -> encrypts ek g_i m (c_0 :: c ++ [psi]) r ->
  let res := verify_proof (prepare_verifying_key (gpk_vk (pk_pk pk))) (blinded p r ek) (Ciphertext c_0 c psi) in
  (res = Ok tt <-> groth16_accepts (gpk_vk (pk_pk pk)) (inputs_of m (length g_i)) p) /\ (res = Ok tt \/ res = Err PairingCheckFailed).
Proof.
  intros E B circ gens pk g_i b sk ek dk m c_0 c psi r p HB Hs Hg Hk He.
  apply (exact_any_key B circ gens pk g_i b ek m c_0 c psi r p HB Hs Hg); [left; exists sk, dk; exact Hk|exact He].
Qed.
(* What create_proof returns is the Groth16 proof for its circuit, blinded with its argument r, and nothing else. *)
Theorem C33_created_proof :
  forall (E : pairing) (B : groth16_backend E) circ gens pk g_i b sk ek dk m c_0 c psi r circ' (R : rng_impl E) st q st',
  backend_correct B -> from_srs B circ gens pk -> get_gs_for_encryption (gpk_vk (pk_pk pk)) = Ok g_i ->
  from_keygen b gens g_i (gpk_delta_g1 (pk_pk pk)) (pk_gamma_g1 pk) sk ek dk -> encrypts ek g_i m (c_0 :: c ++ [psi]) r ->
  create_proof B R circ' r pk ek st = Ok (q, st') ->
  exists t s p, create_proof_with_reduction B circ' (pk_pk pk) t s = Ok p /\
    (verify_proof (prepare_verifying_key (gpk_vk (pk_pk pk))) q (Ciphertext c_0 c psi) = Ok tt <->
     groth16_accepts (gpk_vk (pk_pk pk)) (inputs_of m (length g_i)) p).
Proof.
  intros E B circ gens pk g_i b sk ek dk m c_0 c psi r circ' R st q st' HB Hs Hg Hk He Hc. apply create_proof_inv in Hc.
  destruct Hc as (t & s & p & Hp & ->). exists t, s, p. split; [exact Hp|].
  exact (proj1 (C33_proof_verification_is_groth16 E B circ gens pk g_i b sk ek dk m c_0 c psi r p HB Hs Hg Hk He)).
Qed.
(* Soundness direction: any proof whatsoever that verify_proof accepts contains a Groth16 proof for the chunks. *)
Theorem C33_accepted_proof_contains_groth16_proof :
  forall (E : pairing) (B : groth16_backend E) circ gens pk g_i b sk ek dk m c_0 c psi r (q : proof E),
  backend_correct B -> from_srs B circ gens pk -> get_gs_for_encryption (gpk_vk (pk_pk pk)) = Ok g_i ->
  from_keygen b gens g_i (gpk_delta_g1 (pk_pk pk)) (pk_gamma_g1 pk) sk ek dk -> encrypts ek g_i m (c_0 :: c ++ [psi]) r ->
  verify_proof (prepare_verifying_key (gpk_vk (pk_pk pk))) q (Ciphertext c_0 c psi) = Ok tt ->
  exists p, q = blinded p r ek /\ groth16_accepts (gpk_vk (pk_pk pk)) (inputs_of m (length g_i)) p.
Proof.
  intros E B circ gens pk g_i b sk ek dk m c_0 c psi r q HB Hs Hg Hk He Hv. eexists. split; [symmetry; apply unblind|].
  apply (C33_proof_verification_is_groth16 E B circ gens pk g_i b sk ek dk m c_0 c psi r _ HB Hs Hg Hk He). cbn beta zeta. rewrite unblind. exact Hv.
Qed.
(* A proof blinded with other randomness than the ciphertext's is rejected. *)
Theorem C33_other_randomness_rejected :
  forall (E : pairing) (B : groth16_backend E) circ gens pk g_i b sk ek dk m c_0 c psi r r' p,
  backend_correct B -> from_srs B circ gens pk -> get_gs_for_encryption (gpk_vk (pk_pk pk)) = Ok g_i ->
  from_keygen b gens g_i (gpk_delta_g1 (pk_pk pk)) (pk_gamma_g1 pk) sk ek dk -> encrypts ek g_i m (c_0 :: c ++ [psi]) r ->
  groth16_accepts (gpk_vk (pk_pk pk)) (inputs_of m (length g_i)) p ->
  eg_H gens <> gzero -> ek_P_2 ek <> gzero -> r <> r' ->
  verify_proof (prepare_verifying_key (gpk_vk (pk_pk pk))) (blinded p r' ek) (Ciphertext c_0 c psi) = Err PairingCheckFailed.
Proof.
  intros E B circ gens pk g_i b sk ek dk m c_0 c psi r r' p HB Hs Hg Hk He Hp HH HP Hr.
  set (p' := Proof (pr_a p) (pr_b p) (pr_c p [+] (fsub r' r [*] ek_P_2 ek))).
  assert (Eq : blinded p r' ek = blinded p' r ek).
  { apply blind_shift. }
  rewrite Eq. destruct (C33_proof_verification_is_groth16 E B circ gens pk g_i b sk ek dk m c_0 c psi r p' HB Hs Hg Hk He) as [I [V|V]]; [|exact V].
  exfalso. apply I in V. destruct V as [_ V]. destruct Hp as [_ Hp]. unfold p' in V. cbn [pr_a pr_b pr_c] in V. rewrite Hp in V.
  destruct Hs as (R & st & st' & Hs). apply generate_srs_ok in Hs; [|exact HB]. destruct Hs as [(ga & de & _ & Hd & _ & Hdel & _) _].
  rewrite pair_add_l, !gadd_assoc in V.
  assert (Z : pair (fsub r' r [*] ek_P_2 ek) (prep (vk_delta_g2 (gpk_vk (pk_pk pk)))) = gzero).
  { apply (gadd_cancel_l (pair (vk_alpha_g1 (gpk_vk (pk_pk pk))) (prep (vk_beta_g2 (gpk_vk (pk_pk pk))))
      [+] pair (dot (fone :: inputs_of m (length g_i)) (vk_gamma_abc_g1 (gpk_vk (pk_pk pk)))) (prep (vk_gamma_g2 (gpk_vk (pk_pk pk))))
      [+] pair (pr_c p) (prep (vk_delta_g2 (gpk_vk (pk_pk pk)))))). rewrite gadd_0_r. symmetry. exact V. }
  rewrite Hdel, pair_smul_r, pair_smul_l in Z.
  apply smul_eq_zero in Z. destruct Z as [Z|Z]; [contradiction|]. apply smul_eq_zero in Z. destruct Z as [Z|Z]; [apply Hr; apply fsub_zero_eq in Z; congruence|].
  apply pair_nondeg in Z. destruct Z; contradiction.
Qed.

(* ===== C34 ===== *)
Theorem C34_distributed_key_proof_verification_is_groth16 :
  forall (E : pairing) (B : groth16_backend E) circ gens pk g_i b parties ek m c_0 c psi r p,
  backend_correct B -> from_srs B circ gens pk -> get_gs_for_encryption (gpk_vk (pk_pk pk)) = Ok g_i ->
  from_dkg b gens g_i (gpk_delta_g1 (pk_pk pk)) (pk_gamma_g1 pk) parties ek -> encrypts ek g_i m (c_0 :: c ++ [psi]) r ->
  let res := verify_proof (prepare_verifying_key (gpk_vk (pk_pk pk))) (blinded p r ek) (Ciphertext c_0 c psi) in
  (res = Ok tt <-> groth16_accepts (gpk_vk (pk_pk pk)) (inputs_of m (length g_i)) p) /\ (res = Ok tt \/ res = Err PairingCheckFailed).
Proof.
  intros E B circ gens pk g_i b parties ek m c_0 c psi r p HB Hs Hg Hk He.
  apply (exact_any_key B circ gens pk g_i b ek m c_0 c psi r p HB Hs Hg); [right; exists parties; exact Hk|exact He].
Qed.
Theorem C34_distributed_key_created_proof :
  forall (E : pairing) (B : groth16_backend E) circ gens pk g_i b parties ek m c_0 c psi r circ' (R : rng_impl E) st q st',
  backend_correct B -> from_srs B circ gens pk -> get_gs_for_encryption (gpk_vk (pk_pk pk)) = Ok g_i ->
  from_dkg b gens g_i (gpk_delta_g1 (pk_pk pk)) (pk_gamma_g1 pk) parties ek -> encrypts ek g_i m (c_0 :: c ++ [psi]) r ->
  create_proof B R circ' r pk ek st = Ok (q, st') ->
  exists t s p, create_proof_with_reduction B circ' (pk_pk pk) t s = Ok p /\
    (verify_proof (prepare_verifying_key (gpk_vk (pk_pk pk))) q (Ciphertext c_0 c psi) = Ok tt <->
     groth16_accepts (gpk_vk (pk_pk pk)) (inputs_of m (length g_i)) p).
Proof.
  intros E B circ gens pk g_i b parties ek m c_0 c psi r circ' R st q st' HB Hs Hg Hk He Hc. apply create_proof_inv in Hc.
  destruct Hc as (t & s & p & Hp & ->). exists t, s, p. split; [exact Hp|].
  exact (proj1 (C34_distributed_key_proof_verification_is_groth16 E B circ gens pk g_i b parties ek m c_0 c psi r p HB Hs Hg Hk He)).
Qed.

(* ===== C35 ===== *)
(* for every verifying key (with at least one W), proof and ciphertexts -- honest or not *)
Theorem C35_verify_proof_sees_only_the_sum :
  forall (E : pairing) (pvk : prepared_verifying_key E) (p : proof E) (ct ct' : ciphertext E),
  ct_X_r ct [+] gsum (ct_enc_chunks ct) = ct_X_r ct' [+] gsum (ct_enc_chunks ct') ->
  verify_proof pvk p ct = verify_proof pvk p ct'.
Proof.
  intros E pvk p ct ct' H. unfold verify_proof, calculate_d. rewrite !fold_left_gadd, H. reflexivity.
Qed.
Theorem C35_rearranged_chunks_pass :
  forall (E : pairing) (pvk : prepared_verifying_key E) (p : proof E) (ct ct' : ciphertext E),
  Permutation (ct_X_r ct :: ct_enc_chunks ct) (ct_X_r ct' :: ct_enc_chunks ct') ->
  verify_proof pvk p ct' = verify_proof pvk p ct.
Proof.
  intros E pvk p ct ct' H. symmetry. apply C35_verify_proof_sees_only_the_sum. rewrite <- !gsum_cons.
  induction H as [|x l l' _ IH|x y l|l l' l'' _ IH1 _ IH2]; [reflexivity| | |congruence].
  - rewrite !gsum_cons, IH. reflexivity.
  - rewrite !gsum_cons, !gadd_assoc, (gadd_comm y x). reflexivity.
Qed.
Theorem C35_redistributed_chunks_pass :
  forall (E : pairing) (pvk : prepared_verifying_key E) (p : proof E) (c_0 x y d psi : G1 E) pre mid post,
  verify_proof pvk p (Ciphertext c_0 (pre ++ (x [+] d) :: mid ++ (y [+] [-] d) :: post) psi) =
  verify_proof pvk p (Ciphertext c_0 (pre ++ x :: mid ++ y :: post) psi).
Proof.
  intros E pvk p c_0 x y d psi pre mid post. apply C35_verify_proof_sees_only_the_sum. cbn [ct_X_r ct_enc_chunks]. f_equal.
  apply gsum_moved.
Qed.
(* ...and the combined check accepts a redistribution of an accepted ciphertext exactly when the t-weighted sum is
   unchanged; otherwise the answer is InvalidCommitment. *)
Theorem C35_combined_check_sees_the_weighted_sum :
  forall (E : pairing) b gens g_i delta gamma (ek : encryption_key E) (vk : verifying_key E) p c_0 c c_0' c' psi,
  honest_key b gens g_i delta gamma ek -> eg_H gens <> gzero ->
  exists t0 t, ek_Z ek = map (fun x => x [*] eg_H gens) (t0 :: t) /\ length t = length (ek_X ek) /\
  (verify_commitment_and_proof (Ciphertext c_0 c psi) p (prepare_verifying_key vk) (prepare_ek ek) (prepare_gens gens) = Ok tt ->
   length c' = length c -> c_0' [+] gsum c' = c_0 [+] gsum c ->
   let res := verify_commitment_and_proof (Ciphertext c_0' c' psi) p (prepare_verifying_key vk) (prepare_ek ek) (prepare_gens gens) in
   (res = Ok tt <-> (t0 [*] c_0') [+] dot t c' = (t0 [*] c_0) [+] dot t c) /\
   (res = Ok tt \/ res = Err InvalidCommitment)).
Proof.
  intros E b gens g_i delta gamma ek vk p c_0 c c_0' c' psi Hk HH.
  destruct (C20_verification_exact E b gens g_i delta gamma ek Hk HH) as (t0 & t & HZ & Ht & X). exists t0, t. split; [exact HZ|]. split; [exact Ht|].
  intros Hv Hl Hsum. cbv zeta. unfold verify_commitment_and_proof in *. unfold verify_commitment in *. cbn [ct_X_r ct_enc_chunks ct_commitment] in *.
  destruct (X c_0 c psi) as (I & _ & _). destruct (X c_0' c' psi) as (I' & N' & _).
  destruct (verify_ciphertext_commitment c_0 c psi (prepare_ek ek) (prepare_gens gens)) as [[]|e|] eqn:Ev; cbn [bind] in Hv; try discriminate.
  destruct (proj1 I eq_refl) as [Lc Hpsi]. 
  rewrite (C35_verify_proof_sees_only_the_sum E (prepare_verifying_key vk) p (Ciphertext c_0' c' psi) (Ciphertext c_0 c psi) Hsum), Hv.
  destruct (geqb psi ((t0 [*] c_0') [+] dot t c')) eqn:Eq.
  - apply geqb_spec in Eq. rewrite (proj2 I') by (split; [lia|exact Eq]). cbn [bind]. split; [|left; reflexivity]. split; [|reflexivity].
    intros _. rewrite <- Eq. exact Hpsi.
  - apply geqb_false in Eq. rewrite N' by (try lia; exact Eq). cbn [bind]. split; [|right; reflexivity]. split; [discriminate|].
    intros H. exfalso. apply Eq. rewrite H. exact Hpsi.
Qed.
(* In public terms: moving d from one chunk to another is noticed exactly when d and the difference of the two public Z
   are not the identity. *)
Theorem C35_redistribution_detected_exactly :
  forall (E : pairing) b gens g_i delta gamma (ek : encryption_key E) (vk : verifying_key E) p (c_0 x y d psi : G1 E) pre mid post,
  honest_key b gens g_i delta gamma ek -> eg_H gens <> gzero ->
  verify_commitment_and_proof (Ciphertext c_0 (pre ++ x :: mid ++ y :: post) psi) p (prepare_verifying_key vk) (prepare_ek ek) (prepare_gens gens) = Ok tt ->
  let ct' := Ciphertext c_0 (pre ++ (x [+] d) :: mid ++ (y [+] [-] d) :: post) psi in
  let res := verify_commitment_and_proof ct' p (prepare_verifying_key vk) (prepare_ek ek) (prepare_gens gens) in
  verify_proof (prepare_verifying_key vk) p ct' = Ok tt /\
  (res = Ok tt <-> d = gzero \/ nth (S (length pre)) (ek_Z ek) gzero = nth (S (length pre + S (length mid))) (ek_Z ek) gzero) /\
  (res = Ok tt \/ res = Err InvalidCommitment).
Proof.
  intros E b gens g_i delta gamma ek vk p c_0 x y d psi pre mid post Hk HH Hv ct' res. split.
  { unfold ct'. rewrite C35_redistributed_chunks_pass. unfold verify_commitment_and_proof in Hv. destruct (verify_commitment _ _ _); cbn [bind] in Hv; try discriminate. exact Hv. }
  destruct (C35_combined_check_sees_the_weighted_sum E b gens g_i delta gamma ek vk p c_0 (pre ++ x :: mid ++ y :: post)
    c_0 (pre ++ (x [+] d) :: mid ++ (y [+] [-] d) :: post) psi Hk HH) as (t0 & t & HZ & Ht & X).
  destruct (X Hv) as [I O]; [rewrite !app_length; cbn [length]; rewrite !app_length; reflexivity|f_equal; apply gsum_moved|].
  split; [|exact O]. fold ct' in I. fold res in I. rewrite I, HZ.
  assert (Hl : (length pre + S (length mid) < length t)%nat).
  { unfold verify_commitment_and_proof in Hv. destruct (verify_commitment _ _ _) as [[]|e|] eqn:Ev; cbn [bind] in Hv; try discriminate.
    destruct (C20_verification_exact E b gens g_i delta gamma ek Hk HH) as (t0' & t' & _ & _ & Y). apply Y in Ev. destruct Ev as [Lc _].
    cbn [ct_enc_chunks] in Lc. rewrite !app_length in Lc. cbn [length] in Lc. rewrite !app_length in Lc. cbn [length] in Lc. lia. }
  assert (Nth : forall k, (k < length t)%nat -> nth (S k) (map (fun a => a [*] eg_H gens) (t0 :: t)) gzero = nth k t fzero [*] eg_H gens).
  { intros k Hk'. cbn [map nth]. rewrite (nth_indep _ gzero (fzero [*] eg_H gens)) by (rewrite map_length; exact Hk'). apply (map_nth (fun a => a [*] eg_H gens)). }
  rewrite dot_moved by exact Hl. rewrite !Nth by lia. split.
  - intros H. rewrite gadd_assoc in H.
    assert (Z : fsub (nth (length pre) t fzero) (nth (length pre + S (length mid)) t fzero) [*] d = gzero).
    { apply (gadd_cancel_l ((t0 [*] c_0) [+] dot t (pre ++ x :: mid ++ y :: post))). rewrite gadd_0_r. exact H. }
    apply smul_eq_zero in Z. destruct Z as [Z|Z]; [right|left; exact Z]. apply fsub_zero_eq in Z. rewrite Z. reflexivity.
  - intros H. rewrite gadd_assoc. match goal with |- ?a [+] ?z = ?a => replace z with (@gzero _ (G1 E)); [apply gadd_0_r|] end. symmetry.
    destruct H as [->|H]; [apply smul_0_r|]. apply smul_inj_scalar in H; [|exact HH]. rewrite H.
    replace (fsub _ _) with (@fzero (K_of E)); [apply smul_0_l|]. symmetry. apply fsub_diag.
Qed.

(* ===== C36 ===== *)
Theorem C36_combined_check_is_conjunction :
  forall (E : pairing) (ct : ciphertext E) p pvk pek pgens,
  let both := verify_commitment_and_proof ct p pvk pek pgens in
  (both = Ok tt <-> verify_commitment ct pek pgens = Ok tt /\ verify_proof pvk p ct = Ok tt) /\
  (forall e, verify_commitment ct pek pgens = Err e -> both = Err e) /\
  (verify_commitment ct pek pgens = Panic -> both = Panic) /\
  (verify_commitment ct pek pgens = Ok tt -> both = verify_proof pvk p ct).
Proof.
  intros E ct p pvk pek pgens both. unfold both, verify_commitment_and_proof.
  destruct (verify_commitment ct pek pgens) as [[]|e|]; cbn [bind]; (split; [|split; [|split]]);
    try (split; [discriminate|intros [? _]; discriminate]); try reflexivity; try discriminate; try congruence; intuition congruence.
Qed.
(* all the outcomes of proof verification: a panic exactly when the verifying key has no W at all *)
Theorem C36_verify_proof_outcomes :
  forall (E : pairing) (vk : verifying_key E) p (ct : ciphertext E),
  let r := verify_proof (prepare_verifying_key vk) p ct in
  (r = Panic <-> vk_gamma_abc_g1 vk = []) /\ (vk_gamma_abc_g1 vk <> [] -> r = Ok tt \/ r = Err PairingCheckFailed).
Proof.
  intros E vk p ct r. unfold r. destruct (vk_gamma_abc_g1 vk) as [|w0 ws] eqn:Ew.
  - assert (P : verify_proof (prepare_verifying_key vk) p ct = Panic) by (unfold verify_proof, calculate_d; cbn [prepare_verifying_key pvk_vk]; rewrite Ew; reflexivity).
    rewrite P. split; [split; reflexivity|]. intros H. contradiction.
  - rewrite (verify_proof_unfold vk p ct w0 ws Ew). destruct (geqb _ _); (split; [split; discriminate|]); auto.
Qed.

(* ===== C39 ===== *)
Lemma bits_ge {K : prime_field} b : 0 <= b -> 2 ^ b <= modulus K -> b <= modulus_bit_size K.
Proof. intros Hb H. unfold modulus_bit_size. pose proof (Z.log2_le_pow2 (modulus K) b ltac:(pose proof (Z.pow_pos_nonneg 2 b); lia)). lia. Qed.

Lemma with_proof_any_key (pf : profile) (E : pairing) (B : groth16_backend E) (R : rng_impl E) b circ gens pk g_i ek (msg : Fr E) st :
  backend_correct B -> supported b -> 2 ^ b <= modulus (K_of E) -> chunk_compatible (K_of E) b ->
  circuit_new b None None true = Ok circ -> from_srs B (generate_constraints circ) gens pk ->
  get_gs_for_encryption (gpk_vk (pk_pk pk)) = Ok g_i -> honest_key b gens g_i (gpk_delta_g1 (pk_pk pk)) (pk_gamma_g1 pk) ek ->
  exists ct r p st1 st2, encrypt_with_proof pf B R msg ek pk b st = Ok (ct, r, p, st2) /\
    encrypt pf R msg ek g_i b st = Ok (ct, r, st1) /\
    verify_commitment_and_proof ct p (prepare_verifying_key (gpk_vk (pk_pk pk))) (prepare_ek ek) (prepare_gens gens) = Ok tt.
Proof.
  intros HB Hb HM Hc Hcirc Hs Hg Hk.
  pose proof Hk as Hk'. apply honest_key_inv in Hk'. destruct Hk' as (n & s & t0 & t & Hn & Hgl & Hlt & Hls & Hlt' & Hek).
  destruct (decompose_spec pf (K_of E) msg b Hb) as (ds & Hd & Hdr & Hdv & Hdl).
  destruct (compatible_count pf b msg ds Hb Hc Hd) as [Hcnt Hpos].
  assert (Hdn : length ds = n). { rewrite Hn in Hcnt. assert (A : Z.of_nat n = Z.of_nat (length ds)) by congruence. lia. }
  destruct (ek_formula_lengths gens g_i (gpk_delta_g1 (pk_pk pk)) (pk_gamma_g1 pk) s t0 t n Hls Hlt' Hgl) as (HX & HY & HZ). cbv zeta in HX, HY, HZ.
  rewrite <- Hek in HX, HY, HZ.
  pose proof (encrypt_chunks_ok R ds ek g_i st ltac:(lia) ltac:(lia) ltac:(lia) ltac:(lia) ltac:(lia)) as He.
  destruct (rand_scalar R st) as [r st1] eqn:Er. cbn [fst snd] in He. set (ct := ct_formula ek g_i ds r) in *.
  assert (Henc : encrypt pf R msg ek g_i b st = Ok (ct, r, st1)).
  { unfold encrypt. rewrite Hd. cbn [bind]. rewrite He. cbn [bind]. rewrite ct_of_vec_ct_vec. reflexivity. }
  (* the circuit *)
  unfold circuit_new in Hcirc. rewrite Hn in Hcirc. cbn [bind] in Hcirc. injection Hcirc as <-.
  destruct Hs as (R0 & sa & sb & Hsrs). pose proof Hsrs as Hsrs'. unfold generate_srs in Hsrs'.
  destruct (rand_scalar R0 sa) as [alpha s1]. destruct (rand_scalar R0 s1) as [beta s2]. destruct (rand_scalar R0 s2) as [gamma s3].
  destruct (rand_scalar R0 s3) as [delta s4]. apply bind_Ok_inv in Hsrs'. destruct Hsrs' as ([gpk s5] & Hgen & Hpk). injection Hpk as <- _.
  cbn [pk_pk pk_gamma_g1] in *.
  destruct (generate_srs_ok B R0 _ gens sa _ _ HB Hsrs) as [_ (cs & Hcs & Hlen)]. cbn [pk_pk] in Hlen.
  assert (Hbits : 0 <= b <= modulus_bit_size (K_of E)) by (split; [destruct Hb as [->|[->| ->]]; lia|apply bits_ge; [destruct Hb as [->|[->| ->]]; lia|exact HM]]).
  set (vs := map (fun m => @of_Z (K_of E) m) ds).
  assert (Hvs : Forall (fun v : Fr E => into_bigint v < 2 ^ b) vs).
  { unfold vs. rewrite Forall_map. eapply Forall_impl; [|exact Hdr]. intros z Hz. cbn beta in *. unfold into_bigint. rewrite sval_of_Z.
    rewrite Z.mod_small; [apply Hz|]. destruct Hz; split; [assumption|]. eapply Z.lt_le_trans; [eassumption|exact HM]. }
  destruct (bitsize_satisfied b (Z.of_nat n) vs Hbits) with (s := cs) as [Hni Hsat]; [unfold vs; rewrite map_length; lia|exact Hvs|exact Hcs|].
  destruct (Hsat (Z.of_nat n)) as (sp & Hsp & Hinst).
  destruct (rand_scalar R st1) as [r1 st2] eqn:D1. destruct (rand_scalar R st2) as [r2 st3] eqn:D2.
  destruct (proofs_accepted B HB _ _ _ _ _ _ _ _ _ _ _ _ _ _ _ r1 r2 Hgen Hcs Hsp Hinst) as (p & Hp & Hacc).
  exists ct, r, (blinded p r ek), st1, st3. split; [|split; [exact Henc|]].
  { unfold encrypt_with_proof. cbn [pk_pk]. rewrite Hg. cbn [bind]. rewrite Henc. cbn [bind]. rewrite Hd. cbn [bind].
    unfold circuit_new. rewrite Hn. cbn [bind]. fold vs. unfold create_proof. cbn [pk_pk]. rewrite D1, D2, Hp. reflexivity. }
  assert (Henc' : encrypts ek g_i ds (ct_X_r ct :: ct_enc_chunks ct ++ [ct_commitment ct]) r) by (exists R, st, st1; exact He).
  unfold verify_commitment_and_proof.
  rewrite (C19_honest_message_ciphertexts_verify pf E R b b gens g_i _ _ ek msg st ct r st1 Hk Henc). cbn [bind].
  pose proof (exact_any_key B (generate_constraints (BitsizeCheckCircuit b (Z.of_nat n) None true)) gens (ProvingKey gpk (mul_bigint (eg_G gens) (into_bigint (fneg gamma)))) g_i b ek ds (ct_X_r ct) (ct_enc_chunks ct) (ct_commitment ct) r p HB) as X.
  destruct X as [X _]; [exists R0, sa, sb; exact Hsrs|exact Hg|exact Hk|exact Henc'|]. cbn [pk_pk] in X.
  replace (Ciphertext (ct_X_r ct) (ct_enc_chunks ct) (ct_commitment ct)) with ct in X by (destruct ct; reflexivity).
  apply X. unfold inputs_of.
  assert (Hgn : length g_i = length ds).
  { unfold get_gs_for_encryption, slice_from in Hg. destruct (Nat.leb_spec 1 (length (vk_gamma_abc_g1 (gpk_vk gpk)))); [|discriminate].
    assert (A : skipn 1 (vk_gamma_abc_g1 (gpk_vk gpk)) = g_i) by congruence. rewrite <- A, skipn_length, Hlen, Hni. unfold vs. rewrite map_length. lia. }
  rewrite Hgn, Nat.sub_diag. cbn [repeat]. rewrite app_nil_r. exact Hacc.
Qed.

(* After setup_for_groth16, for every message and every state of the generator: encryption with proof succeeds, the
   ciphertext and proof pass the combined check, and the ciphertext decrypts to the message. *)
Theorem C39_end_to_end :
  forall (pf pf' : profile) (E : pairing) (B : groth16_backend E) (R R' : rng_impl E) b gens st0 pk sk ek dk st0' (msg : Fr E) (st : rng_st R'),
  backend_correct B -> supported b -> 2 ^ b <= modulus (K_of E) ->
  64 * Z.of_nat (limbs (K_of E)) - b < modulus_bit_size (K_of E) -> 64 * Z.of_nat (limbs (K_of E)) < 256 * b ->
  setup_for_groth16 B R b gens st0 = Ok (pk, sk, ek, dk, st0') ->
  nondegenerate dk (skipn 1 (vk_gamma_abc_g1 (gpk_vk (pk_pk pk)))) (length (dk_V_2 dk)) ->
  exists ct r p st', encrypt_with_proof pf B R' msg ek pk b st = Ok (ct, r, p, st') /\
    verify_commitment_and_proof ct p (prepare_verifying_key (gpk_vk (pk_pk pk))) (prepare_ek ek) (prepare_gens gens) = Ok tt /\
    exists nu, ct_decrypt_given_groth16_vk pf' ct sk (prepare_dk dk) (gpk_vk (pk_pk pk)) b = Ok (msg, nu).
Proof.
  intros pf pf' E B R R' b gens st0 pk sk ek dk st0' msg st HB Hb HM H1 H2 Hset Hnd.
  unfold setup_for_groth16 in Hset. apply bind_Ok_inv in Hset. destruct Hset as (circ & Hcirc & Hset).
  apply bind_Ok_inv in Hset. destruct Hset as ([pk0 st1] & Hsrs & Hset). apply bind_Ok_inv in Hset. destruct Hset as (g_i & Hg & Hset).
  apply bind_Ok_inv in Hset. destruct Hset as ([[[sk0 ek0] dk0] st2] & Hk & Hset). injection Hset as <- <- <- <- _.
  assert (Hk' : from_keygen b gens g_i (gpk_delta_g1 (pk_pk pk0)) (pk_gamma_g1 pk0) sk0 ek0 dk0) by (exists R, st1, st2; exact Hk).
  assert (Hgi : skipn 1 (vk_gamma_abc_g1 (gpk_vk (pk_pk pk0))) = g_i).
  { unfold get_gs_for_encryption, slice_from in Hg. destruct (Nat.leb 1 _); [|discriminate]. congruence. }
  rewrite Hgi in Hnd.
  destruct (with_proof_any_key pf E B R' b circ gens pk0 g_i ek0 msg st HB Hb HM (conj H1 H2) Hcirc) as (ct & r & p & sa & sb & Hwp & Henc & Hv);
    [exists R, st0, st1; exact Hsrs|exact Hg|left; exists sk0, dk0; exact Hk'|].
  exists ct, r, p, sb. split; [exact Hwp|]. split; [exact Hv|].
  exists (sk0 [*] ct_X_r ct). unfold ct_decrypt_given_groth16_vk. rewrite Hg. cbn [bind].
  exact (message_round_trip pf pf' R' b gens g_i _ _ sk0 ek0 dk0 msg st ct r sa Hk' Hnd Hb HM Henc).
Qed.
(* the same for a key made by the distributed key generation on that SRS *)
Theorem C34_distributed_end_to_end :
  forall (pf : profile) (E : pairing) (B : groth16_backend E) (R : rng_impl E) b circ gens pk g_i parties ek (msg : Fr E) (st : rng_st R),
  backend_correct B -> supported b -> 2 ^ b <= modulus (K_of E) ->
  64 * Z.of_nat (limbs (K_of E)) - b < modulus_bit_size (K_of E) -> 64 * Z.of_nat (limbs (K_of E)) < 256 * b ->
  circuit_new b None None true = Ok circ -> from_srs B (generate_constraints circ) gens pk ->
  get_gs_for_encryption (gpk_vk (pk_pk pk)) = Ok g_i -> from_dkg b gens g_i (gpk_delta_g1 (pk_pk pk)) (pk_gamma_g1 pk) parties ek ->
  exists ct r p st', encrypt_with_proof pf B R msg ek pk b st = Ok (ct, r, p, st') /\
    verify_commitment_and_proof ct p (prepare_verifying_key (gpk_vk (pk_pk pk))) (prepare_ek ek) (prepare_gens gens) = Ok tt.
Proof.
  intros pf E B R b circ gens pk g_i parties ek msg st HB Hb HM H1 H2 Hcirc Hs Hg Hk.
  destruct (with_proof_any_key pf E B R b circ gens pk g_i ek msg st HB Hb HM (conj H1 H2) Hcirc Hs Hg) as (ct & r & p & sa & sb & Hwp & _ & Hv);
    [right; exists parties; exact Hk|]. exists ct, r, p, sb. split; [exact Hwp|exact Hv].
Qed.
(* the transcription of ark-groth16 0.4 is such a backend, over any evaluation domain and in both build profiles *)
Theorem C39_end_to_end_ark_groth16 :
  forall (pf pf' : profile) (E : pairing) domain fuel (R R' : rng_impl E) b gens st0 pk sk ek dk st0' (msg : Fr E) (st : rng_st R'),
  domain_ok domain -> supported b -> 2 ^ b <= modulus (K_of E) ->
  64 * Z.of_nat (limbs (K_of E)) - b < modulus_bit_size (K_of E) -> 64 * Z.of_nat (limbs (K_of E)) < 256 * b ->
  setup_for_groth16 (ark_backend pf domain fuel) R b gens st0 = Ok (pk, sk, ek, dk, st0') ->
  nondegenerate dk (skipn 1 (vk_gamma_abc_g1 (gpk_vk (pk_pk pk)))) (length (dk_V_2 dk)) ->
  exists ct r p st', encrypt_with_proof pf (ark_backend pf domain fuel) R' msg ek pk b st = Ok (ct, r, p, st') /\
    verify_commitment_and_proof ct p (prepare_verifying_key (gpk_vk (pk_pk pk))) (prepare_ek ek) (prepare_gens gens) = Ok tt /\
    exists nu, ct_decrypt_given_groth16_vk pf' ct sk (prepare_dk dk) (gpk_vk (pk_pk pk)) b = Ok (msg, nu).
Proof.
  intros pf pf' E domain fuel R R' b gens st0 pk sk ek dk st0' msg st Hd. apply C39_end_to_end. apply ark_backend_correct. exact Hd.
Qed.
(* and its setup succeeds whenever the domain is available, gamma and delta are not 0 and the next draw is outside the domain *)
Theorem C39_setup_succeeds :
  forall (pf : profile) (E : pairing) domain fuel (R : rng_impl E) b n gens st0 alpha s1 beta s2 gamma s3 delta s4 x s5 xs,
  chunks_count (K_of E) b = Ok n -> 0 <= b < modulus_bit_size (K_of E) ->
  rand_scalar R st0 = (alpha, s1) -> rand_scalar R s1 = (beta, s2) -> rand_scalar R s2 = (gamma, s3) -> rand_scalar R s3 = (delta, s4) ->
  rand_scalar R s4 = (x, s5) -> gamma <> fzero -> delta <> fzero -> (0 < fuel)%nat ->
  (* 2 * bits - b + 1 constraints per chunk, one input per chunk and the constant 1 *)
  domain (Z.to_nat n * (2 * Z.to_nat (modulus_bit_size (K_of E)) - Z.to_nat b + 1) + (1 + Z.to_nat n))%nat = Some xs -> ~ In x xs ->
  exists pk sk ek dk st, setup_for_groth16 (ark_backend pf domain fuel) R b gens st0 = Ok (pk, sk, ek, dk, st).
Proof.
  intros pf E domain fuel R b n gens st0 alpha s1 beta s2 gamma s3 delta s4 x s5 xs Hn Hb D1 D2 D3 D4 D5 Hg Hd Hf Hxs Hx.
  unfold setup_for_groth16, circuit_new. rewrite Hn. cbn [bind]. unfold generate_srs. rewrite D1, D2, D3, D4.
  cbn [generate_parameters_with_qap ark_backend]. unfold ark_generate.
  destruct (@generate_setup (K_of E) b n true ltac:(lia)) as (s & Hs & Hi & Hw & Hcons). rewrite Hs. cbn [bind].
  assert (Hlen : length (cs_cons s) = (Z.to_nat n * (2 * Z.to_nat (modulus_bit_size (K_of E)) - Z.to_nat b + 1))%nat).
  { rewrite Hcons, all_cons_length by lia. unfold circuit_vars. rewrite alloc_vars_length. reflexivity. }
  rewrite Hlen, Hi, Hxs. cbn [domain_or_err bind].
  destruct fuel as [|fuel]; [lia|]. cbn [sample_outside]. rewrite D5.
  destruct (feqb (vanishing_at xs x) fzero) eqn:Ev; [apply feqb_spec in Ev; apply vanishing_zero in Ev; contradiction|]. cbn [bind].
  destruct (instance_map s _) as [[a b'] c]. unfold inverse_or_err.
  destruct (feqb gamma fzero) eqn:Eg; [apply feqb_spec in Eg; contradiction|]. cbn [bind].
  destruct (feqb delta fzero) eqn:Ed; [apply feqb_spec in Ed; contradiction|]. cbn [bind].
  unfold get_gs_for_encryption, slice_from. cbn [pk_pk gpk_vk vk_gamma_abc_g1 gpk_delta_g1 pk_gamma_g1].
  rewrite !map_length, firstn_length, map_length, seq_length.
  replace (Nat.leb 1 (Nat.min (1 + Z.to_nat n) (1 + Z.to_nat n + cs_num_wit s))) with true by (symmetry; apply Nat.leb_le; lia). cbn [bind].
  match goal with |- context [keygen R b gens ?g ?d ?ga s5] =>
    destruct (keygen_formula R b gens g d ga s5 n Hn) as (rho & ss & t0 & t & v & st' & _ & _ & _ & Hk) end.
  { rewrite skipn_length, !map_length, firstn_length, map_length, seq_length. lia. }
  rewrite Hk. cbn [bind]. repeat eexists.
Qed.
