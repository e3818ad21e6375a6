(* PropGroth16More.v -- C53-C55: what can be done to an accepted (ciphertext, proof) pair, and the vk-based API with tables. *)
From Verif Require Import Base BaseFacts Algebra Utils UtilsFacts Setup Commitment Keygen KeygenFacts Encryption EncryptFacts
  DecryptFacts RoundTrip VerifyFacts Spec KeySpec VecFacts Protocol ReencFacts DistFacts PropEnc PropVerify Circuit CircuitFacts CircuitSat
  Groth16 ArkGroth16 PolyFacts Groth16Spec ArkFacts Groth16Facts PropGroth16 PropGroth16Cases PropMalleable Instance Examples.

(* Anybody can turn a proof into these, knowing the verifying key only. *)
Definition rescale_proof {E : pairing} (x y : Fr E) (p : proof E) : proof E := Proof (x [*] pr_a p) (y [*] pr_b p) (pr_c p).
Definition shift_proof {E : pairing} (vk : verifying_key E) (k : Fr E) (p : proof E) : proof E :=
  Proof (pr_a p) (pr_b p [+] (k [*] vk_delta_g2 vk)) (pr_c p [+] (k [*] pr_a p)).

Section G.
Context {E : pairing}.
Add Ring Kr : (@scalar_ring_theory (K_of E)).

Lemma rescale_pair (x y : Fr E) (a : G1 E) (b : G2 E) : fmul x y = fone -> pair (x [*] a) (prep (y [*] b)) = pair a (prep b).
Proof. intros H. rewrite pair_smul_l, pair_smul_r, <- smul_fmul, H, smul_1_l. reflexivity. Qed.
Lemma shift_pair (k : Fr E) (a c : G1 E) (b d : G2 E) (u : GT E) :
  pair a (prep (b [+] (k [*] d))) [+] pair (c [+] (k [*] a)) (prep ([-] d)) [+] u = pair a (prep b) [+] pair c (prep ([-] d)) [+] u.
Proof. rewrite pair_add_r, pair_add_l, !pair_neg_r, pair_smul_l, pair_smul_r. glin. Qed.

Lemma verify_proof_empty (vk : verifying_key E) p ct : vk_gamma_abc_g1 vk = [] -> verify_proof (prepare_verifying_key vk) p ct = Panic.
Proof. intros H. unfold verify_proof, calculate_d. cbn [prepare_verifying_key pvk_vk]. rewrite H. reflexivity. Qed.

Lemma gsum_zip_gadd (l1 l2 : list (G1 E)) : length l1 = length l2 -> gsum (zip_with gadd l1 l2) = gsum l1 [+] gsum l2.
Proof.
  revert l2; induction l1 as [|x l1 IH]; intros [|y l2] H; cbn [length] in H; try lia; [symmetry; apply gadd_0_l|].
  rewrite zip_with_cons, !gsum_cons, IH by lia. glin.
Qed.

(* the pairing product that the proof check compares with e(alpha, beta) *)
Definition qap (vk : verifying_key E) (p : proof E) (D : G1 E) : GT E :=
  pair (pr_a p) (prep (pr_b p)) [+] pair (pr_c p) (prep ([-] vk_delta_g2 vk)) [+] pair D (prep ([-] vk_gamma_g2 vk)).

(* adding to the ciphertext an encryption, and r' P_2 to C, changes that product by the pairing of the added message only *)
Lemma qap_shift gens (pk : proving_key E) g_i s t0 t (m : list Z) (r' : Fr E) (p : proof E) (c_0 : G1 E) c w0 :
  srs_of gens pk -> length s = length m -> length c = length m -> (length m <= length g_i)%nat ->
  let ek := ek_formula gens g_i (gpk_delta_g1 (pk_pk pk)) (pk_gamma_g1 pk) s t0 t in
  let vk := gpk_vk (pk_pk pk) in
  qap vk (blinded p r' ek) ((c_0 [+] (r' [*] ek_X_0 ek)) [+] gsum (zip_with gadd c (body_formula (ek_X ek) g_i m r')) [+] w0) =
  qap vk p (c_0 [+] gsum c [+] w0) [+] [-] pair (dot (map of_Z m) g_i) (prep (vk_gamma_g2 vk)).
Proof.
  intros (gamma & delta & _ & _ & Hgam & Hdel & Hd1 & Hg1) Hs Hc Hl ek vk. unfold qap, blinded. cbn [pr_a pr_b pr_c].
  assert (LX : length (ek_X ek) = length m) by (unfold ek, ek_formula; cbn [ek_X]; rewrite map_length; exact Hs).
  assert (Hz : gsum (zip_with gadd c (body_formula (ek_X ek) g_i m r')) = gsum c [+] ((r' [*] gsum (ek_X ek)) [+] dot (map of_Z m) g_i)).
  { rewrite <- gsum_body by assumption. apply gsum_zip_gadd. rewrite body_formula_length. exact Hc. }
  assert (HX : ek_X_0 ek [+] gsum (ek_X ek) = (fadd fone (fsum s) [*] (delta [*] eg_G gens))).
  { unfold ek. cbn [ek_X_0 ek_X ek_formula]. rewrite gsum_map_smul, Hd1. glin. }
  assert (HP : ek_P_2 ek = fadd fone (fsum s) [*] (fneg gamma [*] eg_G gens)) by (unfold ek; cbn [ek_P_2 ek_formula]; rewrite Hg1; reflexivity).
  rewrite Hz. set (D := dot (map of_Z m) g_i).
  replace (c_0 [+] (r' [*] ek_X_0 ek) [+] (gsum c [+] (r' [*] gsum (ek_X ek) [+] D)) [+] w0)
    with ((c_0 [+] gsum c [+] w0) [+] (r' [*] (ek_X_0 ek [+] gsum (ek_X ek))) [+] D) by glin.
  rewrite HX, HP. fold vk in Hgam, Hdel. rewrite Hgam, Hdel.
  set (Q := c_0 [+] gsum c [+] w0). set (G := eg_G gens). set (f := fadd fone (fsum s)).
  rewrite !pair_neg_r, !pair_add_l, !pair_smul_r, !pair_smul_l. glin.
Qed.
End G.

(* ===== C53 ===== *)
(* For every verifying key, proof and ciphertext whatsoever: the check does not change its answer (accepted, PairingCheckFailed
   or, for a verifying key without elements W, a panic) when the proof is rescaled or shifted. *)
Theorem C53_proof_rescaling : forall (E : pairing) (vk : verifying_key E) (p : proof E) (ct : ciphertext E) (x y : Fr E), fmul x y = fone ->
  verify_proof (prepare_verifying_key vk) (rescale_proof x y p) ct = verify_proof (prepare_verifying_key vk) p ct.
Proof.
  intros E vk p ct x y H. destruct (vk_gamma_abc_g1 vk) as [|g0 gs] eqn:Eg; [rewrite !verify_proof_empty by exact Eg; reflexivity|].
  rewrite !(verify_proof_unfold vk _ _ g0 gs Eg). unfold rescale_proof. cbn [pr_a pr_b pr_c]. rewrite rescale_pair by exact H. reflexivity.
Qed.
Theorem C53_proof_shifting : forall (E : pairing) (vk : verifying_key E) (p : proof E) (ct : ciphertext E) (k : Fr E),
  verify_proof (prepare_verifying_key vk) (shift_proof vk k p) ct = verify_proof (prepare_verifying_key vk) p ct.
Proof.
  intros E vk p ct k. destruct (vk_gamma_abc_g1 vk) as [|g0 gs] eqn:Eg; [rewrite !verify_proof_empty by exact Eg; reflexivity|].
  rewrite !(verify_proof_unfold vk _ _ g0 gs Eg). unfold shift_proof. cbn [pr_a pr_b pr_c]. rewrite shift_pair. reflexivity.
Qed.
(* so an accepted proof is never the only one: refutation of "a proof cannot be changed without being rejected" *)
Theorem C53_proof_non_malleability_refuted : forall (E : pairing) (vk : verifying_key E) (p : proof E) (ct : ciphertext E) pek gens,
  vk_delta_g2 vk <> gzero -> verify_commitment_and_proof ct p (prepare_verifying_key vk) pek gens = Ok tt ->
  exists p', p' <> p /\ verify_commitment_and_proof ct p' (prepare_verifying_key vk) pek gens = Ok tt.
Proof.
  intros E vk p ct pek gens Hd Hv. exists (shift_proof vk fone p). split.
  - intros H. apply (f_equal pr_b) in H. unfold shift_proof in H. cbn [pr_b] in H. rewrite smul_1_l in H. apply Hd.
    apply (gadd_cancel_l (pr_b p)). rewrite gadd_0_r. exact H.
  - unfold verify_commitment_and_proof in *. destruct (verify_commitment ct pek gens) as [[]|e|]; cbn [bind] in *; try discriminate Hv.
    rewrite C53_proof_shifting. exact Hv.
Qed.

(* ===== C54 ===== *)
(* adding an encryption of d to a ciphertext and r' P_2 to the C element of its proof -- public values only *)
Definition shift_with_proof {E} (R : rng_impl E) (ek : encryption_key E) (g_i : list (G1 E)) (d : list Z) (ct : list (G1 E)) (p : proof E) (st : rng_st R)
  : outcome (list (G1 E) * proof E) :=
  '(z, r', _) <- encrypt_decomposed_message R d ek g_i st ;;
  ct' <- add_cts ct z ;;
  Ok (ct', blinded p r' ek).

Lemma shift_with_proof_ok {E : pairing} gens (pk : proving_key E) g_i b ek (R : rng_impl E) d c_0 c psi p st : srs_of gens pk ->
  let vk := gpk_vk (pk_pk pk) in
  get_gs_for_encryption vk = Ok g_i -> honest_key b gens g_i (gpk_delta_g1 (pk_pk pk)) (pk_gamma_g1 pk) ek ->
  length d = length (ek_X ek) -> length c = length d ->
  exists c_0' c' psi' p' w0, vk_gamma_abc_g1 vk = w0 :: g_i /\ shift_with_proof R ek g_i d (c_0 :: c ++ [psi]) p st = Ok (c_0' :: c' ++ [psi'], p') /\
   length c' = length c /\
   c_0' = c_0 [+] (fst (rand_scalar R st) [*] ek_X_0 ek) /\
   shift_by R ek g_i d (c_0 :: c ++ [psi]) st = Ok (c_0' :: c' ++ [psi']) /\
   (verify_ciphertext_commitment c_0 c psi (prepare_ek ek) (prepare_gens gens) = Ok tt ->
     verify_ciphertext_commitment c_0' c' psi' (prepare_ek ek) (prepare_gens gens) = Ok tt) /\
   qap vk p' (c_0' [+] gsum c' [+] w0) = qap vk p (c_0 [+] gsum c [+] w0) [+] [-] pair (dot (map of_Z d) g_i) (prep (vk_gamma_g2 vk)).
Proof.
  intros Hs vk Hg Hk Hd Hc. apply honest_key_inv in Hk. destruct Hk as (n & s & t0 & t & Hn & Hgl & Hlt & Hls & Hlt' & Hek).
  pose proof (formula_wf gens g_i (gpk_delta_g1 (pk_pk pk)) (pk_gamma_g1 pk) s t0 t n Hls Hlt' Hgl Hlt) as Hw. rewrite <- Hek in Hw.
  pose proof Hw as (_ & LX & LY & LZ).
  unfold get_gs_for_encryption, slice_from in Hg. destruct (Nat.leb_spec 1 (length (vk_gamma_abc_g1 vk))) as [Hle|]; [|discriminate].
  destruct (vk_gamma_abc_g1 vk) as [|w0 ws] eqn:Ew; [cbn in Hle; lia|]. cbn [skipn] in Hg. injection Hg as ->.
  set (r' := fst (rand_scalar R st)). set (ct := Ciphertext c_0 c psi). set (z := ct_formula ek g_i d r').
  assert (He : encrypt_decomposed_message R d ek g_i st = Ok (ct_vec z, r', snd (rand_scalar R st))).
  { apply encrypt_chunks_ok; lia. }
  assert (Lz : length (ct_enc_chunks z) = length d) by (unfold z, ct_formula; cbn [ct_enc_chunks]; rewrite body_formula_length; reflexivity).
  assert (Hadd : add_cts (ct_vec ct) (ct_vec z) = Ok (ct_vec (ct_add ct z))).
  { rewrite add_cts_eq, !ct_vec_length. unfold ct; cbn [ct_enc_chunks]. rewrite Hc, Lz, Nat.leb_refl. rewrite <- ct_vec_add by (cbn [ct_enc_chunks]; lia). reflexivity. }
  exists (ct_X_r (ct_add ct z)), (ct_enc_chunks (ct_add ct z)), (ct_commitment (ct_add ct z)), (blinded p r' ek), w0.
  split; [reflexivity|]. split.
  { unfold shift_with_proof. rewrite He. cbn [bind]. change (c_0 :: c ++ [psi]) with (ct_vec ct). rewrite Hadd. reflexivity. }
  split.
  { unfold ct_add. cbn [ct_enc_chunks]. rewrite zip_with_length. unfold ct; cbn [ct_enc_chunks]. lia. }
  split; [reflexivity|]. split.
  { unfold shift_by. rewrite He. cbn [bind]. exact Hadd. }
  split.
  { intros Hv. change (verify_commitment ct (prepare_ek ek) (prepare_gens gens) = Ok tt) in Hv.
    assert (Hz : verify_commitment z (prepare_ek ek) (prepare_gens gens) = Ok tt).
    { pose proof (honest_verifies gens g_i (gpk_delta_g1 (pk_pk pk)) (pk_gamma_g1 pk) s t0 t d r' n Hls Hlt' ltac:(lia) Hgl Hlt) as H. cbv zeta in H. rewrite <- Hek in H. exact H. }
    destruct (add_accepted (ct_vec ct) (ct_vec z) ct z ek gens (ct_of_vec_ct_vec ct) (ct_of_vec_ct_vec z) Hv Hz) as (w & ct' & W1 & W2 & W3).
    rewrite Hadd in W1. injection W1 as <-. rewrite ct_of_vec_ct_vec in W2. injection W2 as <-. exact W3. }
  pose proof (qap_shift gens pk g_i s t0 t d r' p c_0 c w0 Hs ltac:(lia) Hc ltac:(lia)) as Q. cbv zeta in Q. rewrite <- Hek in Q. exact Q.
Qed.

Lemma verify_proof_qap {E : pairing} (vk : verifying_key E) p ct g0 gs : vk_gamma_abc_g1 vk = g0 :: gs ->
  verify_proof (prepare_verifying_key vk) p ct =
  if geqb (qap vk p (ct_X_r ct [+] gsum (ct_enc_chunks ct) [+] g0)) (pair (vk_alpha_g1 vk) (prep (vk_beta_g2 vk))) then Ok tt else Err PairingCheckFailed.
Proof. exact (verify_proof_unfold vk p ct g0 gs). Qed.

(* Re-randomization with d = 0, of any ciphertext of the right length and any proof, honest or not: the proof check answers as
   before, and a pair accepted by the combined check is accepted again. *)
Theorem C54_ciphertext_and_proof_rerandomization :
  forall (E : pairing) (B : groth16_backend E) circ gens pk g_i b ek (R : rng_impl E) c_0 c psi p st,
  backend_correct B -> from_srs B circ gens pk -> get_gs_for_encryption (gpk_vk (pk_pk pk)) = Ok g_i ->
  honest_key b gens g_i (gpk_delta_g1 (pk_pk pk)) (pk_gamma_g1 pk) ek -> length c = length (ek_X ek) ->
  let pvk := prepare_verifying_key (gpk_vk (pk_pk pk)) in
  exists c_0' c' psi' p', shift_with_proof R ek g_i (repeat 0 (length c)) (c_0 :: c ++ [psi]) p st = Ok (c_0' :: c' ++ [psi'], p') /\
   c_0' = c_0 [+] (fst (rand_scalar R st) [*] ek_X_0 ek) /\
   verify_proof pvk p' (Ciphertext c_0' c' psi') = verify_proof pvk p (Ciphertext c_0 c psi) /\
   (verify_commitment_and_proof (Ciphertext c_0 c psi) p pvk (prepare_ek ek) (prepare_gens gens) = Ok tt ->
     verify_commitment_and_proof (Ciphertext c_0' c' psi') p' pvk (prepare_ek ek) (prepare_gens gens) = Ok tt).
Proof.
  intros E B circ gens pk g_i b ek R c_0 c psi p st HB (R0 & s0 & s0' & Hs) Hg Hk Hc pvk. apply generate_srs_ok in Hs; [|exact HB]. destruct Hs as [Hs _].
  destruct (shift_with_proof_ok gens pk g_i b ek R (repeat 0 (length c)) c_0 c psi p st Hs Hg Hk) as (c_0' & c' & psi' & p' & w0 & Ew & H1 & _ & H3 & _ & H5 & H6);
    [rewrite repeat_length; exact Hc|rewrite repeat_length; reflexivity|].
  exists c_0', c', psi', p'. split; [exact H1|]. split; [exact H3|].
  assert (Z : dot (map of_Z (repeat 0 (length c))) g_i = @gzero _ (G1 E)).
  { clear. generalize (length c). intros n. revert g_i. induction n as [|n IH]; intros g_i; [destruct g_i; reflexivity|]. destruct g_i as [|g g_i]; [reflexivity|].
    cbn [repeat map dot]. rewrite IH. change (of_Z 0) with (@fzero (K_of E)). rewrite smul_0_l, gadd_0_l. reflexivity. }
  rewrite Z, pair_zero_l, gneg_0, gadd_0_r in H6.
  assert (V : verify_proof pvk p' (Ciphertext c_0' c' psi') = verify_proof pvk p (Ciphertext c_0 c psi)).
  { unfold pvk. rewrite !(verify_proof_qap _ _ _ w0 g_i Ew). cbn [ct_X_r ct_enc_chunks]. rewrite H6. reflexivity. }
  split; [exact V|]. unfold verify_commitment_and_proof, verify_commitment. cbn [ct_X_r ct_enc_chunks ct_commitment]. intros Hv.
  destruct (verify_ciphertext_commitment c_0 c psi (prepare_ek ek) (prepare_gens gens)) as [[]|e|]; cbn [bind] in Hv; try discriminate Hv.
  rewrite (H5 eq_refl). cbn [bind]. rewrite V. exact Hv.
Qed.
(* The same with other shifts d of an accepted pair: accepted exactly when sum d_i W_i = 0, otherwise PairingCheckFailed. *)
Theorem C54_shifted_pair_accepted_iff :
  forall (E : pairing) (B : groth16_backend E) circ gens pk g_i b ek (R : rng_impl E) d c_0 c psi p st,
  backend_correct B -> from_srs B circ gens pk -> get_gs_for_encryption (gpk_vk (pk_pk pk)) = Ok g_i ->
  honest_key b gens g_i (gpk_delta_g1 (pk_pk pk)) (pk_gamma_g1 pk) ek -> eg_H gens <> gzero ->
  length d = length (ek_X ek) ->
  let pvk := prepare_verifying_key (gpk_vk (pk_pk pk)) in
  verify_commitment_and_proof (Ciphertext c_0 c psi) p pvk (prepare_ek ek) (prepare_gens gens) = Ok tt ->
  exists c_0' c' psi' p', shift_with_proof R ek g_i d (c_0 :: c ++ [psi]) p st = Ok (c_0' :: c' ++ [psi'], p') /\
   let res := verify_commitment_and_proof (Ciphertext c_0' c' psi') p' pvk (prepare_ek ek) (prepare_gens gens) in
    (res = Ok tt <-> dot (map of_Z d) g_i = gzero) /\ (res = Ok tt \/ res = Err PairingCheckFailed).
Proof.
  intros E B circ gens pk g_i b ek R d c_0 c psi p st HB (R0 & s0 & s0' & Hs) Hg Hk HH Hd pvk Hv. apply generate_srs_ok in Hs; [|exact HB]. destruct Hs as [Hs _].
  unfold verify_commitment_and_proof, verify_commitment in *. cbn [ct_X_r ct_enc_chunks ct_commitment] in *.
  destruct (verify_ciphertext_commitment c_0 c psi (prepare_ek ek) (prepare_gens gens)) as [[]|e|] eqn:Ev; cbn [bind] in Hv; try discriminate Hv.
  assert (Hc : length c = length d).
  { pose proof Hk as Hk2. apply honest_key_inv in Hk2. destruct Hk2 as (n & s & t0 & t & Hn & Hgl & Hlt & Hls & Hlt' & Hek).
    pose proof (formula_wf gens g_i (gpk_delta_g1 (pk_pk pk)) (pk_gamma_g1 pk) s t0 t n Hls Hlt' Hgl Hlt) as Hw. rewrite <- Hek in Hw.
    apply (verify_accept n (Ciphertext c_0 c psi) ek gens Hw) in Ev. destruct Ev as [Ev _]. destruct Hw as (_ & LX & _). cbn [ct_enc_chunks] in Ev. congruence. }
  destruct (shift_with_proof_ok gens pk g_i b ek R d c_0 c psi p st Hs Hg Hk Hd Hc) as (c_0' & c' & psi' & p' & w0 & Ew & H1 & _ & _ & _ & H5 & H6).
  exists c_0', c', psi', p'. split; [exact H1|]. cbv zeta. rewrite (H5 Ev). cbn [bind].
  unfold pvk in *. rewrite !(verify_proof_qap _ _ _ w0 g_i Ew) in *. cbn [ct_X_r ct_enc_chunks] in *. rewrite H6.
  destruct (geqb (qap _ p _) _) eqn:Eq in Hv; [|discriminate Hv]. apply geqb_spec in Eq. rewrite Eq.
  destruct Hs as (gamma & delta & Hg0 & _ & Hgam & _). rewrite Hgam.
  set (D := dot (map of_Z d) g_i). set (ab := pair (vk_alpha_g1 _) _).
  destruct (geqb (ab [+] [-] pair D (prep (gamma [*] eg_H gens))) ab) eqn:E2.
  - split; [|left; reflexivity]. split; [|reflexivity]. intros _. apply geqb_spec in E2.
    assert (Z : [-] pair D (prep (gamma [*] eg_H gens)) = gzero) by (apply (gadd_cancel_l ab); rewrite gadd_0_r; exact E2).
    rewrite pair_smul_r in Z. apply (f_equal gneg) in Z. rewrite gneg_neg, gneg_0 in Z. apply smul_eq_zero in Z. destruct Z as [Z|Z]; [contradiction|].
    apply pair_nondeg in Z. destruct Z as [Z|Z]; [exact Z|contradiction].
  - split; [|right; reflexivity]. split; [discriminate|]. intros HD. exfalso. apply geqb_false in E2. apply E2.
    fold D in HD. rewrite HD, pair_zero_l, gneg_0, gadd_0_r. reflexivity.
Qed.

(* ===== C55 ===== *)
(* After setup_for_groth16: the pairing-power table made from the verifying key exists, and decryption of any ciphertext with it
   (through the verifying key) is decryption without it -- result, error or panic. *)
Theorem C55_tables_from_verifying_key :
  forall (pf pf' : profile) (E : pairing) (B : groth16_backend E) (R : rng_impl E) b b' gens st0 pk sk ek dk st0', 1 <= b' <= 30 ->
  setup_for_groth16 B R b gens st0 = Ok (pk, sk, ek, dk, st0') ->
  let vk := gpk_vk (pk_pk pk) in
  exists table, dk_pairing_powers_given_groth16_vk pf dk b' vk = Ok table /\ pdk_pairing_powers_given_groth16_vk pf (prepare_dk dk) b' vk = Ok table /\
   forall ct sk', ct_decrypt_given_groth16_vk_and_pairing_powers pf' ct sk' (prepare_dk dk) vk b' table = ct_decrypt_given_groth16_vk pf' ct sk' (prepare_dk dk) vk b'.
Proof.
  intros pf pf' E B R b b' gens st0 pk sk ek dk st0' Hb Hset. unfold setup_for_groth16 in Hset. apply bind_Ok_inv in Hset. destruct Hset as (circ & Hcirc & Hset).
  apply bind_Ok_inv in Hset. destruct Hset as ([pk0 st1] & Hsrs & Hset). apply bind_Ok_inv in Hset. destruct Hset as (g_i & Hg & Hset).
  apply bind_Ok_inv in Hset. destruct Hset as ([[[sk0 ek0] dk0] st2] & Hk & Hset). injection Hset as <- <- <- <- _. cbv zeta.
  assert (Hk' : from_keygen b gens g_i (gpk_delta_g1 (pk_pk pk0)) (pk_gamma_g1 pk0) sk0 ek0 dk0) by (exists R, st1, st2; exact Hk).
  destruct (C15_pairing_powers_available pf E b b' gens g_i _ _ sk0 ek0 dk0 Hk' Hb) as (table & Ht). exists table.
  unfold dk_pairing_powers_given_groth16_vk, pdk_pairing_powers_given_groth16_vk, ct_decrypt_given_groth16_vk_and_pairing_powers, ct_decrypt_given_groth16_vk.
  rewrite Hg. cbn [bind]. split; [exact Ht|]. split; [exact Ht|]. intros ct sk'. exact (C15_pairing_powers_do_not_change_decryption pf pf' E dk0 b' g_i table ct sk' Hb Ht).
Qed.
(* hence the message comes back through the tables as well *)
Theorem C55_end_to_end_with_tables :
  forall (pf pf' : profile) (E : pairing) (B : groth16_backend E) (R R' : rng_impl E) b gens st0 pk sk ek dk st0' (msg : Fr E) (st : rng_st R'),
  backend_correct B -> supported b -> 2 ^ b <= modulus (K_of E) ->
  64 * Z.of_nat (limbs (K_of E)) - b < modulus_bit_size (K_of E) -> 64 * Z.of_nat (limbs (K_of E)) < 256 * b ->
  setup_for_groth16 B R b gens st0 = Ok (pk, sk, ek, dk, st0') ->
  nondegenerate dk (skipn 1 (vk_gamma_abc_g1 (gpk_vk (pk_pk pk)))) (length (dk_V_2 dk)) ->
  exists ct r p st' table nu, encrypt_with_proof pf B R' msg ek pk b st = Ok (ct, r, p, st') /\
   dk_pairing_powers_given_groth16_vk pf dk b (gpk_vk (pk_pk pk)) = Ok table /\
   ct_decrypt_given_groth16_vk_and_pairing_powers pf' ct sk (prepare_dk dk) (gpk_vk (pk_pk pk)) b table = Ok (msg, nu).
Proof.
  intros pf pf' E B R R' b gens st0 pk sk ek dk st0' msg st HB Hb HM H1 H2 Hset Hnd.
  destruct (C39_end_to_end pf pf' E B R R' b gens st0 pk sk ek dk st0' msg st HB Hb HM H1 H2 Hset Hnd) as (ct & r & p & st' & A & _ & nu & C).
  destruct (C55_tables_from_verifying_key pf pf' E B R b b gens st0 pk sk ek dk st0') as (table & T1 & _ & T3); [destruct Hb as [->|[->| ->]]; lia|exact Hset|].
  exists ct, r, p, st', table, nu. split; [exact A|]. split; [exact T1|]. rewrite T3. exact C.
Qed.

(* ----- concrete case: the honest run of PropGroth16Cases meets all hypotheses together ----- *)
Lemma y_accepted (pf : profile) (msg : Fr E61) (st : list (Fr E61)) : exists pk ek g_i c_0 c psi p,
  from_srs (y_backend pf) y_circ x_gens pk /\ get_gs_for_encryption (gpk_vk (pk_pk pk)) = Ok g_i /\
  honest_key 16 x_gens g_i (gpk_delta_g1 (pk_pk pk)) (pk_gamma_g1 pk) ek /\ length c = length (ek_X ek) /\ length g_i = 4%nat /\
  vk_delta_g2 (gpk_vk (pk_pk pk)) <> gzero /\ Forall (fun g => g <> gzero) g_i /\
  verify_commitment_and_proof (Ciphertext c_0 c psi) p (prepare_verifying_key (gpk_vk (pk_pk pk))) (prepare_ek ek) (prepare_gens x_gens) = Ok tt.
Proof.
  destruct (y_setup pf) as (pk & ek & g_i & Hset & Hg & Hl & Hek & Hsrs & Hnd). destruct y_conditions as (C1 & C2 & C3 & C4).
  assert (HB : backend_correct (y_backend pf)) by (apply ark_backend_correct; exact y_domain_ok).
  assert (Hk : honest_key 16 x_gens g_i (gpk_delta_g1 (pk_pk pk)) (pk_gamma_g1 pk) ek).
  { left. exists y_rho, y_dk. exists (replay_rng E61), (y_rho :: y_s ++ (y_t0 :: y_t) ++ y_v ++ []), []. rewrite Hek.
    apply (keygen_replay 16 x_gens g_i _ _ 4); [exact y_count|lia| | |]; vm_compute; reflexivity. }
  destruct (with_proof_any_key pf E61 (y_backend pf) (replay_rng E61) 16 (BitsizeCheckCircuit 16 4 None true) x_gens pk g_i ek msg st
    HB C1 C2 (conj C3 C4)) as ([c_0 c psi] & r & p & st1 & st2 & Hwp & Henc & Hv); [unfold circuit_new; rewrite y_count; reflexivity|exact Hsrs|exact Hg|exact Hk|].
  assert (Lc : length c = length (ek_X ek)).
  { apply C36_combined_check_is_conjunction in Hv. destruct Hv as [Hv _].
    destruct (C20_verification_exact E61 16 x_gens g_i _ _ ek Hk x_H) as (t0' & t' & _ & _ & Y). apply Y in Hv. destruct Hv as [Hv _]. exact Hv. }
  exists pk, ek, g_i, c_0, c, psi, p. do 5 (split; [assumption|]). split; [|split; [|exact Hv]].
  - destruct Hsrs as (R & s & s' & Hs). apply generate_srs_ok in Hs; [|exact HB]. destruct Hs as [(ga & de & _ & Hd & _ & Hdel & _) _].
    rewrite Hdel. intros Z. apply smul_eq_zero in Z. destruct Z as [Z|Z]; [contradiction|exact (x_H Z)].
  - destruct Hnd as [_ Hnd]. unfold get_gs_for_encryption, slice_from in Hg. destruct (Nat.leb 1 (length (vk_gamma_abc_g1 (gpk_vk (pk_pk pk))))); [|discriminate Hg].
    assert (A : skipn 1 (vk_gamma_abc_g1 (gpk_vk (pk_pk pk))) = g_i) by congruence. rewrite A in Hnd. change (length (dk_V_2 y_dk)) with 4%nat in Hnd. rewrite <- Hl, firstn_all in Hnd. exact Hnd.
Qed.
Example C53_case (pf : profile) (msg : Fr E61) : exists (vk : verifying_key E61) ct p p' pek, p' <> p /\
  verify_commitment_and_proof ct p (prepare_verifying_key vk) pek (prepare_gens x_gens) = Ok tt /\
  verify_commitment_and_proof ct p' (prepare_verifying_key vk) pek (prepare_gens x_gens) = Ok tt.
Proof.
  destruct (y_accepted pf msg [nz61 5]) as (pk & ek & g_i & c_0 & c & psi & p & _ & _ & _ & _ & _ & Hd & _ & Hv).
  destruct (C53_proof_non_malleability_refuted _ _ _ _ _ _ Hd Hv) as (p' & A & B).
  exists (gpk_vk (pk_pk pk)), (Ciphertext c_0 c psi), p, p', (prepare_ek ek). split; [exact A|]. split; assumption.
Qed.
(* shifting only the first chunk by one is rejected: the generators are not the identity *)
Example C54_case (pf : profile) (msg : Fr E61) (st : list (Fr E61)) : exists pk ek g_i c_0 c psi p c_0' c' psi' p',
  verify_commitment_and_proof (Ciphertext c_0 c psi) p (prepare_verifying_key (gpk_vk (pk_pk pk))) (prepare_ek ek) (prepare_gens x_gens) = Ok tt /\
  shift_with_proof (replay_rng E61) ek g_i [1; 0; 0; 0] (c_0 :: c ++ [psi]) p st = Ok (c_0' :: c' ++ [psi'], p') /\
  verify_commitment_and_proof (Ciphertext c_0' c' psi') p' (prepare_verifying_key (gpk_vk (pk_pk pk))) (prepare_ek ek) (prepare_gens x_gens) = Err PairingCheckFailed.
Proof.
  destruct (y_accepted pf msg [nz61 5]) as (pk & ek & g_i & c_0 & c & psi & p & Hs & Hg & Hk & Lc & Lg & Hd & Hnz & Hv).
  assert (HB : backend_correct (y_backend pf)) by (apply ark_backend_correct; exact y_domain_ok).
  assert (L4 : length (ek_X ek) = 4%nat).
  { pose proof Hk as Hk2. apply honest_key_inv in Hk2. destruct Hk2 as (n & s & t0 & t & Hn & _ & _ & Hls & _ & ->). rewrite y_count in Hn. injection Hn as Hn.
    unfold ek_formula; cbn [ek_X]. rewrite map_length. lia. }
  destruct (C54_shifted_pair_accepted_iff E61 (y_backend pf) y_circ x_gens pk g_i 16 ek (replay_rng E61) [1;0;0;0] c_0 c psi p st HB Hs Hg Hk x_H ltac:(rewrite L4; reflexivity) Hv)
    as (c_0' & c' & psi' & p' & H1 & H2). cbv zeta in H2. destruct H2 as [I [O|O]].
  - exfalso. apply I in O. destruct g_i as [|g1 [|g2 [|g3 [|g4 [|]]]]]; try discriminate Lg. inversion Hnz as [|? ? Hg1 _]; subst. apply Hg1.
    cbn [map dot] in O. change (of_Z 1) with (@fone K61) in O. change (of_Z 0) with (@fzero K61) in O. rewrite !smul_0_l, smul_1_l, !gadd_0_r in O. exact O.
  - exists pk, ek, g_i, c_0, c, psi, p, c_0', c', psi', p'. split; [exact Hv|]. split; [exact H1|exact O].
Qed.
