(* Groth16.v -- model of /repo/src/saver_groth16.rs, of the Groth16 parts of /repo/src/encryption.rs and of
   setup_for_groth16 (/repo/src/setup.rs).
   The data types and prepare_verifying_key are those of ark-groth16 0.4 (dependency, not in /repo).  Its parameter
   generator and its prover are the two fields of `groth16_backend`; ArkGroth16.v transcribes the published ones. *)
From Verif Require Import Base Algebra Utils Setup Keygen Encryption Circuit.

(* ark_groth16::VerifyingKey *)
Record verifying_key (E : pairing) := VerifyingKey {
  vk_alpha_g1 : G1 E; vk_beta_g2 : G2 E; vk_gamma_g2 : G2 E; vk_delta_g2 : G2 E; vk_gamma_abc_g1 : list (G1 E) }.
Arguments VerifyingKey {E} _ _ _ _ _.
Arguments vk_alpha_g1 {E} _.
Arguments vk_beta_g2 {E} _.
Arguments vk_gamma_g2 {E} _.
Arguments vk_delta_g2 {E} _.
Arguments vk_gamma_abc_g1 {E} _.

(* ark_groth16::Proof *)
Record proof (E : pairing) := Proof { pr_a : G1 E; pr_b : G2 E; pr_c : G1 E }.
Arguments Proof {E} _ _ _.
Arguments pr_a {E} _.
Arguments pr_b {E} _.
Arguments pr_c {E} _.

(* ark_groth16::PreparedVerifyingKey *)
Record prepared_verifying_key (E : pairing) := PreparedVerifyingKey {
  pvk_vk : verifying_key E; pvk_alpha_g1_beta_g2 : GT E; pvk_gamma_g2_neg_pc : G2Prepared E; pvk_delta_g2_neg_pc : G2Prepared E }.
Arguments PreparedVerifyingKey {E} _ _ _ _.
Arguments pvk_vk {E} _.
Arguments pvk_alpha_g1_beta_g2 {E} _.
Arguments pvk_gamma_g2_neg_pc {E} _.
Arguments pvk_delta_g2_neg_pc {E} _.

(* ark_groth16::prepare_verifying_key (re-exported at src/saver_groth16.rs:21-24) *)
Definition prepare_verifying_key {E} (vk : verifying_key E) : prepared_verifying_key E :=
  PreparedVerifyingKey vk (pair (vk_alpha_g1 vk) (prep (vk_beta_g2 vk)))
    (prep ([-] vk_gamma_g2 vk)) (prep ([-] vk_delta_g2 vk)).

(* ark_groth16::ProvingKey *)
Record groth16_proving_key (E : pairing) := Groth16ProvingKey {
  gpk_vk : verifying_key E; gpk_beta_g1 : G1 E; gpk_delta_g1 : G1 E;
  gpk_a_query : list (G1 E); gpk_b_g1_query : list (G1 E); gpk_b_g2_query : list (G2 E);
  gpk_h_query : list (G1 E); gpk_l_query : list (G1 E) }.
Arguments Groth16ProvingKey {E} _ _ _ _ _ _ _ _.
Arguments gpk_vk {E} _.
Arguments gpk_beta_g1 {E} _.
Arguments gpk_delta_g1 {E} _.
Arguments gpk_a_query {E} _.
Arguments gpk_b_g1_query {E} _.
Arguments gpk_b_g2_query {E} _.
Arguments gpk_h_query {E} _.
Arguments gpk_l_query {E} _.

(* src/saver_groth16.rs:32-39 struct ProvingKey *)
Record proving_key (E : pairing) := ProvingKey { pk_pk : groth16_proving_key E; pk_gamma_g1 : G1 E }.
Arguments ProvingKey {E} _ _.
Arguments pk_pk {E} _.
Arguments pk_gamma_g1 {E} _.

(* ConstraintSynthesizer::generate_constraints, as a function of the constraint system it is called on *)
Definition synthesizer (E : pairing) : Type := csys (K_of E) -> outcome (csys (K_of E)).

(* The two functions of ark_groth16::Groth16 that are called by this crate (src/saver_groth16.rs:58-67, 93). *)
Record groth16_backend (E : pairing) := Groth16Backend {
  generate_parameters_with_qap : forall R : rng_impl E, synthesizer E -> Fr E -> Fr E -> Fr E -> Fr E -> G1 E -> G2 E ->
    rng_st R -> outcome (groth16_proving_key E * rng_st R);
  create_proof_with_reduction : synthesizer E -> groth16_proving_key E -> Fr E -> Fr E -> outcome (proof E) }.
Arguments generate_parameters_with_qap {E} _ _ _ _ _ _ _ _ _ _.
Arguments create_proof_with_reduction {E} _ _ _ _ _.

(* src/saver_groth16.rs:42-44 get_gs_for_encryption: &gamma_abc_g1[1..] *)
Definition get_gs_for_encryption {E} (vk : verifying_key E) : outcome (list (G1 E)) := slice_from (vk_gamma_abc_g1 vk) 1.

(* src/keygen.rs:213-220 DecryptionKey::pairing_powers_given_groth16_vk and its copy for PreparedDecryptionKey *)
Definition dk_pairing_powers_given_groth16_vk (pf : profile) {E} (dk : decryption_key E) (chunk_bit_size : Z)
    (snark_vk : verifying_key E) : outcome (list (list (GT E))) :=
  g_i <- get_gs_for_encryption snark_vk ;;
  dk_pairing_powers pf dk chunk_bit_size g_i.
Definition pdk_pairing_powers_given_groth16_vk (pf : profile) {E} (dk : prepared_decryption_key E) (chunk_bit_size : Z)
    (snark_vk : verifying_key E) : outcome (list (list (GT E))) :=
  g_i <- get_gs_for_encryption snark_vk ;;
  pdk_pairing_powers pf dk chunk_bit_size g_i.

(* src/saver_groth16.rs:47-75 generate_srs.  The rng state after an error is not returned. *)
Definition generate_srs {E} (B : groth16_backend E) (R : rng_impl E) (circ : synthesizer E) (gens : encryption_gens E)
    (st : rng_st R) : outcome (proving_key E * rng_st R) :=
  let (alpha, st1) := rand_scalar R st in
  let (beta, st2) := rand_scalar R st1 in
  let (gamma, st3) := rand_scalar R st2 in
  let (delta, st4) := rand_scalar R st3 in
  let neg_gamma_g1 := mul_bigint (eg_G gens) (into_bigint (fneg gamma)) in
  '(pk, st5) <- generate_parameters_with_qap B R circ alpha beta gamma delta (eg_G gens) (eg_H gens) st4 ;;
  Ok (ProvingKey pk neg_gamma_g1, st5).

(* src/saver_groth16.rs:78-101 create_proof *)
Definition create_proof {E} (B : groth16_backend E) (R : rng_impl E) (circ : synthesizer E) (r : Fr E) (pk : proving_key E)
    (ek : encryption_key E) (st : rng_st R) : outcome (proof E * rng_st R) :=
  let (t, st1) := rand_scalar R st in
  let (s, st2) := rand_scalar R st1 in
  p <- create_proof_with_reduction B circ (pk_pk pk) t s ;;
  let c := pr_c p [+] mul_bigint (ek_P_2 ek) (into_bigint r) in
  Ok (Proof (pr_a p) (pr_b p) c, st2).

(* src/saver_groth16.rs:117-127 calculate_d *)
Definition calculate_d {E} (pvk : prepared_verifying_key E) (ct : ciphertext E) : outcome (G1 E) :=
  let d := fold_left gadd (ct_enc_chunks ct) (ct_X_r ct) in
  g0 <- idx (vk_gamma_abc_g1 (pvk_vk pvk)) 0 ;;
  Ok (d [+] g0).

(* src/saver_groth16.rs:129-154 verify_qap_proof.  The product of Miller loops followed by the final exponentiation is
   the multi-pairing; the final exponentiation of a zero (error UnexpectedIdentity) cannot occur on a Miller loop
   output and is not modelled. *)
Definition verify_qap_proof {E} (pvk : prepared_verifying_key E) (a : G1 E) (b : G2 E) (c d : G1 E) : outcome unit :=
  qap <- multi_pairing [a; c; d] [prep b; pvk_delta_g2_neg_pc pvk; pvk_gamma_g2_neg_pc pvk] ;;
  if negb (geqb qap (pvk_alpha_g1_beta_g2 pvk)) then Err PairingCheckFailed else Ok tt.

(* src/saver_groth16.rs:103-115 verify_proof *)
Definition verify_proof {E} (pvk : prepared_verifying_key E) (p : proof E) (ct : ciphertext E) : outcome unit :=
  d <- calculate_d pvk ct ;;
  verify_qap_proof pvk (pr_a p) (pr_b p) (pr_c p) d.

(* src/encryption.rs:126-143 encrypt_with_proof *)
Definition encrypt_with_proof (pf : profile) {E} (B : groth16_backend E) (R : rng_impl E) (message : Fr E)
    (ek : encryption_key E) (snark_pk : proving_key E) (chunk_bit_size : Z) (st : rng_st R)
  : outcome (ciphertext E * Fr E * proof E * rng_st R) :=
  g_i <- get_gs_for_encryption (gpk_vk (pk_pk snark_pk)) ;;
  '(ct, r, st1) <- encrypt pf R message ek g_i chunk_bit_size st ;;
  decomposed <- decompose pf message chunk_bit_size ;;
  let decomposed_message := map (fun m => of_Z m) decomposed in
  circ <- circuit_new chunk_bit_size None (Some decomposed_message) true ;;
  '(p, st2) <- create_proof B R (generate_constraints circ) r snark_pk ek st1 ;;
  Ok (ct, r, p, st2).

(* src/encryption.rs:146-155 encrypt_given_snark_vk *)
Definition encrypt_given_snark_vk (pf : profile) {E} (R : rng_impl E) (message : Fr E) (ek : encryption_key E)
    (snark_vk : verifying_key E) (chunk_bit_size : Z) (st : rng_st R) : outcome (ciphertext E * Fr E * rng_st R) :=
  g_i <- get_gs_for_encryption snark_vk ;;
  encrypt pf R message ek g_i chunk_bit_size st.

(* src/encryption.rs:195-205 decrypt_given_groth16_vk *)
Definition decrypt_given_groth16_vk (pf : profile) {E} (c_0 : G1 E) (c : list (G1 E)) (sk : Fr E)
    (dk : prepared_decryption_key E) (snark_vk : verifying_key E) (chunk_bit_size : Z) : outcome (Fr E * G1 E) :=
  g_i <- get_gs_for_encryption snark_vk ;;
  decrypt pf c_0 c sk dk g_i chunk_bit_size.

(* src/encryption.rs:209-220 decrypt_given_groth16_vk_and_pairing_powers *)
Definition decrypt_given_groth16_vk_and_pairing_powers (pf : profile) {E} (c_0 : G1 E) (c : list (G1 E)) (sk : Fr E)
    (dk : prepared_decryption_key E) (snark_vk : verifying_key E) (chunk_bit_size : Z)
    (pairing_powers : list (list (GT E))) : outcome (Fr E * G1 E) :=
  g_i <- get_gs_for_encryption snark_vk ;;
  decrypt_given_pairing_powers pf c_0 c sk dk g_i chunk_bit_size pairing_powers.

(* src/encryption.rs:628-637 Ciphertext::verify_commitment_and_proof *)
Definition verify_commitment_and_proof {E} (ct : ciphertext E) (p : proof E) (snark_vk : prepared_verifying_key E)
    (ek : prepared_encryption_key E) (gens : prepared_encryption_gens E) : outcome unit :=
  _ <- verify_commitment ct ek gens ;;
  verify_proof snark_vk p ct.

(* src/encryption.rs:639-648 Ciphertext::decrypt_given_groth16_vk *)
Definition ct_decrypt_given_groth16_vk (pf : profile) {E} (ct : ciphertext E) (sk : Fr E) (dk : prepared_decryption_key E)
    (snark_vk : verifying_key E) (chunk_bit_size : Z) : outcome (Fr E * G1 E) :=
  g_i <- get_gs_for_encryption snark_vk ;;
  ct_decrypt pf ct sk dk g_i chunk_bit_size.

(* src/encryption.rs:650-660 Ciphertext::decrypt_given_groth16_vk_and_pairing_powers *)
Definition ct_decrypt_given_groth16_vk_and_pairing_powers (pf : profile) {E} (ct : ciphertext E) (sk : Fr E)
    (dk : prepared_decryption_key E) (snark_vk : verifying_key E) (chunk_bit_size : Z)
    (pairing_powers : list (list (GT E))) : outcome (Fr E * G1 E) :=
  g_i <- get_gs_for_encryption snark_vk ;;
  ct_decrypt_given_pairing_powers pf ct sk dk g_i chunk_bit_size pairing_powers.

(* src/setup.rs:92-117 setup_for_groth16 *)
Definition setup_for_groth16 {E} (B : groth16_backend E) (R : rng_impl E) (chunk_bit_size : Z) (enc_gens : encryption_gens E)
    (st : rng_st R) : outcome (proving_key E * Fr E * encryption_key E * decryption_key E * rng_st R) :=
  circ <- circuit_new chunk_bit_size None None true ;;
  '(pk, st1) <- generate_srs B R (generate_constraints circ) enc_gens st ;;
  g_i <- get_gs_for_encryption (gpk_vk (pk_pk pk)) ;;
  '(sk, ek, dk, st2) <- keygen R chunk_bit_size enc_gens g_i (gpk_delta_g1 (pk_pk pk)) (pk_gamma_g1 pk) st1 ;;
  Ok (pk, sk, ek, dk, st2).
