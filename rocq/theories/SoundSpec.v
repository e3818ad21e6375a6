(* SoundSpec.v -- specification of the cheating prover of C59-C60: it sees every public group element of a SAVER setup and
   outputs fixed linear combinations of them (an "affine" or "generic" strategy), one per element of a proof and ciphertext. *)
From Verif Require Import Base Algebra Setup Keygen Encryption Groth16.

(* every element of G1 that setup_for_groth16 publishes: the commitment key, the generator, the Groth16 proving key and the
   encryption key *)
Definition public_g1 {E} (gens : encryption_gens E) (pk : proving_key E) (ek : encryption_key E) : list (G1 E) :=
  let gpk := pk_pk pk in let vk := gpk_vk gpk in
  (ek_Y ek ++ [ek_P_1 ek])
  ++ [eg_G gens; vk_alpha_g1 vk; gpk_beta_g1 gpk; gpk_delta_g1 gpk; pk_gamma_g1 pk]
  ++ gpk_a_query gpk ++ gpk_b_g1_query gpk ++ gpk_h_query gpk ++ gpk_l_query gpk ++ vk_gamma_abc_g1 vk
  ++ [ek_X_0 ek] ++ ek_X ek ++ [ek_P_2 ek].

(* every element of G2, including the decryption key *)
Definition public_g2 {E} (gens : encryption_gens E) (pk : proving_key E) (ek : encryption_key E) (dk : decryption_key E) : list (G2 E) :=
  let gpk := pk_pk pk in let vk := gpk_vk gpk in
  [eg_H gens; vk_beta_g2 vk; vk_gamma_g2 vk; vk_delta_g2 vk]
  ++ gpk_b_g2_query gpk ++ ek_Z ek ++ [dk_V_0 dk] ++ dk_V_1 dk ++ dk_V_2 dk.

(* the coefficients of the linear combinations; they are fixed before the setup is drawn *)
Record strategy (E : pairing) := Strategy {
  sg_a : list (Fr E); sg_b : list (Fr E); sg_c : list (Fr E);
  sg_X_r : list (Fr E); sg_chunks : list (list (Fr E)); sg_commitment : list (Fr E) }.
Arguments Strategy {E} _ _ _ _ _ _.
Arguments sg_a {E} _.
Arguments sg_b {E} _.
Arguments sg_c {E} _.
Arguments sg_X_r {E} _.
Arguments sg_chunks {E} _.
Arguments sg_commitment {E} _.

Definition forge_proof {E} (S : strategy E) gens pk ek dk : proof E :=
  Proof (dot (sg_a S) (public_g1 gens pk ek)) (dot (sg_b S) (public_g2 gens pk ek dk)) (dot (sg_c S) (public_g1 gens pk ek)).
Definition forge_ciphertext {E} (S : strategy E) gens pk ek : ciphertext E :=
  Ciphertext (dot (sg_X_r S) (public_g1 gens pk ek)) (map (fun c => dot c (public_g1 gens pk ek)) (sg_chunks S))
    (dot (sg_commitment S) (public_g1 gens pk ek)).

(* What the extractor reads off the strategy: the chunk values are the coefficients of the n elements Y_1..Y_n in the
   commitment, the randomness is the coefficient of P_1. *)
Definition extracted_chunks {E} (n : nat) (S : strategy E) : list Z := map (fun j => into_bigint (nth j (sg_commitment S) fzero)) (seq 0 n).
Definition extracted_r {E} (n : nat) (S : strategy E) : Fr E := nth n (sg_commitment S) fzero.
