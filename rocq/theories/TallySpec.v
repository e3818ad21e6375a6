(* TallySpec.v -- specification of the tally of C87: verify every ballot, add up the ciphertexts, decrypt the sum together. *)
From Verif Require Import Base Algebra Utils Setup Keygen Encryption KeySpec Protocol Circuit Groth16 Spec SoundSpec SoundDkgSpec PrivacySpec PrivacyDkgSpec CcaSpec RccaSpec RccaDkgSpec
  RushSpec InsiderSpec LateSpec.

(* the ballots a coalition casts: one linear combination of what is on the table per ballot *)
Definition cast {E : pairing} (Ss : list (strategy E)) (T1 : list (G1 E)) (T2 : list (G2 E)) : list (ciphertext E * proof E) :=
  map (fun S => (ciphertext_from S T1, proof_from S T1 T2)) Ss.
(* the ballot passes Ciphertext::verify_commitment_and_proof (/repo/src/encryption.rs:628-636) under the keys *)
Definition accepted {E : pairing} (gens : encryption_gens E) (keys : dkg_keys E) (ballot : ciphertext E * proof E) : Prop :=
  verify_commitment_and_proof (fst ballot) (snd ballot) (prepare_verifying_key (gpk_vk (pk_pk (kg_pk keys)))) (prepare_ek (kg_ek keys)) (prepare_gens gens) = Ok tt.
(* Every ballot is an encryption under the joint key of n chunks of b bits.  The ciphertexts can be added (add_cts, one after the other), and
   whatever randomness the parties and the destination use, decrypting the sum together with the chunk size b' gives the chunk-wise sum of what is
   in the ballots. *)
Definition adds_up {E : pairing} (pf : profile) (gens : encryption_gens E) (keys : dkg_keys E) (n : nat) (b b' : Z) (ballots : list (ciphertext E * proof E)) : Prop :=
  exists (g_i : list (G1 E)) (votes : list (list Z)) (total : ciphertext E),
    get_gs_for_encryption (gpk_vk (pk_pk (kg_pk keys))) = Ok g_i /\
    Forall2 (fun ballot vote => length vote = n /\ digits_ok b vote /\
      exists r, encrypts (kg_ek keys) g_i vote (ct_X_r (fst ballot) :: ct_enc_chunks (fst ballot) ++ [ct_commitment (fst ballot)]) r) ballots votes /\
    sum_cts (map (fun ballot => ct_X_r (fst ballot) :: ct_enc_chunks (fst ballot) ++ [ct_commitment (fst ballot)]) ballots) =
      Ok (ct_X_r total :: ct_enc_chunks total ++ [ct_commitment total]) /\
    forall (G : rng_impl E) (st : rng_st G), exists st',
      decrypt_together pf G b' gens g_i (map fst (kg_parties keys)) total st = Ok (chunk_sum n votes, st').
