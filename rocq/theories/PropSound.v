(* PropSound.v -- C59-C61: what acceptance by the verifier says about a cheating prover *)
From Verif Require Import Base BaseFacts Algebra Utils UtilsFacts Setup Keygen Encryption Circuit CircuitFacts CircuitSat CommitmentFacts VecFacts KeySpec KeygenFacts
  EncryptFacts DecryptFacts Spec VerifyFacts Protocol ReencFacts DistFacts Groth16 ArkGroth16 PolyFacts Groth16Spec ArkFacts Groth16Facts SchwartzZippel SoundCore SoundSpec
  SoundAlg SoundGame SoundLink SoundFacts SoundCount.

(* A tape of 3n+7 scalars is one execution of setup_for_groth16: alpha, beta, gamma, delta, the evaluation point, rho, s_1..s_n,
   t_0..t_n, v_1..v_n.  There are p^(3n+7) tapes. *)

(* C59.  A prover that outputs fixed linear combinations of the published elements (SoundSpec.v) fools verification -- it is
   accepted although its ciphertext is not an encryption, under the published key, of the b-bit chunks that can be read off its
   own coefficients -- on at most a fraction (4|domain| + 7(3n+6))/p of the setups. *)
Theorem C59_accepted_ciphertexts_are_known_encryptions (E : pairing) (gens : encryption_gens E) (pf : profile)
    (domain : nat -> option (list (Fr E))) (fuel n : nat) (b : Z) (cs : csys (K_of E)) (xs : list (Fr E)) (S : strategy E) (L : list (list (Fr E))) :
  eg_G gens <> gzero -> eg_H gens <> gzero -> domain_ok domain ->
  0 < b <= modulus_bit_size (K_of E) -> chunks_count (K_of E) b = Ok (Z.of_nat n) -> (0 < n)%nat ->
  generate_constraints (BitsizeCheckCircuit b (Z.of_nat n) None true) (cs_new Circuit.Setup) = Ok cs ->
  domain (length (cs_cons cs) + cs_num_inst cs)%nat = Some xs ->
  NoDup L ->
  (forall tape, In tape L -> length tape = (3 * n + 7)%nat /\ exists pk sk ek dk st',
     setup_for_groth16 (ark_backend pf domain fuel) (replay_rng E) b gens tape = Ok (pk, sk, ek, dk, st') /\
     verify_commitment_and_proof (forge_ciphertext S gens pk ek) (forge_proof S gens pk ek dk)
       (prepare_verifying_key (gpk_vk (pk_pk pk))) (prepare_ek ek) (prepare_gens gens) = Ok tt /\
     ~ (digits_ok b (extracted_chunks n S) /\ exists g_i, get_gs_for_encryption (gpk_vk (pk_pk pk)) = Ok g_i /\
        encrypts ek g_i (extracted_chunks n S) (ct_vec (forge_ciphertext S gens pk ek)) (extracted_r n S))) ->
  Z.of_nat (length L) * modulus (K_of E) <=
  (4 * Z.of_nat (length xs) + 7 * (3 * Z.of_nat n + 6)) * modulus (K_of E) ^ Z.of_nat (3 * n + 7).
Proof. intros HG HH Hd Hb Hc Hn Hcs Hxs Hnd HL. eapply cheat_bound; try eassumption. intros l Hl. destruct (HL l Hl) as [L1 L2]. split; [exact L1|intros _; exact L2]. Qed.

(* C60.  The same for the key holder: on all but a fraction (4|domain| + 7(3n+6) + 1 + n + n(|domain|+2))/p of the setups, whatever
   such a prover gets accepted decrypts, to exactly the chunks that can be read off its coefficients. *)
Theorem C60_accepted_ciphertexts_decrypt (E : pairing) (gens : encryption_gens E) (pf : profile)
    (domain : nat -> option (list (Fr E))) (fuel n : nat) (b : Z) (cs : csys (K_of E)) (xs : list (Fr E)) (S : strategy E) (L : list (list (Fr E))) :
  eg_G gens <> gzero -> eg_H gens <> gzero -> domain_ok domain ->
  0 < b <= 16 -> b < modulus_bit_size (K_of E) -> chunks_count (K_of E) b = Ok (Z.of_nat n) -> (0 < n)%nat ->
  generate_constraints (BitsizeCheckCircuit b (Z.of_nat n) None true) (cs_new Circuit.Setup) = Ok cs ->
  domain (length (cs_cons cs) + cs_num_inst cs)%nat = Some xs ->
  NoDup L ->
  (forall tape, In tape L -> length tape = (3 * n + 7)%nat /\ exists pk sk ek dk st',
     setup_for_groth16 (ark_backend pf domain fuel) (replay_rng E) b gens tape = Ok (pk, sk, ek, dk, st') /\
     verify_commitment_and_proof (forge_ciphertext S gens pk ek) (forge_proof S gens pk ek dk)
       (prepare_verifying_key (gpk_vk (pk_pk pk))) (prepare_ek ek) (prepare_gens gens) = Ok tt /\
     ~ exists g_i, get_gs_for_encryption (gpk_vk (pk_pk pk)) = Ok g_i /\ let ct := forge_ciphertext S gens pk ek in
        decrypt_to_chunks pf (ct_X_r ct) (ct_enc_chunks ct) sk (prepare_dk dk) g_i b = Ok (extracted_chunks n S, sk [*] ct_X_r ct)) ->
  Z.of_nat (length L) * modulus (K_of E) <=
  (4 * Z.of_nat (length xs) + 7 * (3 * Z.of_nat n + 6) + (1 + Z.of_nat n + Z.of_nat n * (Z.of_nat (length xs) + 2))) * modulus (K_of E) ^ Z.of_nat (3 * n + 7).
Proof. intros HG HH Hd Hb Hbb Hc Hn Hcs Hxs Hnd HL. eapply undecryptable_bound; try eassumption; try lia. intros l Hl. destruct (HL l Hl) as [L1 L2]. split; [exact L1|intros _; exact L2]. Qed.

(* C61.  Without the SNARK proof, the commitment check alone still means that the ciphertext is an encryption of chunks the prover
   knows -- of any size. *)
Theorem C61_commitment_check_alone (E : pairing) (gens : encryption_gens E) (pf : profile)
    (domain : nat -> option (list (Fr E))) (fuel n : nat) (b : Z) (cs : csys (K_of E)) (xs : list (Fr E)) (S : strategy E) (L : list (list (Fr E))) :
  eg_G gens <> gzero -> eg_H gens <> gzero -> domain_ok domain ->
  0 < b <= modulus_bit_size (K_of E) -> chunks_count (K_of E) b = Ok (Z.of_nat n) -> (0 < n)%nat ->
  generate_constraints (BitsizeCheckCircuit b (Z.of_nat n) None true) (cs_new Circuit.Setup) = Ok cs ->
  domain (length (cs_cons cs) + cs_num_inst cs)%nat = Some xs ->
  NoDup L ->
  (forall tape, In tape L -> length tape = (3 * n + 7)%nat /\ exists pk sk ek dk st',
     setup_for_groth16 (ark_backend pf domain fuel) (replay_rng E) b gens tape = Ok (pk, sk, ek, dk, st') /\
     verify_commitment (forge_ciphertext S gens pk ek) (prepare_ek ek) (prepare_gens gens) = Ok tt /\
     ~ (exists g_i, get_gs_for_encryption (gpk_vk (pk_pk pk)) = Ok g_i /\
        encrypts ek g_i (extracted_chunks n S) (ct_vec (forge_ciphertext S gens pk ek)) (extracted_r n S))) ->
  Z.of_nat (length L) * modulus (K_of E) <=
  (4 * Z.of_nat (length xs) + 7 * (3 * Z.of_nat n + 6)) * modulus (K_of E) ^ Z.of_nat (3 * n + 7).
Proof. intros HG HH Hd Hb Hc Hn Hcs Hxs Hnd HL. eapply commitment_cheat_bound; try eassumption. intros l Hl. destruct (HL l Hl) as [L1 L2]. split; [exact L1|intros _; exact L2]. Qed.
