(* PropSoundAdapt.v -- C68: C59-C61 for provers that look at the published elements before they choose what to output *)
From Verif Require Import Base BaseFacts Algebra Utils UtilsFacts Setup Keygen Encryption Circuit CircuitFacts CircuitSat CommitmentFacts VecFacts KeySpec KeygenFacts
  EncryptFacts DecryptFacts Spec VerifyFacts Protocol ReencFacts DistFacts Groth16 ArkGroth16 PolyFacts Groth16Spec ArkFacts Groth16Facts Instance Examples PropGroth16 PropGroth16Cases
  SchwartzZippel SoundCore SoundSpec SoundAlg SoundGame SoundLink SoundFacts SoundCount SoundHonest PropSound PropSoundCases PrivacySpec PrivacyAlg PrivacyGame PrivacyCount SoundAdaptSpec SoundAdapt.

(* C68.  A prover that first tests, one after the other and depending on the answers so far, whether products of pairings of the
   published elements are one, and then outputs linear combinations of them that depend on the answers, fools verification on at most
   a fraction (4|domain| + 7(3n+6) + (number of tests on the longest path) (3|domain| + 7(3n+6)))/p of the setups. *)
Theorem C68_adaptive_provers_know_what_they_encrypt (E : pairing) (gens : encryption_gens E) (pf : profile)
    (domain : nat -> option (list (Fr E))) (fuel n : nat) (b : Z) (cs : csys (K_of E)) (xs : list (Fr E)) (P : prover E) (L : list (list (Fr E))) :
  eg_G gens <> gzero -> eg_H gens <> gzero -> domain_ok domain ->
  0 < b <= modulus_bit_size (K_of E) -> chunks_count (K_of E) b = Ok (Z.of_nat n) -> (0 < n)%nat ->
  generate_constraints (BitsizeCheckCircuit b (Z.of_nat n) None true) (cs_new Circuit.Setup) = Ok cs ->
  domain (length (cs_cons cs) + cs_num_inst cs)%nat = Some xs ->
  NoDup L ->
  (forall tape, In tape L -> length tape = (3 * n + 7)%nat /\ exists pk sk ek dk st',
     setup_for_groth16 (ark_backend pf domain fuel) (replay_rng E) b gens tape = Ok (pk, sk, ek, dk, st') /\
     let S := play P (public_g1 gens pk ek) (public_g2 gens pk ek dk) in
     verify_commitment_and_proof (forge_ciphertext S gens pk ek) (forge_proof S gens pk ek dk)
       (prepare_verifying_key (gpk_vk (pk_pk pk))) (prepare_ek ek) (prepare_gens gens) = Ok tt /\
     ~ (digits_ok b (extracted_chunks n S) /\ exists g_i, get_gs_for_encryption (gpk_vk (pk_pk pk)) = Ok g_i /\
        encrypts ek g_i (extracted_chunks n S) (ct_vec (forge_ciphertext S gens pk ek)) (extracted_r n S))) ->
  Z.of_nat (length L) * modulus (K_of E) <=
  (Z.of_nat (tests P) * (3 * Z.of_nat (length xs) + 7 * (3 * Z.of_nat n + 6)) + (4 * Z.of_nat (length xs) + 7 * (3 * Z.of_nat n + 6))) * modulus (K_of E) ^ Z.of_nat (3 * n + 7).
Proof.
  intros HG HH Hd Hb Hc Hn Hcs Hxs Hnd HL.
  apply (adaptive_bound n cs xs pf domain fuel b gens) with (bad := fun S tape => exists pk sk ek dk st',
     setup_for_groth16 (ark_backend pf domain fuel) (replay_rng E) b gens tape = Ok (pk, sk, ek, dk, st') /\
     verify_commitment_and_proof (forge_ciphertext S gens pk ek) (forge_proof S gens pk ek dk)
       (prepare_verifying_key (gpk_vk (pk_pk pk))) (prepare_ek ek) (prepare_gens gens) = Ok tt /\
     ~ (digits_ok b (extracted_chunks n S) /\ exists g_i, get_gs_for_encryption (gpk_vk (pk_pk pk)) = Ok g_i /\
        encrypts ek g_i (extracted_chunks n S) (ct_vec (forge_ciphertext S gens pk ek)) (extracted_r n S))); try eassumption; try lia.
  - intros S L0 Hnd0 HL0. eapply cheat_bound; try eassumption; lia.
  - intros l Hl. destruct (HL l Hl) as [L1 L2]. split; [exact L1|]. intros _. destruct L2 as (pk & sk & ek & dk & st' & Hs & Hx). cbv zeta in Hx.
    exists pk, sk, ek, dk, st'. split; [exact Hs|]. exists pk, sk, ek, dk, st'. split; [exact Hs|exact Hx].
Qed.

(* The same for the key holder, who decrypts what is accepted to the chunks read off the strategy played. *)
Theorem C68_adaptive_provers_ciphertexts_decrypt (E : pairing) (gens : encryption_gens E) (pf : profile)
    (domain : nat -> option (list (Fr E))) (fuel n : nat) (b : Z) (cs : csys (K_of E)) (xs : list (Fr E)) (P : prover E) (L : list (list (Fr E))) :
  eg_G gens <> gzero -> eg_H gens <> gzero -> domain_ok domain ->
  0 < b <= 16 -> b < modulus_bit_size (K_of E) -> chunks_count (K_of E) b = Ok (Z.of_nat n) -> (0 < n)%nat ->
  generate_constraints (BitsizeCheckCircuit b (Z.of_nat n) None true) (cs_new Circuit.Setup) = Ok cs ->
  domain (length (cs_cons cs) + cs_num_inst cs)%nat = Some xs ->
  NoDup L ->
  (forall tape, In tape L -> length tape = (3 * n + 7)%nat /\ exists pk sk ek dk st',
     setup_for_groth16 (ark_backend pf domain fuel) (replay_rng E) b gens tape = Ok (pk, sk, ek, dk, st') /\
     let S := play P (public_g1 gens pk ek) (public_g2 gens pk ek dk) in
     verify_commitment_and_proof (forge_ciphertext S gens pk ek) (forge_proof S gens pk ek dk)
       (prepare_verifying_key (gpk_vk (pk_pk pk))) (prepare_ek ek) (prepare_gens gens) = Ok tt /\
     ~ (exists g_i, get_gs_for_encryption (gpk_vk (pk_pk pk)) = Ok g_i /\ let ct := forge_ciphertext S gens pk ek in
        decrypt_to_chunks pf (ct_X_r ct) (ct_enc_chunks ct) sk (prepare_dk dk) g_i b = Ok (extracted_chunks n S, sk [*] ct_X_r ct))) ->
  Z.of_nat (length L) * modulus (K_of E) <=
  (Z.of_nat (tests P) * (3 * Z.of_nat (length xs) + 7 * (3 * Z.of_nat n + 6)) + (4 * Z.of_nat (length xs) + 7 * (3 * Z.of_nat n + 6) + (1 + Z.of_nat n + Z.of_nat n * (Z.of_nat (length xs) + 2)))) * modulus (K_of E) ^ Z.of_nat (3 * n + 7).
Proof.
  intros HG HH Hd Hb Hbb Hc Hn Hcs Hxs Hnd HL.
  apply (adaptive_bound n cs xs pf domain fuel b gens) with (bad := fun S tape => exists pk sk ek dk st',
     setup_for_groth16 (ark_backend pf domain fuel) (replay_rng E) b gens tape = Ok (pk, sk, ek, dk, st') /\
     verify_commitment_and_proof (forge_ciphertext S gens pk ek) (forge_proof S gens pk ek dk)
       (prepare_verifying_key (gpk_vk (pk_pk pk))) (prepare_ek ek) (prepare_gens gens) = Ok tt /\
     ~ (exists g_i, get_gs_for_encryption (gpk_vk (pk_pk pk)) = Ok g_i /\ let ct := forge_ciphertext S gens pk ek in
        decrypt_to_chunks pf (ct_X_r ct) (ct_enc_chunks ct) sk (prepare_dk dk) g_i b = Ok (extracted_chunks n S, sk [*] ct_X_r ct))); try eassumption; try lia.
  - intros S L0 Hnd0 HL0. eapply undecryptable_bound; try eassumption; lia.
  - intros l Hl. destruct (HL l Hl) as [L1 L2]. split; [exact L1|]. intros _. destruct L2 as (pk & sk & ek & dk & st' & Hs & Hx). cbv zeta in Hx.
    exists pk, sk, ek, dk, st'. split; [exact Hs|]. exists pk, sk, ek, dk, st'. split; [exact Hs|exact Hx].
Qed.

(* The same for the commitment check without the proof. *)
Theorem C68_adaptive_provers_commitment_check_alone (E : pairing) (gens : encryption_gens E) (pf : profile)
    (domain : nat -> option (list (Fr E))) (fuel n : nat) (b : Z) (cs : csys (K_of E)) (xs : list (Fr E)) (P : prover E) (L : list (list (Fr E))) :
  eg_G gens <> gzero -> eg_H gens <> gzero -> domain_ok domain ->
  0 < b <= modulus_bit_size (K_of E) -> chunks_count (K_of E) b = Ok (Z.of_nat n) -> (0 < n)%nat ->
  generate_constraints (BitsizeCheckCircuit b (Z.of_nat n) None true) (cs_new Circuit.Setup) = Ok cs ->
  domain (length (cs_cons cs) + cs_num_inst cs)%nat = Some xs ->
  NoDup L ->
  (forall tape, In tape L -> length tape = (3 * n + 7)%nat /\ exists pk sk ek dk st',
     setup_for_groth16 (ark_backend pf domain fuel) (replay_rng E) b gens tape = Ok (pk, sk, ek, dk, st') /\
     let S := play P (public_g1 gens pk ek) (public_g2 gens pk ek dk) in
     verify_commitment (forge_ciphertext S gens pk ek) (prepare_ek ek) (prepare_gens gens) = Ok tt /\
     ~ (exists g_i, get_gs_for_encryption (gpk_vk (pk_pk pk)) = Ok g_i /\
        encrypts ek g_i (extracted_chunks n S) (ct_vec (forge_ciphertext S gens pk ek)) (extracted_r n S))) ->
  Z.of_nat (length L) * modulus (K_of E) <=
  (Z.of_nat (tests P) * (3 * Z.of_nat (length xs) + 7 * (3 * Z.of_nat n + 6)) + (4 * Z.of_nat (length xs) + 7 * (3 * Z.of_nat n + 6))) * modulus (K_of E) ^ Z.of_nat (3 * n + 7).
Proof.
  intros HG HH Hd Hb Hc Hn Hcs Hxs Hnd HL.
  apply (adaptive_bound n cs xs pf domain fuel b gens) with (bad := fun S tape => exists pk sk ek dk st',
     setup_for_groth16 (ark_backend pf domain fuel) (replay_rng E) b gens tape = Ok (pk, sk, ek, dk, st') /\
     verify_commitment (forge_ciphertext S gens pk ek) (prepare_ek ek) (prepare_gens gens) = Ok tt /\
     ~ (exists g_i, get_gs_for_encryption (gpk_vk (pk_pk pk)) = Ok g_i /\
        encrypts ek g_i (extracted_chunks n S) (ct_vec (forge_ciphertext S gens pk ek)) (extracted_r n S))); try eassumption; try lia.
  - intros S L0 Hnd0 HL0. eapply commitment_cheat_bound; try eassumption; lia.
  - intros l Hl. destruct (HL l Hl) as [L1 L2]. split; [exact L1|]. intros _. destruct L2 as (pk & sk & ek & dk & st' & Hs & Hx). cbv zeta in Hx.
    exists pk, sk, ek, dk, st'. split; [exact Hs|]. exists pk, sk, ek, dk, st'. split; [exact Hs|exact Hx].
Qed.

(* The bound of C59 is the case of no tests. *)
Corollary C68_fixed_strategies_are_provers_without_tests (E : pairing) (S : strategy E) Ps Qs : play (Output S) Ps Qs = S /\ tests (Output S) = 0%nat.
Proof. split; reflexivity. Qed.

(* A prover that really adapts: it tests whether its second published element of G1 is the identity, and plays one of two strategies that
   differ accordingly.  On the concrete setup of PropSoundCases.v one of the two branches cheats with chunks that are too big. *)
Example C68_case (pf : profile) : exists (cs : csys K61) pk sk ek dk st' (P : prover E61),
  generate_constraints (BitsizeCheckCircuit 16 (Z.of_nat 4) None true) (cs_new Circuit.Setup) = Ok cs /\
  y_domain (length (cs_cons cs) + cs_num_inst cs)%nat = Some y_xs /\ length z_tape = (3 * 4 + 7)%nat /\ tests P = 1%nat /\
  setup_for_groth16 (ark_backend pf y_domain 3) (replay_rng E61) 16 x_gens z_tape = Ok (pk, sk, ek, dk, st') /\
  let S := play P (public_g1 x_gens pk ek) (public_g2 x_gens pk ek dk) in
  verify_commitment_and_proof (forge_ciphertext S x_gens pk ek) (forge_proof S x_gens pk ek dk)
    (prepare_verifying_key (gpk_vk (pk_pk pk))) (prepare_ek ek) (prepare_gens x_gens) = Ok tt /\
  extracted_chunks 4 S = [2 ^ 16; 0; 0; 0] /\ ~ digits_ok 16 (extracted_chunks 4 S).
Proof.
  destruct (C59_case pf) as (cs & pk & sk & ek & dk & st' & S & Hcs & Hd & Hl & Hset & Hver & HS & Hdig).
  set (q := [[]; [@fone K61]] : list (list (Fr E61))). set (none := Strategy [] [] [] [] [] [] : strategy E61).
  set (ans := geqb (pairing_product q (public_g1 x_gens pk ek) (public_g2 x_gens pk ek dk)) gzero).
  exists cs, pk, sk, ek, dk, st', (if ans then Test q (Output S) (Output none) else Test q (Output none) (Output S)).
  assert (Hp : play (if ans then Test q (Output S) (Output none) else Test q (Output none) (Output S)) (public_g1 x_gens pk ek) (public_g2 x_gens pk ek dk) = S).
  { destruct ans eqn:Ha; cbn [play]; unfold ans in Ha; rewrite Ha; reflexivity. }
  cbv zeta. rewrite Hp. clear Hp. split; [exact Hcs|]. split; [exact Hd|]. split; [exact Hl|]. split; [destruct ans; reflexivity|]. split; [exact Hset|].
  split; [exact Hver|]. split; [exact HS|exact Hdig].
Qed.
