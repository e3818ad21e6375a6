(* PropSoundKnown.v -- C76: which secrets a cheating prover would have to know *)
From Verif Require Import Base BaseFacts Algebra Utils UtilsFacts Setup Keygen Encryption Circuit CircuitFacts CircuitSat CommitmentFacts VecFacts KeySpec KeygenFacts
  EncryptFacts DecryptFacts Spec VerifyFacts Protocol ReencFacts DistFacts Groth16 ArkGroth16 PolyFacts Groth16Spec ArkFacts Groth16Facts Instance Examples PropGroth16 PropGroth16Cases
  SchwartzZippel SoundCore SoundSpec SoundAlg SoundGame SoundLink SoundFacts SoundCount SoundHonest PropSound PropSoundCases PrivacySpec PrivacyAlg PrivacyGame PrivacyCount PropPrivacy SoundAdaptSpec SoundAdapt
  SoundKnownSpec SoundKnown.

(* The secret key rho, the exponents s_1..s_n of the X_i and the exponents v_1..v_n of the decryption key are fixed beforehand; the prover,
   which is quantified after them, may depend on them in any way.  The coins that are left are the n+6 scalars alpha, beta, gamma, delta,
   the evaluation point and t_0..t_n; SoundKnownSpec.known_tape puts them on the tape of setup_for_groth16 together with the known ones. *)

(* C76.  Knowing everything that decrypts does not help to cheat: the coins on which the holder of these secrets gets something accepted
   that is not an encryption of the b-bit chunks read off its output are at most a fraction
   (4N + 7(n+5) + (number of tests) (3N + 7(n+5)))/p of all. *)
Theorem C76_decryptors_know_what_they_encrypt (E : pairing) (gens : encryption_gens E) (pf : profile)
    (domain : nat -> option (list (Fr E))) (fuel n : nat) (b : Z) (cs : csys (K_of E)) (xs : list (Fr E)) (rho : Fr E) (s v : list (Fr E)) (P : prover E) (L : list (list (Fr E))) :
  eg_G gens <> gzero -> eg_H gens <> gzero -> domain_ok domain ->
  0 < b <= modulus_bit_size (K_of E) -> chunks_count (K_of E) b = Ok (Z.of_nat n) -> (0 < n)%nat ->
  generate_constraints (BitsizeCheckCircuit b (Z.of_nat n) None true) (cs_new Circuit.Setup) = Ok cs ->
  domain (length (cs_cons cs) + cs_num_inst cs)%nat = Some xs ->
  length s = n -> length v = n ->
  NoDup L ->
  (forall coins, In coins L -> length coins = (n + 6)%nat /\ exists pk sk ek dk st',
     setup_for_groth16 (ark_backend pf domain fuel) (replay_rng E) b gens (known_tape rho s v coins) = Ok (pk, sk, ek, dk, st') /\
     let S := play P (public_g1 gens pk ek) (public_g2 gens pk ek dk) in
     verify_commitment_and_proof (forge_ciphertext S gens pk ek) (forge_proof S gens pk ek dk)
       (prepare_verifying_key (gpk_vk (pk_pk pk))) (prepare_ek ek) (prepare_gens gens) = Ok tt /\
     ~ (digits_ok b (extracted_chunks n S) /\ exists g_i, get_gs_for_encryption (gpk_vk (pk_pk pk)) = Ok g_i /\
        encrypts ek g_i (extracted_chunks n S) (ct_vec (forge_ciphertext S gens pk ek)) (extracted_r n S))) ->
  Z.of_nat (length L) * modulus (K_of E) <=
  (Z.of_nat (tests P) * (3 * Z.of_nat (length xs) + 7 * (Z.of_nat n + 5)) + (4 * Z.of_nat (length xs) + 7 * (Z.of_nat n + 5))) * modulus (K_of E) ^ Z.of_nat (n + 6).
Proof.
  intros HG HH Hd Hb Hc Hn Hcs Hxs Ls Lv Hnd HL.
  apply (known_adaptive_bound n cs xs pf domain fuel b gens HG HH Hb Hc Hn Hcs Hxs rho s v Ls Lv) with (bad := fun S coins => exists pk sk ek dk st',
     setup_for_groth16 (ark_backend pf domain fuel) (replay_rng E) b gens (known_tape rho s v coins) = Ok (pk, sk, ek, dk, st') /\
     verify_commitment_and_proof (forge_ciphertext S gens pk ek) (forge_proof S gens pk ek dk)
       (prepare_verifying_key (gpk_vk (pk_pk pk))) (prepare_ek ek) (prepare_gens gens) = Ok tt /\
     ~ (digits_ok b (extracted_chunks n S) /\ exists g_i, get_gs_for_encryption (gpk_vk (pk_pk pk)) = Ok g_i /\
        encrypts ek g_i (extracted_chunks n S) (ct_vec (forge_ciphertext S gens pk ek)) (extracted_r n S))); [|exact Hnd|].
  - intros S L0 Hnd0 HL0. apply (known_cheat_bound n cs xs pf domain fuel b gens HG HH Hd Hb Hc Hn Hcs Hxs rho s v Ls Lv S L0 Hnd0 HL0).
  - intros l Hl. destruct (HL l Hl) as [L1 L2]. split; [exact L1|]. intros _. destruct L2 as (pk & sk & ek & dk & st' & Hs & Hx). cbv zeta in Hx.
    exists pk, sk, ek, dk, st'. split; [exact Hs|]. exists pk, sk, ek, dk, st'. split; [exact Hs|exact Hx].
Qed.

(* The same for the commitment check without the proof. *)
Theorem C76_decryptors_commitment_check_alone (E : pairing) (gens : encryption_gens E) (pf : profile)
    (domain : nat -> option (list (Fr E))) (fuel n : nat) (b : Z) (cs : csys (K_of E)) (xs : list (Fr E)) (rho : Fr E) (s v : list (Fr E)) (P : prover E) (L : list (list (Fr E))) :
  eg_G gens <> gzero -> eg_H gens <> gzero -> domain_ok domain ->
  0 < b <= modulus_bit_size (K_of E) -> chunks_count (K_of E) b = Ok (Z.of_nat n) -> (0 < n)%nat ->
  generate_constraints (BitsizeCheckCircuit b (Z.of_nat n) None true) (cs_new Circuit.Setup) = Ok cs ->
  domain (length (cs_cons cs) + cs_num_inst cs)%nat = Some xs ->
  length s = n -> length v = n ->
  NoDup L ->
  (forall coins, In coins L -> length coins = (n + 6)%nat /\ exists pk sk ek dk st',
     setup_for_groth16 (ark_backend pf domain fuel) (replay_rng E) b gens (known_tape rho s v coins) = Ok (pk, sk, ek, dk, st') /\
     let S := play P (public_g1 gens pk ek) (public_g2 gens pk ek dk) in
     verify_commitment (forge_ciphertext S gens pk ek) (prepare_ek ek) (prepare_gens gens) = Ok tt /\
     ~ (exists g_i, get_gs_for_encryption (gpk_vk (pk_pk pk)) = Ok g_i /\
        encrypts ek g_i (extracted_chunks n S) (ct_vec (forge_ciphertext S gens pk ek)) (extracted_r n S))) ->
  Z.of_nat (length L) * modulus (K_of E) <=
  (Z.of_nat (tests P) * (3 * Z.of_nat (length xs) + 7 * (Z.of_nat n + 5)) + (4 * Z.of_nat (length xs) + 7 * (Z.of_nat n + 5))) * modulus (K_of E) ^ Z.of_nat (n + 6).
Proof.
  intros HG HH Hd Hb Hc Hn Hcs Hxs Ls Lv Hnd HL.
  apply (known_adaptive_bound n cs xs pf domain fuel b gens HG HH Hb Hc Hn Hcs Hxs rho s v Ls Lv) with (bad := fun S coins => exists pk sk ek dk st',
     setup_for_groth16 (ark_backend pf domain fuel) (replay_rng E) b gens (known_tape rho s v coins) = Ok (pk, sk, ek, dk, st') /\
     verify_commitment (forge_ciphertext S gens pk ek) (prepare_ek ek) (prepare_gens gens) = Ok tt /\
     ~ (exists g_i, get_gs_for_encryption (gpk_vk (pk_pk pk)) = Ok g_i /\
        encrypts ek g_i (extracted_chunks n S) (ct_vec (forge_ciphertext S gens pk ek)) (extracted_r n S))); [|exact Hnd|].
  - intros S L0 Hnd0 HL0. apply (known_commitment_bound n cs xs pf domain fuel b gens HG HH Hd Hb Hc Hn Hcs Hxs rho s v Ls Lv S L0 Hnd0 HL0).
  - intros l Hl. destruct (HL l Hl) as [L1 L2]. split; [exact L1|]. intros _. destruct L2 as (pk & sk & ek & dk & st' & Hs & Hx). cbv zeta in Hx.
    exists pk, sk, ek, dk, st'. split; [exact Hs|]. exists pk, sk, ek, dk, st'. split; [exact Hs|exact Hx].
Qed.

(* What is accepted decrypts to the chunks read off the prover's output, whatever rho other than zero, s and non-zero v the prover knows. *)
Theorem C76_decryptors_ciphertexts_decrypt (E : pairing) (gens : encryption_gens E) (pf : profile)
    (domain : nat -> option (list (Fr E))) (fuel n : nat) (b : Z) (cs : csys (K_of E)) (xs : list (Fr E)) (rho : Fr E) (s v : list (Fr E)) (P : prover E) (L : list (list (Fr E))) :
  eg_G gens <> gzero -> eg_H gens <> gzero -> domain_ok domain ->
  0 < b <= 16 -> b < modulus_bit_size (K_of E) -> chunks_count (K_of E) b = Ok (Z.of_nat n) -> (0 < n)%nat ->
  generate_constraints (BitsizeCheckCircuit b (Z.of_nat n) None true) (cs_new Circuit.Setup) = Ok cs ->
  domain (length (cs_cons cs) + cs_num_inst cs)%nat = Some xs ->
  length s = n -> length v = n -> rho <> fzero -> Forall (fun x => x <> fzero) v ->
  NoDup L ->
  (forall coins, In coins L -> length coins = (n + 6)%nat /\ exists pk sk ek dk st',
     setup_for_groth16 (ark_backend pf domain fuel) (replay_rng E) b gens (known_tape rho s v coins) = Ok (pk, sk, ek, dk, st') /\
     let S := play P (public_g1 gens pk ek) (public_g2 gens pk ek dk) in
     verify_commitment_and_proof (forge_ciphertext S gens pk ek) (forge_proof S gens pk ek dk)
       (prepare_verifying_key (gpk_vk (pk_pk pk))) (prepare_ek ek) (prepare_gens gens) = Ok tt /\
     ~ (exists g_i, get_gs_for_encryption (gpk_vk (pk_pk pk)) = Ok g_i /\ let ct := forge_ciphertext S gens pk ek in
        decrypt_to_chunks pf (ct_X_r ct) (ct_enc_chunks ct) sk (prepare_dk dk) g_i b = Ok (extracted_chunks n S, sk [*] ct_X_r ct))) ->
  Z.of_nat (length L) * modulus (K_of E) <=
  (Z.of_nat (tests P) * (3 * Z.of_nat (length xs) + 7 * (Z.of_nat n + 5)) + (4 * Z.of_nat (length xs) + 7 * (Z.of_nat n + 5) + Z.of_nat n * (Z.of_nat (length xs) + 2))) * modulus (K_of E) ^ Z.of_nat (n + 6).
Proof.
  intros HG HH Hd Hb Hbb Hc Hn Hcs Hxs Ls Lv Hr Hvs Hnd HL. assert (Hb' : 0 < b <= modulus_bit_size (K_of E)) by lia.
  apply (known_adaptive_bound n cs xs pf domain fuel b gens HG HH Hb' Hc Hn Hcs Hxs rho s v Ls Lv) with (bad := fun S coins => exists pk sk ek dk st',
     setup_for_groth16 (ark_backend pf domain fuel) (replay_rng E) b gens (known_tape rho s v coins) = Ok (pk, sk, ek, dk, st') /\
     verify_commitment_and_proof (forge_ciphertext S gens pk ek) (forge_proof S gens pk ek dk)
       (prepare_verifying_key (gpk_vk (pk_pk pk))) (prepare_ek ek) (prepare_gens gens) = Ok tt /\
     ~ (exists g_i, get_gs_for_encryption (gpk_vk (pk_pk pk)) = Ok g_i /\ let ct := forge_ciphertext S gens pk ek in
        decrypt_to_chunks pf (ct_X_r ct) (ct_enc_chunks ct) sk (prepare_dk dk) g_i b = Ok (extracted_chunks n S, sk [*] ct_X_r ct))); [|exact Hnd|].
  - intros S L0 Hnd0 HL0. apply (known_undecryptable_bound n cs xs pf domain fuel b gens HG HH Hd Hb' Hc Hn Hcs Hxs rho s v Ls Lv S L0); try assumption; lia.
  - intros l Hl. destruct (HL l Hl) as [L1 L2]. split; [exact L1|]. intros _. destruct L2 as (pk & sk & ek & dk & st' & Hs & Hx). cbv zeta in Hx.
    exists pk, sk, ek, dk, st'. split; [exact Hs|]. exists pk, sk, ek, dk, st'. split; [exact Hs|exact Hx].
Qed.

(* The other secrets must be destroyed.  First those of the SRS: a prover that knows alpha, beta, gamma and the evaluation point gets any chunks
   accepted under any randomness, on every setup with these four values, whatever the key generation drew. *)
Theorem C76_srs_secrets_suffice_to_cheat (E : pairing) (gens : encryption_gens E) (pf : profile)
    (domain : nat -> option (list (Fr E))) (fuel n : nat) (b : Z) (cs : csys (K_of E)) (xs : list (Fr E)) (alpha beta gamma tau : Fr E) (ds : list Z) (r : Fr E) :
  domain_ok domain -> 0 < b <= modulus_bit_size (K_of E) -> chunks_count (K_of E) b = Ok (Z.of_nat n) -> (0 < n)%nat ->
  generate_constraints (BitsizeCheckCircuit b (Z.of_nat n) None true) (cs_new Circuit.Setup) = Ok cs ->
  domain (length (cs_cons cs) + cs_num_inst cs)%nat = Some xs -> ~ In tau xs ->
  length ds = n -> Forall (fun z => 0 <= z < modulus (K_of E)) ds ->
  exists S : strategy E, extracted_chunks n S = ds /\ extracted_r n S = r /\
    forall delta rho s ts v pk sk ek dk st', length s = n -> length ts = (n + 1)%nat -> length v = n ->
    setup_for_groth16 (ark_backend pf domain fuel) (replay_rng E) b gens (known_tape rho s v ([alpha; beta; gamma; delta; tau] ++ ts)) = Ok (pk, sk, ek, dk, st') ->
    verify_commitment_and_proof (forge_ciphertext S gens pk ek) (forge_proof S gens pk ek dk)
      (prepare_verifying_key (gpk_vk (pk_pk pk))) (prepare_ek ek) (prepare_gens gens) = Ok tt.
Proof.
  intros Hd Hb Hc Hn Hcs Hxs Hin Hdn Hsm.
  destruct (srs_secrets_cheat gens pf domain fuel n b cs xs alpha beta gamma tau ds r Hd Hb Hc Hn Hcs Hxs Hin Hdn Hsm) as (S & A1 & A2 & _ & A3).
  exists S. split; [exact A1|]. split; [exact A2|]. intros delta rho s ts v pk sk ek dk st' Ls Lt Lv Hset.
  assert (Hl : length (known_tape rho s v ([alpha; beta; gamma; delta; tau] ++ ts)) = (3 * n + 7)%nat).
  { unfold known_tape. cbn [app firstn skipn length]. rewrite !app_length, Ls, Lt, Lv. lia. }
  exact (proj2 (A3 (known_tape rho s v ([alpha; beta; gamma; delta; tau] ++ ts)) pk sk ek dk st' Hl eq_refl eq_refl eq_refl eq_refl Hset)).
Qed.

Section Move.
Context {E : pairing}.
Add Ring Krm : (@scalar_ring_theory (K_of E)).
(* Second the t of the key generation: already t_1 - t_2 moves any amount d between the first two chunks of anybody's accepted ciphertext,
   which stays accepted with the same proof. *)
Theorem C76_t_secrets_move_amounts (gens : encryption_gens E) (pf : profile)
    (domain : nat -> option (list (Fr E))) (fuel n : nat) (b : Z) (cs : csys (K_of E)) (xs : list (Fr E)) (tape : list (Fr E)) pk sk ek dk st'
    (c_0 c_1 c_2 : G1 E) (rest : list (G1 E)) (psi d : G1 E) (q : proof E) :
  eg_H gens <> gzero -> 0 < b <= modulus_bit_size (K_of E) -> chunks_count (K_of E) b = Ok (Z.of_nat n) -> (0 < n)%nat ->
  generate_constraints (BitsizeCheckCircuit b (Z.of_nat n) None true) (cs_new Circuit.Setup) = Ok cs ->
  domain (length (cs_cons cs) + cs_num_inst cs)%nat = Some xs ->
  length tape = (3 * n + 7)%nat -> ~ In (nth 4 tape fzero) xs ->
  setup_for_groth16 (ark_backend pf domain fuel) (replay_rng E) b gens tape = Ok (pk, sk, ek, dk, st') ->
  let t_1 := nth (7 + n) tape fzero in let t_2 := nth (8 + n) tape fzero in
  let ct := Ciphertext c_0 (c_1 :: c_2 :: rest) psi in
  let ct' := Ciphertext c_0 (c_1 [+] d :: c_2 [+] [-] d :: rest) (psi [+] (fsub t_1 t_2 [*] d)) in
  verify_commitment_and_proof ct q (prepare_verifying_key (gpk_vk (pk_pk pk))) (prepare_ek ek) (prepare_gens gens) = Ok tt ->
  verify_commitment_and_proof ct' q (prepare_verifying_key (gpk_vk (pk_pk pk))) (prepare_ek ek) (prepare_gens gens) = Ok tt.
Proof.
  intros HH Hbits Hn Hn0 Hcs Hxs Hl Hin Hset t_1 t_2 ct ct' Hacc.
  assert (Hv : vanishing_at xs (nth 4 tape fzero) <> fzero) by (rewrite vanishing_zero; exact Hin).
  pose proof (setup_tape n cs xs pf domain fuel b gens Hn Hcs Hxs (proj1 (cs_shape n cs xs b Hbits Hn0 Hcs)) tape pk sk ek dk st' Hl Hv Hset) as (_ & _ & _ & _ & Hek & _).
  unfold verify_commitment_and_proof in *. apply bind_Ok_inv in Hacc. destruct Hacc as ([] & Hcom & Hpr).
  assert (H256 := n256 n cs xs b Hn Hn0).
  assert (Hex := fun c => verify_exact gens (gis n cs xs gens tape) (nth 3 tape fzero [*] eg_G gens) (fneg (nth 2 tape fzero) [*] eg_G gens) (map (e_s tape) (seq 0 n)) (e_t n tape 0) (map (fun j => e_t n tape (S j)) (seq 0 n)) n c
    HH ltac:(rewrite map_length, seq_length; reflexivity) ltac:(rewrite map_length, seq_length; reflexivity) ltac:(unfold gis; rewrite map_length, seq_length; lia) H256).
  rewrite <- Hek in Hex. apply Hex in Hcom. destruct Hcom as [Hlen Hc]. unfold ct in Hlen, Hc. cbn [ct_enc_chunks ct_commitment ct_X_r length] in Hlen, Hc.
  assert (Hcom' : verify_commitment ct' (prepare_ek ek) (prepare_gens gens) = Ok tt).
  { apply Hex. unfold ct'. cbn [ct_enc_chunks ct_commitment ct_X_r length]. split; [exact Hlen|]. rewrite Hc. destruct n as [|[|m]]; [lia|discriminate Hlen|].
    cbn [seq map dot]. unfold t_1, t_2, e_t. replace (6 + Datatypes.S (Datatypes.S m) + 1)%nat with (7 + Datatypes.S (Datatypes.S m))%nat by lia. replace (6 + Datatypes.S (Datatypes.S m) + 2)%nat with (8 + Datatypes.S (Datatypes.S m))%nat by lia.
    glin. }
  rewrite Hcom'. cbn [bind]. rewrite <- Hpr. unfold verify_proof, calculate_d. unfold ct, ct'. cbn [ct_enc_chunks ct_X_r fold_left].
  replace (c_0 [+] (c_1 [+] d) [+] (c_2 [+] [-] d)) with (c_0 [+] c_1 [+] c_2); [reflexivity|]. glin.
Qed.

(* With d = 2^b times the first g_i the result is an encryption of no b-bit chunks at all. *)
Theorem C76_moved_amounts_are_not_digits (ek : encryption_key E) (g_1 : G1 E) (g_rest : list (G1 E)) (b : Z) (ds : list Z) (r : Fr E)
    (c_0 c_1 c_2 psi psi' : G1 E) (rest : list (G1 E)) :
  ek_X_0 ek <> gzero -> g_1 <> gzero -> 0 <= b -> 2 ^ (b + 1) <= modulus (K_of E) ->
  digits_ok b ds -> encrypts ek (g_1 :: g_rest) ds (ct_vec (Ciphertext c_0 (c_1 :: c_2 :: rest) psi)) r ->
  let d := of_Z (2 ^ b) [*] g_1 in
  forall ds' r', digits_ok b ds' -> ~ encrypts ek (g_1 :: g_rest) ds' (ct_vec (Ciphertext c_0 (c_1 [+] d :: c_2 [+] [-] d :: rest) psi')) r'.
Proof.
  intros HX Hg Hb0 Hb Hds He d ds' r' Hds' He'.
  apply encrypts_inv in He. destruct He as (n & Hwf & Hm & _ & Hv). apply encrypts_inv in He'. destruct He' as (n' & Hwf' & Hm' & _ & Hv').
  unfold ct_vec, ct_formula, body_formula in Hv, Hv'. cbn [ct_X_r ct_enc_chunks ct_commitment] in Hv, Hv'.
  destruct ds as [|m1 ds]; [cbn [length seq map app] in Hv; discriminate Hv|]. destruct ds' as [|m1' ds']; [cbn [length seq map app] in Hv'; discriminate Hv'|].
  cbn [length seq map app nth] in Hv, Hv'.
  assert (E0 : c_0 = r [*] ek_X_0 ek) by congruence. assert (E0' : c_0 = r' [*] ek_X_0 ek) by congruence.
  assert (E1 : c_1 = (r [*] nth 0 (ek_X ek) gzero) [+] (of_Z m1 [*] g_1)) by congruence.
  assert (E1' : c_1 [+] d = (r' [*] nth 0 (ek_X ek) gzero) [+] (of_Z m1' [*] g_1)) by congruence.
  assert (Er : r = r') by (rewrite E0 in E0'; apply smul_inj_scalar in E0'; assumption). subst r'.
  assert (Ez : (of_Z m1 [*] g_1) [+] d = of_Z m1' [*] g_1).
  { assert (A : forall x y z : G1 E, x [+] y = x [+] z -> y = z). { intros x y z Hxy. assert (B : [-] x [+] (x [+] y) = [-] x [+] (x [+] z)) by congruence. rewrite !gadd_assoc, gadd_neg_l, !gadd_0_l in B. exact B. }
    apply (A (r [*] nth 0 (ek_X ek) gzero)). rewrite <- E1', E1. rewrite gadd_assoc. reflexivity. }
  unfold d in Ez. rewrite <- smul_fadd, <- of_Z_add in Ez. apply smul_inj_scalar in Ez; [|exact Hg].
  apply Forall_inv in Hds, Hds'. apply (f_equal sval) in Ez. rewrite !sval_of_Z in Ez. pose proof (Z.pow_add_r 2 b 1 Hb0 ltac:(lia)) as Hpow. change (2 ^ 1) with 2 in Hpow.
  rewrite !Z.mod_small in Ez by lia. lia.
Qed.

(* Together: on every setup, whoever knows t_1 - t_2 turns every accepted honest encryption (at least two chunks) into an accepted
   ciphertext that encrypts no b-bit chunks. *)
Theorem C76_t_secrets_suffice_to_cheat (gens : encryption_gens E) (pf : profile)
    (domain : nat -> option (list (Fr E))) (fuel n : nat) (b : Z) (cs : csys (K_of E)) (xs : list (Fr E)) (tape : list (Fr E)) pk sk ek dk st'
    (R : rng_impl E) (st1 st2 : rng_st R) (msg r : Fr E) (ct : ciphertext E) (q : proof E) g_i :
  eg_G gens <> gzero -> eg_H gens <> gzero -> supported b -> 0 < b <= modulus_bit_size (K_of E) -> 2 ^ (b + 1) <= modulus (K_of E) ->
  chunks_count (K_of E) b = Ok (Z.of_nat n) -> (2 <= n)%nat ->
  generate_constraints (BitsizeCheckCircuit b (Z.of_nat n) None true) (cs_new Circuit.Setup) = Ok cs ->
  domain (length (cs_cons cs) + cs_num_inst cs)%nat = Some xs ->
  length tape = (3 * n + 7)%nat -> ~ In (nth 4 tape fzero) xs ->
  setup_for_groth16 (ark_backend pf domain fuel) (replay_rng E) b gens tape = Ok (pk, sk, ek, dk, st') ->
  get_gs_for_encryption (gpk_vk (pk_pk pk)) = Ok g_i -> nth 0 g_i gzero <> gzero ->
  encrypt_with_proof pf (ark_backend pf domain fuel) R msg ek pk b st1 = Ok (ct, r, q, st2) ->
  verify_commitment_and_proof ct q (prepare_verifying_key (gpk_vk (pk_pk pk))) (prepare_ek ek) (prepare_gens gens) = Ok tt ->
  exists c_1 c_2 rest, ct_enc_chunks ct = c_1 :: c_2 :: rest /\
  let d := of_Z (2 ^ b) [*] nth 0 g_i gzero in
  let ct' := Ciphertext (ct_X_r ct) (c_1 [+] d :: c_2 [+] [-] d :: rest) (ct_commitment ct [+] (fsub (nth (7 + n) tape fzero) (nth (8 + n) tape fzero) [*] d)) in
  verify_commitment_and_proof ct' q (prepare_verifying_key (gpk_vk (pk_pk pk))) (prepare_ek ek) (prepare_gens gens) = Ok tt /\
  forall ds' r', digits_ok b ds' -> ~ encrypts ek g_i ds' (ct_vec ct') r'.
Proof.
  intros HG HH Hsup Hbits Hp Hn Hn2 Hcs Hxs Hl Hin Hset Hg Hg1 Henc Hver. assert (Hn0 : (0 < n)%nat) by lia.
  assert (Hv : vanishing_at xs (nth 4 tape fzero) <> fzero) by (rewrite vanishing_zero; exact Hin).
  pose proof (setup_tape n cs xs pf domain fuel b gens Hn Hcs Hxs (proj1 (cs_shape n cs xs b Hbits Hn0 Hcs)) tape pk sk ek dk st' Hl Hv Hset) as (_ & Hde & Hg' & _ & Hek & _).
  assert (g_i = gis n cs xs gens tape) by congruence.
  unfold encrypt_with_proof in Henc. rewrite Hg in Henc. cbn [bind] in Henc. apply bind_Ok_inv in Henc. destruct Henc as ([[ct0 r0] st3] & He & Henc).
  apply bind_Ok_inv in Henc. destruct Henc as (ds & Hd & Henc). apply bind_Ok_inv in Henc. destruct Henc as (circ & _ & Henc). apply bind_Ok_inv in Henc. destruct Henc as ([p' st4] & _ & Henc).
  assert (ct0 = ct) by congruence. assert (r0 = r) by congruence. subst ct0 r0. clear Henc.
  unfold encrypt in He. rewrite Hd in He. cbn [bind] in He. apply bind_Ok_inv in He. destruct He as ([[cts r1] st5] & He & Hct).
  pose proof He as He'. apply bind_Ok_inv in Hct. destruct Hct as (c & Hc & Hct). assert (c = ct) by congruence. assert (r1 = r) by congruence. subst c r1. clear Hct.
  assert (HE : encrypts ek g_i ds cts r) by (exists R, st1, st5; exact He).
  destruct (decompose_spec pf (K_of E) msg b Hsup) as (ds' & Hd' & Hdr & _). assert (ds' = ds) by congruence. subst ds'.
  assert (Hvec : cts = ct_vec ct).
  { apply encrypts_inv in HE. destruct HE as (m & _ & _ & _ & ->). rewrite ct_of_vec_ct_vec in Hc. assert (A : forall x y : ciphertext E, Ok x = Ok y -> x = y) by (intros x y; congruence). rewrite (A _ _ Hc). reflexivity. }
  assert (Hlen : length (ct_enc_chunks ct) = n).
  { unfold verify_commitment_and_proof in Hver. apply bind_Ok_inv in Hver. destruct Hver as ([] & Hcom & _). rewrite Hek in Hcom.
    apply (verify_exact gens _ _ _ _ _ _ n) in Hcom; [apply Hcom|exact HH| | | |exact (n256 n cs xs b Hn Hn0)]; rewrite ?map_length, ?seq_length; try reflexivity. unfold gis. rewrite map_length, seq_length. lia. }
  destruct ct as [c_0 chunks psi]. cbn [ct_enc_chunks ct_X_r ct_commitment] in *. destruct chunks as [|c_1 [|c_2 rest]]; cbn [length] in Hlen; try lia.
  exists c_1, c_2, rest. split; [reflexivity|]. cbv zeta. split.
  - exact (C76_t_secrets_move_amounts gens pf domain fuel n b cs xs tape pk sk ek dk st' c_0 c_1 c_2 rest psi _ q HH Hbits Hn Hn0 Hcs Hxs Hl Hin Hset Hver).
  - destruct g_i as [|g_1 g_rest]; [contradiction|]. cbn [nth] in *. rewrite Hvec in HE.
    assert (HX : ek_X_0 ek <> gzero). { rewrite Hek. cbn [ek_formula ek_X_0]. intros Z. apply smul_eq_zero in Z. destruct Z; contradiction. }
    exact (C76_moved_amounts_are_not_digits ek g_1 g_rest b ds r c_0 c_1 c_2 psi _ rest HX Hg1 ltac:(lia) Hp Hdr HE).
Qed.
End Move.

(* the hypotheses of the first three theorems can be met: on the setup of PropSoundCases.v a strategy cheats; the tape is one of those above *)
Example C76_case (pf : profile) : exists (cs : csys K61) pk sk ek dk st' (P : prover E61) rho s v coins,
  generate_constraints (BitsizeCheckCircuit 16 (Z.of_nat 4) None true) (cs_new Circuit.Setup) = Ok cs /\
  y_domain (length (cs_cons cs) + cs_num_inst cs)%nat = Some y_xs /\ length s = 4%nat /\ length v = 4%nat /\ rho <> fzero /\ Forall (fun x => x <> fzero) v /\
  length coins = (4 + 6)%nat /\ setup_for_groth16 (ark_backend pf y_domain 3) (replay_rng E61) 16 x_gens (known_tape rho s v coins) = Ok (pk, sk, ek, dk, st') /\
  let S := play P (public_g1 x_gens pk ek) (public_g2 x_gens pk ek dk) in
  verify_commitment_and_proof (forge_ciphertext S x_gens pk ek) (forge_proof S x_gens pk ek dk)
    (prepare_verifying_key (gpk_vk (pk_pk pk))) (prepare_ek ek) (prepare_gens x_gens) = Ok tt /\
  extracted_chunks 4 S = [2 ^ 16; 0; 0; 0] /\ ~ digits_ok 16 (extracted_chunks 4 S).
Proof.
  destruct (C59_case pf) as (cs & pk & sk & ek & dk & st' & S & Hcs & Hd & Hl & Hset & Hver & HS & Hdig).
  exists cs, pk, sk, ek, dk, st', (Output S), y_rho, y_s, y_v, ([y_alpha; y_beta; y_gamma; y_delta; y_x] ++ y_t0 :: y_t).
  split; [exact Hcs|]. split; [exact Hd|]. split; [reflexivity|]. split; [reflexivity|].
  split; [intros Z; apply (f_equal sval) in Z; vm_compute in Z; discriminate Z|].
  split; [apply nonzero61_spec; vm_compute; reflexivity|]. split; [reflexivity|]. split; [exact Hset|]. cbn [play]. split; [exact Hver|]. split; [exact HS|exact Hdig].
Qed.

(* the attack with t_1 - t_2 on an honest encryption (any message) on that setup: accepted, and an encryption of no 16-bit chunks *)
Example C76_move_case (pf : profile) (msg : Fr E61) : exists pk sk ek dk g_i ct r q psi' c_1 c_2 rest,
  setup_for_groth16 (ark_backend pf y_domain 3) (replay_rng E61) 16 x_gens z_tape = Ok (pk, sk, ek, dk, []) /\
  get_gs_for_encryption (gpk_vk (pk_pk pk)) = Ok g_i /\
  encrypt_with_proof pf (ark_backend pf y_domain 3) (replay_rng E61) msg ek pk 16 [nz61 3; nz61 5; nz61 7] = Ok (ct, r, q, []) /\
  ct_enc_chunks ct = c_1 :: c_2 :: rest /\
  let d := of_Z (2 ^ 16) [*] nth 0 g_i gzero in let ct' := Ciphertext (ct_X_r ct) (c_1 [+] d :: c_2 [+] [-] d :: rest) psi' in
  verify_commitment_and_proof ct' q (prepare_verifying_key (gpk_vk (pk_pk pk))) (prepare_ek ek) (prepare_gens x_gens) = Ok tt /\
  forall ds' r', digits_ok 16 ds' -> ~ encrypts ek g_i ds' (ct_vec ct') r'.
Proof.
  destruct z_cs as (cs & Hcs & Hd). assert (H4 : (0 < 4)%nat) by lia. destruct y_conditions as (C1 & C2 & C3 & C4).
  destruct (setup_exists 4 cs y_xs pf y_domain 3 16 x_gens z_bits y_count H4 Hcs Hd z_tape z_length z_gamma z_delta) as (pk & sk & ek & dk & Hset); [rewrite vanishing_zero; exact z_in|lia|].
  destruct (C59_honest_prover_is_a_strategy x_gens pf y_domain 3 4 16 cs y_xs msg (nz61 3) (nz61 5) (nz61 7) y_domain_ok C1 C2 C3 C4 y_count Hcs Hd) as (S & ds & Hdec & _ & _ & HS).
  destruct (HS z_tape pk sk ek dk [] z_length z_in Hset) as [Henc Hver].
  assert (Hni : cs_num_inst cs = 5%nat) by (exact (proj1 (cs_shape 4 cs y_xs 16 z_bits H4 Hcs))).
  assert (Hv : vanishing_at y_xs (nth 4 z_tape fzero) <> fzero) by (rewrite vanishing_zero; exact z_in).
  pose proof (setup_tape 4 cs y_xs pf y_domain 3 16 x_gens y_count Hcs Hd Hni z_tape pk sk ek dk [] z_length Hv Hset) as (_ & _ & Hg & _).
  assert (Hg1 : nth 0 (gis 4 cs y_xs x_gens z_tape) gzero <> gzero). { unfold gis. cbn [seq map nth]. apply w_abc; [rewrite z_circ; exact Hcs|exact Hni|exact Hd]. }
  assert (HG : eg_G x_gens <> gzero) by (intros H; apply (f_equal sval) in H; vm_compute in H; discriminate H).
  assert (Hp : 2 ^ (16 + 1) <= modulus K61) by (change (modulus K61) with (2 ^ 61 - 1); lia).
  destruct (C76_t_secrets_suffice_to_cheat x_gens pf y_domain 3 4 16 cs y_xs z_tape pk sk ek dk [] (replay_rng E61) _ _ msg (nz61 3) _ _ _ HG x_H C1 z_bits Hp y_count ltac:(lia) Hcs Hd z_length z_in Hset Hg Hg1 Henc Hver)
    as (c_1 & c_2 & rest & A1 & A2 & A3).
  exists pk, sk, ek, dk. eexists. eexists. eexists. eexists. eexists. exists c_1, c_2, rest. split; [exact Hset|]. split; [exact Hg|]. split; [exact Henc|]. split; [exact A1|]. split; [exact A2|exact A3].
Qed.
