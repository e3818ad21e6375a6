(* PropVkFunctions.v -- C55 continued: the functions that take the verifying key of the SNARK in place of the generators *)
From Verif Require Import Base BaseFacts Algebra Utils UtilsFacts Setup Keygen KeygenFacts Encryption EncryptFacts DecryptFacts RoundTrip
  Spec KeySpec VecFacts Circuit CircuitFacts Groth16 Groth16Spec PropGroth16 PropGroth16More Instance Examples ArkGroth16 ArkFacts PropGroth16Cases.

Section Vk.
Context {E : pairing}.
Lemma decrypt_nu pf c_0 c (sk : Fr E) dk g_i b m nu : decrypt pf c_0 c sk dk g_i b = Ok (m, nu) -> nu = sk [*] c_0.
Proof.
  unfold decrypt. intros H. apply bind_Ok_inv in H. destruct H as ([ms nu0] & H & H2). apply bind_Ok_inv in H2. destruct H2 as (m0 & _ & H2). assert (nu0 = nu) by congruence. subst nu0.
  rewrite decrypt_to_chunks_unfold in H. apply bind_Ok_inv in H. destruct H as (cnt & _ & H). destruct (negb _); [discriminate|]. destruct (_ <? _)%nat; [discriminate|].
  apply bind_Ok_inv in H. destruct H as (z & _ & H). apply bind_Ok_inv in H. destruct H as (l & _ & H).
  assert (X : [-] mul_bigint c_0 (into_bigint (fneg sk)) = nu) by exact (f_equal (fun o => match o with Ok (_, x) => x | _ => nu end) H).
  rewrite <- X. change (mul_bigint c_0 (into_bigint (fneg sk))) with (fneg sk [*] c_0). rewrite smul_fneg, gneg_neg. reflexivity.
Qed.
(* On arbitrary inputs: the generators are the elements of gamma_abc_g1 after the first; without a first element the functions panic.  The functions
   on the parts of a ciphertext and the methods of the ciphertext agree. *)
Theorem C55_functions_use_the_generators_of_the_key : forall (pf : profile) (vk : verifying_key E) (ct : ciphertext E) (sk : Fr E) dk ddk b table (R : rng_impl E) msg ek (st : rng_st R),
  (forall g0 g_i, vk_gamma_abc_g1 vk = g0 :: g_i ->
     encrypt_given_snark_vk pf R msg ek vk b st = encrypt pf R msg ek g_i b st /\
     decrypt_given_groth16_vk pf (ct_X_r ct) (ct_enc_chunks ct) sk dk vk b = ct_decrypt pf ct sk dk g_i b /\
     ct_decrypt_given_groth16_vk pf ct sk dk vk b = ct_decrypt pf ct sk dk g_i b /\
     decrypt_given_groth16_vk_and_pairing_powers pf (ct_X_r ct) (ct_enc_chunks ct) sk dk vk b table = ct_decrypt_given_pairing_powers pf ct sk dk g_i b table /\
     ct_decrypt_given_groth16_vk_and_pairing_powers pf ct sk dk vk b table = ct_decrypt_given_pairing_powers pf ct sk dk g_i b table /\
     dk_pairing_powers_given_groth16_vk pf ddk b vk = dk_pairing_powers pf ddk b g_i /\ pdk_pairing_powers_given_groth16_vk pf dk b vk = pdk_pairing_powers pf dk b g_i) /\
  (vk_gamma_abc_g1 vk = [] ->
     encrypt_given_snark_vk pf R msg ek vk b st = Panic /\ decrypt_given_groth16_vk pf (ct_X_r ct) (ct_enc_chunks ct) sk dk vk b = Panic /\ ct_decrypt_given_groth16_vk pf ct sk dk vk b = Panic /\
     decrypt_given_groth16_vk_and_pairing_powers pf (ct_X_r ct) (ct_enc_chunks ct) sk dk vk b table = Panic /\ ct_decrypt_given_groth16_vk_and_pairing_powers pf ct sk dk vk b table = Panic /\
     dk_pairing_powers_given_groth16_vk pf ddk b vk = Panic /\ pdk_pairing_powers_given_groth16_vk pf dk b vk = Panic).
Proof.
  intros pf vk ct sk dk ddk b table R msg ek st.
  unfold encrypt_given_snark_vk, decrypt_given_groth16_vk, ct_decrypt_given_groth16_vk, decrypt_given_groth16_vk_and_pairing_powers, ct_decrypt_given_groth16_vk_and_pairing_powers, dk_pairing_powers_given_groth16_vk, pdk_pairing_powers_given_groth16_vk, get_gs_for_encryption.
  split; [intros g0 g_i ->|intros ->]; repeat split.
Qed.
(* After a setup, for every message: encryption given the verifying key makes the same ciphertext as encryption with proof from the same state of
   the generator, and all ways of decrypting it return the message and sk X_r. *)
Theorem C55_all_ways_of_decrypting_agree :
  forall (pf pf' : profile) (B : groth16_backend E) (R R' : rng_impl E) b gens st0 pk sk ek dk st0' (msg : Fr E) (st : rng_st R'),
  backend_correct B -> supported b -> 2 ^ b <= modulus (K_of E) ->
  64 * Z.of_nat (limbs (K_of E)) - b < modulus_bit_size (K_of E) -> 64 * Z.of_nat (limbs (K_of E)) < 256 * b ->
  setup_for_groth16 B R b gens st0 = Ok (pk, sk, ek, dk, st0') ->
  nondegenerate dk (skipn 1 (vk_gamma_abc_g1 (gpk_vk (pk_pk pk)))) (length (dk_V_2 dk)) ->
  let vk := gpk_vk (pk_pk pk) in
  exists ct r p st1 st' table, let result := Ok (msg, sk [*] ct_X_r ct) in
   encrypt_with_proof pf B R' msg ek pk b st = Ok (ct, r, p, st') /\ encrypt_given_snark_vk pf R' msg ek vk b st = Ok (ct, r, st1) /\
   dk_pairing_powers_given_groth16_vk pf dk b vk = Ok table /\
   decrypt_given_groth16_vk pf' (ct_X_r ct) (ct_enc_chunks ct) sk (prepare_dk dk) vk b = result /\
   ct_decrypt_given_groth16_vk pf' ct sk (prepare_dk dk) vk b = result /\
   decrypt_given_groth16_vk_and_pairing_powers pf' (ct_X_r ct) (ct_enc_chunks ct) sk (prepare_dk dk) vk b table = result /\
   ct_decrypt_given_groth16_vk_and_pairing_powers pf' ct sk (prepare_dk dk) vk b table = result.
Proof.
  intros pf pf' B R R' b gens st0 pk sk ek dk st0' msg st HB Hb HM H1 H2 Hset Hnd vk.
  destruct (C39_end_to_end pf pf' E B R R' b gens st0 pk sk ek dk st0' msg st HB Hb HM H1 H2 Hset Hnd) as (ct & r & p & st' & A & _ & nu & C).
  destruct (C55_tables_from_verifying_key pf pf' E B R b b gens st0 pk sk ek dk st0') as (table & T1 & _ & T3); [destruct Hb as [->|[->| ->]]; lia|exact Hset|].
  assert (N : nu = sk [*] ct_X_r ct). { unfold ct_decrypt_given_groth16_vk in C. apply bind_Ok_inv in C. destruct C as (g_i & _ & C). exact (decrypt_nu _ _ _ _ _ _ _ _ _ C). } subst nu.
  assert (S : exists st1, encrypt_given_snark_vk pf R' msg ek vk b st = Ok (ct, r, st1)).
  { unfold encrypt_with_proof in A. unfold encrypt_given_snark_vk, vk. apply bind_Ok_inv in A. destruct A as (g_i & Hg & A). rewrite Hg. cbn [bind].
    apply bind_Ok_inv in A. destruct A as ([[ct0 r0] st1] & He & A). apply bind_Ok_inv in A. destruct A as (d & _ & A). apply bind_Ok_inv in A. destruct A as (ci & _ & A).
    apply bind_Ok_inv in A. destruct A as ([p0 st2] & _ & A). assert (ct0 = ct) by congruence. assert (r0 = r) by congruence. subst ct0 r0. exists st1. exact He. }
  destruct S as (st1 & S). exists ct, r, p, st1, st', table. cbv zeta. split; [exact A|]. split; [exact S|]. split; [exact T1|].
  split; [exact C|]. split; [exact C|]. pose proof (T3 ct sk) as T. fold vk in T. split; [|rewrite T; exact C].
  transitivity (ct_decrypt_given_groth16_vk_and_pairing_powers pf' ct sk (prepare_dk dk) vk b table); [reflexivity|rewrite T; exact C].
Qed.
End Vk.
Example C55_case_all_ways (pf pf' : profile) (msg : Fr E61) (st : list (Fr E61)) : exists pk ek ct r p st1 st' table,
  setup_for_groth16 (y_backend pf) (replay_rng E61) 16 x_gens y_tape = Ok (pk, y_rho, ek, y_dk, []) /\
  encrypt_with_proof pf (y_backend pf) (replay_rng E61) msg ek pk 16 st = Ok (ct, r, p, st') /\ encrypt_given_snark_vk pf (replay_rng E61) msg ek (gpk_vk (pk_pk pk)) 16 st = Ok (ct, r, st1) /\
  decrypt_given_groth16_vk_and_pairing_powers pf' (ct_X_r ct) (ct_enc_chunks ct) y_rho (prepare_dk y_dk) (gpk_vk (pk_pk pk)) 16 table = Ok (msg, y_rho [*] ct_X_r ct) /\
  decrypt_given_groth16_vk pf' (ct_X_r ct) (ct_enc_chunks ct) y_rho (prepare_dk y_dk) (gpk_vk (pk_pk pk)) 16 = Ok (msg, y_rho [*] ct_X_r ct).
Proof.
  destruct (y_setup pf) as (pk & ek & g_i & Hset & _ & _ & _ & _ & Hnd). destruct y_conditions as (C1 & C2 & C3 & C4).
  destruct (C55_all_ways_of_decrypting_agree pf pf' (y_backend pf) (replay_rng E61) (replay_rng E61) 16 x_gens y_tape pk y_rho ek y_dk [] msg st (ark_backend_correct pf y_domain 3 y_domain_ok) C1 C2 C3 C4 Hset Hnd)
    as (ct & r & p & st1 & st' & table & H1 & H2 & _ & H4 & _ & H6 & _). exists pk, ek, ct, r, p, st1, st', table. repeat (split; [assumption|]). exact H4.
Qed.
