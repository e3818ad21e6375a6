(* Encryption.v -- model of /repo/src/encryption.rs (the parts using Groth16 are in Groth16.v) *)
From Verif Require Import Base Algebra Utils Setup Keygen.

(* src/encryption.rs:39-46 struct Ciphertext *)
Record ciphertext (E : pairing) := Ciphertext { ct_X_r : G1 E; ct_enc_chunks : list (G1 E); ct_commitment : G1 E }.
Arguments Ciphertext {E} _ _ _.
Arguments ct_X_r {E} _.
Arguments ct_enc_chunks {E} _.
Arguments ct_commitment {E} _.

(* src/encryption.rs:353-389 encrypt_decomposed_message *)
Definition encrypt_decomposed_message {E} (R : rng_impl E) (message_chunks : list Z) (ek : encryption_key E)
    (g_i : list (G1 E)) (st : rng_st R) : outcome (list (G1 E) * Fr E * rng_st R) :=
  cnt <- ek_supported_chunks_count ek ;;
  let expected_count := Z.to_nat cnt in
  if negb (Nat.eqb (length message_chunks) expected_count)
  then Err (IncompatibleEncryptionKey (length message_chunks) expected_count)
  else if (length g_i <? length message_chunks)%nat
  then Err (VectorShorterThanExpected (length message_chunks) (length g_i))
  else
  let (r, st1) := rand_scalar R st in
  let r_repr := into_bigint r in
  let ct_0 := mul_bigint (ek_X_0 ek) r_repr in
  cs <- mapM (fun i =>
          x <- idx (ek_X ek) i ;;
          g <- idx g_i i ;;
          m <- idx message_chunks i ;;
          Ok (mul_bigint x r_repr [+] mul_bigint g m)) (seq 0 (length (ek_X ek))) ;;
  let psi := msm_bigint (ek_commitment_key ek) (message_chunks ++ [into_bigint r]) in
  Ok (ct_0 :: cs ++ [psi], r, st1).

(* src/encryption.rs:116-120: splitting the flat vector into the struct, with Vec::remove(0) and
   Vec::remove(len-1) *)
Definition ct_of_vec {E} (ct : list (G1 E)) : outcome (ciphertext E) :=
  match ct with
  | [] => Panic
  | x :: rest =>
    match rev rest with
    | [] => Panic
    | psi :: cs_rev => Ok (Ciphertext x (rev cs_rev) psi)
    end
  end.

(* src/encryption.rs:106-123 encrypt *)
Definition encrypt (pf : profile) {E} (R : rng_impl E) (message : Fr E) (ek : encryption_key E)
    (g_i : list (G1 E)) (chunk_bit_size : Z) (st : rng_st R) : outcome (ciphertext E * Fr E * rng_st R) :=
  decomposed <- decompose pf message chunk_bit_size ;;
  '(ct, r, st1) <- encrypt_decomposed_message R decomposed ek g_i st ;;
  c <- ct_of_vec ct ;;
  Ok (c, r, st1).

(* src/encryption.rs:515-522 and 534-541: the loop `for j in 2..=chunk_max_val`, cur is (j-1)*g on entry.
   The same text is used for PairingOutput and for G1Affine. *)
Fixpoint dlog_loop {K} {G : group K} (steps : nat) (j : Z) (cur g p : G) : outcome Z :=
  match steps with
  | O => Err CouldNotFindDiscreteLog
  | S s => let cur' := cur [+] g in
           if geqb cur' p then Ok j else dlog_loop s (j + 1) cur' g p
  end.

(* src/encryption.rs:507-523 solve_discrete_log_for_g and 526-542 solve_discrete_log (identical bodies over G1
   and over the pairing target group); chunk_max_val : u16 *)
Definition solve_discrete_log {K} {G : group K} (chunk_max_val : Z) (g p : G) : outcome Z :=
  if geqb p g then Ok 1
  else dlog_loop (Z.to_nat (chunk_max_val - 1)) 2 g g p.

(* src/encryption.rs:554-562: the loop `for j in 1..=chunk_max_val` with the index j-1 *)
Fixpoint powers_search {K} {G : group K} (steps : nat) (j : nat) (row_of : outcome (list G)) (p : G) : outcome Z :=
  match steps with
  | O => Err CouldNotFindDiscreteLog
  | S s =>
    row <- row_of ;;
    if (length row <? j)%nat then Err InvalidPairingPowers else
    x <- idx row j ;;
    if geqb x p then Ok (as_u16 (Z.of_nat j) + 1) else powers_search s (S j) row_of p
  end.

(* src/encryption.rs:545-564 solve_discrete_log_using_pairing_powers *)
Definition solve_discrete_log_using_pairing_powers {K} {G : group K} (chunk_index : nat) (chunk_max_val : Z) (p : G)
    (pairing_powers : list (list G)) : outcome Z :=
  if (length pairing_powers <? chunk_index)%nat then Err InvalidPairingPowers
  else powers_search (Z.to_nat chunk_max_val) 0 (idx pairing_powers chunk_index) p.

(* src/encryption.rs:296-350 decrypt_to_chunks_given_pairing_powers (dk already converted with into()) *)
Definition decrypt_to_chunks_given_pairing_powers (pf : profile) {E} (c_0 : G1 E) (c : list (G1 E)) (sk : Fr E)
    (dk : prepared_decryption_key E) (g_i : list (G1 E)) (chunk_bit_size : Z)
    (pairing_powers : option (list (list (GT E)))) : outcome (list Z * G1 E) :=
  let n := length c in
  cnt <- pdk_supported_chunks_count dk ;;
  if negb (Nat.eqb n (Z.to_nat cnt)) then Err (IncompatibleDecryptionKey n (Z.to_nat cnt))
  else if (length g_i <? n)%nat then Err (VectorShorterThanExpected n (length g_i))
  else
  let c_0_rho := mul_bigint c_0 (into_bigint (fneg sk)) in
  one_shl <- one_shl_u32 pf chunk_bit_size ;;
  let chunk_max_val := one_shl - 1 in
  let pairing_powers := match pairing_powers with Some p => p | None => [] end in
  decrypted_chunks <- mapM (fun i =>
    ci <- idx c i ;;
    v2 <- idx (pdk_V_2 dk) i ;;
    v1 <- idx (pdk_V_1 dk) i ;;
    p <- multi_pairing [ci; c_0_rho] [v2; v1] ;;
    if gis_zero p then Ok 0
    else if Nat.eqb (length pairing_powers) 0
    then g <- idx g_i i ;;
         solve_discrete_log (as_u16 chunk_max_val) (pair g v2) p
    else solve_discrete_log_using_pairing_powers i (as_u16 chunk_max_val) p pairing_powers) (seq 0 n) ;;
  Ok (decrypted_chunks, [-] c_0_rho).

(* src/encryption.rs:282-291 decrypt_to_chunks *)
Definition decrypt_to_chunks (pf : profile) {E} (c_0 : G1 E) (c : list (G1 E)) (sk : Fr E)
    (dk : prepared_decryption_key E) (g_i : list (G1 E)) (chunk_bit_size : Z) : outcome (list Z * G1 E) :=
  decrypt_to_chunks_given_pairing_powers pf c_0 c sk dk g_i chunk_bit_size None.

(* src/encryption.rs:159-169 decrypt *)
Definition decrypt (pf : profile) {E} (c_0 : G1 E) (c : list (G1 E)) (sk : Fr E)
    (dk : prepared_decryption_key E) (g_i : list (G1 E)) (chunk_bit_size : Z) : outcome (Fr E * G1 E) :=
  '(chunks, nu) <- decrypt_to_chunks pf c_0 c sk dk g_i chunk_bit_size ;;
  m <- compose pf chunks chunk_bit_size ;;
  Ok (m, nu).

(* src/encryption.rs:173-192 decrypt_given_pairing_powers *)
Definition decrypt_given_pairing_powers (pf : profile) {E} (c_0 : G1 E) (c : list (G1 E)) (sk : Fr E)
    (dk : prepared_decryption_key E) (g_i : list (G1 E)) (chunk_bit_size : Z) (pairing_powers : list (list (GT E)))
  : outcome (Fr E * G1 E) :=
  '(chunks, nu) <- decrypt_to_chunks_given_pairing_powers pf c_0 c sk dk g_i chunk_bit_size (Some pairing_powers) ;;
  m <- compose pf chunks chunk_bit_size ;;
  Ok (m, nu).

(* src/encryption.rs:51-59 Ciphertext::decrypt and 63-80 Ciphertext::decrypt_given_pairing_powers *)
Definition ct_decrypt (pf : profile) {E} (ct : ciphertext E) (sk : Fr E) (dk : prepared_decryption_key E)
    (g_i : list (G1 E)) (chunk_bit_size : Z) : outcome (Fr E * G1 E) :=
  decrypt pf (ct_X_r ct) (ct_enc_chunks ct) sk dk g_i chunk_bit_size.
Definition ct_decrypt_given_pairing_powers (pf : profile) {E} (ct : ciphertext E) (sk : Fr E)
    (dk : prepared_decryption_key E) (g_i : list (G1 E)) (chunk_bit_size : Z) (pairing_powers : list (list (GT E)))
  : outcome (Fr E * G1 E) :=
  decrypt_given_pairing_powers pf (ct_X_r ct) (ct_enc_chunks ct) sk dk g_i chunk_bit_size pairing_powers.

(* src/encryption.rs:566-576 get_g1_for_ciphertext_commitment_pairing_checks *)
Definition get_g1_for_ciphertext_commitment_pairing_checks {E} (c_0 : G1 E) (c : list (G1 E)) (commitment : G1 E)
  : list (G1 E) := c_0 :: c ++ [[-] commitment].

(* src/encryption.rs:610-621 get_g2_for_ciphertext_commitment_pairing_checks: Z[0], Z[1..], H *)
Definition get_g2_for_ciphertext_commitment_pairing_checks {E} (ek : prepared_encryption_key E)
    (gens : prepared_encryption_gens E) : outcome (list (G2Prepared E)) :=
  z0 <- idx (pek_Z ek) 0 ;;
  zs <- mapM (fun i => idx (pek_Z ek) i) (seq 1 (length (pek_Z ek) - 1)) ;;
  Ok (z0 :: zs ++ [peg_H gens]).

(* src/encryption.rs:224-250 verify_ciphertext_commitment *)
Definition verify_ciphertext_commitment {E} (c_0 : G1 E) (c : list (G1 E)) (commitment : G1 E)
    (ek : prepared_encryption_key E) (gens : prepared_encryption_gens E) : outcome unit :=
  cnt <- pek_supported_chunks_count ek ;;
  let expected_count := Z.to_nat cnt in
  if negb (Nat.eqb (length c) expected_count)
  then Err (IncompatibleEncryptionKey (length c) expected_count)
  else
  let a := get_g1_for_ciphertext_commitment_pairing_checks c_0 c commitment in
  b <- get_g2_for_ciphertext_commitment_pairing_checks ek gens ;;
  p <- multi_pairing a b ;;
  if gis_zero p then Ok tt else Err InvalidCommitment.

(* src/encryption.rs:83-95 Ciphertext::verify_commitment *)
Definition verify_commitment {E} (ct : ciphertext E) (ek : prepared_encryption_key E)
    (gens : prepared_encryption_gens E) : outcome unit :=
  verify_ciphertext_commitment (ct_X_r ct) (ct_enc_chunks ct) (ct_commitment ct) ek gens.

(* src/encryption.rs:578-608 get_g1_for_ciphertext_commitments_in_batch_pairing_checks *)
Definition get_g1_for_ciphertext_commitments_in_batch_pairing_checks {E} (ciphertexts : list (ciphertext E))
    (r_powers : list (Fr E)) : outcome (list (G1 E)) :=
  ct0 <- idx ciphertexts 0 ;;
  let num := length r_powers in
  let r_powers_repr := map into_bigint r_powers in
  bases_x <- mapM (fun i => ct <- idx ciphertexts i ;; Ok (ct_X_r ct)) (seq 0 num) ;;
  let a_0 := msm_bigint bases_x r_powers_repr in
  a_mid <- mapM (fun j =>
     bases <- mapM (fun i => ct <- idx ciphertexts i ;; idx (ct_enc_chunks ct) j) (seq 0 num) ;;
     Ok (msm_bigint bases r_powers_repr)) (seq 0 (length (ct_enc_chunks ct0))) ;;
  bases_c <- mapM (fun i => ct <- idx ciphertexts i ;; Ok (ct_commitment ct)) (seq 0 num) ;;
  Ok (a_0 :: a_mid ++ [[-] msm_bigint bases_c r_powers_repr]).

(* src/encryption.rs:262-269: the first ciphertext of the wrong size is reported *)
Fixpoint check_batch_sizes {E} (ciphertexts : list (ciphertext E)) (expected_count : nat) : outcome unit :=
  match ciphertexts with
  | [] => Ok tt
  | c :: cs => if negb (Nat.eqb (length (ct_enc_chunks c)) expected_count)
               then Err (IncompatibleEncryptionKey (length (ct_enc_chunks c)) expected_count)
               else check_batch_sizes cs expected_count
  end.

(* src/encryption.rs:252-279 verify_commitments_in_batch *)
Definition verify_commitments_in_batch {E} (ciphertexts : list (ciphertext E)) (r_powers : list (Fr E))
    (ek : prepared_encryption_key E) (gens : prepared_encryption_gens E) : outcome unit :=
  if negb (Nat.eqb (length r_powers) (length ciphertexts)) then Panic else
  cnt <- pek_supported_chunks_count ek ;;
  let expected_count := Z.to_nat cnt in
  _ <- check_batch_sizes ciphertexts expected_count ;;
  a <- get_g1_for_ciphertext_commitments_in_batch_pairing_checks ciphertexts r_powers ;;
  b <- get_g2_for_ciphertext_commitment_pairing_checks ek gens ;;
  p <- multi_pairing a b ;;
  if gis_zero p then Ok tt else Err InvalidCommitment.

(* src/encryption.rs:392-414 re_encrypt_share *)
Definition re_encrypt_share {E} (R : rng_impl E) (gens : encryption_gens E) (c_0 : G1 E) (c : list (G1 E))
    (ekd : ek_dest E) (sk : secret_key_st E) (st : rng_st R) : outcome (list (G1 E) * G1 E * rng_st R) :=
  let n := length c in
  let (rho, st1) := rand_scalar R st in
  let g_r := mul_bigint (eg_G gens) (into_bigint rho) in
  w <- mapM (fun i =>
         si <- idx (st_s sk) i ;;
         Ok (mul_bigint c_0 (into_bigint (fneg si)) [+] mul_bigint (ekd_pk ekd) (into_bigint rho))) (seq 0 n) ;;
  Ok (w, g_r, st1).

(* src/encryption.rs:417-433 combine_re_encrypt_share *)
Definition combine_re_encrypt_share {E} (g_r1 g_r2 : G1 E) (w1 w2 : list (G1 E)) : outcome (list (G1 E) * G1 E) :=
  w <- mapM (fun i => a <- idx w1 i ;; b <- idx w2 i ;; Ok (a [+] b)) (seq 0 (length w1)) ;;
  Ok (w, g_r1 [+] g_r2).

(* src/encryption.rs:436-453 combine_ct_with_w (the gens argument is unused by the code) *)
Definition combine_ct_with_w {E} (c : list (G1 E)) (g_r : G1 E) (w : list (G1 E)) : outcome (list (G1 E)) :=
  cs <- mapM (fun i => a <- idx c i ;; b <- idx w i ;; Ok (a [+] b)) (seq 0 (length c)) ;;
  Ok (g_r :: cs).

(* src/encryption.rs:456-470 add_cts *)
Definition add_cts {E} (ct1 ct2 : list (G1 E)) : outcome (list (G1 E)) :=
  mapM (fun i => a <- idx ct1 i ;; b <- idx ct2 i ;; Ok (a [+] b)) (seq 0 (length ct1)).

(* src/encryption.rs:473-504 decrypt_to_chunks_after_re_encryption *)
Definition decrypt_to_chunks_after_re_encryption (pf : profile) {E} (c_0 : G1 E) (c : list (G1 E)) (sk : Fr E)
    (g_i : list (G1 E)) (chunk_bit_size : Z) : outcome (list Z) :=
  let n := length c in
  if (length g_i <? n)%nat then Err (VectorShorterThanExpected n (length g_i)) else
  let c_0_rho := mul_bigint c_0 (into_bigint (fneg sk)) in
  let gi_mi := map (fun ci => ci [+] c_0_rho) c in
  one_shl <- one_shl_u32 pf chunk_bit_size ;;
  let chunk_max_val := one_shl - 1 in
  mapM (fun i =>
    x <- idx gi_mi i ;;
    if gis_zero x then Ok 0
    else g <- idx g_i i ;;
         solve_discrete_log (as_u16 chunk_max_val) g x) (seq 0 n).
