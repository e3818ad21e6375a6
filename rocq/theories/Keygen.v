(* Keygen.v -- model of /repo/src/keygen.rs *)
From Verif Require Import Base Algebra Utils Setup.

(* src/keygen.rs:39 struct SecretKey(F) is the scalar itself. *)

(* src/keygen.rs:46-53 struct SecretKeyST *)
Record secret_key_st (E : pairing) := SecretKeyST { st_s : list (Fr E); st_t : list (Fr E) }.
Arguments SecretKeyST {E} _ _.
Arguments st_s {E} _.
Arguments st_t {E} _.

(* src/keygen.rs:60-64 struct P1share *)
Record p1share (E : pairing) := P1share { p1_P_1 : G1 E }.
Arguments P1share {E} _.
Arguments p1_P_1 {E} _.

(* src/keygen.rs:71-87 struct FEncryptionKeyPartial *)
Record ek_partial (E : pairing) := FEncryptionKeyPartial {
  ekp_X_0 : G1 E; ekp_X : list (G1 E); ekp_Y : list (G1 E); ekp_Z : list (G2 E); ekp_P_2 : G1 E }.
Arguments FEncryptionKeyPartial {E} _ _ _ _ _.
Arguments ekp_X_0 {E} _.
Arguments ekp_X {E} _.
Arguments ekp_Y {E} _.
Arguments ekp_Z {E} _.
Arguments ekp_P_2 {E} _.

(* src/keygen.rs:94-113 struct EncryptionKey *)
Record encryption_key (E : pairing) := EncryptionKey {
  ek_X_0 : G1 E; ek_X : list (G1 E); ek_Y : list (G1 E); ek_Z : list (G2 E); ek_P_1 : G1 E; ek_P_2 : G1 E }.
Arguments EncryptionKey {E} _ _ _ _ _ _.
Arguments ek_X_0 {E} _.
Arguments ek_X {E} _.
Arguments ek_Y {E} _.
Arguments ek_Z {E} _.
Arguments ek_P_1 {E} _.
Arguments ek_P_2 {E} _.

(* src/keygen.rs:120-125 struct FEncryptionKeyDest *)
Record ek_dest (E : pairing) := FEncryptionKeyDest { ekd_pk : G1 E }.
Arguments FEncryptionKeyDest {E} _.
Arguments ekd_pk {E} _.

(* src/keygen.rs:129-142 struct PreparedEncryptionKey *)
Record prepared_encryption_key (E : pairing) := PreparedEncryptionKey {
  pek_X_0 : G1 E; pek_X : list (G1 E); pek_Y : list (G1 E); pek_Z : list (G2Prepared E);
  pek_P_1 : G1 E; pek_P_2 : G1 E }.
Arguments PreparedEncryptionKey {E} _ _ _ _ _ _.
Arguments pek_X_0 {E} _.
Arguments pek_X {E} _.
Arguments pek_Y {E} _.
Arguments pek_Z {E} _.
Arguments pek_P_1 {E} _.
Arguments pek_P_2 {E} _.

(* src/keygen.rs:149-159 struct DecryptionKey *)
Record decryption_key (E : pairing) := DecryptionKey {
  dk_V_0 : G2 E; dk_V_1 : list (G2 E); dk_V_2 : list (G2 E) }.
Arguments DecryptionKey {E} _ _ _.
Arguments dk_V_0 {E} _.
Arguments dk_V_1 {E} _.
Arguments dk_V_2 {E} _.

(* src/keygen.rs:163-170 struct PreparedDecryptionKey *)
Record prepared_decryption_key (E : pairing) := PreparedDecryptionKey {
  pdk_V_0 : G2Prepared E; pdk_V_1 : list (G2Prepared E); pdk_V_2 : list (G2Prepared E) }.
Arguments PreparedDecryptionKey {E} _ _ _.
Arguments pdk_V_0 {E} _.
Arguments pdk_V_1 {E} _.
Arguments pdk_V_2 {E} _.

(* src/keygen.rs:174-183 supported_chunks_count of encryption keys, in terms of the three vector lengths
   (the macro body is shared by EncryptionKey and PreparedEncryptionKey); the count is cast to u8. *)
Definition enc_supported_chunks_count (nX nY nZ : nat) : outcome Z :=
  if negb (Nat.eqb nY nX) then Err (MalformedEncryptionKey nY nX)
  else if negb (Nat.eqb nZ (nX + 1)) then Err (MalformedEncryptionKey nZ nX)
  else Ok (as_u8 (Z.of_nat nX)).

(* src/keygen.rs:224-226 / 257-259: the two instantiations of the macro *)
Definition ek_supported_chunks_count {E} (ek : encryption_key E) : outcome Z :=
  enc_supported_chunks_count (length (ek_X ek)) (length (ek_Y ek)) (length (ek_Z ek)).
Definition pek_supported_chunks_count {E} (ek : prepared_encryption_key E) : outcome Z :=
  enc_supported_chunks_count (length (pek_X ek)) (length (pek_Y ek)) (length (pek_Z ek)).

(* src/keygen.rs:185-188 validate (encryption keys) *)
Definition ek_validate {E} (ek : encryption_key E) : outcome unit :=
  _ <- ek_supported_chunks_count ek ;; Ok tt.
Definition pek_validate {E} (ek : prepared_encryption_key E) : outcome unit :=
  _ <- pek_supported_chunks_count ek ;; Ok tt.

(* src/keygen.rs:190-194 commitment_key (encryption keys) *)
Definition ek_commitment_key {E} (ek : encryption_key E) : list (G1 E) := ek_Y ek ++ [ek_P_1 ek].
Definition pek_commitment_key {E} (ek : prepared_encryption_key E) : list (G1 E) := pek_Y ek ++ [pek_P_1 ek].

(* src/keygen.rs:200-206 supported_chunks_count of decryption keys *)
Definition dec_supported_chunks_count (n1 n2 : nat) : outcome Z :=
  if negb (Nat.eqb n2 n1) then Err (MalformedDecryptionKey n2 n1)
  else Ok (as_u8 (Z.of_nat n1)).
Definition dk_supported_chunks_count {E} (dk : decryption_key E) : outcome Z :=
  dec_supported_chunks_count (length (dk_V_1 dk)) (length (dk_V_2 dk)).
Definition pdk_supported_chunks_count {E} (dk : prepared_decryption_key E) : outcome Z :=
  dec_supported_chunks_count (length (pdk_V_1 dk)) (length (pdk_V_2 dk)).

(* src/keygen.rs:208-211 validate (decryption keys) *)
Definition dk_validate {E} (dk : decryption_key E) : outcome unit :=
  _ <- dk_supported_chunks_count dk ;; Ok tt.
Definition pdk_validate {E} (dk : prepared_decryption_key E) : outcome unit :=
  _ <- pdk_supported_chunks_count dk ;; Ok tt.

(* src/keygen.rs:228-241 From<EncryptionKey> for PreparedEncryptionKey *)
Definition prepare_ek {E} (ek : encryption_key E) : prepared_encryption_key E :=
  PreparedEncryptionKey (ek_X_0 ek) (ek_X ek) (ek_Y ek) (map prep (ek_Z ek)) (ek_P_1 ek) (ek_P_2 ek).

(* src/keygen.rs:243-255 From<DecryptionKey> for PreparedDecryptionKey *)
Definition prepare_dk {E} (dk : decryption_key E) : prepared_decryption_key E :=
  PreparedDecryptionKey (prep (dk_V_0 dk)) (map prep (dk_V_1 dk)) (map prep (dk_V_2 dk)).

(* src/keygen.rs:295-301: first element always pushed, then `1..chunk_max_val` further sums *)
Fixpoint powers_loop {K} {G : group K} (steps : nat) (cur base : G) : list G :=
  match steps with
  | O => []
  | S s => let cur' := cur [+] base in cur' :: powers_loop s cur' base
  end.

(* src/keygen.rs:282-305 PreparedDecryptionKey::pairing_powers; the literal `1` has type i32 here.
   with_capacity(chunk_max_val as usize) for a non-positive maximum is not modelled (it is only reached with
   chunk_max_val >= 0: see sub_i32). *)
Definition pdk_pairing_powers (pf : profile) {E} (dk : prepared_decryption_key E) (chunk_bit_size : Z)
    (g_i : list (G1 E)) : outcome (list (list (GT E))) :=
  n <- pdk_supported_chunks_count dk ;;
  one_shl <- one_shl_i32 pf chunk_bit_size ;;
  chunk_max_val <- sub_i32 pf one_shl 1 ;;
  mapM (fun i =>
    g <- idx g_i i ;;
    v <- idx (pdk_V_2 dk) i ;;
    let g_i_v_i := pair g v in
    Ok (g_i_v_i :: powers_loop (Z.to_nat (chunk_max_val - 1)) g_i_v_i g_i_v_i))
    (seq 0 (Z.to_nat n)).

(* src/keygen.rs:265-272 DecryptionKey::pairing_powers *)
Definition dk_pairing_powers (pf : profile) {E} (dk : decryption_key E) (chunk_bit_size : Z)
    (g_i : list (G1 E)) : outcome (list (list (GT E))) :=
  pdk_pairing_powers pf (prepare_dk dk) chunk_bit_size g_i.

(* src/keygen.rs:337-339 and 508-510: Y_i = g_i[i] * t[i+1] *)
Definition make_Y {E} (n : nat) (g_i : list (G1 E)) (t : list (Fr E)) : outcome (list (G1 E)) :=
  mapM (fun i => g <- idx g_i i ;; ti <- idx t (i + 1) ;; Ok (mul_bigint g (into_bigint ti))) (seq 0 n).

(* src/keygen.rs:310-358 FkeygenPartial.  The rng state after an error is not returned. *)
Definition FkeygenPartial {E} (R : rng_impl E) (chunk_bit_size : Z) (gens : encryption_gens E)
    (g_i : list (G1 E)) (delta_g gamma_g : G1 E) (st : rng_st R)
  : outcome (secret_key_st E * ek_partial E * rng_st R) :=
  cnt <- chunks_count (K_of E) chunk_bit_size ;;
  let n := Z.to_nat cnt in
  if (length g_i <? n)%nat then Err (VectorShorterThanExpected (length g_i) n) else
  let (s, st1) := rand_scalars R n st in
  let (t, st2) := rand_scalars R (n + 1) st1 in
  X <- multiply_field_elems_with_same_group_elem delta_g s ;;
  Y <- make_Y n g_i t ;;
  Z <- multiply_field_elems_with_same_group_elem (eg_H gens) t ;;
  let P_2 := mul_bigint gamma_g (into_bigint (fsum s)) in
  Ok (SecretKeyST s t, FEncryptionKeyPartial delta_g X Y Z P_2, st2).

(* src/keygen.rs:372-380: acc[j] = acc[j] + other[j] for j in 0..acc.len() *)
Definition add_into {K} {G : group K} (acc other : list G) : outcome (list G) :=
  mapM (fun j => a <- idx acc j ;; b <- idx other j ;; Ok (a [+] b)) (seq 0 (length acc)).

(* src/keygen.rs:371-382: body of the loop over the parties *)
Definition combineEKs_step {E} (ek ek_i : ek_partial E) : outcome (ek_partial E) :=
  X <- add_into (ekp_X ek) (ekp_X ek_i) ;;
  Y <- add_into (ekp_Y ek) (ekp_Y ek_i) ;;
  Z <- add_into (ekp_Z ek) (ekp_Z ek_i) ;;
  Ok (FEncryptionKeyPartial (ekp_X_0 ek) X Y Z (ekp_P_2 ek [+] ekp_P_2 ek_i)).

(* src/keygen.rs:361-393 combineEKs *)
Definition combineEKs {E} (gamma_g : G1 E) (eks : list (ek_partial E)) : outcome (ek_partial E) :=
  match eks with
  | [] => Panic
  | ek0 :: rest =>
    ek <- foldM combineEKs_step rest ek0 ;;
    Ok (FEncryptionKeyPartial (ekp_X_0 ek) (ekp_X ek) (ekp_Y ek) (ekp_Z ek) (gamma_g [+] ekp_P_2 ek))
  end.

(* src/keygen.rs:396-417 genP1share *)
Definition genP1share {E} (ek : ek_partial E) (sk : secret_key_st E) : outcome (p1share E) :=
  t0 <- idx (st_t sk) 0 ;;
  let delta_g_t := mul_bigint (ekp_X_0 ek) (into_bigint t0) in
  P_1_vec <- mapM (fun j => x <- idx (ekp_X ek) j ;; tj <- idx (st_t sk) (j + 1) ;;
                            Ok (mul_bigint x (into_bigint tj))) (seq 0 (length (ekp_X ek))) ;;
  Ok (P1share (fold_left gadd P_1_vec delta_g_t)).

(* src/keygen.rs:419-434 combineP1share *)
Definition combineP1share {E} (P1_shares : list (p1share E)) : outcome (p1share E) :=
  match P1_shares with
  | [] => Panic
  | p0 :: rest => Ok (P1share (fold_left (fun acc p => acc [+] p1_P_1 p) rest (p1_P_1 p0)))
  end.

(* src/keygen.rs:437-452 keygenFinal *)
Definition keygenFinal {E} (ek : ek_partial E) (p1_final : p1share E) : encryption_key E :=
  EncryptionKey (ekp_X_0 ek) (ekp_X ek) (ekp_Y ek) (ekp_Z ek) (p1_P_1 p1_final) (ekp_P_2 ek).

(* src/keygen.rs:455-472 Fkeygen_dest *)
Definition Fkeygen_dest {E} (R : rng_impl E) (gens : encryption_gens E) (st : rng_st R)
  : outcome (Fr E * ek_dest E * rng_st R) :=
  let (rho, st1) := rand_scalar R st in
  let pk := mul_bigint (eg_G gens) (into_bigint rho) in
  Ok (rho, FEncryptionKeyDest pk, st1).

(* src/keygen.rs:476-542 keygen.  The rng state after an error is not returned. *)
Definition keygen {E} (R : rng_impl E) (chunk_bit_size : Z) (gens : encryption_gens E)
    (g_i : list (G1 E)) (delta_g gamma_g : G1 E) (st : rng_st R)
  : outcome (Fr E * encryption_key E * decryption_key E * rng_st R) :=
  cnt <- chunks_count (K_of E) chunk_bit_size ;;
  let n := Z.to_nat cnt in
  if (length g_i <? n)%nat then Err (VectorShorterThanExpected (length g_i) n) else
  let (rho, st0) := rand_scalar R st in
  let (s, st1) := rand_scalars R n st0 in
  let (t, st2) := rand_scalars R (n + 1) st1 in
  let (v, st3) := rand_scalars R n st2 in
  X <- multiply_field_elems_with_same_group_elem delta_g s ;;
  Y <- make_Y n g_i t ;;
  Z <- multiply_field_elems_with_same_group_elem (eg_H gens) t ;;
  t0 <- idx t 0 ;;
  st_prods <- mapM (fun j => sj <- idx s j ;; tj <- idx t (j + 1) ;; Ok (fmul sj tj)) (seq 0 n) ;;
  let P_1 := mul_bigint delta_g (into_bigint (fadd t0 (fsum st_prods))) in
  let P_2 := mul_bigint gamma_g (into_bigint (fadd fone (fsum s))) in
  let ek := EncryptionKey delta_g X Y Z P_1 P_2 in
  let V_0 := mul_bigint (eg_H gens) (into_bigint rho) in
  V_2 <- multiply_field_elems_with_same_group_elem V_0 v ;;
  V_1 <- multiply_field_elems_with_same_group_elem (eg_H gens)
           (map (fun '(s_i, v_i) => fmul s_i v_i) (combine s v)) ;;
  Ok (rho, ek, DecryptionKey V_0 V_1 V_2, st3).
