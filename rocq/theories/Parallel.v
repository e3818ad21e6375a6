(* Parallel.v -- the crate built with its default feature `parallel` (Cargo.toml:36,39).
   ark_std::cfg_iter! / cfg_into_iter! then expand to rayon parallel iterators: several worker threads take the items of
   the vector in an order chosen by the scheduler, compute the closure and write the result into the slot of the item;
   collect() returns when every slot is written.  The model is a small-step relation: at every step the scheduler picks
   ANY idle item to start or ANY started item to finish, so a run is an arbitrary interleaving of arbitrarily many
   workers.  (The real pool has boundedly many workers: its runs are among these.) *)
From Coq Require Import Permutation.
From Verif Require Import Base Algebra Utils Setup Keygen Encryption.

(* one output slot: not started, started (the closure is being evaluated on its item), or written *)
Inductive slot (B : Type) := Todo | Busy | Done (b : B).
Arguments Todo {B}.
Arguments Busy {B}.
Arguments Done {B} b.

Section Par.
Context {A B : Type}.
Variable f : A -> B.
Variable l : list A.

(* rayon `par_iter().map(f).collect::<Vec<_>>()` (src/keygen.rs:234,247,250,334,505; src/encryption.rs:376,584) *)
Inductive par_step : list (slot B) -> list (slot B) -> Prop :=
| par_start pre post : par_step (pre ++ Todo :: post) (pre ++ Busy :: post)
| par_finish pre post x : nth_error l (length pre) = Some x ->
    par_step (pre ++ Busy :: post) (pre ++ Done (f x) :: post).

Inductive par_steps : nat -> list (slot B) -> list (slot B) -> Prop :=
| par_refl s : par_steps 0 s s
| par_trans n s s' s'' : par_steps n s s' -> par_step s' s'' -> par_steps (S n) s s''.

Definition par_init : list (slot B) := map (fun _ => Todo) l.

(* some schedule makes collect() return out *)
Definition par_collect (out : list B) : Prop := exists n, par_steps n par_init (map Done out).
End Par.

(* Parallel reduction (the sums inside ark-ec's msm_bigint and multi_pairing under its own `parallel` feature): the
   scheduler repeatedly picks any two partial sums and replaces them by their sum. *)
Inductive par_reduce {K} {G : group K} : list G -> G -> Prop :=
| reduce_none : par_reduce [] gzero
| reduce_one x : par_reduce [x] x
| reduce_two x y l l' out : Permutation l (x :: y :: l') -> par_reduce (x [+] y :: l') out -> par_reduce l out.

(* ---- the functions of the crate that contain a parallel iterator, as the set of results of all schedules ---- *)

(* src/keygen.rs:228-241 From<EncryptionKey> for PreparedEncryptionKey *)
Definition prepare_ek_par {E} (ek : encryption_key E) (out : prepared_encryption_key E) : Prop :=
  exists zs, par_collect prep (ek_Z ek) zs /\
    out = PreparedEncryptionKey (ek_X_0 ek) (ek_X ek) (ek_Y ek) zs (ek_P_1 ek) (ek_P_2 ek).

(* src/keygen.rs:243-255 From<DecryptionKey> for PreparedDecryptionKey *)
Definition prepare_dk_par {E} (dk : decryption_key E) (out : prepared_decryption_key E) : Prop :=
  exists v1 v2, par_collect prep (dk_V_1 dk) v1 /\ par_collect prep (dk_V_2 dk) v2 /\
    out = PreparedDecryptionKey (prep (dk_V_0 dk)) v1 v2.

(* src/keygen.rs:337-339 / 508-510, with the collected t_repr of lines 334 / 505 *)
Definition make_Y_repr {E} (n : nat) (g_i : list (G1 E)) (t_repr : list Z) : outcome (list (G1 E)) :=
  mapM (fun i => g <- idx g_i i ;; ti <- idx t_repr (i + 1) ;; Ok (mul_bigint g ti)) (seq 0 n).

(* src/keygen.rs:310-358 FkeygenPartial *)
Definition FkeygenPartial_par {E} (R : rng_impl E) (chunk_bit_size : Z) (gens : encryption_gens E)
    (g_i : list (G1 E)) (delta_g gamma_g : G1 E) (st : rng_st R)
    (out : outcome (secret_key_st E * ek_partial E * rng_st R)) : Prop :=
  match chunks_count (K_of E) chunk_bit_size with
  | Err e => out = Err e
  | Panic => out = Panic
  | Ok cnt =>
    let n := Z.to_nat cnt in
    if (length g_i <? n)%nat then out = Err (VectorShorterThanExpected (length g_i) n) else
    let (s, st1) := rand_scalars R n st in
    let (t, st2) := rand_scalars R (n + 1) st1 in
    exists t_repr, par_collect into_bigint t t_repr /\
    out = (X <- multiply_field_elems_with_same_group_elem delta_g s ;;
           Y <- make_Y_repr n g_i t_repr ;;
           Z <- multiply_field_elems_with_same_group_elem (eg_H gens) t ;;
           let P_2 := mul_bigint gamma_g (into_bigint (fsum s)) in
           Ok (SecretKeyST s t, FEncryptionKeyPartial delta_g X Y Z P_2, st2))
  end.

(* src/keygen.rs:476-542 keygen *)
Definition keygen_par {E} (R : rng_impl E) (chunk_bit_size : Z) (gens : encryption_gens E)
    (g_i : list (G1 E)) (delta_g gamma_g : G1 E) (st : rng_st R)
    (out : outcome (Fr E * encryption_key E * decryption_key E * rng_st R)) : Prop :=
  match chunks_count (K_of E) chunk_bit_size with
  | Err e => out = Err e
  | Panic => out = Panic
  | Ok cnt =>
    let n := Z.to_nat cnt in
    if (length g_i <? n)%nat then out = Err (VectorShorterThanExpected (length g_i) n) else
    let (rho, st0) := rand_scalar R st in
    let (s, st1) := rand_scalars R n st0 in
    let (t, st2) := rand_scalars R (n + 1) st1 in
    let (v, st3) := rand_scalars R n st2 in
    exists t_repr, par_collect into_bigint t t_repr /\
    out = (X <- multiply_field_elems_with_same_group_elem delta_g s ;;
           Y <- make_Y_repr n g_i t_repr ;;
           Z <- multiply_field_elems_with_same_group_elem (eg_H gens) t ;;
           t0 <- idx t 0 ;;
           st_prods <- mapM (fun j => sj <- idx s j ;; tj <- idx t (j + 1) ;; Ok (fmul sj tj)) (seq 0 n) ;;
           let P_1 := mul_bigint delta_g (into_bigint (fadd t0 (fsum st_prods))) in
           let P_2 := mul_bigint gamma_g (into_bigint (fadd fone (fsum s))) in
           let ek := EncryptionKey delta_g X Y Z P_1 P_2 in
           let V_0 := mul_bigint (eg_H gens) (into_bigint rho) in
           V_2 <- multiply_field_elems_with_same_group_elem V_0 v ;;
           V_1 <- multiply_field_elems_with_same_group_elem (eg_H gens)
                    (map (fun '(s_i, v_i) => fmul s_i v_i) (combine s v)) ;;
           Ok (rho, ek, DecryptionKey V_0 V_1 V_2, st3))
  end.

(* <BigInt as From<u64>>::from(m_i as u64): the same non-negative integer (src/encryption.rs:377) *)
Definition bigint_from_u16 (m : Z) : Z := m.

(* src/encryption.rs:353-389 encrypt_decomposed_message; the sum of the MSM is reduced in parallel by the dependency *)
Definition encrypt_decomposed_message_par {E} (R : rng_impl E) (message_chunks : list Z) (ek : encryption_key E)
    (g_i : list (G1 E)) (st : rng_st R) (out : outcome (list (G1 E) * Fr E * rng_st R)) : Prop :=
  match ek_supported_chunks_count ek with
  | Err e => out = Err e
  | Panic => out = Panic
  | Ok cnt =>
    let expected_count := Z.to_nat cnt in
    if negb (Nat.eqb (length message_chunks) expected_count)
    then out = Err (IncompatibleEncryptionKey (length message_chunks) expected_count)
    else if (length g_i <? length message_chunks)%nat
    then out = Err (VectorShorterThanExpected (length message_chunks) (length g_i))
    else
    let (r, st1) := rand_scalar R st in
    let r_repr := into_bigint r in
    let ct_0 := mul_bigint (ek_X_0 ek) r_repr in
    exists m psi, par_collect bigint_from_u16 message_chunks m /\
    par_reduce (map (fun '(b, s) => mul_bigint b s) (combine (ek_commitment_key ek) (m ++ [into_bigint r]))) psi /\
    out = (cs <- mapM (fun i =>
                  x <- idx (ek_X ek) i ;;
                  g <- idx g_i i ;;
                  mi <- idx m i ;;
                  Ok (mul_bigint x r_repr [+] mul_bigint g mi)) (seq 0 (length (ek_X ek))) ;;
           Ok (ct_0 :: cs ++ [psi], r, st1))
  end.

(* src/encryption.rs:578-608 with the collected r_powers_repr of lines 584-586 *)
Definition batch_g1_repr {E} (ciphertexts : list (ciphertext E)) (num : nat) (r_powers_repr : list Z)
  : outcome (list (G1 E)) :=
  ct0 <- idx ciphertexts 0 ;;
  bases_x <- mapM (fun i => ct <- idx ciphertexts i ;; Ok (ct_X_r ct)) (seq 0 num) ;;
  let a_0 := msm_bigint bases_x r_powers_repr in
  a_mid <- mapM (fun j =>
     bases <- mapM (fun i => ct <- idx ciphertexts i ;; idx (ct_enc_chunks ct) j) (seq 0 num) ;;
     Ok (msm_bigint bases r_powers_repr)) (seq 0 (length (ct_enc_chunks ct0))) ;;
  bases_c <- mapM (fun i => ct <- idx ciphertexts i ;; Ok (ct_commitment ct)) (seq 0 num) ;;
  Ok (a_0 :: a_mid ++ [[-] msm_bigint bases_c r_powers_repr]).

(* src/encryption.rs:252-279 verify_commitments_in_batch *)
Definition verify_commitments_in_batch_par {E} (ciphertexts : list (ciphertext E)) (r_powers : list (Fr E))
    (ek : prepared_encryption_key E) (gens : prepared_encryption_gens E) (out : outcome unit) : Prop :=
  exists r_powers_repr, par_collect into_bigint r_powers r_powers_repr /\
  out = if negb (Nat.eqb (length r_powers) (length ciphertexts)) then Panic else
        (cnt <- pek_supported_chunks_count ek ;;
         let expected_count := Z.to_nat cnt in
         _ <- check_batch_sizes ciphertexts expected_count ;;
         a <- batch_g1_repr ciphertexts (length r_powers) r_powers_repr ;;
         b <- get_g2_for_ciphertext_commitment_pairing_checks ek gens ;;
         p <- multi_pairing a b ;;
         if gis_zero p then Ok tt else Err InvalidCommitment).
