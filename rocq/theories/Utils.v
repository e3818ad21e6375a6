(* Utils.v -- model of /repo/src/utils.rs *)
From Verif Require Import Base Algebra.

(* BigInteger::to_bytes_be (ark-ff, dependency): 8*limbs bytes, most significant first. *)
Fixpoint bytes_le (n : nat) (z : Z) : list Z :=
  match n with
  | O => []
  | S n' => z mod 256 :: bytes_le n' (z / 256)
  end.
Definition to_bytes_be (K : prime_field) (z : Z) : list Z := rev (bytes_le (8 * limbs K) z).

(* PrimeField::from_be_bytes_mod_order (ark-ff, dependency): big-endian value modulo the field order. *)
Definition from_be_bytes_mod_order {K} (bytes : list Z) : scalar K :=
  of_Z (fold_left (fun acc b => acc * 256 + b) bytes 0).

(* src/utils.rs:19-24 chunks_count.  The result is a u8 (cast truncates); division by zero panics in
   every profile.  usize additions cannot overflow for real bit sizes and are unbounded here. *)
Definition chunks_count (K : prime_field) (chunk_bit_size : Z) : outcome Z :=
  let scalar_size := modulus_bit_size K in
  if chunk_bit_size =? 0 then Panic
  else Ok (as_u8 ((scalar_size + chunk_bit_size - 1) / chunk_bit_size)).

(* slice::chunks(2) *)
Fixpoint chunks2 {A} (l : list A) : list (list A) :=
  match l with
  | [] => []
  | [a] => [[a]]
  | a :: b :: l' => [a; b] :: chunks2 l'
  end.

(* u16 `x << k` for a constant k < 16: high bits are dropped, no check on the value. *)
Definition shl_u16 (x k : Z) : Z := as_u16 (x * 2 ^ k).

(* src/utils.rs:46-54, body of the loop for 16-bit chunks (CHUNK_TYPE = u16, line 26). *)
Definition decompose16_step (pf : profile) (bytes_2 : list Z) : outcome Z :=
  b0 <- idx bytes_2 0 ;;
  let b := shl_u16 b0 8 in
  if (1 <? length bytes_2)%nat
  then b1 <- idx bytes_2 1 ;; add_u16 pf b b1
  else Ok b.

(* src/utils.rs:30-58 decompose *)
Definition decompose (pf : profile) {K} (message : scalar K) (chunk_bit_size : Z) : outcome (list Z) :=
  let bytes := to_bytes_be K (into_bigint message) in
  if chunk_bit_size =? 4 then Ok (flat_map (fun b => [Z.shiftr b 4; Z.land b 15]) bytes)
  else if chunk_bit_size =? 8 then Ok bytes
  else if chunk_bit_size =? 16 then mapM (decompose16_step pf) (chunks2 bytes)
  else Err (UnexpectedBase chunk_bit_size).

(* src/utils.rs:68-70, body of the loop for 4-bit chunks. *)
Definition compose4_step (pf : profile) (nibbles : list Z) : outcome Z :=
  n0 <- idx nibbles 0 ;;
  n1 <- idx nibbles 1 ;;
  s <- add_u16 pf (shl_u16 n0 4) n1 ;;
  Ok (as_u8 s).

(* src/utils.rs:61-86 compose *)
Definition compose (pf : profile) {K} (decomposed : list Z) (chunk_bit_size : Z) : outcome (scalar K) :=
  if chunk_bit_size =? 4 then
    if Nat.eqb (length decomposed mod 2) 1 then Err InvalidDecomposition
    else bytes <- mapM (compose4_step pf) (chunks2 decomposed) ;; Ok (from_be_bytes_mod_order bytes)
  else if chunk_bit_size =? 8 then Ok (from_be_bytes_mod_order (map as_u8 decomposed))
  else if chunk_bit_size =? 16 then
    Ok (from_be_bytes_mod_order (flat_map (fun d => [as_u8 (Z.shiftr d 8); as_u8 (Z.land d 255)]) decomposed))
  else Err (UnexpectedBase chunk_bit_size).

(* ------------------------------------------------------------------ *)
(* Fixed-base windowed multiplication.  The algorithms below FixedBase::* belong to ark-ec 0.4
   (src/scalar_mul/fixed_base.rs), a dependency not included in /repo; they are transcribed from its
   published source. *)

(* ark_ec::scalar_mul::ln_without_floats with ark_std::log2 (ceiling), used by get_mul_window_size *)
Definition ln_without_floats (a : nat) : nat := Z.to_nat (Z.log2_up (Z.of_nat a) * 69 / 100).
(* FixedBase::get_mul_window_size *)
Definition get_mul_window_size (num_scalars : nat) : nat :=
  if (num_scalars <? 32)%nat then 3%nat else ln_without_floats num_scalars.

Section Window.
Context {K : prime_field} {G : group K}.

(* n doublings (double_in_place) *)
Definition double_n (n : nat) (x : G) : G := Nat.iter n (fun y => y [+] y) x.

(* the loop filling one row: 0, g, 2g, ... for the first `count` entries *)
Fixpoint row_multiples (count : nat) (cur g : G) : list G :=
  match count with
  | O => []
  | S c => cur :: row_multiples c (cur [+] g) g
  end.

(* FixedBase::get_window_table: `outerc` rows of 2^window entries; row k holds the multiples of 2^(k*window)*g.
   The last row is filled only up to 2^(scalar_size-(outerc-1)*window); the rest stays zero. *)
Fixpoint table_rows (outerc window in_window last_in_window : nat) (g_outer : G) : list (list G) :=
  match outerc with
  | O => []
  | S o =>
    let cur_in_window := if Nat.eqb o 0 then last_in_window else in_window in
    let row := row_multiples (Nat.min cur_in_window in_window) gzero g_outer in
    (row ++ repeat gzero (in_window - length row)) ::
      table_rows o window in_window last_in_window (double_n window g_outer)
  end.
Definition get_window_table (scalar_size window : nat) (g : G) : list (list G) :=
  let outerc := ((scalar_size + window - 1) / window)%nat in
  table_rows outerc window (2 ^ window)%nat (2 ^ (scalar_size - (outerc - 1) * window))%nat g.

(* the window of `window` bits starting at bit outer*window, bits at or above the modulus size ignored *)
Fixpoint window_bits (modulus_size start i window : nat) (z : Z) : nat :=
  match window with
  | O => O
  | S w =>
    ((if ((start + i) <? modulus_size)%nat && Z.testbit z (Z.of_nat (start + i)) then 2 ^ i else 0)
     + window_bits modulus_size start (S i) w z)%nat
  end.

(* FixedBase::windowed_mul *)
Definition windowed_mul (outerc window : nat) (table : list (list G)) (s : scalar K) : outcome G :=
  row0 <- idx table 0 ;;
  e0 <- idx row0 0 ;;
  foldM (fun res outer =>
    row <- idx table outer ;;
    e <- idx row (window_bits (Z.to_nat (modulus_bit_size K)) (outer * window) 0 window (into_bigint s)) ;;
    Ok (res [+] e)) (seq 0 outerc) e0.

(* FixedBase::msm *)
Definition fixed_base_msm (scalar_size window : nat) (table : list (list G)) (v : list (scalar K)) : outcome (list G) :=
  let outerc := ((scalar_size + window - 1) / window)%nat in
  if (outerc <=? length table)%nat then mapM (windowed_mul outerc window table) v else Panic.

(* src/utils.rs:94-100 struct WindowTable *)
Record window_table := WindowTable {
  wt_scalar_size : nat; wt_window_size : nat; wt_outerc : nat; wt_table : list (list G) }.

(* src/utils.rs:105-116 WindowTable::new *)
Definition window_table_new (num_multiplications : nat) (group_elem : G) : window_table :=
  let scalar_size := Z.to_nat (modulus_bit_size K) in
  let window_size := get_mul_window_size num_multiplications in
  let outerc := ((scalar_size + window_size - 1) / window_size)%nat in
  WindowTable scalar_size window_size outerc (get_window_table scalar_size window_size group_elem).

(* src/utils.rs:128-130 WindowTable::window_size *)
Definition wt_window_size_for (num_multiplications : nat) : nat := get_mul_window_size num_multiplications.

(* src/utils.rs:119-121 WindowTable::multiply *)
Definition window_table_multiply (w : window_table) (element : scalar K) : outcome G :=
  windowed_mul (wt_outerc w) (wt_window_size w) (wt_table w) element.

(* src/utils.rs:124-126 WindowTable::multiply_many *)
Definition window_table_multiply_many (w : window_table) (elements : list (scalar K)) : outcome (list G) :=
  fixed_base_msm (wt_scalar_size w) (wt_window_size w) (wt_table w) elements.

(* src/utils.rs:134-140 multiply_field_elems_with_same_group_elem *)
Definition multiply_field_elems_with_same_group_elem (group_elem : G) (elements : list (scalar K)) : outcome (list G) :=
  window_table_multiply_many (window_table_new (length elements) group_elem) elements.
End Window.
Arguments window_table {K} G.

(* ------------------------------------------------------------------ *)
(* Hashing to group/field elements.  `digest` is D::digest, `decode` is G::from_random_bytes (resp.
   F::from_random_bytes); both are oracles.  The while loop is unbounded in Rust: `fuel` bounds the number of
   further attempts and `None` means "still searching". *)

(* u64::to_le_bytes *)
Definition u64_to_le_bytes (j : Z) : list Z := bytes_le 8 j.

(* b"-attempt-" *)
Definition attempt_tag : list Z := [45; 97; 116; 116; 101; 109; 112; 116; 45].

(* src/utils.rs:149-153 / 169-173: the while loop, `g` is the last decoding result, `j` the next attempt. *)
Fixpoint try_and_incr_loop {T} (digest : list Z -> list Z) (decode : list Z -> option T)
    (bytes : list Z) (fuel : nat) (g : option T) (j : Z) : option T :=
  match g with
  | Some x => Some x
  | None =>
    match fuel with
    | O => None
    | S f =>
      let hash := digest (bytes ++ attempt_tag ++ u64_to_le_bytes j) in
      try_and_incr_loop digest decode bytes f (decode hash) (j + 1)
    end
  end.

(* src/utils.rs:165-175 field_elem_from_try_and_incr *)
Definition field_elem_from_try_and_incr {T} (digest : list Z -> list Z) (decode : list Z -> option T)
    (fuel : nat) (bytes : list Z) : option T :=
  try_and_incr_loop digest decode bytes fuel (decode (digest bytes)) 1.

(* src/utils.rs:145-161 projective_/affine_group_elem_from_try_and_incr; `clear_cofactor` is
   mul_by_cofactor_to_group *)
Definition affine_group_elem_from_try_and_incr {T U} (digest : list Z -> list Z) (decode : list Z -> option T)
    (clear_cofactor : T -> U) (fuel : nat) (bytes : list Z) : option U :=
  match try_and_incr_loop digest decode bytes fuel (decode (digest bytes)) 1 with
  | Some g => Some (clear_cofactor g)
  | None => None
  end.
