(* Commitment.v -- model of /repo/src/commitment.rs *)
From Verif Require Import Base Algebra Utils Setup.

Section Commitment.
Context {K : prime_field} {G : group K}.

(* src/commitment.rs:96-107 get_values_to_commit *)
Definition get_values_to_commit (pf : profile) (message blinding : scalar K) (chunk_bit_size : Z) : outcome (list Z) :=
  decomposed <- decompose pf message chunk_bit_size ;;
  Ok (decomposed ++ [into_bigint blinding]).

(* u64::trailing_zeros of a power of two / u64::is_power_of_two *)
Definition is_power_of_two (r : Z) : bool := (0 <? r) && (r =? 2 ^ Z.log2 r).
Fixpoint pos_trailing_zeros (q : positive) : nat :=
  match q with xO q' => S (pos_trailing_zeros q') | _ => O end.
Definition trailing_zeros (r : Z) : nat := match r with Zpos q => pos_trailing_zeros q | _ => 64%nat end.

(* src/commitment.rs:109-127 commitment_key_for_radix_power_of_2; the vector is built in order and reversed.
   The loop `for i in 1..chunks_count` reads the last pushed element gs[i-1]. *)
Fixpoint doubling_chain (steps log2 : nat) (last : G) : list G :=
  match steps with
  | O => []
  | S s => let curr := double_n log2 last in curr :: doubling_chain s log2 curr
  end.
Definition commitment_key_for_radix_power_of_2 (g : G) (chunks_count : Z) (radix : Z) : list G :=
  let log2 := trailing_zeros radix in
  rev (g :: doubling_chain (Z.to_nat (chunks_count - 1)) log2 g).

(* src/commitment.rs:129-142 commitment_key_for_radix_non_power_of_2 *)
Definition commitment_key_for_radix_non_power_of_2 (g : G) (chunks_count : Z) (radix : Z) : outcome (list G) :=
  let radix := of_Z radix in
  let factors := map (fun i => fpow radix (Z.to_nat chunks_count - i))
                     (seq 1 (Z.to_nat (chunks_count - 1))) ++ [fone] in
  multiply_field_elems_with_same_group_elem g factors.

(* src/commitment.rs:83-94 commitment_key.  The literal `1` has type i32, hence one_shl_i32 and the
   sign-extending cast to u64. *)
Definition commitment_key (pf : profile) (gens : chunked_commitment_gens G) (chunk_bit_size : Z) : outcome (list G) :=
  r <- one_shl_i32 pf chunk_bit_size ;;
  let radix := i32_as_u64 r in
  chunks <- chunks_count K chunk_bit_size ;;
  gs <- (if is_power_of_two radix
         then Ok (commitment_key_for_radix_power_of_2 (cg_G gens) chunks radix)
         else commitment_key_for_radix_non_power_of_2 (cg_G gens) chunks radix) ;;
  Ok (gs ++ [cg_H gens]).

(* src/commitment.rs:56-68 ChunkedCommitment::new; the pair (commitment, commitment key) is the tuple struct
   ChunkedCommitment of lines 46-49 *)
Definition chunked_commitment_new (pf : profile) (message blinding : scalar K) (chunk_bit_size : Z)
    (gens : chunked_commitment_gens G) : outcome (G * list G) :=
  decomposed <- get_values_to_commit pf message blinding chunk_bit_size ;;
  gs <- commitment_key pf gens chunk_bit_size ;;
  Ok (msm_bigint gs decomposed, gs).

(* src/commitment.rs:71-79 get_commitment_given_commitment_key *)
Definition get_commitment_given_commitment_key (pf : profile) (message blinding : scalar K) (chunk_bit_size : Z)
    (comm_key : list G) : outcome G :=
  decomposed <- get_values_to_commit pf message blinding chunk_bit_size ;;
  Ok (msm_bigint comm_key decomposed).

End Commitment.
