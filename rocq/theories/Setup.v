(* Setup.v -- model of the generator structs of /repo/src/setup.rs (setup_for_groth16 is in Groth16.v) *)
From Verif Require Import Base Algebra Utils.

(* src/setup.rs:21-26 struct EncryptionGens *)
Record encryption_gens (E : pairing) := EncryptionGens { eg_G : G1 E; eg_H : G2 E }.
Arguments EncryptionGens {E} _ _.
Arguments eg_G {E} _.
Arguments eg_H {E} _.

(* src/setup.rs:33-38 struct PreparedEncryptionGens (G1Prepared is identified with G1Affine) *)
Record prepared_encryption_gens (E : pairing) := PreparedEncryptionGens { peg_G : G1 E; peg_H : G2Prepared E }.
Arguments PreparedEncryptionGens {E} _ _.
Arguments peg_G {E} _.
Arguments peg_H {E} _.

(* src/setup.rs:56-63 From<EncryptionGens> for PreparedEncryptionGens *)
Definition prepare_gens {E} (g : encryption_gens E) : prepared_encryption_gens E :=
  PreparedEncryptionGens (eg_G g) (prep (eg_H g)).

(* src/setup.rs:70-75 struct ChunkedCommitmentGens *)
Record chunked_commitment_gens {K} (G : group K) := ChunkedCommitmentGens { cg_G : G; cg_H : G }.
Arguments ChunkedCommitmentGens {K G} _ _.
Arguments cg_G {K G} _.
Arguments cg_H {K G} _.

(* b" : G" and b" : H" *)
Definition tag_G : list Z := [32; 58; 32; 71].
Definition tag_H : list Z := [32; 58; 32; 72].

(* src/setup.rs:41-47 EncryptionGens::new; hashing oracles as in Utils.v, fuel bounds the two searches *)
Definition encryption_gens_new {E : pairing} {T1 T2}
    (digest : list Z -> list Z)
    (decode1 : list Z -> option T1) (clear1 : T1 -> G1 E)
    (decode2 : list Z -> option T2) (clear2 : T2 -> G2 E)
    (fuel : nat) (label : list Z) : option (encryption_gens E) :=
  match affine_group_elem_from_try_and_incr digest decode1 clear1 fuel (label ++ tag_G) with
  | None => None
  | Some G =>
    match affine_group_elem_from_try_and_incr digest decode2 clear2 fuel (label ++ tag_H) with
    | None => None
    | Some H => Some (EncryptionGens G H)
    end
  end.

(* src/setup.rs:78-82 ChunkedCommitmentGens::new *)
Definition chunked_commitment_gens_new {K} {G : group K} {T}
    (digest : list Z -> list Z) (decode : list Z -> option T) (clear : T -> G)
    (fuel : nat) (label : list Z) : option (chunked_commitment_gens G) :=
  match affine_group_elem_from_try_and_incr digest decode clear fuel (label ++ tag_G) with
  | None => None
  | Some g =>
    match affine_group_elem_from_try_and_incr digest decode clear fuel (label ++ tag_H) with
    | None => None
    | Some h => Some (ChunkedCommitmentGens g h)
    end
  end.

(* A random number generator (RngCore together with UniformRand for the three types that are sampled):
   an arbitrary state machine. *)
Record rng_impl (E : pairing) := RngImpl {
  rng_st : Type;
  rand_scalar : rng_st -> Fr E * rng_st;
  rand_g1 : rng_st -> G1 E * rng_st;
  rand_g2 : rng_st -> G2 E * rng_st
}.
Arguments rng_st {E} _.
Arguments rand_scalar {E} _ _.
Arguments rand_g1 {E} _ _.
Arguments rand_g2 {E} _ _.

(* (0..n).map(|_| E::ScalarField::rand(rng)).collect() *)
Fixpoint rand_scalars {E} (R : rng_impl E) (n : nat) (st : rng_st R) : list (Fr E) * rng_st R :=
  match n with
  | O => ([], st)
  | S n' => let (x, st1) := rand_scalar R st in
            let (xs, st2) := rand_scalars R n' st1 in (x :: xs, st2)
  end.

(* src/setup.rs:49-53 EncryptionGens::new_using_rng *)
Definition encryption_gens_new_using_rng {E} (R : rng_impl E) (st : rng_st R) : encryption_gens E * rng_st R :=
  let (g, st1) := rand_g1 R st in
  let (h, st2) := rand_g2 R st1 in
  (EncryptionGens g h, st2).

(* src/setup.rs:84-88 ChunkedCommitmentGens::new_using_rng (instantiated at G1) *)
Definition chunked_commitment_gens_new_using_rng {E} (R : rng_impl E) (st : rng_st R)
  : chunked_commitment_gens (G1 E) * rng_st R :=
  let (g, st1) := rand_g1 R st in
  let (h, st2) := rand_g1 R st1 in
  (ChunkedCommitmentGens g h, st2).
