(* SoundDkgSpec.v -- specification of the cheating prover of C69: all parties but one of the distributed key generation together *)
From Verif Require Import Base Algebra Setup Keygen Encryption Groth16 SoundSpec PrivacySpec PrivacyDkgSpec.

(* a ciphertext and a proof made of linear combinations of given elements of G1 and G2 *)
Definition ciphertext_from {E : pairing} (S : strategy E) (Ps : list (G1 E)) : ciphertext E :=
  Ciphertext (dot (sg_X_r S) Ps) (map (fun c => dot c Ps) (sg_chunks S)) (dot (sg_commitment S) Ps).
Definition proof_from {E : pairing} (S : strategy E) (Ps : list (G1 E)) (Qs : list (G2 E)) : proof E :=
  Proof (dot (sg_a S) Ps) (dot (sg_b S) Qs) (dot (sg_c S) Ps).

(* What the extractor reads off the coefficients of the commitment, when the list of elements of G1 is that of PrivacyDkgSpec.dkg_g1
   (per party the 2n+2 elements X_0, X_1..X_n, Y_1..Y_n, P_2 of its contribution; one P_1 share per party; Y_1..Y_n, P_1 of the final
   key; the rest) and the honest party comes after nb others out of m parties altogether: chunk j is the coefficient of Y_j of the
   final key plus that of Y_j of the honest contribution, the randomness is the coefficient of P_1 plus that of the honest share. *)
Definition dkg_extracted_chunks {E : pairing} (n nb m : nat) (S : strategy E) : list Z :=
  map (fun j => into_bigint (fadd (nth (m * (2 * n + 3) + j) (sg_commitment S) fzero) (nth (nb * (2 * n + 2) + (1 + n + j)) (sg_commitment S) fzero))) (seq 0 n).
Definition dkg_extracted_r {E : pairing} (n nb m : nat) (S : strategy E) : Fr E :=
  fadd (nth (m * (2 * n + 3) + n) (sg_commitment S) fzero) (nth (m * (2 * n + 2) + nb) (sg_commitment S) fzero).
