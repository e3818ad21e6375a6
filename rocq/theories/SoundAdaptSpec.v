(* SoundAdaptSpec.v -- specification of the cheating prover of C68: it tests adaptively whether products of pairings of what it sees
   are one, and outputs linear combinations whose coefficients depend on the answers ("generic" prover). *)
From Verif Require Import Base Algebra SoundSpec PrivacySpec.

Inductive prover (E : pairing) :=
| Output (St : strategy E)
| Test (q : list (list (Fr E))) (if_one if_not : prover E).
Arguments Output {E} _.
Arguments Test {E} _ _ _.
(* what the prover outputs when it sees the elements Ps of G1 and Qs of G2 *)
Fixpoint play {E : pairing} (P : prover E) (Ps : list (G1 E)) (Qs : list (G2 E)) : strategy E :=
  match P with
  | Output St => St
  | Test q P1 P2 => if geqb (pairing_product q Ps Qs) gzero then play P1 Ps Qs else play P2 Ps Qs
  end.
(* the number of tests on the longest path *)
Fixpoint tests {E : pairing} (P : prover E) : nat :=
  match P with Output _ => 0 | Test _ P1 P2 => S (Nat.max (tests P1) (tests P2)) end.
