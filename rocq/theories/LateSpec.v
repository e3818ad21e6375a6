(* LateSpec.v -- specification of the coalitions of C86: those of C84, who decide late, with the attacks of C85, who see the decryption shares of the
   honest party. *)
From Verif Require Import Base Algebra Setup Keygen Encryption KeySpec Circuit Groth16 SoundSpec PrivacySpec PrivacyDkgSpec CcaSpec RccaSpec RccaDkgSpec RushSpec InsiderSpec.

(* what the coalition decides: the tapes of the parties before and after the honest one, and the attack *)
Record late (E : pairing) (R : Type) := Late { la_before : list (list (Fr E)); la_after : list (list (Fr E)); la_attack : insider E R }.
Arguments Late {E R} _ _ _.
Arguments la_before {E R} _.
Arguments la_after {E R} _.
Arguments la_attack {E R} _.
(* tapes of the length a contribution takes, and an attack of at most t tests, q submissions and k pairs of messages *)
Definition late_limited {E : pairing} {R : Type} (n t q k : nat) (x : late E R) : Prop :=
  Forall (fun tape => length tape = (2 * n + 1)%nat) (la_before x) /\ Forall (fun tape => length tape = (2 * n + 1)%nat) (la_after x) /\ ilimited t q k (la_attack x).
(* One execution on given coins: the first moves (RushSpec.first_moves), the decision, then the key generation with the tapes decided on and the game
   of C85. *)
Definition late_experiment {E : pairing} {R : Type} (pf : profile) (B : groth16_backend E) (G H : rng_impl E) (gens : encryption_gens E) (b : Z)
    (second : bool) (P : plan E (late E R)) (st : rng_st G) (sh : rng_st H) (coins : list (Fr E)) : option R :=
  match first_moves B gens b coins with
  | Ok (pk, part) =>
    let x := settle P (early_g1 gens pk part) (early_g2 gens pk part) in
    insider_experiment pf B G H gens b (la_before x) (la_after x) second (la_attack x) st sh coins
  | _ => None
  end.
