(* RushSpec.v -- specification of the coalitions of C84: all parties but one of the distributed key generation, who first look at the common
   reference string and at the contribution of the honest party, and only then decide how many they are, where the honest party comes in the
   order, which random numbers their own contributions are made of, and how to attack. *)
From Verif Require Import Base Algebra Setup Keygen Encryption KeySpec Circuit Groth16 SoundSpec PrivacySpec PrivacyDkgSpec CcaSpec RccaSpec RccaDkgSpec.

(* the first moves of PrivacyDkgSpec.dkg_execution: the SRS (/repo/src/saver_groth16.rs:47-74) and the honest party's contribution
   (/repo/src/keygen.rs:310-358 FkeygenPartial), in the order of /repo/src/tests.rs *)
Definition first_moves {E : pairing} (B : groth16_backend E) (gens : encryption_gens E) (b : Z) (coins : list (Fr E)) : outcome (proving_key E * ek_partial E) :=
  circ <- circuit_new b None None true ;;
  '(pk, st1) <- generate_srs B (replay_rng E) (generate_constraints circ) gens coins ;;
  g_i <- get_gs_for_encryption (gpk_vk (pk_pk pk)) ;;
  '(_, part, _) <- FkeygenPartial (replay_rng E) b gens g_i (gpk_delta_g1 (pk_pk pk)) (pk_gamma_g1 pk) st1 ;;
  Ok (pk, part).
(* every element of G1 and of G2 in them *)
Definition early_g1 {E : pairing} (gens : encryption_gens E) (pk : proving_key E) (part : ek_partial E) : list (G1 E) :=
  let gpk := pk_pk pk in let vk := gpk_vk gpk in
  [eg_G gens; vk_alpha_g1 vk; gpk_beta_g1 gpk; gpk_delta_g1 gpk; pk_gamma_g1 pk]
  ++ gpk_a_query gpk ++ gpk_b_g1_query gpk ++ gpk_h_query gpk ++ gpk_l_query gpk ++ vk_gamma_abc_g1 vk ++ part_g1 part.
Definition early_g2 {E : pairing} (gens : encryption_gens E) (pk : proving_key E) (part : ek_partial E) : list (G2 E) :=
  let gpk := pk_pk pk in let vk := gpk_vk gpk in
  [eg_H gens; vk_beta_g2 vk; vk_gamma_g2 vk; vk_delta_g2 vk] ++ gpk_b_g2_query gpk ++ ekp_Z part.

(* a choice that is made after tests, each of which may depend on the answers so far *)
Inductive plan (E : pairing) (X : Type) :=
| Settle (x : X)
| Look (q : list (list (Fr E))) (if_one if_not : plan E X).
Arguments Settle {E X} _.
Arguments Look {E X} _ _ _.
Fixpoint settle {E : pairing} {X : Type} (P : plan E X) (Ps : list (G1 E)) (Qs : list (G2 E)) : X :=
  match P with
  | Settle x => x
  | Look q P1 P2 => if geqb (pairing_product q Ps Qs) gzero then settle P1 Ps Qs else settle P2 Ps Qs
  end.
(* the number of tests on the longest path *)
Fixpoint looks {E : pairing} {X : Type} (P : plan E X) : nat :=
  match P with Settle _ => 0 | Look _ P1 P2 => S (Nat.max (looks P1) (looks P2)) end.
(* all choices that the plan may lead to *)
Fixpoint choices {E : pairing} {X : Type} (P : plan E X) : list X :=
  match P with Settle x => [x] | Look _ P1 P2 => choices P1 ++ choices P2 end.

(* what the coalition decides: the tapes of the parties before and after the honest one, and the attack *)
Record rush (E : pairing) (R : Type) := Rush { ru_before : list (list (Fr E)); ru_after : list (list (Fr E)); ru_attack : adversary E R }.
Arguments Rush {E R} _ _ _.
Arguments ru_before {E R} _.
Arguments ru_after {E R} _.
Arguments ru_attack {E R} _.
(* tapes of the length a contribution takes, and an attack of at most t tests, q submissions and k pairs of messages *)
Definition rush_limited {E : pairing} {R : Type} (n t q k : nat) (x : rush E R) : Prop :=
  Forall (fun tape => length tape = (2 * n + 1)%nat) (ru_before x) /\ Forall (fun tape => length tape = (2 * n + 1)%nat) (ru_after x) /\ limited t q k (ru_attack x).

(* One execution on given coins: the first moves, the decision, then the key generation with the tapes decided on and the game of C80.  (The key
   generation draws the SRS and the honest contribution from the same coins again: C84_same_first_moves.) *)
Definition rushing_experiment {E : pairing} {R : Type} (pf : profile) (B : groth16_backend E) (G : rng_impl E) (gens : encryption_gens E) (b : Z)
    (second : bool) (P : plan E (rush E R)) (st : rng_st G) (coins : list (Fr E)) : option R :=
  match first_moves B gens b coins with
  | Ok (pk, part) =>
    let x := settle P (early_g1 gens pk part) (early_g2 gens pk part) in
    experiment_rcca_dkg pf B G gens b (ru_before x) (ru_after x) second (ru_attack x) st coins
  | _ => None
  end.
