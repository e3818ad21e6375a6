(* BallotSpec.v -- specification of the election of C88: honest clients and a coalition cast ballots, the parties open the sum of all of them and
   nothing else. *)
From Verif Require Import Base Algebra Utils Setup Keygen Encryption KeySpec Spec Protocol Circuit Groth16 SoundSpec SoundDkgSpec NonmalSpec PrivacySpec PrivacyDkgSpec CcaSpec RccaSpec RccaDkgSpec
  RushSpec InsiderSpec LateSpec TallySpec.

(* What the coalition does after the attack of C85: the ballots it casts, the destination of the opened sum (a combination of what is on the table), and
   the tests it makes when it has seen the honest party's share of the sum, with what it says in the end (RushSpec.plan). *)
Record campaign (E : pairing) (R : Type) := Campaign { ca_ballots : list (strategy E); ca_dest : list (Fr E); ca_inquiry : plan E R }.
Arguments Campaign {E R} _ _ _.
Arguments ca_ballots {E R} _.
Arguments ca_dest {E R} _.
Arguments ca_inquiry {E R} _.

(* The honest party's part in the opening, as in /repo/src/tests.rs: add_cts over all ballots (/repo/src/encryption.rs:456-470), then re_encrypt_share
   (/repo/src/encryption.rs:392-414) of the sum for the destination; what is sent is the share, w and g_r. *)
Definition tally_share {E : pairing} (H : rng_impl E) (gens : encryption_gens E) (honest : secret_key_st E) (ballots : list (ciphertext E * proof E)) (dest : G1 E) (sh : rng_st H)
  : outcome (list (G1 E)) :=
  sum <- sum_cts (map (fun ballot => ct_X_r (fst ballot) :: ct_enc_chunks (fst ballot) ++ [ct_commitment (fst ballot)]) ballots) ;;
  total <- ct_of_vec sum ;;
  '(w, g_r, _) <- re_encrypt_share H gens (ct_X_r total) (ct_enc_chunks total) (FEncryptionKeyDest dest) honest sh ;;
  Ok (w ++ [g_r]).
(* the ballot passes Ciphertext::verify_commitment_and_proof (/repo/src/encryption.rs:628-636) under the keys *)
Definition valid {E : pairing} (gens : encryption_gens E) (keys : dkg_keys E) (ballot : ciphertext E * proof E) : bool :=
  match verify_commitment_and_proof (fst ballot) (snd ballot) (prepare_verifying_key (gpk_vk (pk_pk (kg_pk keys)))) (prepare_ek (kg_ek keys)) (prepare_gens gens) with
  | Ok _ => true
  | _ => false
  end.
(* One election on given coins: keys, ballots of the clients, ballots of the coalition that are counted, what the coalition says.  Ballots that are not
   valid are not counted.  The honest party draws the randomness of its last share from generator H' in state sh'. *)
Definition election {E : pairing} {R : Type} (pf : profile) (B : groth16_backend E) (G H H' : rng_impl E) (gens : encryption_gens E) (b : Z) (before after : list (list (Fr E)))
    (second : bool) (A : insider E (campaign E R)) (st : rng_st G) (sh : rng_st H) (sh' : rng_st H') (coins : list (Fr E))
  : option (dkg_keys E * list (ciphertext E * proof E) * list (ciphertext E * proof E) * R) :=
  match insider_run pf B G H gens b before after second A st sh coins with
  | Some (keys, (C, cps, seen)) =>
    let T1 := dkg_g1 gens (public_run keys cps) ++ seen in let T2 := dkg_g2 gens (public_run keys cps) in
    let mine := filter (valid gens keys) (cast (ca_ballots C) T1 T2) in
    match nth_error (kg_parties keys) (length before) with
    | Some (honest, _) =>
      match tally_share H' gens honest (cps ++ mine) (dot (ca_dest C) T1) sh' with
      | Ok share => Some (keys, cps, mine, settle (ca_inquiry C) (T1 ++ share) T2)
      | _ => None
      end
    | None => None
    end
  | None => None
  end.

(* the clients' messages, as pairs, in the order in which they are offered: P holds of them and of the result wherever the attack may end *)
Inductive ends {E : pairing} {R : Type} (P : list (Fr E * Fr E) -> R -> Prop) : list (Fr E * Fr E) -> insider E R -> Prop :=
| ends_stop offers r : P offers r -> ends P offers (IStop r)
| ends_try offers q A1 A2 : ends P offers A1 -> ends P offers A2 -> ends P offers (ITry q A1 A2)
| ends_offer offers m m' next : ends P (offers ++ [(m, m')]) next -> ends P offers (IOffer m m' next)
| ends_ship offers St dest next : (forall r, ends P offers (next r)) -> ends P offers (IShip St dest next).
(* the messages of both worlds have the same chunk-wise sum *)
Definition balanced {E : pairing} (pf : profile) (n : nat) (b : Z) (offers : list (Fr E * Fr E)) : Prop :=
  exists votes votes', mapM (fun offer => decompose pf (fst offer) b) offers = Ok votes /\ mapM (fun offer => decompose pf (snd offer) b) offers = Ok votes' /\
    chunk_sum n votes = chunk_sum n votes'.
(* at most v ballots of the coalition, at most u tests in the end, the same sum in both worlds *)
Definition fair {E : pairing} {R : Type} (pf : profile) (n : nat) (b : Z) (v u : nat) (offers : list (Fr E * Fr E)) (C : campaign E R) : Prop :=
  (length (ca_ballots C) <= v)%nat /\ (looks (ca_inquiry C) <= u)%nat /\ balanced pf n b offers.
(* none of the ballots is a rerandomized ciphertext of a client *)
Definition no_copies {E : pairing} (keys : dkg_keys E) (cps mine : list (ciphertext E * proof E)) : Prop :=
  forall ballot ct0 q0 rho, In ballot mine -> In (ct0, q0) cps -> fst ballot <> rerandomized (kg_ek keys) rho ct0.
