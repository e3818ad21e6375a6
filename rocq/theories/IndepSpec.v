(* IndepSpec.v -- specification of C89: the ballots of a coalition do not depend on the votes of the honest clients. *)
From Verif Require Import Base Algebra Utils Setup Keygen Encryption KeySpec Spec Protocol Circuit Groth16 SoundSpec SoundDkgSpec NonmalSpec PrivacySpec PrivacyDkgSpec CcaSpec RccaSpec RccaDkgSpec
  RushSpec InsiderSpec LateSpec TallySpec BallotSpec.

(* What the coalition leaves after the attack of C85: the ballots it casts, with a list of the pairs of messages it offered to the clients. *)
Record poll (E : pairing) := Poll { po_offers : list (Fr E * Fr E); po_ballots : list (strategy E) }.
Arguments Poll {E} _ _.
Arguments po_offers {E} _.
Arguments po_ballots {E} _.
(* the list is the right one, and there are at most v ballots (for BallotSpec.ends) *)
Definition honest_poll {E : pairing} (v : nat) (offers : list (Fr E * Fr E)) (p : poll E) : Prop := po_offers p = offers /\ (length (po_ballots p) <= v)%nat.
(* One execution on given coins, until the ballots are cast: keys, what the coalition leaves, the clients' ballots, the coalition's ballots (all of them,
   accepted or not). *)
Definition polling {E : pairing} (pf : profile) (B : groth16_backend E) (G H : rng_impl E) (gens : encryption_gens E) (b : Z) (before after : list (list (Fr E)))
    (second : bool) (A : insider E (poll E)) (st : rng_st G) (sh : rng_st H) (coins : list (Fr E))
  : option (dkg_keys E * poll E * list (ciphertext E * proof E) * list (ciphertext E * proof E)) :=
  match insider_run pf B G H gens b before after second A st sh coins with
  | Some (keys, (p, cps, seen)) => Some (keys, p, cps, cast (po_ballots p) (dkg_g1 gens (public_run keys cps) ++ seen) (dkg_g2 gens (public_run keys cps)))
  | None => None
  end.

(* the ballot contains the chunks ds *)
Definition contains {E : pairing} (b : Z) (keys : dkg_keys E) (ballot : ciphertext E * proof E) (ds : list Z) : Prop :=
  digits_ok b ds /\ exists g_i r, get_gs_for_encryption (gpk_vk (pk_pk (kg_pk keys))) = Ok g_i /\ encrypts (kg_ek keys) g_i ds (ct_X_r (fst ballot) :: ct_enc_chunks (fst ballot) ++ [ct_commitment (fst ballot)]) r.
(* ... the chunks of a message that the clients were offered, in this world or in the other one *)
Definition contains_offered {E : pairing} (pf : profile) (b : Z) (keys : dkg_keys E) (offers : list (Fr E * Fr E)) (ballot : ciphertext E * proof E) : Prop :=
  exists offer ds, In offer offers /\ (decompose pf (fst offer) b = Ok ds \/ decompose pf (snd offer) b = Ok ds) /\ contains b keys ballot ds.
(* the ballot is a rerandomized ciphertext of a client *)
Definition copied {E : pairing} (keys : dkg_keys E) (cps : list (ciphertext E * proof E)) (ballot : ciphertext E * proof E) : Prop :=
  exists ct0 q0 rho, In (ct0, q0) cps /\ fst ballot = rerandomized (kg_ek keys) rho ct0.

(* The same ballot of the coalition, in both worlds: it is accepted in both or in none, and if it is accepted it contains the same chunks in both, or it
   contains offered messages in both and copies a client in one of them. *)
Definition alike {E : pairing} (pf : profile) (gens : encryption_gens E) (b : Z) (keys : dkg_keys E) (offers : list (Fr E * Fr E)) (cps cps' : list (ciphertext E * proof E))
    (ballot ballot' : ciphertext E * proof E) : Prop :=
  (accepted gens keys ballot <-> accepted gens keys ballot') /\
  (accepted gens keys ballot ->
   (exists ds, contains b keys ballot ds /\ contains b keys ballot' ds) \/
   (contains_offered pf b keys offers ballot /\ contains_offered pf b keys offers ballot' /\ (copied keys cps ballot \/ copied keys cps' ballot'))).
(* The executions in both worlds: none of them ends, or both end with the same keys and offers, and their ballots are alike, one by one. *)
Definition polls_alike {E : pairing} (pf : profile) (gens : encryption_gens E) (b : Z)
    (x y : option (dkg_keys E * poll E * list (ciphertext E * proof E) * list (ciphertext E * proof E))) : Prop :=
  match x, y with
  | Some (keys, p, cps, ballots), Some (keys', p', cps', ballots') => keys' = keys /\ po_offers p' = po_offers p /\ Forall2 (alike pf gens b keys (po_offers p) cps cps') ballots ballots'
  | None, None => True
  | _, _ => False
  end.
