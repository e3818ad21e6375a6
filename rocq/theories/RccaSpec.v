(* RccaSpec.v -- specification of the attacker of C78: it chooses the messages to be encrypted one after the other, after having seen the
   keys, the earlier ciphertexts and the answers of the decryption service. *)
From Verif Require Import Base Algebra Utils Setup Keygen Encryption KeySpec Groth16 SoundSpec SoundDkgSpec PrivacySpec CcaSpec.

(* The moves: test a product of pairings of what is on the table; offer two messages, one of which is encrypted with a proof and put on the
   table; hand a ciphertext and a proof, made of linear combinations of what is on the table, to the decryption service; stop. *)
Inductive adversary (E : pairing) (R : Type) :=
| Stop (r : R)
| Try (q : list (list (Fr E))) (if_one if_not : adversary E R)
| Offer (m m' : Fr E) (next : adversary E R)
| Ship (St : strategy E) (next : reply -> adversary E R).
Arguments Stop {E R} _.
Arguments Try {E R} _ _ _.
Arguments Offer {E R} _ _ _.
Arguments Ship {E R} _ _.
(* at most t tests, q submissions and k offers, whatever the answers *)
Inductive limited {E : pairing} {R : Type} : nat -> nat -> nat -> adversary E R -> Prop :=
| limited_stop t q k r : limited t q k (Stop r)
| limited_try t q k m A1 A2 : limited t q k A1 -> limited t q k A2 -> limited (S t) q k (Try m A1 A2)
| limited_offer t q k m m' next : limited t q k next -> limited t q (S k) (Offer m m' next)
| limited_ship t q k St next : (forall r, limited t q k (next r)) -> limited t (S q) k (Ship St next).

(* The game: the first of the two messages is encrypted each time, or the second each time.  The service (CcaSpec.service) verifies and decrypts
   everything, but only says Protected for messages that have been offered so far.  The result, with the ciphertexts on the table at the end. *)
Fixpoint duel {E : pairing} {R : Type} (pf : profile) (B : groth16_backend E) (gens : encryption_gens E) (b : Z)
    (pk : proving_key E) (sk : Fr E) (ek : encryption_key E) (dk : decryption_key E) (second : bool)
    (A : adversary E R) (offered : list (Fr E)) (cps : list (ciphertext E * proof E)) (coins : list (Fr E)) : option (R * list (ciphertext E * proof E)) :=
  match A with
  | Stop r => Some (r, cps)
  | Try q A1 A2 =>
    if geqb (pairing_product q (table_g1 gens pk ek cps) (table_g2 gens pk ek dk cps)) gzero
    then duel pf B gens b pk sk ek dk second A1 offered cps coins else duel pf B gens b pk sk ek dk second A2 offered cps coins
  | Offer m m' next =>
    match encrypt_with_proof pf B (replay_rng E) (if second then m' else m) ek pk b coins with
    | Ok (ct, _, p, coins') => duel pf B gens b pk sk ek dk second next (m :: m' :: offered) (cps ++ [(ct, p)]) coins'
    | _ => None
    end
  | Ship St next =>
    let ct := ciphertext_from St (table_g1 gens pk ek cps) in
    let p := proof_from St (table_g1 gens pk ek cps) (table_g2 gens pk ek dk cps) in
    duel pf B gens b pk sk ek dk second (next (service pf b gens pk sk ek dk offered ct p)) offered cps coins
  end.
(* One execution on given coins, from the setup on; None if the setup or an encryption fails. *)
Definition experiment_rcca {E : pairing} {R : Type} (pf : profile) (B : groth16_backend E) (gens : encryption_gens E) (b : Z) (second : bool)
    (A : adversary E R) (coins : list (Fr E)) : option R :=
  match setup_for_groth16 B (replay_rng E) b gens coins with
  | Ok (pk, sk, ek, dk, rest) => option_map fst (duel pf B gens b pk sk ek dk second A [] [] rest)
  | _ => None
  end.
