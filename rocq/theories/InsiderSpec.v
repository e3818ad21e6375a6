(* InsiderSpec.v -- specification of the coalitions of C85: all parties but one of the distributed key generation, who take part in the joint
   decryptions and see the share of the honest party, made for a destination of their choice. *)
From Verif Require Import Base Algebra Utils Setup Keygen Encryption KeySpec Circuit Groth16 SoundSpec SoundDkgSpec PrivacySpec PrivacyDkgSpec CcaSpec RccaSpec RccaDkgSpec.

(* The moves of RccaSpec.adversary; a submission also names a destination, whose public key is the linear combination dest of the elements of G1
   on the table. *)
Inductive insider (E : pairing) (R : Type) :=
| IStop (r : R)
| ITry (q : list (list (Fr E))) (if_one if_not : insider E R)
| IOffer (m m' : Fr E) (next : insider E R)
| IShip (St : strategy E) (dest : list (Fr E)) (next : reply -> insider E R).
Arguments IStop {E R} _.
Arguments ITry {E R} _ _ _.
Arguments IOffer {E R} _ _ _.
Arguments IShip {E R} _ _ _.
(* at most t tests, q submissions and k offers, whatever the answers *)
Inductive ilimited {E : pairing} {R : Type} : nat -> nat -> nat -> insider E R -> Prop :=
| ilimited_stop t q k r : ilimited t q k (IStop r)
| ilimited_try t q k m A1 A2 : ilimited t q k A1 -> ilimited t q k A2 -> ilimited (S t) q k (ITry m A1 A2)
| ilimited_offer t q k m m' next : ilimited t q k next -> ilimited t q (S k) (IOffer m m' next)
| ilimited_ship t q k St dest next : (forall r, ilimited t q k (next r)) -> ilimited t (S q) k (IShip St dest next).

(* The game of RccaDkgSpec.dkg_duel, with more on the table: when a submission is verified, can be decrypted and is not one of the offered messages,
   the honest party (secrets: honest, random numbers: generator H in state sh) makes its share for the coalition's destination
   (re_encrypt_share, /repo/src/encryption.rs:392-414), and the coalition sees all of it.  The result, with the ciphertexts and the shares on the table. *)
Fixpoint insider_duel {E : pairing} {R : Type} (pf : profile) (B : groth16_backend E) (G H : rng_impl E) (gens : encryption_gens E) (b : Z) (keys : dkg_keys E)
    (honest : secret_key_st E) (second : bool) (A : insider E R) (offered : list (Fr E)) (cps : list (ciphertext E * proof E)) (seen : list (G1 E)) (coins : list (Fr E))
    (st : rng_st G) (sh : rng_st H) : option (R * list (ciphertext E * proof E) * list (G1 E)) :=
  match A with
  | IStop r => Some (r, cps, seen)
  | ITry q A1 A2 =>
    if geqb (pairing_product q (dkg_g1 gens (public_run keys cps) ++ seen) (dkg_g2 gens (public_run keys cps))) gzero
    then insider_duel pf B G H gens b keys honest second A1 offered cps seen coins st sh else insider_duel pf B G H gens b keys honest second A2 offered cps seen coins st sh
  | IOffer m m' next =>
    match encrypt_with_proof pf B (replay_rng E) (if second then m' else m) (kg_ek keys) (kg_pk keys) b coins with
    | Ok (ct, _, p, coins') => insider_duel pf B G H gens b keys honest second next (m :: m' :: offered) (cps ++ [(ct, p)]) seen coins' st sh
    | _ => None
    end
  | IShip St dest next =>
    let ct := ciphertext_from St (dkg_g1 gens (public_run keys cps) ++ seen) in
    let p := proof_from St (dkg_g1 gens (public_run keys cps) ++ seen) (dkg_g2 gens (public_run keys cps)) in
    let '(answer, st') := service_by_parties pf G b gens keys offered ct p st in
    match answer with
    | Opened _ =>
      match re_encrypt_share H gens (ct_X_r ct) (ct_enc_chunks ct) (FEncryptionKeyDest (dot dest (dkg_g1 gens (public_run keys cps) ++ seen))) honest sh with
      | Ok (w, g_r, sh') => insider_duel pf B G H gens b keys honest second (next answer) offered cps (seen ++ w ++ [g_r]) coins st' sh'
      | _ => None
      end
    | _ => insider_duel pf B G H gens b keys honest second (next answer) offered cps seen coins st' sh
    end
  end.
(* One execution on given coins; the honest party is the one after those that use the tapes before.  None if the key generation, an encryption or a
   share fails. *)
Definition insider_run {E : pairing} {R : Type} (pf : profile) (B : groth16_backend E) (G H : rng_impl E) (gens : encryption_gens E) (b : Z) (before after : list (list (Fr E)))
    (second : bool) (A : insider E R) (st : rng_st G) (sh : rng_st H) (coins : list (Fr E)) : option (dkg_keys E * (R * list (ciphertext E * proof E) * list (G1 E))) :=
  match dkg_setup B gens b before after coins with
  | Ok (keys, rest) =>
    match nth_error (kg_parties keys) (length before) with
    | Some (honest, _) => option_map (fun x => (keys, x)) (insider_duel pf B G H gens b keys honest second A [] [] [] rest st sh)
    | None => None
    end
  | _ => None
  end.
Definition insider_experiment {E : pairing} {R : Type} (pf : profile) (B : groth16_backend E) (G H : rng_impl E) (gens : encryption_gens E) (b : Z) (before after : list (list (Fr E)))
    (second : bool) (A : insider E R) (st : rng_st G) (sh : rng_st H) (coins : list (Fr E)) : option R :=
  option_map (fun x => fst (fst (snd x))) (insider_run pf B G H gens b before after second A st sh coins).
