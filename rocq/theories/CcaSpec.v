(* CcaSpec.v -- specification of the attacker of C77: besides looking at what is on the table it may hand ciphertexts with proofs to a
   service that verifies and decrypts them with the secret key. *)
From Verif Require Import Base Algebra Utils Setup Keygen Encryption KeySpec Groth16 SoundSpec SoundDkgSpec PrivacySpec.

(* What the service says: the ciphertext was not accepted (or could not be decrypted); it carries one of the protected messages; or the
   decrypted chunks. *)
Inductive reply := Refused | Protected | Opened (chunks : list Z).

(* is ms, written in chunks of b bits, one of the protected messages? *)
Definition is_protected {E : pairing} (pf : profile) (b : Z) (protected : list (Fr E)) (chunks : list Z) : bool :=
  existsb (fun m => match decompose pf m b with Ok ds => if list_eq_dec Z.eq_dec ds chunks then true else false | _ => false end) protected.
Definition reply_for {E : pairing} (pf : profile) (b : Z) (protected : list (Fr E)) (chunks : list Z) : reply :=
  if is_protected pf b protected chunks then Protected else Opened chunks.

(* the holder of the secret key, as a service: Ciphertext::verify_commitment_and_proof (src/encryption.rs:628-637), then
   Encryption::decrypt_to_chunks (282-291) with the g_i of the verifying key *)
Definition service {E : pairing} (pf : profile) (b : Z) (gens : encryption_gens E) (pk : proving_key E) (sk : Fr E) (ek : encryption_key E) (dk : decryption_key E)
    (protected : list (Fr E)) (ct : ciphertext E) (q : proof E) : reply :=
  match verify_commitment_and_proof ct q (prepare_verifying_key (gpk_vk (pk_pk pk))) (prepare_ek ek) (prepare_gens gens) with
  | Ok _ =>
    match get_gs_for_encryption (gpk_vk (pk_pk pk)) with
    | Ok g_i =>
      match decrypt_to_chunks pf (ct_X_r ct) (ct_enc_chunks ct) sk (prepare_dk dk) g_i b with
      | Ok (chunks, _) => reply_for pf b protected chunks
      | _ => Refused
      end
    | _ => Refused
    end
  | _ => Refused
  end.

(* An attacker tests products of pairings of what it sees, submits ciphertexts and proofs made of linear combinations of what it sees, goes
   on depending on the answers, and ends with a result. *)
Inductive attacker (E : pairing) (R : Type) :=
| Done (r : R)
| Check (q : list (list (Fr E))) (if_one if_not : attacker E R)
| Submit (St : strategy E) (next : reply -> attacker E R).
Arguments Done {E R} _.
Arguments Check {E R} _ _ _.
Arguments Submit {E R} _ _.
Fixpoint attack {E : pairing} {R : Type} (serve : ciphertext E -> proof E -> reply) (A : attacker E R) (Ps : list (G1 E)) (Qs : list (G2 E)) : R :=
  match A with
  | Done r => r
  | Check q A1 A2 => if geqb (pairing_product q Ps Qs) gzero then attack serve A1 Ps Qs else attack serve A2 Ps Qs
  | Submit St next => attack serve (next (serve (ciphertext_from St Ps) (proof_from St Ps Qs))) Ps Qs
  end.
(* at most t tests and q submissions, whatever the answers *)
Inductive within {E : pairing} {R : Type} : nat -> nat -> attacker E R -> Prop :=
| within_done t q r : within t q (Done r)
| within_check t q m A1 A2 : within t q A1 -> within t q A2 -> within (S t) q (Check m A1 A2)
| within_submit t q St next : (forall r, within t q (next r)) -> within t (S q) (Submit St next).

(* One execution on given coins: set up, encrypt the messages with proofs, and let the attacker work with everything published and with the
   service; None if the setup or an encryption fails. *)
Definition experiment_cca {E : pairing} {R : Type} (pf : profile) (B : groth16_backend E) (gens : encryption_gens E) (b : Z) (A : attacker E R)
    (protected msgs coins : list (Fr E)) : option R :=
  match setup_for_groth16 B (replay_rng E) b gens coins with
  | Ok (pk, sk, ek, dk, rest) =>
    match encrypt_all pf B (replay_rng E) msgs ek pk b rest with
    | Ok (cps, _) => Some (attack (service pf b gens pk sk ek dk protected) A (table_g1 gens pk ek cps) (table_g2 gens pk ek dk cps))
    | _ => None
    end
  | _ => None
  end.
