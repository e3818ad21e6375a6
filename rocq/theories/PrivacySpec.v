(* PrivacySpec.v -- specification of the observer of C64: it sees every published group element, a ciphertext and its proof, and
   may test, adaptively, whether products of pairings of what it sees are one ("generic" observer). *)
From Verif Require Import Base Algebra Setup Keygen Encryption KeySpec Groth16 SoundSpec.

(* what is on the table besides the setup: the elements of the ciphertext and of the proof *)
Definition seen_g1 {E} (gens : encryption_gens E) (pk : proving_key E) (ek : encryption_key E) (ct : ciphertext E) (p : proof E) : list (G1 E) :=
  public_g1 gens pk ek ++ [ct_X_r ct] ++ ct_enc_chunks ct ++ [ct_commitment ct; pr_a p; pr_c p].
Definition seen_g2 {E} (gens : encryption_gens E) (pk : proving_key E) (ek : encryption_key E) (dk : decryption_key E) (p : proof E) : list (G2 E) :=
  public_g2 gens pk ek dk ++ [pr_b p].

(* sum over i, j of q_ij e(P_i, Q_j), with the rows of q indexed by the elements of G1 *)
Fixpoint pairing_product {E : pairing} (q : list (list (Fr E))) (Ps : list (G1 E)) (Qs : list (G2 E)) : GT E :=
  match q, Ps with
  | row :: q', P :: Ps' => pair P (prep (dot row Qs)) [+] pairing_product q' Ps' Qs
  | _, _ => gzero
  end.

(* an observer asks whether a product of its choice is one, goes on depending on the answer, and ends with a guess *)
Inductive observer (E : pairing) :=
| Guess (g : bool)
| Ask (q : list (list (Fr E))) (if_one if_not : observer E).
Arguments Guess {E} _.
Arguments Ask {E} _ _ _.
Fixpoint observe {E : pairing} (O : observer E) (Ps : list (G1 E)) (Qs : list (G2 E)) : bool :=
  match O with
  | Guess g => g
  | Ask q O1 O2 => if geqb (pairing_product q Ps Qs) gzero then observe O1 Ps Qs else observe O2 Ps Qs
  end.
(* the number of questions on the longest path *)
Fixpoint questions {E : pairing} (O : observer E) : nat :=
  match O with Guess _ => 0 | Ask _ O1 O2 => S (Nat.max (questions O1) (questions O2)) end.

(* One execution on given coins: set up, encrypt msg with a proof using the coins that are left, and show the observer all published
   elements, the ciphertext and the proof.  The result is its guess (false if any step fails). *)
Definition experiment {E : pairing} (pf : profile) (B : groth16_backend E) (gens : encryption_gens E) (b : Z) (O : observer E) (msg : Fr E) (coins : list (Fr E)) : bool :=
  match setup_for_groth16 B (replay_rng E) b gens coins with
  | Ok (pk, sk, ek, dk, rest) =>
    match encrypt_with_proof pf B (replay_rng E) msg ek pk b rest with
    | Ok (ct, r, p, _) => observe O (seen_g1 gens pk ek ct p) (seen_g2 gens pk ek dk p)
    | _ => false
    end
  | _ => false
  end.

(* Several messages encrypted with proofs under one setup, one after the other. *)
Fixpoint encrypt_all {E : pairing} (pf : profile) (B : groth16_backend E) (R : rng_impl E) (msgs : list (Fr E)) (ek : encryption_key E) (pk : proving_key E) (b : Z)
    (st : rng_st R) : outcome (list (ciphertext E * proof E) * rng_st R) :=
  match msgs with
  | [] => Ok ([], st)
  | m :: msgs' =>
    '(ct, _, p, st1) <- encrypt_with_proof pf B R m ek pk b st ;;
    '(rest, st2) <- encrypt_all pf B R msgs' ek pk b st1 ;;
    Ok ((ct, p) :: rest, st2)
  end.
Definition pair_g1 {E : pairing} (cp : ciphertext E * proof E) : list (G1 E) :=
  [ct_X_r (fst cp)] ++ ct_enc_chunks (fst cp) ++ [ct_commitment (fst cp); pr_a (snd cp); pr_c (snd cp)].
Definition table_g1 {E} (gens : encryption_gens E) (pk : proving_key E) (ek : encryption_key E) (cps : list (ciphertext E * proof E)) : list (G1 E) :=
  public_g1 gens pk ek ++ concat (map pair_g1 cps).
Definition table_g2 {E} (gens : encryption_gens E) (pk : proving_key E) (ek : encryption_key E) (dk : decryption_key E) (cps : list (ciphertext E * proof E)) : list (G2 E) :=
  public_g2 gens pk ek dk ++ map (fun cp => pr_b (snd cp)) cps.
Definition experiment_many {E : pairing} (pf : profile) (B : groth16_backend E) (gens : encryption_gens E) (b : Z) (O : observer E) (msgs coins : list (Fr E)) : bool :=
  match setup_for_groth16 B (replay_rng E) b gens coins with
  | Ok (pk, sk, ek, dk, rest) =>
    match encrypt_all pf B (replay_rng E) msgs ek pk b rest with
    | Ok (cps, _) => observe O (table_g1 gens pk ek cps) (table_g2 gens pk ek dk cps)
    | _ => false
    end
  | _ => false
  end.
