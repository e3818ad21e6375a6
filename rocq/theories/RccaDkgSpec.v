(* RccaDkgSpec.v -- specification of the attackers of C80: all parties but one of the distributed key generation, who choose the messages to be
   encrypted as they go and may have anything else decrypted by the parties together, for a destination that tells them what it got. *)
From Verif Require Import Base Algebra Utils Setup Keygen Encryption KeySpec Protocol Circuit Groth16 SoundSpec SoundDkgSpec PrivacySpec PrivacyDkgSpec CcaSpec RccaSpec.

(* what the key generation leaves: the parties with their secrets, the shares of P_1, the final key *)
Record dkg_keys (E : pairing) := DkgKeys { kg_pk : proving_key E; kg_parties : list (secret_key_st E * ek_partial E); kg_shares : list (p1share E); kg_ek : encryption_key E }.
Arguments DkgKeys {E} _ _ _ _.
Arguments kg_pk {E} _.
Arguments kg_parties {E} _.
Arguments kg_shares {E} _.
Arguments kg_ek {E} _.
(* the key generation of PrivacyDkgSpec.dkg_execution, with the coins that are left *)
Definition dkg_setup {E : pairing} (B : groth16_backend E) (gens : encryption_gens E) (b : Z) (before after : list (list (Fr E))) (coins : list (Fr E))
  : outcome (dkg_keys E * list (Fr E)) :=
  circ <- circuit_new b None None true ;;
  '(pk, st1) <- generate_srs B (replay_rng E) (generate_constraints circ) gens coins ;;
  g_i <- get_gs_for_encryption (gpk_vk (pk_pk pk)) ;;
  let delta := gpk_delta_g1 (pk_pk pk) in let gamma := pk_gamma_g1 pk in
  ps1 <- contributions b gens g_i delta gamma before ;;
  '(sk, part, st2) <- FkeygenPartial (replay_rng E) b gens g_i delta gamma st1 ;;
  ps2 <- contributions b gens g_i delta gamma after ;;
  let parties := ps1 ++ (sk, part) :: ps2 in
  com <- combineEKs gamma (map snd parties) ;;
  shares <- mapM (fun party => genP1share com (fst party)) parties ;;
  p1 <- combineP1share shares ;;
  Ok (DkgKeys pk parties shares (keygenFinal com p1), st2).
(* what everybody sees of it, together with the ciphertexts made so far *)
Definition public_run {E : pairing} (keys : dkg_keys E) (cps : list (ciphertext E * proof E)) : dkg_run E :=
  DkgRun (kg_pk keys) (map snd (kg_parties keys)) (kg_shares keys) (kg_ek keys) cps.

(* Decryption by all parties together, as in /repo/src/tests.rs: a destination makes a key (Fkeygen_dest), every party makes its share for it
   (re_encrypt_share), the shares are combined (combine_re_encrypt_share, combine_ct_with_w) and the destination decrypts. *)
Fixpoint all_shares {E : pairing} (G : rng_impl E) (gens : encryption_gens E) (c_0 : G1 E) (c : list (G1 E)) (ekd : ek_dest E) (sks : list (secret_key_st E)) (st : rng_st G)
  : outcome (list (list (G1 E) * G1 E) * rng_st G) :=
  match sks with
  | [] => Ok ([], st)
  | sk :: rest =>
    '(w, g_r, st1) <- re_encrypt_share G gens c_0 c ekd sk st ;;
    '(shares, st2) <- all_shares G gens c_0 c ekd rest st1 ;;
    Ok ((w, g_r) :: shares, st2)
  end.
Definition decrypt_together {E : pairing} (pf : profile) (G : rng_impl E) (b : Z) (gens : encryption_gens E) (g_i : list (G1 E)) (sks : list (secret_key_st E)) (ct : ciphertext E)
    (st : rng_st G) : outcome (list Z * rng_st G) :=
  '(skd, ekd, st1) <- Fkeygen_dest G gens st ;;
  '(shares, st2) <- all_shares G gens (ct_X_r ct) (ct_enc_chunks ct) ekd sks st1 ;;
  v <- reencrypt (ct_enc_chunks ct) shares ;;
  match v with
  | g_r :: cs => chunks <- decrypt_to_chunks_after_re_encryption pf g_r cs skd g_i b ;; Ok (chunks, st2)
  | [] => Panic
  end.
(* the service of CcaSpec.service, provided by the parties: they verify, then decrypt together; the offered messages are not told *)
Definition service_by_parties {E : pairing} (pf : profile) (G : rng_impl E) (b : Z) (gens : encryption_gens E) (keys : dkg_keys E) (protected : list (Fr E))
    (ct : ciphertext E) (q : proof E) (st : rng_st G) : reply * rng_st G :=
  match verify_commitment_and_proof ct q (prepare_verifying_key (gpk_vk (pk_pk (kg_pk keys)))) (prepare_ek (kg_ek keys)) (prepare_gens gens) with
  | Ok _ =>
    match get_gs_for_encryption (gpk_vk (pk_pk (kg_pk keys))) with
    | Ok g_i =>
      match decrypt_together pf G b gens g_i (map fst (kg_parties keys)) ct st with
      | Ok (chunks, st') => (reply_for pf b protected chunks, st')
      | _ => (Refused, st)
      end
    | _ => (Refused, st)
    end
  | _ => (Refused, st)
  end.

(* The game of RccaSpec.duel, with the coalition's view of the distributed key generation and the service of the parties (who have a random number
   generator of their own, in state st). *)
Fixpoint dkg_duel {E : pairing} {R : Type} (pf : profile) (B : groth16_backend E) (G : rng_impl E) (gens : encryption_gens E) (b : Z) (keys : dkg_keys E) (second : bool)
    (A : adversary E R) (offered : list (Fr E)) (cps : list (ciphertext E * proof E)) (coins : list (Fr E)) (st : rng_st G) : option (R * list (ciphertext E * proof E)) :=
  match A with
  | Stop r => Some (r, cps)
  | Try q A1 A2 =>
    if geqb (pairing_product q (dkg_g1 gens (public_run keys cps)) (dkg_g2 gens (public_run keys cps))) gzero
    then dkg_duel pf B G gens b keys second A1 offered cps coins st else dkg_duel pf B G gens b keys second A2 offered cps coins st
  | Offer m m' next =>
    match encrypt_with_proof pf B (replay_rng E) (if second then m' else m) (kg_ek keys) (kg_pk keys) b coins with
    | Ok (ct, _, p, coins') => dkg_duel pf B G gens b keys second next (m :: m' :: offered) (cps ++ [(ct, p)]) coins' st
    | _ => None
    end
  | Ship St next =>
    let ct := ciphertext_from St (dkg_g1 gens (public_run keys cps)) in
    let p := proof_from St (dkg_g1 gens (public_run keys cps)) (dkg_g2 gens (public_run keys cps)) in
    let '(answer, st') := service_by_parties pf G b gens keys offered ct p st in
    dkg_duel pf B G gens b keys second (next answer) offered cps coins st'
  end.
(* One execution on given coins; the tapes of the parties before and after the honest one are fixed.  None if the key generation or an encryption fails. *)
Definition experiment_rcca_dkg {E : pairing} {R : Type} (pf : profile) (B : groth16_backend E) (G : rng_impl E) (gens : encryption_gens E) (b : Z) (before after : list (list (Fr E)))
    (second : bool) (A : adversary E R) (st : rng_st G) (coins : list (Fr E)) : option R :=
  match dkg_setup B gens b before after coins with
  | Ok (keys, rest) => option_map fst (dkg_duel pf B G gens b keys second A [] [] rest st)
  | _ => None
  end.
