(* PrivacyDkgSpec.v -- specification of the experiment of C67: the encryption key is made by the distributed key generation, all
   parties but one are under the observer's control, and messages are then encrypted with proofs under that key. *)
From Verif Require Import Base Algebra Setup Keygen Encryption KeySpec Circuit Groth16 SoundSpec PrivacySpec.

(* the contributions of parties that draw their scalars from given tapes *)
Definition contributions {E : pairing} (b : Z) (gens : encryption_gens E) (g_i : list (G1 E)) (delta gamma : G1 E) (tapes : list (list (Fr E)))
  : outcome (list (secret_key_st E * ek_partial E)) :=
  mapM (fun tape => '(sk, part, _) <- FkeygenPartial (replay_rng E) b gens g_i delta gamma tape ;; Ok (sk, part)) tapes.

(* what is made public *)
Record dkg_run (E : pairing) := DkgRun { dr_pk : proving_key E; dr_parts : list (ek_partial E); dr_shares : list (p1share E); dr_ek : encryption_key E;
  dr_cps : list (ciphertext E * proof E) }.
Arguments DkgRun {E} _ _ _ _ _.
Arguments dr_pk {E} _.
Arguments dr_parts {E} _.
Arguments dr_shares {E} _.
Arguments dr_ek {E} _.
Arguments dr_cps {E} _.

(* One execution: the SRS is generated from the coins; the parties contribute in order, those before and after the honest one from
   tapes fixed in advance, the honest one from the coins that are left; the key is combined as in /repo/src/tests.rs; the messages
   are encrypted with proofs, again from the coins that are left. *)
Definition dkg_execution {E : pairing} (pf : profile) (B : groth16_backend E) (gens : encryption_gens E) (b : Z) (before after : list (list (Fr E)))
    (msgs coins : list (Fr E)) : outcome (dkg_run E) :=
  circ <- circuit_new b None None true ;;
  '(pk, st1) <- generate_srs B (replay_rng E) (generate_constraints circ) gens coins ;;
  g_i <- get_gs_for_encryption (gpk_vk (pk_pk pk)) ;;
  let delta := gpk_delta_g1 (pk_pk pk) in let gamma := pk_gamma_g1 pk in
  ps1 <- contributions b gens g_i delta gamma before ;;
  '(sk, part, st2) <- FkeygenPartial (replay_rng E) b gens g_i delta gamma st1 ;;
  ps2 <- contributions b gens g_i delta gamma after ;;
  let parties := ps1 ++ (sk, part) :: ps2 in
  com <- combineEKs gamma (map snd parties) ;;
  shares <- mapM (fun party => genP1share com (fst party)) parties ;;
  p1 <- combineP1share shares ;;
  let ek := keygenFinal com p1 in
  '(cps, _) <- encrypt_all pf B (replay_rng E) msgs ek pk b st2 ;;
  Ok (DkgRun pk (map snd parties) shares ek cps).

(* the elements of G1 and of G2 the observer sees *)
Definition part_g1 {E : pairing} (part : ek_partial E) : list (G1 E) := [ekp_X_0 part] ++ ekp_X part ++ ekp_Y part ++ [ekp_P_2 part].
Definition dkg_g1 {E : pairing} (gens : encryption_gens E) (run : dkg_run E) : list (G1 E) :=
  concat (map part_g1 (dr_parts run)) ++ map p1_P_1 (dr_shares run) ++ table_g1 gens (dr_pk run) (dr_ek run) (dr_cps run).
Definition dkg_g2 {E : pairing} (gens : encryption_gens E) (run : dkg_run E) : list (G2 E) :=
  let gpk := pk_pk (dr_pk run) in let vk := gpk_vk gpk in
  concat (map ekp_Z (dr_parts run)) ++ [eg_H gens; vk_beta_g2 vk; vk_gamma_g2 vk; vk_delta_g2 vk] ++ gpk_b_g2_query gpk ++ ek_Z (dr_ek run) ++
  map (fun cp => pr_b (snd cp)) (dr_cps run).

Definition experiment_dkg {E : pairing} (pf : profile) (B : groth16_backend E) (gens : encryption_gens E) (b : Z) (before after : list (list (Fr E)))
    (O : observer E) (msgs coins : list (Fr E)) : bool :=
  match dkg_execution pf B gens b before after msgs coins with
  | Ok run => observe O (dkg_g1 gens run) (dkg_g2 gens run)
  | _ => false
  end.
