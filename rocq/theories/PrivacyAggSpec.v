(* PrivacyAggSpec.v -- specification of the experiment of C72: a distributed key, messages encrypted with proofs under it, and an
   interactive client (together with all parties but one) that may have sums of the published ciphertexts re-encrypted. *)
From Verif Require Import Base Algebra Utils Setup Keygen Encryption Spec KeySpec Protocol Circuit Groth16 SoundSpec PrivacySpec PrivacyDkgSpec.

(* A request: which of the published ciphertexts to add up (by position, repetitions allowed), the destination's public key as a
   combination of everything the client has seen so far (so the destination may choose it as it likes, knowing its secret or not),
   and the random scalar each of the parties uses for its share (so these are known to the client, too). *)
Record request (E : pairing) := Request { rq_select : list nat; rq_dest : list (Fr E); rq_rhos : list (Fr E) }.
Arguments Request {E} _ _ _.
Arguments rq_select {E} _.
Arguments rq_dest {E} _.
Arguments rq_rhos {E} _.

(* the parties' answer, as in /repo/src/tests.rs: add_cts over the selection, then one re_encrypt_share per party on the sum.
   The client gets the destination key and every share (w, g_r). *)
Definition serve {E : pairing} (gens : encryption_gens E) (sks : list (secret_key_st E)) (cps : list (ciphertext E * proof E)) (seen : list (G1 E)) (rq : request E)
  : outcome (list (G1 E)) :=
  chosen <- mapM (idx cps) (rq_select rq) ;;
  sum <- sum_cts (map (fun cp => ct_X_r (fst cp) :: ct_enc_chunks (fst cp) ++ [ct_commitment (fst cp)]) chosen) ;;
  ct <- ct_of_vec sum ;;
  let ekd := FEncryptionKeyDest (dot (rq_dest rq) seen) in
  shares <- mapM (fun party => '(w, g_r, _) <- re_encrypt_share (replay_rng E) gens (ct_X_r ct) (ct_enc_chunks ct) ekd (fst party) [snd party] ;; Ok (w ++ [g_r]))
              (combine sks (rq_rhos rq)) ;;
  Ok (ekd_pk ekd :: concat shares).

(* A client tests products of pairings of what it has seen for being one and submits requests, each step depending on everything
   before, and ends with a guess. *)
Inductive client (E : pairing) :=
| Answer (g : bool)
| Test (q : list (list (Fr E))) (if_one if_not : client E)
| Submit (rq : request E) (next : client E).
Arguments Answer {E} _.
Arguments Test {E} _ _ _.
Arguments Submit {E} _ _.
Fixpoint interact {E : pairing} (gens : encryption_gens E) (sks : list (secret_key_st E)) (cps : list (ciphertext E * proof E)) (C : client E) (Ps : list (G1 E)) (Qs : list (G2 E)) : bool :=
  match C with
  | Answer g => g
  | Test q C1 C2 => if geqb (pairing_product q Ps Qs) gzero then interact gens sks cps C1 Ps Qs else interact gens sks cps C2 Ps Qs
  | Submit rq C' =>
    match serve gens sks cps Ps rq with
    | Ok new => interact gens sks cps C' (Ps ++ new) Qs
    | _ => false
    end
  end.
(* the number of tests on the longest path, and all requests it may make *)
Fixpoint tests {E : pairing} (C : client E) : nat :=
  match C with Answer _ => 0 | Test _ C1 C2 => S (Nat.max (tests C1) (tests C2)) | Submit _ C' => tests C' end.
Fixpoint requests {E : pairing} (C : client E) : list (request E) :=
  match C with Answer _ => [] | Test _ C1 C2 => requests C1 ++ requests C2 | Submit rq C' => rq :: requests C' end.

(* the chunk-wise sum of the selected messages *)
Definition selected_sum {E : pairing} (pf : profile) (b : Z) (n : nat) (msgs : list (Fr E)) (select : list nat) : outcome (list Z) :=
  chunks <- mapM (fun i => m <- idx msgs i ;; decompose pf m b) select ;; Ok (chunk_sum n chunks).

(* dkg_execution of PrivacyDkgSpec.v, which also hands out the parties' secrets (for the shares) *)
Definition agg_execution {E : pairing} (pf : profile) (B : groth16_backend E) (gens : encryption_gens E) (b : Z) (before after : list (list (Fr E)))
    (msgs coins : list (Fr E)) : outcome (dkg_run E * list (secret_key_st E)) :=
  circ <- circuit_new b None None true ;;
  '(pk, st1) <- generate_srs B (replay_rng E) (generate_constraints circ) gens coins ;;
  g_i <- get_gs_for_encryption (gpk_vk (pk_pk pk)) ;;
  let delta := gpk_delta_g1 (pk_pk pk) in let gamma := pk_gamma_g1 pk in
  ps1 <- contributions b gens g_i delta gamma before ;;
  '(sk, part, st2) <- FkeygenPartial (replay_rng E) b gens g_i delta gamma st1 ;;
  ps2 <- contributions b gens g_i delta gamma after ;;
  let parties := ps1 ++ (sk, part) :: ps2 in
  com <- combineEKs gamma (map snd parties) ;;
  shares <- mapM (fun party => genP1share com (fst party)) parties ;;
  p1 <- combineP1share shares ;;
  let ek := keygenFinal com p1 in
  '(cps, _) <- encrypt_all pf B (replay_rng E) msgs ek pk b st2 ;;
  Ok (DkgRun pk (map snd parties) shares ek cps, map fst parties).
Definition experiment_agg {E : pairing} (pf : profile) (B : groth16_backend E) (gens : encryption_gens E) (b : Z) (before after : list (list (Fr E)))
    (C : client E) (msgs coins : list (Fr E)) : bool :=
  match agg_execution pf B gens b before after msgs coins with
  | Ok (run, sks) => interact gens sks (dr_cps run) C (dkg_g1 gens run) (dkg_g2 gens run)
  | _ => false
  end.
