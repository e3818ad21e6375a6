(* PropPrivacyAgg.v -- C72: a distributed key, messages encrypted under it, re-encryption of sums: only the sums are revealed *)
From Verif Require Import Base BaseFacts Algebra Utils UtilsFacts Setup Keygen Encryption Circuit CircuitFacts CircuitSat CommitmentFacts VecFacts KeySpec KeygenFacts
  EncryptFacts DecryptFacts RoundTrip Spec VerifyFacts Protocol ReencFacts DistFacts PropProto PropVerify Groth16 ArkGroth16 PolyFacts Groth16Spec ArkFacts Groth16Facts SchwartzZippel SoundCore SoundSpec
  SoundAlg SoundGame SoundLink SoundFacts SoundCount SoundHonest Instance Examples PropGroth16 PropGroth16Cases PropSoundCases PropZK PrivacySpec PrivacyAlg PrivacyGame PrivacyLink PrivacyCount
  PropPrivacy PrivacySpan PrivacyMany PrivacyDkgSpec PrivacyDkg PropPrivacyDkg PrivacyAggSpec PrivacyAgg.

(* The coins are those of C67: five for the SRS, the 2n+1 secrets of the honest party, three for each of the k encryptions.  The other
   parties' tapes are fixed in advance.  The client sees what the observer of C67 sees, and in addition submits any number of requests
   for the re-encryption of sums of the published ciphertexts, to destination keys of its choice, and gets every party's share. *)

(* C72.  If the messages of two lists have the same chunk-wise sums over every selection the client may request, the client's guesses
   on the two lists differ by at most (N + 2qk(3N + 9(3n+9)))/p, as if it had made no request at all. *)
Theorem C72_only_the_requested_sums_are_revealed (E : pairing) (gens : encryption_gens E) (pf : profile)
    (domain : nat -> option (list (Fr E))) (fuel n k : nat) (b : Z) (cs : csys (K_of E)) (xs : list (Fr E)) (All : list (list (Fr E))) :
  eg_G gens <> gzero -> eg_H gens <> gzero -> domain_ok domain -> supported b -> 2 ^ b <= modulus (K_of E) ->
  64 * Z.of_nat (limbs (K_of E)) - b < modulus_bit_size (K_of E) -> 64 * Z.of_nat (limbs (K_of E)) < 256 * b ->
  chunks_count (K_of E) b = Ok (Z.of_nat n) -> (0 < n)%nat ->
  generate_constraints (BitsizeCheckCircuit b (Z.of_nat n) None true) (cs_new Circuit.Setup) = Ok cs ->
  domain (length (cs_cons cs) + cs_num_inst cs)%nat = Some xs ->
  NoDup All -> (forall coins, In coins All <-> length coins = (2 * n + 6 + 3 * k)%nat) ->
  forall before after : list (list (Fr E)), Forall (fun tape => length tape = (2 * n + 1)%nat) before -> Forall (fun tape => length tape = (2 * n + 1)%nat) after ->
  forall (C : client E) (msgs msgs' : list (Fr E)), length msgs = k -> length msgs' = k ->
  (forall rq, In rq (requests C) -> selected_sum pf b n msgs (rq_select rq) = selected_sum pf b n msgs' (rq_select rq)) ->
  let yes ms := Z.of_nat (length (filter (experiment_agg pf (ark_backend pf domain fuel) gens b before after C ms) All)) in
  Z.abs (yes msgs - yes msgs') * modulus (K_of E) <=
  (Z.of_nat (length xs) + 2 * Z.of_nat (tests C) * Z.of_nat k * (3 * Z.of_nat (length xs) + 9 * (3 * Z.of_nat n + 9))) * Z.of_nat (length All).
Proof.
  intros HG HH Hdom Hb HbM H1 H2 Hcount Hn0 Hcs Hxs Hnd HA before after Hbef Haft C msgs msgs' Lm Lm' Hsum. cbv zeta. rewrite (all_tuples_count _ All Hnd HA).
  pose proof (@modulus_gt1 (K_of E)) as Hp.
  eapply Z.le_trans; [apply Z.mul_le_mono_nonneg_r; [lia|apply count_difference]|].
  apply (agg_bound n cs xs pf domain fuel b gens HG HH Hdom Hb HbM (conj H1 H2) Hcount Hn0 Hcs Hxs before after Hbef Haft k msgs msgs' C); [exact Lm|exact Lm'|apply NoDup_filter; exact Hnd|exact Hsum|].
  intros coins Hin. apply filter_In in Hin. destruct Hin as [Hin Hne]. split; [apply HA; exact Hin|].
  intros Z. rewrite Z in Hne. rewrite Bool.eqb_reflx in Hne. discriminate Hne.
Qed.

(* The coins on which the client's guess depends on more than the sums are few. *)
Theorem C72_guess_rarely_depends_on_more_than_the_sums (E : pairing) (gens : encryption_gens E) (pf : profile)
    (domain : nat -> option (list (Fr E))) (fuel n k : nat) (b : Z) (cs : csys (K_of E)) (xs : list (Fr E)) (before after : list (list (Fr E)))
    (C : client E) (msgs msgs' : list (Fr E)) (L : list (list (Fr E))) :
  eg_G gens <> gzero -> eg_H gens <> gzero -> domain_ok domain -> supported b -> 2 ^ b <= modulus (K_of E) ->
  64 * Z.of_nat (limbs (K_of E)) - b < modulus_bit_size (K_of E) -> 64 * Z.of_nat (limbs (K_of E)) < 256 * b ->
  chunks_count (K_of E) b = Ok (Z.of_nat n) -> (0 < n)%nat ->
  generate_constraints (BitsizeCheckCircuit b (Z.of_nat n) None true) (cs_new Circuit.Setup) = Ok cs ->
  domain (length (cs_cons cs) + cs_num_inst cs)%nat = Some xs ->
  Forall (fun tape => length tape = (2 * n + 1)%nat) before -> Forall (fun tape => length tape = (2 * n + 1)%nat) after ->
  length msgs = k -> length msgs' = k -> NoDup L ->
  (forall rq, In rq (requests C) -> selected_sum pf b n msgs (rq_select rq) = selected_sum pf b n msgs' (rq_select rq)) ->
  (forall coins, In coins L -> length coins = (2 * n + 6 + 3 * k)%nat /\
     experiment_agg pf (ark_backend pf domain fuel) gens b before after C msgs coins <> experiment_agg pf (ark_backend pf domain fuel) gens b before after C msgs' coins) ->
  Z.of_nat (length L) * modulus (K_of E) <=
  (Z.of_nat (length xs) + 2 * Z.of_nat (tests C) * Z.of_nat k * (3 * Z.of_nat (length xs) + 9 * (3 * Z.of_nat n + 9))) * modulus (K_of E) ^ Z.of_nat (2 * n + 6 + 3 * k).
Proof.
  intros HG HH Hdom Hb HbM H1 H2 Hcount Hn0 Hcs Hxs Hbef Haft Lm Lm' Hnd Hsum HL.
  apply (agg_bound n cs xs pf domain fuel b gens HG HH Hdom Hb HbM (conj H1 H2) Hcount Hn0 Hcs Hxs before after Hbef Haft k msgs msgs' C); [exact Lm|exact Lm'|exact Hnd|exact Hsum|exact HL].
Qed.

(* ---------- the requests are answered, and a destination that knows its secret learns the sum ---------- *)
Lemma agg_of_dkg {E : pairing} pf (B : groth16_backend E) gens b before after msgs coins run : dkg_execution pf B gens b before after msgs coins = Ok run ->
  exists parties g_i st st', agg_execution pf B gens b before after msgs coins = Ok (run, map fst parties) /\ get_gs_for_encryption (gpk_vk (pk_pk (dr_pk run))) = Ok g_i /\
    dr_parts run = map snd parties /\ from_dkg b gens g_i (gpk_delta_g1 (pk_pk (dr_pk run))) (pk_gamma_g1 (dr_pk run)) parties (dr_ek run) /\
    length parties = (length before + 1 + length after)%nat /\
    encrypt_all pf B (replay_rng E) msgs (dr_ek run) (dr_pk run) b st = Ok (dr_cps run, st').
Proof.
  intros H. unfold dkg_execution in H. apply bind_Ok_inv in H. destruct H as (circ & Hc & H). apply bind_Ok_inv in H. destruct H as ([pk st1] & Hs & H).
  apply bind_Ok_inv in H. destruct H as (g_i & Hg & H). cbv zeta in H. apply bind_Ok_inv in H. destruct H as (ps1 & H1 & H). apply bind_Ok_inv in H. destruct H as ([[sk part] st2] & Hh & H).
  apply bind_Ok_inv in H. destruct H as (ps2 & H2 & H). apply bind_Ok_inv in H. destruct H as (com & Hcom & H). apply bind_Ok_inv in H. destruct H as (shares & Hsh & H).
  apply bind_Ok_inv in H. destruct H as (p1 & Hp1 & H). apply bind_Ok_inv in H. destruct H as ([cps st3] & He & H). injection H as <-.
  assert (X : forall l r, contributions b gens g_i (gpk_delta_g1 (pk_pk pk)) (pk_gamma_g1 pk) l = Ok r -> Forall (from_partial b gens g_i (gpk_delta_g1 (pk_pk pk)) (pk_gamma_g1 pk)) r /\ length r = length l).
  { unfold contributions. induction l as [|tape l IH]; intros r Hr; cbn [mapM] in Hr; [injection Hr as <-; split; [constructor|reflexivity]|].
    apply bind_Ok_inv in Hr. destruct Hr as ([sk0 part0] & Hx & Hr). apply bind_Ok_inv in Hr. destruct Hr as (r' & Hr' & Hr). injection Hr as <-. destruct (IH _ Hr') as [I1 I2].
    apply bind_Ok_inv in Hx. destruct Hx as ([[sk1 part1] st0] & Hx & Hy). injection Hy as <- <-.
    split; [constructor; [exists (replay_rng E), tape, st0; exact Hx|exact I1]|cbn; congruence]. }
  destruct (X _ _ H1) as [X1 X2]. destruct (X _ _ H2) as [X3 X4].
  exists (ps1 ++ (sk, part) :: ps2), g_i, st2, st3. cbn [dr_pk dr_parts dr_ek dr_cps].
  split; [|split; [exact Hg|split; [reflexivity|split; [|split; [rewrite app_length; cbn [length]; lia|exact He]]]]].
  - unfold agg_execution. rewrite Hc. cbn [bind]. rewrite Hs. cbn [bind]. rewrite Hg. cbn [bind]. cbv zeta. rewrite H1. cbn [bind]. rewrite Hh. cbn [bind]. rewrite H2. cbn [bind].
    rewrite Hcom. cbn [bind]. rewrite Hsh. cbn [bind]. rewrite Hp1. cbn [bind]. rewrite He. reflexivity.
  - split; [destruct ps1; discriminate|]. split; [apply Forall_app; split; [exact X1|]; constructor; [exists (replay_rng E), st1, st2; exact Hh|exact X3]|].
    unfold dkg. rewrite Hcom. cbn [bind]. rewrite Hsh. cbn [bind]. rewrite Hp1. reflexivity.
Qed.
Lemma enc_all_encrypts {E : pairing} pf (B : groth16_backend E) (R : rng_impl E) msgs ek pk b st cps st' g_i : get_gs_for_encryption (gpk_vk (pk_pk pk)) = Ok g_i ->
  encrypt_all pf B R msgs ek pk b st = Ok (cps, st') ->
  length cps = length msgs /\ forall i ct, nth_error cps i = Some ct -> exists msg m r, nth_error msgs i = Some msg /\ decompose pf msg b = Ok m /\ encrypts ek g_i m (ct_vec (fst ct)) r.
Proof.
  intros Hg. revert st cps; induction msgs as [|m msgs IH]; intros st cps H; cbn [encrypt_all] in H.
  - injection H as <- _. split; [reflexivity|]. intros [|i] ct Z; discriminate Z.
  - apply bind_Ok_inv in H. destruct H as ([[[ct r] q] s1] & H1 & H). apply bind_Ok_inv in H. destruct H as ([cps1 s2] & H2 & H). injection H as <- <-.
    destruct (IH _ _ H2) as [I1 I2]. split; [cbn; congruence|]. intros [|i] ct' Z; cbn [nth_error] in Z |- *; [|exact (I2 i ct' Z)].
    injection Z as <-. cbn [fst]. unfold encrypt_with_proof in H1. rewrite Hg in H1. cbn [bind] in H1. apply bind_Ok_inv in H1. destruct H1 as ([[ct1 r1] st1] & He & H1).
    apply bind_Ok_inv in H1. destruct H1 as (ds & Hd & H1). apply bind_Ok_inv in H1. destruct H1 as (circ & _ & H1). apply bind_Ok_inv in H1. destruct H1 as ([q1 st2] & _ & H1). injection H1 as <- <- _ _.
    apply encrypt_inv in He. destruct He as (ds' & Hd' & He). exists m, ds', r1. split; [reflexivity|]. split; [exact Hd'|]. exists R, st, st1. exact He.
Qed.
Lemma dot_at {E : pairing} (x : Fr E) i (l : list (G1 E)) : dot (repeat fzero i ++ [x]) l = x [*] nth i l gzero.
Proof.
  revert l; induction i as [|i IH]; intros [|P l]; cbn [repeat app dot nth]; try (symmetry; apply smul_0_r).
  - apply gadd_0_r.
  - rewrite IH, smul_0_l. apply gadd_0_l.
Qed.
Lemma chosen_encrypts {E : pairing} pf b (ek : encryption_key E) g_i (msgs : list (Fr E)) cps : 
  (length cps = length msgs /\ forall i ct, nth_error cps i = Some ct -> exists msg m r, nth_error msgs i = Some msg /\ decompose pf msg b = Ok m /\ encrypts ek g_i m (ct_vec (fst ct)) r) ->
  forall sel chunks, mapM (fun i => m <- idx msgs i ;; decompose pf m b) sel = Ok chunks ->
  exists chosen, mapM (idx (A := ciphertext E * proof E) cps) sel = Ok chosen /\ ciphertexts_of ek g_i chunks (map (fun cp => ct_vec (fst cp)) chosen).
Proof.
  intros [Hl He]. induction sel as [|i sel IH]; intros chunks H; cbn [mapM] in H |- *.
  - injection H as <-. exists []. split; [reflexivity|constructor].
  - apply bind_Ok_inv in H. destruct H as (m & Hm & H). apply bind_Ok_inv in H. destruct H as (ms & Hms & H). injection H as <-. destruct (IH _ Hms) as (chosen & I1 & I2).
    apply bind_Ok_inv in Hm. destruct Hm as (msg & Hi & Hd). unfold idx in Hi. destruct (nth_error msgs i) as [msg'|] eqn:Hmi; [|discriminate]. injection Hi as ->.
    destruct (nth_error cps i) as [ct|] eqn:Hci.
    2: { exfalso. apply nth_error_None in Hci. assert (i < length msgs)%nat by (apply nth_error_Some; congruence). lia. }
    destruct (He i ct Hci) as (msg2 & m2 & r & Z1 & Z2 & Z3). assert (msg2 = msg) by congruence. subst msg2. assert (m2 = m) by congruence. subst m2.
    exists (ct :: chosen). unfold idx at 1. rewrite Hci. cbn [bind]. rewrite I1. split; [reflexivity|]. constructor; [exists r; exact Z3|exact I2].
Qed.

Theorem C72_requests_deliver_the_sums (E : pairing) (gens : encryption_gens E) (pf : profile)
    (domain : nat -> option (list (Fr E))) (fuel n : nat) (b : Z) (cs : csys (K_of E)) (xs : list (Fr E)) (before after : list (list (Fr E))) (msgs coins : list (Fr E)) :
  eg_G gens <> gzero -> eg_H gens <> gzero -> domain_ok domain -> supported b -> 2 ^ b <= modulus (K_of E) ->
  64 * Z.of_nat (limbs (K_of E)) - b < modulus_bit_size (K_of E) -> 64 * Z.of_nat (limbs (K_of E)) < 256 * b ->
  chunks_count (K_of E) b = Ok (Z.of_nat n) -> (0 < n)%nat -> (0 < fuel)%nat ->
  generate_constraints (BitsizeCheckCircuit b (Z.of_nat n) None true) (cs_new Circuit.Setup) = Ok cs ->
  domain (length (cs_cons cs) + cs_num_inst cs)%nat = Some xs ->
  Forall (fun tape => length tape = (2 * n + 1)%nat) before -> Forall (fun tape => length tape = (2 * n + 1)%nat) after ->
  length coins = (2 * n + 6 + 3 * length msgs)%nat -> nth 2 coins fzero <> fzero -> nth 3 coins fzero <> fzero -> ~ In (nth 4 coins fzero) xs ->
  exists run parties g_i, agg_execution pf (ark_backend pf domain fuel) gens b before after msgs coins = Ok (run, map fst parties) /\
    get_gs_for_encryption (gpk_vk (pk_pk (dr_pk run))) = Ok g_i /\ length parties = (length before + 1 + length after)%nat /\
    from_dkg b gens g_i (gpk_delta_g1 (pk_pk (dr_pk run))) (pk_gamma_g1 (dr_pk run)) parties (dr_ek run) /\
    Forall (fun cp => verify_commitment_and_proof (fst cp) (snd cp) (prepare_verifying_key (gpk_vk (pk_pk (dr_pk run)))) (prepare_ek (dr_ek run)) (prepare_gens gens) = Ok tt) (dr_cps run) /\
    (* the client acts on this execution *)
    (forall C, experiment_agg pf (ark_backend pf domain fuel) gens b before after C msgs coins = interact gens (map fst parties) (dr_cps run) C (dkg_g1 gens run) (dkg_g2 gens run)) /\
    (* the public key of every destination is among the combinations a client can write down *)
    (exists i, forall x ekd, from_dest gens x ekd -> dot (repeat fzero i ++ [x]) (dkg_g1 gens run) = ekd_pk ekd) /\
    (* a request for some of the ciphertexts by a destination with secret x is answered by shares, one per party, from which the
       destination decrypts the sum of the messages if it is in range *)
    (forall seen rq M x ekd, rq_select rq <> [] -> selected_sum pf b n msgs (rq_select rq) = Ok M -> length (rq_rhos rq) = length parties ->
       from_dest gens x ekd -> dot (rq_dest rq) seen = ekd_pk ekd ->
       exists chosen c_0 c psi shares, mapM (idx (dr_cps run)) (rq_select rq) = Ok chosen /\
         sum_cts (map (fun cp => ct_X_r (fst cp) :: ct_enc_chunks (fst cp) ++ [ct_commitment (fst cp)]) chosen) = Ok (c_0 :: c ++ [psi]) /\
         Forall2 (share_of gens c_0 c ekd) (map fst parties) shares /\
         serve gens (map fst parties) (dr_cps run) seen rq = Ok (ekd_pk ekd :: concat (map (fun share => fst share ++ [snd share]) shares)) /\
         forall b', 1 <= b' <= 31 -> field_holds (K_of E) b' -> Forall (fits b') M -> Forall (fun z => z < modulus (K_of E)) M -> Forall (fun g => g <> gzero) (firstn n g_i) ->
           exists g_r cs, reencrypt c shares = Ok (g_r :: cs) /\ decrypt_to_chunks_after_re_encryption pf g_r cs x g_i b' = Ok M).
Proof.
  intros HG HH Hdom Hb HbM H1 H2 Hcount Hn0 Hf Hcs Hxs Hbef Haft Hl Hga Hde Hin.
  destruct (C67_experiment_shows_accepted_ciphertexts E gens pf domain fuel n b cs xs before after msgs coins HG HH Hdom Hb HbM H1 H2 Hcount Hn0 Hf Hcs Hxs Hbef Haft Hl Hga Hde Hin)
    as (run & g_i0 & parties0 & Hrun & _ & _ & _ & _ & _ & _ & Hacc & _).
  destruct (agg_of_dkg _ _ _ _ _ _ _ _ _ Hrun) as (parties & g_i & st & st' & Hagg & Hg & Hparts & Hdkg & Lp & Hencs).
  exists run, parties, g_i. split; [exact Hagg|]. split; [exact Hg|]. split; [exact Lp|]. split; [exact Hdkg|]. split; [exact Hacc|].
  split; [intros C; unfold experiment_agg; rewrite Hagg; reflexivity|]. split.
  - assert (Hi : In (eg_G gens) (dkg_g1 gens run)) by (unfold dkg_g1, table_g1, public_g1; rewrite !in_app_iff; cbn [In]; tauto).
    apply (In_nth _ _ gzero) in Hi. destruct Hi as (i & _ & Hi). exists i. intros x ekd Hd. rewrite dot_at, Hi. symmetry. apply from_dest_inv. exact Hd.
  - intros seen rq M x ekd Hsel HM Lrho Hdest Hpk.
    unfold selected_sum in HM. apply bind_Ok_inv in HM. destruct HM as (chunks & Hchunks & HM). injection HM as <-.
    destruct (chosen_encrypts pf b (dr_ek run) g_i msgs (dr_cps run) (enc_all_encrypts _ _ _ _ _ _ _ _ _ _ _ Hg Hencs) _ _ Hchunks) as (chosen & Hch & Hcts).
    set (vecs := map (fun cp => ct_X_r (fst cp) :: ct_enc_chunks (fst cp) ++ [ct_commitment (fst cp)]) chosen). change (ciphertexts_of (dr_ek run) g_i chunks vecs) in Hcts.
    assert (Hvne : vecs <> []).
    { unfold vecs. destruct chosen as [|? ?]; [|discriminate]. apply mapM_length in Hch. destruct (rq_select rq); [contradiction|discriminate]. }
    destruct (ciphertexts_of_inv _ _ _ _ Hcts) as (rs & Lrs & Hall). destruct (sum_exists _ _ _ _ _ Hvne Lrs Hall) as (c_0 & c & psi & Hsum & Lc & _).
    pose proof (sum_encrypts _ _ _ _ _ _ Hvne Lrs Hall Hsum) as Henc.
    assert (Ln : length (ek_X (dr_ek run)) = n).
    { assert (Hk : honest_key b gens g_i (gpk_delta_g1 (pk_pk (dr_pk run))) (pk_gamma_g1 (dr_pk run)) (dr_ek run)) by (right; exists parties; exact Hdkg).
      apply honest_key_inv in Hk. destruct Hk as (n' & s & t0 & t & Hn' & _ & Ls & Lt & Hlen & ->). rewrite Hcount in Hn'. assert (n' = n) by (injection Hn' as Hn'; lia).
      cbn [ek_formula ek_X]. rewrite map_length. congruence. }
    assert (Hshares : forall ps rhos, (forall q, In q ps -> In q parties) -> length rhos = length ps -> exists shares, Forall2 (share_of gens c_0 c ekd) (map fst ps) shares /\
      mapM (fun party => '(w, g_r, _) <- re_encrypt_share (replay_rng E) gens c_0 c (FEncryptionKeyDest (dot (rq_dest rq) seen)) (fst party) [snd party] ;; Ok (w ++ [g_r])) (combine (map fst ps) rhos) =
      Ok (map (fun share => fst share ++ [snd share]) shares)).
    { induction ps as [|q ps IH]; intros [|rho rhos] Hps Lr; try discriminate Lr; [exists []; split; [constructor|reflexivity]|].
      destruct (IH rhos ltac:(intros y Hy; apply Hps; right; exact Hy) ltac:(cbn in Lr; lia)) as (shares & I1 & I2).
      destruct (C28_shares_available E b gens g_i _ _ parties (dr_ek run) _ c_0 c psi _ ekd (replay_rng E) [rho] q Hdkg Henc (Hps q (or_introl eq_refl))) as (w & g_r & s1 & Hs).
      exists ((w, g_r) :: shares). split; [cbn [map]; constructor; [exists (replay_rng E), [rho], s1; exact Hs|exact I1]|]. cbn [map combine mapM fst snd].
      replace (FEncryptionKeyDest (dot (rq_dest rq) seen)) with ekd in * by (destruct ekd as [pkd]; cbn [ekd_pk] in Hpk; rewrite Hpk; reflexivity).
      rewrite Hs. cbn [bind]. rewrite I2. reflexivity. }
    destruct (Hshares parties (rq_rhos rq) (fun q Hq => Hq) Lrho) as (shares & S1 & S2).
    exists chosen, c_0, c, psi, shares. split; [exact Hch|]. split; [exact Hsum|]. split; [exact S1|]. split.
    + unfold serve. rewrite Hch. cbn [bind]. fold vecs. rewrite Hsum. cbn [bind]. change (c_0 :: c ++ [psi]) with (ct_vec (Ciphertext c_0 c psi)). rewrite ct_of_vec_ct_vec. cbn [bind ct_X_r ct_enc_chunks]. cbv zeta.
      rewrite S2. cbn [bind ekd_pk]. rewrite Hpk. reflexivity.
    + intros b' Hb' HF HM HMr Hgi. rewrite <- Ln, <- Lc in HM, HMr, Hgi |- *.
      destruct (C26_sum_decrypts_after_re_encryption pf E b b' gens g_i _ _ parties (dr_ek run) chunks vecs c_0 c psi x ekd shares Hdkg Hvne Hcts Hsum Hdest S1 Hgi Hb' HF) as (g_r & cs' & R1 & R2 & _).
      * assert (Hpos : Forall (fun z => 0 <= z) (chunk_sum (length c) chunks)).
        { apply chunk_sum_nonneg. apply Forall_forall. intros m Hm.
          assert (Hd : forall sel r, mapM (fun i => m <- idx msgs i ;; decompose pf m b) sel = Ok r -> In m r -> exists msg : Fr E, decompose pf msg b = Ok m).
          { induction sel as [|i sel IH]; intros r Hr Hi; cbn [mapM] in Hr; [injection Hr as <-; destruct Hi|]. apply bind_Ok_inv in Hr. destruct Hr as (y & Hy & Hr). apply bind_Ok_inv in Hr. destruct Hr as (r' & Hr' & Hr).
            injection Hr as <-. destruct Hi as [->|Hi]; [apply bind_Ok_inv in Hy; destruct Hy as (msg & _ & Hy); exists msg; exact Hy|exact (IH _ Hr' Hi)]. }
          destruct (Hd _ _ Hchunks Hm) as (msg & Hmsg). destruct (decompose_spec pf (K_of E) msg b Hb) as (ds' & Hd' & Hdr & _ & _). rewrite Hmsg in Hd'. injection Hd' as <-.
          split; [|eapply Forall_impl; [|exact Hdr]; cbn; lia].
          assert (Hlm : Forall (fun m => length m = length (ek_X (dr_ek run))) chunks) by (destruct (sum_exists _ _ _ _ _ Hvne Lrs Hall) as (? & ? & ? & _ & _ & Z); exact Z).
          rewrite Forall_forall in Hlm. rewrite (Hlm m Hm). symmetry. exact Lc. }
        rewrite Forall_forall in *. intros z Hz. split; [apply Hpos; exact Hz|apply HMr; exact Hz].
      * exists g_r, cs'. split; [exact R1|]. apply R2. exact HM.
Qed.

(* ---------- concrete cases ---------- *)
(* two messages, 2^20 tests: a client that only asks for their sum cannot tell (5, 2^48+7) from (6, 2^48+6) *)
Example C72_case (pf : profile) (before after : list (list (Fr E61))) (C : client E61) (All : list (list (Fr E61))) :
  Forall (fun tape => length tape = 9%nat) before -> Forall (fun tape => length tape = 9%nat) after -> Z.of_nat (tests C) <= 2 ^ 20 ->
  Forall (fun rq => rq_select rq = [0%nat; 1%nat]) (requests C) -> NoDup All -> (forall coins, In coins All <-> length coins = 20%nat) ->
  let yes ms := Z.of_nat (length (filter (experiment_agg pf (ark_backend pf y_domain 3) x_gens 16 before after C ms) All)) in
  Z.abs (yes [nz61 5; nz61 (2 ^ 48 + 7)] - yes [nz61 6; nz61 (2 ^ 48 + 6)]) * 2 ^ 25 <= Z.of_nat (length All).
Proof.
  intros Hbef Haft Hq Hrq Hnd HA yes. destruct z_cs as (cs & Hcs & Hd). destruct y_conditions as (C1 & C2 & C3 & C4). assert (H4 : (0 < 4)%nat) by lia.
  assert (HG : eg_G x_gens <> gzero) by (intros H; apply (f_equal sval) in H; vm_compute in H; discriminate H).
  assert (HS : selected_sum pf 16 4 [nz61 5; nz61 (2 ^ 48 + 7)] [0%nat; 1%nat] = selected_sum pf 16 4 [nz61 6; nz61 (2 ^ 48 + 6)] [0%nat; 1%nat]) by (destruct pf; vm_compute; reflexivity).
  pose proof (C72_only_the_requested_sums_are_revealed E61 x_gens pf y_domain 3 4 2 16 cs y_xs All HG x_H y_domain_ok C1 C2 C3 C4 y_count H4 Hcs Hd Hnd HA before after Hbef Haft C
    [nz61 5; nz61 (2 ^ 48 + 7)] [nz61 6; nz61 (2 ^ 48 + 6)] eq_refl eq_refl) as B.
  cbv zeta in B. fold (yes [nz61 5; nz61 (2 ^ 48 + 7)]) (yes [nz61 6; nz61 (2 ^ 48 + 6)]) in B.
  assert (Hsum : forall rq, In rq (requests C) -> selected_sum pf 16 4 [nz61 5; nz61 (2 ^ 48 + 7)] (rq_select rq) = selected_sum pf 16 4 [nz61 6; nz61 (2 ^ 48 + 6)] (rq_select rq)).
  { intros rq Hi. rewrite Forall_forall in Hrq. rewrite (Hrq rq Hi). exact HS. }
  specialize (B Hsum). clear Hsum HS.
  assert (Ly : Z.of_nat (length y_xs) <= 2 ^ 12) by (unfold y_xs, y_points; rewrite map_length, seq_length; unfold y_N; lia).
  change (modulus (K_of E61)) with (2 ^ 61 - 1) in B. set (d := Z.abs _) in *. assert (0 <= d) by apply Z.abs_nonneg. set (T := Z.of_nat (length All)) in *. assert (0 <= T) by (unfold T; lia).
  set (N := Z.of_nat (length y_xs)) in *. set (q := Z.of_nat (tests C)) in *. replace (Z.of_nat 2) with 2 in B by lia.
  assert (N + 2 * q * 2 * (3 * N + 9 * (3 * Z.of_nat 4 + 9)) <= 2 ^ 12 + 2 * 2 ^ 20 * 2 * (3 * 2 ^ 12 + 189)) by (assert (0 <= N) by (unfold N; lia); assert (0 <= q) by (unfold q; lia); nia).
  assert (d * (2 ^ 61 - 1) <= (2 ^ 12 + 2 * 2 ^ 20 * 2 * (3 * 2 ^ 12 + 189)) * T) by nia.
  lia.
Qed.

(* an execution with three parties in which the sum of both messages is requested and decrypted by the destination *)
Definition v_coins : list (Fr E61) := y_alpha :: y_beta :: y_gamma :: y_delta :: y_x :: map nz61 [21; 22; 23; 24; 25; 26; 27; 28; 29; 30; 31; 32; 33; 34; 35].
Lemma ok_fst {A B} (a a' : A) (b b' : B) : Ok (a, b) = Ok (a', b') -> a = a'.
Proof. congruence. Qed.
Lemma srs_abc (E : pairing) (pf : profile) domain fuel circ (gens : encryption_gens E) cs xs (al be ga de ta : Fr E) rest pk st : circ (cs_new Circuit.Setup) = Ok cs ->
  domain (length (cs_cons cs) + cs_num_inst cs)%nat = Some xs -> vanishing_at xs ta <> fzero ->
  generate_srs (ark_backend pf domain fuel) (replay_rng E) circ gens (al :: be :: ga :: de :: ta :: rest) = Ok (pk, st) ->
  vk_gamma_abc_g1 (gpk_vk (pk_pk pk)) = map (fun j => fmul (qq cs xs al be ta j) (finv ga) [*] eg_G gens) (seq 0 (cs_num_inst cs)).
Proof.
  intros Hcs Hd Hv H. unfold generate_srs in H. cbn [rand_scalar replay_rng hd tl] in H. apply bind_Ok_inv in H. destruct H as ([gpk st1] & Hg1 & H). apply ok_fst in H. rewrite <- H. cbn [pk_pk].
  apply (ark_generate_tape cs xs _ _ _ _ _ _ _ _ _ _ _ _ _ Hcs Hd Hv) in Hg1. destruct Hg1 as (_ & _ & _ & Hg1). rewrite Hg1. reflexivity.
Qed.
Lemma gen_abc (E : pairing) domain fuel circ (G : G1 E) (H : G2 E) cs xs (al be ga de ta t1 t2 : Fr E) rest gpk st : circ (cs_new Circuit.Setup) = Ok cs ->
  domain (length (cs_cons cs) + cs_num_inst cs)%nat = Some xs -> vanishing_at xs ta <> fzero -> vanishing_at xs t1 = fzero -> vanishing_at xs t2 = fzero ->
  ark_generate domain (S (S fuel)) (replay_rng E) circ al be ga de G H (t1 :: t2 :: ta :: rest) = Ok (gpk, st) ->
  vk_gamma_abc_g1 (gpk_vk gpk) = map (fun j => fmul (qq cs xs al be ta j) (finv ga) [*] G) (seq 0 (cs_num_inst cs)).
Proof.
  intros Hcs Hd Hv V1 V2 Hg. rewrite (skip_rejected E domain (S fuel) circ _ _ _ _ _ _ _ _ cs xs Hcs Hd V1), (skip_rejected E domain fuel circ _ _ _ _ _ _ _ _ cs xs Hcs Hd V2) in Hg.
  apply (ark_generate_tape cs xs _ _ _ _ _ _ _ _ _ _ _ _ _ Hcs Hd Hv) in Hg. destruct Hg as (_ & _ & _ & Hg). rewrite Hg. reflexivity.
Qed.
Lemma v_nonzero (pf : profile) (pk : proving_key E61) rest st : generate_srs (ark_backend pf y_domain 3) (replay_rng E61) y_circ x_gens
    (y_alpha :: y_beta :: y_gamma :: y_delta :: y_x :: rest) = Ok (pk, st) ->
  Forall (fun g => g <> gzero) (skipn 1 (vk_gamma_abc_g1 (gpk_vk (pk_pk pk)))).
Proof.
  intros H. destruct z_cs as (cs & Hcs & Hd). assert (E4 : Z.of_nat 4 = 4) by reflexivity. rewrite E4, <- z_circ in Hcs.
  rewrite (srs_abc E61 pf y_domain 3 y_circ x_gens cs y_xs y_alpha y_beta y_gamma y_delta y_x rest pk st Hcs Hd w_x H).
  destruct (y_generate Debug []) as (gpk' & Hg & Hgs). rewrite w_backend in Hg.
  rewrite (gen_abc E61 y_domain 1 y_circ (eg_G x_gens) (eg_H x_gens) cs y_xs y_alpha y_beta y_gamma y_delta y_x (nz61 17) (nz61 400) [] gpk' [] Hcs Hd w_x w_17 w_400 Hg) in Hgs.
  rewrite Hgs. exact y_gs_nonzero.
Qed.
Definition v_before : list (list (Fr E61)) := [map nz61 [2; 3; 4; 5; 6; 7; 8; 9; 10]].
Definition v_after : list (list (Fr E61)) := [map nz61 [12; 13; 14; 15; 16; 17; 18; 19; 20]].
Lemma v_gamma : nth 2 v_coins fzero <> fzero.
Proof. intros Z. apply (f_equal sval) in Z. vm_compute in Z. discriminate Z. Qed.
Lemma v_delta : nth 3 v_coins fzero <> fzero.
Proof. intros Z. apply (f_equal sval) in Z. vm_compute in Z. discriminate Z. Qed.
Lemma v_x : nth 4 v_coins fzero = nth 4 z_tape fzero.
Proof. reflexivity. Qed.
Lemma agg_srs {E : pairing} pf (B : groth16_backend E) gens b before after msgs coins run sks circ : agg_execution pf B gens b before after msgs coins = Ok (run, sks) ->
  circuit_new b None None true = Ok circ -> exists st, generate_srs B (replay_rng E) (generate_constraints circ) gens coins = Ok (dr_pk run, st).
Proof.
  intros H Hc0. unfold agg_execution in H. apply bind_Ok_inv in H. destruct H as (circ' & Hc & H). assert (circ' = circ) by congruence. subst circ'. apply bind_Ok_inv in H. destruct H as ([pk st1] & Hs & H).
  apply bind_Ok_inv in H. destruct H as (g_i & Hg & H). cbv zeta in H. apply bind_Ok_inv in H. destruct H as (ps1 & H1 & H). apply bind_Ok_inv in H. destruct H as ([[sk part] st2] & Hh & H).
  apply bind_Ok_inv in H. destruct H as (ps2 & H2 & H). apply bind_Ok_inv in H. destruct H as (com & Hcom & H). apply bind_Ok_inv in H. destruct H as (shares & Hsh & H).
  apply bind_Ok_inv in H. destruct H as (p1 & Hp1 & H). apply bind_Ok_inv in H. destruct H as ([cps st3] & He & H). injection H as <- _. exists st1. exact Hs.
Qed.
Lemma v_circuit : circuit_new (K := K61) 16 None None true = Ok (BitsizeCheckCircuit 16 4 None true).
Proof. unfold circuit_new. rewrite y_count. reflexivity. Qed.
Example C72_delivered_case (pf : profile) : exists run parties g_i seen rq chosen c_0 c psi shares g_r cs,
  agg_execution pf (ark_backend pf y_domain 3) x_gens 16 v_before v_after [nz61 5; nz61 (2 ^ 48 + 7)] v_coins = Ok (run, map fst parties) /\ length parties = 3%nat /\
  from_dkg 16 x_gens g_i (gpk_delta_g1 (pk_pk (dr_pk run))) (pk_gamma_g1 (dr_pk run)) parties (dr_ek run) /\
  seen = dkg_g1 x_gens run /\ rq_select rq = [0%nat; 1%nat] /\ dot (rq_dest rq) seen = ekd_pk x_ekd /\
  mapM (idx (dr_cps run)) (rq_select rq) = Ok chosen /\
  sum_cts (map (fun cp => ct_X_r (fst cp) :: ct_enc_chunks (fst cp) ++ [ct_commitment (fst cp)]) chosen) = Ok (c_0 :: c ++ [psi]) /\
  serve x_gens (map fst parties) (dr_cps run) seen rq = Ok (ekd_pk x_ekd :: concat (map (fun share => fst share ++ [snd share]) shares)) /\
  reencrypt c shares = Ok (g_r :: cs) /\ decrypt_to_chunks_after_re_encryption pf g_r cs x_skd g_i 16 = Ok [1; 0; 0; 12].
Proof.
  assert (HS : selected_sum pf 16 4 [nz61 5; nz61 (2 ^ 48 + 7)] [0%nat; 1%nat] = Ok [1; 0; 0; 12]) by (destruct pf; vm_compute; reflexivity).
  destruct z_cs as (cs0 & Hcs & Hd). destruct y_conditions as (C1 & C2 & C3 & C4). assert (H4 : (0 < 4)%nat) by lia. assert (H3 : (0 < 3)%nat) by lia.
  assert (HG : eg_G x_gens <> gzero) by (intros H; apply (f_equal sval) in H; vm_compute in H; discriminate H).
  assert (Hin : ~ In (nth 4 v_coins fzero) y_xs) by (rewrite v_x; exact z_in).
  assert (Hb : Forall (fun tape => length tape = (2 * 4 + 1)%nat) v_before) by (constructor; [reflexivity|constructor]).
  assert (Ha : Forall (fun tape => length tape = (2 * 4 + 1)%nat) v_after) by (constructor; [reflexivity|constructor]).
  assert (Lc : length v_coins = (2 * 4 + 6 + 3 * length [nz61 5; nz61 (2 ^ 48 + 7)])%nat) by reflexivity.
  destruct (C72_requests_deliver_the_sums E61 x_gens pf y_domain 3 4 16 cs0 y_xs v_before v_after [nz61 5; nz61 (2 ^ 48 + 7)] v_coins HG x_H y_domain_ok C1 C2 C3 C4 y_count H4 H3 Hcs Hd Hb Ha Lc v_gamma v_delta Hin)
    as (run & parties & g_i & A1 & A2 & A3 & A4 & _ & _ & (i & A5) & A6).
  change (length parties = 3%nat) in A3.
  set (rq := Request [0%nat; 1%nat] (repeat fzero i ++ [x_skd]) (map nz61 [7; 8; 9])).
  assert (Hsel : rq_select rq <> []) by discriminate.
  assert (Lr : length (rq_rhos rq) = length parties) by (rewrite A3; reflexivity).
  destruct (A6 (dkg_g1 x_gens run) rq [1; 0; 0; 12] x_skd x_ekd Hsel HS Lr x_dest (A5 _ _ x_dest)) as (chosen & c_0 & c & psi & shares & B1 & B2 & B3 & B4 & B5).
  assert (HF : field_holds K61 16) by (left; exact C2).
  assert (Hfit : Forall (fits 16) [1; 0; 0; 12]) by (repeat constructor; unfold fits; lia).
  assert (Hmod : Forall (fun z => z < modulus (K_of E61)) [1; 0; 0; 12]) by (change (modulus (K_of E61)) with (2 ^ 61 - 1); repeat constructor; lia).
  destruct (agg_srs _ _ _ _ _ _ _ _ _ _ _ A1 v_circuit) as (st & Hsrs). rewrite <- z_circ in Hsrs. unfold v_coins in Hsrs.
  pose proof (v_nonzero pf _ _ _ Hsrs) as NZ.
  assert (Hgi : g_i = skipn 1 (vk_gamma_abc_g1 (gpk_vk (pk_pk (dr_pk run))))) by (unfold get_gs_for_encryption, slice_from in A2; destruct (Nat.leb 1 _) in A2; [congruence|discriminate A2]).
  rewrite <- Hgi in NZ.
  destruct (B5 16 ltac:(lia) HF Hfit Hmod) as (g_r & cs & D1 & D2).
  { rewrite Forall_forall in NZ |- *. intros g Hg. apply NZ. apply (In_nth _ _ gzero) in Hg. destruct Hg as (j & Hj & <-). rewrite <- (firstn_skipn 4 g_i) at 2. apply in_or_app. left. apply nth_In. exact Hj. }
  exists run, parties, g_i, (dkg_g1 x_gens run), rq, chosen, c_0, c, psi, shares, g_r, cs.
  split; [exact A1|]. split; [exact A3|]. split; [exact A4|]. split; [reflexivity|]. split; [reflexivity|]. split; [exact (A5 _ _ x_dest)|]. split; [exact B1|]. split; [exact B2|].
  split; [exact B4|]. split; [exact D1|exact D2].
Qed.
