(* NonmalDkg.v -- a coalition in the distributed key generation that has seen honest ciphertexts is a prover of the central one that has seen them (for C74) *)
From Verif Require Import Base BaseFacts Algebra Utils UtilsFacts Setup Keygen Encryption Circuit CircuitFacts CircuitSat CommitmentFacts VecFacts KeySpec KeygenFacts
  EncryptFacts DecryptFacts Spec VerifyFacts Protocol ReencFacts DistFacts PropVerify Groth16 ArkGroth16 PolyFacts Groth16Spec ArkFacts Groth16Facts SchwartzZippel SoundCore SoundSpec
  SoundAlg SoundGame SoundLink SoundFacts SoundCount SoundHonest PropGroth16 PropSoundCases PropZK PrivacySpec PrivacyAlg PrivacyGame PrivacyLink PrivacyCount PrivacySpan PrivacyMany
  PrivacyDkgSpec PrivacyDkg SoundAdaptSpec SoundAdapt SoundDkgSpec SoundDkg NonmalCore NonmalAlg NonmalSpec NonmalGame NonmalRows NonmalLink NonmalCount.

(* combinations of a table that only look at its beginning, followed by its end *)
Section Extend.
Context {E : pairing}.
Notation K := (K_of E).
Notation F := (Fr E).
Add Ring Kre : (@scalar_ring_theory K).
Definition extend_rows (M k : nat) (rows : list (list F)) : list (list F) := map (firstn M) rows ++ map (fun i => unit_row (M + i)) (seq 0 k).
Lemma dot_front {G : group K} M c (l l' : list G) : length l = M -> dot (firstn M c) (l ++ l') = dot c l.
Proof.
  revert c l; induction M as [|M IH]; intros c l Hl.
  - destruct l; [|discriminate]. destruct c, l'; reflexivity.
  - destruct l as [|y l]; [discriminate|]. destruct c as [|x c]; [destruct l'; reflexivity|]. cbn [firstn app dot]. rewrite IH by (cbn [length] in Hl; lia). reflexivity.
Qed.
Lemma combos_extend {G : group K} M k rows (l l' : list G) : length l = M -> length l' = k -> combos (extend_rows M k rows) (l ++ l') = combos rows l ++ l'.
Proof.
  intros Hl Hl'. unfold extend_rows, combos. rewrite map_app, !map_map. f_equal.
  - apply map_ext. intros r. apply dot_front. exact Hl.
  - transitivity (map (fun i => nth i l' gzero) (seq 0 k)); [|rewrite <- Hl'; symmetry; apply list_as_map]. apply map_ext. intros i. rewrite dot_unit_row, app_nth2 by lia. f_equal. lia.
Qed.
Lemma nth_front {A} (d : A) M j l : (j < M)%nat -> nth j (firstn M l) d = nth j l d.
Proof. revert j l; induction M as [|M IH]; intros j l Hj; [lia|]. destruct l as [|x l]; [reflexivity|]. destruct j as [|j]; cbn [firstn nth]; [reflexivity|]. apply IH. lia. Qed.
Lemma nth_extend M k rows c j : (j < M)%nat -> nth j (row_mul c (extend_rows M k rows)) fzero = nth j (row_mul c rows) (@fzero K).
Proof.
  intros Hj. rewrite !nth_row_mul. unfold extend_rows. rewrite map_app, fdot_app_r, !map_map.
  rewrite (map_ext (fun x => nth j (firstn M x) fzero) (fun r => nth j r (@fzero K))) by (intros r; apply nth_front; exact Hj).
  assert (Z : map (fun x => nth j (unit_row (M + x)) (@fzero K)) (seq 0 k) = repeat fzero k).
  { generalize 0%nat. induction k as [|k IH]; intros q; [reflexivity|]. cbn [seq map repeat]. rewrite IH. f_equal. unfold unit_row. rewrite app_nth1 by (rewrite repeat_length; lia). apply nth_repeat. }
  rewrite Z, fdot_zeros. ring.
Qed.
Lemma extract_extend n M1 k1 M2 k2 rows1 rows2 (S0 : strategy E) : (n < M1)%nat ->
  extracted_chunks n (pull_strategy (extend_rows M1 k1 rows1) (extend_rows M2 k2 rows2) S0) = extracted_chunks n (pull_strategy rows1 rows2 S0) /\
  extracted_r n (pull_strategy (extend_rows M1 k1 rows1) (extend_rows M2 k2 rows2) S0) = extracted_r n (pull_strategy rows1 rows2 S0).
Proof.
  intros Hn. unfold extracted_chunks, extracted_r, pull_strategy. cbn [sg_commitment]. split.
  - apply map_ext_in. intros j Hj. apply in_seq in Hj. rewrite nth_extend by lia. reflexivity.
  - apply nth_extend. exact Hn.
Qed.
End Extend.

(* an execution with messages is one without, followed by the encryptions *)
Section Cut.
Context {E : pairing}.
Definition without_cps (run : dkg_run E) : dkg_run E := DkgRun (dr_pk run) (dr_parts run) (dr_shares run) (dr_ek run) [].
Lemma dkg_cut pf (B : groth16_backend E) gens b before after msgs coins run : dkg_execution pf B gens b before after msgs coins = Ok run ->
  dkg_execution pf B gens b before after [] coins = Ok (without_cps run) /\
  exists circ g_i st1 sk part st2 st3, circuit_new b None None true = Ok circ /\ generate_srs B (replay_rng E) (generate_constraints circ) gens coins = Ok (dr_pk run, st1) /\
    get_gs_for_encryption (gpk_vk (pk_pk (dr_pk run))) = Ok g_i /\
    FkeygenPartial (replay_rng E) b gens g_i (gpk_delta_g1 (pk_pk (dr_pk run))) (pk_gamma_g1 (dr_pk run)) st1 = Ok (sk, part, st2) /\
    encrypt_all pf B (replay_rng E) msgs (dr_ek run) (dr_pk run) b st2 = Ok (dr_cps run, st3).
Proof.
  intros H. unfold dkg_execution in *.
  apply bind_Ok_inv in H. destruct H as (circ & -> & H). cbn [bind].
  apply bind_Ok_inv in H. destruct H as ([pk st1] & Hs & H). rewrite Hs. cbn [bind].
  apply bind_Ok_inv in H. destruct H as (g_i & Hg & H). rewrite Hg. cbn [bind]. cbv zeta in *.
  apply bind_Ok_inv in H. destruct H as (ps1 & -> & H). cbn [bind].
  apply bind_Ok_inv in H. destruct H as ([[sk part] st2] & Hk & H). rewrite Hk. cbn [bind].
  apply bind_Ok_inv in H. destruct H as (ps2 & -> & H). cbn [bind].
  apply bind_Ok_inv in H. destruct H as (com & -> & H). cbn [bind].
  apply bind_Ok_inv in H. destruct H as (shares & -> & H). cbn [bind].
  apply bind_Ok_inv in H. destruct H as (p1 & -> & H). cbn [bind].
  apply bind_Ok_inv in H. destruct H as ([cps st3] & He & H). cbn [encrypt_all bind].
  assert (R : run = DkgRun pk (map snd (ps1 ++ (sk, part) :: ps2)) shares (keygenFinal com p1) cps) by congruence. subst run. unfold without_cps. cbn [dr_pk dr_parts dr_shares dr_ek dr_cps].
  split; [reflexivity|]. exists circ, g_i, st1, sk, part, st2, st3. repeat split; assumption.
Qed.
Lemma dkg_g1_cut gens (run : dkg_run E) : dkg_g1 gens run = dkg_g1 gens (without_cps run) ++ concat (map pair_g1 (dr_cps run)).
Proof. unfold dkg_g1, table_g1, without_cps. cbn [dr_pk dr_parts dr_shares dr_ek dr_cps map concat]. rewrite app_nil_r, <- !app_assoc. reflexivity. Qed.
Lemma dkg_g2_cut gens (run : dkg_run E) : dkg_g2 gens run = dkg_g2 gens (without_cps run) ++ map (fun cp => pr_b (snd cp)) (dr_cps run).
Proof. unfold dkg_g2, without_cps. cbn [dr_pk dr_parts dr_shares dr_ek dr_cps map]. rewrite app_nil_r, <- !app_assoc. reflexivity. Qed.
End Cut.

Section NLink.
Context {E : pairing}.
Notation K := (K_of E).
Notation F := (Fr E).
Notation e i env := (nth i env fzero).
Notation p := (modulus K).
Variables (n : nat) (cs : csys K) (xs : list F) (pf : profile) (domain : nat -> option (list F)) (fuel : nat) (b : Z) (gens : encryption_gens E).
Notation B := (ark_backend pf domain fuel).
Let ni := cs_num_inst cs.
Let nw := cs_num_wit cs.
Let nc := length (cs_cons cs).
Let N := length xs.
Hypothesis HG : eg_G gens <> gzero.
Hypothesis HH : eg_H gens <> gzero.
Hypothesis Hdom_ok : domain_ok domain.
Hypothesis Hb : supported b.
Hypothesis HbM : 2 ^ b <= modulus K.
Hypothesis Hcomp : chunk_compatible K b.
Hypothesis Hcount : chunks_count K b = Ok (Z.of_nat n).
Hypothesis Hn0 : (0 < n)%nat.
Hypothesis Hcs : generate_constraints (BitsizeCheckCircuit b (Z.of_nat n) None true) (@cs_new K Circuit.Setup) = Ok cs.
Hypothesis Hdomain : domain (nc + ni)%nat = Some xs.
Variables (before after : list (list F)).
Hypothesis Hbef : Forall (full n) before.
Hypothesis Haft : Forall (full n) after.
Notation KS := (ks n before after).
Notation K0 := (k0 n before after).
Notation KT := (kt n before after).
Let nb := length before.
Let mm := (length before + 1 + length after)%nat.
Let D1 := 3 * Z.of_nat N + 9 * (3 * Z.of_nat n + 9).
Let D7 := 3 * Z.of_nat N + 7 * (3 * Z.of_nat n + 6).
Let D4 := 4 * Z.of_nat N + 7 * (3 * Z.of_nat n + 6).
Notation Q1 := (P1 n cs xs).
Notation Q2 := (P2 n cs).

(* the coins of a central execution that makes the same keys and ciphertexts *)
Definition centralk (d w : list F) : list F := central n before after (shiftd n before after (firstn (2 * n + 6) d)) w ++ skipn (2 * n + 6) d.

(* one execution, seen from the central one *)
Lemma dkg_as_central_r : exists rows1 rows2,
  (forall k1 k2 S0, extracted_chunks n (pull_strategy (extend_rows Q1 k1 rows1) (extend_rows Q2 k2 rows2) S0) = dkg_extracted_chunks n nb mm S0 /\
     extracted_r n (pull_strategy (extend_rows Q1 k1 rows1) (extend_rows Q2 k2 rows2) S0) = dkg_extracted_r n nb mm S0) /\
  forall msgs extra d w run, length d = (2 * n + 6 + extra)%nat -> length w = S n -> vanishing_at xs (e 4 d) <> fzero ->
    dkg_execution pf B gens b before after msgs d = Ok run ->
    length (centralk d w) = (3 * n + 7 + extra)%nat /\ e 4 (centralk d w) = e 4 d /\ length (dr_cps run) = length msgs /\
    exists sk dk st', setup_for_groth16 B (replay_rng E) b gens (centralk d w) = Ok (dr_pk run, sk, dr_ek run, dk, skipn (2 * n + 6) d) /\
      encrypt_all pf B (replay_rng E) msgs (dr_ek run) (dr_pk run) b (skipn (2 * n + 6) d) = Ok (dr_cps run, st') /\
      dkg_g1 gens run = combos (extend_rows Q1 (length msgs * (n + 4)) rows1) (table_g1 gens (dr_pk run) (dr_ek run) (dr_cps run)) /\
      dkg_g2 gens run = combos (extend_rows Q2 (length msgs) rows2) (table_g2 gens (dr_pk run) (dr_ek run) dk (dr_cps run)) /\
      (exists U1, length U1 = (mm * (2 * n + 3))%nat /\ dkg_g1 gens run = U1 ++ table_g1 gens (dr_pk run) (dr_ek run) (dr_cps run)) /\
      (exists U2 W2, length U2 = (mm * (n + 1))%nat /\ length W2 = (3 + (ni + nw) + (n + 1))%nat /\ dkg_g2 gens run = U2 ++ eg_H gens :: W2 ++ map (fun cp => pr_b (snd cp)) (dr_cps run)).
Proof.
  assert (Lks : length KS = n) by apply fcol_sum_length. assert (Lkt : length KT = n) by apply fcol_sum_length.
  destruct (view_rows n (ni + nw + (ni + nw) + (N - 1) + nw) (ni + nw) gens KS K0 KT before after Lks Lkt Hbef Haft) as (rows1 & rows2 & HV & HX). fold nb mm in HX.
  exists rows1, rows2. assert (HnQ : (n < Q1)%nat) by (unfold P1; lia). split.
  { intros k1 k2 S0. destruct (extract_extend n Q1 k1 Q2 k2 rows1 rows2 S0 HnQ) as [-> ->]. apply HX. }
  intros msgs extra d w run Ld Lw Hv Hrun. set (d0 := firstn (2 * n + 6) d). set (rest := skipn (2 * n + 6) d).
  assert (L0 : length d0 = (2 * n + 6)%nat) by (unfold d0; rewrite firstn_length; lia). assert (Lr : length rest = extra) by (unfold rest; rewrite skipn_length; lia).
  assert (Ed : d = d0 ++ rest) by (symmetry; apply firstn_skipn).
  destruct (shiftd_split n cs xs b Hn0 before after d0 w L0 Lw) as (al & be & ga & de & ta & sh & t0 & t & rho & v & E0 & Ew & L1 & L2 & L3 & Ec).
  unfold centralk. fold d0 rest. rewrite Ec. set (c0 := al :: be :: ga :: de :: ta :: rho :: vadd sh KS ++ (fadd t0 K0 :: vadd t KT) ++ v ++ []).
  assert (Lc0 : length c0 = (3 * n + 7)%nat) by (unfold c0; cbn [length]; rewrite !app_length, (vadd_length _ _ n L1 Lks); cbn [length]; rewrite ?app_length, (vadd_length _ _ n L2 Lkt); cbn [length]; lia).
  assert (E4 : e 4 d = ta) by (rewrite Ed, E0; reflexivity). rewrite E4 in Hv.
  split; [rewrite app_length; lia|]. split; [rewrite E4; reflexivity|].
  destruct (dkg_cut _ _ _ _ _ _ _ _ _ Hrun) as (Hrun0 & circ & g_i & st1 & sk1 & part & st2 & st3 & Hcirc & Hs & Hg & Hk & Henc).
  assert (Ed' : d = al :: be :: ga :: de :: ta :: sh ++ (t0 :: t) ++ rest) by (rewrite Ed, E0; cbn [app]; rewrite <- !app_assoc; cbn [app]; rewrite ?app_nil_r, <- ?app_assoc; reflexivity).
  assert (Ecirc : circ = BitsizeCheckCircuit b (Z.of_nat n) None true) by (unfold circuit_new in Hcirc; rewrite Hcount in Hcirc; cbn [bind] in Hcirc; congruence). subst circ.
  destruct (srs_local n cs xs pf domain fuel b gens Hb HbM Hn0 Hcs Hdomain al be ga de ta Hv) as [(pk & Lg & Hsrs)|No]; [|rewrite Ed' in Hs; destruct (No _ _ Hs)].
  rewrite Ed', Hsrs in Hs. assert (Es : pk = dr_pk run /\ st1 = sh ++ (t0 :: t) ++ rest) by (split; congruence). destruct Es as [Epk ->].
  assert (Egi : g_i = skipn 1 (vk_gamma_abc_g1 (gpk_vk (pk_pk pk)))).
  { rewrite <- Epk in Hg. unfold get_gs_for_encryption, slice_from in Hg. rewrite Lg in Hg. cbn [Nat.leb] in Hg. congruence. }
  assert (Lgi : length g_i = n) by (rewrite Egi, skipn_length; lia).
  rewrite (partial_replay b gens g_i _ _ n sh t0 t rest Hcount) in Hk by (try assumption; lia). assert (Est : st2 = rest) by congruence. subst st2. clear Hk.
  pose proof (setup_from_srs n cs xs pf domain fuel b gens Hcount Hn0 al be ga de ta pk rho (vadd sh KS) (fadd t0 K0) (vadd t KT) v rest Hsrs Lg (vadd_length _ _ n L1 Lks) (vadd_length _ _ n L2 Lkt) L3) as Hset.
  assert (Ecr : al :: be :: ga :: de :: ta :: rho :: vadd sh KS ++ (fadd t0 K0 :: vadd t KT) ++ v ++ rest = c0 ++ rest) by (unfold c0; cbn [app]; rewrite <- !app_assoc; cbn [app]; rewrite ?app_nil_r, <- ?app_assoc; reflexivity).
  rewrite Ecr in Hset. set (dk := dk_formula gens rho (vadd sh KS) v) in Hset.
  pose proof (dkg_run_ok n cs xs pf domain fuel b gens Hcount Hn0 before after Hbef Haft [] pk al be ga de ta sh t0 t rest [] rest Hsrs Lg L1 L2) as HR. cbv zeta in HR.
  specialize (HR eq_refl dk). rewrite <- Ed' in HR. rewrite HR in Hrun0. set (a := DView pk sh t0 t dk []) in *.
  assert (Er : v_run n gens KS K0 KT before after a = without_cps run) by congruence. clear Hrun0 HR.
  pose proof (setup_shape n cs xs pf domain fuel b gens (bits_of _ b Hb HbM) Hcount Hn0 Hcs Hdomain c0 pk rho) as Hsh.
  pose proof (setup_from_srs n cs xs pf domain fuel b gens Hcount Hn0 al be ga de ta pk rho (vadd sh KS) (fadd t0 K0) (vadd t KT) v [] Hsrs Lg (vadd_length _ _ n L1 Lks) (vadd_length _ _ n L2 Lkt) L3) as Hset0.
  fold c0 dk in Hset0. specialize (Hsh _ dk [] Lc0 Hv Hset0). destruct Hsh as (_ & _ & S3 & S4 & S5 & S6 & S7 & _).
  assert (Ha : vgood n 0 (ni + nw + (ni + nw) + (N - 1) + nw) (ni + nw) a).
  { unfold vgood, a. cbn [v_sh v_t v_cps v_pk v_dk]. unfold v_gabc, v_queries. cbn [v_pk]. fold ni nw N in S3, S4, S5, S6, S7. repeat split; try assumption; try constructor.
    - rewrite !app_length, S3, S4, S6, S7. lia.
    - unfold dk, dk_formula. cbn [dk_V_1]. rewrite map_length, combine_length, (vadd_length _ _ n L1 Lks). lia.
    - unfold dk, dk_formula. cbn [dk_V_2]. rewrite map_length. exact L3. }
  destruct (HV a Ha) as [V1 V2]. rewrite Er in V1, V2. change (v_pk a) with pk in V1, V2. change (v_dk a) with dk in V2.
  assert (Eek : v_ek' gens KS K0 KT a = dr_ek run) by (apply (f_equal dr_ek) in Er; exact Er). rewrite Eek in V1, V2.
  change (ek_formula gens (skipn 1 (vk_gamma_abc_g1 (gpk_vk (pk_pk pk)))) (gpk_delta_g1 (pk_pk pk)) (pk_gamma_g1 pk) (vadd sh KS) (fadd t0 K0) (vadd t KT)) with (v_ek' gens KS K0 KT a) in Hset, Hset0.
  rewrite Eek in Hset, Hset0. 
  assert (Hv0 : vanishing_at xs (e 4 c0) <> fzero) by exact Hv.
  destruct (pub_lengths n cs xs pf domain fuel b gens Hb HbM Hcount Hn0 Hcs Hdomain c0 pk rho (dr_ek run) dk [] ltac:(lia) Hv0 Hset0) as [LP1 LP2].
  rewrite <- Epk in Henc. assert (Hgs : get_gs_for_encryption (gpk_vk (pk_pk pk)) = Ok (v_g a)) by (rewrite Epk; rewrite Hg, Egi; reflexivity).
  assert (Lga : length (v_g a) = n) by (unfold v_g, v_gabc, a; cbn [v_pk]; rewrite <- Egi; exact Lgi).
  pose proof Henc as Henc'. rewrite <- Eek in Henc'. unfold v_ek' in Henc'.
  destruct (chunks_length n cs xs pf domain fuel b gens Hcount Hn0 msgs (v_g a) _ _ _ _ _ pk rest (dr_cps run) st3 Lga (vadd_length _ _ n L1 Lks) (vadd_length _ _ n L2 Lkt) Hgs Henc') as [Lcps Hcl].
  split; [exact Lcps|]. exists rho, dk, st3. rewrite <- Epk. split; [exact Hset|]. split; [exact Henc|].
  assert (Lpf : forall s x t' d' c', length s = n -> length t' = n -> length (part_g1 (ekp_formula gens (v_g a) d' c' s x t')) = (2 * n + 2)%nat /\ length (ekp_Z (ekp_formula gens (v_g a) d' c' s x t')) = (n + 1)%nat).
  { intros s x t' d' c' Ls Lt. unfold part_g1. cbn [ekp_formula ekp_X_0 ekp_X ekp_Y ekp_P_2 ekp_Z]. rewrite !app_length, !map_length. cbn [length]. rewrite (scale_as_map t' (v_g a) n Lt) by lia. rewrite map_length, seq_length. lia. }
  assert (Lts : forall tape : list F, full n tape -> length (ts_s n tape) = n /\ length (ts_t n tape) = n) by (intros tape Hf; unfold ts_s, ts_t; rewrite firstn_length, skipn_length; unfold full in Hf; lia).
  assert (Lpart : forall q, In q (dr_parts (v_run n gens KS K0 KT before after a)) -> length (part_g1 q) = (2 * n + 2)%nat /\ length (ekp_Z q) = (n + 1)%nat).
  { intros q Hq. unfold v_run in Hq. cbn [dr_parts] in Hq. apply in_app_or in Hq. rewrite Forall_forall in Hbef, Haft. destruct Hq as [Hq|[<-|Hq]].
    - apply in_map_iff in Hq. destruct Hq as (tape & <- & Hi). destruct (Lts tape (Hbef _ Hi)). apply Lpf; assumption.
    - apply Lpf; assumption.
    - apply in_map_iff in Hq. destruct Hq as (tape & <- & Hi). destruct (Lts tape (Haft _ Hi)). apply Lpf; assumption. }
  assert (Np : length (dr_parts (v_run n gens KS K0 KT before after a)) = mm) by (unfold v_run; cbn [dr_parts]; rewrite app_length; cbn [length]; rewrite !map_length; unfold mm; lia).
  assert (Ns : length (dr_shares (v_run n gens KS K0 KT before after a)) = mm) by (unfold v_run; cbn [dr_shares]; rewrite app_length; cbn [length]; rewrite !map_length; unfold mm; lia).
  rewrite Er in Lpart, Np, Ns. unfold without_cps in Lpart, Np, Ns. cbn [dr_parts dr_shares] in Lpart, Np, Ns.
  split; [|split; [|split]].
  - rewrite dkg_g1_cut, V1. unfold table_g1. symmetry. apply combos_extend; [exact LP1|].
    rewrite (concat_length_const pair_g1 _ (n + 4)); [rewrite Lcps; reflexivity|]. intros cp Hcp. rewrite Forall_forall in Hcl. pose proof (Hcl cp Hcp) as Lq. unfold pair_g1. rewrite !app_length, Lq. cbn [length]. lia.
  - rewrite dkg_g2_cut, V2. unfold table_g2. symmetry. apply combos_extend; [exact LP2|]. rewrite map_length. exact Lcps.
  - exists (concat (map part_g1 (dr_parts run)) ++ map p1_P_1 (dr_shares run)). split.
    + rewrite app_length, map_length, Ns, (concat_length_const part_g1 _ (2 * n + 2)) by (intros q Hq; apply Lpart; exact Hq). rewrite Np. lia.
    + unfold dkg_g1. rewrite <- app_assoc, Epk. reflexivity.
  - exists (concat (map ekp_Z (dr_parts run))). eexists ([_; _; _] ++ gpk_b_g2_query (pk_pk (dr_pk run)) ++ ek_Z (dr_ek run)). split; [|split].
    + rewrite (concat_length_const ekp_Z _ (n + 1)) by (intros q Hq; apply Lpart; exact Hq). rewrite Np. reflexivity.
    + rewrite !app_length, <- Epk. fold ni nw in S5. rewrite S5, <- Eek. unfold v_ek'. cbn [ek_formula ek_Z length]. rewrite map_length. cbn [length]. change (v_t a) with t. rewrite (vadd_length _ _ n L2 Lkt). lia.
    + unfold dkg_g2. cbn [app]. rewrite <- app_assoc. reflexivity.
Qed.
Lemma dkg_as_central : exists rows1 rows2,
  (forall k1 k2 S0, extracted_chunks n (pull_strategy (extend_rows Q1 k1 rows1) (extend_rows Q2 k2 rows2) S0) = dkg_extracted_chunks n nb mm S0 /\
     extracted_r n (pull_strategy (extend_rows Q1 k1 rows1) (extend_rows Q2 k2 rows2) S0) = dkg_extracted_r n nb mm S0) /\
  forall msgs d w run, length d = (2 * n + 6 + 3 * length msgs)%nat -> length w = S n -> vanishing_at xs (e 4 d) <> fzero ->
    dkg_execution pf B gens b before after msgs d = Ok run ->
    length (centralk d w) = (3 * n + 7 + 3 * length msgs)%nat /\ e 4 (centralk d w) = e 4 d /\ length (dr_cps run) = length msgs /\
    exists sk dk st', setup_for_groth16 B (replay_rng E) b gens (centralk d w) = Ok (dr_pk run, sk, dr_ek run, dk, skipn (2 * n + 6) d) /\
      encrypt_all pf B (replay_rng E) msgs (dr_ek run) (dr_pk run) b (skipn (2 * n + 6) d) = Ok (dr_cps run, st') /\
      dkg_g1 gens run = combos (extend_rows Q1 (length msgs * (n + 4)) rows1) (table_g1 gens (dr_pk run) (dr_ek run) (dr_cps run)) /\
      dkg_g2 gens run = combos (extend_rows Q2 (length msgs) rows2) (table_g2 gens (dr_pk run) (dr_ek run) dk (dr_cps run)) /\
      (exists U1, length U1 = (mm * (2 * n + 3))%nat /\ dkg_g1 gens run = U1 ++ table_g1 gens (dr_pk run) (dr_ek run) (dr_cps run)) /\
      (exists U2 W2, length U2 = (mm * (n + 1))%nat /\ length W2 = (3 + (ni + nw) + (n + 1))%nat /\ dkg_g2 gens run = U2 ++ eg_H gens :: W2 ++ map (fun cp => pr_b (snd cp)) (dr_cps run)).
Proof.
  destruct dkg_as_central_r as (rows1 & rows2 & H1 & H2). exists rows1, rows2. split; [exact H1|]. intros msgs d w run. exact (H2 msgs (3 * length msgs)%nat d w run).
Qed.
Lemma centralk_inj k d d' w w' : length d = (2 * n + 6 + k)%nat -> length d' = (2 * n + 6 + k)%nat -> length w = S n -> length w' = S n -> centralk d w = centralk d' w' -> (d, w) = (d', w').
Proof.
  intros Ld Ld' Lw Lw' Z. unfold centralk in Z. assert (L0 : length (firstn (2 * n + 6) d) = (2 * n + 6)%nat) by (rewrite firstn_length; lia). assert (L0' : length (firstn (2 * n + 6) d') = (2 * n + 6)%nat) by (rewrite firstn_length; lia).
  assert (Lc : forall d0 w0, length d0 = (2 * n + 6)%nat -> length w0 = S n -> length (central n before after (shiftd n before after d0) w0) = (3 * n + 7)%nat).
  { intros d0 w0 Ld0 Lw0. assert (Lks : length KS = n) by apply fcol_sum_length. assert (Lkt : length KT = n) by apply fcol_sum_length.
    destruct (shiftd_split n cs xs b Hn0 before after d0 w0 Ld0 Lw0) as (al & be & ga & de & ta & sh & t0 & t & rho & v & E0 & Ew & L1 & L2 & L3 & Ec). rewrite Ec.
    cbn [length]; rewrite !app_length, (vadd_length _ _ n L1 Lks); cbn [length]; rewrite ?app_length, (vadd_length _ _ n L2 Lkt); cbn [length]; lia. }
  apply parts_eq in Z; [|rewrite !Lc by assumption; reflexivity]. destruct Z as [Z1 Z2].
  apply (central_inj n cs xs b Hn0 before after 0) in Z1; [|rewrite (shiftd_length n cs xs b Hn0); lia|rewrite (shiftd_length n cs xs b Hn0); lia|assumption|assumption].
  apply pair_equal_spec in Z1. destruct Z1 as [Z1 ->]. f_equal. apply (shiftd_inj n cs xs b Hn0) in Z1; [|assumption|assumption]. rewrite <- (firstn_skipn (2 * n + 6) d), <- (firstn_skipn (2 * n + 6) d'), Z1, Z2. reflexivity.
Qed.

Theorem dkg_nonmal_bound msgs P (L : list (list F)) : NoDup L ->
  (forall d, In d L -> length d = (2 * n + 6 + 3 * length msgs)%nat /\ exists run, dkg_execution pf B gens b before after msgs d = Ok run /\
     let T1 := dkg_g1 gens run in let T2 := dkg_g2 gens run in let St := play P T1 T2 in
     verify_commitment_and_proof (ciphertext_from St T1) (proof_from St T1 T2) (prepare_verifying_key (gpk_vk (pk_pk (dr_pk run)))) (prepare_ek (dr_ek run)) (prepare_gens gens) = Ok tt /\
     ~ (digits_ok b (dkg_extracted_chunks n nb mm St) /\ exists g_i, get_gs_for_encryption (gpk_vk (pk_pk (dr_pk run))) = Ok g_i /\
        encrypts (dr_ek run) g_i (dkg_extracted_chunks n nb mm St) (ct_vec (ciphertext_from St T1)) (dkg_extracted_r n nb mm St)) /\
     ~ (exists ct0 q0, In (ct0, q0) (dr_cps run) /\ ciphertext_from St T1 = rerandomized (dr_ek run) (dkg_extracted_r n nb mm St) ct0 /\
        exists kappa, kappa <> fzero /\ pr_a (proof_from St T1 T2) = kappa [*] pr_a q0)) ->
  Z.of_nat (length L) * p <= (Z.of_nat N + ((Z.of_nat (tests P) * D7 + D4) + Z.of_nat (length msgs) * (Z.of_nat (tests P) + Z.of_nat (length msgs)) * D1)) * p ^ Z.of_nat (2 * n + 6 + 3 * length msgs).
Proof.
  intros Hnd HL. pose proof (@modulus_gt1 K) as Hp. set (k := length msgs) in *.
  apply (split_tau n cs xs b HbM Hn0); [lia|exact Hnd|intros c Hc; apply HL; exact Hc|]. clear Hnd. intros L' Hnd HL'.
  destruct (@all_tuples_exist K (S n)) as (T & T1 & T2). pose proof (all_tuples_count _ T T1 T2) as CT.
  destruct dkg_as_central as (rows1 & rows2 & HX & HC). set (R1 := extend_rows Q1 (k * (n + 4)) rows1) in *. set (R2 := extend_rows Q2 k rows2) in *.
  pose proof (nonmal_bound_good n cs xs pf domain fuel b gens HG HH Hdom_ok Hb HbM Hcomp Hcount Hn0 Hcs Hdomain msgs (pull_prover R1 R2 P)
    (map (fun dw => centralk (fst dw) (snd dw)) (list_prod L' T))) as NB.
  rewrite map_length, prod_length, Nat2Z.inj_mul, CT, pull_tests in NB. fold N in NB. fold D1 D4 D7 k in NB.
  set (D := (Z.of_nat (tests P) * D7 + D4) + Z.of_nat k * (Z.of_nat (tests P) + Z.of_nat k) * D1) in *.
  assert (Pn : 0 < p ^ Z.of_nat (S n)) by (apply Z.pow_pos_nonneg; lia).
  apply (Z.mul_le_mono_pos_r _ _ _ Pn).
  replace (D * p ^ Z.of_nat (2 * n + 6 + 3 * k) * p ^ Z.of_nat (S n)) with (D * p ^ Z.of_nat (3 * n + 7 + 3 * k)).
  2: { replace (Z.of_nat (3 * n + 7 + 3 * k)) with (Z.of_nat (2 * n + 6 + 3 * k) + Z.of_nat (S n)) by lia. rewrite Z.pow_add_r by lia. ring. }
  replace (Z.of_nat (length L') * p * p ^ Z.of_nat (S n)) with (Z.of_nat (length L') * p ^ Z.of_nat (S n) * p) by ring.
  apply NB; clear NB.
  - apply nodup_map_in; [|apply nodup_prod; assumption]. intros [d w] [d' w'] H1 H2 Z. apply in_prod_iff in H1, H2. destruct H1 as [H1 W1], H2 as [H2 W2]. cbn [fst snd] in Z.
    destruct (HL d (proj1 (HL' d H1))) as [Ld _]. destruct (HL d' (proj1 (HL' d' H2))) as [Ld' _]. apply (centralk_inj (3 * k)) in Z; [exact Z|exact Ld|exact Ld'|apply T2; exact W1|apply T2; exact W2].
  - intros c Hc. apply in_map_iff in Hc. destruct Hc as ([d w] & <- & Hc). apply in_prod_iff in Hc. destruct Hc as [Hd Hw]. cbn [fst snd]. apply T2 in Hw. destruct (HL' d Hd) as [Hi Hv].
    destruct (HL d Hi) as (Ld & run & Hrun & Hbad). destruct (HC msgs d w run Ld Hw Hv Hrun) as (Lc & E4 & Lcps & sk & dk & st' & Hset & Henc & G1 & G2 & _). fold k in G1, G2. fold R1 in G1. fold R2 in G2.
    split; [exact Lc|]. split; [rewrite E4; exact Hv|]. exists (dr_pk run), sk, (dr_ek run), dk, (skipn (2 * n + 6) d), (dr_cps run), st'. split; [exact Hset|]. split; [exact Henc|].
    cbv zeta in *. rewrite pull_play, <- G1, <- G2. set (S0 := play P (dkg_g1 gens run) (dkg_g2 gens run)) in *. unfold is_fresh, is_copy. destruct (HX (k * (n + 4))%nat k S0) as [X1 X2]. fold R1 R2 in X1, X2. rewrite X1, X2.
    rewrite pull_ciphertext, pull_proof, <- G1, <- G2. exact Hbad.
Qed.
End NLink.
