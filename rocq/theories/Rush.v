(* Rush.v -- the coalitions of C84: off a few hypersurfaces the answers of the first tests are determined, so the coalition decides on one fixed
   set of tapes and one fixed attack there *)
From Verif Require Import Base BaseFacts Algebra Utils UtilsFacts Setup Keygen Encryption Circuit CircuitFacts CircuitSat CommitmentFacts VecFacts KeySpec KeygenFacts
  EncryptFacts DecryptFacts Spec VerifyFacts Protocol ReencFacts DistFacts PropVerify Groth16 ArkGroth16 PolyFacts Groth16Spec ArkFacts Groth16Facts SchwartzZippel SoundCore SoundSpec
  SoundAlg SoundGame SoundLink SoundFacts SoundCount SoundHonest PropGroth16 PropSound PropSoundCases PropZK PrivacySpec PrivacyAlg PrivacyGame PrivacyLink PrivacyCount PrivacySpan PrivacyMany
  PrivacyDkgSpec PrivacyDkg SoundAdaptSpec SoundAdapt SoundDkgSpec SoundDkg NonmalCore NonmalAlg NonmalSpec NonmalGame NonmalRows NonmalLink NonmalCount NonmalDkg
  CcaSpec Cca CcaCount PropMalleable PropCca RccaSpec RccaTest RccaCount RccaDkgSpec RccaDkg RushSpec.

(* segments of a list as combinations of it *)
Section Segments.
Context {E : pairing} {G : group (K_of E)}.
Lemma combos_units (I : list nat) (l : list G) : combos (map unit_row I) l = map (fun i => nth i l gzero) I.
Proof. unfold combos. rewrite map_map. apply map_ext. intros i. apply dot_unit_row. Qed.
Lemma segment (a l c : list G) : map (fun i => nth i (a ++ l ++ c) gzero) (seq (length a) (length l)) = l.
Proof.
  revert a; induction l as [|y l IH]; intros a; [reflexivity|]. cbn [length seq map]. f_equal.
  - rewrite app_nth2, Nat.sub_diag by lia. reflexivity.
  - specialize (IH (a ++ [y])). rewrite app_length in IH. cbn [length] in IH. rewrite Nat.add_1_r, <- app_assoc in IH. exact IH.
Qed.
End Segments.

Section First.
Context {E : pairing}.
(* the key generation that follows makes the same first moves *)
Lemma first_moves_of_setup (B : groth16_backend E) gens b before after d keys rest : dkg_setup B gens b before after d = Ok (keys, rest) ->
  exists part, first_moves B gens b d = Ok (kg_pk keys, part) /\ nth_error (map snd (kg_parties keys)) (length before) = Some part.
Proof.
  intros H. unfold dkg_setup in H. unfold first_moves.
  apply bind_Ok_inv in H. destruct H as (circ & -> & H). cbn [bind]. apply bind_Ok_inv in H. destruct H as ([pk st1] & -> & H). cbn [bind]. apply bind_Ok_inv in H. destruct H as (g_i & -> & H). cbn [bind]. cbv zeta in *.
  apply bind_Ok_inv in H. destruct H as (ps1 & P1 & H). apply bind_Ok_inv in H. destruct H as ([[sk part] st2] & -> & H). cbn [bind].
  apply bind_Ok_inv in H. destruct H as (ps2 & P3 & H). apply bind_Ok_inv in H. destruct H as (com & _ & H).
  apply bind_Ok_inv in H. destruct H as (shares & _ & H). apply bind_Ok_inv in H. destruct H as (p1 & _ & H).
  assert (Ek : keys = DkgKeys pk (ps1 ++ (sk, part) :: ps2) shares (keygenFinal com p1)) by congruence. subst keys. cbn [kg_pk kg_parties].
  apply contributions_partial in P1. destruct P1 as [L1 _]. exists part. split; [reflexivity|].
  rewrite map_app, nth_error_app2 by (rewrite map_length; lia). rewrite map_length, L1, Nat.sub_diag. reflexivity.
Qed.
End First.

Section RLink.
Context {E : pairing}.
Notation K := (K_of E).
Notation F := (Fr E).
Notation e i env := (nth i env fzero).
Notation p := (modulus K).
Variables (n : nat) (cs : csys K) (xs : list F) (pf : profile) (domain : nat -> option (list F)) (fuel : nat) (b : Z) (gens : encryption_gens E).
Notation B := (ark_backend pf domain fuel).
Let ni := cs_num_inst cs.
Let nw := cs_num_wit cs.
Let nc := length (cs_cons cs).
Let N := length xs.
Hypothesis HG : eg_G gens <> gzero.
Hypothesis HH : eg_H gens <> gzero.
Hypothesis Hdom_ok : domain_ok domain.
Hypothesis Hb : supported b.
Hypothesis HbM : 2 ^ b <= modulus K.
Hypothesis Hcomp : chunk_compatible K b.
Hypothesis Hcount : chunks_count K b = Ok (Z.of_nat n).
Hypothesis Hn0 : (0 < n)%nat.
Hypothesis Hcs : generate_constraints (BitsizeCheckCircuit b (Z.of_nat n) None true) (@cs_new K Circuit.Setup) = Ok cs.
Hypothesis Hdomain : domain (nc + ni)%nat = Some xs.
Let D7 := 3 * Z.of_nat N + 7 * (3 * Z.of_nat n + 6).
Notation tau_ok := (tau_ok xs).

(* the key generation of the honest party alone *)
Lemma alone r d pk part : length d = (2 * n + 6 + r)%nat -> tau_ok d -> first_moves B gens b d = Ok (pk, part) ->
  exists sk share p1 p2 X0, first_moves B gens b (firstn (2 * n + 6) d) = Ok (pk, part) /\
    dkg_setup B gens b [] [] (firstn (2 * n + 6) d) = Ok (DkgKeys pk [(sk, part)] [share] (EncryptionKey X0 (ekp_X part) (ekp_Y part) (ekp_Z part) p1 p2), []) /\
    length (ekp_X part) = n /\ length (ekp_Y part) = n /\ length (ekp_Z part) = (n + 1)%nat.
Proof.
  intros Ld Hv H. unfold RccaTest.tau_ok in Hv.
  set (d0 := firstn (2 * n + 6) d) in *. assert (L0 : length d0 = (2 * n + 6)%nat) by (unfold d0; rewrite firstn_length; lia).
  destruct (shiftd_split n cs xs b Hn0 [] [] d0 (repeat fzero (S n)) L0 ltac:(apply repeat_length)) as (al & be & ga & de & ta & sh & t0 & t & rho & v & E0 & _ & L1 & L2 & _ & _).
  set (rst := skipn (2 * n + 6) d). assert (Ed : d = al :: be :: ga :: de :: ta :: sh ++ (t0 :: t) ++ rst).
  { rewrite <- (firstn_skipn (2 * n + 6) d). fold d0 rst. rewrite E0. cbn [app]. rewrite <- !app_assoc. cbn [app]. rewrite ?app_nil_r, <- ?app_assoc. reflexivity. }
  rewrite Ed in H. assert (Hv' : vanishing_at xs ta <> fzero) by (rewrite Ed in Hv; exact Hv). clear Ed Hv. rewrite E0. clear E0. clearbody rst. clear d0 L0.
  unfold dkg_setup, first_moves, circuit_new in *. rewrite Hcount in *. cbn [bind] in *.
  apply bind_Ok_inv in H. destruct H as ([pk0 st1] & Hs & H).
  destruct (srs_local n cs xs pf domain fuel b gens Hb HbM Hn0 Hcs Hdomain al be ga de ta Hv') as [(pk1 & Lg & Hsrs)|No]; [|destruct (No _ _ Hs)].
  rewrite Hsrs in Hs. assert (Es : pk1 = pk0 /\ st1 = sh ++ (t0 :: t) ++ rst) by (split; congruence). destruct Es as [<- ->]. clear Hs. rewrite Hsrs. cbn [bind].
  apply bind_Ok_inv in H. destruct H as (g_i & Hg & H). rewrite Hg. cbn [bind].
  assert (Lgi : length g_i = n).
  { unfold get_gs_for_encryption, slice_from in Hg. rewrite Lg in Hg. cbn [Nat.leb] in Hg. assert (g_i = skipn 1 (vk_gamma_abc_g1 (gpk_vk (pk_pk pk1)))) by congruence. subst g_i. rewrite skipn_length. lia. }
  rewrite (partial_replay b gens g_i _ _ n sh t0 t rst Hcount) in H by (try assumption; lia). cbn [bind] in H.
  pose proof (partial_replay b gens g_i (gpk_delta_g1 (pk_pk pk1)) (pk_gamma_g1 pk1) n sh t0 t [] Hcount ltac:(lia) L1 L2) as PR. cbn [app] in PR.
  cbn [contributions mapM]. cbn [app]. rewrite PR. cbn [bind app map snd].
  set (pt := ekp_formula gens g_i (gpk_delta_g1 (pk_pk pk1)) (pk_gamma_g1 pk1) sh t0 t) in *. assert (Ep : pk1 = pk /\ pt = part) by (split; congruence). destruct Ep as [-> <-]. clear H.
  assert (LX : length (ekp_X pt) = n /\ length (ekp_Y pt) = n /\ length (ekp_Z pt) = (n + 1)%nat).
  { unfold pt, ekp_formula. cbn [ekp_X ekp_Y ekp_Z]. rewrite !map_length, ?scale_length. cbn [length]. repeat split; try lia. }
  unfold combineEKs. cbn [foldM bind mapM fst]. set (com := FEncryptionKeyPartial _ _ _ _ _).
  rewrite (genP1share_ok com (SecretKeyST sh (t0 :: t)) t0 t) by (try reflexivity; cbn [com ekp_X]; lia). cbn [bind combineP1share fold_left].
  eexists _, _, _, _, _. split; [reflexivity|]. split; [reflexivity|]. exact LX.
Qed.

(* a test of the first moves is a test of the keys of a central setup *)
Notation Q1 := (P1 n cs xs).
Notation Q2 := (P2 n cs).
Notation centralk := (centralk n [] []).
Lemma early_test : exists T : list (list F) -> list (list F), forall d w pk part, length d = (2 * n + 6)%nat -> length w = S n -> tau_ok d -> first_moves B gens b d = Ok (pk, part) ->
  exists sk ek dk st, length (centralk d w) = (3 * n + 7)%nat /\ e 4 (centralk d w) = e 4 d /\ setup_for_groth16 B (replay_rng E) b gens (centralk d w) = Ok (pk, sk, ek, dk, st) /\
    forall q, pairing_product q (early_g1 gens pk part) (early_g2 gens pk part) = pairing_product (T q) (public_g1 gens pk ek) (public_g2 gens pk ek dk).
Proof.
  destruct (dkg_as_central_r n cs xs pf domain fuel b gens Hb HbM Hcount Hn0 Hcs Hdomain [] [] (Forall_nil _) (Forall_nil _)) as (rows1 & rows2 & _ & HC).
  set (R1 := extend_rows Q1 0 rows1). set (R2 := extend_rows Q2 0 rows2).
  set (l1 := (length R1 - (4 * n + 6))%nat). set (l2 := (length R2 - (2 * n + 2))%nat).
  set (S1 := map (@unit_row E) (seq (3 * n + 4) l1 ++ seq 0 (2 * n + 2))). set (S2 := map (@unit_row E) (seq (n + 1) l2 ++ seq 0 (n + 1))).
  exists (fun q => pull_back (pull_back q S1 S2) R1 R2). intros d w pk part Ld Lw Hv Hf.
  destruct (alone 0 d pk part ltac:(lia) Hv Hf) as (sk0 & share & p1 & p2 & X0 & _ & Hset & LX & LY & LZ). rewrite firstn_all2 in Hset by lia.
  destruct (HC [] 0%nat d w _ ltac:(lia) Lw Hv (execution_from_setup pf B gens b [] [] [] d _ [] [] [] Hset eq_refl)) as (Lc & E4 & _ & sk & dk & st' & Hcen & _ & G1 & G2 & _).
  cbn [public_run dr_pk dr_ek dr_cps kg_pk kg_ek length Nat.mul] in Hcen, G1, G2. set (ek := EncryptionKey _ _ _ _ _ _) in *.
  fold R1 in G1. fold R2 in G2. unfold table_g1, table_g2 in G1, G2. cbn [map concat] in G1, G2. rewrite app_nil_r in G1, G2.
  exists sk, ek, dk, (skipn (2 * n + 6) d). split; [lia|]. split; [exact E4|]. split; [exact Hcen|]. intros q. rewrite !pp_pull_back, <- G1, <- G2.
  pose proof (f_equal (@length _) G1) as N1. pose proof (f_equal (@length _) G2) as N2. unfold combos in N1, N2. rewrite map_length in N1, N2.
  unfold dkg_g1, dkg_g2, table_g1, public_g1 in N1, N2 |- *. cbn [public_run dr_parts dr_shares dr_pk dr_ek dr_cps kg_pk kg_ek kg_parties kg_shares map snd concat] in N1, N2 |- *. rewrite !app_nil_r in N1, N2 |- *.
  cbn [ek ek_Y ek_X ek_Z ek_P_1 ek_P_2 ek_X_0] in N1, N2 |- *.
  unfold early_g1, early_g2. assert (LP : length (part_g1 part) = (2 * n + 2)%nat) by (unfold part_g1; rewrite !app_length; cbn [length]; lia).
  f_equal.
  - pose (mid := [eg_G gens; vk_alpha_g1 (gpk_vk (pk_pk pk)); gpk_beta_g1 (pk_pk pk); gpk_delta_g1 (pk_pk pk); pk_gamma_g1 pk] ++ gpk_a_query (pk_pk pk) ++ gpk_b_g1_query (pk_pk pk) ++
      gpk_h_query (pk_pk pk) ++ gpk_l_query (pk_pk pk) ++ vk_gamma_abc_g1 (gpk_vk (pk_pk pk))).
    match goal with |- ?l = combos S1 ?r => assert (A1 : l = mid ++ part_g1 part) by (unfold mid; rewrite <- !app_assoc; reflexivity); pose (front := part_g1 part ++ [p1_P_1 share] ++ ekp_Y part ++ [p1]);
      pose (back := [X0] ++ ekp_X part ++ [p2]); assert (A2 : r = front ++ mid ++ back) by (unfold mid, front, back; rewrite <- !app_assoc; reflexivity);
      assert (A3 : r = [] ++ part_g1 part ++ ([p1_P_1 share] ++ ekp_Y part ++ [p1]) ++ mid ++ back) by (unfold mid, back; cbn [app]; rewrite <- ?app_assoc; reflexivity); pose proof (f_equal (@length _) A2) as A4; rewrite N1 in A4;
      rewrite A1; unfold S1; rewrite combos_units, map_app end.
    assert (Lf : length front = (3 * n + 4)%nat) by (unfold front; rewrite !app_length, LP; cbn [length]; lia).
    assert (Lm : length mid = l1). { unfold l1. rewrite <- N1 in A4. rewrite <- N1, A4. unfold back. rewrite !app_length, Lf. cbn [length]. lia. }
    f_equal.
    + rewrite A2, <- Lm, <- Lf. symmetry. apply segment.
    + rewrite A3, <- LP. symmetry. apply (segment []).
  - pose (mid := [eg_H gens; vk_beta_g2 (gpk_vk (pk_pk pk)); vk_gamma_g2 (gpk_vk (pk_pk pk)); vk_delta_g2 (gpk_vk (pk_pk pk))] ++ gpk_b_g2_query (pk_pk pk)).
    match goal with |- ?l = combos S2 ?r => assert (A1 : l = mid ++ ekp_Z part) by (unfold mid; rewrite <- !app_assoc; reflexivity);
      assert (A2 : r = ekp_Z part ++ mid ++ ekp_Z part) by (rewrite ?app_nil_r; unfold mid; rewrite <- !app_assoc; reflexivity);
      assert (A3 : r = [] ++ ekp_Z part ++ mid ++ ekp_Z part) by exact A2; pose proof (f_equal (@length _) A2) as A4;
      rewrite A1; unfold S2; rewrite combos_units, map_app end.
    assert (Lm : length mid = l2). { unfold l2. rewrite <- N2. unfold mid. rewrite !app_length, LZ. lia. }
    f_equal.
    + rewrite A2, <- Lm, <- LZ. symmetry. apply segment.
    + rewrite A3, <- LZ. symmetry. apply (segment []).
Qed.

(* an answer *)
Definition answered (q : list (list F)) (d : list F) : Prop := exists pk part, first_moves B gens b d = Ok (pk, part) /\ geqb (pairing_product q (early_g1 gens pk part) (early_g2 gens pk part)) gzero = true.
Lemma look_dichotomy q r : (forall d pk part, length d = (2 * n + 6 + r)%nat -> tau_ok d -> first_moves B gens b d = Ok (pk, part) -> geqb (pairing_product q (early_g1 gens pk part) (early_g2 gens pk part)) gzero = true) \/
  rare (2 * n + 6 + r) D7 (fun d => tau_ok d /\ answered q d).
Proof.
  destruct early_test as (T & HT). 
  assert (Ans : forall d w pk part, length d = (2 * n + 6)%nat -> length w = S n -> tau_ok d -> first_moves B gens b d = Ok (pk, part) ->
    geqb (pairing_product q (early_g1 gens pk part) (early_g2 gens pk part)) gzero = feqb (f_test n cs xs (T q) (centralk d w)) fzero).
  { intros d w pk part Ld Lw Hv Hf. destruct (HT d w pk part Ld Lw Hv Hf) as (sk & ek & dk & st & Lc & E4 & Hset & ->).
    apply (test_answer n cs xs pf domain fuel b gens HG HH (bits_of _ b Hb HbM) Hcount Hn0 Hcs Hdomain _ pk sk ek dk st (T q) Lc); [rewrite E4; exact Hv|exact Hset]. }
  assert (Pre : forall d, length d = (2 * n + 6 + r)%nat -> tau_ok d -> tau_ok (firstn (2 * n + 6) d)).
  { intros d Ld Hv. unfold RccaTest.tau_ok in *. rewrite nth_front by lia. exact Hv. }
  destruct (test_dichotomy n cs xs Hn0 (T q)) as [Z|Z].
  - left. intros d pk part Ld Hv Hf. destruct (alone r d pk part Ld Hv Hf) as (sk0 & share & p1 & p2 & X0 & Hf0 & _).
    rewrite (Ans (firstn (2 * n + 6) d) (repeat fzero (S n)) pk part); [|rewrite firstn_length; lia|apply repeat_length|apply Pre; assumption|exact Hf0]. apply feqb_spec. apply Z.
    destruct (HT (firstn (2 * n + 6) d) (repeat fzero (S n)) pk part) as (sk & ek & dk & st & Lc & _); [rewrite firstn_length; lia|apply repeat_length|apply Pre; assumption|exact Hf0|exact Lc].
  - right. apply (rare_imp _ _ _ (fun d => (fun d0 => tau_ok d0 /\ answered q d0) (firstn (2 * n + 6) d))).
    { intros d Ld (Hv & pk & part & Hf & Hq). split; [apply Pre; assumption|]. destruct (alone r d pk part Ld Hv Hf) as (sk0 & share & p1 & p2 & X0 & Hf0 & _). exists pk, part. split; assumption. }
    apply (rare_prefix (2 * n + 6) r D7 (fun d0 => tau_ok d0 /\ answered q d0)).
    pose proof (rare_dkg n cs xs b Hn0 [] [] 0 D7 (fun c => f_test n cs xs (T q) c = fzero) (fun d0 => tau_ok d0 /\ answered q d0)) as RD. rewrite !Nat.add_0_r in RD. apply RD; clear RD.
    + intros L Hnd HL. pose proof (union_bound (3 * n + 7) [(D7, f_test n cs xs (T q))] L ltac:(constructor; [exact Z|constructor]) Hnd) as U. cbn [map fst zsum] in U. rewrite Z.add_0_r in U. apply U.
      intros l Hl. destruct (HL l Hl) as [Hi Hz]. split; [exact Hi|constructor 1; exact Hz].
    + intros d w Ld Lw (Hv & pk & part & Hf & Hq). rewrite (Ans d w pk part Ld Lw Hv Hf) in Hq. apply feqb_spec. exact Hq.
Qed.

(* If every fixed decision has a property of coins on few coins only, so has a decision after tests. *)
Lemma rush_bound {X : Type} (ok : X -> Prop) (bad : X -> list F -> Prop) (D : Z) r (P : plan E X) : 0 <= D -> Forall ok (choices P) ->
  (forall x, ok x -> rare (2 * n + 6 + r) D (bad x)) ->
  rare (2 * n + 6 + r) (Z.of_nat (looks P) * D7 + D)
    (fun d => tau_ok d /\ exists pk part, first_moves B gens b d = Ok (pk, part) /\ bad (settle P (early_g1 gens pk part) (early_g2 gens pk part)) d).
Proof.
  intros HD HP Hfix. assert (H7 : 0 <= D7) by (unfold D7; lia). revert HP. induction P as [x|q P1 IH1 P2 IH2]; cbn [choices looks]; intros HP.
  - rewrite Z.mul_0_l, Z.add_0_l. apply (rare_imp _ _ _ (bad x)); [|apply Hfix; apply Forall_inv in HP; exact HP]. intros d _ (_ & pk & part & _ & Hbad). exact Hbad.
  - apply Forall_app in HP. destruct HP as [HP1 HP2]. specialize (IH1 HP1). specialize (IH2 HP2). destruct (look_dichotomy q r) as [Z|Z].
    + apply (rare_le _ (Z.of_nat (looks P1) * D7 + D)); [nia|]. refine (rare_imp _ _ _ _ _ IH1). intros d Ld (Hv & pk & part & Hf & Hbad). split; [exact Hv|]. exists pk, part. split; [exact Hf|].
      cbn [settle] in Hbad. rewrite (Z d pk part Ld Hv Hf) in Hbad. exact Hbad.
    + apply (rare_le _ (D7 + (Z.of_nat (looks P2) * D7 + D))); [nia|]. refine (rare_imp _ _ _ _ _ (rare_or _ _ _ _ _ Z IH2)). intros d Ld (Hv & pk & part & Hf & Hbad). cbn [settle] in Hbad.
      destruct (geqb (pairing_product q (early_g1 gens pk part) (early_g2 gens pk part)) gzero) eqn:Hq; [left|right]; (split; [exact Hv|]); exists pk, part; split; assumption.
Qed.

Theorem rush_rcca_bound {R} (P : plan E (rush E R)) (G : rng_impl E) (st : rng_st G) t q k : Forall (rush_limited n t q k) (choices P) ->
  rare (2 * n + 6 + 3 * k) (Z.of_nat N + (Z.of_nat (looks P) * D7 + (Z.of_nat N + (D0 n xs + (cost n xs false t q k + cost n xs true t q k)))))
    (fun d => rushing_experiment pf B G gens b false P st d <> rushing_experiment pf B G gens b true P st d).
Proof.
  intros HP. apply (rare_split n cs xs b HbM Hn0); [lia|].
  assert (HD : 0 <= Z.of_nat N + (D0 n xs + (cost n xs false t q k + cost n xs true t q k))).
  { unfold cost, NM, D0, cw. pose proof (Z.pow_nonneg (Z.of_nat k) 2). nia. }
  refine (rare_imp _ _ _ _ _ (rush_bound (rush_limited n t q k) (fun x d => experiment_rcca_dkg pf B G gens b (ru_before x) (ru_after x) false (ru_attack x) st d <>
    experiment_rcca_dkg pf B G gens b (ru_before x) (ru_after x) true (ru_attack x) st d) _ (3 * k) P HD HP _)).
  - intros d Ld (Hv & Hne). split; [exact Hv|]. unfold rushing_experiment in Hne. destruct (first_moves B gens b d) as [[pk part]|err|]; [|destruct (Hne eq_refl)|destruct (Hne eq_refl)].
    exists pk, part. split; [reflexivity|]. exact Hne.
  - intros x (Hbef & Haft & W). apply (rcca_dkg_bound n cs xs pf domain fuel b gens HG HH Hdom_ok Hb HbM Hcomp Hcount Hn0 Hcs Hdomain _ _ Hbef Haft _ G st t q k W).
Qed.
Theorem rush_rcca_forgery (P : plan E (rush E (strategy E))) (G : rng_impl E) (st : rng_st G) t q k second : Forall (rush_limited n t q k) (choices P) ->
  rare (2 * n + 6 + 3 * k) (Z.of_nat N + (Z.of_nat (looks P) * D7 + (Z.of_nat N + (D0 n xs + (cost n xs second t q k + NM n xs 0 (Z.of_nat k))))))
    (fun d => exists pk part, first_moves B gens b d = Ok (pk, part) /\ let x := settle P (early_g1 gens pk part) (early_g2 gens pk part) in
       odd_dkg_duel n pf domain fuel b gens (ru_before x) (ru_after x) G st (ru_attack x) second d).
Proof.
  intros HP. apply (rare_split n cs xs b HbM Hn0); [lia|].
  assert (HD : 0 <= Z.of_nat N + (D0 n xs + (cost n xs second t q k + NM n xs 0 (Z.of_nat k)))).
  { unfold cost, NM, D0, cw. pose proof (Z.pow_nonneg (Z.of_nat k) 2). destruct second; nia. }
  apply (rush_bound (rush_limited n t q k) (fun x d => odd_dkg_duel n pf domain fuel b gens (ru_before x) (ru_after x) G st (ru_attack x) second d) _ (3 * k) P HD HP).
  intros x (Hbef & Haft & W). apply (rcca_dkg_forgery n cs xs pf domain fuel b gens HG HH Hdom_ok Hb HbM Hcomp Hcount Hn0 Hcs Hdomain _ _ Hbef Haft _ G st t q k second W).
Qed.
End RLink.
