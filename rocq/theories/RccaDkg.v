(* RccaDkg.v -- the coalition of C80, seen as an attacker of C78 *)
From Verif Require Import Base BaseFacts Algebra Utils UtilsFacts Setup Keygen Encryption Circuit CircuitFacts CircuitSat CommitmentFacts VecFacts KeySpec KeygenFacts
  EncryptFacts DecryptFacts Spec VerifyFacts Protocol ReencFacts DistFacts PropVerify Groth16 ArkGroth16 PolyFacts Groth16Spec ArkFacts Groth16Facts SchwartzZippel SoundCore SoundSpec
  SoundAlg SoundGame SoundLink SoundFacts SoundCount SoundHonest PropGroth16 PropSound PropSoundCases PropZK PrivacySpec PrivacyAlg PrivacyGame PrivacyLink PrivacyCount PrivacySpan PrivacyMany
  PrivacyDkgSpec PrivacyDkg SoundAdaptSpec SoundAdapt SoundDkgSpec SoundDkg NonmalCore NonmalAlg NonmalSpec NonmalGame NonmalRows NonmalLink NonmalCount NonmalDkg
  CcaSpec Cca CcaCount PropMalleable PropCca RccaSpec RccaTest RccaCount RccaDkgSpec.

(* ---------- the two services say the same ---------- *)
Section Services.
Context {E : pairing}.
Notation K := (K_of E).
Add Ring Krd : (@scalar_ring_theory K).
Lemma all_shares_ok (G : rng_impl E) gens (c_0 : G1 E) c ekd sks : Forall (fun sk => (length c <= length (st_s sk))%nat) sks ->
  forall st, exists shares st', all_shares G gens c_0 c ekd sks st = Ok (shares, st') /\ Forall2 (share_of gens c_0 c ekd) sks shares.
Proof.
  intros H. induction H as [|sk sks Hs _ IH]; intros st; cbn [all_shares]; [exists [], st; split; [reflexivity|constructor]|].
  destruct (share_total G gens c_0 c ekd sk st) as [A _]. destruct (A Hs) as ([w g_r] & st1 & Z). rewrite Z. cbn [bind].
  destruct (IH st1) as (shares & st2 & Z2 & F2). rewrite Z2. cbn [bind]. exists ((w, g_r) :: shares), st2. split; [reflexivity|]. constructor; [|exact F2]. exists G, st, st1. exact Z.
Qed.
(* what the destination sees opens to the same chunks as the ciphertext *)
Lemma reencrypt_same gens (c_0 : G1 E) c ekd skd sks shares : from_dest gens skd ekd -> sks <> [] -> Forall2 (share_of gens c_0 c ekd) sks shares ->
  exists g_r cs, reencrypt c shares = Ok (g_r :: cs) /\ length cs = length c /\
    forall g_i ms, opens_to (repeat skd (length cs)) g_i g_r cs ms <-> opens_to (fcol_sum (length c) (map st_s sks)) g_i c_0 c ms.
Proof.
  intros Hd Hne Hsh. destruct (reencrypt_explicit gens c_0 c ekd skd sks shares Hd Hne Hsh) as (g_r & cs & Hr & Hl & Hcs). exists g_r, cs. split; [exact Hr|]. split; [exact Hl|].
  intros g_i ms. unfold opens_to. rewrite repeat_length, fcol_sum_length, Hl. split; intros (A1 & A2 & A3); (split; [reflexivity|]); (split; [exact A2|]); intros i Hi; destruct (A3 i Hi) as [Hp He]; (split; [exact Hp|]).
  - rewrite nth_repeat_lt in He by exact Hi. rewrite Hcs in He by exact Hi. rewrite fcol_sum_nth by exact Hi. rewrite map_map. set (S0 := fsum _) in *. set (x := nth i c gzero) in *. set (m := of_Z _ [*] _) in *.
    transitivity (((x [+] [-] (S0 [*] c_0)) [+] (skd [*] g_r)) [+] ((S0 [*] c_0) [+] [-] (skd [*] g_r))); [glin|]. rewrite He. glin.
  - rewrite nth_repeat_lt by exact Hi. rewrite Hcs by exact Hi. rewrite He, fcol_sum_nth by exact Hi. rewrite map_map. glin.
Qed.
Lemma parties_secret b gens g_i delta gamma parties (ek : encryption_key E) n : chunks_count K b = Ok (Z.of_nat n) -> from_dkg b gens g_i delta gamma parties ek ->
  parties <> [] /\ Forall (fun sk => length (st_s sk) = n) (map fst parties) /\ ek_X ek = map (fun x => x [*] ek_X_0 ek) (fcol_sum n (map st_s (map fst parties))).
Proof.
  intros Hn (Hne & Hall & Hd). split; [exact Hne|]. rewrite (dkg_formula b gens g_i delta gamma parties n Hn Hne Hall) in Hd. assert (I : forall A (x y : A), Ok x = Ok y -> x = y) by congruence. apply I in Hd.
  rewrite <- Hd. cbn [ek_formula ek_X ek_X_0]. rewrite map_map. split; [|reflexivity].
  apply Forall_map. eapply Forall_impl; [|exact Hall]. intros p Hp. cbv beta. apply partial_shape in Hp. destruct Hp as (n' & Hn' & _ & Hs & _). rewrite Hn in Hn'. apply I in Hn'. lia.
Qed.
Lemma services_agree pf (G : rng_impl E) b gens g_i delta gamma sk (ek : encryption_key E) dk (keys : dkg_keys E) protected ct q st :
  1 <= b <= 31 -> max_chunk b < modulus K ->
  kg_ek keys = ek -> get_gs_for_encryption (gpk_vk (pk_pk (kg_pk keys))) = Ok g_i ->
  from_keygen b gens g_i delta gamma sk ek dk -> from_dkg b gens g_i delta gamma (kg_parties keys) ek -> ek_X_0 ek <> gzero -> nondegenerate dk g_i (length (dk_V_2 dk)) ->
  fst (service_by_parties pf G b gens keys protected ct q st) = service pf b gens (kg_pk keys) sk ek dk protected ct q.
Proof.
  intros Hb HM <- Hg Hk Hd HX HN. unfold service_by_parties, service. destruct (verify_commitment_and_proof ct q _ _ _) as [u|err|] eqn:HV; [|reflexivity|reflexivity]. rewrite Hg.
  assert (HW : verify_commitment ct (prepare_ek (kg_ek keys)) (prepare_gens gens) = Ok tt).
  { unfold verify_commitment_and_proof in HV. apply bind_Ok_inv in HV. destruct HV as ([] & Z & _). exact Z. }
  apply accept_wf in HW. destruct HW as (H256 & LX & _). set (c := ct_enc_chunks ct) in *. set (c_0 := ct_X_r ct) in *.
  apply from_keygen_inv in Hk. destruct Hk as (n & s & t0 & t & v & Hn & Hgl & Hlt & Hs & Ht & Hv & Hek & Hdk).
  assert (Lc : length c = n) by (rewrite <- LX, Hek; cbn [ek_formula ek_X]; rewrite map_length; exact Hs).
  destruct (parties_secret b gens g_i delta gamma (kg_parties keys) (kg_ek keys) n Hn Hd) as (Hne & Hls & HXs).
  assert (Es : fcol_sum n (map st_s (map fst (kg_parties keys))) = s).
  { apply (map_smul_inj _ _ (ek_X_0 (kg_ek keys)) HX). rewrite <- HXs. rewrite Hek. reflexivity. }
  assert (L2 : length (dk_V_2 dk) = length s) by (rewrite Hdk; unfold dk_formula; cbn [dk_V_2]; rewrite map_length; lia). rewrite L2 in HN. rewrite Hdk in HN |- *.
  remember (decrypt_to_chunks pf c_0 c sk (prepare_dk (dk_formula gens sk s v)) g_i b) as out eqn:Eout.
  assert (DC : forall ms nu, out = Ok (ms, nu) <-> opens_to s g_i c_0 c ms /\ Forall (fun z => z <= max_chunk b) ms /\ nu = sk [*] c_0).
  { intros ms nu. rewrite Eout. exact (decrypt_exact pf gens sk s v g_i b c_0 c ms nu ltac:(lia) ltac:(lia) ltac:(lia) HN Hb HM). }
  clear Eout.
  unfold decrypt_together. fold c c_0. unfold Fkeygen_dest. destruct (rand_scalar G st) as [skd st1] eqn:Er. cbn [bind].
  set (ekd := FEncryptionKeyDest _). assert (Hdest : from_dest gens skd ekd) by (exists G, st, st1; unfold Fkeygen_dest; rewrite Er; reflexivity).
  destruct (all_shares_ok G gens c_0 c ekd (map fst (kg_parties keys))) with (st := st1) as (shares & st2 & Hsh & HF).
  { eapply Forall_impl; [|exact Hls]. intros a Ha. cbv beta in Ha. lia. }
  rewrite Hsh. cbn [bind]. assert (Hne' : map fst (kg_parties keys) <> []) by (intros Z; apply map_eq_nil in Z; contradiction).
  destruct (reencrypt_same gens c_0 c ekd skd _ shares Hdest Hne' HF) as (g_r & cs & Hr & Lcs & HO). rewrite Hr. cbn [bind].
  rewrite Lc, Es in HO.
  assert (Hnz : Forall (fun x => x <> gzero) (firstn (length cs) g_i)) by (rewrite Lcs, Lc, <- Hs; exact (proj2 HN)).
  pose proof (fun ms => reenc_decrypt_exact pf g_r cs skd g_i b ms ltac:(lia) Hnz Hb HM) as RC.
  destruct (reenc_shape pf g_r cs skd g_i b ltac:(lia)) as [_ RS]. destruct (RS ltac:(lia)) as [(ms & Hms & _)|Hms].
  - rewrite Hms. cbn [bind fst]. apply RC in Hms. destruct Hms as [O1 O2]. apply HO in O1.
    assert (X : out = Ok (ms, sk [*] c_0)) by (apply DC; split; [exact O1|]; split; [exact O2|reflexivity]).
    rewrite X. reflexivity.
  - rewrite Hms. cbn [bind fst]. destruct out as [[ms nu]|err|]; [exfalso|reflexivity|reflexivity].
    destruct (proj1 (DC ms nu) eq_refl) as (O1 & O2 & _). apply HO in O1. assert (X : decrypt_to_chunks_after_re_encryption pf g_r cs skd g_i b = Ok ms) by (apply RC; split; assumption). congruence.
Qed.
End Services.

(* ---------- the coalition, seen from the table of the central key generation ---------- *)
Section Game.
Context {E : pairing}.
Notation K := (K_of E).
Notation F := (Fr E).
(* R1 j and R2 j express what the coalition sees when j ciphertexts are on the table *)
Fixpoint translate {R R'} (fin : nat -> R -> R') (R1 R2 : nat -> list (list F)) (j : nat) (A : adversary E R) : adversary E R' :=
  match A with
  | Stop r => Stop (fin j r)
  | Try q A1 A2 => Try (pull_back q (R1 j) (R2 j)) (translate fin R1 R2 j A1) (translate fin R1 R2 j A2)
  | Offer m m' next => Offer m m' (translate fin R1 R2 (S j) next)
  | Ship St next => Ship (pull_strategy (R1 j) (R2 j) St) (fun r => translate fin R1 R2 j (next r))
  end.
Lemma translate_limited {R R'} (fin : nat -> R -> R') R1 R2 (A : adversary E R) t q k : limited t q k A -> forall j, limited t q k (translate fin R1 R2 j A).
Proof. intros W. induction W; intros j; cbn [translate]; constructor; auto. Qed.
Lemma duel_same pf B (G : rng_impl E) gens b (keys : dkg_keys E) sk dk rest (R1 R2 : nat -> list (list F)) w :
  (forall ms cps st, encrypt_all pf B (replay_rng E) ms (kg_ek keys) (kg_pk keys) b rest = Ok (cps, st) -> length cps = length ms /\
     dkg_g1 gens (public_run keys cps) = combos (R1 (length ms)) (table_g1 gens (kg_pk keys) (kg_ek keys) cps) /\
     dkg_g2 gens (public_run keys cps) = combos (R2 (length ms)) (table_g2 gens (kg_pk keys) (kg_ek keys) dk cps)) ->
  (forall offered ct q st, fst (service_by_parties pf G b gens keys offered ct q st) = service pf b gens (kg_pk keys) sk (kg_ek keys) dk offered ct q) ->
  forall R R' (fin : nat -> R -> R') (A : adversary E R) offered ms cps st gst, encrypt_all pf B (replay_rng E) ms (kg_ek keys) (kg_pk keys) b rest = Ok (cps, st) ->
  duel pf B gens b (kg_pk keys) sk (kg_ek keys) dk w (translate fin R1 R2 (length ms) A) offered cps st =
  option_map (fun rc => (fin (length (snd rc)) (fst rc), snd rc)) (dkg_duel pf B G gens b keys w A offered cps st gst).
Proof.
  intros HT HS R R' fin A. induction A as [r|q A1 IH1 A2 IH2|m m' next IH|St next IH]; intros offered ms cps st gst Henc; cbn [translate duel dkg_duel option_map].
  - cbn [fst snd]. rewrite (proj1 (HT ms cps st Henc)). reflexivity.
  - destruct (HT ms cps st Henc) as (_ & G1 & G2). rewrite pp_pull_back, <- G1, <- G2. destruct (geqb _ _); [apply IH1|apply IH2]; exact Henc.
  - destruct (encrypt_with_proof pf B (replay_rng E) (if w then m' else m) (kg_ek keys) (kg_pk keys) b st) as [[[[ct r1] q1] st1]|err|] eqn:He; [|reflexivity|reflexivity].
    specialize (IH (m :: m' :: offered) (ms ++ [if w then m' else m]) (cps ++ [(ct, q1)]) st1 gst). rewrite app_length in IH. cbn [length] in IH. rewrite Nat.add_1_r in IH. apply IH.
    rewrite (encrypt_all_app _ _ _ _ _ _ _ _ _ _ _ Henc). cbn [encrypt_all]. rewrite He. reflexivity.
  - destruct (HT ms cps st Henc) as (_ & G1 & G2). rewrite pull_ciphertext, pull_proof, <- G1, <- G2. rewrite <- (HS offered _ _ gst).
    destruct (service_by_parties pf G b gens keys offered _ _ gst) as [answer gst']. cbn [fst]. apply IH. exact Henc.
Qed.

Lemma option_map_fst_same {R C : Type} (o : option (R * list C)) : option_map fst (option_map (fun rc => ((fun (_ : nat) (r : R) => r) (length (snd rc)) (fst rc), snd rc)) o) = option_map fst o.
Proof. destruct o as [[r c]|]; reflexivity. Qed.
(* the execution of PrivacyDkgSpec and the key generation of the game *)
Lemma execution_from_setup pf (B : groth16_backend E) gens b before after msgs d keys rest cps st : dkg_setup B gens b before after d = Ok (keys, rest) ->
  encrypt_all pf B (replay_rng E) msgs (kg_ek keys) (kg_pk keys) b rest = Ok (cps, st) -> dkg_execution pf B gens b before after msgs d = Ok (public_run keys cps).
Proof.
  intros H Henc. unfold dkg_setup in H. unfold dkg_execution.
  apply bind_Ok_inv in H. destruct H as (circ & -> & H). cbn [bind]. apply bind_Ok_inv in H. destruct H as ([pk st1] & -> & H). cbn [bind]. apply bind_Ok_inv in H. destruct H as (g_i & -> & H). cbn [bind]. cbv zeta in *.
  apply bind_Ok_inv in H. destruct H as (ps1 & -> & H). cbn [bind]. apply bind_Ok_inv in H. destruct H as ([[sk part] st2] & -> & H). cbn [bind].
  apply bind_Ok_inv in H. destruct H as (ps2 & -> & H). cbn [bind]. apply bind_Ok_inv in H. destruct H as (com & -> & H). cbn [bind].
  apply bind_Ok_inv in H. destruct H as (shares & -> & H). cbn [bind]. apply bind_Ok_inv in H. destruct H as (p1 & -> & H). cbn [bind].
  assert (Ek : keys = DkgKeys pk (ps1 ++ (sk, part) :: ps2) shares (keygenFinal com p1)) by congruence. assert (Er : st2 = rest) by congruence. subst keys st2. cbn [kg_ek kg_pk] in Henc. rewrite Henc. reflexivity.
Qed.
Lemma setup_from_execution pf (B : groth16_backend E) gens b before after msgs d run : dkg_execution pf B gens b before after msgs d = Ok run ->
  exists keys rest st, dkg_setup B gens b before after d = Ok (keys, rest) /\ run = public_run keys (dr_cps run) /\ encrypt_all pf B (replay_rng E) msgs (kg_ek keys) (kg_pk keys) b rest = Ok (dr_cps run, st).
Proof.
  intros H. unfold dkg_setup. unfold dkg_execution in H.
  apply bind_Ok_inv in H. destruct H as (circ & -> & H). cbn [bind]. apply bind_Ok_inv in H. destruct H as ([pk st1] & -> & H). cbn [bind]. apply bind_Ok_inv in H. destruct H as (g_i & -> & H). cbn [bind]. cbv zeta in *.
  apply bind_Ok_inv in H. destruct H as (ps1 & -> & H). cbn [bind]. apply bind_Ok_inv in H. destruct H as ([[sk part] st2] & -> & H). cbn [bind].
  apply bind_Ok_inv in H. destruct H as (ps2 & -> & H). cbn [bind]. apply bind_Ok_inv in H. destruct H as (com & -> & H). cbn [bind].
  apply bind_Ok_inv in H. destruct H as (shares & -> & H). cbn [bind]. apply bind_Ok_inv in H. destruct H as (p1 & -> & H). cbn [bind].
  apply bind_Ok_inv in H. destruct H as ([cps st3] & He & H). assert (R : run = DkgRun pk (map snd (ps1 ++ (sk, part) :: ps2)) shares (keygenFinal com p1) cps) by congruence. subst run.
  eexists; eexists; exists st3. split; [reflexivity|]. split; [reflexivity|]. exact He.
Qed.
Lemma contributions_partial b gens g_i delta gamma tapes : forall ps, contributions (E := E) b gens g_i delta gamma tapes = Ok ps -> length ps = length tapes /\ Forall (from_partial b gens g_i delta gamma) ps.
Proof.
  unfold contributions. induction tapes as [|tape tapes IH]; intros ps H; cbn [mapM] in H.
  - assert (ps = []) by congruence. subst ps. split; [reflexivity|constructor].
  - apply bind_Ok_inv in H. destruct H as ([sk part] & H1 & H). apply bind_Ok_inv in H. destruct H as (ps' & H2 & H). assert (ps = (sk, part) :: ps') by congruence. subst ps.
    destruct (IH ps' H2) as [L F0]. split; [cbn [length]; rewrite L; reflexivity|]. constructor; [|exact F0].
    apply bind_Ok_inv in H1. destruct H1 as ([[sk' part'] st'] & H1 & H3). assert (sk' = sk) by congruence. assert (part' = part) by congruence. subst sk' part'. exists (replay_rng E), tape, st'. exact H1.
Qed.
Lemma setup_parties (B : groth16_backend E) gens b before after d keys rest g_i : dkg_setup B gens b before after d = Ok (keys, rest) -> get_gs_for_encryption (gpk_vk (pk_pk (kg_pk keys))) = Ok g_i ->
  from_dkg b gens g_i (gpk_delta_g1 (pk_pk (kg_pk keys))) (pk_gamma_g1 (kg_pk keys)) (kg_parties keys) (kg_ek keys) /\ length (kg_parties keys) = (length before + 1 + length after)%nat.
Proof.
  intros H Hg. unfold dkg_setup in H.
  apply bind_Ok_inv in H. destruct H as (circ & Z & H). clear Z. apply bind_Ok_inv in H. destruct H as ([pk st1] & Z & H). clear Z. apply bind_Ok_inv in H. destruct H as (g_i' & Hg' & H). cbv zeta in *.
  apply bind_Ok_inv in H. destruct H as (ps1 & P1 & H). apply bind_Ok_inv in H. destruct H as ([[sk part] st2] & P2 & H).
  apply bind_Ok_inv in H. destruct H as (ps2 & P3 & H). apply bind_Ok_inv in H. destruct H as (com & Hc & H).
  apply bind_Ok_inv in H. destruct H as (shares & Hsh & H). apply bind_Ok_inv in H. destruct H as (p1 & Hp & H).
  assert (Ek : keys = DkgKeys pk (ps1 ++ (sk, part) :: ps2) shares (keygenFinal com p1)) by congruence. subst keys. clear H. cbn [kg_pk kg_ek kg_parties] in *.
  assert (g_i' = g_i) by congruence. subst g_i'. apply contributions_partial in P1, P3. destruct P1 as [L1 F1], P3 as [L3 F3]. split.
  - split; [destruct ps1; discriminate|]. split.
    + apply Forall_app. split; [exact F1|]. constructor; [|exact F3]. exists (replay_rng E), st1, st2. exact P2.
    + unfold dkg. rewrite Hc. cbn [bind]. rewrite Hsh. cbn [bind]. rewrite Hp. reflexivity.
  - rewrite app_length. cbn [length]. lia.
Qed.
End Game.

Section DLink.
Context {E : pairing}.
Notation K := (K_of E).
Notation F := (Fr E).
Notation e i env := (nth i env fzero).
Notation p := (modulus K).
Variables (n : nat) (cs : csys K) (xs : list F) (pf : profile) (domain : nat -> option (list F)) (fuel : nat) (b : Z) (gens : encryption_gens E).
Notation B := (ark_backend pf domain fuel).
Let ni := cs_num_inst cs.
Let nw := cs_num_wit cs.
Let nc := length (cs_cons cs).
Let N := length xs.
Hypothesis HG : eg_G gens <> gzero.
Hypothesis HH : eg_H gens <> gzero.
Hypothesis Hdom_ok : domain_ok domain.
Hypothesis Hb : supported b.
Hypothesis HbM : 2 ^ b <= modulus K.
Hypothesis Hcomp : chunk_compatible K b.
Hypothesis Hcount : chunks_count K b = Ok (Z.of_nat n).
Hypothesis Hn0 : (0 < n)%nat.
Hypothesis Hcs : generate_constraints (BitsizeCheckCircuit b (Z.of_nat n) None true) (@cs_new K Circuit.Setup) = Ok cs.
Hypothesis Hdomain : domain (nc + ni)%nat = Some xs.
Variables (before after : list (list F)).
Hypothesis Hbef : Forall (full n) before.
Hypothesis Haft : Forall (full n) after.
Let nb := length before.
Let mm := (length before + 1 + length after)%nat.
Notation Q1 := (P1 n cs xs).
Notation Q2 := (P2 n cs).
Notation centralk := (centralk n before after).
Notation tau_ok := (tau_ok xs).
Notation healthy := (healthy n cs xs).
Notation M r := (3 * n + 7 + r)%nat.

(* counting the coins of the coalition by those of the central key generation *)
Lemma rare_dkg r D (P Q : list F -> Prop) : rare (M r) D P -> (forall d w, length d = (2 * n + 6 + r)%nat -> length w = S n -> Q d -> P (centralk d w)) -> rare (2 * n + 6 + r) D Q.
Proof.
  intros HR HI L Hnd HL. pose proof (@modulus_gt1 K) as Hp. destruct (@all_tuples_exist K (S n)) as (T & T1 & T2). pose proof (all_tuples_count _ T T1 T2) as CT.
  pose proof (HR (map (fun dw => centralk (fst dw) (snd dw)) (list_prod L T))) as X. rewrite map_length, prod_length, Nat2Z.inj_mul, CT in X.
  assert (Pn : 0 < p ^ Z.of_nat (S n)) by (apply Z.pow_pos_nonneg; lia). apply (Z.mul_le_mono_pos_r _ _ _ Pn).
  replace (D * p ^ Z.of_nat (2 * n + 6 + r) * p ^ Z.of_nat (S n)) with (D * p ^ Z.of_nat (M r)).
  2: { replace (Z.of_nat (M r)) with (Z.of_nat (2 * n + 6 + r) + Z.of_nat (S n)) by lia. rewrite Z.pow_add_r by lia. ring. }
  replace (Z.of_nat (length L) * p * p ^ Z.of_nat (S n)) with (Z.of_nat (length L) * p ^ Z.of_nat (S n) * p) by ring. apply X; clear X.
  - apply nodup_map_in; [|apply nodup_prod; assumption]. intros [d w] [d' w'] H1 H2 Z. apply in_prod_iff in H1, H2. destruct H1 as [H1 W1], H2 as [H2 W2]. cbn [fst snd] in Z.
    apply (centralk_inj n cs xs b Hn0 before after r) in Z; [exact Z|apply HL; exact H1|apply HL; exact H2|apply T2; exact W1|apply T2; exact W2].
  - intros c Hc. apply in_map_iff in Hc. destruct Hc as ([d w] & <- & Hc). apply in_prod_iff in Hc. destruct Hc as [Hd Hw]. cbn [fst snd]. apply T2 in Hw. destruct (HL d Hd) as [Ld HQ]. split; [|apply HI; assumption].
    assert (L0 : length (firstn (2 * n + 6) d) = (2 * n + 6)%nat) by (rewrite firstn_length; lia).
    destruct (shiftd_split n cs xs b Hn0 before after (firstn (2 * n + 6) d) w L0 Hw) as (al & be & ga & de & ta & sh & t0 & t & rho & v & E0 & Ew & L1 & L2 & L3 & Ec).
    assert (Lks : length (ks n before after) = n) by apply fcol_sum_length. assert (Lkt : length (kt n before after) = n) by apply fcol_sum_length.
    unfold NonmalDkg.centralk. rewrite Ec, app_length, skipn_length, Ld. cbn [length]. rewrite !app_length. cbn [length]. rewrite ?app_length, (vadd_length _ _ n L1 Lks), (vadd_length _ _ n L2 Lkt). cbn [length]. lia.
Qed.
Lemma central_tau r d w : length d = (2 * n + 6 + r)%nat -> length w = S n -> e 4 (centralk d w) = e 4 d.
Proof.
  intros Ld Lw. assert (L0 : length (firstn (2 * n + 6) d) = (2 * n + 6)%nat) by (rewrite firstn_length; lia).
  destruct (shiftd_split n cs xs b Hn0 before after (firstn (2 * n + 6) d) w L0 Lw) as (al & be & ga & de & ta & sh & t0 & t & rho & v & E0 & _ & _ & _ & _ & Ec).
  unfold NonmalDkg.centralk. rewrite Ec. cbn [app nth]. rewrite <- (nth_front fzero (2 * n + 6) 4 d) by lia. rewrite E0. reflexivity.
Qed.
(* the coins that are left *)
Lemma setup_rest r d keys rest : length d = (2 * n + 6 + r)%nat -> tau_ok d -> dkg_setup B gens b before after d = Ok (keys, rest) -> rest = skipn (2 * n + 6) d.
Proof.
  intros Ld Hv H. unfold RccaTest.tau_ok in Hv.
  set (d0 := firstn (2 * n + 6) d). assert (L0 : length d0 = (2 * n + 6)%nat) by (unfold d0; rewrite firstn_length; lia).
  destruct (shiftd_split n cs xs b Hn0 before after d0 (repeat fzero (S n)) L0 ltac:(apply repeat_length)) as (al & be & ga & de & ta & sh & t0 & t & rho & v & E0 & _ & L1 & L2 & _ & _).
  set (rst := skipn (2 * n + 6) d). assert (Ed : d = al :: be :: ga :: de :: ta :: sh ++ (t0 :: t) ++ rst).
  { rewrite <- (firstn_skipn (2 * n + 6) d). fold d0 rst. rewrite E0. cbn [app]. rewrite <- !app_assoc. cbn [app]. rewrite ?app_nil_r, <- ?app_assoc. reflexivity. }
  rewrite Ed in H. assert (Hv' : vanishing_at xs ta <> fzero) by (rewrite Ed in Hv; exact Hv). clear Ed E0 Hv.
  unfold dkg_setup, circuit_new in H. rewrite Hcount in H. cbn [bind] in H.
  apply bind_Ok_inv in H. destruct H as ([pk0 st1] & Hs & H).
  destruct (srs_local n cs xs pf domain fuel b gens Hb HbM Hn0 Hcs Hdomain al be ga de ta Hv') as [(pk & Lg & Hsrs)|No]; [|destruct (No _ _ Hs)].
  rewrite Hsrs in Hs. assert (Es : pk = pk0 /\ st1 = sh ++ (t0 :: t) ++ rst) by (split; congruence). destruct Es as [<- ->]. clear Hs.
  apply bind_Ok_inv in H. destruct H as (g_i & Hg & H). cbv zeta in H.
  assert (Lgi : length g_i = n).
  { unfold get_gs_for_encryption, slice_from in Hg. rewrite Lg in Hg. cbn [Nat.leb] in Hg. assert (g_i = skipn 1 (vk_gamma_abc_g1 (gpk_vk (pk_pk pk)))) by congruence. subst g_i. rewrite skipn_length. lia. }
  apply bind_Ok_inv in H. destruct H as (ps1 & _ & H). rewrite (partial_replay b gens g_i _ _ n sh t0 t rst Hcount) in H by (try assumption; lia). cbn [bind] in H.
  apply bind_Ok_inv in H. destruct H as (ps2 & _ & H). apply bind_Ok_inv in H. destruct H as (com & _ & H).
  apply bind_Ok_inv in H. destruct H as (shares & _ & H). apply bind_Ok_inv in H. destruct H as (p1 & _ & H). congruence.
Qed.

(* the keys depend on the first coins only *)
Lemma dkg_setup_local r r' d x keys rest : length d = (2 * n + 6 + r)%nat -> length x = r' -> tau_ok d -> dkg_setup B gens b before after (d ++ x) = Ok (keys, rest) ->
  exists rest', dkg_setup B gens b before after d = Ok (keys, rest').
Proof.
  intros Ld Lx Hv H. unfold RccaTest.tau_ok in Hv.
  set (d0 := firstn (2 * n + 6) d). assert (L0 : length d0 = (2 * n + 6)%nat) by (unfold d0; rewrite firstn_length; lia).
  destruct (shiftd_split n cs xs b Hn0 before after d0 (repeat fzero (S n)) L0 ltac:(apply repeat_length)) as (al & be & ga & de & ta & sh & t0 & t & rho & v & E0 & _ & L1 & L2 & _ & _).
  set (rst := skipn (2 * n + 6) d). assert (Ed : d = al :: be :: ga :: de :: ta :: sh ++ (t0 :: t) ++ rst).
  { rewrite <- (firstn_skipn (2 * n + 6) d). fold d0 rst. rewrite E0. cbn [app]. rewrite <- !app_assoc. cbn [app]. rewrite ?app_nil_r, <- ?app_assoc. reflexivity. }
  assert (Ex : d ++ x = al :: be :: ga :: de :: ta :: sh ++ (t0 :: t) ++ (rst ++ x)) by (rewrite Ed; cbn [app]; rewrite <- !app_assoc; cbn [app]; rewrite <- ?app_assoc; reflexivity).
  rewrite Ex in H. rewrite Ed. assert (Hv' : vanishing_at xs ta <> fzero) by (rewrite Ed in Hv; exact Hv). clear Ed Ex E0 Hv. clearbody rst.
  unfold dkg_setup, circuit_new in *. rewrite Hcount in *. cbn [bind] in *.
  apply bind_Ok_inv in H. destruct H as ([pk0 st1] & Hs & H).
  destruct (srs_local n cs xs pf domain fuel b gens Hb HbM Hn0 Hcs Hdomain al be ga de ta Hv') as [(pk & Lg & Hsrs)|No]; [|destruct (No _ _ Hs)].
  rewrite Hsrs in Hs. assert (Es : pk = pk0 /\ st1 = sh ++ (t0 :: t) ++ (rst ++ x)) by (split; congruence). destruct Es as [<- ->]. clear Hs. rewrite Hsrs. cbn [bind].
  apply bind_Ok_inv in H. destruct H as (g_i & Hg & H). rewrite Hg. cbn [bind]. cbv zeta in *.
  assert (Lgi : length g_i = n).
  { unfold get_gs_for_encryption, slice_from in Hg. rewrite Lg in Hg. cbn [Nat.leb] in Hg. assert (g_i = skipn 1 (vk_gamma_abc_g1 (gpk_vk (pk_pk pk)))) by congruence. subst g_i. rewrite skipn_length. lia. }
  apply bind_Ok_inv in H. destruct H as (ps1 & -> & H). cbn [bind]. rewrite (partial_replay b gens g_i _ _ n sh t0 t (rst ++ x) Hcount) in H by (try assumption; lia). rewrite (partial_replay b gens g_i _ _ n sh t0 t rst Hcount) by (try assumption; lia). cbn [bind] in *.
  apply bind_Ok_inv in H. destruct H as (ps2 & -> & H). cbn [bind]. apply bind_Ok_inv in H. destruct H as (com & -> & H). cbn [bind].
  apply bind_Ok_inv in H. destruct H as (shares & -> & H). cbn [bind]. apply bind_Ok_inv in H. destruct H as (p1 & -> & H). cbn [bind]. eexists. f_equal. f_equal. congruence.
Qed.
(* one execution *)
Lemma dkg_link : exists R1 R2 : nat -> list (list F),
  (forall j S0, extracted_chunks n (pull_strategy (R1 j) (R2 j) S0) = dkg_extracted_chunks n nb mm S0 /\ extracted_r n (pull_strategy (R1 j) (R2 j) S0) = dkg_extracted_r n nb mm S0) /\
  forall r d w keys rest, length d = (2 * n + 6 + r)%nat -> length w = S n -> tau_ok d -> healthy (firstn (3 * n + 7) (centralk d w)) -> dkg_setup B gens b before after d = Ok (keys, rest) ->
  exists sk dk, setup_for_groth16 B (replay_rng E) b gens (centralk d w) = Ok (kg_pk keys, sk, kg_ek keys, dk, rest) /\
    (forall ms cps st, encrypt_all pf B (replay_rng E) ms (kg_ek keys) (kg_pk keys) b rest = Ok (cps, st) -> length cps = length ms /\
       dkg_g1 gens (public_run keys cps) = combos (R1 (length ms)) (table_g1 gens (kg_pk keys) (kg_ek keys) cps) /\
       dkg_g2 gens (public_run keys cps) = combos (R2 (length ms)) (table_g2 gens (kg_pk keys) (kg_ek keys) dk cps)) /\
    (forall (G : rng_impl E) offered ct q st, fst (service_by_parties pf G b gens keys offered ct q st) = service pf b gens (kg_pk keys) sk (kg_ek keys) dk offered ct q).
Proof.
  destruct (dkg_as_central_r n cs xs pf domain fuel b gens Hb HbM Hcount Hn0 Hcs Hdomain before after Hbef Haft) as (rows1 & rows2 & HX & HC).
  exists (fun j => extend_rows Q1 (j * (n + 4)) rows1), (fun j => extend_rows Q2 j rows2). split; [intros j S0; apply HX|].
  intros r d w keys rest Ld Lw Hv Hh Hset. pose proof (setup_rest r d keys rest Ld Hv Hset) as Er.
  destruct (HC [] r d w _ Ld Lw Hv (execution_from_setup pf B gens b before after [] d keys rest [] rest Hset eq_refl)) as (Lc & E4 & _ & sk & dk & st' & Hcen & _). cbn [public_run dr_pk dr_ek] in Hcen. rewrite <- Er in Hcen.
  exists sk, dk. split; [exact Hcen|]. split.
  - intros ms cps st Henc. destruct (HC ms r d w _ Ld Lw Hv (execution_from_setup pf B gens b before after ms d keys rest cps st Hset Henc)) as (_ & _ & Lcps & sk' & dk' & st'' & Hcen' & _ & G1 & G2 & _).
    cbn [public_run dr_pk dr_ek dr_cps] in Hcen', G1, G2, Lcps. rewrite <- Er in Hcen'. rewrite Hcen in Hcen'. apply ok_pair5 in Hcen'. destruct Hcen' as (_ & _ & _ & Hdk & _).
    split; [exact Lcps|]. split; [exact G1|]. rewrite Hdk. exact G2.
  - assert (Hv' : vanishing_at xs (e 4 (centralk d w)) <> fzero) by (rewrite E4; exact Hv).
    pose proof (setup_tape_rest n cs xs pf domain fuel b gens Hcount Hcs Hdomain (proj1 (cs_shape n cs xs b (bits_of _ b Hb HbM) Hn0 Hcs)) (centralk d w) _ sk _ dk _ ltac:(lia) Hv' Hcen) as (Hga & Hde & Hgs & Hsk & Hek & Hdk & _).
    destruct (setup_parties B gens b before after d keys rest _ Hset Hgs) as [Hd _]. pose proof (setup_keys B (replay_rng E) b gens _ _ sk _ dk _ _ Hcen Hgs) as Hk.
    destruct (b_small n cs xs b Hb HbM Hcomp Hcount Hn0 Hcs) as (_ & HM & _ & H31). intros G offered ct q st.
    apply (services_agree pf G b gens _ _ _ sk (kg_ek keys) dk keys offered ct q st H31 HM eq_refl Hgs Hk Hd).
    + rewrite Hek. cbn [ek_formula ek_X_0]. intros Z. apply smul_eq_zero in Z. destruct Z as [Z|Z]; [exact (Hde Z)|exact (HG Z)].
    + assert (L : length (dk_V_2 dk) = n) by (rewrite Hdk; unfold dk_formula; cbn [dk_V_2]; rewrite !map_length, seq_length; reflexivity). rewrite L, Hdk.
      apply (degenerate_tape n cs xs gens HG HH Hn0); [|exact Hga]. apply (healthy_prefix n cs xs 1 b Hn0 ltac:(lia)). exact Hh.
Qed.

Theorem rcca_dkg_bound {R} (A : adversary E R) (G : rng_impl E) (st : rng_st G) t q k : limited t q k A ->
  rare (2 * n + 6 + 3 * k) (Z.of_nat N + (D0 n xs + (cost n xs false t q k + cost n xs true t q k)))
    (fun d => experiment_rcca_dkg pf B G gens b before after false A st d <> experiment_rcca_dkg pf B G gens b before after true A st d).
Proof.
  intros W. destruct dkg_link as (R1 & R2 & _ & HL). pose proof (translate_limited (fun _ r => r) R1 R2 A t q k W 0) as W'.
  refine (rare_dkg _ _ _ _ (rcca_bound_all n cs xs pf domain fuel b gens HG HH Hdom_ok Hb HbM Hcomp Hcount Hn0 Hcs Hdomain _ t q k W') _).
  intros d w Ld Lw Hne. pose proof (central_tau _ d w Ld Lw) as E4. unfold RccaTest.tau_ok in *. rewrite E4.
  destruct (feq_dec (vanishing_at xs (e 4 d)) fzero) as [Hv|Hv]; [left; intros Z; exact (Z Hv)|right].
  destruct (healthy_dec n cs xs (firstn (3 * n + 7) (centralk d w))) as [Hh|Hh]; [right|left; exact Hh].
  unfold experiment_rcca_dkg in Hne. destruct (dkg_setup B gens b before after d) as [[keys rest]|err|] eqn:Hset; [|destruct (Hne eq_refl)|destruct (Hne eq_refl)].
  destruct (HL _ d w keys rest Ld Lw Hv Hh Hset) as (sk & dk & Hcen & HT & HS). unfold experiment_rcca. rewrite Hcen.
  rewrite !(duel_same pf B G gens b keys sk dk rest R1 R2 _ HT (HS G) R R (fun _ r => r) A [] [] [] rest st eq_refl).
  intros Z. apply Hne. rewrite !option_map_fst_same in Z. exact Z.
Qed.
Definition odd_dkg_duel (G : rng_impl E) (st : rng_st G) (A : adversary E (strategy E)) (second : bool) (d : list F) : Prop := exists keys rest St cps,
  dkg_setup B gens b before after d = Ok (keys, rest) /\ dkg_duel pf B G gens b keys second A [] [] rest st = Some (St, cps) /\
  let T1 := dkg_g1 gens (public_run keys cps) in let T2 := dkg_g2 gens (public_run keys cps) in
  verify_commitment_and_proof (ciphertext_from St T1) (proof_from St T1 T2) (prepare_verifying_key (gpk_vk (pk_pk (kg_pk keys)))) (prepare_ek (kg_ek keys)) (prepare_gens gens) = Ok tt /\
  ~ (digits_ok b (dkg_extracted_chunks n nb mm St) /\ exists g_i, get_gs_for_encryption (gpk_vk (pk_pk (kg_pk keys))) = Ok g_i /\
     encrypts (kg_ek keys) g_i (dkg_extracted_chunks n nb mm St) (ct_vec (ciphertext_from St T1)) (dkg_extracted_r n nb mm St)) /\
  ~ (exists ct0 q0, In (ct0, q0) cps /\ ciphertext_from St T1 = rerandomized (kg_ek keys) (dkg_extracted_r n nb mm St) ct0 /\
     exists kappa, kappa <> fzero /\ pr_a (proof_from St T1 T2) = kappa [*] pr_a q0).
Theorem rcca_dkg_forgery (A : adversary E (strategy E)) (G : rng_impl E) (st : rng_st G) t q k second : limited t q k A ->
  rare (2 * n + 6 + 3 * k) (Z.of_nat N + (D0 n xs + (cost n xs second t q k + NM n xs 0 (Z.of_nat k)))) (odd_dkg_duel G st A second).
Proof.
  intros W. destruct dkg_link as (R1 & R2 & HX & HL). set (fin := fun j St => pull_strategy (R1 j) (R2 j) St). pose proof (translate_limited fin R1 R2 A t q k W 0) as W'.
  refine (rare_dkg _ _ _ _ (rcca_forgery_all n cs xs pf domain fuel b gens HG HH Hdom_ok Hb HbM Hcomp Hcount Hn0 Hcs Hdomain _ t q k second W') _).
  intros d w Ld Lw (keys & rest & St & cps & Hset & Hd & Hodd). pose proof (central_tau _ d w Ld Lw) as E4. unfold RccaTest.tau_ok in *. rewrite E4.
  destruct (feq_dec (vanishing_at xs (e 4 d)) fzero) as [Hv|Hv]; [left; intros Z; exact (Z Hv)|right].
  destruct (healthy_dec n cs xs (firstn (3 * n + 7) (centralk d w))) as [Hh|Hh]; [right|left; exact Hh].
  destruct (HL _ d w keys rest Ld Lw Hv Hh Hset) as (sk & dk & Hcen & HT & HS).
  pose proof (duel_same pf B G gens b keys sk dk rest R1 R2 second HT (HS G) _ _ fin A [] [] [] rest st eq_refl) as DS. rewrite Hd in DS. cbn [option_map fst snd] in DS.
  destruct (duel_table n cs xs pf domain fuel b gens Hn0 _ t q k W' second [] [] [] rest _ sk _ dk rest _ cps eq_refl DS) as (ms & st' & _ & Henc). cbn [app] in Henc.
  destruct (HT ms cps st' Henc) as (Lcps & G1 & G2). rewrite <- Lcps in G1, G2.
  exists (kg_pk keys), sk, (kg_ek keys), dk, rest, (fin (length cps) St), cps. split; [exact Hcen|]. split; [exact DS|].
  cbv zeta in *. unfold is_fresh, is_copy. unfold fin. destruct (HX (length cps) St) as [X1 X2]. rewrite X1, X2, pull_ciphertext, pull_proof, <- G1, <- G2. exact Hodd.
Qed.
(* the game comes to an end *)
Lemma dkg_duel_ends {R} (A : adversary E R) (G : rng_impl E) (st : rng_st G) t q k second d keys rest : limited t q k A -> length d = (2 * n + 6 + 3 * k)%nat -> tau_ok d ->
  dkg_setup B gens b before after d = Ok (keys, rest) ->
  exists r cps ms st', dkg_duel pf B G gens b keys second A [] [] rest st = Some (r, cps) /\ (length ms <= k)%nat /\ encrypt_all pf B (replay_rng E) ms (kg_ek keys) (kg_pk keys) b rest = Ok (cps, st').
Proof.
  intros W Ld Hv Hset. pose proof (setup_rest _ d keys rest Ld Hv Hset) as Er.
  destruct (dkg_as_central_r n cs xs pf domain fuel b gens Hb HbM Hcount Hn0 Hcs Hdomain before after Hbef Haft) as (rows1 & rows2 & _ & HC).
  destruct (HC [] (3 * k)%nat d (repeat fzero (S n)) _ Ld ltac:(apply repeat_length) Hv (execution_from_setup pf B gens b before after [] d keys rest [] rest Hset eq_refl)) as (Lc & E4 & _ & sk & dk & s1 & Hcen & _). cbn [public_run dr_pk dr_ek] in Hcen. rewrite <- Er in Hcen.
  set (c := centralk d (repeat fzero (S n))) in *. assert (Tc : tau_ok c) by (unfold RccaTest.tau_ok; rewrite E4; exact Hv).
  pose proof (table_at n cs xs pf domain fuel b gens Hdom_ok Hb HbM Hcomp Hcount Hn0 Hcs Hdomain [] 0 k c _ sk _ dk rest [] rest eq_refl Lc Tc Hcen eq_refl) as T. cbv zeta in T. destruct T as (_ & _ & _ & _ & _ & Hg & _ & Ls & _).
  assert (X : forall offered cps ms st0 st1, encrypt_all pf B (replay_rng E) ms (kg_ek keys) (kg_pk keys) b rest = Ok (cps, st0) -> (3 * k <= length st0)%nat ->
    exists r cps' ms' st', dkg_duel pf B G gens b keys second A offered cps st0 st1 = Some (r, cps') /\ (length ms' <= k)%nat /\ encrypt_all pf B (replay_rng E) (ms ++ ms') (kg_ek keys) (kg_pk keys) b rest = Ok (cps', st')).
  { clear - W Hg Hdom_ok Hb HbM Hcomp Hcount Hcs Hdomain. induction W as [t q k r0|t q k m A1 A2 W1 IH1 W2 IH2|t q k m m' next W IH|t q k St next W IH]; intros offered cps ms st0 st1 Henc L; cbn [dkg_duel].
    - exists r0, cps, [], st0. split; [reflexivity|]. split; [cbn [length]; lia|]. rewrite app_nil_r. exact Henc.
    - destruct (geqb _ _); [eapply IH1|eapply IH2]; eassumption.
    - destruct st0 as [|x [|y [|z st0]]]; try (cbn [length] in L; lia).
      destruct (enc_forged n cs xs pf domain fuel b gens Hdom_ok Hb HbM Hcomp Hcount Hcs Hdomain (if second then m' else m) x y z) as (S0 & HS0). specialize (HS0 _ _ _ st0 Hg). rewrite HS0.
      destruct (IH (m :: m' :: offered) (cps ++ [forged gens (kg_pk keys) (kg_ek keys) dk S0]) (ms ++ [if second then m' else m]) st0 st1) as (r & cps' & ms' & st' & Y1 & Y2 & Y3).
      + rewrite (encrypt_all_app _ _ _ _ _ _ _ _ _ _ _ Henc). cbn [encrypt_all]. rewrite HS0. reflexivity.
      + cbn [length] in L. lia.
      + exists r, cps', ((if second then m' else m) :: ms'), st'. split; [exact Y1|]. split; [cbn [length]; lia|]. rewrite <- app_assoc in Y3. exact Y3.
    - destruct (service_by_parties pf G b gens keys offered _ _ st1) as [answer st2]. eapply IH; eassumption. }
  destruct (X [] [] [] rest st eq_refl ltac:(lia)) as (r & cps & ms & st' & Y). exists r, cps, ms, st'. exact Y.
Qed.
End DLink.
