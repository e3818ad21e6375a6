(* Indep.v -- C89: all ballots of the coalition submitted to the service of C80, and how many coins the answers do not tell what is in them *)
From Verif Require Import Base BaseFacts Algebra Utils UtilsFacts Setup Keygen Encryption Circuit CircuitFacts CircuitSat CommitmentFacts VecFacts KeySpec KeygenFacts
  EncryptFacts DecryptFacts Spec VerifyFacts Protocol ReencFacts DistFacts PropUtils PropEnc PropProto PropVerify Groth16 ArkGroth16 PolyFacts Groth16Spec ArkFacts Groth16Facts SchwartzZippel SoundCore SoundSpec
  SoundAlg SoundGame SoundLink SoundFacts SoundCount SoundHonest PropGroth16 PropSound PropSoundCases PropZK PrivacySpec PrivacyAlg PrivacyGame PrivacyLink PrivacyCount PrivacySpan PrivacyMany
  PrivacyDkgSpec PrivacyDkg SoundAdaptSpec SoundAdapt SoundDkgSpec SoundDkg NonmalCore NonmalAlg NonmalSpec NonmalGame NonmalRows NonmalLink NonmalCount PropNonmal NonmalDkg
  CcaSpec Cca CcaCount PropMalleable PropCca PropReencExact RccaSpec RccaTest RccaCount RccaDkgSpec RccaDkg PropRccaDkg RushSpec InsiderSpec Insider PropInsider LateSpec TallySpec PropTally BallotSpec Ballot BallotCount IndepSpec.

Section Ask.
Context {E : pairing}.
Notation K := (K_of E).
Notation F := (Fr E).
(* what the service has been told not to open *)
Definition flat (offs : list (F * F)) : list F := fold_left (fun l o => fst o :: snd o :: l) offs [].
Lemma flat_snoc offs m m' : flat (offs ++ [(m, m')]) = m :: m' :: flat offs.
Proof. unfold flat. rewrite fold_left_app. reflexivity. Qed.
Lemma flat_in x offs : In x (flat offs) -> exists o, In o offs /\ (x = fst o \/ x = snd o).
Proof.
  induction offs as [|[m m'] offs IH] using rev_ind; [intros []|]. rewrite flat_snoc. intros [<-|[<-|H]].
  - exists (m, m'). split; [apply in_or_app; right; left; reflexivity|left; reflexivity].
  - exists (m, m'). split; [apply in_or_app; right; left; reflexivity|right; reflexivity].
  - destruct (IH H) as (o & Ho & Hx). exists o. split; [apply in_or_app; left; exact Ho|exact Hx].
Qed.
Lemma abind_none {R R'} (f : R -> adversary E R') pf B (G : rng_impl E) gens b keys second (A : adversary E R) : forall offered cps coins st,
  dkg_duel pf B G gens b keys second A offered cps coins st = None -> dkg_duel pf B G gens b keys second (abind A f) offered cps coins st = None.
Proof.
  induction A as [r0|q A1 IH1 A2 IH2|m m' next IH|St next IH]; intros offered cps coins st Hd; cbn [dkg_duel abind] in *.
  - discriminate Hd.
  - destruct (geqb _ _); [eapply IH1|eapply IH2]; eassumption.
  - destruct (encrypt_with_proof _ _ _ _ _ _ _ _) as [[[[ct r1] p] coins']|err|]; [eapply IH; eassumption|reflexivity|reflexivity].
  - cbv zeta in *. destruct (service_by_parties _ _ _ _ _ _ _ _ _) as [answer st']. eapply IH; eassumption.
Qed.
(* the attack of C80 that simulates the one of C85 makes the same offers *)
Lemma trans_offers {R R'} (P : list (F * F) -> R -> Prop) (n nb mm : nat) (H : rng_impl E) l1 l2 (f : (nat * list (list F) * R) -> adversary E R') pf B (G : rng_impl E) gens b keys second offs (A : insider E R) :
  ends P offs A -> forall j rows sh cps coins st y cps',
  dkg_duel pf B G gens b keys second (trans n nb mm H l1 l2 (fun j rows x => (j, rows, x)) j rows sh A) (flat offs) cps coins st = Some (y, cps') ->
  exists offs' coins' st', P offs' (snd y) /\
    dkg_duel pf B G gens b keys second (abind (trans n nb mm H l1 l2 (fun j rows x => (j, rows, x)) j rows sh A) f) (flat offs) cps coins st = dkg_duel pf B G gens b keys second (f y) (flat offs') cps' coins' st'.
Proof.
  induction 1 as [offs r0 HP|offs q A1 A2 _ IH1 _ IH2|offs m m' next _ IH|offs St dest next _ IH]; intros j rows sh cps coins st y cps' Hd; cbn [dkg_duel trans abind] in *.
  - assert ((j, rows, r0) = y /\ cps = cps') as [<- ->] by (split; congruence). exists offs, coins, st. split; [exact HP|reflexivity].
  - destruct (geqb _ _); [eapply IH1|eapply IH2]; eassumption.
  - destruct (encrypt_with_proof _ _ _ _ _ _ _ _) as [[[[ct r1] p] coins']|err|]; try discriminate. rewrite <- flat_snoc in *. eapply IH; eassumption.
  - cbv zeta in *. destruct (service_by_parties _ _ _ _ _ _ _ _ _) as [answer st']. destruct answer; eapply IH; eassumption.
Qed.
(* submit ballots, remember the answers *)
Fixpoint ship_all {R} (Ss : list (strategy E)) (acc : list reply) (f : list reply -> adversary E R) : adversary E R :=
  match Ss with [] => f acc | S0 :: rest => Ship S0 (fun answer => ship_all rest (acc ++ [answer]) f) end.
Lemma ship_all_limited {R} (f : list reply -> adversary E R) t k : (forall acc q, limited t q k (f acc)) -> forall Ss acc q, (length Ss <= q)%nat -> limited t q k (ship_all Ss acc f).
Proof. intros Hf Ss. induction Ss as [|S0 Ss IH]; intros acc q Hq; cbn [ship_all length] in *; [apply Hf|]. destruct q as [|q]; [lia|]. constructor. intros r. apply IH. lia. Qed.
Lemma ship_all_duel {R} (f : list reply -> adversary E R) pf B (G : rng_impl E) gens b keys second offered cps coins : let T1 := dkg_g1 gens (public_run keys cps) in let T2 := dkg_g2 gens (public_run keys cps) in
  forall Ss acc st, exists answers st', dkg_duel pf B G gens b keys second (ship_all Ss acc f) offered cps coins st = dkg_duel pf B G gens b keys second (f (acc ++ answers)) offered cps coins st' /\
    Forall2 (fun S0 answer => exists st0, answer = fst (service_by_parties pf G b gens keys offered (ciphertext_from S0 T1) (proof_from S0 T1 T2) st0)) Ss answers.
Proof.
  intros T1 T2 Ss. induction Ss as [|S0 Ss IH]; intros acc st; cbn [ship_all dkg_duel].
  - exists [], st. rewrite app_nil_r. split; [reflexivity|constructor].
  - fold T1 T2. cbv zeta. destruct (service_by_parties _ _ _ _ _ _ _ _ _) as [answer st1] eqn:Es. destruct (IH (acc ++ [answer]) st1) as (answers & st' & Hx & HF). exists (answer :: answers), st'. split.
    + rewrite Hx, <- app_assoc. reflexivity.
    + constructor; [exists st; rewrite Es; reflexivity|exact HF].
Qed.
(* the answer to an accepted ballot *)
Lemma answer_exact pf (G : rng_impl E) b gens g_i delta gamma (keys : dkg_keys E) protected (ct : ciphertext E) (q : proof E) ds r st :
  supported b -> 2 ^ b <= modulus K -> get_gs_for_encryption (gpk_vk (pk_pk (kg_pk keys))) = Ok g_i -> from_dkg b gens g_i delta gamma (kg_parties keys) (kg_ek keys) ->
  Forall (fun x => x <> gzero) g_i ->
  verify_commitment_and_proof ct q (prepare_verifying_key (gpk_vk (pk_pk (kg_pk keys)))) (prepare_ek (kg_ek keys)) (prepare_gens gens) = Ok tt ->
  digits_ok b ds -> encrypts (kg_ek keys) g_i ds (ct_vec ct) r -> fst (service_by_parties pf G b gens keys protected ct q st) = reply_for pf b protected ds.
Proof.
  intros Hb HM Hg Hd Hn Hv Hdig He. assert (Hn' : Forall (fun x => x <> gzero) (firstn (length ds) g_i)) by (rewrite <- (firstn_skipn (length ds) g_i) in Hn; apply Forall_app in Hn; apply Hn).
  destruct (together_opens pf G b gens g_i delta gamma (kg_parties keys) (kg_ek keys) ct ds r st Hb HM Hd Hn' Hdig He) as (skd & ekd & shares & g_r & cs & st1 & st2 & Z1 & Z2 & _ & _ & Z3 & Z4).
  unfold service_by_parties, decrypt_together. rewrite Hv, Hg, Z1. cbn [bind]. rewrite Z2. cbn [bind]. rewrite Z3. cbn [bind]. rewrite Z4. reflexivity.
Qed.
Lemma reply_inv pf b (protected : list F) ds : match reply_for pf b protected ds with Refused => False | Opened ds' => ds' = ds | Protected => exists m, In m protected /\ decompose pf m b = Ok ds end.
Proof.
  unfold reply_for. destruct (is_protected pf b protected ds) eqn:HP; [|reflexivity]. unfold is_protected in HP. apply existsb_exists in HP. destruct HP as (m & Hm & HP). exists m. split; [exact Hm|].
  destruct (decompose pf m b) as [ds'|err|]; [|discriminate HP|discriminate HP]. destruct (list_eq_dec Z.eq_dec ds' ds) as [->|]; [reflexivity|discriminate HP].
Qed.
End Ask.

Section ICount.
Context {E : pairing}.
Notation K := (K_of E).
Notation F := (Fr E).
Notation e i env := (nth i env fzero).
Variables (n : nat) (cs : csys K) (xs : list F) (pf : profile) (domain : nat -> option (list F)) (fuel : nat) (b : Z) (gens : encryption_gens E).
Notation B := (ark_backend pf domain fuel).
Hypothesis HG : eg_G gens <> gzero.
Hypothesis HH : eg_H gens <> gzero.
Hypothesis Hdom_ok : domain_ok domain.
Hypothesis Hb : supported b.
Hypothesis HbM : 2 ^ b <= modulus K.
Hypothesis Hcomp : chunk_compatible K b.
Hypothesis Hcount : chunks_count K b = Ok (Z.of_nat n).
Hypothesis Hn0 : (0 < n)%nat.
Hypothesis Hcs : generate_constraints (BitsizeCheckCircuit b (Z.of_nat n) None true) (@cs_new K Circuit.Setup) = Ok cs.
Hypothesis Hdomain : domain (length (cs_cons cs) + cs_num_inst cs)%nat = Some xs.
Variables (before after : list (list F)).
Hypothesis Hbef : Forall (full n) before.
Hypothesis Haft : Forall (full n) after.
Let nb := length before.
Let mm := (length before + 1 + length after)%nat.
Let N := length xs.
Notation T1 keys cps := (dkg_g1 gens (public_run keys cps)).
Notation T2 keys cps := (dkg_g2 gens (public_run keys cps)).
Notation leaf := (nat * list (list F) * poll E)%type.
Definition poll_ballots (l1 l2 : nat -> nat) (y : leaf) : list (strategy E) := let '(j, rows, p) := y in map (pull_strategy (I1 l1 j rows) (I2 l2 j)) (po_ballots p).
Definition examine (v : nat) (l1 l2 : nat -> nat) (y : leaf) : adversary E (option (list (F * F) * list (strategy E) * list reply)) :=
  if Nat.leb (length (po_ballots (snd y))) v then ship_all (poll_ballots l1 l2 y) [] (fun answers => Stop (Some (po_offers (snd y), poll_ballots l1 l2 y, answers))) else Stop None.
Notation poll_at G H second A st sh d := (polling pf B G H gens b before after second A st sh d).
Notation cost' second t q k := (Z.of_nat N + (D0 n xs + (cost n xs second t q k + NM n xs 0 (Z.of_nat k)))).

(* what the answer tells about the ballot *)
Definition tells (keys : dkg_keys E) (offers : list (F * F)) (cps : list (ciphertext E * proof E)) (S0 : strategy E) (answer : reply) (ballot : ciphertext E * proof E) : Prop :=
  match answer with
  | Refused => ~ accepted gens keys ballot
  | Opened ds => accepted gens keys ballot /\ contains b keys ballot ds
  | Protected => accepted gens keys ballot /\ contains_offered pf b keys offers ballot /\ (contains b keys ballot (dkg_extracted_chunks n nb mm S0) \/ copied keys cps ballot)
  end.
Inductive tell_all (keys : dkg_keys E) (offers : list (F * F)) (cps : list (ciphertext E * proof E)) : list (strategy E) -> list reply -> list (ciphertext E * proof E) -> Prop :=
| tell_nil : tell_all keys offers cps [] [] []
| tell_cons S0 answer ballot Ss answers ballots : tells keys offers cps S0 answer ballot -> tell_all keys offers cps Ss answers ballots -> tell_all keys offers cps (S0 :: Ss) (answer :: answers) (ballot :: ballots).
Definition told (G H : rng_impl E) (second : bool) (A : insider E (poll E)) (A2 : adversary E (option (list (F * F) * list (strategy E) * list reply))) (st : rng_st G) (sh : rng_st H) (d : list F) : Prop :=
  match poll_at G H second A st sh d with
  | None => experiment_rcca_dkg pf B G gens b before after second A2 st d = None
  | Some (keys, p, cps, ballots) => exists rest Ss answers, dkg_setup B gens b before after d = Ok (keys, rest) /\
      experiment_rcca_dkg pf B G gens b before after second A2 st d = Some (Some (po_offers p, Ss, answers)) /\ tell_all keys (po_offers p) cps Ss answers ballots
  end.
Lemma tell_alike keys offers cps cps' Ss answers : forall ballots ballots', tell_all keys offers cps Ss answers ballots -> tell_all keys offers cps' Ss answers ballots' -> Forall2 (alike pf gens b keys offers cps cps') ballots ballots'.
Proof.
  intros ballots ballots' H. revert ballots'. induction H as [|S0 answer ballot Ss answers ballots T HT IH]; intros ballots' H'; inversion H'; subst; [constructor|]. constructor; [|apply IH; assumption].
  match goal with X : tells keys offers cps' _ _ _ |- _ => rename X into T' end. unfold alike. unfold tells in T, T'. destruct answer.
  - split; [split; intros X; exfalso; auto|]. intros X. destruct (T X).
  - destruct T as (V & O & X), T' as (V' & O' & X'). split; [split; intros _; assumption|]. intros _. destruct X as [X|X]; [|right; tauto]. destruct X' as [X'|X']; [|right; tauto].
    left. eexists. split; eassumption.
  - destruct T as (V & X), T' as (V' & X'). split; [split; intros _; assumption|]. intros _. left. exists chunks. split; assumption.
Qed.

Theorem tell_bound (A : insider E (poll E)) (G H : rng_impl E) (st : rng_st G) (sh : rng_st H) t q k v : ilimited t q k A -> ends (honest_poll v) [] A ->
  exists A2, limited t (q + v) k A2 /\ forall second,
  rare (2 * n + 6 + 3 * k) ((Z.of_nat N + D0 n xs) + ((Z.of_nat N + D0 n xs + Z.of_nat q * cost' second t q k) + Z.of_nat v * cost' second t q k)) (fun d => ~ told G H second A A2 st sh d).
Proof.
  intros W HE. destruct (simulation n cs xs pf domain fuel b gens HG HH Hdom_ok Hb HbM Hcomp Hcount Hn0 Hcs Hdomain before after Hbef Haft) as (l1 & l2 & HS).
  destruct (HS _ _ (fun j rows x => (j, rows, x)) A G H st sh t q k W) as [W1 HR]. clear HS. cbv zeta in *. fold mm in W1, HR. fold nb in W1, HR.
  set (A1 := trans n nb mm H l1 l2 (fun j rows x => (j, rows, x)) 0 [] sh A) in *.
  exists (abind A1 (examine v l1 l2)). split.
  { rewrite <- (Nat.add_0_r t) at 1. apply abind_limited; [exact W1|]. intros y t0 q0 k0 _ Hq. unfold examine. destruct (Nat.leb_spec (length (po_ballots (snd y))) v) as [X|X]; [|constructor].
    apply ship_all_limited; [intros; constructor|]. destruct y as [[j rows] p]. cbn [poll_ballots snd] in *. rewrite map_length. lia. }
  intros second. set (Bi := fun i => abind A1 (fun y => Stop (nth i (poll_ballots l1 l2 y) nothing))).
  assert (WB : forall i, limited t q k (Bi i)) by (intros i; unfold Bi; rewrite <- (Nat.add_0_r t), <- (Nat.add_0_r q) at 1; apply abind_limited; [exact W1|]; intros; constructor).
  pose proof (rare_upto (2 * n + 6 + 3 * k) _ (fun i d => odd_dkg_duel n pf domain fuel b gens before after G st (Bi i) second d) v
    (fun i => rcca_dkg_forgery n cs xs pf domain fuel b gens HG HH Hdom_ok Hb HbM Hcomp Hcount Hn0 Hcs Hdomain before after Hbef Haft (Bi i) G st t q k second (WB i))) as RO.
  refine (rare_stable _ _ _ _ (rare_or _ _ _ _ _ (weak_rare n cs xs pf domain fuel b gens HG HH Hdom_ok Hb HbM Hcount Hn0 Hcs Hdomain before after Hbef Haft (3 * k)) (rare_or _ _ _ _ _ (HR second) RO)) _). clear RO HR.
  intros d Ld Hne Hno. cbv beta in Hno.
  destruct (feq_dec (vanishing_at xs (e 4 d)) fzero) as [Hv|Hv]; [apply Hno; left; left; intros Z; exact (Z Hv)|].
  apply Hno. right. left. intros Hag. apply Hne. unfold told, polling. unfold agrees in Hag.
  destruct (insider_run pf B G H gens b before after second A st sh d) as [[keys [[p cps] seen]]|] eqn:Hrun.
  2:{ unfold experiment_rcca_dkg in Hag |- *. destruct (dkg_setup B gens b before after d) as [[keys rest]|err|]; [|reflexivity|reflexivity].
      destruct (dkg_duel pf B G gens b keys second A1 [] [] rest st) as [x|] eqn:Hx; [cbn [option_map] in Hag; discriminate Hag|]. rewrite (abind_none _ _ _ _ _ _ _ _ _ _ _ _ _ Hx). reflexivity. }
  destruct Hag as (rest & rows & Hset & Z2 & Z3 & Z4 & Z5).
  set (TT1 := dkg_g1 gens (public_run keys cps)) in *. set (TT2 := dkg_g2 gens (public_run keys cps)) in *. set (y := (length cps, rows, p) : leaf) in *.
  destruct (trans_offers (honest_poll v) n nb mm H l1 l2 (examine v l1 l2) pf B G gens b keys second [] A HE 0%nat [] sh [] rest st y cps Z2) as (offs & c' & s' & (Fo & Fv) & X). cbn [snd y] in Fo, Fv. fold A1 in X. change (flat []) with (@nil F) in X.
  destruct (setup_gs pf domain fuel b gens before after d keys rest Hset) as (g_i & Hgi). destruct (setup_parties B gens b before after d keys rest g_i Hset Hgi) as [Hfd Lps].
  destruct (Forall_dec (fun x : G1 E => x <> gzero)) with (l := g_i) as [Hnz|Hnz].
  { intros x. destruct (geq_dec x gzero) as [Z|Z]; [right|left; exact Z]. intros Y. exact (Y Z). }
  2:{ exfalso. apply Hno. left. right. exists keys, rest, g_i. split; [exact Hset|]. split; [exact Hgi|exact Hnz]. }
  pose proof Hrun as Hrun'. unfold insider_run in Hrun'. rewrite Hset in Hrun'. destruct (nth_error (kg_parties keys) (length before)) as [[honest part]|]; [|discriminate Hrun'].
  destruct (insider_duel pf B G H gens b keys honest second A [] [] [] rest st sh) as [[[p0 cps0] seen0]|] eqn:Hduel; [|discriminate Hrun']. cbn [option_map] in Hrun'. assert (cps0 = cps) by congruence. subst cps0. clear Hrun'.
  pose proof (PropTally.duel_table _ _ _ _ _ _ _ _ _ _ _ Hb Hgi _ _ _ _ _ _ _ _ _ Hduel (Forall_nil _)) as Htab. clear Hduel p0 seen0.
  assert (EC : cast (po_ballots p) (TT1 ++ seen) TT2 = map (fun S' => made S' TT1 TT2) (poll_ballots l1 l2 y)).
  { unfold cast, poll_ballots, y, made. rewrite map_map. apply map_ext. intros S0. rewrite pull_ciphertext, pull_proof. rewrite I1_combos by exact Z4. rewrite I2_combos by exact Z5. rewrite Z3. reflexivity. }
  rewrite EC. set (Ss := poll_ballots l1 l2 y) in *.
  set (Q := fun S' => accepted gens keys (made S' TT1 TT2) -> contains b keys (made S' TT1 TT2) (dkg_extracted_chunks n nb mm S') \/ copied keys cps (made S' TT1 TT2)).
  exfalso. apply (Forall_nn Q Ss).
  - intros S' HS' Hn. apply Hn. intros HV. exfalso. apply Hno. right. right. pose proof HS' as HS0. apply (In_nth _ _ nothing) in HS'. destruct HS' as (i & Hi & HS'). exists i. split; [unfold Ss, poll_ballots, y in Hi; rewrite map_length in Hi; lia|].
    exists keys, rest, S', cps. split; [exact Hset|]. split.
    { destruct (abind_duel (fun y => Stop (nth i (poll_ballots l1 l2 y) nothing)) pf B G gens b keys second A1 [] [] rest st y cps Z2) as (o' & c'' & s'' & X'). unfold Bi. rewrite X'. cbn [dkg_duel]. fold Ss. rewrite HS'. reflexivity. }
    cbv zeta. fold TT1 TT2. split; [exact HV|]. split.
    + intros (Hdig & g' & Hg' & He). apply Hn. intros _. left. split; [exact Hdig|]. exists g', (dkg_extracted_r n nb mm S'). split; [exact Hg'|exact He].
    + intros (ct0 & q0 & Hin0 & Hct & _). apply Hn. intros _. right. exists ct0, q0, (dkg_extracted_r n nb mm S'). split; [exact Hin0|exact Hct].
  - intros HF. apply Hne. unfold told, polling. rewrite Hrun. fold TT1 TT2. rewrite EC. fold y Ss.
    assert (Hex : exists answers, experiment_rcca_dkg pf B G gens b before after second (abind A1 (examine v l1 l2)) st d = Some (Some (po_offers p, Ss, answers)) /\
      Forall2 (fun S0 answer => exists st0, answer = fst (service_by_parties pf G b gens keys (flat offs) (ciphertext_from S0 TT1) (proof_from S0 TT1 TT2) st0)) Ss answers).
    { unfold experiment_rcca_dkg. rewrite Hset. rewrite X. unfold examine. cbn [snd y]. rewrite (proj2 (Nat.leb_le _ _) Fv). fold y Ss.
      destruct (ship_all_duel (fun answers => Stop (Some (po_offers p, Ss, answers))) pf B G gens b keys second (flat offs) cps c' Ss [] s') as (answers & s'' & Y & HA). exists answers. split; [|exact HA]. rewrite Y. reflexivity. }
    destruct Hex as (answers & Hex & HA). exists rest, Ss, answers. split; [exact Hset|]. split; [exact Hex|]. rewrite Fo. clear Hex X EC Hno Hne. clearbody Ss.
    induction HA as [|S0 answer Ss answers (st0 & Ha) _ IH]; [constructor|]. apply Forall_cons_iff in HF. destruct HF as [HQ HF]. cbn [map]. constructor; [|apply IH; exact HF]. clear IH HF.
    destruct (verify_commitment_and_proof (ciphertext_from S0 TT1) (proof_from S0 TT1 TT2) (prepare_verifying_key (gpk_vk (pk_pk (kg_pk keys)))) (prepare_ek (kg_ek keys)) (prepare_gens gens)) as [[]|err|] eqn:HV.
    2,3: assert (answer = Refused) as -> by (rewrite Ha; unfold service_by_parties; rewrite HV; reflexivity); intros Z; unfold accepted, made in Z; cbn [fst snd] in Z; rewrite HV in Z; discriminate Z.
    assert (HA : accepted gens keys (made S0 TT1 TT2)) by exact HV.
    assert (HC : exists ds r, digits_ok b ds /\ encrypts (kg_ek keys) g_i ds (ct_vec (ciphertext_from S0 TT1)) r).
    { destruct (HQ HA) as [(Hdig & g' & r & Hg' & He)|(ct0 & q0 & rho & Hin & Hct)].
      - assert (g' = g_i) by congruence. subst g'. exists (dkg_extracted_chunks n nb mm S0), r. split; [exact Hdig|exact He].
      - rewrite Forall_forall in Htab. destruct (Htab _ Hin) as (ds & r & Hdig & He). exists ds, (fadd rho r). split; [exact Hdig|]. unfold made in Hct. cbn [fst] in Hct. rewrite Hct. apply C73_copies_encrypt_the_copied_message. exact He. }
    destruct HC as (ds & r & Hdig & He). rewrite (answer_exact pf G b gens g_i _ _ keys (flat offs) _ _ ds r st0 Hb HbM Hgi Hfd Hnz HV Hdig He) in Ha. pose proof (reply_inv pf b (flat offs) ds) as RI. rewrite <- Ha in RI. clear Ha.
    assert (HCo : contains b keys (made S0 TT1 TT2) ds) by (split; [exact Hdig|]; exists g_i, r; split; [exact Hgi|exact He]).
    unfold tells. destruct answer as [| |ds']; [destruct RI| |subst ds'; split; assumption]. destruct RI as (m & Hm & Hdm). split; [exact HA|]. split; [|exact (HQ HA)].
    apply flat_in in Hm. destruct Hm as (o & Ho & Hm). exists o, ds. split; [exact Ho|]. split; [|exact HCo]. destruct Hm as [<-|<-]; [left|right]; exact Hdm.
Qed.

(* C89: both worlds *)
Theorem independent_bound (A : insider E (poll E)) (G H : rng_impl E) (st : rng_st G) (sh : rng_st H) t q k v : ilimited t q k A -> ends (honest_poll v) [] A ->
  rare (2 * n + 6 + 3 * k)
    (((Z.of_nat N + D0 n xs) + ((Z.of_nat N + D0 n xs + Z.of_nat q * cost' false t q k) + Z.of_nat v * cost' false t q k)) +
     (((Z.of_nat N + D0 n xs) + ((Z.of_nat N + D0 n xs + Z.of_nat q * cost' true t q k) + Z.of_nat v * cost' true t q k)) +
      (Z.of_nat N + (D0 n xs + (cost n xs false t (q + v) k + cost n xs true t (q + v) k)))))
    (fun d => ~ polls_alike pf gens b (poll_at G H false A st sh d) (poll_at G H true A st sh d)).
Proof.
  intros W HE. destruct (tell_bound A G H st sh t q k v W HE) as (A2 & W2 & HB).
  refine (rare_stable _ _ _ _ (rare_or _ _ _ _ _ (HB false) (rare_or _ _ _ _ _ (HB true) (rcca_dkg_bound n cs xs pf domain fuel b gens HG HH Hdom_ok Hb HbM Hcomp Hcount Hn0 Hcs Hdomain before after Hbef Haft A2 G st t (q + v) k W2))) _).
  intros d Ld Hna Hno. apply Hno. left. intros Y1. apply Hno. right. left. intros Y2. apply Hno. right. right. intros Y3. apply Hna. unfold told in Y1, Y2.
  destruct (polling pf B G H gens b before after false A st sh d) as [[[[keys p] cps] ballots]|]; destruct (polling pf B G H gens b before after true A st sh d) as [[[[keys' p'] cps'] ballots']|]; unfold polls_alike.
  - destruct Y1 as (rest & Ss & answers & S1 & X1 & TA1), Y2 as (rest' & Ss' & answers' & S2 & X2 & TA2). rewrite X1, X2 in Y3.
    assert (keys' = keys) by congruence. subst keys'. assert (po_offers p' = po_offers p /\ Ss' = Ss /\ answers' = answers) as (EO & -> & ->) by (repeat split; congruence). rewrite EO in TA2.
    split; [reflexivity|]. split; [exact EO|]. exact (tell_alike _ _ _ _ _ _ _ _ TA1 TA2).
  - destruct Y1 as (rest & Ss & answers & _ & X1 & _). congruence.
  - destruct Y2 as (rest & Ss & answers & _ & X2 & _). congruence.
  - exact I.
Qed.
End ICount.
