(* BallotCount.v -- C88: the election of BallotSpec as an attack of C80, and how many coins it is not *)
From Verif Require Import Base BaseFacts Algebra Utils UtilsFacts Setup Keygen Encryption Circuit CircuitFacts CircuitSat CommitmentFacts VecFacts KeySpec KeygenFacts
  EncryptFacts DecryptFacts Spec VerifyFacts Protocol ReencFacts DistFacts PropUtils PropEnc PropProto PropVerify Groth16 ArkGroth16 PolyFacts Groth16Spec ArkFacts Groth16Facts SchwartzZippel SoundCore SoundSpec
  SoundAlg SoundGame SoundLink SoundFacts SoundCount SoundHonest PropGroth16 PropSound PropSoundCases PropZK PrivacySpec PrivacyAlg PrivacyGame PrivacyLink PrivacyCount PrivacySpan PrivacyMany
  PrivacyDkgSpec PrivacyDkg SoundAdaptSpec SoundAdapt SoundDkgSpec SoundDkg NonmalCore NonmalAlg NonmalSpec NonmalGame NonmalRows NonmalLink NonmalCount PropNonmal NonmalDkg
  CcaSpec Cca CcaCount PropMalleable PropCca PropReencExact RccaSpec RccaTest RccaCount RccaDkgSpec RccaDkg PropRccaDkg RushSpec InsiderSpec Insider PropInsider LateSpec TallySpec PropTally BallotSpec Ballot.

Section Annot.
Context {E : pairing}.
Notation K := (K_of E).
Notation F := (Fr E).
(* the attack, which also reports the pairs of messages it has offered *)
Fixpoint annot {R} (offs : list (F * F)) (A : insider E R) : insider E (list (F * F) * R) :=
  match A with
  | IStop r => IStop (offs, r)
  | ITry q A1 A2 => ITry q (annot offs A1) (annot offs A2)
  | IOffer m m' next => IOffer m m' (annot (offs ++ [(m, m')]) next)
  | IShip St dest next => IShip St dest (fun r => annot offs (next r))
  end.
Lemma annot_limited {R} t q k (A : insider E R) : ilimited t q k A -> forall offs, ilimited t q k (annot offs A).
Proof. induction 1; intros offs; cbn [annot]; constructor; auto. Qed.
Definition side (second : bool) (o : F * F) : F := if second then snd o else fst o.
Lemma annot_duel {R} (P : list (F * F) -> R -> Prop) pf B (G H : rng_impl E) gens b keys honest rest second offs (A : insider E R) : ends P offs A -> forall offered cps seen coins st sh,
  encrypt_all pf B (replay_rng E) (map (side second) offs) (kg_ek keys) (kg_pk keys) b rest = Ok (cps, coins) ->
  forall r cps' seen', insider_duel pf B G H gens b keys honest second A offered cps seen coins st sh = Some (r, cps', seen') ->
  exists offs' coins', insider_duel pf B G H gens b keys honest second (annot offs A) offered cps seen coins st sh = Some ((offs', r), cps', seen') /\ P offs' r /\
    encrypt_all pf B (replay_rng E) (map (side second) offs') (kg_ek keys) (kg_pk keys) b rest = Ok (cps', coins').
Proof.
  induction 1 as [offs r0 HP|offs q A1 A2 _ IH1 _ IH2|offs m m' next _ IH|offs St dest next _ IH]; intros offered cps seen coins st sh Henc r cps' seen' Hd; cbn [insider_duel annot] in *.
  - assert (r0 = r /\ cps = cps' /\ seen = seen') as (-> & -> & ->) by (repeat split; congruence). exists offs, coins. split; [reflexivity|]. split; assumption.
  - destruct (geqb _ _); [eapply IH1|eapply IH2]; eassumption.
  - destruct (encrypt_with_proof _ _ _ _ _ _ _ _) as [[[[ct r1] p] coins']|err|] eqn:He; try discriminate. eapply IH; [|exact Hd].
    rewrite map_app. rewrite (encrypt_all_app _ _ _ _ _ _ _ _ _ _ _ Henc). cbn [map encrypt_all]. unfold side at 1. cbn [fst snd]. rewrite He. reflexivity.
  - cbv zeta in *. destruct (service_by_parties _ _ _ _ _ _ _ _ _) as [answer st']. destruct answer; try (eapply IH; eassumption).
    destruct (re_encrypt_share _ _ _ _ _ _ _) as [[[w g_r] sh']|err|]; [eapply IH; eassumption|discriminate|discriminate].
Qed.

(* one attack, then another *)
Fixpoint abind {R R'} (A : adversary E R) (f : R -> adversary E R') : adversary E R' :=
  match A with
  | Stop r => f r
  | Try q A1 A2 => Try q (abind A1 f) (abind A2 f)
  | Offer m m' next => Offer m m' (abind next f)
  | Ship St next => Ship St (fun r => abind (next r) f)
  end.
Lemma abind_limited {R R'} (A : adversary E R) (f : R -> adversary E R') t' q' t q k : limited t q k A -> (forall x t0 q0 k0, (t' <= t0)%nat -> (q' <= q0)%nat -> limited t0 q0 k0 (f x)) -> limited (t + t') (q + q') k (abind A f).
Proof. intros W Hf. induction W; cbn [abind Nat.add]; try (constructor; auto). apply Hf; lia. Qed.
Lemma abind_duel {R R'} (f : R -> adversary E R') pf B (G : rng_impl E) gens b keys second (A : adversary E R) : forall offered cps coins st r cps',
  dkg_duel pf B G gens b keys second A offered cps coins st = Some (r, cps') ->
  exists offered' coins' st', dkg_duel pf B G gens b keys second (abind A f) offered cps coins st = dkg_duel pf B G gens b keys second (f r) offered' cps' coins' st'.
Proof.
  induction A as [r0|q A1 IH1 A2 IH2|m m' next IH|St next IH]; intros offered cps coins st r cps' Hd; cbn [dkg_duel abind] in *.
  - assert (r0 = r /\ cps = cps') as [-> ->] by (split; congruence). exists offered, coins, st. reflexivity.
  - destruct (geqb _ _); [eapply IH1|eapply IH2]; eassumption.
  - destruct (encrypt_with_proof _ _ _ _ _ _ _ _) as [[[[ct r1] p] coins']|err|]; try discriminate. eapply IH; eassumption.
  - cbv zeta in *. destruct (service_by_parties _ _ _ _ _ _ _ _ _) as [answer st']. eapply IH; eassumption.
Qed.
(* tests of combinations of what is on the table *)
Fixpoint ask {X} (g1 g2 : list (list F)) (P : plan E X) : adversary E (option X) :=
  match P with
  | Settle x => Stop (Some x)
  | Look q P1 P2 => Try (pull_back q g1 g2) (ask g1 g2 P1) (ask g1 g2 P2)
  end.
Lemma ask_limited {X} g1 g2 (P : plan E X) : forall t q k, (looks P <= t)%nat -> limited t q k (ask g1 g2 P).
Proof.
  induction P as [x|q P1 IH1 P2 IH2]; intros t q0 k Hl; cbn [ask looks] in *; [constructor|]. destruct t as [|t]; [lia|]. constructor; [apply IH1|apply IH2]; lia.
Qed.
Lemma ask_duel {X} g1 g2 (P : plan E X) pf B (G : rng_impl E) gens b keys second offered cps coins st :
  dkg_duel pf B G gens b keys second (ask g1 g2 P) offered cps coins st = Some (Some (settle P (combos g1 (dkg_g1 gens (public_run keys cps))) (combos g2 (dkg_g2 gens (public_run keys cps)))), cps).
Proof. induction P as [x|q P1 IH1 P2 IH2]; cbn [ask dkg_duel settle]; [reflexivity|]. rewrite pp_pull_back. destruct (geqb _ _); assumption. Qed.

(* what is accepted, found out by submitting it *)
Fixpoint vet {R} (Ss kept : list (strategy E)) (f : list (strategy E) -> adversary E R) : adversary E R :=
  match Ss with
  | [] => f kept
  | S0 :: rest => Ship S0 (fun answer => match answer with Refused => vet rest kept f | _ => vet rest (kept ++ [S0]) f end)
  end.
Lemma vet_limited {R} (f : list (strategy E) -> adversary E R) t k : (forall kept q, limited t q k (f kept)) -> forall Ss kept q, (length Ss <= q)%nat -> limited t q k (vet Ss kept f).
Proof.
  intros Hf Ss. induction Ss as [|S0 Ss IH]; intros kept q Hq; cbn [vet length] in *; [apply Hf|]. destruct q as [|q]; [lia|]. constructor. intros r. destruct r; apply IH; lia.
Qed.
Definition made (S0 : strategy E) (T1 : list (G1 E)) (T2 : list (G2 E)) : ciphertext E * proof E := (ciphertext_from S0 T1, proof_from S0 T1 T2).
Lemma vet_duel {R} (f : list (strategy E) -> adversary E R) pf B (G : rng_impl E) gens b keys second offered cps coins : let T1 := dkg_g1 gens (public_run keys cps) in let T2 := dkg_g2 gens (public_run keys cps) in
  forall Ss, Forall (fun S0 => valid gens keys (made S0 T1 T2) = true -> forall st, fst (service_by_parties pf G b gens keys offered (ciphertext_from S0 T1) (proof_from S0 T1 T2) st) <> Refused) Ss ->
  forall kept st, exists st', dkg_duel pf B G gens b keys second (vet Ss kept f) offered cps coins st = dkg_duel pf B G gens b keys second (f (kept ++ filter (fun S0 => valid gens keys (made S0 T1 T2)) Ss)) offered cps coins st'.
Proof.
  intros T1 T2 Ss HS. induction HS as [|S0 Ss H _ IH]; intros kept st; [exists st; cbn [vet filter]; rewrite app_nil_r; reflexivity|]. cbn [vet dkg_duel filter]. fold T1 T2. cbv zeta.
  destruct (valid gens keys (made S0 T1 T2)) eqn:EV.
  - specialize (H eq_refl st). destruct (service_by_parties _ _ _ _ _ _ _ _ _) as [answer st1]. cbn [fst] in H. replace (kept ++ S0 :: filter (fun S0 => valid gens keys (made S0 T1 T2)) Ss) with ((kept ++ [S0]) ++ filter (fun S0 => valid gens keys (made S0 T1 T2)) Ss) by (rewrite <- app_assoc; reflexivity).
    destruct answer; [destruct (H eq_refl)|apply IH|apply IH].
  - unfold valid, made in EV. cbn [fst snd] in EV. unfold service_by_parties. destruct (verify_commitment_and_proof _ _ _ _ _); [discriminate EV|apply IH|apply IH].
Qed.
Lemma valid_served pf (G : rng_impl E) b gens g_i delta gamma (keys : dkg_keys E) offered S0 T1 T2 ds r st : supported b -> 2 ^ b <= modulus K -> get_gs_for_encryption (gpk_vk (pk_pk (kg_pk keys))) = Ok g_i ->
  from_dkg b gens g_i delta gamma (kg_parties keys) (kg_ek keys) -> Forall (fun x => x <> gzero) g_i -> valid gens keys (made S0 T1 T2) = true -> digits_ok b ds -> encrypts (kg_ek keys) g_i ds (ct_vec (ciphertext_from S0 T1)) r ->
  fst (service_by_parties pf G b gens keys offered (ciphertext_from S0 T1) (proof_from S0 T1 T2) st) <> Refused.
Proof.
  intros Hb HM Hg Hd Hnz HV Hdig He X. unfold valid, made in HV. cbn [fst snd] in HV. destruct (verify_commitment_and_proof _ _ _ _ _) as [[]|err|] eqn:HW; [|discriminate HV|discriminate HV].
  destruct (C80_parties_open_what_they_may pf G b gens g_i delta gamma keys offered _ (proof_from S0 T1 T2) ds r st Hb HM Hg Hd ltac:(rewrite <- (firstn_skipn (length ds) g_i) in Hnz; apply Forall_app in Hnz; apply Hnz) HW Hdig He) as [Y1 Y2].
  rewrite X in Y1, Y2. assert (Z : Refused = Opened ds); [|discriminate Z]. apply Y2. intros m Hin Hm. specialize (Y1 (ex_intro _ m (conj Hin Hm))). discriminate Y1.
Qed.

(* the ciphertexts of the clients are encryptions of the chunks of their messages *)
Lemma table_votes pf B b (keys : dkg_keys E) g_i : supported b -> get_gs_for_encryption (gpk_vk (pk_pk (kg_pk keys))) = Ok g_i ->
  forall ms st cps st' votes, encrypt_all pf B (replay_rng E) ms (kg_ek keys) (kg_pk keys) b st = Ok (cps, st') -> mapM (fun m => decompose pf m b) ms = Ok votes ->
  exists hs, map fst hs = votes /\ Forall2 (enc keys g_i) hs cps.
Proof.
  intros Hb Hg ms. induction ms as [|m ms IH]; intros st cps st' votes Henc Hv; cbn [encrypt_all mapM] in *.
  - assert (cps = [] /\ votes = []) as [-> ->] by (split; congruence). exists []. split; [reflexivity|constructor].
  - apply bind_Ok_inv in Henc. destruct Henc as ([[[ct r] q] s1] & H1 & Henc). apply bind_Ok_inv in Henc. destruct Henc as ([cps2 s2] & H2 & Henc). assert (cps = (ct, q) :: cps2) by congruence. subst cps.
    apply bind_Ok_inv in Hv. destruct Hv as (ds & Hds & Hv). apply bind_Ok_inv in Hv. destruct Hv as (votes2 & Hv2 & Hv). assert (votes = ds :: votes2) by congruence. subst votes.
    destruct (IH _ _ _ _ H2 Hv2) as (hs & Hm & HF). exists ((ds, r) :: hs). split; [cbn [map fst]; rewrite Hm; reflexivity|]. constructor; [|exact HF].
    unfold enc. cbn [fst snd]. eapply with_proof_encrypts; eassumption.
Qed.
End Annot.

Section BCount.
Context {E : pairing}.
Notation K := (K_of E).
Notation F := (Fr E).
Notation e i env := (nth i env fzero).
Variables (n : nat) (cs : csys K) (xs : list F) (pf : profile) (domain : nat -> option (list F)) (fuel : nat) (b : Z) (gens : encryption_gens E).
Notation B := (ark_backend pf domain fuel).
Hypothesis HG : eg_G gens <> gzero.
Hypothesis HH : eg_H gens <> gzero.
Hypothesis Hdom_ok : domain_ok domain.
Hypothesis Hb : supported b.
Hypothesis HbM : 2 ^ b <= modulus K.
Hypothesis Hcomp : chunk_compatible K b.
Hypothesis Hcount : chunks_count K b = Ok (Z.of_nat n).
Hypothesis Hn0 : (0 < n)%nat.
Hypothesis Hcs : generate_constraints (BitsizeCheckCircuit b (Z.of_nat n) None true) (@cs_new K Circuit.Setup) = Ok cs.
Hypothesis Hdomain : domain (length (cs_cons cs) + cs_num_inst cs)%nat = Some xs.
Variables (before after : list (list F)).
Hypothesis Hbef : Forall (full n) before.
Hypothesis Haft : Forall (full n) after.
Let nb := length before.
Let mm := (length before + 1 + length after)%nat.
Let N := length xs.
Notation tau_ok := (tau_ok xs).
Notation T1 keys cps := (dkg_g1 gens (public_run keys cps)).
Notation T2 keys cps := (dkg_g2 gens (public_run keys cps)).
Notation ks := (PrivacyDkg.ks n before after).

Lemma setup_ks r d keys rest honest part g_i : length d = (2 * n + 6 + r)%nat -> tau_ok d -> dkg_setup B gens b before after d = Ok (keys, rest) ->
  nth_error (kg_parties keys) nb = Some (honest, part) -> get_gs_for_encryption (gpk_vk (pk_pk (kg_pk keys))) = Ok g_i ->
  length g_i = n /\ forall i, (i < n)%nat -> nth i (ek_X (kg_ek keys)) gzero = fadd (nth i (st_s honest) fzero) (nth i ks fzero) [*] ek_X_0 (kg_ek keys).
Proof.
  intros Ld Hv Hset Hnth Hgi. pose proof Hset as H. unfold RccaTest.tau_ok in Hv.
  destruct (setup_parties B gens b before after d keys rest g_i Hset Hgi) as [Hd _]. destruct (parties_secret b gens g_i _ _ (kg_parties keys) (kg_ek keys) n Hcount Hd) as (_ & Hls & HX).
  set (d0 := firstn (2 * n + 6) d). assert (L0 : length d0 = (2 * n + 6)%nat) by (unfold d0; rewrite firstn_length; lia).
  destruct (shiftd_split n cs xs b Hn0 before after d0 (repeat fzero (S n)) L0 ltac:(apply repeat_length)) as (al & be & ga & de & ta & sh & t0 & t & rho & v & E0 & _ & L1 & L2 & _ & _).
  set (rst := skipn (2 * n + 6) d) in *. assert (Ed : d = al :: be :: ga :: de :: ta :: sh ++ (t0 :: t) ++ rst).
  { rewrite <- (firstn_skipn (2 * n + 6) d). fold d0 rst. rewrite E0. cbn [app]. rewrite <- !app_assoc. cbn [app]. rewrite ?app_nil_r, <- ?app_assoc. reflexivity. }
  rewrite Ed in H. assert (Hv' : vanishing_at xs ta <> fzero) by (rewrite Ed in Hv; exact Hv). clear E0 Hv.
  unfold dkg_setup, circuit_new in H. rewrite Hcount in H. cbn [bind] in H.
  apply bind_Ok_inv in H. destruct H as ([pk0 st1] & Hs & H).
  destruct (srs_local n cs xs pf domain fuel b gens Hb HbM Hn0 Hcs Hdomain al be ga de ta Hv') as [(pk & Lg & Hsrs)|No]; [|destruct (No _ _ Hs)].
  rewrite Hsrs in Hs. assert (Es : pk = pk0 /\ st1 = sh ++ (t0 :: t) ++ rst) by (split; congruence). destruct Es as [<- ->]. clear Hs.
  apply bind_Ok_inv in H. destruct H as (g' & Hg & H). cbv zeta in H.
  assert (Lgi : length g' = n).
  { unfold get_gs_for_encryption, slice_from in Hg. rewrite Lg in Hg. cbn [Nat.leb] in Hg. assert (g' = skipn 1 (vk_gamma_abc_g1 (gpk_vk (pk_pk pk)))) by congruence. subst g'. rewrite skipn_length. lia. }
  rewrite (contributions_ok n cs xs b gens Hcount Hn0 g' _ _ before Lgi Hbef), (contributions_ok n cs xs b gens Hcount Hn0 g' _ _ after Lgi Haft) in H. cbn [bind] in H.
  rewrite (partial_replay b gens g' _ _ n sh t0 t rst Hcount) in H by (try assumption; lia). cbn [bind] in H.
  apply bind_Ok_inv in H. destruct H as (com & _ & H). apply bind_Ok_inv in H. destruct H as (shares & _ & H). apply bind_Ok_inv in H. destruct H as (p1 & _ & H).
  set (dl := gpk_delta_g1 (pk_pk pk)) in *. set (ga1 := pk_gamma_g1 pk) in *.
  set (ps := map (party n gens g' dl ga1) before ++ (SecretKeyST sh (t0 :: t), ekp_formula gens g' dl ga1 sh t0 t) :: map (party n gens g' dl ga1) after) in *.
  assert (Ek : keys = DkgKeys pk ps shares (keygenFinal com p1)) by congruence.
  assert (Ep : kg_parties keys = ps) by (rewrite Ek; reflexivity). assert (Eg : g' = g_i) by (rewrite Ek in Hgi; cbn [kg_pk] in Hgi; congruence).
  split; [rewrite <- Eg; exact Lgi|]. intros i Hi.
  assert (Eh : honest = SecretKeyST sh (t0 :: t)).
  { rewrite Ep in Hnth. unfold ps in Hnth. rewrite nth_error_app2 in Hnth by (rewrite map_length; unfold nb; lia). rewrite map_length in Hnth. unfold nb in Hnth. rewrite Nat.sub_diag in Hnth. cbn [nth_error] in Hnth. congruence. }
  assert (EF : fcol_sum n (map st_s (map fst (kg_parties keys))) = vadd sh ks).
  { rewrite Ep. unfold ps. rewrite !map_app. cbn [map fst st_s]. rewrite !map_map. unfold PrivacyDkg.ks. rewrite map_app. apply (fcol_mid n cs xs b Hn0 _ _ sh). lia. }
  rewrite EF in HX. rewrite HX. rewrite (nth_indep _ gzero ((fun x => x [*] ek_X_0 (kg_ek keys)) fzero)) by (rewrite map_length, (vadd_length _ _ n) by (try lia; apply fcol_sum_length); exact Hi).
  rewrite (map_nth (fun x => x [*] ek_X_0 (kg_ek keys))). rewrite vadd_nth by (unfold PrivacyDkg.ks; rewrite fcol_sum_length; lia). rewrite Eh. reflexivity.
Qed.

(* the election as an attack *)
Variables (H' : rng_impl E) (sh' : rng_st H') (R : Type).
Notation leaf := (nat * list (list F) * (list (F * F) * campaign E R))%type.
Definition leaf_ballots (l1 l2 : nat -> nat) (y : leaf) : list (strategy E) := let '(j, rows, (offs, C)) := y in map (pull_strategy (I1 l1 j rows) (I2 l2 j)) (ca_ballots C).
Definition votes_of (offs : list (F * F)) : list (list Z) := match mapM (fun o => decompose pf (fst o) b) offs with Ok votes => votes | _ => [] end.
Definition leaf_rows (l1 : nat -> nat) (y : leaf) (kept : list (strategy E)) : list (list F) := let '(j, rows, (offs, C)) := y in
  total_rows n nb mm ks l1 j rows (chunk_sum n (votes_of offs)) (fsum (map (dkg_extracted_r n nb mm) kept)) (fst (rand_scalar H' sh')) (ca_dest C).
Definition inquire (v u : nat) (l1 l2 : nat -> nat) (y : leaf) : adversary E (option R) := let '(j, rows, (offs, C)) := y in
  if Nat.leb (looks (ca_inquiry C)) u && Nat.leb (length (ca_ballots C)) v
  then vet (leaf_ballots l1 l2 y) [] (fun kept => ask (I1 l1 j rows ++ leaf_rows l1 y kept) (I2 l2 j) (ca_inquiry C)) else Stop None.
Notation electing G H second A st sh d := (election pf B G H H' gens b before after second A st sh sh' d).
Notation cost' second t q k := (Z.of_nat N + (D0 n xs + (cost n xs second t q k + NM n xs 0 (Z.of_nat k)))).

Theorem world_bound (A : insider E (campaign E R)) (G H : rng_impl E) (st : rng_st G) (sh : rng_st H) t q k v u : ilimited t q k A -> ends (fair pf n b v u) [] A ->
  exists A2 : adversary E (option R), limited (t + u) (q + v) k A2 /\ forall second,
  rare (2 * n + 6 + 3 * k) ((Z.of_nat N + D0 n xs) + ((Z.of_nat N + D0 n xs + Z.of_nat q * cost' second t q k) + Z.of_nat v * cost' second t q k)) (fun d => exists keys cps mine r,
    electing G H second A st sh d = Some (keys, cps, mine, r) /\ no_copies keys cps mine /\
    experiment_rcca_dkg pf B G gens b before after second A2 st d <> Some (Some r)).
Proof.
  intros W HE. destruct (simulation n cs xs pf domain fuel b gens HG HH Hdom_ok Hb HbM Hcomp Hcount Hn0 Hcs Hdomain before after Hbef Haft) as (l1 & l2 & HS).
  destruct (HS _ _ (fun j rows x => (j, rows, x)) (annot [] A) G H st sh t q k (annot_limited _ _ _ A W [])) as [W1 HR]. clear HS. cbv zeta in *. fold nb in W1, HR. fold mm in W1, HR.
  set (A1 := trans n nb mm H l1 l2 (fun j rows x => (j, rows, x)) 0 [] sh (annot [] A)) in *.
  exists (abind A1 (inquire v u l1 l2)). split.
  { apply abind_limited; [exact W1|]. intros [[j rows] [offs C]] t0 q0 k0 Ht Hq. cbn [inquire]. destruct (Nat.leb_spec (looks (ca_inquiry C)) u) as [X|X]; [|constructor]. destruct (Nat.leb_spec (length (ca_ballots C)) v) as [X'|X']; [|constructor]. cbn [andb].
    apply vet_limited; [|cbn [leaf_ballots]; rewrite map_length; lia]. intros kept q1. apply ask_limited. lia. }
  intros second. set (Bi := fun i => abind A1 (fun y => Stop (nth i (leaf_ballots l1 l2 y) nothing))).
  assert (WB : forall i, limited t q k (Bi i)) by (intros i; unfold Bi; rewrite <- (Nat.add_0_r t), <- (Nat.add_0_r q) at 1; apply abind_limited; [exact W1|]; intros; constructor).
  pose proof (rare_upto (2 * n + 6 + 3 * k) _ (fun i d => odd_dkg_duel n pf domain fuel b gens before after G st (Bi i) second d) v
    (fun i => rcca_dkg_forgery n cs xs pf domain fuel b gens HG HH Hdom_ok Hb HbM Hcomp Hcount Hn0 Hcs Hdomain before after Hbef Haft (Bi i) G st t q k second (WB i))) as RO.
  refine (rare_stable _ _ _ _ (rare_or _ _ _ _ _ (weak_rare n cs xs pf domain fuel b gens HG HH Hdom_ok Hb HbM Hcount Hn0 Hcs Hdomain before after Hbef Haft (3 * k)) (rare_or _ _ _ _ _ (HR second) RO)) _). clear RO HR.
  intros d Ld (keys & cps & mine & r & Hel & Hnc & Hne) Hno. cbv beta in Hno.
  destruct (feq_dec (vanishing_at xs (e 4 d)) fzero) as [Hv|Hv]; [apply Hno; left; left; intros Z; exact (Z Hv)|].
  apply Hno. right. left. intros Hag.
  unfold election, insider_run in Hel. destruct (dkg_setup B gens b before after d) as [[keys0 rest]|err|] eqn:Hset; [|discriminate Hel|discriminate Hel].
  destruct (nth_error (kg_parties keys0) (length before)) as [[honest part]|] eqn:Hnth; [|discriminate Hel].
  destruct (insider_duel pf B G H gens b keys0 honest second A [] [] [] rest st sh) as [[[C cps0] seen]|] eqn:Hduel; [|discriminate Hel]. cbn [option_map] in Hel. cbv zeta in Hel. rewrite Hnth in Hel.
  destruct (tally_share _ _ _ _ _ _) as [share|err|] eqn:Hts in Hel; [|discriminate Hel|discriminate Hel].
  assert (keys0 = keys) by congruence. subst keys0. assert (cps0 = cps) by congruence. subst cps0. rename Hnth into Hh.
  set (TT1 := dkg_g1 gens (public_run keys cps)) in *. set (TT2 := dkg_g2 gens (public_run keys cps)) in *.
  assert (Em : filter (valid gens keys) (cast (ca_ballots C) (TT1 ++ seen) TT2) = mine) by congruence. assert (Er : settle (ca_inquiry C) ((TT1 ++ seen) ++ share) TT2 = r) by congruence. rewrite Em in Hts. clear Hel.
  destruct (annot_duel (fair pf n b v u) pf B G H gens b keys honest rest second [] A HE [] [] [] rest st sh eq_refl C cps seen Hduel) as (offs & coins' & Hd' & (Fv & Fu & votes & votes' & V1 & V2 & V3) & Henc).
  unfold agrees, insider_run in Hag. rewrite Hset, Hh, Hd' in Hag. cbn [option_map] in Hag. destruct Hag as (rest' & rows & Z1 & Z2 & Z3 & Z4 & Z5). assert (rest' = rest) by congruence. subst rest'. clear Z1.
  fold TT1 in Z3, Z4. fold TT2 in Z5. set (y := (length cps, rows, (offs, C)) : leaf) in *.
  destruct (setup_gs pf domain fuel b gens before after d keys rest Hset) as (g_i & Hgi). destruct (setup_parties B gens b before after d keys rest g_i Hset Hgi) as [Hfd Lps]. pose proof (setup_shares pf domain fuel b gens before after d keys rest Hset) as Lsh. rewrite Lps in Lsh.
  destruct (Forall_dec (fun x : G1 E => x <> gzero)) with (l := g_i) as [Hnz|Hnz].
  { intros x. destruct (geq_dec x gzero) as [Z|Z]; [right|left; exact Z]. intros Y. exact (Y Z). }
  2:{ apply Hno. left. right. exists keys, rest, g_i. split; [exact Hset|]. split; [exact Hgi|exact Hnz]. }
  destruct (setup_ks _ d keys rest honest part g_i Ld Hv Hset Hh Hgi) as [Lg Hks].
  destruct (honest_facts n nb mm gens b keys honest part g_i _ _ Hcount Hfd Hh Lps Lsh) as (_ & _ & X0 & _). rewrite X0 in Hks.
  set (ok := fun S' => valid gens keys (made S' TT1 TT2)).
  assert (Emine : mine = map (fun S' => made S' TT1 TT2) (filter ok (leaf_ballots l1 l2 y))).
  { rewrite <- Em. assert (EC : cast (ca_ballots C) (TT1 ++ seen) TT2 = map (fun S' => made S' TT1 TT2) (leaf_ballots l1 l2 y)).
    { unfold cast, leaf_ballots, y, made. rewrite map_map. apply map_ext. intros S0. rewrite pull_ciphertext, pull_proof. rewrite I1_combos by exact Z4. rewrite I2_combos by exact Z5. rewrite Z3. reflexivity. }
    rewrite EC. unfold ok. clear. induction (leaf_ballots l1 l2 y) as [|S0 l IH]; [reflexivity|]. cbn [map filter]. destruct (valid gens keys (made S0 TT1 TT2)); [cbn [map]; f_equal; exact IH|exact IH]. }
  set (Q := fun S' => ok S' = true -> digits_ok b (dkg_extracted_chunks n nb mm S') /\ encrypts (kg_ek keys) g_i (dkg_extracted_chunks n nb mm S') (ct_vec (ciphertext_from S' TT1)) (dkg_extracted_r n nb mm S')).
  apply (Forall_nn Q (leaf_ballots l1 l2 y)).
  - intros S' HS' Hn. apply Hn. intros HV. exfalso. apply Hno. right. right. pose proof HS' as HS0. apply (In_nth _ _ nothing) in HS'. destruct HS' as (i & Hi & HS'). exists i. split; [unfold leaf_ballots, y in Hi; rewrite map_length in Hi; lia|].
    exists keys, rest, S', cps. split; [exact Hset|]. split.
    { destruct (abind_duel (fun y => Stop (nth i (leaf_ballots l1 l2 y) nothing)) pf B G gens b keys second A1 [] [] rest st y cps Z2) as (o' & c' & s' & X). unfold Bi. rewrite X. cbn [dkg_duel]. rewrite HS'. reflexivity. }
    cbv zeta. fold TT1 TT2. assert (Hin : In (made S' TT1 TT2) mine).
    { rewrite Emine. apply (in_map (fun S' => made S' TT1 TT2)). apply filter_In. split; [exact HS0|exact HV]. }
    split.
    { unfold ok, valid, made in HV. cbn [fst snd] in HV. destruct (verify_commitment_and_proof _ _ _ _ _) as [[]|err|]; [reflexivity|discriminate HV|discriminate HV]. }
    split.
    + intros (Hdig & g' & Hg' & He). assert (g' = g_i) by congruence. subst g'. apply Hn. intros _. split; [exact Hdig|exact He].
    + intros (ct0 & q0 & Hin0 & Hct & _). exact (Hnc _ ct0 q0 _ Hin Hin0 Hct).
  - intros HF. apply Hne. unfold experiment_rcca_dkg. rewrite Hset.
    destruct (abind_duel (inquire v u l1 l2) pf B G gens b keys second A1 [] [] rest st y cps Z2) as (o' & c' & s' & X). rewrite X. clear X. unfold inquire. unfold y at 1. rewrite (proj2 (Nat.leb_le _ _) Fu), (proj2 (Nat.leb_le _ _) Fv). cbn [andb].
    destruct (vet_duel (fun kept => ask (I1 l1 (length cps) rows ++ leaf_rows l1 y kept) (I2 l2 (length cps)) (ca_inquiry C)) pf B G gens b keys second o' cps c' (leaf_ballots l1 l2 y)) with (kept := @nil (strategy E)) (st := s') as (s'' & X).
    { eapply Forall_impl; [|exact HF]. intros S' HQ HV s0. destruct (HQ HV) as [Hdig He]. exact (valid_served pf G b gens g_i _ _ keys o' S' TT1 TT2 _ _ s0 Hb HbM Hgi Hfd Hnz HV Hdig He). }
    rewrite X. clear X. cbn [app]. fold TT1 TT2. fold ok. set (kept := filter ok (leaf_ballots l1 l2 y)) in *. rewrite ask_duel. cbn [option_map fst]. do 2 f_equal. rewrite <- Er. fold TT1 TT2.
    rewrite combos_app. rewrite I1_combos by exact Z4. rewrite I2_combos by exact Z5. rewrite <- Z3. do 2 f_equal.
    set (os := map (fun S' => (dkg_extracted_chunks n nb mm S', dkg_extracted_r n nb mm S')) kept).
    assert (Ho : Forall2 (enc keys g_i) os mine).
    { unfold os. rewrite Emine. fold kept. assert (HK : Forall (fun S' => encrypts (kg_ek keys) g_i (dkg_extracted_chunks n nb mm S') (ct_vec (ciphertext_from S' TT1)) (dkg_extracted_r n nb mm S')) kept).
      { rewrite Forall_forall in HF |- *. intros S' HS'. unfold kept in HS'. apply filter_In in HS'. destruct HS' as [H1 H2]. exact (proj2 (HF S' H1 H2)). }
      clear - HK. induction HK as [|S' l HS' _ IH]; cbn [map]; constructor; [exact HS'|exact IH]. }
    assert (Hvs : mapM (fun m => decompose pf m b) (map (side second) offs) = Ok (if second then votes' else votes)) by (destruct second; rewrite <- ?V1, <- ?V2; clear; induction offs as [|o l IH]; cbn [map mapM]; [reflexivity|rewrite IH; reflexivity|reflexivity|rewrite IH; reflexivity]).
    destruct (table_votes pf B b keys g_i Hb Hgi _ _ _ _ _ Henc Hvs) as (hs & Hhs & Hh2).
    assert (Hne' : cps ++ mine <> []) by (intros Z; rewrite Z in Hts; discriminate Hts).
    pose proof (total_simulated n nb mm ks l1 gens b keys honest part g_i _ _ Hcount Hgi Lg Hfd Hh Lps Lsh Hks H' sh' cps mine hs os rows (ca_dest C) Hh2 Ho Hne' Z4) as TS. fold TT1 in TS. rewrite <- Z3 in TS. rewrite Hts in TS.
    assert (ES : share = combos (total_rows n nb mm ks l1 (length cps) rows (chunk_sum n (map fst hs)) (fsum (map snd os)) (fst (rand_scalar H' sh')) (ca_dest C)) TT1) by congruence. rewrite ES. unfold leaf_rows. unfold y at 1.
    assert (EM : chunk_sum n (map fst hs) = chunk_sum n (votes_of offs)) by (rewrite Hhs; unfold votes_of; rewrite V1; destruct second; [symmetry; exact V3|reflexivity]). rewrite EM.
    assert (EO : map snd os = map (dkg_extracted_r n nb mm) kept) by (unfold os; rewrite map_map; apply map_ext; reflexivity). rewrite EO. reflexivity.
Qed.

(* C88: both worlds *)
Theorem election_bound (A : insider E (campaign E R)) (G H : rng_impl E) (st : rng_st G) (sh : rng_st H) t q k v u : ilimited t q k A -> ends (fair pf n b v u) [] A ->
  rare (2 * n + 6 + 3 * k)
    (((Z.of_nat N + D0 n xs) + ((Z.of_nat N + D0 n xs + Z.of_nat q * cost' false t q k) + Z.of_nat v * cost' false t q k)) +
     (((Z.of_nat N + D0 n xs) + ((Z.of_nat N + D0 n xs + Z.of_nat q * cost' true t q k) + Z.of_nat v * cost' true t q k)) +
      (Z.of_nat N + (D0 n xs + (cost n xs false (t + u) (q + v) k + cost n xs true (t + u) (q + v) k)))))
    (fun d => exists keys cps mine r keys' cps' mine' r',
      electing G H false A st sh d = Some (keys, cps, mine, r) /\ electing G H true A st sh d = Some (keys', cps', mine', r') /\
      no_copies keys cps mine /\ no_copies keys' cps' mine' /\ r <> r').
Proof.
  intros W HE. destruct (world_bound A G H st sh t q k v u W HE) as (A2 & W2 & HB).
  refine (rare_stable _ _ _ _ (rare_or _ _ _ _ _ (HB false) (rare_or _ _ _ _ _ (HB true) (rcca_dkg_bound n cs xs pf domain fuel b gens HG HH Hdom_ok Hb HbM Hcomp Hcount Hn0 Hcs Hdomain before after Hbef Haft A2 G st (t + u) (q + v) k W2))) _).
  intros d Ld (keys & cps & mine & r & keys' & cps' & mine' & r' & E1 & E2 & C1 & C1' & Hr) Hno. apply Hno. left. exists keys, cps, mine, r. do 2 (split; [assumption|]). intros Y1.
  apply Hno. right. left. exists keys', cps', mine', r'. do 2 (split; [assumption|]). intros Y2. apply Hno. right. right. rewrite Y1, Y2. congruence.
Qed.
End BCount.
