(* RccaCount.v -- an attacker that chooses the messages as it goes follows one path on almost all coins (for C78) *)
From Verif Require Import Base BaseFacts Algebra Utils UtilsFacts Setup Keygen Encryption Circuit CircuitFacts CircuitSat CommitmentFacts VecFacts KeySpec KeygenFacts
  EncryptFacts DecryptFacts Spec VerifyFacts Protocol ReencFacts DistFacts PropVerify Groth16 ArkGroth16 PolyFacts Groth16Spec ArkFacts Groth16Facts SchwartzZippel SoundCore SoundSpec
  SoundAlg SoundGame SoundLink SoundFacts SoundCount SoundHonest PropGroth16 PropSound PropSoundCases PropZK PrivacySpec PrivacyAlg PrivacyGame PrivacyLink PrivacyCount PrivacySpan PrivacyMany
  SoundDkgSpec SoundDkg SoundAdaptSpec SoundAdapt PropSoundAdapt NonmalCore NonmalAlg NonmalSpec NonmalGame NonmalRows NonmalLink NonmalCount PropNonmal CcaSpec Cca CcaCount RccaSpec RccaTest.

Section RCount.
Context {E : pairing}.
Notation K := (K_of E).
Notation F := (Fr E).
Add Ring Kr : (@scalar_ring_theory K).
Notation e i env := (nth i env fzero).
Notation p := (modulus K).
Variables (n : nat) (cs : csys K) (xs : list F) (pf : profile) (domain : nat -> option (list F)) (fuel : nat) (b : Z) (gens : encryption_gens E).
Let ni := cs_num_inst cs.
Let nc := length (cs_cons cs).
Let N := length xs.
Notation B := (ark_backend pf domain fuel).
Hypothesis HG : eg_G gens <> gzero.
Hypothesis HH : eg_H gens <> gzero.
Hypothesis Hdom_ok : domain_ok domain.
Hypothesis Hb : supported b.
Hypothesis HbM : 2 ^ b <= modulus K.
Hypothesis Hcomp : chunk_compatible K b.
Hypothesis Hcount : chunks_count K b = Ok (Z.of_nat n).
Hypothesis Hn0 : (0 < n)%nat.
Hypothesis Hcs : generate_constraints (BitsizeCheckCircuit b (Z.of_nat n) None true) (@cs_new K Circuit.Setup) = Ok cs.
Hypothesis Hdomain : domain (nc + ni)%nat = Some xs.
Let D1 := 3 * Z.of_nat N + 9 * (3 * Z.of_nat n + 9).
Notation tau_ok := (tau_ok xs).
Notation healthy := (healthy n cs xs).
Notation qc := (q_com (iz cs)).
Notation qq := (q_qap (ia n cs xs) n).
Notation M j := (3 * n + 7 + 3 * j)%nat.

Definition seen (zero : bool) (ms : list F) (q : list (list F)) (c : list F) : bool := experiment_many pf B gens b (Ask q (Guess zero) (Guess (negb zero))) ms c.
Definition cw (w : bool) : Z := if w then 3 else 1.
Lemma HD1 : 0 <= D1. Proof. unfold D1. lia. Qed.

(* in both worlds a test has the same answer, on almost all coins *)
Lemma test_predicted (ms : bool -> list F) j q : (forall w, length (ms w) = j) ->
  exists ans : bool, forall w, rare (M j) (cw w * Z.of_nat (j + 1) * D1) (fun c => tau_ok c /\ seen (negb ans) (ms w) q c = true).
Proof.
  intros Lm. pose proof HD1.
  assert (Diff : forall a, rare (M j) (2 * Z.of_nat j * D1) (fun c => tau_ok c /\ seen a (ms true) q c <> seen a (ms false) q c)).
  { intros a L Hnd HL. pose proof (many_bound_good n cs xs pf domain fuel b gens HG HH Hdom_ok Hb HbM Hcomp Hcount Hn0 Hcs Hdomain (ms true) (ms false) (Ask q (Guess a) (Guess (negb a))) L) as X.
    rewrite !Lm in X. cbn [questions Nat.max] in X. replace (2 * Z.of_nat 1 * Z.of_nat j) with (2 * Z.of_nat j) in X by lia. apply X; [reflexivity|exact Hnd|].
    intros c Hc. destruct (HL c Hc) as (Y1 & Y2 & Y3). split; [exact Y1|]. split; [exact Y2|exact Y3]. }
  destruct (test_constant n cs xs pf domain fuel b gens HG HH Hdom_ok Hb HbM Hcomp Hcount Hn0 Hcs Hdomain (ms false) q) as [Z|Z]; rewrite Lm in Z.
  - exists true. intros [|]; cbn [cw negb].
    + apply (rare_le _ (2 * Z.of_nat j * D1)); [nia|]. refine (rare_imp _ _ _ _ _ (Diff false)). intros c Lc [Tc Hs]. split; [exact Tc|]. rewrite Hs. pose proof (Z c Lc Tc) as Y. unfold nonzero_seen in Y. unfold seen. cbn [negb]. rewrite Y. discriminate.
    + apply rare_never; [nia|]. intros c Lc [Tc Hs]. pose proof (Z c Lc Tc) as Y. unfold nonzero_seen in Y. unfold seen in Hs. cbn [negb] in Hs. congruence.
  - fold N in Z. fold D1 in Z. exists false. intros [|]; cbn [cw negb].
    + apply (rare_le _ (2 * Z.of_nat j * D1 + Z.of_nat (j + 1) * D1)); [nia|].
      refine (rare_imp _ _ _ _ _ (rare_or _ _ _ _ _ (Diff true) Z)). intros c Lc [Tc Hs]. destruct (zero_seen pf domain fuel b gens (ms false) q c) eqn:Y; [right; split; [exact Tc|reflexivity]|left].
      split; [exact Tc|]. rewrite Hs. unfold zero_seen in Y. unfold seen. cbn [negb]. rewrite Y. discriminate.
    + apply (rare_le _ (Z.of_nat (j + 1) * D1)); [nia|]. refine (rare_imp _ _ _ _ _ Z). intros c Lc [Tc Hs]. split; [exact Tc|exact Hs].
Qed.

(* where things are on the tape *)
Lemma table_at (ms : list F) j k c pk sk ek dk rest cps st : length ms = j -> length c = M (j + k) -> tau_ok c ->
  setup_for_groth16 B (replay_rng E) b gens c = Ok (pk, sk, ek, dk, rest) -> encrypt_all pf B (replay_rng E) ms ek pk b rest = Ok (cps, st) ->
  let c0 := firstn (3 * n + 7) c in let ck := firstn (3 * j) (skipn (3 * n + 7) c) in
  length c0 = (3 * n + 7)%nat /\ length ck = (3 * j)%nat /\ tau_ok c0 /\ firstn (M j) c = c0 ++ ck /\
  (forall x, setup_for_groth16 B (replay_rng E) b gens (c0 ++ x) = Ok (pk, sk, ek, dk, x)) /\ good_setup n xs pf domain fuel b gens pk ek dk /\
  cps = map (forged gens pk ek dk) (hons n cs xs pf b ms ck) /\ length st = (3 * k)%nat /\ rest = ck ++ st.
Proof.
  intros Lm Lc Tc Hset Henc. cbv zeta. set (c0 := firstn (3 * n + 7) c). set (ck := firstn (3 * j) (skipn (3 * n + 7) c)). set (cr := skipn (3 * j) (skipn (3 * n + 7) c)).
  assert (L0 : length c0 = (3 * n + 7)%nat) by (unfold c0; rewrite firstn_length; lia). assert (Lk : length ck = (3 * j)%nat) by (unfold ck; rewrite firstn_length, skipn_length; lia).
  assert (Lr : length cr = (3 * k)%nat) by (unfold cr; rewrite !skipn_length; lia).
  assert (Ec : c = c0 ++ ck ++ cr) by (unfold c0, ck, cr; rewrite firstn_skipn; symmetry; apply firstn_skipn).
  assert (T0 : tau_ok c0) by (rewrite Ec in Tc; apply (tau_ok_app n cs xs b Hn0) in Tc; [exact Tc|lia]).
  split; [exact L0|]. split; [exact Lk|]. split; [exact T0|]. split.
  { rewrite Ec, app_assoc. rewrite firstn_app, firstn_all2 by (rewrite app_length; lia). replace (M j - length (c0 ++ ck))%nat with 0%nat by (rewrite app_length; lia). cbn [firstn]. rewrite app_nil_r. reflexivity. }
  destruct (setup_local n cs xs pf domain fuel b gens Hb HbM Hcount Hn0 Hcs Hdomain c0 L0 T0) as [(pk' & sk' & ek' & dk' & Hx)|Hx]; [|rewrite Ec in Hset; destruct (Hx _ _ Hset)].
  rewrite Ec, Hx in Hset. apply ok_pair5 in Hset. destruct Hset as (-> & -> & -> & -> & <-).
  split; [exact Hx|]. assert (Hg : good_setup n xs pf domain fuel b gens pk ek dk).
  { exists c0, sk. split; [exact L0|]. split; [exact T0|]. rewrite <- (Hx []), app_nil_r. reflexivity. }
  split; [exact Hg|]. pose proof (hons_run n cs xs pf domain fuel b gens Hdom_ok Hb HbM Hcomp Hcount Hn0 Hcs Hdomain ms ck ltac:(lia) pk ek dk cr Hg) as HR. rewrite Henc in HR.
  assert (X : cps = map (forged gens pk ek dk) (hons n cs xs pf b ms ck)) by exact (f_equal (fun o => match o with Ok x => fst x | _ => cps end) HR).
  assert (Y : st = cr) by exact (f_equal (fun o => match o with Ok x => snd x | _ => st end) HR). split; [exact X|]. rewrite Y. split; [exact Lr|reflexivity].
Qed.
Lemma seen_at a (ms : list F) j k q c pk sk ek dk rest cps st : length ms = j -> length c = M (j + k) -> tau_ok c ->
  setup_for_groth16 B (replay_rng E) b gens c = Ok (pk, sk, ek, dk, rest) -> encrypt_all pf B (replay_rng E) ms ek pk b rest = Ok (cps, st) ->
  seen a ms q (firstn (M j) c) = Bool.eqb (geqb (pairing_product q (table_g1 gens pk ek cps) (table_g2 gens pk ek dk cps)) gzero) a.
Proof.
  intros Lm Lc Tc Hset Henc. pose proof (table_at ms j k c pk sk ek dk rest cps st Lm Lc Tc Hset Henc) as T. cbv zeta in T. destruct T as (L0 & Lk & T0 & Ef & Hx & Hg & Ecps & _).
  set (c0 := firstn (3 * n + 7) c) in *. set (ck := firstn (3 * j) (skipn (3 * n + 7) c)) in *.
  rewrite Ef. unfold seen, experiment_many. rewrite Hx. pose proof (hons_run n cs xs pf domain fuel b gens Hdom_ok Hb HbM Hcomp Hcount Hn0 Hcs Hdomain ms ck ltac:(lia) pk ek dk [] Hg) as HR.
  rewrite app_nil_r in HR. rewrite HR, <- Ecps. cbn [observe]. destruct (geqb _ _), a; reflexivity.
Qed.

Lemma NM0_nonneg j : 0 <= NM n xs 0 (Z.of_nat j).
Proof. unfold NM. fold N D1. pose proof HD1. nia. Qed.
Lemma NM0_mono j j' : (j <= j')%nat -> NM n xs 0 (Z.of_nat j) <= NM n xs 0 (Z.of_nat j').
Proof.
  intros Hj. unfold NM. fold N D1. pose proof HD1. rewrite !Z.add_0_l. apply Z.add_le_mono_l. apply Z.mul_le_mono_nonneg_r; [assumption|]. apply Z.mul_le_mono_nonneg; lia.
Qed.

(* the path *)
Definition cost (w : bool) (t q k : nat) : Z := cw w * (Z.of_nat (t + 2 * q) * (Z.of_nat (k + 1) * D1)) + Z.of_nat q * NM n xs 0 (Z.of_nat k).
Lemma follow {R} (A : adversary E R) t q k : limited t q k A -> forall (ms : bool -> list F) offered j, (forall w, length (ms w) = j) -> (forall w, incl (ms w) offered) ->
  exists r (ms' : bool -> list F) k', (k' <= k)%nat /\ (forall w, length (ms' w) = (j + k')%nat) /\ forall w, exists Bad : list F -> Prop,
    rare (M (j + k)) (cost w t q (j + k)) (fun c => tau_ok c /\ healthy (firstn (3 * n + 7) c) /\ Bad c) /\
    forall c pk sk ek dk rest cps st, length c = M (j + k) -> tau_ok c -> healthy (firstn (3 * n + 7) c) ->
      setup_for_groth16 B (replay_rng E) b gens c = Ok (pk, sk, ek, dk, rest) -> encrypt_all pf B (replay_rng E) (ms w) ek pk b rest = Ok (cps, st) ->
      (exists cps' st', encrypt_all pf B (replay_rng E) (ms' w) ek pk b rest = Ok (cps', st') /\ duel pf B gens b pk sk ek dk w A offered cps st = Some (r, cps')) \/ Bad c.
Proof.
  pose proof HD1 as HD.
  assert (Hcw : forall w, 1 <= cw w) by (intros [|]; cbn [cw]; lia).
  intros W. induction W as [t q k r|t q k m A1 A2 W1 IH1 W2 IH2|t q k m m' next W IH|t q k St next W IH]; intros ms offered j Lm Hinc.
  - exists r, ms, 0%nat. split; [lia|]. split; [intros w; rewrite Nat.add_0_r; apply Lm|]. intros w. exists (fun _ => False). split.
    + apply rare_never; [|intros c _ (_ & _ & [])]. unfold cost. pose proof (NM0_nonneg (j + k)). pose proof (Hcw w). nia.
    + intros c pk sk ek dk rest cps st Lc Tc Hh Hset Henc. left. exists cps, st. split; [exact Henc|reflexivity].
  - destruct (test_predicted ms j m Lm) as (ans & HA).
    assert (X : exists A', (A' = if ans then A1 else A2) /\ exists r (ms' : bool -> list F) k', (k' <= k)%nat /\ (forall w, length (ms' w) = (j + k')%nat) /\ forall w, exists Bad : list F -> Prop,
      rare (M (j + k)) (cost w t q (j + k)) (fun c => tau_ok c /\ healthy (firstn (3 * n + 7) c) /\ Bad c) /\
      forall c pk sk ek dk rest cps st, length c = M (j + k) -> tau_ok c -> healthy (firstn (3 * n + 7) c) ->
        setup_for_groth16 B (replay_rng E) b gens c = Ok (pk, sk, ek, dk, rest) -> encrypt_all pf B (replay_rng E) (ms w) ek pk b rest = Ok (cps, st) ->
        (exists cps' st', encrypt_all pf B (replay_rng E) (ms' w) ek pk b rest = Ok (cps', st') /\ duel pf B gens b pk sk ek dk w A' offered cps st = Some (r, cps')) \/ Bad c).
    { exists (if ans then A1 else A2). split; [reflexivity|]. destruct ans; [apply (IH1 ms offered j Lm Hinc)|apply (IH2 ms offered j Lm Hinc)]. }
    clear IH1 IH2. destruct X as (A' & EA & r & ms' & k' & Hk' & Lm' & HX). exists r, ms', k'. split; [exact Hk'|]. split; [exact Lm'|]. intros w. destruct (HX w) as (Bad & HB & HF).
    exists (fun c => seen (negb ans) (ms w) m (firstn (M j) c) = true \/ Bad c). split.
    + apply (rare_le _ (cw w * Z.of_nat (j + 1) * D1 + cost w t q (j + k))).
      { unfold cost. replace (Z.of_nat (S t + 2 * q)) with (1 + Z.of_nat (t + 2 * q)) by lia. assert (Y : cw w * Z.of_nat (j + 1) * D1 <= cw w * (Z.of_nat (j + k + 1) * D1)); [|lia].
        rewrite <- Z.mul_assoc. apply Z.mul_le_mono_nonneg_l; [pose proof (Hcw w); lia|]. apply Z.mul_le_mono_nonneg_r; [exact HD|lia]. }
      assert (EM : M (j + k) = (M j + 3 * k)%nat) by lia. rewrite EM in HB |- *.
      refine (rare_imp _ _ _ _ _ (rare_or _ _ _ _ _ (rare_prefix (M j) (3 * k) _ _ (HA w)) _)); [|exact HB].
      intros c Lc (Tc & Hh & [Z|Z]); [left|right; split; [exact Tc|]; split; [exact Hh|exact Z]]. split; [|exact Z].
      rewrite <- (firstn_skipn (M j) c) in Tc. apply (tau_ok_app n cs xs b Hn0) in Tc; [exact Tc|rewrite firstn_length; lia].
    + intros c pk sk ek dk rest cps st Lc Tc Hh Hset Henc. pose proof (seen_at (negb ans) (ms w) j k m c pk sk ek dk rest cps st (Lm w) Lc Tc Hset Henc) as Hs.
      destruct (HF c pk sk ek dk rest cps st Lc Tc Hh Hset Henc) as [(cps' & st' & Y1 & Y2)|Y]; [|right; right; exact Y]. cbn [duel].
      destruct (geqb (pairing_product m (table_g1 gens pk ek cps) (table_g2 gens pk ek dk cps)) gzero), ans; subst A'; try (left; exists cps', st'; split; [exact Y1|exact Y2]); right; left; exact Hs.
  - destruct (IH (fun w => ms w ++ [if w then m' else m]) (m :: m' :: offered) (S j)) as (r & ms' & k' & Hk' & Lm' & HX).
    { intros w. rewrite app_length, Lm. cbn [length]. lia. }
    { intros w x Hx. apply in_app_iff in Hx. destruct Hx as [Hx|[Hx|[]]]; [right; right; exact (Hinc w x Hx)|]. subst x. destruct w; [right; left; reflexivity|left; reflexivity]. }
    exists r, ms', (S k'). split; [lia|]. split; [intros w; rewrite Lm'; lia|]. intros w. destruct (HX w) as (Bad & HB & HF). replace (S j + k)%nat with (j + S k)%nat in HB, HF by lia.
    exists Bad. split; [exact HB|]. intros c pk sk ek dk rest cps st Lc Tc Hh Hset Henc.
    pose proof (table_at (ms w) j (S k) c pk sk ek dk rest cps st (Lm w) Lc Tc Hset Henc) as T. cbv zeta in T. destruct T as (_ & _ & _ & _ & _ & Hg & _ & Ls & _).
    destruct st as [|x [|y [|z st]]]; try (cbn [length] in Ls; lia).
    destruct (enc_forged n cs xs pf domain fuel b gens Hdom_ok Hb HbM Hcomp Hcount Hcs Hdomain (if w then m' else m) x y z) as (S0 & HS0). specialize (HS0 pk ek dk st Hg).
    specialize (HF c pk sk ek dk rest (cps ++ [forged gens pk ek dk S0]) st Lc Tc Hh Hset). cbn [duel]. rewrite HS0. apply HF.
    rewrite (encrypt_all_app _ _ _ _ _ _ _ _ _ _ _ Henc). cbn [encrypt_all]. rewrite HS0. reflexivity.
  - destruct (test_predicted ms j (qc St) Lm) as (ans1 & HA1). destruct (test_predicted ms j (qq St) Lm) as (ans2 & HA2).
    set (rp := if Nat.eqb (length (sg_chunks St)) n then if ans1 then if ans2 then pred n cs xs pf b offered j St else Refused else Refused else Refused).
    destruct (IH rp ms offered j Lm Hinc) as (r & ms' & k' & Hk' & Lm' & HX). exists r, ms', k'. split; [exact Hk'|]. split; [exact Lm'|]. intros w. destruct (HX w) as (Bad & HB & HF).
    exists (fun c => odd_run n cs xs pf domain fuel b gens (ms w) (Output St) (firstn (M j) c) \/ (seen (negb ans1) (ms w) (qc St) (firstn (M j) c) = true \/ seen (negb ans2) (ms w) (qq St) (firstn (M j) c) = true) \/ Bad c).
    assert (HO : rare (M j) (NM n xs 0 (Z.of_nat j)) (fun c => tau_ok c /\ odd_run n cs xs pf domain fuel b gens (ms w) (Output St) c)).
    { intros L Hnd HL. pose proof (odd_bound n cs xs pf domain fuel b gens HG HH Hdom_ok Hb HbM Hcomp Hcount Hn0 Hcs Hdomain (ms w) (Output St) 0 L) as OB. rewrite Lm in OB. apply OB; [apply le_n|exact Hnd|].
      intros c Hc. destruct (HL c Hc) as (Y1 & Y2 & Y3). split; [exact Y1|]. split; [exact Y2|exact Y3]. }
    split.
    + apply (rare_le _ (NM n xs 0 (Z.of_nat j) + ((cw w * Z.of_nat (j + 1) * D1 + cw w * Z.of_nat (j + 1) * D1) + cost w t q (j + k)))).
      { unfold cost. replace (Z.of_nat (t + 2 * S q)) with (2 + Z.of_nat (t + 2 * q)) by lia. replace (Z.of_nat (S q)) with (1 + Z.of_nat q) by lia. pose proof (NM0_mono j (j + k) ltac:(lia)) as Y1.
        assert (Y : cw w * Z.of_nat (j + 1) * D1 <= cw w * (Z.of_nat (j + k + 1) * D1)); [|lia].
        rewrite <- Z.mul_assoc. apply Z.mul_le_mono_nonneg_l; [pose proof (Hcw w); lia|]. apply Z.mul_le_mono_nonneg_r; [exact HD|lia]. }
      assert (EM : M (j + k) = (M j + 3 * k)%nat) by lia. rewrite EM in HB |- *.
      refine (rare_imp _ _ _ _ _ (rare_or _ _ _ _ _ (rare_prefix (M j) (3 * k) _ _ HO) (rare_or _ _ _ _ _ (rare_or _ _ _ _ _ (rare_prefix (M j) (3 * k) _ _ (HA1 w)) (rare_prefix (M j) (3 * k) _ _ (HA2 w))) _)));
        [|exact HB].
      intros c Lc (Tc & Hh & Z). assert (Tp : tau_ok (firstn (M j) c)) by (rewrite <- (firstn_skipn (M j) c) in Tc; apply (tau_ok_app n cs xs b Hn0) in Tc; [exact Tc|rewrite firstn_length; lia]).
      destruct Z as [Z|[[Z|Z]|Z]]; [left; split; [exact Tp|exact Z]|right; left; left; split; [exact Tp|exact Z]|right; left; right; split; [exact Tp|exact Z]|right; right; split; [exact Tc|split; [exact Hh|exact Z]]].
    + intros c pk sk ek dk rest cps st Lc Tc Hh Hset Henc. cbn [duel].
      pose proof (seen_at (negb ans1) (ms w) j k (qc St) c pk sk ek dk rest cps st (Lm w) Lc Tc Hset Henc) as Hs1. pose proof (seen_at (negb ans2) (ms w) j k (qq St) c pk sk ek dk rest cps st (Lm w) Lc Tc Hset Henc) as Hs2.
      pose proof (table_at (ms w) j k c pk sk ek dk rest cps st (Lm w) Lc Tc Hset Henc) as T. cbv zeta in T. destruct T as (L0 & Lk & T0 & Ef & Hx & Hg & Ecps & _).
      set (c0 := firstn (3 * n + 7) c) in *. set (ck := firstn (3 * j) (skipn (3 * n + 7) c)) in *.
      pose proof (Hx []) as Hset0. rewrite app_nil_r in Hset0.
      set (T1 := table_g1 gens pk ek cps) in *. set (T2 := table_g2 gens pk ek dk cps) in *. set (real := service pf b gens pk sk ek dk offered (ciphertext_from St T1) (proof_from St T1 T2)).
      destruct (reply_dec real (ideal_reply n qc qq (pred n cs xs pf b offered j) St T1 T2)) as [Z|Z].
      * destruct (HF c pk sk ek dk rest cps st Lc Tc Hh Hset Henc) as [(cps' & st' & Y1 & Y2)|Y]; [|right; right; right; exact Y]. rewrite Z. unfold ideal_reply.
        destruct (geqb (pairing_product (qc St) T1 T2) gzero), (geqb (pairing_product (qq St) T1 T2) gzero), ans1, ans2; try (right; right; left; left; exact Hs1); try (right; right; left; right; exact Hs2);
          left; exists cps', st'; (split; [exact Y1|]); unfold rp in Y2; destruct (Nat.eqb _ _); exact Y2.
      * right. left. rewrite Ef. exists pk, sk, ek, dk, ck, cps, []. split; [apply Hx|]. split; [rewrite <- (app_nil_r ck), Ecps; apply (hons_run n cs xs pf domain fuel b gens Hdom_ok Hb HbM Hcomp Hcount Hn0 Hcs Hdomain); [rewrite Lm; lia|exact Hg]|].
        cbv zeta. cbn [play].
        pose proof (submission_predicted n cs xs pf domain fuel b gens HG HH Hdom_ok Hb HbM Hcomp Hcount Hn0 Hcs Hdomain offered (ms w) ck c0 pk sk ek dk St L0 T0 Hset0 Hh (Hinc w) ltac:(rewrite Lm; lia)) as SP.
        cbv zeta in SP. rewrite <- Ecps, Lm in SP. fold T1 T2 in SP. rewrite Lm. exact (SP Z).
Qed.

Lemma rare_split m D (P : list F -> Prop) : (5 <= m)%nat -> rare m D (fun c => tau_ok c /\ P c) -> rare m (Z.of_nat N + D) P.
Proof.
  intros Hm HR L Hnd HL. apply (split_tau n cs xs b HbM Hn0); [exact Hm|exact Hnd|intros c Hc; apply HL; exact Hc|]. intros L' Hnd' HL'. apply HR; [exact Hnd'|].
  intros c Hc. destruct (HL' c Hc) as [Hin Hv]. destruct (HL c Hin) as [Lc HP]. split; [exact Lc|]. split; [exact Hv|exact HP].
Qed.
Lemma rare_unhealthy r : rare (3 * n + 7 + r) (D0 n xs) (fun c => ~ healthy (firstn (3 * n + 7) c)).
Proof. intros L Hnd HL. apply (unhealthy_bound n cs xs domain b Hdom_ok Hb HbM Hn0 Hcs Hdomain); assumption. Qed.

(* C78: guesses *)
Lemma rcca_bound_all {R} (A : adversary E R) t q k : limited t q k A ->
  rare (M k) (Z.of_nat N + (D0 n xs + (cost false t q k + cost true t q k)))
    (fun c => ~ tau_ok c \/ ~ healthy (firstn (3 * n + 7) c) \/ experiment_rcca pf B gens b false A c <> experiment_rcca pf B gens b true A c).
Proof.
  intros W. destruct (follow A t q k W (fun _ => []) [] 0%nat) as (r & ms' & k' & _ & _ & HX); [reflexivity|intros w x []|]. cbn [Nat.add] in HX.
  destruct (HX false) as (B0 & R0 & F0). destruct (HX true) as (B1 & R1 & F1). clear HX. apply rare_split; [lia|].
  refine (rare_imp _ _ _ _ _ (rare_or _ _ _ _ _ (rare_unhealthy (3 * k)) (rare_or _ _ _ _ _ R0 R1))).
  intros c Lc [Tc [Hne|[Hne|Hne]]]; [destruct (Hne Tc)|left; exact Hne|]. destruct (healthy_dec n cs xs (firstn (3 * n + 7) c)) as [Hh|Hh]; [right|left; exact Hh]. unfold experiment_rcca in Hne.
  destruct (setup_for_groth16 B (replay_rng E) b gens c) as [[[[[pk sk] ek] dk] rest]|err|] eqn:Hset; try (destruct (Hne eq_refl)).
  destruct (F0 c pk sk ek dk rest [] rest Lc Tc Hh Hset eq_refl) as [(cps0 & st0 & _ & Y0)|Y0]; [|left; split; [exact Tc|split; [exact Hh|exact Y0]]].
  destruct (F1 c pk sk ek dk rest [] rest Lc Tc Hh Hset eq_refl) as [(cps1 & st1 & _ & Y1)|Y1]; [|right; split; [exact Tc|split; [exact Hh|exact Y1]]].
  exfalso. apply Hne. rewrite Y0, Y1. reflexivity.
Qed.
Theorem rcca_bound {R} (A : adversary E R) t q k : limited t q k A ->
  rare (M k) (Z.of_nat N + (D0 n xs + (cost false t q k + cost true t q k))) (fun c => experiment_rcca pf B gens b false A c <> experiment_rcca pf B gens b true A c).
Proof. intros W. refine (rare_imp _ _ _ _ _ (rcca_bound_all A t q k W)). intros c _ H. right. right. exact H. Qed.
(* what is put on the table is what encrypt_all makes of the encrypted messages *)
Lemma duel_table {R} (A : adversary E R) t q k : limited t q k A -> forall w offered ms cps st pk sk ek dk rest r cps', encrypt_all pf B (replay_rng E) ms ek pk b rest = Ok (cps, st) ->
  duel pf B gens b pk sk ek dk w A offered cps st = Some (r, cps') -> exists ms' st', (length ms' <= k)%nat /\ encrypt_all pf B (replay_rng E) (ms ++ ms') ek pk b rest = Ok (cps', st').
Proof.
  intros W. induction W as [t q k r0|t q k m A1 A2 W1 IH1 W2 IH2|t q k m m' next W IH|t q k St next W IH]; intros w offered ms cps st pk sk ek dk rest r cps' Henc Hd; cbn [duel] in Hd.
  - exists [], st. split; [cbn [length]; lia|]. rewrite app_nil_r, Henc. do 2 f_equal. exact (f_equal (fun o => match o with Some x => snd x | None => cps end) Hd).
  - destruct (geqb _ _); [eapply IH1|eapply IH2]; eassumption.
  - destruct (encrypt_with_proof pf B (replay_rng E) (if w then m' else m) ek pk b st) as [[[[ct r1] q1] st1]|err|] eqn:He; try discriminate Hd.
    destruct (IH w (m :: m' :: offered) (ms ++ [if w then m' else m]) (cps ++ [(ct, q1)]) st1 pk sk ek dk rest r cps') as (ms' & st' & L & X); [|exact Hd|].
    + rewrite (encrypt_all_app _ _ _ _ _ _ _ _ _ _ _ Henc). cbn [encrypt_all]. rewrite He. reflexivity.
    + exists ((if w then m' else m) :: ms'), st'. split; [cbn [length]; lia|]. rewrite <- app_assoc in X. exact X.
  - eapply IH; eassumption.
Qed.
(* C78: forgeries *)
Definition odd_duel (A : adversary E (strategy E)) (w : bool) (c : list F) : Prop := exists pk sk ek dk rest St cps,
  setup_for_groth16 B (replay_rng E) b gens c = Ok (pk, sk, ek, dk, rest) /\ duel pf B gens b pk sk ek dk w A [] [] rest = Some (St, cps) /\
  let T1 := table_g1 gens pk ek cps in let T2 := table_g2 gens pk ek dk cps in
  verify_commitment_and_proof (ciphertext_from St T1) (proof_from St T1 T2) (prepare_verifying_key (gpk_vk (pk_pk pk))) (prepare_ek ek) (prepare_gens gens) = Ok tt /\
  ~ is_fresh n b St pk ek T1 /\ ~ is_copy n St ek T1 T2 cps.
Lemma rcca_forgery_all (A : adversary E (strategy E)) t q k w : limited t q k A ->
  rare (M k) (Z.of_nat N + (D0 n xs + (cost w t q k + NM n xs 0 (Z.of_nat k)))) 
    (fun c => ~ tau_ok c \/ ~ healthy (firstn (3 * n + 7) c) \/ odd_duel A w c).
Proof.
  intros W. destruct (follow A t q k W (fun _ => []) [] 0%nat) as (r & ms' & k' & Hk & Lm & HX); [reflexivity|intros v x []|]. cbn [Nat.add] in HX, Lm.
  destruct (HX w) as (B0 & R0 & F0). clear HX. specialize (Lm w). apply rare_split; [lia|].
  assert (HO : rare (M k') (NM n xs 0 (Z.of_nat k')) (fun c => tau_ok c /\ odd_run n cs xs pf domain fuel b gens (ms' w) (Output r) c)).
  { intros L Hnd HL. pose proof (odd_bound n cs xs pf domain fuel b gens HG HH Hdom_ok Hb HbM Hcomp Hcount Hn0 Hcs Hdomain (ms' w) (Output r) 0 L) as OB. rewrite Lm in OB. apply OB; [apply le_n|exact Hnd|].
    intros c Hc. destruct (HL c Hc) as (Y1 & Y2 & Y3). split; [exact Y1|]. split; [exact Y2|exact Y3]. }
  apply (rare_le _ _ _ _ (NM0_mono k' k Hk)) in HO || apply (rare_le _ _ (NM n xs 0 (Z.of_nat k)) _ (NM0_mono k' k Hk)) in HO.
  assert (EM : M k = (M k' + 3 * (k - k'))%nat) by lia.
  pose proof (rare_prefix (M k') (3 * (k - k')) _ _ HO) as HO'. rewrite <- EM in HO'. clear HO.
  refine (rare_imp _ _ _ _ _ (rare_or _ _ _ _ _ (rare_unhealthy (3 * k)) (rare_or _ _ _ _ _ R0 HO'))).
  intros c Lc [Tc [Hne|[Hne|(pk & sk & ek & dk & rest & St & cps & Hset & Hd & Hodd)]]]; [destruct (Hne Tc)|left; exact Hne|]. cbv zeta in Hodd. destruct (healthy_dec n cs xs (firstn (3 * n + 7) c)) as [Hh|Hh]; [right|left; exact Hh].
  destruct (F0 c pk sk ek dk rest [] rest Lc Tc Hh Hset eq_refl) as [(cps0 & st0 & X0 & Y0)|Y0]; [right|left; split; [exact Tc|split; [exact Hh|exact Y0]]].
  rewrite Hd in Y0. assert (EQ1 : St = r) by exact (f_equal (fun o => match o with Some x => fst x | None => St end) Y0).
  assert (EQ2 : cps = cps0) by exact (f_equal (fun o => match o with Some x => snd x | None => cps end) Y0). subst St cps0. clear Y0.
  assert (Lc' : length c = M (k' + (k - k'))) by (rewrite Lc; lia).
  pose proof (table_at (ms' w) k' (k - k') c pk sk ek dk rest cps st0 Lm Lc' Tc Hset X0) as T. cbv zeta in T. destruct T as (L0 & Lk & T0 & Ef & Hx & Hg & Ecps & _).
  set (c0 := firstn (3 * n + 7) c) in *. set (ck := firstn (3 * k') (skipn (3 * n + 7) c)) in *.
  split. { rewrite Ef. apply (tau_ok_app n cs xs b Hn0); [lia|exact T0]. }
  rewrite Ef. exists pk, sk, ek, dk, ck, cps, []. split; [apply Hx|]. split; [rewrite <- (app_nil_r ck), Ecps; apply (hons_run n cs xs pf domain fuel b gens Hdom_ok Hb HbM Hcomp Hcount Hn0 Hcs Hdomain); [rewrite Lm; lia|exact Hg]|].
  cbv zeta. cbn [play]. destruct Hodd as (Z1 & Z2 & Z3). split; [exact Z1|]. split; [intros [_ Y]; exact (Z2 Y)|intros [_ Y]; exact (Z3 Y)].
Qed.
Theorem rcca_forgery (A : adversary E (strategy E)) t q k w : limited t q k A ->
  rare (M k) (Z.of_nat N + (D0 n xs + (cost w t q k + NM n xs 0 (Z.of_nat k)))) (odd_duel A w).
Proof. intros W. refine (rare_imp _ _ _ _ _ (rcca_forgery_all A t q k w W)). intros c _ H. right. right. exact H. Qed.
(* the game comes to an end *)
Lemma duel_ends {R} (A : adversary E R) t q k : limited t q k A -> forall w offered cps st pk sk ek dk, good_setup n xs pf domain fuel b gens pk ek dk -> (3 * k <= length st)%nat ->
  exists r cps', duel pf B gens b pk sk ek dk w A offered cps st = Some (r, cps') /\ incl cps cps'.
Proof.
  intros W. induction W as [t q k r0|t q k m A1 A2 W1 IH1 W2 IH2|t q k m m' next W IH|t q k St next W IH]; intros w offered cps st pk sk ek dk Hg Ls; cbn [duel].
  - exists r0, cps. split; [reflexivity|]. intros x Hx. exact Hx.
  - destruct (geqb _ _); [eapply IH1|eapply IH2]; eassumption.
  - destruct st as [|x [|y [|z st]]]; try (cbn [length] in Ls; lia).
    destruct (enc_forged n cs xs pf domain fuel b gens Hdom_ok Hb HbM Hcomp Hcount Hcs Hdomain (if w then m' else m) x y z) as (S0 & HS0). specialize (HS0 pk ek dk st Hg). rewrite HS0.
    destruct (IH w (m :: m' :: offered) (cps ++ [forged gens pk ek dk S0]) st pk sk ek dk Hg ltac:(cbn [length] in Ls; lia)) as (r & cps' & Y1 & Y2). exists r, cps'. split; [exact Y1|].
    intros u Hu. apply Y2. apply in_or_app. left. exact Hu.
  - eapply IH; eassumption.
Qed.
End RCount.
