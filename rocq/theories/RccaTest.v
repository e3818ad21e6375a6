(* RccaTest.v -- a test on a table of ciphertexts has the same answer on almost all coins (for C78) *)
From Verif Require Import Base BaseFacts Algebra Utils UtilsFacts Setup Keygen Encryption Circuit CircuitFacts CircuitSat CommitmentFacts VecFacts KeySpec KeygenFacts
  EncryptFacts DecryptFacts Spec VerifyFacts Protocol ReencFacts DistFacts PropVerify Groth16 ArkGroth16 PolyFacts Groth16Spec ArkFacts Groth16Facts SchwartzZippel SoundCore SoundSpec
  SoundAlg SoundGame SoundLink SoundFacts SoundCount SoundHonest PropGroth16 PropSoundCases PropZK PrivacySpec PrivacyAlg PrivacyGame PrivacyLink PrivacyCount PrivacySpan PrivacyMany NonmalCount.

(* ---------- sets of tuples that contain at most a fraction D / p of them ---------- *)
Section Rare.
Context {K : prime_field}.
Notation F := (scalar K).
Notation p := (modulus K).
Definition rare (m : nat) (D : Z) (P : list F -> Prop) : Prop :=
  forall L, NoDup L -> (forall c, In c L -> length c = m /\ P c) -> Z.of_nat (length L) * p <= D * p ^ Z.of_nat m.
Lemma app_parts {A} (x x' y y' : list A) : length x = length x' -> x ++ y = x' ++ y' -> x = x' /\ y = y'.
Proof.
  revert x'; induction x as [|u x IH]; intros [|u' x'] Hl Z; try discriminate; [split; [reflexivity|exact Z]|]. cbn [app] in Z. injection Z as -> Z.
  destruct (IH x') as [-> ->]; [cbn in Hl; lia|exact Z|split; reflexivity].
Qed.
Lemma skip_plus {A} u k (l : list A) : skipn u (skipn k l) = skipn (k + u) l.
Proof. revert l; induction k as [|k IH]; intros [|x l]; cbn [skipn Nat.add]; try reflexivity; [apply skipn_nil|apply IH]. Qed.
Lemma pow_p m : 0 < p ^ Z.of_nat m.
Proof. pose proof (@modulus_gt1 K). apply Z.pow_pos_nonneg; lia. Qed.
Lemma rare_imp m D (P Q : list F -> Prop) : (forall c, length c = m -> P c -> Q c) -> rare m D Q -> rare m D P.
Proof. intros HI HR L Hnd HL. apply HR; [exact Hnd|]. intros c Hc. destruct (HL c Hc). split; [assumption|apply HI; assumption]. Qed.
Lemma rare_le m D D' (P : list F -> Prop) : D <= D' -> rare m D P -> rare m D' P.
Proof. intros HD HR L Hnd HL. eapply Z.le_trans; [exact (HR L Hnd HL)|]. apply Z.mul_le_mono_nonneg_r; [|exact HD]. pose proof (pow_p m). lia. Qed.
Lemma rare_never m D (P : list F -> Prop) : 0 <= D -> (forall c, length c = m -> ~ P c) -> rare m D P.
Proof.
  intros HD HN L Hnd HL. destruct L as [|c L]; [cbn [length]; pose proof (pow_p m); nia|]. destruct (HL c (or_introl eq_refl)) as [H1 H2]. destruct (HN c H1 H2).
Qed.
Lemma rare_or m D D' (P Q : list F -> Prop) : rare m D P -> rare m D' Q -> rare m (D + D') (fun c => P c \/ Q c).
Proof.
  intros HP HQ L Hnd HL. destruct (cover2 P Q L Hnd (fun c Hc => proj2 (HL c Hc))) as (L1 & L2 & N1 & N2 & Len & I1 & I2).
  assert (B1 := HP L1 N1 ltac:(intros c Hc; destruct (I1 c Hc) as [Hi Hx]; split; [apply HL; exact Hi|exact Hx])).
  assert (B2 := HQ L2 N2 ltac:(intros c Hc; destruct (I2 c Hc) as [Hi Hx]; split; [apply HL; exact Hi|exact Hx])).
  rewrite Len, Nat2Z.inj_add, !Z.mul_add_distr_r. lia.
Qed.
(* one part of the tuple fixed at a time *)
Lemma rare_fiber m0 r s D (P : list F -> Prop) :
  (forall x, length x = r -> rare (m0 + s) D (fun z => P (firstn m0 z ++ x ++ skipn m0 z))) -> rare (m0 + r + s) D P.
Proof.
  intros HF L Hnd HL. pose proof (@modulus_gt1 K) as Hp. destruct (@all_tuples_exist K r) as (T & T1 & T2). pose proof (all_tuples_count _ T T1 T2) as CT.
  set (mid := fun c : list F => firstn r (skipn m0 c)). set (out := fun c : list F => firstn m0 c ++ skipn (m0 + r) c).
  assert (Back : forall c, length c = (m0 + r + s)%nat -> length (out c) = (m0 + s)%nat /\ firstn m0 (out c) ++ mid c ++ skipn m0 (out c) = c).
  { intros c Lc. assert (L1 : length (firstn m0 c) = m0) by (rewrite firstn_length; lia). split; [unfold out; rewrite app_length, L1, skipn_length; lia|].
    unfold out. rewrite firstn_app, firstn_firstn, L1, Nat.sub_diag, Nat.min_id. cbn [firstn]. rewrite app_nil_r.
    rewrite skipn_app, L1, Nat.sub_diag, skipn_all2 by lia. cbn [skipn app]. unfold mid. rewrite <- skip_plus. rewrite firstn_skipn. apply firstn_skipn. }
  eapply Z.le_trans; [apply (fiber_bound (list_eq_dec feq_dec) mid T L p (D * p ^ Z.of_nat (m0 + s)) ltac:(lia))|].
  - intros c Hc. destruct (HL c Hc) as [Lc _]. apply T2. unfold mid. rewrite firstn_length, skipn_length. lia.
  - intros x Hx. apply T2 in Hx. set (L1 := filter _ L). rewrite <- (map_length out L1).
    assert (In1 : forall c, In c L1 -> In c L /\ mid c = x).
    { intros c Hc. apply filter_In in Hc. destruct Hc as [Hc Hd]. split; [exact Hc|]. destruct (list_eq_dec feq_dec (mid c) x); [assumption|discriminate]. }
    assert (Nd : NoDup L1) by (apply NoDup_filter; exact Hnd). apply (HF x Hx).
    + clearbody L1. induction L1 as [|c L1 IH]; cbn [map]; [constructor|]. inversion Nd as [|? ? Nc Nd']; subst. constructor.
      * intros Z. apply in_map_iff in Z. destruct Z as (d & Ed & Hd). apply Nc. replace c with d; [exact Hd|].
        destruct (In1 c (or_introl eq_refl)) as [Ic Oc]. destruct (In1 d (or_intror Hd)) as [Id Od].
        rewrite <- (proj2 (Back c (proj1 (HL c Ic)))), <- (proj2 (Back d (proj1 (HL d Id)))), Ed, Oc, Od. reflexivity.
      * apply IH; [|exact Nd']. intros d Hd. apply In1. right. exact Hd.
    + intros w Hw. apply in_map_iff in Hw. destruct Hw as (c & <- & Hc). destruct (In1 c Hc) as [Ic Oc]. destruct (HL c Ic) as [Lc HP]. destruct (Back c Lc) as [B1 B2].
      split; [exact B1|]. rewrite <- Oc, B2. exact HP.
  - rewrite CT. apply Z.eq_le_incl. rewrite !Nat2Z.inj_add, !Z.pow_add_r by lia. ring.
Qed.
Lemma rare_prefix m r D (P : list F -> Prop) : rare m D P -> rare (m + r) D (fun c => P (firstn m c)).
Proof.
  intros HR. replace (m + r)%nat with (m + r + 0)%nat by lia. apply rare_fiber. intros x Hx. rewrite Nat.add_0_r. apply (rare_imp _ _ _ P); [|exact HR].
  intros z Lz HP. replace (firstn m (firstn m z ++ x ++ skipn m z)) with z in HP; [exact HP|].
  rewrite firstn_app, firstn_firstn, Nat.min_id, firstn_length, Lz, Nat.min_id, Nat.sub_diag. cbn [firstn]. rewrite app_nil_r. symmetry. apply firstn_all2. lia.
Qed.
Lemma rare_suffix m r D (P Q : list F -> Prop) : (forall c x, length c = m -> length x = r -> P c -> Q (c ++ x)) -> rare (m + r) D Q -> rare m D P.
Proof.
  intros HI HR L Hnd HL. pose proof (@modulus_gt1 K) as Hp. destruct (@all_tuples_exist K r) as (T & T1 & T2). pose proof (all_tuples_count _ T T1 T2) as CT.
  specialize (HR (map (fun cx => fst cx ++ snd cx) (list_prod L T))). rewrite map_length, prod_length, Nat2Z.inj_mul, CT in HR.
  apply (Z.mul_le_mono_pos_r _ _ (p ^ Z.of_nat r)); [apply pow_p|]. rewrite <- !Z.mul_assoc, <- Z.pow_add_r, <- Nat2Z.inj_add by lia.
  eapply Z.le_trans; [|apply HR].
  - apply Z.eq_le_incl. ring.
  - apply nodup_map_in; [|apply nodup_prod; assumption]. intros [c x] [d y] Hc Hd Ee. apply in_prod_iff in Hc, Hd. destruct Hc as [Hc _], Hd as [Hd _]. cbn [fst snd] in Ee.
    destruct (app_parts c d x y) as [-> ->]; [|exact Ee|reflexivity]. destruct (HL c Hc) as [-> _]. destruct (HL d Hd) as [-> _]. reflexivity.
  - intros w Hw. apply in_map_iff in Hw. destruct Hw as ([c x] & <- & Hc). apply in_prod_iff in Hc. destruct Hc as [Hc Hx]. apply T2 in Hx. destruct (HL c Hc) as [Lc HP]. cbn [fst snd].
    split; [rewrite app_length; lia|apply HI; assumption].
Qed.
End Rare.

Section Tests.
Context {E : pairing}.
Notation K := (K_of E).
Notation F := (Fr E).
Add Ring Kr : (@scalar_ring_theory K).
Notation e i env := (nth i env fzero).
Notation p := (modulus K).
Variables (n : nat) (cs : csys K) (xs : list F) (pf : profile) (domain : nat -> option (list F)) (fuel : nat) (b : Z) (gens : encryption_gens E).
Let ni := cs_num_inst cs.
Let nw := cs_num_wit cs.
Let nc := length (cs_cons cs).
Let N := length xs.
Notation G := (eg_G gens).
Notation H := (eg_H gens).
Notation B := (ark_backend pf domain fuel).
Hypothesis HG : G <> gzero.
Hypothesis HH : H <> gzero.
Hypothesis Hdom_ok : domain_ok domain.
Hypothesis Hb : supported b.
Hypothesis HbM : 2 ^ b <= modulus K.
Hypothesis Hcomp : chunk_compatible K b.
Hypothesis Hcount : chunks_count K b = Ok (Z.of_nat n).
Hypothesis Hn0 : (0 < n)%nat.
Hypothesis Hcs : generate_constraints (BitsizeCheckCircuit b (Z.of_nat n) None true) (@cs_new K Circuit.Setup) = Ok cs.
Hypothesis Hdomain : domain (nc + ni)%nat = Some xs.
Let D1 := 3 * Z.of_nat N + 9 * (3 * Z.of_nat n + 9).

Definition tau_ok (c : list F) : Prop := vanishing_at xs (e 4 c) <> fzero.
Definition zero_seen (ms : list F) (q : list (list F)) (c : list F) : bool := experiment_many pf B gens b (Ask q (Guess true) (Guess false)) ms c.
Definition nonzero_seen (ms : list F) (q : list (list F)) (c : list F) : bool := experiment_many pf B gens b (Ask q (Guess false) (Guess true)) ms c.

(* one encryption *)
Lemma single_test q m : (forall c, length c = (3 * n + 10)%nat -> tau_ok c -> experiment pf B gens b (Ask q (Guess false) (Guess true)) m c = false) \/
  rare (3 * n + 10) D1 (fun c => tau_ok c /\ experiment pf B gens b (Ask q (Guess true) (Guess false)) m c = true).
Proof.
  destruct (message_assignment n pf b m Hb HbM) as (ds & sp & Hds & Hsp).
  assert (X : forall g1 g2 c, length c = (3 * n + 10)%nat -> tau_ok c -> experiment pf B gens b (Ask q (Guess g1) (Guess g2)) m c = false \/
     e 2 c <> fzero /\ e 3 c <> fzero /\ experiment pf B gens b (Ask q (Guess g1) (Guess g2)) m c = obsf n cs xs (Ask q (Guess g1) (Guess g2)) (mv ds) (zv cs sp) c).
  { intros g1 g2 c Lc Tc. destruct (setup_for_groth16 B (replay_rng E) b gens c) as [r|err|] eqn:Hset; [right|left|left]; try (unfold experiment; rewrite Hset; reflexivity).
    exact (experiment_obsf n cs xs pf domain fuel b gens HG HH Hdom_ok Hb HbM Hcomp Hcount Hn0 Hcs Hdomain _ m ds sp c Lc Tc Hds Hsp r Hset). }
  destruct (zero_or_small n cs xs Hn0 q (mv ds) (zv cs sp)) as [Z|Z]; [left|right].
  - intros c Lc Tc. destruct (X false true c Lc Tc) as [Y|(Y1 & Y2 & ->)]; [exact Y|]. cbn [obsf]. rewrite (Z c Lc Y1 Y2), (proj2 (feqb_spec fzero fzero) eq_refl). reflexivity.
  - intros L Hnd HL. pose proof (union_bound (3 * n + 10) [(D1, f_ans n cs xs q (mv ds) (zv cs sp))] L ltac:(constructor; [exact Z|constructor]) Hnd) as U.
    cbn [map fst zsum] in U. rewrite Z.add_0_r in U. apply U. intros c Hc. destruct (HL c Hc) as (Lc & Tc & Y). split; [exact Lc|constructor 1]. cbn [snd].
    destruct (X true false c Lc Tc) as [Y'|(_ & _ & Y')]; rewrite Y' in Y; [discriminate Y|]. cbn [obsf] in Y. destruct (feqb _ _) eqn:W; [apply feqb_spec; exact W|discriminate Y].
Qed.

(* the whole table, seen from one encryption *)
Lemma many_single_rows before after cb ca : length cb = (3 * length before)%nat -> length ca = (3 * length after)%nat ->
  exists r1 r2, forall O c0 c3 m, length c0 = (3 * n + 7)%nat -> length c3 = 3%nat -> tau_ok c0 ->
    experiment_many pf B gens b O (before ++ m :: after) (c0 ++ cb ++ c3 ++ ca) = experiment pf B gens b (pull_observer r1 r2 O) m (c0 ++ c3).
Proof.
  intros Lb La.
  destruct (enc_all_forged n cs xs pf domain fuel b gens Hdom_ok Hb HbM Hcomp Hcount Hn0 Hcs Hdomain before cb Lb) as (Ss & LS & HS).
  destruct (enc_all_forged n cs xs pf domain fuel b gens Hdom_ok Hb HbM Hcomp Hcount Hn0 Hcs Hdomain after ca La) as (Ss' & LS' & HS').
  destruct (tab1_spanned n cs xs b gens Hn0 Ss Ss') as (r1 & H1). destruct (tab2_spanned n cs xs gens Ss Ss') as (r2 & H2).
  exists r1, r2. intros O c0 c3 m L0 L3 Hv. unfold experiment_many, experiment.
  destruct (setup_local n cs xs pf domain fuel b gens Hb HbM Hcount Hn0 Hcs Hdomain c0 L0 Hv) as [(pk & sk & ek & dk & Hset)|Hfail].
  - rewrite !Hset. assert (Hg : good_setup n xs pf domain fuel b gens pk ek dk).
    { exists c0, sk. split; [exact L0|]. split; [exact Hv|]. rewrite <- (Hset []), app_nil_r. reflexivity. }
    destruct (run_ok pf domain fuel b gens Hdom_ok Hb HbM Hcomp m (c0 ++ c3) pk sk ek dk c3 (Hset c3)) as (ct & r & q & st2 & Hrun). rewrite Hrun.
    rewrite (encrypt_all_app _ _ _ _ _ _ _ _ _ _ _ (HS pk ek dk (c3 ++ ca) Hg)). cbn [encrypt_all].
    pose proof Hrun as Hrun'. destruct c3 as [|x [|y [|z [|? ?]]]]; try discriminate L3.
    cbn [app]. rewrite (encrypt_with_proof_rest _ _ _ _ _ _ _ _ _ ca _ _ _ _ Hrun'). cbn [bind].
    pose proof (HS' pk ek dk [] Hg) as X. rewrite app_nil_r in X. rewrite X. cbn [bind].
    pose proof (good_run_holds n cs xs pf domain fuel b gens HH Hdom_ok Hb HbM Hcomp Hcount Hn0 Hcs Hdomain c0 [x; y; z] pk sk ek dk m ct r q st2 L0 L3 Hv (Hset _) Hrun) as Hgr.
    rewrite pull_observe. pose proof (H1 (pk, ek, dk, (ct, q)) Hgr) as X1. pose proof (H2 (pk, ek, dk, (ct, q)) Hgr) as X2. cbn [run_g1 run_g2 tab_g1 tab_g2] in X1, X2.
    rewrite <- X1, <- X2. reflexivity.
  - destruct (setup_for_groth16 B (replay_rng E) b gens (c0 ++ cb ++ c3 ++ ca)) as [r| |] eqn:E1; [destruct (Hfail _ _ E1)| |];
    (destruct (setup_for_groth16 B (replay_rng E) b gens (c0 ++ c3)) as [r| |] eqn:E2; [destruct (Hfail _ _ E2)|reflexivity|reflexivity]).
Qed.
(* ... and with one more encryption that is not shown *)
Lemma all_single_rows ms ck : length ck = (3 * length ms)%nat ->
  exists r1 r2, forall O c0 c3, length c0 = (3 * n + 7)%nat -> length c3 = 3%nat -> tau_ok c0 ->
    experiment_many pf B gens b O ms (c0 ++ ck) = experiment pf B gens b (pull_observer r1 r2 O) fzero (c0 ++ c3).
Proof.
  intros Lk. destruct (enc_all_forged n cs xs pf domain fuel b gens Hdom_ok Hb HbM Hcomp Hcount Hn0 Hcs Hdomain ms ck Lk) as (Ss & LS & HS).
  assert (S1 : spanned (good_run n cs xs gens) (run_g1 gens) (fun a => let '(pk, ek, dk, _) := a in table_g1 gens pk ek (map (forged gens pk ek dk) Ss))).
  { apply (sp_ext _ _ _ (fun a => pub_g1 gens a ++ concat (map (fun S => let '(pk, ek, dk, _) := a in pair_g1 (forged gens pk ek dk S)) Ss))).
    - intros [[[pk ek] dk] [ct q]] _. unfold table_g1, pub_g1. rewrite map_map. reflexivity.
    - apply sp_app; [apply pub1_spanned|]. apply sp_concat. intros S _. apply forged_spanned. }
  assert (S2 : spanned (good_run n cs xs gens) (run_g2 gens) (fun a => let '(pk, ek, dk, _) := a in table_g2 gens pk ek dk (map (forged gens pk ek dk) Ss))).
  { apply (sp_ext _ _ _ (fun a => pub_g2 gens a ++ combos (map sg_b Ss) (pub_g2 gens a))).
    - intros [[[pk ek] dk] [ct q]] _. unfold table_g2, pub_g2, combos. rewrite !map_map. reflexivity.
    - apply sp_app; [apply pub2_spanned|]. apply (sp_trans _ _ _ _ (pub2_spanned n cs xs gens)). apply sp_combos. }
  destruct S1 as (r1 & H1). destruct S2 as (r2 & H2).
  exists r1, r2. intros O c0 c3 L0 L3 Hv. unfold experiment_many, experiment.
  destruct (setup_local n cs xs pf domain fuel b gens Hb HbM Hcount Hn0 Hcs Hdomain c0 L0 Hv) as [(pk & sk & ek & dk & Hset)|Hfail].
  - rewrite !Hset. assert (Hg : good_setup n xs pf domain fuel b gens pk ek dk).
    { exists c0, sk. split; [exact L0|]. split; [exact Hv|]. rewrite <- (Hset []), app_nil_r. reflexivity. }
    destruct (run_ok pf domain fuel b gens Hdom_ok Hb HbM Hcomp fzero (c0 ++ c3) pk sk ek dk c3 (Hset c3)) as (ct & r & q & st2 & Hrun). rewrite Hrun.
    pose proof (HS pk ek dk [] Hg) as X. rewrite app_nil_r in X. rewrite X.
    pose proof (good_run_holds n cs xs pf domain fuel b gens HH Hdom_ok Hb HbM Hcomp Hcount Hn0 Hcs Hdomain c0 c3 pk sk ek dk fzero ct r q st2 L0 L3 Hv (Hset _) Hrun) as Hgr.
    rewrite pull_observe. pose proof (H1 (pk, ek, dk, (ct, q)) Hgr) as X1. pose proof (H2 (pk, ek, dk, (ct, q)) Hgr) as X2. cbn [run_g1 run_g2] in X1, X2.
    rewrite <- X1, <- X2. reflexivity.
  - destruct (setup_for_groth16 B (replay_rng E) b gens (c0 ++ ck)) as [r| |] eqn:E1; [destruct (Hfail _ _ E1)| |];
    (destruct (setup_for_groth16 B (replay_rng E) b gens (c0 ++ c3)) as [r| |] eqn:E2; [destruct (Hfail _ _ E2)|reflexivity|reflexivity]).
Qed.

(* if the setup works, a test is answered one way or the other *)
Lemma seen_either ms q c0 x y : length c0 = (3 * n + 7)%nat -> tau_ok c0 -> length x = (3 * length ms)%nat -> length y = (3 * length ms)%nat ->
  zero_seen ms q (c0 ++ x) = true -> nonzero_seen ms q (c0 ++ y) = false -> zero_seen ms q (c0 ++ y) = true.
Proof.
  intros L0 Hv Lx Ly Hz Hnz. unfold zero_seen, nonzero_seen, experiment_many in *.
  destruct (setup_local n cs xs pf domain fuel b gens Hb HbM Hcount Hn0 Hcs Hdomain c0 L0 Hv) as [(pk & sk & ek & dk & Hset)|Hfail].
  - rewrite Hset in Hz |- *. rewrite Hset in Hnz. assert (Hg : good_setup n xs pf domain fuel b gens pk ek dk).
    { exists c0, sk. split; [exact L0|]. split; [exact Hv|]. rewrite <- (Hset []), app_nil_r. reflexivity. }
    destruct (enc_all_forged n cs xs pf domain fuel b gens Hdom_ok Hb HbM Hcomp Hcount Hn0 Hcs Hdomain ms y Ly) as (Ss & LS & HS).
    pose proof (HS pk ek dk [] Hg) as X. rewrite app_nil_r in X. rewrite X in Hnz |- *. cbn [observe] in Hnz |- *. destruct (geqb _ _); [reflexivity|discriminate Hnz].
  - destruct (setup_for_groth16 B (replay_rng E) b gens (c0 ++ x)) as [r| |] eqn:E1; [destruct (Hfail _ _ E1)|discriminate Hz|discriminate Hz].
Qed.

Lemma tau_ok_app c0 x : (4 < length c0)%nat -> tau_ok (c0 ++ x) <-> tau_ok c0.
Proof. intros Hl. unfold tau_ok. rewrite app_nth1 by lia. reflexivity. Qed.
Lemma tau_ok_dec c : {tau_ok c} + {~ tau_ok c}.
Proof. unfold tau_ok. destruct (feq_dec (vanishing_at xs (e 4 c)) fzero) as [Z|Z]; [right; intros X; exact (X Z)|left; exact Z]. Qed.

(* one more block of coins at a time *)
Lemma blocks ms q a : length a = (3 * length ms)%nat -> (exists c0, length c0 = (3 * n + 7)%nat /\ tau_ok c0 /\ nonzero_seen ms q (c0 ++ a) = true) ->
  forall i, (i <= length ms)%nat -> rare (3 * n + 7 + 3 * i) (Z.of_nat (i + 1) * D1) (fun c => tau_ok c /\ zero_seen ms q (c ++ skipn (3 * i) a) = true).
Proof.
  intros La (c0s & L0s & T0s & Hns). induction i as [|i IH]; intros Hi.
  - destruct (all_single_rows ms a La) as (r1 & r2 & HR). destruct (single_test (pull_back q r1 r2) fzero) as [Z|Z].
    + exfalso. set (z3 := [@fzero K; fzero; fzero]). assert (X : nonzero_seen ms q (c0s ++ a) = false); [|congruence].
      unfold nonzero_seen. rewrite (HR _ c0s z3 L0s eq_refl T0s). cbn [pull_observer]. apply Z; [rewrite app_length, L0s; unfold z3; cbn [length]; lia|apply tau_ok_app; [lia|exact T0s]].
    + cbn [Nat.mul Nat.add]. rewrite Nat.add_0_r. replace (Z.of_nat 1 * D1) with D1 by lia. replace (3 * n + 10)%nat with (3 * n + 7 + 3)%nat in Z by lia.
      refine (rare_suffix _ 3 _ _ _ _ Z). intros c x Lc Lx [Tc Hz]. split; [apply tau_ok_app; [lia|exact Tc]|]. cbn [skipn] in Hz. unfold zero_seen in Hz. rewrite (HR _ c x Lc Lx Tc) in Hz. exact Hz.
  - specialize (IH ltac:(lia)). pose proof (firstn_skipn i ms) as Ems. set (before := firstn i ms) in *. assert (Lbe : length before = i) by (unfold before; rewrite firstn_length; lia).
    destruct (skipn i ms) as [|m after] eqn:Eaf; [assert (length (skipn i ms) = 0%nat) by (rewrite Eaf; reflexivity); rewrite skipn_length in *; lia|].
    assert (Laf : length after = (length ms - S i)%nat) by (assert (X : length (skipn i ms) = S (length after)) by (rewrite Eaf; reflexivity); rewrite skipn_length in X; lia).
    set (ra := skipn (3 * S i) a). assert (Lra : length ra = (3 * length after)%nat) by (unfold ra; rewrite skipn_length; lia).
    set (ys := firstn 3 (skipn (3 * i) a)). assert (Lys : length ys = 3%nat) by (unfold ys; rewrite firstn_length, skipn_length; lia).
    assert (Era : skipn (3 * i) a = ys ++ ra) by (unfold ys, ra; replace (3 * S i)%nat with (3 * i + 3)%nat by lia; rewrite <- (skip_plus 3 (3 * i) a); symmetry; apply firstn_skipn). rewrite Era in IH.
    set (stuck := fun x : list F => forall c0, length c0 = (3 * n + 7)%nat -> tau_ok c0 -> nonzero_seen ms q (c0 ++ x ++ ys ++ ra) = false).
    assert (stuck_or : forall x, stuck x \/ exists c0, length c0 = (3 * n + 7)%nat /\ tau_ok c0 /\ nonzero_seen ms q (c0 ++ x ++ ys ++ ra) = true).
    { intros x. destruct (all_or_some n cs xs Hn0 (3 * n + 7) (fun c0 => tau_ok c0 -> nonzero_seen ms q (c0 ++ x ++ ys ++ ra) = false)) as [Z|(c0 & Lc & Z)].
      - intros c0. destruct (tau_ok_dec c0) as [T|T]; [|left; intros X; destruct (T X)]. destruct (nonzero_seen ms q (c0 ++ x ++ ys ++ ra)); [right; intros X; discriminate (X T)|left; reflexivity].
      - left. intros c0 Lc Tc. apply Z; assumption.
      - right. exists c0. split; [exact Lc|]. destruct (tau_ok_dec c0) as [T|T]; [|exfalso; apply Z; intros X; destruct (T X)]. split; [exact T|]. destruct (nonzero_seen ms q (c0 ++ x ++ ys ++ ra)); [reflexivity|exfalso; apply Z; intros _; reflexivity]. }
    set (mid := fun c : list F => firstn (3 * i) (skipn (3 * n + 7) c)).
    apply (rare_imp _ _ _ (fun c => (tau_ok c /\ zero_seen ms q (firstn (3 * n + 7 + 3 * i) c ++ ys ++ ra) = true) \/ (tau_ok c /\ zero_seen ms q (c ++ ra) = true /\ ~ stuck (mid c)))).
    { intros c Lc [Tc Hz]. fold ra in Hz. destruct (stuck_or (mid c)) as [S|S]; [left|right].
      - split; [exact Tc|]. set (c0 := firstn (3 * n + 7) c). assert (L0 : length c0 = (3 * n + 7)%nat) by (unfold c0; rewrite firstn_length; lia).
        assert (Ec : c = c0 ++ skipn (3 * n + 7) c) by (symmetry; apply firstn_skipn). assert (T0 : tau_ok c0) by (rewrite Ec in Tc; apply tau_ok_app in Tc; [exact Tc|lia]).
        assert (Ef : firstn (3 * n + 7 + 3 * i) c = c0 ++ mid c).
        { rewrite Ec at 1. rewrite firstn_app, L0, firstn_all2 by lia. f_equal. unfold mid. f_equal. lia. }
        rewrite Ef, <- app_assoc. apply (seen_either ms q c0 (skipn (3 * n + 7) c ++ ra)); [exact L0|exact T0|rewrite app_length, skipn_length; lia| | |apply S; assumption].
        + rewrite !app_length. unfold mid. rewrite firstn_length, skipn_length. lia.
        + rewrite app_assoc, <- Ec. exact Hz.
      - split; [exact Tc|]. split; [exact Hz|]. intros S'. destruct S as (c0 & Lc0 & Tc0 & X). rewrite (S' c0 Lc0 Tc0) in X. discriminate X. }
    replace (Z.of_nat (S i + 1) * D1) with (Z.of_nat (i + 1) * D1 + D1) by lia. apply rare_or.
    + replace (3 * n + 7 + 3 * S i)%nat with (3 * n + 7 + 3 * i + 3)%nat by lia.
      refine (rare_imp _ _ _ _ _ (rare_prefix _ 3 _ _ IH)). intros c Lc [Tc Hz]. split; [|exact Hz].
      rewrite <- (firstn_skipn (3 * n + 7 + 3 * i) c) in Tc. apply tau_ok_app in Tc; [exact Tc|rewrite firstn_length; lia].
    + replace (3 * n + 7 + 3 * S i)%nat with (3 * n + 7 + 3 * i + 3)%nat by lia. apply rare_fiber. intros x Lx.
      assert (HD : 0 <= D1) by (unfold D1; lia).
      assert (Emid : forall z, length z = (3 * n + 7 + 3)%nat -> mid (firstn (3 * n + 7) z ++ x ++ skipn (3 * n + 7) z) = x).
      { intros z Lz. unfold mid. rewrite skipn_app, firstn_length, Lz, Nat.min_l, Nat.sub_diag by lia. rewrite skipn_all2 by (rewrite firstn_length; lia). cbn [skipn app].
        rewrite firstn_app, Lx, Nat.sub_diag. cbn [firstn]. rewrite app_nil_r. apply firstn_all2. lia. }
      destruct (stuck_or x) as [S|(c1 & L1 & T1 & X1)].
      { apply rare_never; [exact HD|]. intros z Lz (_ & _ & NS). apply NS. rewrite Emid by exact Lz. exact S. }
      destruct (many_single_rows before after x ra) as (r1 & r2 & HR); [rewrite Lbe; exact Lx|exact Lra|]. assert (HRm := fun O c0 c3 => HR O c0 c3 m). rewrite Ems in HRm. clear HR.
      destruct (single_test (pull_back q r1 r2) m) as [Z|Z].
      * exfalso. unfold nonzero_seen in X1. rewrite (HRm _ c1 ys L1 Lys T1) in X1. cbn [pull_observer] in X1. rewrite Z in X1; [discriminate X1|rewrite app_length; lia|apply tau_ok_app; [lia|exact T1]].
      * replace (3 * n + 10)%nat with (3 * n + 7 + 3)%nat in Z by lia. refine (rare_imp _ _ _ _ _ Z). intros z Lz (Tz & Hz & _).
        set (c0 := firstn (3 * n + 7) z) in *. set (c3 := skipn (3 * n + 7) z) in *. assert (L0 : length c0 = (3 * n + 7)%nat) by (unfold c0; rewrite firstn_length; lia).
        assert (L3 : length c3 = 3%nat) by (unfold c3; rewrite skipn_length; lia). assert (Ez : z = c0 ++ c3) by (symmetry; apply firstn_skipn).
        apply tau_ok_app in Tz; [|lia]. rewrite Ez. split; [apply tau_ok_app; [lia|exact Tz]|]. unfold zero_seen in Hz.
        rewrite <- !app_assoc in Hz. rewrite (HRm _ c0 c3 L0 L3 Tz) in Hz. exact Hz.
Qed.
Theorem test_constant ms q : (forall c, length c = (3 * n + 7 + 3 * length ms)%nat -> tau_ok c -> nonzero_seen ms q c = false) \/
  rare (3 * n + 7 + 3 * length ms) (Z.of_nat (length ms + 1) * D1) (fun c => tau_ok c /\ zero_seen ms q c = true).
Proof.
  destruct (all_or_some n cs xs Hn0 (3 * n + 7 + 3 * length ms) (fun c => tau_ok c -> nonzero_seen ms q c = false)) as [Z|(c & Lc & Z)].
  - intros c. destruct (tau_ok_dec c) as [T|T]; [|left; intros X; destruct (T X)]. destruct (nonzero_seen ms q c); [right; intros X; discriminate (X T)|left; reflexivity].
  - left. intros c Lc Tc. apply Z; assumption.
  - right. destruct (tau_ok_dec c) as [T|T]; [|exfalso; apply Z; intros X; destruct (T X)].
    set (c0 := firstn (3 * n + 7) c). set (a := skipn (3 * n + 7) c). assert (Ec : c = c0 ++ a) by (symmetry; apply firstn_skipn).
    assert (L0 : length c0 = (3 * n + 7)%nat) by (unfold c0; rewrite firstn_length; lia). assert (La : length a = (3 * length ms)%nat) by (unfold a; rewrite skipn_length; lia).
    refine (rare_imp _ _ _ _ _ (blocks ms q a La _ (length ms) (le_n _))).
    + intros c' Lc' [Tc' Hz]. split; [exact Tc'|]. rewrite skipn_all2 by lia. rewrite app_nil_r. exact Hz.
    + exists c0. split; [exact L0|]. rewrite Ec in T. apply tau_ok_app in T; [|lia]. split; [exact T|]. rewrite <- Ec. destruct (nonzero_seen ms q c); [reflexivity|exfalso; apply Z; intros _; reflexivity].
Qed.
End Tests.
