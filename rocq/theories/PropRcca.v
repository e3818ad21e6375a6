(* PropRcca.v -- theorems for C78: an attacker that chooses the messages as it goes, with a decryption service for everything else, learns nothing *)
From Verif Require Import Base BaseFacts Algebra Utils UtilsFacts Setup Keygen Encryption Circuit CircuitFacts CircuitSat CommitmentFacts VecFacts KeySpec KeygenFacts
  EncryptFacts DecryptFacts Spec VerifyFacts Protocol ReencFacts DistFacts PropVerify Groth16 ArkGroth16 PolyFacts Groth16Spec ArkFacts Groth16Facts SchwartzZippel SoundCore SoundSpec
  SoundAlg SoundGame SoundLink SoundFacts SoundCount SoundHonest PropUtils PropEnc PropGroth16 PropGroth16More PropGroth16Cases PropSound PropSoundCases PropZK PrivacySpec PrivacyAlg PrivacyGame PrivacyLink PrivacyCount
  PrivacySpan PrivacyMany PropPrivacy SoundDkgSpec SoundDkg SoundAdaptSpec SoundAdapt PropSoundAdapt NonmalCore NonmalAlg NonmalSpec NonmalGame NonmalRows NonmalLink NonmalCount PropNonmal
  RoundTrip CcaSpec Cca CcaCount PropCca RccaSpec RccaTest RccaCount Instance Examples.

(* The coins are those of the setup (3n+7) and of at most k encryptions (three each).  The attacker sees everything published, makes at most t
   tests and q submissions, and offers at most k pairs of messages, all in any order and each depending on everything before.  Either the first
   or the second message of every pair is encrypted; the result of the attack is the same on all but a small fraction of the coins. *)
Theorem C78_result_rarely_depends_on_which_messages (E : pairing) (R : Type) (gens : encryption_gens E) (pf : profile)
    (domain : nat -> option (list (Fr E))) (fuel n : nat) (b : Z) (cs : csys (K_of E)) (xs : list (Fr E))
    (t q k : nat) (A : adversary E R) (L : list (list (Fr E))) :
  eg_G gens <> gzero -> eg_H gens <> gzero -> domain_ok domain ->
  supported b -> 2 ^ b <= modulus (K_of E) ->
  64 * Z.of_nat (limbs (K_of E)) - b < modulus_bit_size (K_of E) -> 64 * Z.of_nat (limbs (K_of E)) < 256 * b ->
  chunks_count (K_of E) b = Ok (Z.of_nat n) -> (0 < n)%nat ->
  generate_constraints (BitsizeCheckCircuit b (Z.of_nat n) None true) (cs_new Circuit.Setup) = Ok cs ->
  domain (length (cs_cons cs) + cs_num_inst cs)%nat = Some xs ->
  limited t q k A -> NoDup L ->
  (forall coins, In coins L -> length coins = (3 * n + 7 + 3 * k)%nat /\
     experiment_rcca pf (ark_backend pf domain fuel) gens b false A coins <> experiment_rcca pf (ark_backend pf domain fuel) gens b true A coins) ->
  let N := Z.of_nat (length xs) in let m := 3 * Z.of_nat n in let T := Z.of_nat t + 2 * Z.of_nat q in
  let forged := 4 * N + 7 * (m + 6) + Z.of_nat k ^ 2 * (3 * N + 9 * (m + 9)) in
  Z.of_nat (length L) * modulus (K_of E) <=
  (N + (1 + Z.of_nat n + Z.of_nat n * (N + 2)) + 4 * T * (Z.of_nat k + 1) * (3 * N + 9 * (m + 9)) + 2 * Z.of_nat q * forged) * modulus (K_of E) ^ Z.of_nat (3 * n + 7 + 3 * k).
Proof.
  intros HG HH Hd Hb HM C1 C2 Hc Hn Hcs Hxs W Hnd HL. cbv zeta.
  pose proof (rcca_bound n cs xs pf domain fuel b gens HG HH Hd Hb HM (conj C1 C2) Hc Hn Hcs Hxs A t q k W L Hnd HL) as B.
  unfold cost, NM, D0 in B. cbn [cw] in B. replace (Z.of_nat t + 2 * Z.of_nat q) with (Z.of_nat (t + 2 * q)) by lia. set (Q := Z.of_nat (t + 2 * q)) in *. clearbody Q.
  replace (Z.of_nat (k + 1)) with (Z.of_nat k + 1) in B by lia.
  eapply Z.le_trans; [exact B|]. apply Z.eq_le_incl. ring.
Qed.

(* in terms of the number of coins on which the attacker says yes: All lists every sequence of coins once *)
Theorem C78_adaptively_chosen_messages_stay_secret (E : pairing) (gens : encryption_gens E) (pf : profile)
    (domain : nat -> option (list (Fr E))) (fuel n k : nat) (b : Z) (cs : csys (K_of E)) (xs : list (Fr E)) (All : list (list (Fr E))) :
  eg_G gens <> gzero -> eg_H gens <> gzero -> domain_ok domain ->
  supported b -> 2 ^ b <= modulus (K_of E) ->
  64 * Z.of_nat (limbs (K_of E)) - b < modulus_bit_size (K_of E) -> 64 * Z.of_nat (limbs (K_of E)) < 256 * b ->
  chunks_count (K_of E) b = Ok (Z.of_nat n) -> (0 < n)%nat ->
  generate_constraints (BitsizeCheckCircuit b (Z.of_nat n) None true) (cs_new Circuit.Setup) = Ok cs ->
  domain (length (cs_cons cs) + cs_num_inst cs)%nat = Some xs ->
  NoDup All -> (forall coins, In coins All <-> length coins = (3 * n + 7 + 3 * k)%nat) ->
  forall (t q : nat) (A : adversary E bool), limited t q k A ->
  let says_yes second coins := match experiment_rcca pf (ark_backend pf domain fuel) gens b second A coins with Some g => g | None => false end in
  let yes second := Z.of_nat (length (filter (says_yes second) All)) in
  let N := Z.of_nat (length xs) in let m := 3 * Z.of_nat n in let T := Z.of_nat t + 2 * Z.of_nat q in
  let forged := 4 * N + 7 * (m + 6) + Z.of_nat k ^ 2 * (3 * N + 9 * (m + 9)) in
  Z.abs (yes false - yes true) * modulus (K_of E) <=
  (N + (1 + Z.of_nat n + Z.of_nat n * (N + 2)) + 4 * T * (Z.of_nat k + 1) * (3 * N + 9 * (m + 9)) + 2 * Z.of_nat q * forged) * Z.of_nat (length All).
Proof.
  intros HG HH Hdom Hb HbM H1 H2 Hcount Hn0 Hcs Hxs Hnd HA t q A W says_yes yes. cbv zeta. rewrite (all_tuples_count _ All Hnd HA).
  pose proof (@modulus_gt1 (K_of E)) as Hp.
  eapply Z.le_trans; [apply Z.mul_le_mono_nonneg_r; [lia|apply count_difference]|].
  apply (C78_result_rarely_depends_on_which_messages E bool gens pf domain fuel n b cs xs t q k A _ HG HH Hdom Hb HbM H1 H2 Hcount Hn0 Hcs Hxs W); [apply NoDup_filter; exact Hnd|].
  intros coins Hin. apply filter_In in Hin. destruct Hin as [Hin Hne]. split; [apply HA; exact Hin|].
  intros Z. unfold says_yes in Hne. rewrite Z in Hne. rewrite Bool.eqb_reflx in Hne. discriminate Hne.
Qed.

(* What such an attacker gets accepted in the end is an encryption of chunks of b bits that can be read off its combinations, or a copy of a
   ciphertext on the table: cps are the encryptions of the messages offered during the attack. *)
Theorem C78_chosen_messages_do_not_help_to_forge (E : pairing) (gens : encryption_gens E) (pf : profile)
    (domain : nat -> option (list (Fr E))) (fuel n : nat) (b : Z) (cs : csys (K_of E)) (xs : list (Fr E))
    (t q k : nat) (second : bool) (A : adversary E (strategy E)) (L : list (list (Fr E))) :
  eg_G gens <> gzero -> eg_H gens <> gzero -> domain_ok domain ->
  supported b -> 2 ^ b <= modulus (K_of E) ->
  64 * Z.of_nat (limbs (K_of E)) - b < modulus_bit_size (K_of E) -> 64 * Z.of_nat (limbs (K_of E)) < 256 * b ->
  chunks_count (K_of E) b = Ok (Z.of_nat n) -> (0 < n)%nat ->
  generate_constraints (BitsizeCheckCircuit b (Z.of_nat n) None true) (cs_new Circuit.Setup) = Ok cs ->
  domain (length (cs_cons cs) + cs_num_inst cs)%nat = Some xs ->
  limited t q k A -> NoDup L ->
  (forall coins, In coins L -> length coins = (3 * n + 7 + 3 * k)%nat /\ exists pk sk ek dk rest S cps,
     setup_for_groth16 (ark_backend pf domain fuel) (replay_rng E) b gens coins = Ok (pk, sk, ek, dk, rest) /\
     duel pf (ark_backend pf domain fuel) gens b pk sk ek dk second A [] [] rest = Some (S, cps) /\
     let ct := ciphertext_from S (table_g1 gens pk ek cps) in
     let q := proof_from S (table_g1 gens pk ek cps) (table_g2 gens pk ek dk cps) in
     verify_commitment_and_proof ct q (prepare_verifying_key (gpk_vk (pk_pk pk))) (prepare_ek ek) (prepare_gens gens) = Ok tt /\
     ~ (digits_ok b (extracted_chunks n S) /\ exists g_i, get_gs_for_encryption (gpk_vk (pk_pk pk)) = Ok g_i /\
        encrypts ek g_i (extracted_chunks n S) (ct_vec ct) (extracted_r n S)) /\
     ~ (exists ct0 q0, In (ct0, q0) cps /\ ct = rerandomized ek (extracted_r n S) ct0 /\ exists kappa, kappa <> fzero /\ pr_a q = kappa [*] pr_a q0)) ->
  let N := Z.of_nat (length xs) in let m := 3 * Z.of_nat n in let T := Z.of_nat t + 2 * Z.of_nat q in
  let forged := 4 * N + 7 * (m + 6) + Z.of_nat k ^ 2 * (3 * N + 9 * (m + 9)) in
  Z.of_nat (length L) * modulus (K_of E) <=
  (N + (1 + Z.of_nat n + Z.of_nat n * (N + 2)) + 3 * T * (Z.of_nat k + 1) * (3 * N + 9 * (m + 9)) + (Z.of_nat q + 1) * forged) * modulus (K_of E) ^ Z.of_nat (3 * n + 7 + 3 * k).
Proof.
  intros HG HH Hd Hb HM C1 C2 Hc Hn Hcs Hxs W Hnd HL. cbv zeta.
  pose proof (rcca_forgery n cs xs pf domain fuel b gens HG HH Hd Hb HM (conj C1 C2) Hc Hn Hcs Hxs A t q k second W L Hnd HL) as B.
  unfold cost, NM, D0 in B. replace (Z.of_nat t + 2 * Z.of_nat q) with (Z.of_nat (t + 2 * q)) by lia. set (Q := Z.of_nat (t + 2 * q)) in *. assert (HQ : 0 <= Q) by (unfold Q; lia). clearbody Q.
  replace (Z.of_nat (k + 1)) with (Z.of_nat k + 1) in B by lia. pose proof (@modulus_gt1 (K_of E)) as Hp.
  eapply Z.le_trans; [exact B|]. apply Z.mul_le_mono_nonneg_r; [apply Z.pow_nonneg; lia|].
  set (X := Q * ((Z.of_nat k + 1) * (3 * Z.of_nat (length xs) + 9 * (3 * Z.of_nat n + 9)))). assert (HX : 0 <= X) by (unfold X; repeat apply Z.mul_nonneg_nonneg; lia).
  assert (cw second * X <= 3 * X) by (destruct second; cbn [cw]; lia). etransitivity; [apply Z.add_le_mono_l, Z.add_le_mono_l, Z.add_le_mono_r, Z.add_le_mono_r; exact H|]. unfold X. apply Z.eq_le_incl. ring.
Qed.

(* ---------- the game ---------- *)
(* With enough coins the game comes to an end whenever the setup succeeds, whatever the attacker does; the ciphertexts on the table at the end
   are the encryptions of the first, or of the second messages of the pairs that were offered. *)
Theorem C78_game_ends (E : pairing) (R : Type) (gens : encryption_gens E) (pf : profile)
    (domain : nat -> option (list (Fr E))) (fuel n : nat) (b : Z) (cs : csys (K_of E)) (xs : list (Fr E))
    (t q k : nat) (second : bool) (A : adversary E R) coins pk sk ek dk rest :
  domain_ok domain -> supported b -> 2 ^ b <= modulus (K_of E) ->
  64 * Z.of_nat (limbs (K_of E)) - b < modulus_bit_size (K_of E) -> 64 * Z.of_nat (limbs (K_of E)) < 256 * b ->
  chunks_count (K_of E) b = Ok (Z.of_nat n) -> (0 < n)%nat ->
  generate_constraints (BitsizeCheckCircuit b (Z.of_nat n) None true) (cs_new Circuit.Setup) = Ok cs ->
  domain (length (cs_cons cs) + cs_num_inst cs)%nat = Some xs ->
  limited t q k A -> length coins = (3 * n + 7 + 3 * k)%nat -> ~ In (nth 4 coins fzero) xs ->
  setup_for_groth16 (ark_backend pf domain fuel) (replay_rng E) b gens coins = Ok (pk, sk, ek, dk, rest) ->
  exists r cps msgs st, experiment_rcca pf (ark_backend pf domain fuel) gens b second A coins = Some r /\
    duel pf (ark_backend pf domain fuel) gens b pk sk ek dk second A [] [] rest = Some (r, cps) /\
    (length msgs <= k)%nat /\ encrypt_all pf (ark_backend pf domain fuel) (replay_rng E) msgs ek pk b rest = Ok (cps, st).
Proof.
  intros Hd Hb HM C1 C2 Hc Hn Hcs Hxs W Lc Hin Hset.
  assert (Tc : tau_ok xs coins) by (unfold tau_ok; rewrite vanishing_zero; exact Hin).
  pose proof (table_at n cs xs pf domain fuel b gens Hd Hb HM (conj C1 C2) Hc Hn Hcs Hxs [] 0 k coins pk sk ek dk rest [] rest eq_refl Lc Tc Hset eq_refl) as T. cbv zeta in T. destruct T as (_ & _ & _ & _ & _ & Hg & _ & Ls & _).
  destruct (duel_ends n cs xs pf domain fuel b gens Hd Hb HM (conj C1 C2) Hc Hn Hcs Hxs A t q k W second [] [] rest pk sk ek dk Hg ltac:(lia)) as (r & cps & HD & _).
  destruct (duel_table n cs xs pf domain fuel b gens Hn A t q k W second [] [] [] rest pk sk ek dk rest r cps eq_refl HD) as (msgs & st & L & He).
  exists r, cps, msgs, st. split; [unfold experiment_rcca; rewrite Hset, HD; reflexivity|]. split; [exact HD|]. split; [exact L|exact He].
Qed.

(* ---------- C77's attackers are special cases ---------- *)
Section Covers.
Context {E : pairing}.
Fixpoint adaptive {R} (A : attacker E R) : adversary E R :=
  match A with
  | Done r => Stop r
  | Check q A1 A2 => Try q (adaptive A1) (adaptive A2)
  | Submit St next => Ship St (fun r => adaptive (next r))
  end.
Fixpoint offer_all {R} (pairs : list (Fr E * Fr E)) (A : adversary E R) : adversary E R :=
  match pairs with
  | [] => A
  | (m, m') :: rest => Offer m m' (offer_all rest A)
  end.
Fixpoint offers (pairs : list (Fr E * Fr E)) (before : list (Fr E)) : list (Fr E) :=
  match pairs with
  | [] => before
  | (m, m') :: rest => offers rest (m :: m' :: before)
  end.
Definition side (second : bool) (mm : Fr E * Fr E) : Fr E := if second then snd mm else fst mm.
Lemma adaptive_duel {R} (pf : profile) B gens b pk sk ek dk second (A : attacker E R) offered cps coins :
  duel pf B gens b pk sk ek dk second (adaptive A) offered cps coins =
  Some (attack (service pf b gens pk sk ek dk offered) A (table_g1 gens pk ek cps) (table_g2 gens pk ek dk cps), cps).
Proof. revert offered cps coins. induction A as [r|q A1 IH1 A2 IH2|St next IH]; intros; cbn [adaptive duel attack]; [reflexivity| |apply IH]. destruct (geqb _ _); [apply IH1|apply IH2]. Qed.
Lemma offer_duel {R} (pf : profile) B gens b pk sk ek dk second (A : attacker E R) pairs : forall offered cps coins,
  option_map fst (duel pf B gens b pk sk ek dk second (offer_all pairs (adaptive A)) offered cps coins) =
  match encrypt_all pf B (replay_rng E) (map (side second) pairs) ek pk b coins with
  | Ok (more, _) => Some (attack (service pf b gens pk sk ek dk (offers pairs offered)) A (table_g1 gens pk ek (cps ++ more)) (table_g2 gens pk ek dk (cps ++ more)))
  | _ => None
  end.
Proof.
  induction pairs as [|[m m'] pairs IH]; intros offered cps coins; cbn [offer_all offers map encrypt_all].
  - rewrite adaptive_duel, app_nil_r. reflexivity.
  - cbn [duel]. change (side second (m, m')) with (if second then m' else m).
    destruct (encrypt_with_proof pf B (replay_rng E) (if second then m' else m) ek pk b coins) as [[[[ct r] q] coins']|err|]; cbn [bind]; [|reflexivity|reflexivity].
    rewrite IH. destruct (encrypt_all pf B (replay_rng E) (map (side second) pairs) ek pk b coins') as [[more st]|err|]; cbn [bind]; [|reflexivity|reflexivity].
    rewrite <- app_assoc. reflexivity.
Qed.
Lemma offers_incl pairs : forall before, incl before (offers pairs before) /\ forall second, incl (map (side second) pairs) (offers pairs before).
Proof.
  induction pairs as [|[m m'] pairs IH]; intros before; cbn [offers map]; [split; [intros x Hx; exact Hx|intros second x []]|].
  destruct (IH (m :: m' :: before)) as [I1 I2]. split; [intros x Hx; apply I1; right; right; exact Hx|]. intros second x [<-|Hx]; [apply I1; destruct second; [right; left; reflexivity|left; reflexivity]|exact (I2 second x Hx)].
Qed.
(* Offering all the messages first and then attacking is the experiment of C77, the offered messages being the protected ones. *)
Theorem C78_covers_messages_fixed_in_advance {R} (pf : profile) B gens b second (A : attacker E R) pairs coins t q : within t q A ->
  limited t q (length pairs) (offer_all pairs (adaptive A)) /\ (forall second', incl (map (side second') pairs) (offers pairs [])) /\
  experiment_rcca pf B gens b second (offer_all pairs (adaptive A)) coins = experiment_cca pf B gens b A (offers pairs []) (map (side second) pairs) coins.
Proof.
  intros W. split; [|split].
  - assert (X : forall k, limited t q k (adaptive A)) by (intros k; induction W; cbn [adaptive]; constructor; auto). induction pairs as [|[m m'] pairs IH]; cbn [offer_all length]; [apply X|constructor; exact IH].
  - apply (offers_incl pairs []).
  - unfold experiment_rcca, experiment_cca. destruct (setup_for_groth16 B (replay_rng E) b gens coins) as [[[[[pk sk] ek] dk] rest]|err|]; [|reflexivity|reflexivity]. rewrite offer_duel. cbn [app].
    destruct (encrypt_all _ _ _ _ _ _ _ _) as [[more st]|err|]; reflexivity.
Qed.
End Covers.

(* On the 61-bit group of the examples: with up to 1000 pairs of messages, 1000 tests and 10 submissions the numbers of coins on which the
   attacker says yes differ by less than 2^-20 of all coins. *)
Example C78_case (pf : profile) (t q : nat) (A : adversary E61 bool) (All : list (list (Fr E61))) : (t <= 1000)%nat -> (q <= 10)%nat -> limited t q 1000 A ->
  NoDup All -> (forall coins, In coins All <-> length coins = (3 * 4 + 7 + 3 * 1000)%nat) ->
  let says_yes second coins := match experiment_rcca pf (ark_backend pf y_domain 3) x_gens 16 second A coins with Some g => g | None => false end in
  let yes second := Z.of_nat (length (filter (says_yes second) All)) in
  Z.abs (yes false - yes true) * 2 ^ 20 <= Z.of_nat (length All).
Proof.
  intros Ht Hq W Hnd HA says_yes yes. destruct z_cs as (cs & Hcs & Hd). destruct y_conditions as (C1 & C2 & C3 & C4).
  assert (HG : eg_G x_gens <> gzero) by (intros H; apply (f_equal sval) in H; vm_compute in H; discriminate H). assert (H4 : (0 < 4)%nat) by lia.
  pose proof (C78_adaptively_chosen_messages_stay_secret E61 x_gens pf y_domain 3 4 1000 16 cs y_xs All HG x_H y_domain_ok C1 C2 C3 C4 y_count H4 Hcs Hd Hnd HA t q A W) as B.
  cbv zeta in B. fold (says_yes false) (says_yes true) in B. fold (yes false) (yes true) in B.
  assert (Ly : Z.of_nat (length y_xs) <= 2 ^ 12) by (unfold y_xs, y_points; rewrite map_length, seq_length; unfold y_N; lia).
  change (modulus (K_of E61)) with (2 ^ 61 - 1) in B. set (d := Z.abs _) in *. assert (0 <= d) by apply Z.abs_nonneg. set (T := Z.of_nat (length All)) in *. assert (0 <= T) by (unfold T; lia).
  set (N := Z.of_nat (length y_xs)) in *. assert (0 <= N) by (unfold N; lia). replace (Z.of_nat 1000) with 1000 in B by lia. replace (Z.of_nat 4) with 4 in B by lia.
  assert (Ht' : 0 <= Z.of_nat t + 2 * Z.of_nat q <= 1020) by lia. assert (Hq' : 0 <= Z.of_nat q <= 10) by lia. set (u := Z.of_nat t + 2 * Z.of_nat q) in *. set (v := Z.of_nat q) in *. clearbody d T N u v. clear - B H H0 H1 Ly Ht' Hq'.
  assert (D3 : 4 * u * (1000 + 1) * (3 * N + 9 * (3 * 4 + 9)) <= 4 * 1020 * 1001 * (3 * 2 ^ 12 + 189)) by (apply Z.mul_le_mono_nonneg; lia).
  set (f := 4 * N + _ + _) in B. assert (Hf : 0 <= f <= 2 ^ 34) by (unfold f; lia). clearbody f.
  assert (D4 : 2 * v * f <= 2 * 10 * 2 ^ 34) by (apply Z.mul_le_mono_nonneg; lia).
  set (s := N + _ + _ + _) in B. assert (Hs : s <= 2 ^ 40 - 1) by (unfold s; lia). clearbody s.
  assert (d * (2 ^ 61 - 1) <= (2 ^ 40 - 1) * T) by (etransitivity; [exact B|apply Z.mul_le_mono_nonneg_r; lia]). lia.
Qed.
(* There are coins on which the setup works and the game with any attacker comes to an end. *)
Example C78_game_case (pf : profile) : exists coins : list (Fr E61), length coins = (3 * 4 + 7 + 3 * 5)%nat /\ working y_xs pf y_domain 3 16 x_gens coins /\
  forall (R : Type) (A : adversary E61 R) t q second, limited t q 5 A -> experiment_rcca pf (ark_backend pf y_domain 3) x_gens 16 second A coins <> None.
Proof.
  destruct z_cs as (cs & Hcs & Hd). destruct y_conditions as (C1 & C2 & C3 & C4).
  assert (HG : eg_G x_gens <> gzero) by (intros H; apply (f_equal sval) in H; vm_compute in H; discriminate H). assert (H4 : (0 < 4)%nat) by lia. assert (H3 : (0 < 3)%nat) by lia.
  destruct (working_exists 4 cs y_xs pf y_domain 3 16 x_gens y_domain_ok C1 C2 y_count H4 Hcs Hd HG x_H H3 (3 * 5)) as (coins & Lc & Wk).
  { assert (Ly : Z.of_nat (length y_xs) <= 2 ^ 12) by (unfold y_xs, y_points; rewrite map_length, seq_length; unfold y_N; lia). change (modulus (K_of E61)) with (2 ^ 61 - 1). set (N := Z.of_nat (length y_xs)) in *. clearbody N. lia. }
  exists coins. split; [exact Lc|]. split; [exact Wk|]. intros R A t q second W. destruct Wk as (Hin & pk & sk & ek & dk & rest & g_i & Hset & _).
  destruct (C78_game_ends E61 R x_gens pf y_domain 3 4 16 cs y_xs t q 5 second A coins pk sk ek dk rest y_domain_ok C1 C2 C3 C4 y_count H4 Hcs Hd W Lc Hin Hset) as (r & _ & _ & _ & X & _).
  rewrite X. discriminate.
Qed.
