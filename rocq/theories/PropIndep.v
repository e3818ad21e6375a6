(* PropIndep.v -- theorems for C89: the ballots of the coalition do not depend on the votes of the honest clients *)
From Verif Require Import Base BaseFacts Algebra Utils UtilsFacts Setup Keygen Encryption Circuit CircuitFacts CircuitSat CommitmentFacts VecFacts KeySpec KeygenFacts
  EncryptFacts DecryptFacts Spec VerifyFacts Protocol ReencFacts DistFacts PropVerify PropCircuit Groth16 ArkGroth16 PolyFacts Groth16Spec ArkFacts Groth16Facts SchwartzZippel SoundCore SoundSpec
  SoundAlg SoundGame SoundLink SoundFacts SoundCount SoundHonest PropUtils PropEnc PropProto PropGroth16 PropGroth16More PropGroth16Cases PropSound PropSoundCases PropZK PrivacySpec PrivacyAlg PrivacyGame PrivacyLink PrivacyCount
  PrivacySpan PrivacyMany PropPrivacy PrivacyDkgSpec PrivacyDkg PropPrivacyDkg SoundDkgSpec SoundDkg SoundAdaptSpec SoundAdapt PropSoundDkg PropSoundAdapt NonmalCore NonmalAlg NonmalSpec NonmalGame NonmalRows NonmalLink NonmalCount PropNonmal
  NonmalDkg PropNonmalDkg RoundTrip PropRobust CcaSpec Cca CcaCount PropCca PropReencExact RccaSpec RccaTest RccaCount RccaDkgSpec RccaDkg PropRccaDkg RushSpec Rush PropRush InsiderSpec Insider PropInsider
  LateSpec PropLate TallySpec PropTally BallotSpec Ballot BallotCount PropBallot PropBallotCopy IndepSpec Indep ArkCoset Radix2 CosetGame PropBls Instance Examples.

(* All parties but one, who are voters themselves: they attack as in C85 (choose pairs of messages, have honest clients encrypt the first or the second
   ones, submit ciphertexts, see decryption shares), and then cast at most v ballots.  On all but few coins their ballots are alike in both worlds, one by
   one: accepted in both or in none, with the same chunks in both, or else copied from a client. *)
Theorem C89_ballots_do_not_depend_on_votes (E : pairing) (gens : encryption_gens E) (pf : profile)
    (domain : nat -> option (list (Fr E))) (fuel n : nat) (b : Z) (cs : csys (K_of E)) (xs : list (Fr E)) (before after : list (list (Fr E)))
    (G H : rng_impl E) (st : rng_st G) (sh : rng_st H) (t q k v : nat) (A : insider E (poll E)) (L : list (list (Fr E))) :
  eg_G gens <> gzero -> eg_H gens <> gzero -> domain_ok domain ->
  supported b -> 2 ^ b <= modulus (K_of E) ->
  64 * Z.of_nat (limbs (K_of E)) - b < modulus_bit_size (K_of E) -> 64 * Z.of_nat (limbs (K_of E)) < 256 * b ->
  chunks_count (K_of E) b = Ok (Z.of_nat n) -> (0 < n)%nat ->
  generate_constraints (BitsizeCheckCircuit b (Z.of_nat n) None true) (cs_new Circuit.Setup) = Ok cs ->
  domain (length (cs_cons cs) + cs_num_inst cs)%nat = Some xs ->
  Forall (fun tape => length tape = (2 * n + 1)%nat) before -> Forall (fun tape => length tape = (2 * n + 1)%nat) after ->
  ilimited t q k A -> ends (honest_poll v) [] A -> NoDup L ->
  (forall coins, In coins L -> length coins = (2 * n + 6 + 3 * k)%nat /\
     ~ polls_alike pf gens b (polling pf (ark_backend pf domain fuel) G H gens b before after false A st sh coins)
                             (polling pf (ark_backend pf domain fuel) G H gens b before after true A st sh coins)) ->
  let N := Z.of_nat (length xs) in let m := 3 * Z.of_nat n in let T := Z.of_nat t + 2 * Z.of_nat q in
  let forged := 4 * N + 7 * (m + 6) + Z.of_nat k ^ 2 * (3 * N + 9 * (m + 9)) in
  let base := N + (1 + Z.of_nat n + Z.of_nat n * (N + 2)) in
  Z.of_nat (length L) * modulus (K_of E) <=
  ((2 * (Z.of_nat q + Z.of_nat v) + 5) * base + 4 * ((Z.of_nat q + Z.of_nat v + 1) * T + 2 * Z.of_nat v) * (Z.of_nat k + 1) * (3 * N + 9 * (m + 9)) +
   2 * (Z.of_nat q + Z.of_nat v) * (Z.of_nat q + 2) * forged) * modulus (K_of E) ^ Z.of_nat (2 * n + 6 + 3 * k).
Proof.
  intros HG HH Hd Hb HM C1 C2 Hc Hn Hcs Hxs Hbef Haft W HE Hnd HL. cbv zeta.
  assert (B := independent_bound n cs xs pf domain fuel b gens HG HH Hd Hb HM (conj C1 C2) Hc Hn Hcs Hxs before after Hbef Haft A G H st sh t q k v W HE L Hnd HL).
  clear HL. unfold cost, NM, D0 in B. cbn [cw] in B. replace (Z.of_nat (k + 1)) with (Z.of_nat k + 1) in B by lia.
  replace (Z.of_nat (t + 2 * (q + v))) with (Z.of_nat t + 2 * Z.of_nat q + 2 * Z.of_nat v) in B by lia.
  replace (Z.of_nat (t + 2 * q)) with (Z.of_nat t + 2 * Z.of_nat q) in B by lia. replace (Z.of_nat (q + v)) with (Z.of_nat q + Z.of_nat v) in B by lia.
  eapply Z.le_trans; [exact B|]. apply Z.eq_le_incl. ring.
Qed.

(* The same for coalitions that first look at the SRS and the honest contribution and then decide how to contribute and attack (C86). *)
Theorem C89_ballots_of_late_coalitions_do_not_depend_on_votes (E : pairing) (gens : encryption_gens E) (pf : profile)
    (domain : nat -> option (list (Fr E))) (fuel n : nat) (b : Z) (cs : csys (K_of E)) (xs : list (Fr E))
    (G H : rng_impl E) (st : rng_st G) (sh : rng_st H) (t q k v : nat) (P : plan E (late E (poll E))) (L : list (list (Fr E))) :
  eg_G gens <> gzero -> eg_H gens <> gzero -> domain_ok domain ->
  supported b -> 2 ^ b <= modulus (K_of E) ->
  64 * Z.of_nat (limbs (K_of E)) - b < modulus_bit_size (K_of E) -> 64 * Z.of_nat (limbs (K_of E)) < 256 * b ->
  chunks_count (K_of E) b = Ok (Z.of_nat n) -> (0 < n)%nat ->
  generate_constraints (BitsizeCheckCircuit b (Z.of_nat n) None true) (cs_new Circuit.Setup) = Ok cs ->
  domain (length (cs_cons cs) + cs_num_inst cs)%nat = Some xs ->
  Forall (late_limited n t q k) (choices P) -> Forall (fun x => ends (honest_poll v) [] (la_attack x)) (choices P) -> NoDup L ->
  (forall coins, In coins L -> length coins = (2 * n + 6 + 3 * k)%nat /\ exists pk part,
     first_moves (ark_backend pf domain fuel) gens b coins = Ok (pk, part) /\
     let x := settle P (early_g1 gens pk part) (early_g2 gens pk part) in
     ~ polls_alike pf gens b (polling pf (ark_backend pf domain fuel) G H gens b (la_before x) (la_after x) false (la_attack x) st sh coins)
                             (polling pf (ark_backend pf domain fuel) G H gens b (la_before x) (la_after x) true (la_attack x) st sh coins)) ->
  let N := Z.of_nat (length xs) in let m := 3 * Z.of_nat n in let T := Z.of_nat t + 2 * Z.of_nat q in
  let forged := 4 * N + 7 * (m + 6) + Z.of_nat k ^ 2 * (3 * N + 9 * (m + 9)) in
  let base := N + (1 + Z.of_nat n + Z.of_nat n * (N + 2)) in
  Z.of_nat (length L) * modulus (K_of E) <=
  (N + (Z.of_nat (looks P) * (3 * N + 7 * (m + 6)) + ((2 * (Z.of_nat q + Z.of_nat v) + 5) * base + 4 * ((Z.of_nat q + Z.of_nat v + 1) * T + 2 * Z.of_nat v) * (Z.of_nat k + 1) * (3 * N + 9 * (m + 9)) +
   2 * (Z.of_nat q + Z.of_nat v) * (Z.of_nat q + 2) * forged))) * modulus (K_of E) ^ Z.of_nat (2 * n + 6 + 3 * k).
Proof.
  intros HG HH Hd Hb HM C1 C2 Hc Hn Hcs Hxs HP HPe Hnd HL. cbv zeta.
  set (D := _ + 2 * (Z.of_nat q + Z.of_nat v) * _ * _). assert (HD : 0 <= D) by (unfold D; pose proof (Z.pow_nonneg (Z.of_nat k) 2); repeat first [apply Z.add_nonneg_nonneg | apply Z.mul_nonneg_nonneg]; lia).
  refine (rare_split n cs xs b HM Hn (2 * n + 6 + 3 * k) _ (fun coins => exists pk part,
     first_moves (ark_backend pf domain fuel) gens b coins = Ok (pk, part) /\
     let x := settle P (early_g1 gens pk part) (early_g2 gens pk part) in ~ polls_alike pf gens b (polling pf (ark_backend pf domain fuel) G H gens b (la_before x) (la_after x) false (la_attack x) st sh coins)
                             (polling pf (ark_backend pf domain fuel) G H gens b (la_before x) (la_after x) true (la_attack x) st sh coins)) _ _ L Hnd HL); [lia|].
  assert (HP2 : Forall (fun x => late_limited n t q k x /\ ends (honest_poll v) [] (la_attack x)) (choices P)) by (rewrite Forall_forall in *; intros x Hx; split; [apply HP|apply HPe]; exact Hx).
  refine (rush_bound n cs xs pf domain fuel b gens HG HH Hb HM Hc Hn Hcs Hxs (fun x => late_limited n t q k x /\ ends (honest_poll v) [] (la_attack x)) (fun x coins => ~ polls_alike pf gens b (polling pf (ark_backend pf domain fuel) G H gens b (la_before x) (la_after x) false (la_attack x) st sh coins)
                             (polling pf (ark_backend pf domain fuel) G H gens b (la_before x) (la_after x) true (la_attack x) st sh coins)) D (3 * k) P HD HP2 _).
  intros x ((Hbef & Haft & W) & HE) L' Hnd' HL'.
  exact (C89_ballots_do_not_depend_on_votes E gens pf domain fuel n b cs xs (la_before x) (la_after x) G H st sh t q k v (la_attack x) L' HG HH Hd Hb HM C1 C2 Hc Hn Hcs Hxs Hbef Haft W HE Hnd' HL').
Qed.

(* With the parameters of BLS12-381, at most 2^20 pairs of messages and (q + v + 1) (t + 2q + looks + 1) <= 2^64: on all but 2^-128 of the coins. *)
Theorem C89_bls_ballots_do_not_depend_on_votes (E : pairing) (gens : encryption_gens E) (pf : profile) (fuel : nat) (b : Z)
    (G H : rng_impl E) (st : rng_st G) (sh : rng_st H) (t q k v : nat) (P : plan E (late E (poll E))) (L : list (list (Fr E))) :
  bls12_381 E -> supported b -> eg_G gens <> gzero -> eg_H gens <> gzero ->
  let n := bls_chunks b in
  Forall (late_limited n t q k) (choices P) -> Forall (fun x => ends (honest_poll v) [] (la_attack x)) (choices P) ->
  (Z.of_nat q + Z.of_nat v + 1) * (Z.of_nat t + 2 * Z.of_nat q + (Z.of_nat (looks P) + 1)) <= 2 ^ 64 -> Z.of_nat k <= 2 ^ 20 -> NoDup L ->
  (forall coins, In coins L -> length coins = (2 * n + 6 + 3 * k)%nat /\ exists pk part,
     first_moves (bls_backend pf fuel) gens b coins = Ok (pk, part) /\
     let x := settle P (early_g1 gens pk part) (early_g2 gens pk part) in
     ~ polls_alike pf gens b (polling pf (bls_backend pf fuel) G H gens b (la_before x) (la_after x) false (la_attack x) st sh coins)
                             (polling pf (bls_backend pf fuel) G H gens b (la_before x) (la_after x) true (la_attack x) st sh coins)) ->
  Z.of_nat (length L) * 2 ^ 128 <= modulus (K_of E) ^ Z.of_nat (2 * n + 6 + 3 * k).
Proof.
  intros HE Hb HG HH. params HE Hb. cbv zeta. intros HP HPe Ht Hk Hnd HL. pose proof (proj1 HE) as Hp.
  assert (Hbound := C89_ballots_of_late_coalitions_do_not_depend_on_votes E gens pf bls_domain fuel (bls_chunks b) b cs xs G H st sh t q k v P L HG HH Hdom Hb HbM Hc1 Hc2 Hcount Hn0 Hcs Hxs HP HPe Hnd).
  cbv zeta in Hbound. rewrite Hp in Hbound |- *. eapply margin; [apply Hbound| |apply Z.pow_nonneg; discriminate|reflexivity|discriminate].
  - intros coins Hin. destruct (HL coins Hin) as (Hl & pk & part & Hfm & Hrest). split; [exact Hl|]. exists pk, part. split; [exact Hfm|]. cbv zeta in Hrest |- *.
    unfold polling, bls_backend in Hrest. rewrite !(coset_insider_run bls_generator pf bls_domain fuel b Hdom Hg0 Hgrp Hb Hbits) in Hrest. exact Hrest.
  - clear - Ht Hk HN Hn64.
    assert (X := election_budget (Z.of_nat (length xs)) (Z.of_nat (bls_chunks b)) (Z.of_nat t + 2 * Z.of_nat q) (Z.of_nat q) (Z.of_nat k) (Z.of_nat (looks P)) (Z.of_nat v) 0).
    rewrite !Z.add_0_r, ?Z.add_0_l in X. apply X; try assumption; lia.
Qed.

(* On good coins both executions end: the bounds are about ballots that are really cast. *)
Theorem C89_polls_end (E : pairing) (gens : encryption_gens E) (pf : profile)
    (domain : nat -> option (list (Fr E))) (fuel n : nat) (b : Z) (cs : csys (K_of E)) (xs : list (Fr E)) (before after : list (list (Fr E)))
    (G H : rng_impl E) (st : rng_st G) (sh : rng_st H) (t q k v : nat) (second : bool) (A : insider E (poll E)) coins :
  eg_G gens <> gzero -> eg_H gens <> gzero -> domain_ok domain ->
  supported b -> 2 ^ b <= modulus (K_of E) ->
  64 * Z.of_nat (limbs (K_of E)) - b < modulus_bit_size (K_of E) -> 64 * Z.of_nat (limbs (K_of E)) < 256 * b ->
  chunks_count (K_of E) b = Ok (Z.of_nat n) -> (0 < n)%nat -> (0 < fuel)%nat ->
  generate_constraints (BitsizeCheckCircuit b (Z.of_nat n) None true) (cs_new Circuit.Setup) = Ok cs ->
  domain (length (cs_cons cs) + cs_num_inst cs)%nat = Some xs ->
  Forall (fun tape => length tape = (2 * n + 1)%nat) before -> Forall (fun tape => length tape = (2 * n + 1)%nat) after ->
  ilimited t q k A -> ends (honest_poll v) [] A ->
  length coins = (2 * n + 6 + 3 * k)%nat -> nth 2 coins fzero <> fzero -> nth 3 coins fzero <> fzero -> ~ In (nth 4 coins fzero) xs ->
  exists keys p cps ballots, polling pf (ark_backend pf domain fuel) G H gens b before after second A st sh coins = Some (keys, p, cps, ballots) /\
    (length cps <= k)%nat /\ length cps = length (po_offers p) /\ length ballots = length (po_ballots p) /\ (length ballots <= v)%nat.
Proof.
  intros HG HH Hd Hb HM C1 C2 Hc Hn Hf Hcs Hxs Hbef Haft W HE Lc H2 H3 Hin.
  destruct (C85_game_ends E _ gens pf domain fuel n b cs xs before after G H st sh t q k second A coins HG HH Hd Hb HM C1 C2 Hc Hn Hf Hcs Hxs Hbef Haft W Lc H2 H3 Hin)
    as (keys & rest & honest & part & p & cps & seen & ms & st' & op & Hset & Hnth & _ & Hrun & Lms & Henc & _).
  exists keys, p, cps, (cast (po_ballots p) (dkg_g1 gens (public_run keys cps) ++ seen) (dkg_g2 gens (public_run keys cps))). unfold polling. rewrite Hrun. split; [reflexivity|].
  pose proof Hrun as Hrun'. unfold insider_run in Hrun'. rewrite Hset, Hnth in Hrun'.
  destruct (insider_duel _ _ _ _ _ _ _ _ _ _ _ _ _ _ _ _) as [[[p' cps'] seen']|] eqn:Hduel; [|discriminate Hrun']. cbn [option_map] in Hrun'.
  assert (EQ : p' = p /\ cps' = cps /\ seen' = seen) by (repeat split; congruence). destruct EQ as (-> & -> & ->). clear Hrun'.
  destruct (annot_duel (honest_poll v) _ _ _ _ _ _ _ _ rest _ [] A HE [] [] [] rest st sh eq_refl p cps seen Hduel) as (offs & coins' & _ & (Fo & Fv) & Henc').
  assert (LE : forall ms0 s0 cps0 s1, encrypt_all pf (ark_backend pf domain fuel) (replay_rng E) ms0 (kg_ek keys) (kg_pk keys) b s0 = Ok (cps0, s1) -> length cps0 = length ms0).
  { induction ms0 as [|m0 ms0 IH]; intros s0 cps0 s1 He; cbn [encrypt_all] in He.
    - assert (cps0 = []) as -> by congruence. reflexivity.
    - apply bind_Ok_inv in He. destruct He as ([[[c0 r0] p0] s2] & _ & He). apply bind_Ok_inv in He. destruct He as ([l s3] & Hl & He). assert (cps0 = (c0, p0) :: l) as -> by congruence. cbn [length]. f_equal. exact (IH _ _ _ Hl). }
  split; [rewrite (LE _ _ _ _ Henc); exact Lms|]. split; [rewrite (LE _ _ _ _ Henc'), map_length, Fo; reflexivity|]. unfold cast. rewrite map_length. split; [reflexivity|exact Fv].
Qed.

(* Without copies the ballots that are accepted contain the same votes in both worlds. *)
Theorem C89_without_copies_the_votes_are_the_same {E : pairing} (pf : profile) (gens : encryption_gens E) (b : Z) (keys : dkg_keys E) (p p' : poll E) (cps cps' ballots ballots' : list (ciphertext E * proof E)) :
  polls_alike pf gens b (Some (keys, p, cps, ballots)) (Some (keys, p', cps', ballots')) ->
  no_copies keys cps (filter (valid gens keys) ballots) -> no_copies keys cps' (filter (valid gens keys) ballots') ->
  exists votes : list (list Z), Forall2 (contains b keys) (filter (valid gens keys) ballots) votes /\ Forall2 (contains b keys) (filter (valid gens keys) ballots') votes.
Proof.
  intros (_ & _ & HF) N1 N2. assert (VA : forall x : ciphertext E * proof E, accepted gens keys x <-> valid gens keys x = true).
  { intros x. unfold accepted, valid. destruct (verify_commitment_and_proof _ _ _ _ _) as [[]|err|]; split; congruence. }
  induction HF as [|x x' l l' (HV & HC) _ IH]; [exists []; split; constructor|]. cbn [filter] in *.
  destruct (valid gens keys x) eqn:Vx.
  - assert (Ax : accepted gens keys x) by (apply VA; exact Vx). assert (Vx' : valid gens keys x' = true) by (apply VA; apply HV; exact Ax). rewrite Vx' in *.
    destruct IH as (votes & V1 & V2).
    { intros y ct0 q0 rho Hy. apply N1. right. exact Hy. }
    { intros y ct0 q0 rho Hy. apply N2. right. exact Hy. }
    destruct (HC Ax) as [(ds & D1 & D2)|(_ & _ & [(ct0 & q0 & rho & Hin & Hct)|(ct0 & q0 & rho & Hin & Hct)])].
    + exists (ds :: votes). split; constructor; assumption.
    + destruct (N1 x ct0 q0 rho (or_introl eq_refl) Hin Hct).
    + destruct (N2 x' ct0 q0 rho (or_introl eq_refl) Hin Hct).
  - assert (Vx' : valid gens keys x' = false). { destruct (valid gens keys x') eqn:Z; [|reflexivity]. apply VA in Z. apply HV in Z. apply VA in Z. congruence. }
    rewrite Vx' in *. exact (IH N1 N2).
Qed.

(* The exception for copies is needed: one strategy casts, in every execution whose key generation works, a ballot that is accepted and contains the
   vote of the client, whichever it is; if the client's two messages differ, no chunks are in both ballots. *)
Theorem C89_a_copied_ballot_follows_the_vote (E : pairing) (gens : encryption_gens E) (pf : profile)
    (domain : nat -> option (list (Fr E))) (fuel n : nat) (b : Z) (cs : csys (K_of E)) (xs : list (Fr E)) (before after : list (list (Fr E))) (m m' rho : Fr E) :
  eg_G gens <> gzero -> eg_H gens <> gzero -> domain_ok domain ->
  supported b -> 2 ^ b <= modulus (K_of E) ->
  64 * Z.of_nat (limbs (K_of E)) - b < modulus_bit_size (K_of E) -> 64 * Z.of_nat (limbs (K_of E)) < 256 * b ->
  chunks_count (K_of E) b = Ok (Z.of_nat n) -> (0 < n)%nat -> (0 < fuel)%nat ->
  generate_constraints (BitsizeCheckCircuit b (Z.of_nat n) None true) (cs_new Circuit.Setup) = Ok cs ->
  domain (length (cs_cons cs) + cs_num_inst cs)%nat = Some xs ->
  Forall (fun tape => length tape = (2 * n + 1)%nat) before -> Forall (fun tape => length tape = (2 * n + 1)%nat) after ->
  exists S : strategy E, let A := IOffer m m' (IStop (Poll [(m, m')] [S])) in ilimited 0 0 1 A /\ ends (honest_poll 1) [] A /\
  forall (G H : rng_impl E) (st : rng_st G) (sh : rng_st H) coins, length coins = (2 * n + 6 + 3 * 1)%nat -> dkg_working xs pf domain fuel b gens before after coins ->
  exists keys ds ds' ct0 q0 q ct0' q0' q', decompose pf m b = Ok ds /\ decompose pf m' b = Ok ds' /\
    polling pf (ark_backend pf domain fuel) G H gens b before after false A st sh coins = Some (keys, Poll [(m, m')] [S], [(ct0, q0)], [(rerandomized (kg_ek keys) rho ct0, q)]) /\
    polling pf (ark_backend pf domain fuel) G H gens b before after true A st sh coins = Some (keys, Poll [(m, m')] [S], [(ct0', q0')], [(rerandomized (kg_ek keys) rho ct0', q')]) /\
    accepted gens keys (rerandomized (kg_ek keys) rho ct0, q) /\ accepted gens keys (rerandomized (kg_ek keys) rho ct0', q') /\
    (forall x, contains b keys (rerandomized (kg_ek keys) rho ct0, q) x <-> x = ds) /\ (forall x, contains b keys (rerandomized (kg_ek keys) rho ct0', q') x <-> x = ds').
Proof.
  intros HG HH Hd Hb HM C1 C2 Hc Hn Hf Hcs Hxs Hbef Haft.
  destruct (C02_decompose_is_radix_representation pf (K_of E) m b Hb) as (ds & Hdm & Hdig & _). destruct (C02_decompose_is_radix_representation pf (K_of E) m' b Hb) as (ds' & Hdm' & Hdig' & _).
  set (S := copy_ballot n cs xs before after rho). exists S. cbv zeta. set (A := IOffer m m' (IStop (Poll [(m, m')] [S]))).
  assert (W : ilimited 0 0 1 A) by (apply ilimited_offer, ilimited_stop). split; [exact W|].
  assert (HE : ends (honest_poll 1) [] A) by (apply ends_offer, ends_stop; split; [reflexivity|cbn [po_ballots length]; lia]). split; [exact HE|].
  intros G H st sh coins Lc (Hin & H2 & H3 & keys & rest & g_i & Hset & Hg & Hnz).
  assert (One : forall second, exists ct0 q0 q, polling pf (ark_backend pf domain fuel) G H gens b before after second A st sh coins = Some (keys, Poll [(m, m')] [S], [(ct0, q0)], [(rerandomized (kg_ek keys) rho ct0, q)]) /\
    accepted gens keys (rerandomized (kg_ek keys) rho ct0, q) /\ forall x, contains b keys (rerandomized (kg_ek keys) rho ct0, q) x <-> x = (if second then ds' else ds)).
  { intros second.
    destruct (C85_game_ends E _ gens pf domain fuel n b cs xs before after G H st sh 0 0 1 second A coins HG HH Hd Hb HM C1 C2 Hc Hn Hf Hcs Hxs Hbef Haft W Lc H2 H3 Hin)
      as (keys0 & rest0 & honest & part & r & cps & seen & msgs & st' & op & Hset0 & Hh & _ & Hrun & _).
    assert (keys0 = keys /\ rest0 = rest) as [-> ->] by (split; congruence). clear Hset0.
    pose proof Hrun as Hrun'. unfold insider_run in Hrun'. rewrite Hset, Hh in Hrun'. unfold A in Hrun'. cbn [insider_duel] in Hrun'. set (a := if second then m' else m) in *.
    destruct (encrypt_with_proof _ _ _ _ _ _ _ _) as [[[[ct0 r0] q0] coins']|err|] eqn:He0 in Hrun'; [|discriminate Hrun'|discriminate Hrun'].
    cbn [option_map app] in Hrun'. assert (EQ : r = Poll [(m, m')] [S] /\ cps = [(ct0, q0)] /\ seen = []) by (repeat split; congruence). destruct EQ as (-> & -> & ->). clear Hrun'.
    assert (Henc : encrypt_all pf (ark_backend pf domain fuel) (replay_rng E) [a] (kg_ek keys) (kg_pk keys) b rest = Ok ([(ct0, q0)], coins')) by (cbn [encrypt_all]; rewrite He0; reflexivity).
    pose proof (execution_from_setup _ _ _ _ _ _ _ _ _ _ _ _ Hset Henc) as Hex.
    destruct (copy_ballot_works n cs xs pf domain fuel b gens Hd Hb HM (conj C1 C2) Hc Hn Hcs Hxs before after Hbef Haft [a] rho coins _ ltac:(cbn [length]; lia) Lc Hin Hex) as (ct0' & q0' & Hn0 & Hct & Hver).
    cbn [public_run dr_cps dr_ek dr_pk nth_error] in Hn0, Hct, Hver. assert (ct0' = ct0 /\ q0' = q0) as [-> ->] by (split; congruence). clear Hn0.
    assert (Hda : decompose pf a b = Ok (if second then ds' else ds)) by (unfold a; destruct second; assumption).
    pose proof (with_proof_encrypts _ _ _ _ _ _ _ _ _ _ _ _ _ _ Hg Hda He0) as Henc0.
    pose proof (C73_copies_encrypt_the_copied_message _ _ _ _ _ rho Henc0) as Henc1.
    destruct (setup_parties _ _ _ _ _ _ _ _ _ Hset Hg) as [Hfd _].
    fold S in Hct, Hver. set (T := dkg_g1 gens (public_run keys [(ct0, q0)])) in *. set (T' := dkg_g2 gens (public_run keys [(ct0, q0)])) in *.
    exists ct0, q0, (proof_from S T T'). unfold polling. rewrite Hrun. fold T T'. rewrite app_nil_r. cbn [po_ballots]. unfold cast. cbn [map]. rewrite Hct. split; [reflexivity|].
    rewrite Hct in Hver. split; [exact Hver|]. assert (Hdd : digits_ok b (if second then ds' else ds)) by (destruct second; assumption).
    intros x. split.
    - intros (Hx & g' & r & Hg' & Hex'). assert (g' = g_i) by congruence. subst g'.
      pose proof (answer_exact pf (replay_rng E) b gens g_i _ _ keys [] _ _ _ _ [] Hb HM Hg Hfd Hnz Hver Hdd Henc1) as X1.
      pose proof (answer_exact pf (replay_rng E) b gens g_i _ _ keys [] _ _ _ _ [] Hb HM Hg Hfd Hnz Hver Hx Hex') as X2. rewrite X1 in X2. unfold reply_for in X2. cbn [is_protected existsb] in X2. congruence.
    - intros ->. split; [exact Hdd|]. exists g_i, (fadd rho r0). split; [exact Hg|exact Henc1]. }
  destruct (One false) as (ct0 & q0 & q & P1 & A1 & X1). destruct (One true) as (ct0' & q0' & q' & P2 & A2 & X2).
  exists keys, ds, ds', ct0, q0, q, ct0', q0', q'. repeat (split; [assumption|]). assumption.
Qed.

(* On the 61-bit group of the examples, with 16 chunks of 4 bits: the coalition sees two clients vote and casts any three ballots, or copies the ballot of
   a client.  There are coins on which everything takes place in both worlds. *)
Example C89_case (pf : profile) (G H : rng_impl E61) (st : rng_st G) (sh : rng_st H) (S1 S2 S3 : strategy E61) (m m' o o' : Fr E61) (before after : list (list (Fr E61))) :
  Forall (fun tape => length tape = 33%nat) before -> Forall (fun tape => length tape = 33%nat) after ->
  (let A := IOffer m m' (IOffer o o' (IStop (Poll [(m, m'); (o, o')] [S1; S2; S3]))) in
   ilimited 0 0 2 A /\ ends (honest_poll 3) [] A /\
   exists coins, length coins = 44%nat /\ forall second, exists keys p cps ballots,
     polling pf (ark_backend pf y_domain 3) G H x_gens 4 before after second A st sh coins = Some (keys, p, cps, ballots) /\ length cps = 2%nat /\ length ballots = 3%nat) /\
  (exists S coins keys ct0 q0 q ct0' q0' q', let A := IOffer m m' (IStop (Poll [(m, m')] [S])) in length coins = 41%nat /\
     polling pf (ark_backend pf y_domain 3) G H x_gens 4 before after false A st sh coins = Some (keys, Poll [(m, m')] [S], [(ct0, q0)], [(rerandomized (kg_ek keys) fone ct0, q)]) /\
     polling pf (ark_backend pf y_domain 3) G H x_gens 4 before after true A st sh coins = Some (keys, Poll [(m, m')] [S], [(ct0', q0')], [(rerandomized (kg_ek keys) fone ct0', q')]) /\
     accepted x_gens keys (rerandomized (kg_ek keys) fone ct0, q) /\ accepted x_gens keys (rerandomized (kg_ek keys) fone ct0', q')).
Proof.
  intros Hbef Haft.
  assert (HG : eg_G x_gens <> gzero) by (intros Z; apply (f_equal sval) in Z; vm_compute in Z; discriminate Z).
  assert (Hbits : 0 < 4 < modulus_bit_size K61) by (vm_compute; split; reflexivity).
  assert (Hc : chunks_count K61 4 = Ok (Z.of_nat 16)) by (vm_compute; reflexivity).
  assert (Hb : supported 4) by (left; reflexivity). assert (HM : 2 ^ 4 <= modulus K61) by (vm_compute; discriminate).
  assert (C1 : 64 * Z.of_nat (limbs K61) - 4 < modulus_bit_size K61) by (vm_compute; reflexivity). assert (C2 : 64 * Z.of_nat (limbs K61) < 256 * 4) by (vm_compute; reflexivity).
  assert (H16 : (0 < 16)%nat) by lia. assert (H3 : (0 < 3)%nat) by lia.
  destruct (C38_circuit_shape K61 4 (Z.of_nat 16) Hbits Hc) as (c & cs & Hcn & Hcs & Hi & Hcc).
  unfold circuit_new in Hcn. rewrite Hc in Hcn. cbn [bind] in Hcn. assert (c = BitsizeCheckCircuit 4 (Z.of_nat 16) None true) by congruence. subst c. clear Hcn.
  assert (Hsz : (length (cs_cons cs) + cs_num_inst cs)%nat = 1921%nat).
  { assert (Em : modulus_bit_size K61 = 61) by (vm_compute; reflexivity). rewrite Em in Hcc. lia. }
  set (xs := y_points 1921). assert (Hd : y_domain (length (cs_cons cs) + cs_num_inst cs)%nat = Some xs).
  { rewrite Hsz. unfold y_domain. assert (Hlt : Z.of_nat 1921 <? 2 ^ 60 = true) by (vm_compute; reflexivity). rewrite Hlt. reflexivity. }
  assert (Hl : length xs = 1921%nat) by (unfold xs, y_points; rewrite map_length, seq_length; reflexivity). clearbody xs.
  split.
  - cbv zeta. set (A := IOffer m m' (IOffer o o' (IStop (Poll [(m, m'); (o, o')] [S1; S2; S3])))).
    assert (W : ilimited 0 0 2 A) by (apply ilimited_offer, ilimited_offer, ilimited_stop).
    assert (HE : ends (honest_poll 3) [] A) by (apply ends_offer, ends_offer, ends_stop; split; [reflexivity|cbn [po_ballots length]; lia]). split; [exact W|]. split; [exact HE|].
    destruct (dkg_working_exists 16 cs xs pf y_domain 3 4 x_gens HG x_H y_domain_ok Hb HM (conj C1 C2) Hc H16 H3 Hcs Hd before after Hbef Haft (3 * 2)) as (coins & Lc & (Hin & H2 & H3' & _)).
    { rewrite Hl. vm_compute. reflexivity. }
    exists coins. split; [exact Lc|]. intros second.
    destruct (C89_polls_end E61 x_gens pf y_domain 3 16 4 cs xs before after G H st sh 0 0 2 3 second A coins HG x_H y_domain_ok Hb HM C1 C2 Hc H16 H3 Hcs Hd Hbef Haft W HE Lc H2 H3' Hin)
      as (keys & p & cps & ballots & Hp & _ & L1 & L2 & _).
    exists keys, p, cps, ballots. split; [exact Hp|]. assert (Ep : p = Poll [(m, m'); (o, o')] [S1; S2; S3]).
    { unfold polling, insider_run in Hp. destruct (dkg_setup _ _ _ _ _ _) as [[keys0 rest]|err|]; [|discriminate Hp|discriminate Hp]. destruct (nth_error _ _) as [[h pt]|]; [|discriminate Hp]. unfold A in Hp. cbn [insider_duel] in Hp.
      destruct (encrypt_with_proof _ _ _ _ _ _ _ _) as [[[[c1 r1] p1] s1]|err|] in Hp; [|discriminate Hp|discriminate Hp].
      destruct (encrypt_with_proof _ _ _ _ _ _ _ _) as [[[[c2 r2] p2] s2]|err|] in Hp; [|discriminate Hp|discriminate Hp]. cbn [option_map] in Hp. congruence. }
    rewrite Ep in L1, L2. split; [exact L1|exact L2].
  - destruct (C89_a_copied_ballot_follows_the_vote E61 x_gens pf y_domain 3 16 4 cs xs before after m m' fone HG x_H y_domain_ok Hb HM C1 C2 Hc H16 H3 Hcs Hd Hbef Haft) as (S & _ & _ & T).
    destruct (dkg_working_exists 16 cs xs pf y_domain 3 4 x_gens HG x_H y_domain_ok Hb HM (conj C1 C2) Hc H16 H3 Hcs Hd before after Hbef Haft (3 * 1)) as (coins & Lc & HW).
    { rewrite Hl. vm_compute. reflexivity. }
    destruct (T G H st sh coins Lc HW) as (keys & ds & ds' & ct0 & q0 & q & ct0' & q0' & q' & _ & _ & P1 & P2 & A1 & A2 & _).
    exists S, coins, keys, ct0, q0, q, ct0', q0', q'. cbv zeta. repeat (split; [assumption|]). assumption.
Qed.
