(* PropRush.v -- theorems for C84: deciding late does not help all parties but one of the distributed key generation, as long as they know the
   random numbers their contributions are made of *)
From Verif Require Import Base BaseFacts Algebra Utils UtilsFacts Setup Keygen Encryption Circuit CircuitFacts CircuitSat CommitmentFacts VecFacts KeySpec KeygenFacts
  EncryptFacts DecryptFacts Spec VerifyFacts Protocol ReencFacts DistFacts PropVerify Groth16 ArkGroth16 PolyFacts Groth16Spec ArkFacts Groth16Facts SchwartzZippel SoundCore SoundSpec
  SoundAlg SoundGame SoundLink SoundFacts SoundCount SoundHonest PropUtils PropEnc PropGroth16 PropGroth16More PropGroth16Cases PropSound PropSoundCases PropZK PrivacySpec PrivacyAlg PrivacyGame PrivacyLink PrivacyCount
  PrivacySpan PrivacyMany PropPrivacy PrivacyDkgSpec PrivacyDkg PropPrivacyDkg SoundDkgSpec SoundDkg SoundAdaptSpec SoundAdapt PropSoundAdapt NonmalCore NonmalAlg NonmalSpec NonmalGame NonmalRows NonmalLink NonmalCount PropNonmal
  NonmalDkg PropNonmalDkg RoundTrip PropRobust CcaSpec Cca CcaCount PropCca RccaSpec RccaTest RccaCount RccaDkgSpec RccaDkg PropRccaDkg RushSpec Rush Radix2 CosetGame PropBls Instance Examples.

(* What the coalition looks at before it decides is what the key generation then uses: the same SRS, and the same contribution of the honest
   party, which comes after the parties in before. *)
Theorem C84_same_first_moves (E : pairing) (B : groth16_backend E) (gens : encryption_gens E) (b : Z) (before after : list (list (Fr E))) coins keys rest :
  dkg_setup B gens b before after coins = Ok (keys, rest) ->
  exists part, first_moves B gens b coins = Ok (kg_pk keys, part) /\ nth_error (map snd (kg_parties keys)) (length before) = Some part.
Proof. apply first_moves_of_setup. Qed.

(* The plan P makes at most (looks P) tests of the SRS and of the honest contribution, each depending on the answers so far, and then settles for
   one of (choices P): any number of parties before and after the honest one, with any tapes, and any attack of at most t tests, q submissions and
   k pairs of messages on the keys that result. *)
Theorem C84_result_rarely_depends_on_which_messages (E : pairing) (R : Type) (gens : encryption_gens E) (pf : profile)
    (domain : nat -> option (list (Fr E))) (fuel n : nat) (b : Z) (cs : csys (K_of E)) (xs : list (Fr E))
    (G : rng_impl E) (st : rng_st G) (t q k : nat) (P : plan E (rush E R)) (L : list (list (Fr E))) :
  eg_G gens <> gzero -> eg_H gens <> gzero -> domain_ok domain ->
  supported b -> 2 ^ b <= modulus (K_of E) ->
  64 * Z.of_nat (limbs (K_of E)) - b < modulus_bit_size (K_of E) -> 64 * Z.of_nat (limbs (K_of E)) < 256 * b ->
  chunks_count (K_of E) b = Ok (Z.of_nat n) -> (0 < n)%nat ->
  generate_constraints (BitsizeCheckCircuit b (Z.of_nat n) None true) (cs_new Circuit.Setup) = Ok cs ->
  domain (length (cs_cons cs) + cs_num_inst cs)%nat = Some xs ->
  Forall (rush_limited n t q k) (choices P) -> NoDup L ->
  (forall coins, In coins L -> length coins = (2 * n + 6 + 3 * k)%nat /\
     rushing_experiment pf (ark_backend pf domain fuel) G gens b false P st coins <> rushing_experiment pf (ark_backend pf domain fuel) G gens b true P st coins) ->
  let N := Z.of_nat (length xs) in let m := 3 * Z.of_nat n in let T := Z.of_nat t + 2 * Z.of_nat q in
  let forged := 4 * N + 7 * (m + 6) + Z.of_nat k ^ 2 * (3 * N + 9 * (m + 9)) in
  Z.of_nat (length L) * modulus (K_of E) <=
  (N + Z.of_nat (looks P) * (3 * N + 7 * (m + 6)) +
   (N + (1 + Z.of_nat n + Z.of_nat n * (N + 2)) + 4 * T * (Z.of_nat k + 1) * (3 * N + 9 * (m + 9)) + 2 * Z.of_nat q * forged)) * modulus (K_of E) ^ Z.of_nat (2 * n + 6 + 3 * k).
Proof.
  intros HG HH Hd Hb HM C1 C2 Hc Hn Hcs Hxs HP Hnd HL. cbv zeta.
  pose proof (rush_rcca_bound n cs xs pf domain fuel b gens HG HH Hd Hb HM (conj C1 C2) Hc Hn Hcs Hxs P G st t q k HP L Hnd HL) as B.
  unfold cost, NM, D0 in B. cbn [cw] in B. replace (Z.of_nat t + 2 * Z.of_nat q) with (Z.of_nat (t + 2 * q)) by lia. set (Q := Z.of_nat (t + 2 * q)) in *. clearbody Q.
  replace (Z.of_nat (k + 1)) with (Z.of_nat k + 1) in B by lia.
  eapply Z.le_trans; [exact B|]. apply Z.eq_le_incl. ring.
Qed.

(* in terms of the number of coins on which the coalition says yes: All lists every sequence of coins once *)
Theorem C84_late_decisions_reveal_no_messages (E : pairing) (gens : encryption_gens E) (pf : profile)
    (domain : nat -> option (list (Fr E))) (fuel n k : nat) (b : Z) (cs : csys (K_of E)) (xs : list (Fr E)) (All : list (list (Fr E))) :
  eg_G gens <> gzero -> eg_H gens <> gzero -> domain_ok domain ->
  supported b -> 2 ^ b <= modulus (K_of E) ->
  64 * Z.of_nat (limbs (K_of E)) - b < modulus_bit_size (K_of E) -> 64 * Z.of_nat (limbs (K_of E)) < 256 * b ->
  chunks_count (K_of E) b = Ok (Z.of_nat n) -> (0 < n)%nat ->
  generate_constraints (BitsizeCheckCircuit b (Z.of_nat n) None true) (cs_new Circuit.Setup) = Ok cs ->
  domain (length (cs_cons cs) + cs_num_inst cs)%nat = Some xs ->
  NoDup All -> (forall coins, In coins All <-> length coins = (2 * n + 6 + 3 * k)%nat) ->
  forall (G : rng_impl E) (st : rng_st G) (t q : nat) (P : plan E (rush E bool)), Forall (rush_limited n t q k) (choices P) ->
  let says_yes second coins := match rushing_experiment pf (ark_backend pf domain fuel) G gens b second P st coins with Some g => g | None => false end in
  let yes second := Z.of_nat (length (filter (says_yes second) All)) in
  let N := Z.of_nat (length xs) in let m := 3 * Z.of_nat n in let T := Z.of_nat t + 2 * Z.of_nat q in
  let forged := 4 * N + 7 * (m + 6) + Z.of_nat k ^ 2 * (3 * N + 9 * (m + 9)) in
  Z.abs (yes false - yes true) * modulus (K_of E) <=
  (N + Z.of_nat (looks P) * (3 * N + 7 * (m + 6)) +
   (N + (1 + Z.of_nat n + Z.of_nat n * (N + 2)) + 4 * T * (Z.of_nat k + 1) * (3 * N + 9 * (m + 9)) + 2 * Z.of_nat q * forged)) * Z.of_nat (length All).
Proof.
  intros HG HH Hdom Hb HbM H1 H2 Hcount Hn0 Hcs Hxs Hnd HA G st t q P HP says_yes yes. cbv zeta. rewrite (all_tuples_count _ All Hnd HA).
  pose proof (@modulus_gt1 (K_of E)) as Hp.
  eapply Z.le_trans; [apply Z.mul_le_mono_nonneg_r; [lia|apply count_difference]|].
  apply (C84_result_rarely_depends_on_which_messages E bool gens pf domain fuel n b cs xs G st t q k P _ HG HH Hdom Hb HbM H1 H2 Hcount Hn0 Hcs Hxs HP); [apply NoDup_filter; exact Hnd|].
  intros coins Hin. apply filter_In in Hin. destruct Hin as [Hin Hne]. split; [apply HA; exact Hin|].
  intros Z. unfold says_yes in Hne. rewrite Z in Hne. rewrite Bool.eqb_reflx in Hne. discriminate Hne.
Qed.

(* What such a coalition gets accepted in the end is an encryption of chunks of b bits that can be read off its combinations, or a copy of a
   ciphertext on the table. *)
Theorem C84_late_decisions_do_not_help_to_forge (E : pairing) (gens : encryption_gens E) (pf : profile)
    (domain : nat -> option (list (Fr E))) (fuel n : nat) (b : Z) (cs : csys (K_of E)) (xs : list (Fr E))
    (G : rng_impl E) (st : rng_st G) (t q k : nat) (second : bool) (P : plan E (rush E (strategy E))) (L : list (list (Fr E))) :
  eg_G gens <> gzero -> eg_H gens <> gzero -> domain_ok domain ->
  supported b -> 2 ^ b <= modulus (K_of E) ->
  64 * Z.of_nat (limbs (K_of E)) - b < modulus_bit_size (K_of E) -> 64 * Z.of_nat (limbs (K_of E)) < 256 * b ->
  chunks_count (K_of E) b = Ok (Z.of_nat n) -> (0 < n)%nat ->
  generate_constraints (BitsizeCheckCircuit b (Z.of_nat n) None true) (cs_new Circuit.Setup) = Ok cs ->
  domain (length (cs_cons cs) + cs_num_inst cs)%nat = Some xs ->
  Forall (rush_limited n t q k) (choices P) -> NoDup L ->
  (forall coins, In coins L -> length coins = (2 * n + 6 + 3 * k)%nat /\ exists pk part keys rest S cps,
     first_moves (ark_backend pf domain fuel) gens b coins = Ok (pk, part) /\
     let x := settle P (early_g1 gens pk part) (early_g2 gens pk part) in
     let nb := length (ru_before x) in let parties := (length (ru_before x) + 1 + length (ru_after x))%nat in
     dkg_setup (ark_backend pf domain fuel) gens b (ru_before x) (ru_after x) coins = Ok (keys, rest) /\
     dkg_duel pf (ark_backend pf domain fuel) G gens b keys second (ru_attack x) [] [] rest st = Some (S, cps) /\
     let T1 := dkg_g1 gens (public_run keys cps) in let T2 := dkg_g2 gens (public_run keys cps) in
     let ct := ciphertext_from S T1 in let q := proof_from S T1 T2 in
     verify_commitment_and_proof ct q (prepare_verifying_key (gpk_vk (pk_pk (kg_pk keys)))) (prepare_ek (kg_ek keys)) (prepare_gens gens) = Ok tt /\
     ~ (digits_ok b (dkg_extracted_chunks n nb parties S) /\ exists g_i, get_gs_for_encryption (gpk_vk (pk_pk (kg_pk keys))) = Ok g_i /\
        encrypts (kg_ek keys) g_i (dkg_extracted_chunks n nb parties S) (ct_vec ct) (dkg_extracted_r n nb parties S)) /\
     ~ (exists ct0 q0, In (ct0, q0) cps /\ ct = rerandomized (kg_ek keys) (dkg_extracted_r n nb parties S) ct0 /\ exists kappa, kappa <> fzero /\ pr_a q = kappa [*] pr_a q0)) ->
  let N := Z.of_nat (length xs) in let m := 3 * Z.of_nat n in let T := Z.of_nat t + 2 * Z.of_nat q in
  let forged := 4 * N + 7 * (m + 6) + Z.of_nat k ^ 2 * (3 * N + 9 * (m + 9)) in
  Z.of_nat (length L) * modulus (K_of E) <=
  (N + Z.of_nat (looks P) * (3 * N + 7 * (m + 6)) +
   (N + (1 + Z.of_nat n + Z.of_nat n * (N + 2)) + 3 * T * (Z.of_nat k + 1) * (3 * N + 9 * (m + 9)) + (Z.of_nat q + 1) * forged)) * modulus (K_of E) ^ Z.of_nat (2 * n + 6 + 3 * k).
Proof.
  intros HG HH Hd Hb HM C1 C2 Hc Hn Hcs Hxs HP Hnd HL. cbv zeta.
  pose proof (rush_rcca_forgery n cs xs pf domain fuel b gens HG HH Hd Hb HM (conj C1 C2) Hc Hn Hcs Hxs P G st t q k second HP L Hnd) as B.
  assert (B' : Z.of_nat (length L) * modulus (K_of E) <= (Z.of_nat (length xs) + (Z.of_nat (looks P) * (3 * Z.of_nat (length xs) + 7 * (3 * Z.of_nat n + 6)) +
    (Z.of_nat (length xs) + (D0 n xs + (cost n xs second t q k + NM n xs 0 (Z.of_nat k)))))) * modulus (K_of E) ^ Z.of_nat (2 * n + 6 + 3 * k)).
  { apply B. intros coins Hin. destruct (HL coins Hin) as (Lc & pk & part & keys & rest & S & cps & Hf & Hset & Hduel & Hodd). split; [exact Lc|]. exists pk, part. split; [exact Hf|].
    exists keys, rest, S, cps. split; [exact Hset|]. split; [exact Hduel|]. exact Hodd. }
  clear B HL. rename B' into B. unfold cost, NM, D0 in B. replace (Z.of_nat t + 2 * Z.of_nat q) with (Z.of_nat (t + 2 * q)) by lia. set (Q := Z.of_nat (t + 2 * q)) in *. assert (HQ : 0 <= Q) by (unfold Q; lia). clearbody Q.
  replace (Z.of_nat (k + 1)) with (Z.of_nat k + 1) in B by lia. pose proof (@modulus_gt1 (K_of E)) as Hp.
  eapply Z.le_trans; [exact B|]. apply Z.mul_le_mono_nonneg_r; [apply Z.pow_nonneg; lia|].
  set (X := Q * ((Z.of_nat k + 1) * (3 * Z.of_nat (length xs) + 9 * (3 * Z.of_nat n + 9)))). assert (HX : 0 <= X) by (unfold X; repeat apply Z.mul_nonneg_nonneg; lia).
  assert (cw second * X <= 3 * X) by (destruct second; cbn [cw]; lia). etransitivity; [do 4 apply Z.add_le_mono_l; apply Z.add_le_mono_r, Z.add_le_mono_r; exact H|]. unfold X. apply Z.eq_le_incl. ring.
Qed.

(* Unless one of three coins is bad the first moves and the key generation succeed whatever the coalition decides, and the game comes to an end. *)
Theorem C84_game_ends (E : pairing) (R : Type) (gens : encryption_gens E) (pf : profile)
    (domain : nat -> option (list (Fr E))) (fuel n : nat) (b : Z) (cs : csys (K_of E)) (xs : list (Fr E))
    (G : rng_impl E) (st : rng_st G) (t q k : nat) (second : bool) (P : plan E (rush E R)) coins :
  eg_G gens <> gzero -> eg_H gens <> gzero -> domain_ok domain -> supported b -> 2 ^ b <= modulus (K_of E) ->
  64 * Z.of_nat (limbs (K_of E)) - b < modulus_bit_size (K_of E) -> 64 * Z.of_nat (limbs (K_of E)) < 256 * b ->
  chunks_count (K_of E) b = Ok (Z.of_nat n) -> (0 < n)%nat -> (0 < fuel)%nat ->
  generate_constraints (BitsizeCheckCircuit b (Z.of_nat n) None true) (cs_new Circuit.Setup) = Ok cs ->
  domain (length (cs_cons cs) + cs_num_inst cs)%nat = Some xs ->
  Forall (rush_limited n t q k) (choices P) -> length coins = (2 * n + 6 + 3 * k)%nat -> nth 2 coins fzero <> fzero -> nth 3 coins fzero <> fzero -> ~ In (nth 4 coins fzero) xs ->
  exists pk part r, first_moves (ark_backend pf domain fuel) gens b coins = Ok (pk, part) /\
    In (settle P (early_g1 gens pk part) (early_g2 gens pk part)) (choices P) /\
    rushing_experiment pf (ark_backend pf domain fuel) G gens b second P st coins = Some r.
Proof.
  intros HG HH Hd Hb HM C1 C2 Hc Hn Hf Hcs Hxs HP Lc H2 H3 Hin.
  assert (Hsel : forall Ps Qs, In (settle P Ps Qs) (choices P)).
  { clear. intros Ps Qs. induction P as [x|q0 P1 IH1 P2 IH2]; cbn [settle choices]; [left; reflexivity|]. apply in_or_app. destruct (geqb _ _); [left; exact IH1|right; exact IH2]. }
  assert (Hend : forall x, In x (choices P) -> exists pk part r, first_moves (ark_backend pf domain fuel) gens b coins = Ok (pk, part) /\
    experiment_rcca_dkg pf (ark_backend pf domain fuel) G gens b (ru_before x) (ru_after x) second (ru_attack x) st coins = Some r).
  { intros x Hx. rewrite Forall_forall in HP. destruct (HP x Hx) as (Hbef & Haft & W).
    destruct (C80_game_ends E R gens pf domain fuel n b cs xs (ru_before x) (ru_after x) G st t q k second (ru_attack x) coins HG HH Hd Hb HM C1 C2 Hc Hn Hf Hcs Hxs Hbef Haft W Lc H2 H3 Hin)
      as (keys & rest & g_i & r & cps & msgs & st' & Hset & _ & _ & _ & He & _).
    destruct (C84_same_first_moves E _ gens b _ _ coins keys rest Hset) as (part & Hfm & _). exists (kg_pk keys), part, r. split; assumption. }
  destruct (Hend _ (Hsel [] [])) as (pk & part & r0 & Hfm & _). exists pk, part.
  destruct (Hend _ (Hsel (early_g1 gens pk part) (early_g2 gens pk part))) as (pk' & part' & r & _ & He). exists r. split; [exact Hfm|]. split; [apply Hsel|].
  unfold rushing_experiment. rewrite Hfm. exact He.
Qed.

(* ---------- with the parameters of BLS12-381 ---------- *)
Lemma rush_budget (N n T q k C D l : Z) : 0 <= N <= 32768 -> 16 <= n <= 64 -> 0 <= l -> 0 <= T -> l + T < 2 ^ 64 -> 0 <= q -> 2 * q <= T -> 0 <= k <= 2 ^ 20 -> 1 <= C <= 4 -> 0 <= D <= 2 * q + 1 ->
  (N + l * (3 * N + 7 * (3 * n + 6)) + (N + (1 + n + n * (N + 2)) + C * T * (k + 1) * (3 * N + 9 * (3 * n + 9)) + D * (4 * N + 7 * (3 * n + 6) + k ^ 2 * (3 * N + 9 * (3 * n + 9))))) * 2 ^ 128 <= bls_r.
Proof.
  intros HN Hn Hl HT HlT Hq HqT Hk HC HD.
  eapply Z.le_trans; [|apply (game_budget N n (T + (l + 1)) q k C D); try assumption; lia].
  apply Z.mul_le_mono_nonneg_r; [discriminate|]. set (A := 3 * N + 9 * (3 * n + 9)). set (g := D * _).
  assert (HA : N <= A) by (unfold A; lia). assert (HA' : 0 <= 3 * N + 7 * (3 * n + 6) <= A) by (unfold A; lia).
  assert (X : l * (3 * N + 7 * (3 * n + 6)) + N <= (l + 1) * A) by (rewrite Z.mul_add_distr_r; pose proof (Z.mul_le_mono_nonneg_l _ _ l Hl (proj2 HA')); lia).
  assert (Y : (l + 1) * A <= C * (l + 1) * (k + 1) * A).
  { assert (1 * 1 <= C * (k + 1)) by (apply Z.mul_le_mono_nonneg; lia). replace (C * (l + 1) * (k + 1) * A) with ((C * (k + 1)) * ((l + 1) * A)) by ring. assert (0 <= (l + 1) * A) by (apply Z.mul_nonneg_nonneg; lia).
    rewrite <- (Z.mul_1_l ((l + 1) * A)) at 1. apply Z.mul_le_mono_nonneg_r; lia. }
  replace (C * (T + (l + 1)) * (k + 1) * A) with (C * T * (k + 1) * A + C * (l + 1) * (k + 1) * A) by ring. lia.
Qed.
Lemma bls_moves (E : pairing) pf fuel gens b coins : first_moves (@bls_backend E pf fuel) gens b coins = first_moves (ark_backend pf bls_domain fuel) gens b coins.
Proof. reflexivity. Qed.
(* With fewer than 2^64 tests and submissions altogether and at most 2^20 pairs of messages, deciding late tells the coalition which messages are
   encrypted with an advantage of at most 2^-128. *)
Theorem C84_bls_late_decisions_reveal_no_messages (E : pairing) (gens : encryption_gens E) (pf : profile) (fuel : nat) (b : Z)
    (G : rng_impl E) (st : rng_st G) (t q k : nat) (P : plan E (rush E bool)) (All : list (list (Fr E))) :
  bls12_381 E -> supported b -> eg_G gens <> gzero -> eg_H gens <> gzero ->
  let n := bls_chunks b in
  Forall (rush_limited n t q k) (choices P) -> Z.of_nat (looks P) + (Z.of_nat t + 2 * Z.of_nat q) < 2 ^ 64 -> Z.of_nat k <= 2 ^ 20 ->
  NoDup All -> (forall coins, In coins All <-> length coins = (2 * n + 6 + 3 * k)%nat) ->
  let says_yes second coins := match rushing_experiment pf (bls_backend pf fuel) G gens b second P st coins with Some g => g | None => false end in
  let yes second := Z.of_nat (length (filter (says_yes second) All)) in
  Z.abs (yes false - yes true) * 2 ^ 128 <= Z.of_nat (length All).
Proof.
  intros HE Hb HG HH. params HE Hb. cbv zeta. intros HP Ht Hk Hnd Hall. pose proof (proj1 HE) as Hp.
  assert (Hbound := C84_late_decisions_reveal_no_messages E gens pf bls_domain fuel (bls_chunks b) k b cs xs All HG HH Hdom Hb HbM Hc1 Hc2 Hcount Hn0 Hcs Hxs Hnd Hall G st t q P HP).
  cbv zeta in Hbound. rewrite Hp in Hbound.
  assert (Hf : forall second, filter (fun coins => match rushing_experiment pf (bls_backend pf fuel) G gens b second P st coins with Some g => g | None => false end) All =
    filter (fun coins => match rushing_experiment pf (ark_backend pf bls_domain fuel) G gens b second P st coins with Some g => g | None => false end) All).
  { intros second. apply filter_ext. intros coins. unfold rushing_experiment. rewrite bls_moves. destruct (first_moves _ gens b coins) as [[pk part]|err|]; [|reflexivity|reflexivity]. cbv zeta.
    unfold bls_backend. rewrite (coset_experiment_dkg bls_generator pf bls_domain fuel b Hdom Hg0 Hgrp Hb Hbits). reflexivity. }
  cbv beta. rewrite !Hf. eapply margin; [exact Hbound|apply rush_budget with (q := Z.of_nat q); try assumption; lia|lia|reflexivity|discriminate].
Qed.
Theorem C84_bls_late_decisions_do_not_help_to_forge (E : pairing) (gens : encryption_gens E) (pf : profile) (fuel : nat) (b : Z)
    (G : rng_impl E) (st : rng_st G) (t q k : nat) (second : bool) (P : plan E (rush E (strategy E))) (L : list (list (Fr E))) :
  bls12_381 E -> supported b -> eg_G gens <> gzero -> eg_H gens <> gzero ->
  let n := bls_chunks b in
  Forall (rush_limited n t q k) (choices P) -> Z.of_nat (looks P) + (Z.of_nat t + 2 * Z.of_nat q) < 2 ^ 64 -> Z.of_nat k <= 2 ^ 20 -> NoDup L ->
  (forall coins, In coins L -> length coins = (2 * n + 6 + 3 * k)%nat /\ exists pk part keys rest S cps,
     first_moves (bls_backend pf fuel) gens b coins = Ok (pk, part) /\
     let x := settle P (early_g1 gens pk part) (early_g2 gens pk part) in
     let nb := length (ru_before x) in let parties := (length (ru_before x) + 1 + length (ru_after x))%nat in
     dkg_setup (bls_backend pf fuel) gens b (ru_before x) (ru_after x) coins = Ok (keys, rest) /\
     dkg_duel pf (bls_backend pf fuel) G gens b keys second (ru_attack x) [] [] rest st = Some (S, cps) /\
     let T1 := dkg_g1 gens (public_run keys cps) in let T2 := dkg_g2 gens (public_run keys cps) in
     let ct := ciphertext_from S T1 in let q := proof_from S T1 T2 in
     verify_commitment_and_proof ct q (prepare_verifying_key (gpk_vk (pk_pk (kg_pk keys)))) (prepare_ek (kg_ek keys)) (prepare_gens gens) = Ok tt /\
     ~ (digits_ok b (dkg_extracted_chunks n nb parties S) /\ exists g_i, get_gs_for_encryption (gpk_vk (pk_pk (kg_pk keys))) = Ok g_i /\
        encrypts (kg_ek keys) g_i (dkg_extracted_chunks n nb parties S) (ct_vec ct) (dkg_extracted_r n nb parties S)) /\
     ~ (exists ct0 q0, In (ct0, q0) cps /\ ct = rerandomized (kg_ek keys) (dkg_extracted_r n nb parties S) ct0 /\ exists kappa, kappa <> fzero /\ pr_a q = kappa [*] pr_a q0)) ->
  Z.of_nat (length L) * 2 ^ 128 <= modulus (K_of E) ^ Z.of_nat (2 * n + 6 + 3 * k).
Proof.
  intros HE Hb HG HH. params HE Hb. cbv zeta. intros HP Ht Hk Hnd HL. pose proof (proj1 HE) as Hp.
  assert (Hbound := C84_late_decisions_do_not_help_to_forge E gens pf bls_domain fuel (bls_chunks b) b cs xs G st t q k second P L HG HH Hdom Hb HbM Hc1 Hc2 Hcount Hn0 Hcs Hxs HP Hnd).
  cbv zeta in Hbound. rewrite Hp in Hbound |- *. eapply margin; [apply Hbound|apply rush_budget with (q := Z.of_nat q); try assumption; lia|apply Z.pow_nonneg; discriminate|reflexivity|discriminate].
  intros coins Hin. destruct (HL coins Hin) as (Hl & pk & part & keys & rest & S & cps & Hfm & Hset & Hduel & Hrest). split; [exact Hl|].
  exists pk, part, keys, rest, S, cps. split; [exact Hfm|]. split; [exact Hset|]. split; [|exact Hrest].
  unfold bls_backend in Hduel. rewrite (coset_dkg_duel bls_generator pf bls_domain fuel b Hdom Hg0 Hgrp Hb Hbits) in Hduel. exact Hduel.
Qed.

(* ---------- cases ---------- *)
(* A coalition that looks whether alpha is zero, and then comes before the honest party or after it. *)
Definition r_tape : list (Fr E61) := map nz61 [2; 3; 4; 5; 6; 7; 8; 9; 10].
Definition r_attack : adversary E61 bool := Offer (nz61 20) (nz61 21) (Try [[fone]] (Stop true) (Ship (@Strategy E61 [] [] [] [] [] []) (fun r => match r with Opened _ => Stop true | _ => Stop false end))).
Definition r_plan : plan E61 (rush E61 bool) := Look [[]; [fone]] (Settle (Rush [r_tape; r_tape] [] r_attack)) (Settle (Rush [] [r_tape] r_attack)).
Lemma first_alpha (E : pairing) (pf : profile) (domain : nat -> option (list (Fr E))) fuel gens b coins pk part : domain_ok domain -> first_moves (ark_backend pf domain fuel) gens b coins = Ok (pk, part) ->
  vk_alpha_g1 (gpk_vk (pk_pk pk)) = nth 0 coins fzero [*] eg_G gens.
Proof.
  intros Hd H. unfold first_moves in H. apply bind_Ok_inv in H. destruct H as (circ & _ & H). apply bind_Ok_inv in H. destruct H as ([pk0 st1] & Hs & H).
  apply bind_Ok_inv in H. destruct H as (g_i & _ & H). apply bind_Ok_inv in H. destruct H as ([[sk part'] st2] & _ & H). assert (pk0 = pk) by congruence. subst pk0. clear H.
  unfold generate_srs in Hs. destruct (rand_scalar (replay_rng E) coins) as [al s1] eqn:E1. destruct (rand_scalar (replay_rng E) s1) as [be s2]. destruct (rand_scalar (replay_rng E) s2) as [ga s3]. destruct (rand_scalar (replay_rng E) s3) as [de s4].
  apply bind_Ok_inv in Hs. destruct Hs as ([gpk s5] & Hg & Hs). assert (Ep : pk = ProvingKey gpk (mul_bigint (eg_G gens) (into_bigint (fneg ga)))) by congruence.
  destruct (Groth16Spec.setup_shape _ (ark_backend_correct pf domain fuel Hd) _ _ _ _ _ _ _ _ _ _ _ Hg) as (_ & _ & Ha & _). rewrite Ep. cbn [pk_pk]. rewrite Ha. f_equal. destruct coins as [|c coins]; cbn [rand_scalar replay_rng] in E1; cbn [nth]; congruence.
Qed.
Lemma r_limited : Forall (rush_limited 4 1 1 1) (choices r_plan).
Proof.
  assert (W : limited 1 1 1 r_attack) by (unfold r_attack; apply limited_offer, limited_try; [apply limited_stop|]; apply limited_ship; intros r; destruct r; apply limited_stop).
  unfold r_plan. cbn [choices app]. constructor; [|constructor; [|constructor]]; (split; [|split; [|exact W]]); cbn [ru_before ru_after]; repeat constructor.
Qed.
(* Both decisions occur, and on these coins the game comes to an end in both branches. *)
Example C84_case (pf : profile) (G : rng_impl E61) (st : rng_st G) (second : bool) :
  let B := ark_backend pf y_domain 3 in
  Forall (rush_limited 4 1 1 1) (choices r_plan) /\ looks r_plan = 1%nat /\
  (exists pk part r, first_moves B x_gens 16 u_coins = Ok (pk, part) /\ ru_before (settle r_plan (early_g1 x_gens pk part) (early_g2 x_gens pk part)) = [] /\
     rushing_experiment pf B G x_gens 16 second r_plan st u_coins = Some r) /\
  (exists pk part r, first_moves B x_gens 16 (fzero :: tl u_coins) = Ok (pk, part) /\ ru_before (settle r_plan (early_g1 x_gens pk part) (early_g2 x_gens pk part)) = [r_tape; r_tape] /\
     rushing_experiment pf B G x_gens 16 second r_plan st (fzero :: tl u_coins) = Some r).
Proof.
  cbv zeta. split; [exact r_limited|]. split; [reflexivity|].
  destruct z_cs as (cs & Hcs & Hd). destruct y_conditions as (C1 & C2 & C3 & C4). assert (H4 : (0 < 4)%nat) by lia. assert (H3 : (0 < 3)%nat) by lia.
  assert (HG : eg_G x_gens <> gzero) by (intros H; apply (f_equal sval) in H; vm_compute in H; discriminate H).
  pose proof (fun coins => C84_game_ends E61 bool x_gens pf y_domain 3 4 16 cs y_xs G st 1 1 1 second r_plan coins HG x_H y_domain_ok C1 C2 C3 C4 y_count H4 H3 Hcs Hd r_limited) as GE.
  assert (Ans : forall coins pk part, first_moves (ark_backend pf y_domain 3) x_gens 16 coins = Ok (pk, part) ->
    geqb (pairing_product [[]; [fone]] (early_g1 x_gens pk part) (early_g2 x_gens pk part)) gzero = feqb (nth 0 coins fzero) fzero).
  { intros coins pk part Hf. unfold early_g1, early_g2. cbn [app pairing_product dot]. rewrite (first_alpha E61 pf y_domain 3 x_gens 16 coins pk part y_domain_ok Hf).
    rewrite pair_zero_r, gadd_0_l, !gadd_0_r, smul_1_l. apply eq_true_iff_eq. rewrite geqb_spec, feqb_spec. split.
    - intros Z. apply pair_nondeg in Z. destruct Z as [Z|Z]; [|destruct (x_H Z)]. apply smul_eq_zero in Z. destruct Z as [Z|Z]; [exact Z|destruct (HG Z)].
    - intros ->. rewrite smul_0_l. apply pair_zero_l. }
  split.
  - destruct (GE u_coins eq_refl z_gamma z_delta z_in) as (pk & part & r & Hf & _ & He). exists pk, part, r. split; [exact Hf|]. split; [|exact He].
    unfold r_plan. cbn [settle]. rewrite (Ans _ _ _ Hf). assert (Z : feqb (nth 0 u_coins fzero) fzero = false) by (vm_compute; reflexivity). rewrite Z. reflexivity.
  - destruct (GE (fzero :: tl u_coins) eq_refl z_gamma z_delta z_in) as (pk & part & r & Hf & _ & He). exists pk, part, r. split; [exact Hf|]. split; [|exact He].
    unfold r_plan. cbn [settle]. rewrite (Ans _ _ _ Hf). cbn [nth]. rewrite (proj2 (feqb_spec (@fzero K61) fzero) eq_refl). reflexivity.
Qed.
