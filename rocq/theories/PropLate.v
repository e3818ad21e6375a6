(* PropLate.v -- theorems for C86: coalitions that decide late and see the honest party's decryption shares *)
From Verif Require Import Base BaseFacts Algebra Utils UtilsFacts Setup Keygen Encryption Circuit CircuitFacts CircuitSat CommitmentFacts VecFacts KeySpec KeygenFacts
  EncryptFacts DecryptFacts Spec VerifyFacts Protocol ReencFacts DistFacts PropVerify Groth16 ArkGroth16 PolyFacts Groth16Spec ArkFacts Groth16Facts SchwartzZippel SoundCore SoundSpec
  SoundAlg SoundGame SoundLink SoundFacts SoundCount SoundHonest PropUtils PropEnc PropGroth16 PropGroth16More PropGroth16Cases PropSound PropSoundCases PropZK PrivacySpec PrivacyAlg PrivacyGame PrivacyLink PrivacyCount
  PrivacySpan PrivacyMany PropPrivacy PrivacyDkgSpec PrivacyDkg PropPrivacyDkg SoundDkgSpec SoundDkg SoundAdaptSpec SoundAdapt PropSoundAdapt NonmalCore NonmalAlg NonmalSpec NonmalGame NonmalRows NonmalLink NonmalCount PropNonmal
  NonmalDkg PropNonmalDkg RoundTrip PropRobust CcaSpec Cca CcaCount PropCca PropReencExact RccaSpec RccaTest RccaCount RccaDkgSpec RccaDkg PropRccaDkg RushSpec Rush InsiderSpec Insider LateSpec
  ArkCoset Radix2 CosetGame PropBls PropRush PropInsider Instance Examples.

(* P makes at most (looks P) tests of the SRS and of the honest contribution and then settles for one of (choices P): any parties before and after the
   honest one, with any tapes, and any attack of at most t tests, q submissions and k pairs of messages that sees the shares of the honest party. *)
Theorem C86_result_rarely_depends_on_which_messages (E : pairing) (R : Type) (gens : encryption_gens E) (pf : profile)
    (domain : nat -> option (list (Fr E))) (fuel n : nat) (b : Z) (cs : csys (K_of E)) (xs : list (Fr E))
    (G H : rng_impl E) (st : rng_st G) (sh : rng_st H) (t q k : nat) (P : plan E (late E R)) (L : list (list (Fr E))) :
  eg_G gens <> gzero -> eg_H gens <> gzero -> domain_ok domain ->
  supported b -> 2 ^ b <= modulus (K_of E) ->
  64 * Z.of_nat (limbs (K_of E)) - b < modulus_bit_size (K_of E) -> 64 * Z.of_nat (limbs (K_of E)) < 256 * b ->
  chunks_count (K_of E) b = Ok (Z.of_nat n) -> (0 < n)%nat ->
  generate_constraints (BitsizeCheckCircuit b (Z.of_nat n) None true) (cs_new Circuit.Setup) = Ok cs ->
  domain (length (cs_cons cs) + cs_num_inst cs)%nat = Some xs ->
  Forall (late_limited n t q k) (choices P) -> NoDup L ->
  (forall coins, In coins L -> length coins = (2 * n + 6 + 3 * k)%nat /\
     late_experiment pf (ark_backend pf domain fuel) G H gens b false P st sh coins <> late_experiment pf (ark_backend pf domain fuel) G H gens b true P st sh coins) ->
  let N := Z.of_nat (length xs) in let m := 3 * Z.of_nat n in let T := Z.of_nat t + 2 * Z.of_nat q in
  let forged := 4 * N + 7 * (m + 6) + Z.of_nat k ^ 2 * (3 * N + 9 * (m + 9)) in
  let base := N + (1 + Z.of_nat n + Z.of_nat n * (N + 2)) in
  Z.of_nat (length L) * modulus (K_of E) <=
  (N + (Z.of_nat (looks P) * (3 * N + 7 * (m + 6)) +
   ((2 * Z.of_nat q + 3) * base + (Z.of_nat q + 1) * (4 * T * (Z.of_nat k + 1) * (3 * N + 9 * (m + 9))) + 2 * Z.of_nat q * (Z.of_nat q + 2) * forged))) * modulus (K_of E) ^ Z.of_nat (2 * n + 6 + 3 * k).
Proof.
  intros HG HH Hd Hb HM C1 C2 Hc Hn Hcs Hxs HP Hnd HL. cbv zeta.
  set (D := _ + 2 * Z.of_nat q * (Z.of_nat q + 2) * _). assert (HD : 0 <= D) by (unfold D; pose proof (Z.pow_nonneg (Z.of_nat k) 2); repeat first [apply Z.add_nonneg_nonneg | apply Z.mul_nonneg_nonneg]; lia).
  refine (rare_split n cs xs b HM Hn (2 * n + 6 + 3 * k) _ (fun d => late_experiment pf (ark_backend pf domain fuel) G H gens b false P st sh d <> late_experiment pf (ark_backend pf domain fuel) G H gens b true P st sh d) _ _ L Hnd HL); [lia|].
  refine (rare_imp _ _ _ _ _ (rush_bound n cs xs pf domain fuel b gens HG HH Hb HM Hc Hn Hcs Hxs (late_limited n t q k)
    (fun x d => insider_experiment pf (ark_backend pf domain fuel) G H gens b (la_before x) (la_after x) false (la_attack x) st sh d <>
      insider_experiment pf (ark_backend pf domain fuel) G H gens b (la_before x) (la_after x) true (la_attack x) st sh d) D (3 * k) P HD HP _)).
  - intros d Ld (Hv & Hne). split; [exact Hv|]. unfold late_experiment in Hne. destruct (first_moves _ gens b d) as [[pk part]|err|]; [|destruct (Hne eq_refl)|destruct (Hne eq_refl)].
    exists pk, part. split; [reflexivity|]. exact Hne.
  - intros x (Hbef & Haft & W) L' Hnd' HL'.
    exact (C85_result_rarely_depends_on_which_messages E R gens pf domain fuel n b cs xs (la_before x) (la_after x) G H st sh t q k (la_attack x) L' HG HH Hd Hb HM C1 C2 Hc Hn Hcs Hxs Hbef Haft W Hnd' HL').
Qed.

(* in terms of the number of coins on which the coalition says yes: All lists every sequence of coins once *)
Theorem C86_late_insiders_learn_no_messages (E : pairing) (gens : encryption_gens E) (pf : profile)
    (domain : nat -> option (list (Fr E))) (fuel n k : nat) (b : Z) (cs : csys (K_of E)) (xs : list (Fr E)) (All : list (list (Fr E))) :
  eg_G gens <> gzero -> eg_H gens <> gzero -> domain_ok domain ->
  supported b -> 2 ^ b <= modulus (K_of E) ->
  64 * Z.of_nat (limbs (K_of E)) - b < modulus_bit_size (K_of E) -> 64 * Z.of_nat (limbs (K_of E)) < 256 * b ->
  chunks_count (K_of E) b = Ok (Z.of_nat n) -> (0 < n)%nat ->
  generate_constraints (BitsizeCheckCircuit b (Z.of_nat n) None true) (cs_new Circuit.Setup) = Ok cs ->
  domain (length (cs_cons cs) + cs_num_inst cs)%nat = Some xs ->
  NoDup All -> (forall coins, In coins All <-> length coins = (2 * n + 6 + 3 * k)%nat) ->
  forall (G H : rng_impl E) (st : rng_st G) (sh : rng_st H) (t q : nat) (P : plan E (late E bool)), Forall (late_limited n t q k) (choices P) ->
  let says_yes second coins := match late_experiment pf (ark_backend pf domain fuel) G H gens b second P st sh coins with Some g => g | None => false end in
  let yes second := Z.of_nat (length (filter (says_yes second) All)) in
  let N := Z.of_nat (length xs) in let m := 3 * Z.of_nat n in let T := Z.of_nat t + 2 * Z.of_nat q in
  let forged := 4 * N + 7 * (m + 6) + Z.of_nat k ^ 2 * (3 * N + 9 * (m + 9)) in
  let base := N + (1 + Z.of_nat n + Z.of_nat n * (N + 2)) in
  Z.abs (yes false - yes true) * modulus (K_of E) <=
  (N + (Z.of_nat (looks P) * (3 * N + 7 * (m + 6)) +
   ((2 * Z.of_nat q + 3) * base + (Z.of_nat q + 1) * (4 * T * (Z.of_nat k + 1) * (3 * N + 9 * (m + 9))) + 2 * Z.of_nat q * (Z.of_nat q + 2) * forged))) * Z.of_nat (length All).
Proof.
  intros HG HH Hdom Hb HbM H1 H2 Hcount Hn0 Hcs Hxs Hnd HA G H st sh t q P HP says_yes yes. cbv zeta. rewrite (all_tuples_count _ All Hnd HA).
  pose proof (@modulus_gt1 (K_of E)) as Hp.
  eapply Z.le_trans; [apply Z.mul_le_mono_nonneg_r; [lia|apply count_difference]|].
  apply (C86_result_rarely_depends_on_which_messages E bool gens pf domain fuel n b cs xs G H st sh t q k P _ HG HH Hdom Hb HbM H1 H2 Hcount Hn0 Hcs Hxs HP); [apply NoDup_filter; exact Hnd|].
  intros coins Hin. apply filter_In in Hin. destruct Hin as [Hin Hne]. split; [apply HA; exact Hin|].
  intros Z. unfold says_yes in Hne. rewrite Z in Hne. rewrite Bool.eqb_reflx in Hne. discriminate Hne.
Qed.

(* What is accepted in the end is an encryption of chunks of b bits under the joint key, or a rerandomized copy of a ciphertext on the table. *)
Theorem C86_late_insiders_cannot_forge (E : pairing) (gens : encryption_gens E) (pf : profile)
    (domain : nat -> option (list (Fr E))) (fuel n : nat) (b : Z) (cs : csys (K_of E)) (xs : list (Fr E))
    (G H : rng_impl E) (st : rng_st G) (sh : rng_st H) (t q k : nat) (second : bool) (P : plan E (late E (strategy E))) (L : list (list (Fr E))) :
  eg_G gens <> gzero -> eg_H gens <> gzero -> domain_ok domain ->
  supported b -> 2 ^ b <= modulus (K_of E) ->
  64 * Z.of_nat (limbs (K_of E)) - b < modulus_bit_size (K_of E) -> 64 * Z.of_nat (limbs (K_of E)) < 256 * b ->
  chunks_count (K_of E) b = Ok (Z.of_nat n) -> (0 < n)%nat ->
  generate_constraints (BitsizeCheckCircuit b (Z.of_nat n) None true) (cs_new Circuit.Setup) = Ok cs ->
  domain (length (cs_cons cs) + cs_num_inst cs)%nat = Some xs ->
  Forall (late_limited n t q k) (choices P) -> NoDup L ->
  (forall coins, In coins L -> length coins = (2 * n + 6 + 3 * k)%nat /\ exists pk part,
     first_moves (ark_backend pf domain fuel) gens b coins = Ok (pk, part) /\
     let x := settle P (early_g1 gens pk part) (early_g2 gens pk part) in exists keys S cps seen,
     insider_run pf (ark_backend pf domain fuel) G H gens b (la_before x) (la_after x) second (la_attack x) st sh coins = Some (keys, (S, cps, seen)) /\
     let T1 := dkg_g1 gens (public_run keys cps) ++ seen in let T2 := dkg_g2 gens (public_run keys cps) in
     let ct := ciphertext_from S T1 in let q := proof_from S T1 T2 in
     verify_commitment_and_proof ct q (prepare_verifying_key (gpk_vk (pk_pk (kg_pk keys)))) (prepare_ek (kg_ek keys)) (prepare_gens gens) = Ok tt /\
     ~ (exists g_i ds r, get_gs_for_encryption (gpk_vk (pk_pk (kg_pk keys))) = Ok g_i /\ digits_ok b ds /\ encrypts (kg_ek keys) g_i ds (ct_vec ct) r) /\
     ~ (exists ct0 q0 r, In (ct0, q0) cps /\ ct = rerandomized (kg_ek keys) r ct0 /\ exists kappa, kappa <> fzero /\ pr_a q = kappa [*] pr_a q0)) ->
  let N := Z.of_nat (length xs) in let m := 3 * Z.of_nat n in let T := Z.of_nat t + 2 * Z.of_nat q in
  let forged := 4 * N + 7 * (m + 6) + Z.of_nat k ^ 2 * (3 * N + 9 * (m + 9)) in
  let base := N + (1 + Z.of_nat n + Z.of_nat n * (N + 2)) in
  Z.of_nat (length L) * modulus (K_of E) <=
  (N + (Z.of_nat (looks P) * (3 * N + 7 * (m + 6)) +
   (base + (Z.of_nat q + 1) * (base + 3 * T * (Z.of_nat k + 1) * (3 * N + 9 * (m + 9)) + (Z.of_nat q + 1) * forged)))) * modulus (K_of E) ^ Z.of_nat (2 * n + 6 + 3 * k).
Proof.
  intros HG HH Hd Hb HM C1 C2 Hc Hn Hcs Hxs HP Hnd HL. cbv zeta.
  set (D := _ + (Z.of_nat q + 1) * _). assert (HD : 0 <= D) by (unfold D; pose proof (Z.pow_nonneg (Z.of_nat k) 2); repeat first [apply Z.add_nonneg_nonneg | apply Z.mul_nonneg_nonneg]; lia).
  refine (rare_split n cs xs b HM Hn (2 * n + 6 + 3 * k) _ _ _ _ L Hnd HL); [lia|].
  refine (rush_bound n cs xs pf domain fuel b gens HG HH Hb HM Hc Hn Hcs Hxs (late_limited n t q k) (fun x coins => exists keys S cps seen,
     insider_run pf (ark_backend pf domain fuel) G H gens b (la_before x) (la_after x) second (la_attack x) st sh coins = Some (keys, (S, cps, seen)) /\
     let T1 := dkg_g1 gens (public_run keys cps) ++ seen in let T2 := dkg_g2 gens (public_run keys cps) in
     let ct := ciphertext_from S T1 in let q := proof_from S T1 T2 in
     verify_commitment_and_proof ct q (prepare_verifying_key (gpk_vk (pk_pk (kg_pk keys)))) (prepare_ek (kg_ek keys)) (prepare_gens gens) = Ok tt /\
     ~ (exists g_i ds r, get_gs_for_encryption (gpk_vk (pk_pk (kg_pk keys))) = Ok g_i /\ digits_ok b ds /\ encrypts (kg_ek keys) g_i ds (ct_vec ct) r) /\
     ~ (exists ct0 q0 r, In (ct0, q0) cps /\ ct = rerandomized (kg_ek keys) r ct0 /\ exists kappa, kappa <> fzero /\ pr_a q = kappa [*] pr_a q0)) D (3 * k) P HD HP _).
  intros x (Hbef & Haft & W) L' Hnd' HL'.
  exact (C85_shares_do_not_help_to_forge E gens pf domain fuel n b cs xs (la_before x) (la_after x) G H st sh t q k second (la_attack x) L' HG HH Hd Hb HM C1 C2 Hc Hn Hcs Hxs Hbef Haft W Hnd' HL').
Qed.

(* Unless one of three coins is bad the first moves and the key generation succeed whatever the coalition decides, and the game comes to an end. *)
Theorem C86_game_ends (E : pairing) (R : Type) (gens : encryption_gens E) (pf : profile)
    (domain : nat -> option (list (Fr E))) (fuel n : nat) (b : Z) (cs : csys (K_of E)) (xs : list (Fr E))
    (G H : rng_impl E) (st : rng_st G) (sh : rng_st H) (t q k : nat) (second : bool) (P : plan E (late E R)) coins :
  eg_G gens <> gzero -> eg_H gens <> gzero -> domain_ok domain -> supported b -> 2 ^ b <= modulus (K_of E) ->
  64 * Z.of_nat (limbs (K_of E)) - b < modulus_bit_size (K_of E) -> 64 * Z.of_nat (limbs (K_of E)) < 256 * b ->
  chunks_count (K_of E) b = Ok (Z.of_nat n) -> (0 < n)%nat -> (0 < fuel)%nat ->
  generate_constraints (BitsizeCheckCircuit b (Z.of_nat n) None true) (cs_new Circuit.Setup) = Ok cs ->
  domain (length (cs_cons cs) + cs_num_inst cs)%nat = Some xs ->
  Forall (late_limited n t q k) (choices P) -> length coins = (2 * n + 6 + 3 * k)%nat -> nth 2 coins fzero <> fzero -> nth 3 coins fzero <> fzero -> ~ In (nth 4 coins fzero) xs ->
  exists pk part keys r cps seen, first_moves (ark_backend pf domain fuel) gens b coins = Ok (pk, part) /\
    let x := settle P (early_g1 gens pk part) (early_g2 gens pk part) in In x (choices P) /\
    insider_run pf (ark_backend pf domain fuel) G H gens b (la_before x) (la_after x) second (la_attack x) st sh coins = Some (keys, (r, cps, seen)) /\
    late_experiment pf (ark_backend pf domain fuel) G H gens b second P st sh coins = Some r.
Proof.
  intros HG HH Hd Hb HM C1 C2 Hc Hn Hf Hcs Hxs HP Lc H2 H3 Hin.
  assert (Hsel : forall Ps Qs, In (settle P Ps Qs) (choices P)).
  { clear. intros Ps Qs. induction P as [x|q0 P1 IH1 P2 IH2]; cbn [settle choices]; [left; reflexivity|]. apply in_or_app. destruct (geqb _ _); [left; exact IH1|right; exact IH2]. }
  assert (Hend : forall x, In x (choices P) -> exists pk part keys r cps seen, first_moves (ark_backend pf domain fuel) gens b coins = Ok (pk, part) /\
    insider_experiment pf (ark_backend pf domain fuel) G H gens b (la_before x) (la_after x) second (la_attack x) st sh coins = Some r /\
    insider_run pf (ark_backend pf domain fuel) G H gens b (la_before x) (la_after x) second (la_attack x) st sh coins = Some (keys, (r, cps, seen))).
  { intros x Hx. rewrite Forall_forall in HP. destruct (HP x Hx) as (Hbef & Haft & W).
    destruct (C85_game_ends E R gens pf domain fuel n b cs xs (la_before x) (la_after x) G H st sh t q k second (la_attack x) coins HG HH Hd Hb HM C1 C2 Hc Hn Hf Hcs Hxs Hbef Haft W Lc H2 H3 Hin)
      as (keys & rest & ho & pa & r & cps & seen & msgs & st' & op & Hset & _ & He & Hr & _).
    destruct (C84_same_first_moves E _ gens b _ _ coins keys rest Hset) as (part & Hfm & _). exists (kg_pk keys), part, keys, r, cps, seen. split; [exact Hfm|]. split; assumption. }
  destruct (Hend _ (Hsel [] [])) as (pk & part & _ & _ & _ & _ & Hfm & _).
  destruct (Hend _ (Hsel (early_g1 gens pk part) (early_g2 gens pk part))) as (pk' & part' & keys & r & cps & seen & _ & He & Hr). exists pk, part, keys, r, cps, seen. split; [exact Hfm|]. split; [apply Hsel|]. split; [exact Hr|].
  unfold late_experiment. rewrite Hfm. exact He.
Qed.

(* ---------- with the parameters of BLS12-381 ---------- *)
Lemma late_budget (N n T q k a l C D : Z) : 0 <= N <= 32768 -> 16 <= n <= 64 -> 0 <= q -> 2 * q <= T -> (q + 1) * (T + (l + 1)) <= 2 ^ 64 -> 0 <= l -> 0 <= k <= 2 ^ 20 -> 0 <= a <= 2 * q + 3 -> 1 <= C <= 4 -> 0 <= D <= 2 * (q + 1) * (q + 1) ->
  (N + (l * (3 * N + 7 * (3 * n + 6)) + (a * (N + (1 + n + n * (N + 2))) + (q + 1) * (C * T * (k + 1) * (3 * N + 9 * (3 * n + 9))) + D * (4 * N + 7 * (3 * n + 6) + k ^ 2 * (3 * N + 9 * (3 * n + 9)))))) * 2 ^ 128 <= bls_r.
Proof.
  intros HN Hn Hq HqT HT Hl Hk Ha HC HD.
  eapply Z.le_trans; [|apply (insider_budget N n (T + (l + 1)) q k a C D); try assumption; lia].
  apply Z.mul_le_mono_nonneg_r; [discriminate|]. set (A := 3 * N + 9 * (3 * n + 9)). set (g := D * _). set (h := a * _).
  assert (HA : N <= A) by (unfold A; lia). assert (HA' : 0 <= 3 * N + 7 * (3 * n + 6) <= A) by (unfold A; lia). assert (HA0 : 0 <= A) by (unfold A; lia).
  assert (X : l * (3 * N + 7 * (3 * n + 6)) + N <= (l + 1) * A) by (rewrite Z.mul_add_distr_r; pose proof (Z.mul_le_mono_nonneg_l _ _ l Hl (proj2 HA')); lia).
  assert (Y : (l + 1) * A <= (q + 1) * (C * (l + 1) * (k + 1) * A)).
  { assert (Y1 : 1 * 1 <= C * (k + 1)) by (apply Z.mul_le_mono_nonneg; lia). assert (Y2 : 1 * 1 <= (q + 1) * (C * (k + 1))) by (apply Z.mul_le_mono_nonneg; lia).
    replace ((q + 1) * (C * (l + 1) * (k + 1) * A)) with (((q + 1) * (C * (k + 1))) * ((l + 1) * A)) by ring. assert (0 <= (l + 1) * A) by (apply Z.mul_nonneg_nonneg; lia).
    rewrite <- (Z.mul_1_l ((l + 1) * A)) at 1. apply Z.mul_le_mono_nonneg_r; lia. }
  replace ((q + 1) * (C * (T + (l + 1)) * (k + 1) * A)) with ((q + 1) * (C * T * (k + 1) * A) + (q + 1) * (C * (l + 1) * (k + 1) * A)) by ring. clearbody A g h. lia.
Qed.
(* With at most 2^20 pairs of messages and (q + 1) (t + 2q + looks + 1) <= 2^64 -- for example 2^30 submissions and 2^33 looks and tests -- the advantage
   is at most 2^-128. *)
Theorem C86_bls_late_insiders_learn_no_messages (E : pairing) (gens : encryption_gens E) (pf : profile) (fuel : nat) (b : Z)
    (G H : rng_impl E) (st : rng_st G) (sh : rng_st H) (t q k : nat) (P : plan E (late E bool)) (All : list (list (Fr E))) :
  bls12_381 E -> supported b -> eg_G gens <> gzero -> eg_H gens <> gzero ->
  let n := bls_chunks b in
  Forall (late_limited n t q k) (choices P) -> (Z.of_nat q + 1) * (Z.of_nat t + 2 * Z.of_nat q + (Z.of_nat (looks P) + 1)) <= 2 ^ 64 -> Z.of_nat k <= 2 ^ 20 ->
  NoDup All -> (forall coins, In coins All <-> length coins = (2 * n + 6 + 3 * k)%nat) ->
  let says_yes second coins := match late_experiment pf (bls_backend pf fuel) G H gens b second P st sh coins with Some g => g | None => false end in
  let yes second := Z.of_nat (length (filter (says_yes second) All)) in
  Z.abs (yes false - yes true) * 2 ^ 128 <= Z.of_nat (length All).
Proof.
  intros HE Hb HG HH. params HE Hb. cbv zeta. intros HP Ht Hk Hnd Hall. pose proof (proj1 HE) as Hp.
  assert (Hbound := C86_late_insiders_learn_no_messages E gens pf bls_domain fuel (bls_chunks b) k b cs xs All HG HH Hdom Hb HbM Hc1 Hc2 Hcount Hn0 Hcs Hxs Hnd Hall G H st sh t q P HP).
  cbv zeta in Hbound. rewrite Hp in Hbound.
  assert (Hf : forall second, filter (fun coins => match late_experiment pf (bls_backend pf fuel) G H gens b second P st sh coins with Some g => g | None => false end) All =
    filter (fun coins => match late_experiment pf (ark_backend pf bls_domain fuel) G H gens b second P st sh coins with Some g => g | None => false end) All).
  { intros second. apply filter_ext. intros coins. unfold late_experiment. rewrite bls_moves. destruct (first_moves _ gens b coins) as [[pk part]|err|]; [|reflexivity|reflexivity]. cbv zeta.
    unfold insider_experiment, bls_backend. rewrite (coset_insider_run bls_generator pf bls_domain fuel b Hdom Hg0 Hgrp Hb Hbits). reflexivity. }
  cbv beta. rewrite !Hf. eapply margin; [exact Hbound| |lia|reflexivity|discriminate].
  clear - Ht Hk HN Hn64 Hb16. set (l := Z.of_nat (looks P)) in *. assert (Hl : 0 <= l) by (unfold l; lia). set (Q := Z.of_nat q) in *. assert (HQ : 0 <= Q) by (unfold Q; lia). assert (HT : 2 * Q <= Z.of_nat t + 2 * Q) by lia. set (T := Z.of_nat t + 2 * Q) in *. assert (Hk0 : 0 <= Z.of_nat k) by lia. clearbody Q T l.
  assert (HD : 0 <= 2 * Q * (Q + 2) <= 2 * (Q + 1) * (Q + 1)) by (split; [apply Z.mul_nonneg_nonneg; lia|]; replace (2 * (Q + 1) * (Q + 1)) with (2 * Q * (Q + 2) + 2) by ring; lia).
  apply late_budget; try assumption; try (split; assumption); try (split; discriminate). clear - HQ. lia.
Qed.
Theorem C86_bls_late_insiders_cannot_forge (E : pairing) (gens : encryption_gens E) (pf : profile) (fuel : nat) (b : Z)
    (G H : rng_impl E) (st : rng_st G) (sh : rng_st H) (t q k : nat) (second : bool) (P : plan E (late E (strategy E))) (L : list (list (Fr E))) :
  bls12_381 E -> supported b -> eg_G gens <> gzero -> eg_H gens <> gzero ->
  let n := bls_chunks b in
  Forall (late_limited n t q k) (choices P) -> (Z.of_nat q + 1) * (Z.of_nat t + 2 * Z.of_nat q + (Z.of_nat (looks P) + 1)) <= 2 ^ 64 -> Z.of_nat k <= 2 ^ 20 -> NoDup L ->
  (forall coins, In coins L -> length coins = (2 * n + 6 + 3 * k)%nat /\ exists pk part,
     first_moves (bls_backend pf fuel) gens b coins = Ok (pk, part) /\
     let x := settle P (early_g1 gens pk part) (early_g2 gens pk part) in exists keys S cps seen,
     insider_run pf (bls_backend pf fuel) G H gens b (la_before x) (la_after x) second (la_attack x) st sh coins = Some (keys, (S, cps, seen)) /\
     let T1 := dkg_g1 gens (public_run keys cps) ++ seen in let T2 := dkg_g2 gens (public_run keys cps) in
     let ct := ciphertext_from S T1 in let q := proof_from S T1 T2 in
     verify_commitment_and_proof ct q (prepare_verifying_key (gpk_vk (pk_pk (kg_pk keys)))) (prepare_ek (kg_ek keys)) (prepare_gens gens) = Ok tt /\
     ~ (exists g_i ds r, get_gs_for_encryption (gpk_vk (pk_pk (kg_pk keys))) = Ok g_i /\ digits_ok b ds /\ encrypts (kg_ek keys) g_i ds (ct_vec ct) r) /\
     ~ (exists ct0 q0 r, In (ct0, q0) cps /\ ct = rerandomized (kg_ek keys) r ct0 /\ exists kappa, kappa <> fzero /\ pr_a q = kappa [*] pr_a q0)) ->
  Z.of_nat (length L) * 2 ^ 128 <= modulus (K_of E) ^ Z.of_nat (2 * n + 6 + 3 * k).
Proof.
  intros HE Hb HG HH. params HE Hb. cbv zeta. intros HP Ht Hk Hnd HL. pose proof (proj1 HE) as Hp.
  assert (Hbound := C86_late_insiders_cannot_forge E gens pf bls_domain fuel (bls_chunks b) b cs xs G H st sh t q k second P L HG HH Hdom Hb HbM Hc1 Hc2 Hcount Hn0 Hcs Hxs HP Hnd).
  cbv zeta in Hbound. rewrite Hp in Hbound |- *. eapply margin; [apply Hbound| |apply Z.pow_nonneg; discriminate|reflexivity|discriminate].
  - intros coins Hin. destruct (HL coins Hin) as (Hl & pk & part & Hfm & keys & S & cps & seen & Hrun & Hrest). split; [exact Hl|]. exists pk, part. split; [exact Hfm|]. exists keys, S, cps, seen. split; [|exact Hrest].
    unfold bls_backend in Hrun. rewrite (coset_insider_run bls_generator pf bls_domain fuel b Hdom Hg0 Hgrp Hb Hbits) in Hrun. exact Hrun.
  - clear - Ht Hk HN Hn64 Hb16. set (l := Z.of_nat (looks P)) in *. assert (Hl : 0 <= l) by (unfold l; lia).
    set (Q := Z.of_nat q) in *. set (N := Z.of_nat (length xs)) in *. set (n := Z.of_nat (bls_chunks b)) in *. set (T := Z.of_nat t + 2 * Q) in *. set (k' := Z.of_nat k) in *.
    match goal with |- ?x * _ <= _ => replace x with (N + (l * (3 * N + 7 * (3 * n + 6)) + ((Q + 2) * (N + (1 + n + n * (N + 2))) + (Q + 1) * (3 * T * (k' + 1) * (3 * N + 9 * (3 * n + 9))) + ((Q + 1) * (Q + 1)) * (4 * N + 7 * (3 * n + 6) + k' ^ 2 * (3 * N + 9 * (3 * n + 9)))))) by ring end.
    assert (HQ : 0 <= Q) by (unfold Q; lia). assert (HT : 2 * Q <= T) by (unfold T; lia). assert (Hk0 : 0 <= k') by (unfold k'; lia). clearbody Q T k' l.
    assert (HD : 0 <= (Q + 1) * (Q + 1) <= 2 * (Q + 1) * (Q + 1)) by (assert (0 <= (Q + 1) * (Q + 1)) by (apply Z.mul_nonneg_nonneg; lia); rewrite <- Z.mul_assoc; lia).
    apply late_budget; try assumption; try (split; assumption); try (split; discriminate). clear - HQ. lia.
Qed.

(* ---------- cases ---------- *)
(* The plan of C84's case with an attack that asks for an encryption, submits, and tests the share it sees: both decisions occur and the game comes
   to an end in both branches. *)
Definition l_attack : insider E61 bool := IOffer (nz61 20) (nz61 21) (IShip (@Strategy E61 [] [] [] [] [] []) [fone; fone] (fun r => match r with Opened _ => ITry [[fone]] (IStop true) (IStop false) | _ => IStop false end)).
Definition l_plan : plan E61 (late E61 bool) := Look [[]; [fone]] (Settle (Late [r_tape; r_tape] [] l_attack)) (Settle (Late [] [r_tape] l_attack)).
Lemma l_limited : Forall (late_limited 4 1 1 1) (choices l_plan).
Proof.
  assert (W : ilimited 1 1 1 l_attack) by (unfold l_attack; apply ilimited_offer, ilimited_ship; intros r; destruct r; [apply ilimited_stop|apply ilimited_stop|apply ilimited_try; apply ilimited_stop]).
  unfold l_plan. cbn [choices app]. constructor; [|constructor; [|constructor]]; (split; [|split; [|exact W]]); cbn [la_before la_after]; repeat constructor.
Qed.
Example C86_case (pf : profile) (G H : rng_impl E61) (st : rng_st G) (sh : rng_st H) (second : bool) :
  let B := ark_backend pf y_domain 3 in
  Forall (late_limited 4 1 1 1) (choices l_plan) /\ looks l_plan = 1%nat /\
  (exists pk part r, first_moves B x_gens 16 u_coins = Ok (pk, part) /\ la_before (settle l_plan (early_g1 x_gens pk part) (early_g2 x_gens pk part)) = [] /\
     late_experiment pf B G H x_gens 16 second l_plan st sh u_coins = Some r) /\
  (exists pk part r, first_moves B x_gens 16 (fzero :: tl u_coins) = Ok (pk, part) /\ la_before (settle l_plan (early_g1 x_gens pk part) (early_g2 x_gens pk part)) = [r_tape; r_tape] /\
     late_experiment pf B G H x_gens 16 second l_plan st sh (fzero :: tl u_coins) = Some r).
Proof.
  cbv zeta. split; [exact l_limited|]. split; [reflexivity|].
  destruct z_cs as (cs & Hcs & Hd). destruct y_conditions as (C1 & C2 & C3 & C4). assert (H4 : (0 < 4)%nat) by lia. assert (H3 : (0 < 3)%nat) by lia.
  assert (HG : eg_G x_gens <> gzero) by (intros Z; apply (f_equal sval) in Z; vm_compute in Z; discriminate Z).
  pose proof (fun coins => C86_game_ends E61 bool x_gens pf y_domain 3 4 16 cs y_xs G H st sh 1 1 1 second l_plan coins HG x_H y_domain_ok C1 C2 C3 C4 y_count H4 H3 Hcs Hd l_limited) as GE.
  assert (Ans : forall coins pk part, first_moves (ark_backend pf y_domain 3) x_gens 16 coins = Ok (pk, part) ->
    geqb (pairing_product [[]; [fone]] (early_g1 x_gens pk part) (early_g2 x_gens pk part)) gzero = feqb (nth 0 coins fzero) fzero).
  { intros coins pk part Hf. unfold early_g1, early_g2. cbn [app pairing_product dot]. rewrite (first_alpha E61 pf y_domain 3 x_gens 16 coins pk part y_domain_ok Hf).
    rewrite pair_zero_r, gadd_0_l, !gadd_0_r, smul_1_l. apply eq_true_iff_eq. rewrite geqb_spec, feqb_spec. split.
    - intros Z. apply pair_nondeg in Z. destruct Z as [Z|Z]; [|destruct (x_H Z)]. apply smul_eq_zero in Z. destruct Z as [Z|Z]; [exact Z|destruct (HG Z)].
    - intros ->. rewrite smul_0_l. apply pair_zero_l. }
  split.
  - destruct (GE u_coins eq_refl z_gamma z_delta z_in) as (pk & part & keys & r & cps & seen & Hf & _ & _ & He). exists pk, part, r. split; [exact Hf|]. split; [|exact He].
    unfold l_plan. cbn [settle]. rewrite (Ans _ _ _ Hf). assert (Z : feqb (nth 0 u_coins fzero) fzero = false) by (vm_compute; reflexivity). rewrite Z. reflexivity.
  - destruct (GE (fzero :: tl u_coins) eq_refl z_gamma z_delta z_in) as (pk & part & keys & r & cps & seen & Hf & _ & _ & He). exists pk, part, r. split; [exact Hf|]. split; [|exact He].
    unfold l_plan. cbn [settle]. rewrite (Ans _ _ _ Hf). cbn [nth]. rewrite (proj2 (feqb_spec (@fzero K61) fzero) eq_refl). reflexivity.
Qed.
