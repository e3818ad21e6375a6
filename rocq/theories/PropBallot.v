(* PropBallot.v -- theorems for C88: an election reveals the sum of the votes, and nothing else about them *)
From Verif Require Import Base BaseFacts Algebra Utils UtilsFacts Setup Keygen Encryption Circuit CircuitFacts CircuitSat CommitmentFacts VecFacts KeySpec KeygenFacts
  EncryptFacts DecryptFacts Spec VerifyFacts Protocol ReencFacts DistFacts PropVerify PropCircuit Groth16 ArkGroth16 PolyFacts Groth16Spec ArkFacts Groth16Facts SchwartzZippel SoundCore SoundSpec
  SoundAlg SoundGame SoundLink SoundFacts SoundCount SoundHonest PropUtils PropEnc PropProto PropGroth16 PropGroth16More PropGroth16Cases PropSound PropSoundCases PropZK PrivacySpec PrivacyAlg PrivacyGame PrivacyLink PrivacyCount
  PrivacySpan PrivacyMany PropPrivacy PrivacyDkgSpec PrivacyDkg PropPrivacyDkg SoundDkgSpec SoundDkg SoundAdaptSpec SoundAdapt PropSoundAdapt NonmalCore NonmalAlg NonmalSpec NonmalGame NonmalRows NonmalLink NonmalCount PropNonmal
  NonmalDkg PropNonmalDkg RoundTrip PropRobust CcaSpec Cca CcaCount PropCca PropReencExact RccaSpec RccaTest RccaCount RccaDkgSpec RccaDkg PropRccaDkg RushSpec Rush PropRush InsiderSpec Insider PropInsider
  LateSpec PropLate TallySpec PropTally BallotSpec Ballot BallotCount ArkCoset Radix2 CosetGame PropBls Instance Examples.

(* All parties but one, together with dishonest voters: the coalition attacks as in C85 (it chooses pairs of messages, honest clients encrypt the first or
   the second ones, it submits ciphertexts and sees decryption shares), then casts at most v ballots, the valid ones are added to those of the clients,
   and the honest party sends its decryption share of the sum for a destination of the coalition's choice.  After at most u more tests the coalition
   says anything.  If the two worlds have the same sum of votes, and none of the counted ballots is a rerandomized ciphertext of a client, then on all
   but few coins it says the same in both worlds. *)
Theorem C88_elections_hide_the_votes (E : pairing) (R : Type) (gens : encryption_gens E) (pf : profile)
    (domain : nat -> option (list (Fr E))) (fuel n : nat) (b : Z) (cs : csys (K_of E)) (xs : list (Fr E)) (before after : list (list (Fr E)))
    (G H H' : rng_impl E) (st : rng_st G) (sh : rng_st H) (sh' : rng_st H') (t q k v u : nat) (A : insider E (campaign E R)) (L : list (list (Fr E))) :
  eg_G gens <> gzero -> eg_H gens <> gzero -> domain_ok domain ->
  supported b -> 2 ^ b <= modulus (K_of E) ->
  64 * Z.of_nat (limbs (K_of E)) - b < modulus_bit_size (K_of E) -> 64 * Z.of_nat (limbs (K_of E)) < 256 * b ->
  chunks_count (K_of E) b = Ok (Z.of_nat n) -> (0 < n)%nat ->
  generate_constraints (BitsizeCheckCircuit b (Z.of_nat n) None true) (cs_new Circuit.Setup) = Ok cs ->
  domain (length (cs_cons cs) + cs_num_inst cs)%nat = Some xs ->
  Forall (fun tape => length tape = (2 * n + 1)%nat) before -> Forall (fun tape => length tape = (2 * n + 1)%nat) after ->
  ilimited t q k A -> ends (fair pf n b v u) [] A -> NoDup L ->
  (forall coins, In coins L -> length coins = (2 * n + 6 + 3 * k)%nat /\ exists keys cps mine r keys' cps' mine' r',
       election pf (ark_backend pf domain fuel) G H H' gens b before after false A st sh sh' coins = Some (keys, cps, mine, r) /\
       election pf (ark_backend pf domain fuel) G H H' gens b before after true A st sh sh' coins = Some (keys', cps', mine', r') /\
       no_copies keys cps mine /\ no_copies keys' cps' mine' /\ r <> r' ) ->
  let N := Z.of_nat (length xs) in let m := 3 * Z.of_nat n in let T := Z.of_nat t + 2 * Z.of_nat q in
  let forged := 4 * N + 7 * (m + 6) + Z.of_nat k ^ 2 * (3 * N + 9 * (m + 9)) in
  let base := N + (1 + Z.of_nat n + Z.of_nat n * (N + 2)) in
  Z.of_nat (length L) * modulus (K_of E) <=
  ((2 * (Z.of_nat q + Z.of_nat v) + 5) * base + 4 * ((Z.of_nat q + Z.of_nat v + 1) * T + Z.of_nat u + 2 * Z.of_nat v) * (Z.of_nat k + 1) * (3 * N + 9 * (m + 9)) +
   2 * (Z.of_nat q + Z.of_nat v) * (Z.of_nat q + 2) * forged) * modulus (K_of E) ^ Z.of_nat (2 * n + 6 + 3 * k).
Proof.
  intros HG HH Hd Hb HM C1 C2 Hc Hn Hcs Hxs Hbef Haft W HE Hnd HL. cbv zeta.
  assert (B := election_bound n cs xs pf domain fuel b gens HG HH Hd Hb HM (conj C1 C2) Hc Hn Hcs Hxs before after Hbef Haft H' sh' R A G H st sh t q k v u W HE L Hnd HL).
  clear HL. unfold cost, NM, D0 in B. cbn [cw] in B. replace (Z.of_nat (k + 1)) with (Z.of_nat k + 1) in B by lia.
  replace (Z.of_nat (t + u + 2 * (q + v))) with (Z.of_nat t + 2 * Z.of_nat q + Z.of_nat u + 2 * Z.of_nat v) in B by lia.
  replace (Z.of_nat (t + 2 * q)) with (Z.of_nat t + 2 * Z.of_nat q) in B by lia. replace (Z.of_nat (q + v)) with (Z.of_nat q + Z.of_nat v) in B by lia.
  eapply Z.le_trans; [exact B|]. apply Z.eq_le_incl. ring.
Qed.

(* The same for coalitions that first look at the SRS and the honest contribution and then decide how to contribute and attack (C86). *)
Theorem C88_late_coalitions_learn_only_the_sum (E : pairing) (R : Type) (gens : encryption_gens E) (pf : profile)
    (domain : nat -> option (list (Fr E))) (fuel n : nat) (b : Z) (cs : csys (K_of E)) (xs : list (Fr E))
    (G H H' : rng_impl E) (st : rng_st G) (sh : rng_st H) (sh' : rng_st H') (t q k v u : nat) (P : plan E (late E (campaign E R))) (L : list (list (Fr E))) :
  eg_G gens <> gzero -> eg_H gens <> gzero -> domain_ok domain ->
  supported b -> 2 ^ b <= modulus (K_of E) ->
  64 * Z.of_nat (limbs (K_of E)) - b < modulus_bit_size (K_of E) -> 64 * Z.of_nat (limbs (K_of E)) < 256 * b ->
  chunks_count (K_of E) b = Ok (Z.of_nat n) -> (0 < n)%nat ->
  generate_constraints (BitsizeCheckCircuit b (Z.of_nat n) None true) (cs_new Circuit.Setup) = Ok cs ->
  domain (length (cs_cons cs) + cs_num_inst cs)%nat = Some xs ->
  Forall (late_limited n t q k) (choices P) -> Forall (fun x => ends (fair pf n b v u) [] (la_attack x)) (choices P) -> NoDup L ->
  (forall coins, In coins L -> length coins = (2 * n + 6 + 3 * k)%nat /\ exists pk part,
     first_moves (ark_backend pf domain fuel) gens b coins = Ok (pk, part) /\
     let x := settle P (early_g1 gens pk part) (early_g2 gens pk part) in exists keys cps mine r keys' cps' mine' r',
       election pf (ark_backend pf domain fuel) G H H' gens b (la_before x) (la_after x) false (la_attack x) st sh sh' coins = Some (keys, cps, mine, r) /\
       election pf (ark_backend pf domain fuel) G H H' gens b (la_before x) (la_after x) true (la_attack x) st sh sh' coins = Some (keys', cps', mine', r') /\
       no_copies keys cps mine /\ no_copies keys' cps' mine' /\ r <> r' ) ->
  let N := Z.of_nat (length xs) in let m := 3 * Z.of_nat n in let T := Z.of_nat t + 2 * Z.of_nat q in
  let forged := 4 * N + 7 * (m + 6) + Z.of_nat k ^ 2 * (3 * N + 9 * (m + 9)) in
  let base := N + (1 + Z.of_nat n + Z.of_nat n * (N + 2)) in
  Z.of_nat (length L) * modulus (K_of E) <=
  (N + (Z.of_nat (looks P) * (3 * N + 7 * (m + 6)) + ((2 * (Z.of_nat q + Z.of_nat v) + 5) * base + 4 * ((Z.of_nat q + Z.of_nat v + 1) * T + Z.of_nat u + 2 * Z.of_nat v) * (Z.of_nat k + 1) * (3 * N + 9 * (m + 9)) +
   2 * (Z.of_nat q + Z.of_nat v) * (Z.of_nat q + 2) * forged))) * modulus (K_of E) ^ Z.of_nat (2 * n + 6 + 3 * k).
Proof.
  intros HG HH Hd Hb HM C1 C2 Hc Hn Hcs Hxs HP HPe Hnd HL. cbv zeta.
  set (D := _ + 2 * (Z.of_nat q + Z.of_nat v) * _ * _). assert (HD : 0 <= D) by (unfold D; pose proof (Z.pow_nonneg (Z.of_nat k) 2); repeat first [apply Z.add_nonneg_nonneg | apply Z.mul_nonneg_nonneg]; lia).
  refine (rare_split n cs xs b HM Hn (2 * n + 6 + 3 * k) _ (fun coins => exists pk part,
     first_moves (ark_backend pf domain fuel) gens b coins = Ok (pk, part) /\
     let x := settle P (early_g1 gens pk part) (early_g2 gens pk part) in exists keys cps mine r keys' cps' mine' r',
       election pf (ark_backend pf domain fuel) G H H' gens b (la_before x) (la_after x) false (la_attack x) st sh sh' coins = Some (keys, cps, mine, r) /\
       election pf (ark_backend pf domain fuel) G H H' gens b (la_before x) (la_after x) true (la_attack x) st sh sh' coins = Some (keys', cps', mine', r') /\
       no_copies keys cps mine /\ no_copies keys' cps' mine' /\ r <> r' ) _ _ L Hnd HL); [lia|].
  assert (HP2 : Forall (fun x => late_limited n t q k x /\ ends (fair pf n b v u) [] (la_attack x)) (choices P)) by (rewrite Forall_forall in *; intros x Hx; split; [apply HP|apply HPe]; exact Hx).
  refine (rush_bound n cs xs pf domain fuel b gens HG HH Hb HM Hc Hn Hcs Hxs (fun x => late_limited n t q k x /\ ends (fair pf n b v u) [] (la_attack x)) (fun x coins => exists keys cps mine r keys' cps' mine' r',
       election pf (ark_backend pf domain fuel) G H H' gens b (la_before x) (la_after x) false (la_attack x) st sh sh' coins = Some (keys, cps, mine, r) /\
       election pf (ark_backend pf domain fuel) G H H' gens b (la_before x) (la_after x) true (la_attack x) st sh sh' coins = Some (keys', cps', mine', r') /\
       no_copies keys cps mine /\ no_copies keys' cps' mine' /\ r <> r' ) D (3 * k) P HD HP2 _).
  intros x ((Hbef & Haft & W) & HE) L' Hnd' HL'.
  exact (C88_elections_hide_the_votes E R gens pf domain fuel n b cs xs (la_before x) (la_after x) G H H' st sh sh' t q k v u (la_attack x) L' HG HH Hd Hb HM C1 C2 Hc Hn Hcs Hxs Hbef Haft W HE Hnd' HL').
Qed.

(* ---------- with the parameters of BLS12-381 ---------- *)
Lemma election_budget (N n T q k l v u : Z) : 0 <= N <= 32768 -> 16 <= n <= 64 -> 0 <= q -> 2 * q <= T -> 0 <= l -> 0 <= v -> 0 <= u -> (q + v + 1) * (T + (u + l + 1)) <= 2 ^ 64 -> 0 <= k <= 2 ^ 20 ->
  (N + (l * (3 * N + 7 * (3 * n + 6)) + ((2 * (q + v) + 5) * (N + (1 + n + n * (N + 2))) + 4 * ((q + v + 1) * T + u + 2 * v) * (k + 1) * (3 * N + 9 * (3 * n + 9)) +
    2 * (q + v) * (q + 2) * (4 * N + 7 * (3 * n + 6) + k ^ 2 * (3 * N + 9 * (3 * n + 9)))))) * 2 ^ 128 <= bls_r.
Proof.
  intros HN Hn Hq HqT Hl Hv Hu HX Hk.
  assert (M : forall a b x y, 0 <= a <= x -> 0 <= b <= y -> 0 <= a * b <= x * y) by (intros a b x y Ha Hb; split; [apply Z.mul_nonneg_nonneg; lia|apply Z.mul_le_mono_nonneg; lia]).
  assert (H1 : 0 <= n * (N + 2) <= 64 * 32770) by (apply M; lia).
  assert (HA : 0 <= 3 * N + 9 * (3 * n + 9) <= 100113) by lia. assert (HA7 : 0 <= 3 * N + 7 * (3 * n + 6) <= 100113) by lia.
  assert (Hk2 : 0 <= k ^ 2 <= 2 ^ 40) by (rewrite Z.pow_2_r; change (2 ^ 40) with (2 ^ 20 * 2 ^ 20); apply M; lia).
  assert (HB : 0 <= N + (1 + n + n * (N + 2)) <= 2130113) by lia. set (A := 3 * N + 9 * (3 * n + 9)) in *. set (A7 := 3 * N + 7 * (3 * n + 6)) in *. set (B := N + (1 + n + n * (N + 2))) in *.
  assert (HkA : 0 <= k ^ 2 * A <= 2 ^ 40 * 100113) by (apply M; assumption).
  assert (HF : 0 <= 4 * N + 7 * (3 * n + 6) + k ^ 2 * A <= 133000 + 2 ^ 40 * 100113) by lia. set (F := 4 * N + 7 * (3 * n + 6) + k ^ 2 * A) in *.
  assert (HC : 0 <= (k + 1) * A <= (2 ^ 20 + 1) * 100113) by (apply M; lia).
  replace (4 * ((q + v + 1) * T + u + 2 * v) * (k + 1) * A) with (4 * ((q + v + 1) * T + u + 2 * v) * ((k + 1) * A)) by ring. set (C := (k + 1) * A) in *.
  set (X := 2 ^ 64) in *.
  assert (S1 : (q + v + 1) * (T + (u + l + 1)) = (q + v + 1) * T + (q + v) * (u + l) + (u + l) + (q + v) + 1) by ring.
  assert (Z1 : 0 <= (q + v) * (u + l)) by (apply Z.mul_nonneg_nonneg; lia). assert (Z2 : 0 <= (q + v + 1) * T) by (apply Z.mul_nonneg_nonneg; lia).
  assert (Z3 : 0 <= (q + v) * q) by (apply Z.mul_nonneg_nonneg; lia). assert (Z4 : (q + v) * q <= (q + v + 1) * T) by (apply Z.mul_le_mono_nonneg; lia).
  assert (Hw : 0 <= (q + v + 1) * T + u + 2 * v <= 2 * X) by lia. set (w := (q + v + 1) * T + u + 2 * v) in *.
  assert (Hs : 0 <= (q + v) * (q + 2) <= 2 * X) by (rewrite Z.mul_add_distr_l; lia). replace (2 * (q + v) * (q + 2) * F) with (2 * ((q + v) * (q + 2) * F)) by ring. set (s := (q + v) * (q + 2)) in *.
  assert (Hqv : 0 <= 2 * (q + v) + 5 <= 2 * X + 5) by lia. assert (HlX : 0 <= l <= X) by lia.
  assert (Y1 : 0 <= l * A7 <= X * 100113) by (apply M; assumption). assert (Y2 : 0 <= (2 * (q + v) + 5) * B <= (2 * X + 5) * 2130113) by (apply M; assumption).
  assert (Y3 : 0 <= w * C <= (2 * X) * ((2 ^ 20 + 1) * 100113)) by (apply M; assumption). assert (Y4 : 0 <= s * F <= (2 * X) * (133000 + 2 ^ 40 * 100113)) by (apply M; assumption).
  replace (4 * w * C) with (4 * (w * C)) by ring.
  etransitivity; [apply Z.mul_le_mono_nonneg_r; [discriminate|]|].
  - instantiate (1 := 32768 + (X * 100113 + ((2 * X + 5) * 2130113 + 4 * ((2 * X) * ((2 ^ 20 + 1) * 100113)) + 2 * ((2 * X) * (133000 + 2 ^ 40 * 100113))))). clearbody A A7 B C F X w s. lia.
  - unfold X. vm_compute. discriminate.
Qed.
(* With at most 2^20 pairs of messages and (q + v + 1) (t + 2q + u + looks + 1) <= 2^64 the coalition says the same in both worlds on all but 2^-128 of the coins. *)
Theorem C88_bls_elections_hide_the_votes (E : pairing) (R : Type) (gens : encryption_gens E) (pf : profile) (fuel : nat) (b : Z)
    (G H H' : rng_impl E) (st : rng_st G) (sh : rng_st H) (sh' : rng_st H') (t q k v u : nat) (P : plan E (late E (campaign E R))) (L : list (list (Fr E))) :
  bls12_381 E -> supported b -> eg_G gens <> gzero -> eg_H gens <> gzero ->
  let n := bls_chunks b in
  Forall (late_limited n t q k) (choices P) -> Forall (fun x => ends (fair pf n b v u) [] (la_attack x)) (choices P) ->
  (Z.of_nat q + Z.of_nat v + 1) * (Z.of_nat t + 2 * Z.of_nat q + (Z.of_nat u + Z.of_nat (looks P) + 1)) <= 2 ^ 64 -> Z.of_nat k <= 2 ^ 20 -> NoDup L ->
  (forall coins, In coins L -> length coins = (2 * n + 6 + 3 * k)%nat /\ exists pk part,
     first_moves (bls_backend pf fuel) gens b coins = Ok (pk, part) /\
     let x := settle P (early_g1 gens pk part) (early_g2 gens pk part) in exists keys cps mine r keys' cps' mine' r',
       election pf (bls_backend pf fuel) G H H' gens b (la_before x) (la_after x) false (la_attack x) st sh sh' coins = Some (keys, cps, mine, r) /\
       election pf (bls_backend pf fuel) G H H' gens b (la_before x) (la_after x) true (la_attack x) st sh sh' coins = Some (keys', cps', mine', r') /\
       no_copies keys cps mine /\ no_copies keys' cps' mine' /\ r <> r' ) ->
  Z.of_nat (length L) * 2 ^ 128 <= modulus (K_of E) ^ Z.of_nat (2 * n + 6 + 3 * k).
Proof.
  intros HE Hb HG HH. params HE Hb. cbv zeta. intros HP HPe Ht Hk Hnd HL. pose proof (proj1 HE) as Hp.
  assert (Hbound := C88_late_coalitions_learn_only_the_sum E R gens pf bls_domain fuel (bls_chunks b) b cs xs G H H' st sh sh' t q k v u P L HG HH Hdom Hb HbM Hc1 Hc2 Hcount Hn0 Hcs Hxs HP HPe Hnd).
  cbv zeta in Hbound. rewrite Hp in Hbound |- *. eapply margin; [apply Hbound| |apply Z.pow_nonneg; discriminate|reflexivity|discriminate].
  - intros coins Hin. destruct (HL coins Hin) as (Hl & pk & part & Hfm & Hrest). split; [exact Hl|]. exists pk, part. split; [exact Hfm|]. cbv zeta in Hrest |- *.
    unfold election, bls_backend in Hrest. rewrite !(coset_insider_run bls_generator pf bls_domain fuel b Hdom Hg0 Hgrp Hb Hbits) in Hrest. exact Hrest.
  - clear - Ht Hk HN Hn64. apply election_budget; try assumption; lia.
Qed.

(* ---------- the election takes place ---------- *)
Section Ends.
Context {E : pairing}.
Lemma ct_of_vec_ok (l : list (G1 E)) m : length l = (m + 2)%nat -> exists total, ct_of_vec l = Ok total /\ length (ct_enc_chunks total) = m.
Proof.
  destruct l as [|x l]; cbn [length]; intros H; [lia|]. unfold ct_of_vec. destruct (rev l) as [|psi r] eqn:Hr.
  - apply (f_equal (@length _)) in Hr. rewrite rev_length in Hr. cbn [length] in Hr. lia.
  - apply (f_equal (@length _)) in Hr. rewrite rev_length in Hr. cbn [length] in Hr. exists (Ciphertext x (rev r) psi). split; [reflexivity|]. cbn [ct_enc_chunks]. rewrite rev_length. lia.
Qed.
Lemma sum_same_length (l : list (list (G1 E))) m : l <> [] -> Forall (fun x => length x = m) l -> exists s, sum_cts l = Ok s /\ length s = m.
Proof.
  intros Hne HF. destruct l as [|x l]; [contradiction|]. clear Hne. inversion HF as [|? ? Hx HF']; subst x0 l0. cbn [sum_cts]. clear HF. revert x Hx. induction HF' as [|y l Hy _ IH]; intros x Hx; cbn [foldM].
  - exists x. split; [reflexivity|exact Hx].
  - rewrite add_cts_eq. assert (Hle : (length x <=? length y)%nat = true) by (apply Nat.leb_le; lia). rewrite Hle. cbn [bind]. apply IH. rewrite zip_with_length. lia.
Qed.
Lemma tally_share_ok (H : rng_impl E) gens honest (ballots : list (ciphertext E * proof E)) dest sh m : ballots <> [] -> (m <= length (st_s honest))%nat ->
  Forall (fun ballot => length (ct_enc_chunks (fst ballot)) = m) ballots -> exists share, tally_share H gens honest ballots dest sh = Ok share.
Proof.
  intros Hne Hm HF. unfold tally_share.
  destruct (sum_same_length (map (fun ballot : ciphertext E * proof E => ct_X_r (fst ballot) :: ct_enc_chunks (fst ballot) ++ [ct_commitment (fst ballot)]) ballots) (m + 2)) as (s & Hs & Ls).
  { destruct ballots; [contradiction|discriminate]. }
  { apply Forall_map. eapply Forall_impl; [|exact HF]. intros x Hx. cbv beta in Hx |- *. cbn [length]. rewrite app_length. cbn [length]. lia. }
  rewrite Hs. cbn [bind]. destruct (ct_of_vec_ok _ _ Ls) as (total & Ht & Lt). rewrite Ht. cbn [bind].
  destruct (all_shares_ok H gens (ct_X_r total) (ct_enc_chunks total) (FEncryptionKeyDest dest) [honest] ltac:(constructor; [lia|constructor]) sh) as (shares & st' & Hsh & _).
  cbn [all_shares] in Hsh. apply bind_Ok_inv in Hsh. destruct Hsh as (([w g] & s1) & Hre & _). rewrite Hre. cbn [bind]. eexists. reflexivity.
Qed.
End Ends.

(* Unless one of three coins is bad the election comes to an end: everybody has voted, all ballots that are counted were accepted, and the sum was opened
   to the coalition.  At least one client votes. *)
Theorem C88_elections_end (E : pairing) (R : Type) (gens : encryption_gens E) (pf : profile)
    (domain : nat -> option (list (Fr E))) (fuel n : nat) (b : Z) (cs : csys (K_of E)) (xs : list (Fr E)) (before after : list (list (Fr E)))
    (G H H' : rng_impl E) (st : rng_st G) (sh : rng_st H) (sh' : rng_st H') (t q k : nat) (second : bool) (A : insider E (campaign E R)) coins :
  eg_G gens <> gzero -> eg_H gens <> gzero -> domain_ok domain ->
  supported b -> 2 ^ b <= modulus (K_of E) ->
  64 * Z.of_nat (limbs (K_of E)) - b < modulus_bit_size (K_of E) -> 64 * Z.of_nat (limbs (K_of E)) < 256 * b ->
  chunks_count (K_of E) b = Ok (Z.of_nat n) -> (0 < n)%nat -> (0 < fuel)%nat ->
  generate_constraints (BitsizeCheckCircuit b (Z.of_nat n) None true) (cs_new Circuit.Setup) = Ok cs ->
  domain (length (cs_cons cs) + cs_num_inst cs)%nat = Some xs ->
  Forall (fun tape => length tape = (2 * n + 1)%nat) before -> Forall (fun tape => length tape = (2 * n + 1)%nat) after ->
  ilimited t q k A -> ends (fun offers _ => offers <> []) [] A ->
  length coins = (2 * n + 6 + 3 * k)%nat -> nth 2 coins fzero <> fzero -> nth 3 coins fzero <> fzero -> ~ In (nth 4 coins fzero) xs ->
  exists keys C cps seen mine r, insider_run pf (ark_backend pf domain fuel) G H gens b before after second A st sh coins = Some (keys, (C, cps, seen)) /\ cps <> [] /\
    election pf (ark_backend pf domain fuel) G H H' gens b before after second A st sh sh' coins = Some (keys, cps, mine, r) /\
    incl mine (cast (ca_ballots C) (dkg_g1 gens (public_run keys cps) ++ seen) (dkg_g2 gens (public_run keys cps))) /\ Forall (accepted gens keys) mine.
Proof.
  intros HG HH Hd Hb HM C1 C2 Hc Hn Hf Hcs Hxs Hbef Haft W HE Lc H2 H3 Hin.
  destruct (C85_game_ends E _ gens pf domain fuel n b cs xs before after G H st sh t q k second A coins HG HH Hd Hb HM C1 C2 Hc Hn Hf Hcs Hxs Hbef Haft W Lc H2 H3 Hin)
    as (keys & rest & honest & part & C & cps & seen & ms & st' & op & Hset & Hnth & _ & Hrun & _ & Henc & _).
  pose proof Hrun as Hrun'. unfold insider_run in Hrun'. rewrite Hset, Hnth in Hrun'.
  destruct (insider_duel _ _ _ _ _ _ _ _ _ _ _ _ _ _ _ _) as [[[C' cps'] seen']|] eqn:Hduel; [|discriminate Hrun']. cbn [option_map] in Hrun'.
  assert (EQ : C' = C /\ cps' = cps /\ seen' = seen) by (repeat split; congruence). destruct EQ as (-> & -> & ->). clear Hrun'.
  destruct (annot_duel (fun offers _ => offers <> []) _ _ _ _ _ _ _ _ rest _ [] A HE [] [] [] rest st sh eq_refl C cps seen Hduel) as (offs & coins' & _ & Hoffs & Henc').
  assert (Hne : cps <> []).
  { intros Z. subst cps. destruct offs as [|o offs]; [exact (Hoffs eq_refl)|]. cbn [map encrypt_all] in Henc'. apply bind_Ok_inv in Henc'. destruct Henc' as ([[[c0 r0] p0] s0] & _ & Henc').
    apply bind_Ok_inv in Henc'. destruct Henc' as ([l s1] & _ & Henc'). discriminate Henc'. }
  destruct (setup_gs pf domain fuel b gens before after coins keys rest Hset) as (g_i & Hg). destruct (setup_parties _ _ _ _ _ _ _ _ _ Hset Hg) as [P1 P2].
  destruct (honest_secrets n (length before) _ gens b keys honest part g_i _ _ Hc P1 Hnth P2 ltac:(rewrite (setup_shares pf domain fuel b gens before after coins keys rest Hset); exact P2)) as (_ & Ls & _ & _ & LX).
  pose proof (duel_table _ _ _ _ _ _ _ _ _ _ _ Hb Hg _ _ _ _ _ _ _ _ _ Hduel (Forall_nil _)) as Htab.
  set (mine := filter (valid gens keys) (cast (ca_ballots C) (dkg_g1 gens (public_run keys cps) ++ seen) (dkg_g2 gens (public_run keys cps)))).
  assert (Hmine : Forall (accepted gens keys) mine).
  { apply Forall_forall. intros x Hx. apply filter_In in Hx. destruct Hx as [_ Hx]. unfold valid in Hx. unfold accepted. destruct (verify_commitment_and_proof _ _ _ _ _) as [[]|err|]; [reflexivity|discriminate Hx|discriminate Hx]. }
  destruct (tally_share_ok H' gens honest (cps ++ mine) (dot (ca_dest C) (dkg_g1 gens (public_run keys cps) ++ seen)) sh' n) as (share & Hsh).
  { destruct cps; [contradiction|discriminate]. }
  { lia. }
  { apply Forall_app. split.
    - eapply Forall_impl; [|exact Htab]. intros x (ds & r & _ & He). apply encrypts_inv in He. destruct He as (n' & (_ & HX & _) & Lds & Lgi & Ect). assert (n' = n) by lia. subst n'.
      apply (f_equal (@length _)) in Ect. unfold ct_vec, ct_formula in Ect. cbn [ct_X_r ct_enc_chunks ct_commitment length] in Ect. rewrite !app_length in Ect. cbn [length] in Ect. rewrite body_formula_length in Ect. lia.
    - eapply Forall_impl; [|exact Hmine]. intros x HV. unfold accepted in HV. assert (HW : verify_commitment (fst x) (prepare_ek (kg_ek keys)) (prepare_gens gens) = Ok tt) by (unfold verify_commitment_and_proof in HV; apply bind_Ok_inv in HV; destruct HV as ([] & Z & _); exact Z).
      apply accept_wf in HW. destruct HW as (_ & LX' & _). lia. }
  exists keys, C, cps, seen, mine, (settle (ca_inquiry C) ((dkg_g1 gens (public_run keys cps) ++ seen) ++ share) (dkg_g2 gens (public_run keys cps))).
  split; [exact Hrun|]. split; [exact Hne|]. split; [|split; [intros x Hx; apply filter_In in Hx; apply Hx|exact Hmine]].
  unfold election. rewrite Hrun. cbv zeta. rewrite Hnth. fold mine. rewrite Hsh. reflexivity.
Qed.

(* Every outcome counts, also when the election fails: the coalition's last word, if there is one. *)
Definition last_word {E : pairing} {R : Type} (x : option (dkg_keys E * list (ciphertext E * proof E) * list (ciphertext E * proof E) * R)) : option R :=
  match x with Some (_, _, _, r) => Some r | None => None end.
(* the same bound, and the coins on which the key generation fails, for elections whose last words, or their absence, differ *)
Theorem C88_last_words_rarely_differ (E : pairing) (R : Type) (gens : encryption_gens E) (pf : profile)
    (domain : nat -> option (list (Fr E))) (fuel n : nat) (b : Z) (cs : csys (K_of E)) (xs : list (Fr E)) (before after : list (list (Fr E)))
    (G H H' : rng_impl E) (st : rng_st G) (sh : rng_st H) (sh' : rng_st H') (t q k v u : nat) (A : insider E (campaign E R)) (L : list (list (Fr E))) :
  eg_G gens <> gzero -> eg_H gens <> gzero -> domain_ok domain ->
  supported b -> 2 ^ b <= modulus (K_of E) ->
  64 * Z.of_nat (limbs (K_of E)) - b < modulus_bit_size (K_of E) -> 64 * Z.of_nat (limbs (K_of E)) < 256 * b ->
  chunks_count (K_of E) b = Ok (Z.of_nat n) -> (0 < n)%nat -> (0 < fuel)%nat ->
  generate_constraints (BitsizeCheckCircuit b (Z.of_nat n) None true) (cs_new Circuit.Setup) = Ok cs ->
  domain (length (cs_cons cs) + cs_num_inst cs)%nat = Some xs ->
  Forall (fun tape => length tape = (2 * n + 1)%nat) before -> Forall (fun tape => length tape = (2 * n + 1)%nat) after ->
  ilimited t q k A -> ends (fair pf n b v u) [] A -> ends (fun offers _ => offers <> []) [] A -> NoDup L ->
  let held second coins := election pf (ark_backend pf domain fuel) G H H' gens b before after second A st sh sh' coins in
  (forall coins, In coins L -> length coins = (2 * n + 6 + 3 * k)%nat /\ last_word (held false coins) <> last_word (held true coins) /\
     forall second keys cps mine r, held second coins = Some (keys, cps, mine, r) -> no_copies keys cps mine) ->
  let N := Z.of_nat (length xs) in let m := 3 * Z.of_nat n in let T := Z.of_nat t + 2 * Z.of_nat q in
  let forged := 4 * N + 7 * (m + 6) + Z.of_nat k ^ 2 * (3 * N + 9 * (m + 9)) in
  let base := N + (1 + Z.of_nat n + Z.of_nat n * (N + 2)) in
  Z.of_nat (length L) * modulus (K_of E) <=
  (base + 2 + ((2 * (Z.of_nat q + Z.of_nat v) + 5) * base + 4 * ((Z.of_nat q + Z.of_nat v + 1) * T + Z.of_nat u + 2 * Z.of_nat v) * (Z.of_nat k + 1) * (3 * N + 9 * (m + 9)) +
   2 * (Z.of_nat q + Z.of_nat v) * (Z.of_nat q + 2) * forged)) * modulus (K_of E) ^ Z.of_nat (2 * n + 6 + 3 * k).
Proof.
  intros HG HH Hd Hb HM C1 C2 Hc Hn Hf Hcs Hxs Hbef Haft W HE HO Hnd held HL. cbv zeta.
  set (N := Z.of_nat (length xs)). set (base := N + (1 + Z.of_nat n + Z.of_nat n * (N + 2))). set (D := (2 * (Z.of_nat q + Z.of_nat v) + 5) * base + _ + _).
  assert (RW : rare (2 * n + 6 + 3 * k) (base + 2) (fun coins => ~ dkg_working xs pf domain fuel b gens before after coins)).
  { intros L' Hnd' HL'. replace (base + 2) with (N + (2 + (1 + Z.of_nat n + Z.of_nat n * (N + 2)))) by (unfold base; ring).
    exact (C80_key_generations_usually_work (E := E) n cs xs pf domain fuel b gens HG HH Hd Hb HM (conj C1 C2) Hc Hn Hf Hcs Hxs before after Hbef Haft (3 * k) L' Hnd' HL'). }
  assert (RB : rare (2 * n + 6 + 3 * k) D (fun coins => exists keys cps mine r keys' cps' mine' r',
       held false coins = Some (keys, cps, mine, r) /\ held true coins = Some (keys', cps', mine', r') /\ no_copies keys cps mine /\ no_copies keys' cps' mine' /\ r <> r')).
  { intros L' Hnd' HL'. exact (C88_elections_hide_the_votes E R gens pf domain fuel n b cs xs before after G H H' st sh sh' t q k v u A L' HG HH Hd Hb HM C1 C2 Hc Hn Hcs Hxs Hbef Haft W HE Hnd' HL'). }
  refine (rare_stable _ _ (fun coins => last_word (held false coins) <> last_word (held true coins) /\ forall second keys cps mine r, held second coins = Some (keys, cps, mine, r) -> no_copies keys cps mine)
    _ (rare_or _ _ _ _ _ RW RB) _ L Hnd HL). clear RB RW HL Hnd L.
  intros coins Lc (Hne & Hnc) Hno. apply Hno. left. intros (Hin & H2 & H3 & _). apply Hno. right.
  destruct (C88_elections_end E R gens pf domain fuel n b cs xs before after G H H' st sh sh' t q k false A coins HG HH Hd Hb HM C1 C2 Hc Hn Hf Hcs Hxs Hbef Haft W HO Lc H2 H3 Hin) as (keys & _ & cps & _ & mine & r & _ & _ & E0 & _).
  destruct (C88_elections_end E R gens pf domain fuel n b cs xs before after G H H' st sh sh' t q k true A coins HG HH Hd Hb HM C1 C2 Hc Hn Hf Hcs Hxs Hbef Haft W HO Lc H2 H3 Hin) as (keys' & _ & cps' & _ & mine' & r' & _ & _ & E1 & _).
  exists keys, cps, mine, r, keys', cps', mine', r'. split; [exact E0|]. split; [exact E1|]. split; [exact (Hnc _ _ _ _ _ E0)|]. split; [exact (Hnc _ _ _ _ _ E1)|].
  intros ->. apply Hne. unfold held. rewrite E0, E1. reflexivity.
Qed.

(* Coalitions that only watch: all parties but one see all ciphertexts, the honest party's share of the sum, and whatever they get in the attack of C85,
   and cast no ballots.  The numbers of coins on which they say yes in the two worlds: All lists every sequence of coins once. *)
Theorem C88_watching_coalitions_learn_only_the_sum (E : pairing) (gens : encryption_gens E) (pf : profile)
    (domain : nat -> option (list (Fr E))) (fuel n k : nat) (b : Z) (cs : csys (K_of E)) (xs : list (Fr E)) (before after : list (list (Fr E))) (All : list (list (Fr E))) :
  eg_G gens <> gzero -> eg_H gens <> gzero -> domain_ok domain ->
  supported b -> 2 ^ b <= modulus (K_of E) ->
  64 * Z.of_nat (limbs (K_of E)) - b < modulus_bit_size (K_of E) -> 64 * Z.of_nat (limbs (K_of E)) < 256 * b ->
  chunks_count (K_of E) b = Ok (Z.of_nat n) -> (0 < n)%nat -> (0 < fuel)%nat ->
  generate_constraints (BitsizeCheckCircuit b (Z.of_nat n) None true) (cs_new Circuit.Setup) = Ok cs ->
  domain (length (cs_cons cs) + cs_num_inst cs)%nat = Some xs ->
  Forall (fun tape => length tape = (2 * n + 1)%nat) before -> Forall (fun tape => length tape = (2 * n + 1)%nat) after ->
  NoDup All -> (forall coins, In coins All <-> length coins = (2 * n + 6 + 3 * k)%nat) ->
  forall (G H H' : rng_impl E) (st : rng_st G) (sh : rng_st H) (sh' : rng_st H') (t q u : nat) (A : insider E (campaign E bool)),
  ilimited t q k A -> ends (fair pf n b 0 u) [] A -> ends (fun offers _ => offers <> []) [] A ->
  let says_yes second coins := match election pf (ark_backend pf domain fuel) G H H' gens b before after second A st sh sh' coins with Some (_, _, _, r) => r | None => false end in
  let yes second := Z.of_nat (length (filter (says_yes second) All)) in
  let N := Z.of_nat (length xs) in let m := 3 * Z.of_nat n in let T := Z.of_nat t + 2 * Z.of_nat q in
  let forged := 4 * N + 7 * (m + 6) + Z.of_nat k ^ 2 * (3 * N + 9 * (m + 9)) in
  let base := N + (1 + Z.of_nat n + Z.of_nat n * (N + 2)) in
  Z.abs (yes false - yes true) * modulus (K_of E) <=
  ((2 * Z.of_nat q + 6) * base + 2 + 4 * ((Z.of_nat q + 1) * T + Z.of_nat u) * (Z.of_nat k + 1) * (3 * N + 9 * (m + 9)) + 2 * Z.of_nat q * (Z.of_nat q + 2) * forged) * Z.of_nat (length All).
Proof.
  intros HG HH Hd Hb HM C1 C2 Hc Hn Hf Hcs Hxs Hbef Haft Hnd HA G H H' st sh sh' t q u A W HE HO says_yes yes. cbv zeta. rewrite (all_tuples_count _ All Hnd HA).
  pose proof (@modulus_gt1 (K_of E)) as Hp.
  eapply Z.le_trans; [apply Z.mul_le_mono_nonneg_r; [lia|apply count_difference]|].
  assert (B := C88_last_words_rarely_differ E bool gens pf domain fuel n b cs xs before after G H H' st sh sh' t q k 0 u A (filter (fun coins => negb (Bool.eqb (says_yes false coins) (says_yes true coins))) All)
    HG HH Hd Hb HM C1 C2 Hc Hn Hf Hcs Hxs Hbef Haft W HE HO ltac:(apply NoDup_filter; exact Hnd)). cbv zeta in B.
  eapply Z.le_trans; [apply B; clear B|]. 2:{ apply Z.eq_le_incl. change (Z.of_nat 0) with 0. ring. }
  intros coins Hin. apply filter_In in Hin. destruct Hin as [Hin Hne]. apply HA in Hin. split; [exact Hin|]. split.
  - intros Z. unfold says_yes in Hne. destruct (election _ _ _ _ _ _ _ _ _ false _ _ _ _ _) as [[[[k0 c0] m0] r0]|]; destruct (election _ _ _ _ _ _ _ _ _ true _ _ _ _ _) as [[[[k1 c1] m1] r1]|]; cbn [last_word] in Z; try discriminate Z.
    + assert (r0 = r1) by congruence. subst r1. rewrite Bool.eqb_reflx in Hne. discriminate Hne.
    + discriminate Hne.
  - intros second keys cps mine r He ballot ct0 q0 rho Hb0 _ _.
    assert (Hmine : mine = []); [|rewrite Hmine in Hb0; destruct Hb0].
    unfold election, insider_run in He. destruct (dkg_setup _ gens b before after coins) as [[keys0 rest]|err|] eqn:Hset; [|discriminate He|discriminate He].
    destruct (nth_error (kg_parties keys0) (length before)) as [[honest part]|] eqn:Hnth; [|discriminate He].
    destruct (insider_duel _ _ _ _ _ _ _ _ _ _ _ _ _ _ _ _) as [[[C cps0] seen]|] eqn:Hduel in He; [|discriminate He]. cbn [option_map] in He. cbv zeta in He. rewrite Hnth in He.
    destruct (annot_duel (fair pf n b 0 u) _ _ _ _ _ _ _ _ rest _ [] A HE [] [] [] rest st sh eq_refl C cps0 seen Hduel) as (_ & _ & _ & (Fv & _) & _).
    destruct (ca_ballots C) as [|S0 l]; [|cbn [length] in Fv; lia]. unfold cast in He. cbn [map filter] in He. destruct (tally_share _ _ _ _ _ _) as [share|err|]; [|discriminate He|discriminate He]. congruence.
Qed.

(* ---------- cases ---------- *)
(* Two clients who swap their votes, whatever they are: both worlds have the same sum. *)
Lemma swapped_votes_are_balanced {E : pairing} pf n b (m m' : Fr E) : supported b -> chunk_compatible (K_of E) b -> chunks_count (K_of E) b = Ok (Z.of_nat n) -> balanced pf n b [(m, m'); (m', m)].
Proof.
  intros Hb HC Hc. destruct (C02_decompose_is_radix_representation pf (K_of E) m b Hb) as (ds & Hd & _). destruct (C02_decompose_is_radix_representation pf (K_of E) m' b Hb) as (ds' & Hd' & _).
  exists [ds; ds'], [ds'; ds]. cbn [mapM fst snd]. rewrite Hd, Hd'. cbn [bind]. split; [reflexivity|]. split; [reflexivity|].
  assert (Ln : length ds = n /\ length ds' = n) by (split; [pose proof (proj1 (compatible_count pf b m ds Hb HC Hd)) as X|pose proof (proj1 (compatible_count pf b m' ds' Hb HC Hd')) as X]; rewrite Hc in X; assert (I : forall a c : Z, Ok a = Ok c -> a = c) by congruence; apply I in X; lia). destruct Ln as [Ln Ln']. clear - Ln Ln'. cbn [chunk_sum fold_right]. rewrite !chunk_add_0_r by assumption.
  clear. revert ds'. induction ds as [|d ds IH]; intros [|d' ds']; cbn [chunk_add]; try reflexivity. rewrite IH. f_equal. lia.
Qed.
(* On the 61-bit group of the examples, with 16 chunks of 4 bits: two clients swap their votes, the coalition casts any ballot and opens the sum to any
   destination.  For all tapes of the other parties there are coins on which both elections take place, with the three ballots or without the
   coalition's, and the bounds of C88 are about them. *)
Example C88_case (pf : profile) (G H H' : rng_impl E61) (st : rng_st G) (sh : rng_st H) (sh' : rng_st H') (R : Type) (S : strategy E61) (dest : list (Fr E61)) (P : plan E61 R) (m m' : Fr E61) (before after : list (list (Fr E61))) :
  Forall (fun tape => length tape = 33%nat) before -> Forall (fun tape => length tape = 33%nat) after ->
  let A := IOffer m m' (IOffer m' m (IStop (Campaign [S] dest P))) in
  ilimited 0 0 2 A /\ ends (fair pf 16 4 1 (looks P)) [] A /\ ends (fun offers _ => offers <> []) [] A /\
  exists coins, length coins = 44%nat /\ forall second, exists keys cps mine r,
    election pf (ark_backend pf y_domain 3) G H H' x_gens 4 before after second A st sh sh' coins = Some (keys, cps, mine, r) /\ length cps = 2%nat /\ (length mine <= 1)%nat.
Proof.
  intros Hbef Haft A.
  assert (HG : eg_G x_gens <> gzero) by (intros Z; apply (f_equal sval) in Z; vm_compute in Z; discriminate Z).
  assert (Hbits : 0 < 4 < modulus_bit_size K61) by (vm_compute; split; reflexivity).
  assert (Hc : chunks_count K61 4 = Ok (Z.of_nat 16)) by (vm_compute; reflexivity).
  assert (Hb : supported 4) by (left; reflexivity). assert (HM : 2 ^ 4 <= modulus K61) by (vm_compute; discriminate).
  assert (C1 : 64 * Z.of_nat (limbs K61) - 4 < modulus_bit_size K61) by (vm_compute; reflexivity). assert (C2 : 64 * Z.of_nat (limbs K61) < 256 * 4) by (vm_compute; reflexivity).
  assert (H16 : (0 < 16)%nat) by lia. assert (H3 : (0 < 3)%nat) by lia.
  destruct (C38_circuit_shape K61 4 (Z.of_nat 16) Hbits Hc) as (c & cs & Hcn & Hcs & Hi & Hcc).
  unfold circuit_new in Hcn. rewrite Hc in Hcn. cbn [bind] in Hcn. assert (c = BitsizeCheckCircuit 4 (Z.of_nat 16) None true) by congruence. subst c. clear Hcn.
  assert (Hsz : (length (cs_cons cs) + cs_num_inst cs)%nat = 1921%nat).
  { assert (Em : modulus_bit_size K61 = 61) by (vm_compute; reflexivity). rewrite Em in Hcc. lia. }
  set (xs := y_points 1921). assert (Hd : y_domain (length (cs_cons cs) + cs_num_inst cs)%nat = Some xs).
  { rewrite Hsz. unfold y_domain. assert (Hlt : Z.of_nat 1921 <? 2 ^ 60 = true) by (vm_compute; reflexivity). rewrite Hlt. reflexivity. }
  assert (Hl : length xs = 1921%nat) by (unfold xs, y_points; rewrite map_length, seq_length; reflexivity). clearbody xs.
  assert (W : ilimited 0 0 2 A) by (apply ilimited_offer, ilimited_offer, ilimited_stop).
  assert (HE : ends (fair pf 16 4 1 (looks P)) [] A).
  { apply ends_offer, ends_offer, ends_stop. cbn [app]. split; [cbn [ca_ballots length]; lia|]. split; [cbn [ca_inquiry]; lia|]. exact (swapped_votes_are_balanced pf 16 4 m m' Hb (conj C1 C2) Hc). }
  assert (HO : ends (fun offers _ => offers <> []) [] A) by (apply ends_offer, ends_offer, ends_stop; cbn [app]; discriminate).
  split; [exact W|]. split; [exact HE|]. split; [exact HO|].
  destruct (dkg_working_exists 16 cs xs pf y_domain 3 4 x_gens HG x_H y_domain_ok Hb HM (conj C1 C2) Hc H16 H3 Hcs Hd before after Hbef Haft (3 * 2)) as (coins & Lc & (Hin & H2 & H3' & _)).
  { rewrite Hl. vm_compute. reflexivity. }
  exists coins. split; [exact Lc|]. intros second.
  destruct (C88_elections_end E61 R x_gens pf y_domain 3 16 4 cs xs before after G H H' st sh sh' 0 0 2 second A coins HG x_H y_domain_ok Hb HM C1 C2 Hc H16 H3 Hcs Hd Hbef Haft W HO Lc H2 H3' Hin)
    as (keys & C & cps & seen & mine & r & Hrun & _ & Hel & _).
  exists keys, cps, mine, r. split; [exact Hel|].
  unfold election in Hel. rewrite Hrun in Hel. cbv zeta in Hel. unfold insider_run in Hrun. destruct (dkg_setup _ _ _ _ _ _) as [[keys0 rest]|err|]; [|discriminate Hrun|discriminate Hrun].
  destruct (nth_error (kg_parties keys0) _) as [[honest part]|] in Hrun; [|discriminate Hrun]. unfold A in Hrun. cbn [insider_duel] in Hrun.
  destruct (encrypt_with_proof _ _ _ _ _ _ _ _) as [[[[ct1 r1] p1] coins1]|err|] in Hrun; [|discriminate Hrun|discriminate Hrun].
  destruct (encrypt_with_proof _ _ _ _ _ _ _ _) as [[[[ct2 r2] p2] coins2]|err|] in Hrun; [|discriminate Hrun|discriminate Hrun].
  cbn [option_map app] in Hrun. assert (EQ : C = Campaign [S] dest P /\ cps = [(ct1, p1); (ct2, p2)]) by (split; congruence). destruct EQ as [-> ->]. split; [reflexivity|].
  destruct (nth_error _ _) as [[honest' part']|] in Hel; [|discriminate Hel]. destruct (tally_share _ _ _ _ _ _) in Hel; [|discriminate Hel|discriminate Hel].
  assert (Em : mine = filter (valid x_gens keys) (cast [S] (dkg_g1 x_gens (public_run keys [(ct1, p1); (ct2, p2)]) ++ seen) (dkg_g2 x_gens (public_run keys [(ct1, p1); (ct2, p2)])))) by (cbn [ca_ballots] in Hel; congruence).
  rewrite Em. unfold cast. cbn [map filter]. destruct (valid _ _ _); cbn [length]; lia.
Qed.
