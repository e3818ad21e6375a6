(* PropInsider.v -- theorems for C85: all parties but one of the distributed key generation learn nothing from the shares the honest party makes in
   joint decryptions, beyond the messages that are decrypted *)
From Verif Require Import Base BaseFacts Algebra Utils UtilsFacts Setup Keygen Encryption Circuit CircuitFacts CircuitSat CommitmentFacts VecFacts KeySpec KeygenFacts
  EncryptFacts DecryptFacts Spec VerifyFacts Protocol ReencFacts DistFacts PropVerify Groth16 ArkGroth16 PolyFacts Groth16Spec ArkFacts Groth16Facts SchwartzZippel SoundCore SoundSpec
  SoundAlg SoundGame SoundLink SoundFacts SoundCount SoundHonest PropUtils PropEnc PropGroth16 PropGroth16More PropGroth16Cases PropSound PropSoundCases PropZK PrivacySpec PrivacyAlg PrivacyGame PrivacyLink PrivacyCount
  PrivacySpan PrivacyMany PropPrivacy PrivacyDkgSpec PrivacyDkg PropPrivacyDkg SoundDkgSpec SoundDkg SoundAdaptSpec SoundAdapt PropSoundAdapt NonmalCore NonmalAlg NonmalSpec NonmalGame NonmalRows NonmalLink NonmalCount PropNonmal
  NonmalDkg PropNonmalDkg RoundTrip PropRobust CcaSpec Cca CcaCount PropCca PropReencExact RccaSpec RccaTest RccaCount RccaDkgSpec RccaDkg PropRccaDkg InsiderSpec Insider ArkCoset Radix2 CosetGame PropBls Instance Examples.

(* bounds are decidable, so excluded middle costs nothing in a count *)
Lemma rare_stable {K : prime_field} m D (P Q : list (scalar K) -> Prop) : rare m D Q -> (forall c, length c = m -> P c -> ~ ~ Q c) -> rare m D P.
Proof.
  intros HR HI L Hnd HL. match goal with |- ?x <= ?y => destruct (Z_le_dec x y) as [B|B] end; [exact B|exfalso].
  assert (X : ~ ~ forall c, In c L -> Q c).
  { clear Hnd B HR. induction L as [|c L IH]; intros Hno; [apply Hno; intros c []|].
    apply (IH (fun c' Hc' => HL c' (or_intror Hc'))). intros Y. destruct (HL c (or_introl eq_refl)) as [Lc Pc]. apply (HI c Lc Pc). intros Qc. apply Hno. intros c' [<-|Hc']; [exact Qc|exact (Y c' Hc')]. }
  apply X. intros Y. apply B. apply HR; [exact Hnd|]. intros c Hc. split; [apply (HL c Hc)|exact (Y c Hc)].
Qed.

(* the bounds of the proofs in terms of the parameters *)
Lemma weigh (n : nat) (E : pairing) (xs : list (Fr E)) (second : bool) (t q k : nat) : let N := Z.of_nat (length xs) in let m := 3 * Z.of_nat n in
  cost n xs second t q k <= 3 * (Z.of_nat t + 2 * Z.of_nat q) * (Z.of_nat k + 1) * (3 * N + 9 * (m + 9)) + Z.of_nat q * NM n xs 0 (Z.of_nat k).
Proof.
  cbv zeta. unfold cost. apply Z.add_le_mono_r. replace (Z.of_nat t + 2 * Z.of_nat q) with (Z.of_nat (t + 2 * q)) by lia. replace (Z.of_nat (k + 1)) with (Z.of_nat k + 1) by lia.
  set (X := Z.of_nat (t + 2 * q) * _). assert (HX : 0 <= X) by (unfold X; repeat apply Z.mul_nonneg_nonneg; lia). etransitivity; [instantiate (1 := 3 * X); destruct second; cbn [cw]; lia|]. unfold X. apply Z.eq_le_incl. ring.
Qed.
Lemma weigh_simulation (n : nat) (E : pairing) (xs : list (Fr E)) (second : bool) (t q k : nat) : let N := Z.of_nat (length xs) in let m := 3 * Z.of_nat n in
  N + D0 n xs + Z.of_nat q * (N + (D0 n xs + (cost n xs second t q k + NM n xs 0 (Z.of_nat k)))) <=
  N + (1 + Z.of_nat n + Z.of_nat n * (N + 2)) + Z.of_nat q * (N + (1 + Z.of_nat n + Z.of_nat n * (N + 2)) + 3 * (Z.of_nat t + 2 * Z.of_nat q) * (Z.of_nat k + 1) * (3 * N + 9 * (m + 9)) +
    (Z.of_nat q + 1) * (4 * N + 7 * (m + 6) + Z.of_nat k ^ 2 * (3 * N + 9 * (m + 9)))).
Proof.
  cbv zeta. etransitivity; [apply Z.add_le_mono_l, Z.mul_le_mono_nonneg_l; [lia|]; apply Z.add_le_mono_l, Z.add_le_mono_l, Z.add_le_mono_r; apply weigh|]. unfold NM, D0. apply Z.eq_le_incl. ring.
Qed.
Lemma weigh_forgery (n : nat) (E : pairing) (xs : list (Fr E)) (second : bool) (t q k : nat) : let N := Z.of_nat (length xs) in let m := 3 * Z.of_nat n in
  N + D0 n xs + Z.of_nat q * (N + (D0 n xs + (cost n xs second t q k + NM n xs 0 (Z.of_nat k)))) + (N + (D0 n xs + (cost n xs second t q k + NM n xs 0 (Z.of_nat k)))) <=
  N + (1 + Z.of_nat n + Z.of_nat n * (N + 2)) + (Z.of_nat q + 1) * (N + (1 + Z.of_nat n + Z.of_nat n * (N + 2)) + 3 * (Z.of_nat t + 2 * Z.of_nat q) * (Z.of_nat k + 1) * (3 * N + 9 * (m + 9)) +
    (Z.of_nat q + 1) * (4 * N + 7 * (m + 6) + Z.of_nat k ^ 2 * (3 * N + 9 * (m + 9)))).
Proof.
  cbv zeta. set (N := Z.of_nat (length xs)). set (C := cost n xs second t q k). set (D := 3 * (Z.of_nat t + 2 * Z.of_nat q) * (Z.of_nat k + 1) * (3 * N + 9 * (3 * Z.of_nat n + 9)) + Z.of_nat q * NM n xs 0 (Z.of_nat k)).
  assert (HC : C <= D) by apply weigh.
  transitivity (N + D0 n xs + (Z.of_nat q + 1) * (N + (D0 n xs + (D + NM n xs 0 (Z.of_nat k))))).
  - replace (N + D0 n xs + Z.of_nat q * (N + (D0 n xs + (C + NM n xs 0 (Z.of_nat k)))) + (N + (D0 n xs + (C + NM n xs 0 (Z.of_nat k))))) with (N + D0 n xs + (Z.of_nat q + 1) * (N + (D0 n xs + (C + NM n xs 0 (Z.of_nat k))))) by ring.
    apply Z.add_le_mono_l, Z.mul_le_mono_nonneg_l; lia.
  - unfold D, NM, D0. apply Z.eq_le_incl. fold N. ring.
Qed.

(* The coalition's share-seeing attack A makes at most t tests and q submissions and offers at most k pairs of messages.  There is an attack A' of
   the same size that sees no shares at all (C80), fixed before any coins are tossed, with the same result in both worlds on almost all coins: the
   generators H and G of the honest party and of the parties together are arbitrary, and so are the destinations of the shares. *)
Theorem C85_shares_can_be_simulated (E : pairing) (R : Type) (gens : encryption_gens E) (pf : profile)
    (domain : nat -> option (list (Fr E))) (fuel n : nat) (b : Z) (cs : csys (K_of E)) (xs : list (Fr E)) (before after : list (list (Fr E)))
    (G H : rng_impl E) (st : rng_st G) (sh : rng_st H) (t q k : nat) (A : insider E R) :
  eg_G gens <> gzero -> eg_H gens <> gzero -> domain_ok domain ->
  supported b -> 2 ^ b <= modulus (K_of E) ->
  64 * Z.of_nat (limbs (K_of E)) - b < modulus_bit_size (K_of E) -> 64 * Z.of_nat (limbs (K_of E)) < 256 * b ->
  chunks_count (K_of E) b = Ok (Z.of_nat n) -> (0 < n)%nat ->
  generate_constraints (BitsizeCheckCircuit b (Z.of_nat n) None true) (cs_new Circuit.Setup) = Ok cs ->
  domain (length (cs_cons cs) + cs_num_inst cs)%nat = Some xs ->
  Forall (fun tape => length tape = (2 * n + 1)%nat) before -> Forall (fun tape => length tape = (2 * n + 1)%nat) after ->
  ilimited t q k A ->
  let N := Z.of_nat (length xs) in let m := 3 * Z.of_nat n in let T := Z.of_nat t + 2 * Z.of_nat q in
  let forged := 4 * N + 7 * (m + 6) + Z.of_nat k ^ 2 * (3 * N + 9 * (m + 9)) in
  let base := N + (1 + Z.of_nat n + Z.of_nat n * (N + 2)) in
  exists A' : adversary E R, limited t q k A' /\ forall (second : bool) (L : list (list (Fr E))), NoDup L ->
  (forall coins, In coins L -> length coins = (2 * n + 6 + 3 * k)%nat /\
     insider_experiment pf (ark_backend pf domain fuel) G H gens b before after second A st sh coins <> experiment_rcca_dkg pf (ark_backend pf domain fuel) G gens b before after second A' st coins) ->
  Z.of_nat (length L) * modulus (K_of E) <=
  (base + Z.of_nat q * (base + 3 * T * (Z.of_nat k + 1) * (3 * N + 9 * (m + 9)) + (Z.of_nat q + 1) * forged)) * modulus (K_of E) ^ Z.of_nat (2 * n + 6 + 3 * k).
Proof.
  intros HG HH Hd Hb HM C1 C2 Hc Hn Hcs Hxs Hbef Haft W. cbv zeta.
  destruct (insider_bound n cs xs pf domain fuel b gens HG HH Hd Hb HM (conj C1 C2) Hc Hn Hcs Hxs before after Hbef Haft A G H st sh t q k W) as (A' & W' & HR).
  exists A'. split; [exact W'|]. intros second L Hnd HL. pose proof (HR second L Hnd HL) as B. clear HR HL.
  unfold cost, NM, D0 in B. replace (Z.of_nat t + 2 * Z.of_nat q) with (Z.of_nat (t + 2 * q)) by lia. set (Q := Z.of_nat (t + 2 * q)) in *. assert (HQ : 0 <= Q) by (unfold Q; lia). clearbody Q.
  replace (Z.of_nat (k + 1)) with (Z.of_nat k + 1) in B by lia. pose proof (@modulus_gt1 (K_of E)) as Hp.
  eapply Z.le_trans; [exact B|]. apply Z.mul_le_mono_nonneg_r; [apply Z.pow_nonneg; lia|].
  set (X := Q * ((Z.of_nat k + 1) * (3 * Z.of_nat (length xs) + 9 * (3 * Z.of_nat n + 9)))). assert (HX : 0 <= X) by (unfold X; repeat apply Z.mul_nonneg_nonneg; lia).
  assert (Hcw : cw second * X <= 3 * X) by (destruct second; cbn [cw]; lia).
  etransitivity; [apply Z.add_le_mono_l, Z.mul_le_mono_nonneg_l; [lia|]; apply Z.add_le_mono_l, Z.add_le_mono_l, Z.add_le_mono_r, Z.add_le_mono_r; exact Hcw|]. unfold X. apply Z.eq_le_incl. ring.
Qed.

(* What the coalition finds out rarely depends on which messages are encrypted. *)
Theorem C85_result_rarely_depends_on_which_messages (E : pairing) (R : Type) (gens : encryption_gens E) (pf : profile)
    (domain : nat -> option (list (Fr E))) (fuel n : nat) (b : Z) (cs : csys (K_of E)) (xs : list (Fr E)) (before after : list (list (Fr E)))
    (G H : rng_impl E) (st : rng_st G) (sh : rng_st H) (t q k : nat) (A : insider E R) (L : list (list (Fr E))) :
  eg_G gens <> gzero -> eg_H gens <> gzero -> domain_ok domain ->
  supported b -> 2 ^ b <= modulus (K_of E) ->
  64 * Z.of_nat (limbs (K_of E)) - b < modulus_bit_size (K_of E) -> 64 * Z.of_nat (limbs (K_of E)) < 256 * b ->
  chunks_count (K_of E) b = Ok (Z.of_nat n) -> (0 < n)%nat ->
  generate_constraints (BitsizeCheckCircuit b (Z.of_nat n) None true) (cs_new Circuit.Setup) = Ok cs ->
  domain (length (cs_cons cs) + cs_num_inst cs)%nat = Some xs ->
  Forall (fun tape => length tape = (2 * n + 1)%nat) before -> Forall (fun tape => length tape = (2 * n + 1)%nat) after ->
  ilimited t q k A -> NoDup L ->
  (forall coins, In coins L -> length coins = (2 * n + 6 + 3 * k)%nat /\
     insider_experiment pf (ark_backend pf domain fuel) G H gens b before after false A st sh coins <> insider_experiment pf (ark_backend pf domain fuel) G H gens b before after true A st sh coins) ->
  let N := Z.of_nat (length xs) in let m := 3 * Z.of_nat n in let T := Z.of_nat t + 2 * Z.of_nat q in
  let forged := 4 * N + 7 * (m + 6) + Z.of_nat k ^ 2 * (3 * N + 9 * (m + 9)) in
  let base := N + (1 + Z.of_nat n + Z.of_nat n * (N + 2)) in
  Z.of_nat (length L) * modulus (K_of E) <=
  ((2 * Z.of_nat q + 3) * base + (Z.of_nat q + 1) * (4 * T * (Z.of_nat k + 1) * (3 * N + 9 * (m + 9))) + 2 * Z.of_nat q * (Z.of_nat q + 2) * forged) * modulus (K_of E) ^ Z.of_nat (2 * n + 6 + 3 * k).
Proof.
  intros HG HH Hd Hb HM C1 C2 Hc Hn Hcs Hxs Hbef Haft W Hnd HL. cbv zeta.
  destruct (insider_bound n cs xs pf domain fuel b gens HG HH Hd Hb HM (conj C1 C2) Hc Hn Hcs Hxs before after Hbef Haft A G H st sh t q k W) as (A' & W' & HR).
  pose proof (rcca_dkg_bound n cs xs pf domain fuel b gens HG HH Hd Hb HM (conj C1 C2) Hc Hn Hcs Hxs before after Hbef Haft A' G st t q k W') as HB.
  pose proof (rare_or _ _ _ _ _ (rare_or _ _ _ _ _ (HR false) (HR true)) HB) as HO.
  pose proof (rare_stable _ _ (fun coins => insider_experiment pf (ark_backend pf domain fuel) G H gens b before after false A st sh coins <> insider_experiment pf (ark_backend pf domain fuel) G H gens b before after true A st sh coins) _ HO) as B.
  cbv beta in B. specialize (B ltac:(intros c _ Hne Hno; apply Hno; left; left; intros E0; apply Hno; left; right; intros E1; apply Hno; right; intros E2; apply Hne; rewrite E0, E1; exact E2) L Hnd HL).
  clear HO HB HR HL. unfold cost, NM, D0 in B. cbn [cw] in B. replace (Z.of_nat t + 2 * Z.of_nat q) with (Z.of_nat (t + 2 * q)) by lia. set (Q := Z.of_nat (t + 2 * q)) in *. clearbody Q.
  replace (Z.of_nat (k + 1)) with (Z.of_nat k + 1) in B by lia.
  eapply Z.le_trans; [exact B|]. apply Z.eq_le_incl. ring.
Qed.

(* in terms of the number of coins on which the coalition says yes: All lists every sequence of coins once *)
Theorem C85_shares_reveal_no_messages (E : pairing) (gens : encryption_gens E) (pf : profile)
    (domain : nat -> option (list (Fr E))) (fuel n k : nat) (b : Z) (cs : csys (K_of E)) (xs : list (Fr E)) (before after : list (list (Fr E))) (All : list (list (Fr E))) :
  eg_G gens <> gzero -> eg_H gens <> gzero -> domain_ok domain ->
  supported b -> 2 ^ b <= modulus (K_of E) ->
  64 * Z.of_nat (limbs (K_of E)) - b < modulus_bit_size (K_of E) -> 64 * Z.of_nat (limbs (K_of E)) < 256 * b ->
  chunks_count (K_of E) b = Ok (Z.of_nat n) -> (0 < n)%nat ->
  generate_constraints (BitsizeCheckCircuit b (Z.of_nat n) None true) (cs_new Circuit.Setup) = Ok cs ->
  domain (length (cs_cons cs) + cs_num_inst cs)%nat = Some xs ->
  Forall (fun tape => length tape = (2 * n + 1)%nat) before -> Forall (fun tape => length tape = (2 * n + 1)%nat) after ->
  NoDup All -> (forall coins, In coins All <-> length coins = (2 * n + 6 + 3 * k)%nat) ->
  forall (G H : rng_impl E) (st : rng_st G) (sh : rng_st H) (t q : nat) (A : insider E bool), ilimited t q k A ->
  let says_yes second coins := match insider_experiment pf (ark_backend pf domain fuel) G H gens b before after second A st sh coins with Some g => g | None => false end in
  let yes second := Z.of_nat (length (filter (says_yes second) All)) in
  let N := Z.of_nat (length xs) in let m := 3 * Z.of_nat n in let T := Z.of_nat t + 2 * Z.of_nat q in
  let forged := 4 * N + 7 * (m + 6) + Z.of_nat k ^ 2 * (3 * N + 9 * (m + 9)) in
  let base := N + (1 + Z.of_nat n + Z.of_nat n * (N + 2)) in
  Z.abs (yes false - yes true) * modulus (K_of E) <=
  ((2 * Z.of_nat q + 3) * base + (Z.of_nat q + 1) * (4 * T * (Z.of_nat k + 1) * (3 * N + 9 * (m + 9))) + 2 * Z.of_nat q * (Z.of_nat q + 2) * forged) * Z.of_nat (length All).
Proof.
  intros HG HH Hdom Hb HbM H1 H2 Hcount Hn0 Hcs Hxs Hbef Haft Hnd HA G H st sh t q A W says_yes yes. cbv zeta. rewrite (all_tuples_count _ All Hnd HA).
  pose proof (@modulus_gt1 (K_of E)) as Hp.
  eapply Z.le_trans; [apply Z.mul_le_mono_nonneg_r; [lia|apply count_difference]|].
  apply (C85_result_rarely_depends_on_which_messages E bool gens pf domain fuel n b cs xs before after G H st sh t q k A _ HG HH Hdom Hb HbM H1 H2 Hcount Hn0 Hcs Hxs Hbef Haft W); [apply NoDup_filter; exact Hnd|].
  intros coins Hin. apply filter_In in Hin. destruct Hin as [Hin Hne]. split; [apply HA; exact Hin|].
  intros Z. unfold says_yes in Hne. rewrite Z in Hne. rewrite Bool.eqb_reflx in Hne. discriminate Hne.
Qed.

(* A coalition that ends with a submission: one that sees no shares makes the same submission, ciphertext and proof, with the same keys and the same
   ciphertexts on the table. *)
Theorem C85_submissions_can_be_imitated (E : pairing) (gens : encryption_gens E) (pf : profile)
    (domain : nat -> option (list (Fr E))) (fuel n : nat) (b : Z) (cs : csys (K_of E)) (xs : list (Fr E)) (before after : list (list (Fr E)))
    (G H : rng_impl E) (st : rng_st G) (sh : rng_st H) (t q k : nat) (A : insider E (strategy E)) :
  eg_G gens <> gzero -> eg_H gens <> gzero -> domain_ok domain ->
  supported b -> 2 ^ b <= modulus (K_of E) ->
  64 * Z.of_nat (limbs (K_of E)) - b < modulus_bit_size (K_of E) -> 64 * Z.of_nat (limbs (K_of E)) < 256 * b ->
  chunks_count (K_of E) b = Ok (Z.of_nat n) -> (0 < n)%nat ->
  generate_constraints (BitsizeCheckCircuit b (Z.of_nat n) None true) (cs_new Circuit.Setup) = Ok cs ->
  domain (length (cs_cons cs) + cs_num_inst cs)%nat = Some xs ->
  Forall (fun tape => length tape = (2 * n + 1)%nat) before -> Forall (fun tape => length tape = (2 * n + 1)%nat) after ->
  ilimited t q k A ->
  let N := Z.of_nat (length xs) in let m := 3 * Z.of_nat n in let T := Z.of_nat t + 2 * Z.of_nat q in
  let forged := 4 * N + 7 * (m + 6) + Z.of_nat k ^ 2 * (3 * N + 9 * (m + 9)) in
  let base := N + (1 + Z.of_nat n + Z.of_nat n * (N + 2)) in
  exists A' : adversary E (strategy E), limited t q k A' /\ forall (second : bool) (L : list (list (Fr E))), NoDup L ->
  (forall coins, In coins L -> length coins = (2 * n + 6 + 3 * k)%nat /\ exists keys S cps seen,
     insider_run pf (ark_backend pf domain fuel) G H gens b before after second A st sh coins = Some (keys, (S, cps, seen)) /\
     let T1 := dkg_g1 gens (public_run keys cps) in let T2 := dkg_g2 gens (public_run keys cps) in
     ~ exists rest S', dkg_setup (ark_backend pf domain fuel) gens b before after coins = Ok (keys, rest) /\
       dkg_duel pf (ark_backend pf domain fuel) G gens b keys second A' [] [] rest st = Some (S', cps) /\
       ciphertext_from S' T1 = ciphertext_from S (T1 ++ seen) /\ proof_from S' T1 T2 = proof_from S (T1 ++ seen) T2) ->
  Z.of_nat (length L) * modulus (K_of E) <=
  (base + Z.of_nat q * (base + 3 * T * (Z.of_nat k + 1) * (3 * N + 9 * (m + 9)) + (Z.of_nat q + 1) * forged)) * modulus (K_of E) ^ Z.of_nat (2 * n + 6 + 3 * k).
Proof.
  intros HG HH Hd Hb HM C1 C2 Hc Hn Hcs Hxs Hbef Haft W. cbv zeta.
  destruct (insider_imitated n cs xs pf domain fuel b gens HG HH Hd Hb HM (conj C1 C2) Hc Hn Hcs Hxs before after Hbef Haft A G H st sh t q k W) as (A' & W' & HR).
  exists A'. split; [exact W'|]. intros second L Hnd HL.
  assert (B := HR second L Hnd). clear HR. cbv beta in B.
  specialize (B ltac:(intros c Hc0; destruct (HL c Hc0) as (Lc & keys & S & cps & seen & Hrun & Hno); split; [exact Lc|]; intros Him; exact (Hno (Him keys S cps seen Hrun)))).
  eapply Z.le_trans; [exact B|]. pose proof (@modulus_gt1 (K_of E)) as Hp. apply Z.mul_le_mono_nonneg_r; [apply Z.pow_nonneg; lia|]. apply weigh_simulation.
Qed.

(* What is accepted in the end is an encryption of chunks of b bits under the joint key, or a rerandomized copy of a ciphertext on the table (whose
   proof is made from the proof of that ciphertext). *)
Theorem C85_shares_do_not_help_to_forge (E : pairing) (gens : encryption_gens E) (pf : profile)
    (domain : nat -> option (list (Fr E))) (fuel n : nat) (b : Z) (cs : csys (K_of E)) (xs : list (Fr E)) (before after : list (list (Fr E)))
    (G H : rng_impl E) (st : rng_st G) (sh : rng_st H) (t q k : nat) (second : bool) (A : insider E (strategy E)) (L : list (list (Fr E))) :
  eg_G gens <> gzero -> eg_H gens <> gzero -> domain_ok domain ->
  supported b -> 2 ^ b <= modulus (K_of E) ->
  64 * Z.of_nat (limbs (K_of E)) - b < modulus_bit_size (K_of E) -> 64 * Z.of_nat (limbs (K_of E)) < 256 * b ->
  chunks_count (K_of E) b = Ok (Z.of_nat n) -> (0 < n)%nat ->
  generate_constraints (BitsizeCheckCircuit b (Z.of_nat n) None true) (cs_new Circuit.Setup) = Ok cs ->
  domain (length (cs_cons cs) + cs_num_inst cs)%nat = Some xs ->
  Forall (fun tape => length tape = (2 * n + 1)%nat) before -> Forall (fun tape => length tape = (2 * n + 1)%nat) after ->
  ilimited t q k A -> NoDup L ->
  (forall coins, In coins L -> length coins = (2 * n + 6 + 3 * k)%nat /\ exists keys S cps seen,
     insider_run pf (ark_backend pf domain fuel) G H gens b before after second A st sh coins = Some (keys, (S, cps, seen)) /\
     let T1 := dkg_g1 gens (public_run keys cps) ++ seen in let T2 := dkg_g2 gens (public_run keys cps) in
     let ct := ciphertext_from S T1 in let q := proof_from S T1 T2 in
     verify_commitment_and_proof ct q (prepare_verifying_key (gpk_vk (pk_pk (kg_pk keys)))) (prepare_ek (kg_ek keys)) (prepare_gens gens) = Ok tt /\
     ~ (exists g_i ds r, get_gs_for_encryption (gpk_vk (pk_pk (kg_pk keys))) = Ok g_i /\ digits_ok b ds /\ encrypts (kg_ek keys) g_i ds (ct_vec ct) r) /\
     ~ (exists ct0 q0 r, In (ct0, q0) cps /\ ct = rerandomized (kg_ek keys) r ct0 /\ exists kappa, kappa <> fzero /\ pr_a q = kappa [*] pr_a q0)) ->
  let N := Z.of_nat (length xs) in let m := 3 * Z.of_nat n in let T := Z.of_nat t + 2 * Z.of_nat q in
  let forged := 4 * N + 7 * (m + 6) + Z.of_nat k ^ 2 * (3 * N + 9 * (m + 9)) in
  let base := N + (1 + Z.of_nat n + Z.of_nat n * (N + 2)) in
  Z.of_nat (length L) * modulus (K_of E) <=
  (base + (Z.of_nat q + 1) * (base + 3 * T * (Z.of_nat k + 1) * (3 * N + 9 * (m + 9)) + (Z.of_nat q + 1) * forged)) * modulus (K_of E) ^ Z.of_nat (2 * n + 6 + 3 * k).
Proof.
  intros HG HH Hd Hb HM C1 C2 Hc Hn Hcs Hxs Hbef Haft W Hnd HL. cbv zeta.
  destruct (insider_imitated n cs xs pf domain fuel b gens HG HH Hd Hb HM (conj C1 C2) Hc Hn Hcs Hxs before after Hbef Haft A G H st sh t q k W) as (A' & W' & HR).
  pose proof (rcca_dkg_forgery n cs xs pf domain fuel b gens HG HH Hd Hb HM (conj C1 C2) Hc Hn Hcs Hxs before after Hbef Haft A' G st t q k second W') as HF.
  pose proof (rare_or _ _ _ _ _ (HR second) HF) as HO. clear HR HF.
  refine (Z.le_trans _ _ _ (rare_stable _ _ (fun coins => exists keys S cps seen,
     insider_run pf (ark_backend pf domain fuel) G H gens b before after second A st sh coins = Some (keys, (S, cps, seen)) /\ _) _ HO _ L Hnd HL) _); clear HL.
  - intros c _ (keys & S & cps & seen & Hrun & Hacc & Hne & Hnc) Hno. cbv zeta in Hacc, Hne, Hnc. apply Hno. left. intros Him. apply Hno. right. destruct (Him keys S cps seen Hrun) as (rest & S' & Hset & Hduel & Ect & Epr).
    exists keys, rest, S', cps. split; [exact Hset|]. split; [exact Hduel|]. cbv zeta. rewrite Ect, Epr. split; [exact Hacc|]. split.
    + intros (Hdig & g_i & Hg & He). apply Hne. exists g_i, (dkg_extracted_chunks n (length before) (length before + 1 + length after)%nat S'), (dkg_extracted_r n (length before) (length before + 1 + length after)%nat S'). split; [exact Hg|]. split; assumption.
    + intros (ct0 & q0 & Hin & Hct & Hk). apply Hnc. exists ct0, q0, (dkg_extracted_r n (length before) (length before + 1 + length after)%nat S'). split; [exact Hin|]. split; assumption.
  - pose proof (@modulus_gt1 (K_of E)) as Hp. apply Z.mul_le_mono_nonneg_r; [apply Z.pow_nonneg; lia|]. apply weigh_forgery.
Qed.

(* ---------- the game ---------- *)
Lemma all_shares_long {E : pairing} (G : rng_impl E) gens c_0 c ekd sks : forall st shares st', all_shares G gens c_0 c ekd sks st = Ok (shares, st') -> Forall (fun sk => (length c <= length (st_s sk))%nat) sks.
Proof.
  induction sks as [|sk sks IH]; intros st shares st' Hs; [constructor|]. cbn [all_shares] in Hs. apply bind_Ok_inv in Hs. destruct Hs as ([[w g_r] st1] & H1 & Hs). apply bind_Ok_inv in Hs. destruct Hs as ([sh2 st2] & H2 & _).
  constructor; [|exact (IH _ _ _ H2)]. destruct (Nat.leb_spec (length c) (length (st_s sk))) as [L|L]; [exact L|].
  destruct (C79_share_exact E G gens c_0 c ekd sk st) as [_ X]. cbv zeta in X. rewrite (X L) in H1. discriminate H1.
Qed.
(* when a submission is opened, the honest party's share exists for every destination *)
Lemma opened_share {E : pairing} pf (G H : rng_impl E) b gens (keys : dkg_keys E) i honest part offered ct q st ms st' ekd sh : nth_error (kg_parties keys) i = Some (honest, part) ->
  service_by_parties pf G b gens keys offered ct q st = (Opened ms, st') ->
  exists w, re_encrypt_share H gens (ct_X_r ct) (ct_enc_chunks ct) ekd honest sh = Ok (w, fst (rand_scalar H sh) [*] eg_G gens, snd (rand_scalar H sh)) /\ length w = length (ct_enc_chunks ct) /\
    forall j, (j < length (ct_enc_chunks ct))%nat -> nth j w gzero = (fneg (nth j (st_s honest) fzero) [*] ct_X_r ct) [+] (fst (rand_scalar H sh) [*] ekd_pk ekd).
Proof.
  intros Hn Hs. apply (proj1 (C79_share_exact E H gens (ct_X_r ct) (ct_enc_chunks ct) ekd honest sh)).
  unfold service_by_parties in Hs. destruct (verify_commitment_and_proof _ _ _ _ _) as [u|err|]; [|discriminate|discriminate]. destruct (get_gs_for_encryption _) as [g_i|err|]; [|discriminate|discriminate].
  destruct (decrypt_together pf G b gens g_i (map fst (kg_parties keys)) ct st) as [[ch s1]|err|] eqn:Hd; [|discriminate|discriminate].
  unfold decrypt_together in Hd. apply bind_Ok_inv in Hd. destruct Hd as ([[skd ek2] s2] & _ & Hd). apply bind_Ok_inv in Hd. destruct Hd as ([shares s3] & Ha & _).
  apply all_shares_long in Ha. rewrite Forall_forall in Ha. apply Ha. apply nth_error_In in Hn. exact (in_map fst _ _ Hn).
Qed.
(* The game comes to an end whatever the coalition does, unless one of three coins is bad: the ciphertexts on the table are honest encryptions of at
   most k messages, and nothing but whole shares of n+1 elements was added, at most q of them. *)
Theorem C85_game_ends (E : pairing) (R : Type) (gens : encryption_gens E) (pf : profile)
    (domain : nat -> option (list (Fr E))) (fuel n : nat) (b : Z) (cs : csys (K_of E)) (xs : list (Fr E)) (before after : list (list (Fr E)))
    (G H : rng_impl E) (st : rng_st G) (sh : rng_st H) (t q k : nat) (second : bool) (A : insider E R) coins :
  eg_G gens <> gzero -> eg_H gens <> gzero -> domain_ok domain -> supported b -> 2 ^ b <= modulus (K_of E) ->
  64 * Z.of_nat (limbs (K_of E)) - b < modulus_bit_size (K_of E) -> 64 * Z.of_nat (limbs (K_of E)) < 256 * b ->
  chunks_count (K_of E) b = Ok (Z.of_nat n) -> (0 < n)%nat -> (0 < fuel)%nat ->
  generate_constraints (BitsizeCheckCircuit b (Z.of_nat n) None true) (cs_new Circuit.Setup) = Ok cs ->
  domain (length (cs_cons cs) + cs_num_inst cs)%nat = Some xs ->
  Forall (fun tape => length tape = (2 * n + 1)%nat) before -> Forall (fun tape => length tape = (2 * n + 1)%nat) after ->
  ilimited t q k A -> length coins = (2 * n + 6 + 3 * k)%nat -> nth 2 coins fzero <> fzero -> nth 3 coins fzero <> fzero -> ~ In (nth 4 coins fzero) xs ->
  exists keys rest honest part r cps seen msgs st' opened, dkg_setup (ark_backend pf domain fuel) gens b before after coins = Ok (keys, rest) /\
    nth_error (kg_parties keys) (length before) = Some (honest, part) /\
    insider_experiment pf (ark_backend pf domain fuel) G H gens b before after second A st sh coins = Some r /\
    insider_run pf (ark_backend pf domain fuel) G H gens b before after second A st sh coins = Some (keys, (r, cps, seen)) /\
    (length msgs <= k)%nat /\ encrypt_all pf (ark_backend pf domain fuel) (replay_rng E) msgs (kg_ek keys) (kg_pk keys) b rest = Ok (cps, st') /\
    (opened <= q)%nat /\ length seen = (opened * (n + 1))%nat.
Proof.
  intros HG HH Hd Hb HM C1 C2 Hc Hn Hf Hcs Hxs Hbef Haft W Lc H2 H3 Hin.
  destruct (C67_experiment_shows_accepted_ciphertexts E gens pf domain fuel n b cs xs before after (repeat fzero k) coins HG HH Hd Hb HM C1 C2 Hc Hn Hf Hcs Hxs Hbef Haft) as (run & g_i & _ & Hrun & Hg & _); try assumption.
  { rewrite repeat_length. exact Lc. }
  destruct (setup_from_execution _ _ _ _ _ _ _ _ _ Hrun) as (keys & rest & s1 & Hset & Erun & _). rewrite Erun in Hg. cbn [public_run dr_pk] in Hg.
  assert (Hv : tau_ok xs coins) by (unfold tau_ok; rewrite vanishing_zero; exact Hin).
  destruct (setup_parties _ _ _ _ _ _ _ _ _ Hset Hg) as [P1 P2].
  destruct (nth_error (kg_parties keys) (length before)) as [[honest part]|] eqn:Hnth; [|apply nth_error_None in Hnth; lia].
  pose proof (setup_rest n cs xs pf domain fuel b gens Hb HM Hc Hn Hcs Hxs before after _ coins keys rest Lc Hv Hset) as Er.
  destruct (dkg_as_central_r n cs xs pf domain fuel b gens Hb HM Hc Hn Hcs Hxs before after Hbef Haft) as (rows1 & rows2 & _ & HC).
  destruct (HC [] (3 * k)%nat coins (repeat fzero (S n)) _ Lc ltac:(apply repeat_length) Hv (execution_from_setup pf _ gens b before after [] coins keys rest [] rest Hset eq_refl)) as (Lc' & E4 & _ & sk & dk & s2 & Hcen & _). cbn [public_run dr_pk dr_ek] in Hcen. rewrite <- Er in Hcen.
  set (c := centralk n before after coins (repeat fzero (S n))) in *. assert (Tc : tau_ok xs c) by (unfold RccaTest.tau_ok; rewrite E4; exact Hv).
  pose proof (table_at n cs xs pf domain fuel b gens Hd Hb HM (conj C1 C2) Hc Hn Hcs Hxs [] 0 k c _ sk _ dk rest [] rest eq_refl Lc' Tc Hcen eq_refl) as T. cbv zeta in T. destruct T as (_ & _ & _ & _ & _ & Hgood & _ & Ls & _).
  assert (Hlen : forall ct p, verify_commitment_and_proof ct p (prepare_verifying_key (gpk_vk (pk_pk (kg_pk keys)))) (prepare_ek (kg_ek keys)) (prepare_gens gens) = Ok tt -> length (ct_enc_chunks ct) = n).
  { intros ct p HV. assert (HW : verify_commitment ct (prepare_ek (kg_ek keys)) (prepare_gens gens) = Ok tt) by (unfold verify_commitment_and_proof in HV; apply bind_Ok_inv in HV; destruct HV as ([] & Z & _); exact Z).
    apply accept_wf in HW. destruct HW as (_ & LX & _). destruct (honest_secrets n (length before) _ gens b keys honest part g_i _ _ Hc P1 Hnth P2 ltac:(rewrite (setup_shares pf domain fuel b gens before after coins keys rest Hset); exact P2)) as (_ & _ & _ & _ & L). lia. }
  assert (X : forall offered cps ms seen st0 st1 sh1, encrypt_all pf (ark_backend pf domain fuel) (replay_rng E) ms (kg_ek keys) (kg_pk keys) b rest = Ok (cps, st0) -> (3 * k <= length st0)%nat ->
    exists r cps' ms' st' opened more, insider_duel pf (ark_backend pf domain fuel) G H gens b keys honest second A offered cps seen st0 st1 sh1 = Some (r, cps', seen ++ more) /\ (length ms' <= k)%nat /\
      encrypt_all pf (ark_backend pf domain fuel) (replay_rng E) (ms ++ ms') (kg_ek keys) (kg_pk keys) b rest = Ok (cps', st') /\ (opened <= q)%nat /\ length more = (opened * (n + 1))%nat).
  { clear - W Hgood Hd Hb HM C1 C2 Hc Hcs Hxs Hnth Hlen. induction W as [t q k r0|t q k m A1 A2 W1 IH1 W2 IH2|t q k m m' next W IH|t q k St dest next W IH]; intros offered cps ms seen st0 st1 sh1 Henc L; cbn [insider_duel].
    - exists r0, cps, [], st0, 0%nat, []. rewrite !app_nil_r. split; [reflexivity|]. split; [cbn [length]; lia|]. split; [exact Henc|]. split; [lia|reflexivity].
    - destruct (geqb _ _); [eapply IH1|eapply IH2]; eassumption.
    - destruct st0 as [|x [|y [|z st0]]]; try (cbn [length] in L; lia).
      destruct (enc_forged n cs xs pf domain fuel b gens Hd Hb HM (conj C1 C2) Hc Hcs Hxs (if second then m' else m) x y z) as (S0 & HS0). specialize (HS0 _ _ _ st0 Hgood). rewrite HS0.
      destruct (IH (m :: m' :: offered) (cps ++ [forged gens (kg_pk keys) (kg_ek keys) dk S0]) (ms ++ [if second then m' else m]) seen st0 st1 sh1) as (r & cps' & ms' & st' & op & more & Y1 & Y2 & Y3 & Y4).
      + rewrite (encrypt_all_app _ _ _ _ _ _ _ _ _ _ _ Henc). cbn [encrypt_all]. rewrite HS0. reflexivity.
      + cbn [length] in L. lia.
      + exists r, cps', ((if second then m' else m) :: ms'), st', op, more. split; [exact Y1|]. split; [cbn [length]; lia|]. rewrite <- app_assoc in Y3. split; [exact Y3|exact Y4].
    - destruct (service_by_parties pf G b gens keys offered _ _ st1) as [answer st2] eqn:Hans. destruct answer as [| |ds].
      + destruct (IH Refused offered cps ms seen st0 st2 sh1 Henc L) as (r & cps' & ms' & st' & op & more & Y1 & Y2 & Y3 & Y4 & Y5). exists r, cps', ms', st', op, more. split; [exact Y1|]. split; [exact Y2|]. split; [exact Y3|]. split; [lia|exact Y5].
      + destruct (IH Protected offered cps ms seen st0 st2 sh1 Henc L) as (r & cps' & ms' & st' & op & more & Y1 & Y2 & Y3 & Y4 & Y5). exists r, cps', ms', st', op, more. split; [exact Y1|]. split; [exact Y2|]. split; [exact Y3|]. split; [lia|exact Y5].
      + assert (HV : length (ct_enc_chunks (ciphertext_from St (dkg_g1 gens (public_run keys cps) ++ seen))) = n).
        { unfold service_by_parties in Hans. destruct (verify_commitment_and_proof _ _ _ _ _) as [[]|err|] eqn:HV in Hans; [|discriminate|discriminate]. exact (Hlen _ _ HV). }
        destruct (opened_share pf G H b gens keys _ honest part offered _ _ st1 ds st2 (FEncryptionKeyDest (dot dest (dkg_g1 gens (public_run keys cps) ++ seen))) sh1 Hnth Hans) as (w & Hw & Lw & _). rewrite Hw. rewrite HV in Lw.
        destruct (IH (Opened ds) offered cps ms (seen ++ w ++ [fst (rand_scalar H sh1) [*] eg_G gens]) st0 st2 (snd (rand_scalar H sh1)) Henc L) as (r & cps' & ms' & st' & op & more & Y1 & Y2 & Y3 & Y4 & Y5).
        exists r, cps', ms', st', (S op), ((w ++ [fst (rand_scalar H sh1) [*] eg_G gens]) ++ more). split; [rewrite Y1, <- app_assoc; reflexivity|]. split; [exact Y2|]. split; [exact Y3|]. split; [lia|]. rewrite !app_length. cbn [length]. lia. }
  destruct (X [] [] [] [] rest st sh eq_refl ltac:(lia)) as (r & cps & ms & st' & op & more & Y1 & Y2 & Y3 & Y4 & Y5). cbn [app] in Y1, Y3.
  exists keys, rest, honest, part, r, cps, more, ms, st', op. split; [exact Hset|]. split; [exact Hnth|].
  assert (Z : insider_run pf (ark_backend pf domain fuel) G H gens b before after second A st sh coins = Some (keys, (r, cps, more))) by (unfold insider_run; rewrite Hset, Hnth, Y1; reflexivity).
  split; [unfold insider_experiment; rewrite Z; reflexivity|]. split; [exact Z|]. split; [exact Y2|]. split; [exact Y3|]. split; assumption.
Qed.

(* One submission: if the proof is accepted and the ciphertext encrypts chunks ds of a message that was not offered, the parties open it and the
   coalition also sees the honest party's share, -s_j c_0 + rho D for every chunk and rho G, for its destination D; an offered message is not opened
   and no share is shown. *)
Theorem C85_opened_submissions_show_the_share (E : pairing) (R : Type) (pf : profile) (B : groth16_backend E) (G H : rng_impl E) (gens : encryption_gens E) (b : Z) (before after coins : list _)
    (keys : dkg_keys E) rest g_i honest part (second : bool) (S : strategy E) dest (next : reply -> insider E R) offered cps seen coins' st sh ds r :
  supported b -> 2 ^ b <= modulus (K_of E) ->
  dkg_setup B gens b before after coins = Ok (keys, rest) -> get_gs_for_encryption (gpk_vk (pk_pk (kg_pk keys))) = Ok g_i -> Forall (fun x => x <> gzero) g_i ->
  nth_error (kg_parties keys) (length before) = Some (honest, part) ->
  let T1 := dkg_g1 gens (public_run keys cps) ++ seen in let T2 := dkg_g2 gens (public_run keys cps) in
  let ct := ciphertext_from S T1 in let q := proof_from S T1 T2 in
  verify_commitment_and_proof ct q (prepare_verifying_key (gpk_vk (pk_pk (kg_pk keys)))) (prepare_ek (kg_ek keys)) (prepare_gens gens) = Ok tt ->
  digits_ok b ds -> encrypts (kg_ek keys) g_i ds (ct_vec ct) r ->
  ((forall m, In m offered -> decompose pf m b <> Ok ds) -> exists w st', length w = length (ct_enc_chunks ct) /\
     (forall j, (j < length w)%nat -> nth j w gzero = (fneg (nth j (st_s honest) fzero) [*] ct_X_r ct) [+] (fst (rand_scalar H sh) [*] dot dest T1)) /\
     insider_duel pf B G H gens b keys honest second (IShip S dest next) offered cps seen coins' st sh =
     insider_duel pf B G H gens b keys honest second (next (Opened ds)) offered cps (seen ++ w ++ [fst (rand_scalar H sh) [*] eg_G gens]) coins' st' (snd (rand_scalar H sh))) /\
  ((exists m, In m offered /\ decompose pf m b = Ok ds) -> exists st',
     insider_duel pf B G H gens b keys honest second (IShip S dest next) offered cps seen coins' st sh =
     insider_duel pf B G H gens b keys honest second (next Protected) offered cps seen coins' st' sh).
Proof.
  intros Hb HM Hset Hg Hnz Hnth T1 T2 ct q HV Hdig He. destruct (setup_parties _ _ _ _ _ _ _ _ _ Hset Hg) as [P1 _].
  destruct (C80_parties_open_what_they_may pf G b gens g_i _ _ keys offered ct q ds r st Hb HM Hg P1 ltac:(rewrite <- (firstn_skipn (length ds) g_i) in Hnz; apply Forall_app in Hnz; apply Hnz) HV Hdig He) as [S1 S2].
  cbn [insider_duel]. fold T1 T2. fold ct q. destruct (service_by_parties pf G b gens keys offered ct q st) as [answer st'] eqn:Hs. cbn [fst] in S1, S2. split.
  - intros Hno. specialize (S2 Hno). subst answer. destruct (opened_share pf G H b gens keys _ honest part offered _ _ st ds st' (FEncryptionKeyDest (dot dest T1)) sh Hnth Hs) as (w & Hw & Lw & Hj).
    exists w, st'. split; [exact Lw|]. split; [intros j Hj'; apply Hj; lia|]. rewrite Hw. reflexivity.
  - intros Hp. specialize (S1 Hp). subst answer. exists st'. reflexivity.
Qed.

(* ---------- with the parameters of BLS12-381 ---------- *)
Section CosetInsider.
Context {E : pairing}.
Notation K := (K_of E).
Variables (g : Fr E) (pf : profile) (domain : nat -> option (list (Fr E))) (fuel : nat) (b : Z).
Hypothesis Hdom : domain_ok domain.
Hypothesis Hg : g <> fzero.
Hypothesis Hm : forall n xs, domain n = Some xs -> mult_group xs /\ ~ In g xs.
Hypothesis Hb : supported b.
Hypothesis Hbits : b <= modulus_bit_size K.
Lemma coset_insider_duel {R} (G H : rng_impl E) gens keys honest second (A : insider E R) : forall offered cps seen coins st sh,
  insider_duel pf (ark_backend_coset g pf domain fuel) G H gens b keys honest second A offered cps seen coins st sh = insider_duel pf (ark_backend pf domain fuel) G H gens b keys honest second A offered cps seen coins st sh.
Proof.
  induction A as [r|q A1 IH1 A2 IH2|m m' A IH|St dest next IH]; intros offered cps seen coins st sh; cbn [insider_duel].
  - reflexivity.
  - rewrite IH1, IH2. reflexivity.
  - rewrite (coset_encrypts g pf domain fuel b Hdom Hg Hm Hb Hbits). destruct (encrypt_with_proof pf (ark_backend pf domain fuel) (replay_rng E) (if second then m' else m) (kg_ek keys) (kg_pk keys) b coins) as [[[[ct r] p] coins']|e|]; [apply IH|reflexivity|reflexivity].
  - destruct (service_by_parties _ _ _ _ _ _ _ _ _) as [answer st']. destruct answer as [| |ds]; [apply IH|apply IH|]. destruct (re_encrypt_share _ _ _ _ _ _ _) as [[[w g_r] sh']|e|]; [apply IH|reflexivity|reflexivity].
Qed.
Lemma coset_insider_run {R} (G H : rng_impl E) gens before after second (A : insider E R) st sh coins :
  insider_run pf (ark_backend_coset g pf domain fuel) G H gens b before after second A st sh coins = insider_run pf (ark_backend pf domain fuel) G H gens b before after second A st sh coins.
Proof.
  unfold insider_run. rewrite coset_dkg_setup. destruct (dkg_setup (ark_backend pf domain fuel) gens b before after coins) as [[keys rest]|e|]; [|reflexivity|reflexivity].
  destruct (nth_error (kg_parties keys) (length before)) as [[honest part]|]; [|reflexivity]. rewrite coset_insider_duel. reflexivity.
Qed.
End CosetInsider.
Lemma insider_budget (N n T q k a C D : Z) : 0 <= N <= 32768 -> 16 <= n <= 64 -> 0 <= q -> 2 * q <= T -> (q + 1) * T <= 2 ^ 64 -> 0 <= k <= 2 ^ 20 -> 0 <= a <= 2 * q + 3 -> 0 <= C <= 4 -> 0 <= D <= 2 * (q + 1) * (q + 1) ->
  (a * (N + (1 + n + n * (N + 2))) + (q + 1) * (C * T * (k + 1) * (3 * N + 9 * (3 * n + 9))) + D * (4 * N + 7 * (3 * n + 6) + k ^ 2 * (3 * N + 9 * (3 * n + 9)))) * 2 ^ 128 <= bls_r.
Proof.
  intros HN Hn Hq HqT HT Hk Ha HC HD.
  assert (M : forall a b x y, 0 <= a <= x -> 0 <= b <= y -> 0 <= a * b <= x * y) by (intros a' b x y H1 H2; split; [apply Z.mul_nonneg_nonneg; lia|apply Z.mul_le_mono_nonneg; lia]).
  assert (Hqq : (q + 1) * (2 * q) <= 2 ^ 64) by (etransitivity; [apply Z.mul_le_mono_nonneg_l; [lia|exact HqT]|exact HT]).
  assert (Hq1 : q <= q * q) by (destruct (Z.eq_dec q 0) as [->|]; [reflexivity|]; rewrite <- (Z.mul_1_l q) at 1; apply Z.mul_le_mono_nonneg_r; lia).
  replace ((q + 1) * (2 * q)) with (2 * (q * q) + 2 * q) in Hqq by ring. replace (2 * (q + 1) * (q + 1)) with (2 * (q * q) + 4 * q + 2) in HD by ring. set (qq := q * q) in *. clearbody qq.
  assert (H0 : 0 <= a <= 2 ^ 64) by lia. assert (H9 : 0 <= D <= 2 ^ 65 + 2) by lia.
  assert (H1 : 0 <= n * (N + 2) <= 64 * 32770) by (apply M; lia).
  assert (H2 : 0 <= 3 * N + 9 * (3 * n + 9) <= 100113) by lia.
  assert (HU : 0 <= (q + 1) * T <= 2 ^ 64) by (split; [apply Z.mul_nonneg_nonneg; lia|exact HT]).
  assert (H3 : 0 <= C * ((q + 1) * T) <= 4 * 2 ^ 64) by (apply M; lia).
  assert (H4 : 0 <= C * ((q + 1) * T) * (k + 1) <= 4 * 2 ^ 64 * (2 ^ 20 + 1)) by (apply M; lia).
  pose proof (M _ _ _ _ H4 H2) as H5. replace (C * ((q + 1) * T) * (k + 1) * (3 * N + 9 * (3 * n + 9))) with ((q + 1) * (C * T * (k + 1) * (3 * N + 9 * (3 * n + 9)))) in H5 by ring.
  assert (H6 : 0 <= k ^ 2 <= 2 ^ 20 * 2 ^ 20) by (rewrite Z.pow_2_r; apply M; lia).
  pose proof (M _ _ _ _ H6 H2) as H7.
  assert (H8 : 0 <= 4 * N + 7 * (3 * n + 6) + k ^ 2 * (3 * N + 9 * (3 * n + 9)) <= 132458 + 2 ^ 20 * 2 ^ 20 * 100113) by lia.
  pose proof (M _ _ _ _ H9 H8) as H10.
  assert (H11 : 0 <= N + (1 + n + n * (N + 2)) <= 32768 + (1 + 64 + 64 * 32770)) by lia. pose proof (M _ _ _ _ H0 H11) as H12.
  etransitivity; [apply Z.mul_le_mono_nonneg_r; [discriminate|]|].
  - instantiate (1 := 2 ^ 64 * (32768 + (1 + 64 + 64 * 32770)) + 4 * 2 ^ 64 * (2 ^ 20 + 1) * 100113 + (2 ^ 65 + 2) * (132458 + 2 ^ 20 * 2 ^ 20 * 100113)). lia.
  - vm_compute. discriminate.
Qed.
(* With at most 2^20 pairs of messages and (q + 1) (t + 2q) <= 2^64 -- for example 2^30 submissions and 2^33 tests -- the advantage is at most 2^-128. *)
Theorem C85_bls_shares_reveal_no_messages (E : pairing) (gens : encryption_gens E) (pf : profile) (fuel : nat) (b : Z) (before after : list (list (Fr E)))
    (G H : rng_impl E) (st : rng_st G) (sh : rng_st H) (t q k : nat) (A : insider E bool) (All : list (list (Fr E))) :
  bls12_381 E -> supported b -> eg_G gens <> gzero -> eg_H gens <> gzero ->
  let n := bls_chunks b in
  Forall (fun tape => length tape = (2 * n + 1)%nat) before -> Forall (fun tape => length tape = (2 * n + 1)%nat) after ->
  ilimited t q k A -> (Z.of_nat q + 1) * (Z.of_nat t + 2 * Z.of_nat q) <= 2 ^ 64 -> Z.of_nat k <= 2 ^ 20 ->
  NoDup All -> (forall coins, In coins All <-> length coins = (2 * n + 6 + 3 * k)%nat) ->
  let says_yes second coins := match insider_experiment pf (bls_backend pf fuel) G H gens b before after second A st sh coins with Some g => g | None => false end in
  let yes second := Z.of_nat (length (filter (says_yes second) All)) in
  Z.abs (yes false - yes true) * 2 ^ 128 <= Z.of_nat (length All).
Proof.
  intros HE Hb HG HH. params HE Hb. cbv zeta. intros Hbef Haft Hlim Ht Hk Hnd Hall. pose proof (proj1 HE) as Hp.
  assert (Hbound := C85_shares_reveal_no_messages E gens pf bls_domain fuel (bls_chunks b) k b cs xs before after All HG HH Hdom Hb HbM Hc1 Hc2 Hcount Hn0 Hcs Hxs Hbef Haft Hnd Hall G H st sh t q A Hlim).
  cbv zeta in Hbound. rewrite Hp in Hbound.
  assert (Hf : forall second, filter (fun coins => match insider_experiment pf (bls_backend pf fuel) G H gens b before after second A st sh coins with Some g => g | None => false end) All =
    filter (fun coins => match insider_experiment pf (ark_backend pf bls_domain fuel) G H gens b before after second A st sh coins with Some g => g | None => false end) All).
  { intros second. apply filter_ext. intros coins. unfold insider_experiment, bls_backend. rewrite (coset_insider_run bls_generator pf bls_domain fuel b Hdom Hg0 Hgrp Hb Hbits). reflexivity. }
  cbv beta. rewrite !Hf. eapply margin; [exact Hbound| |lia|reflexivity|discriminate].
  clear - Ht Hk HN Hn64 Hb16. set (Q := Z.of_nat q) in *. assert (HQ : 0 <= Q) by (unfold Q; lia). assert (HT : 2 * Q <= Z.of_nat t + 2 * Q) by lia. set (T := Z.of_nat t + 2 * Q) in *. assert (Hk0 : 0 <= Z.of_nat k) by lia. clearbody Q T.
  assert (HD : 0 <= 2 * Q * (Q + 2) <= 2 * (Q + 1) * (Q + 1)) by (split; [apply Z.mul_nonneg_nonneg; lia|]; replace (2 * (Q + 1) * (Q + 1)) with (2 * Q * (Q + 2) + 2) by ring; lia).
  apply insider_budget; try assumption; try (split; assumption); try (split; discriminate). clear - HQ. lia.
Qed.
Theorem C85_bls_shares_do_not_help_to_forge (E : pairing) (gens : encryption_gens E) (pf : profile) (fuel : nat) (b : Z) (before after : list (list (Fr E)))
    (G H : rng_impl E) (st : rng_st G) (sh : rng_st H) (t q k : nat) (second : bool) (A : insider E (strategy E)) (L : list (list (Fr E))) :
  bls12_381 E -> supported b -> eg_G gens <> gzero -> eg_H gens <> gzero ->
  let n := bls_chunks b in
  Forall (fun tape => length tape = (2 * n + 1)%nat) before -> Forall (fun tape => length tape = (2 * n + 1)%nat) after ->
  ilimited t q k A -> (Z.of_nat q + 1) * (Z.of_nat t + 2 * Z.of_nat q) <= 2 ^ 64 -> Z.of_nat k <= 2 ^ 20 -> NoDup L ->
  (forall coins, In coins L -> length coins = (2 * n + 6 + 3 * k)%nat /\ exists keys S cps seen,
     insider_run pf (bls_backend pf fuel) G H gens b before after second A st sh coins = Some (keys, (S, cps, seen)) /\
     let T1 := dkg_g1 gens (public_run keys cps) ++ seen in let T2 := dkg_g2 gens (public_run keys cps) in
     let ct := ciphertext_from S T1 in let q := proof_from S T1 T2 in
     verify_commitment_and_proof ct q (prepare_verifying_key (gpk_vk (pk_pk (kg_pk keys)))) (prepare_ek (kg_ek keys)) (prepare_gens gens) = Ok tt /\
     ~ (exists g_i ds r, get_gs_for_encryption (gpk_vk (pk_pk (kg_pk keys))) = Ok g_i /\ digits_ok b ds /\ encrypts (kg_ek keys) g_i ds (ct_vec ct) r) /\
     ~ (exists ct0 q0 r, In (ct0, q0) cps /\ ct = rerandomized (kg_ek keys) r ct0 /\ exists kappa, kappa <> fzero /\ pr_a q = kappa [*] pr_a q0)) ->
  Z.of_nat (length L) * 2 ^ 128 <= modulus (K_of E) ^ Z.of_nat (2 * n + 6 + 3 * k).
Proof.
  intros HE Hb HG HH. params HE Hb. cbv zeta. intros Hbef Haft Hlim Ht Hk Hnd HL. pose proof (proj1 HE) as Hp.
  assert (Hbound := C85_shares_do_not_help_to_forge E gens pf bls_domain fuel (bls_chunks b) b cs xs before after G H st sh t q k second A L HG HH Hdom Hb HbM Hc1 Hc2 Hcount Hn0 Hcs Hxs Hbef Haft Hlim Hnd).
  cbv zeta in Hbound. rewrite Hp in Hbound |- *. eapply margin; [apply Hbound| |apply Z.pow_nonneg; discriminate|reflexivity|discriminate].
  - intros coins Hin. destruct (HL coins Hin) as (Hl & keys & S & cps & seen & Hrun & Hrest). split; [exact Hl|]. exists keys, S, cps, seen. split; [|exact Hrest].
    unfold bls_backend in Hrun. rewrite (coset_insider_run bls_generator pf bls_domain fuel b Hdom Hg0 Hgrp Hb Hbits) in Hrun. exact Hrun.
  - set (Q := Z.of_nat q) in *. set (N := Z.of_nat (length xs)) in *. set (n := Z.of_nat (bls_chunks b)) in *. set (T := Z.of_nat t + 2 * Q) in *. set (k' := Z.of_nat k) in *.
    match goal with |- ?x * _ <= _ => replace x with ((Q + 2) * (N + (1 + n + n * (N + 2))) + (Q + 1) * (3 * T * (k' + 1) * (3 * N + 9 * (3 * n + 9))) + ((Q + 1) * (Q + 1)) * (4 * N + 7 * (3 * n + 6) + k' ^ 2 * (3 * N + 9 * (3 * n + 9)))) by ring end.
    clear - Ht Hk HN Hn64 Hb16. assert (HQ : 0 <= Q) by (unfold Q; lia). assert (HT : 2 * Q <= T) by (unfold T; lia). assert (Hk0 : 0 <= k') by (unfold k'; lia). clearbody Q T k'.
    assert (HD : 0 <= (Q + 1) * (Q + 1) <= 2 * (Q + 1) * (Q + 1)) by (assert (0 <= (Q + 1) * (Q + 1)) by (apply Z.mul_nonneg_nonneg; lia); rewrite <- Z.mul_assoc; lia).
    apply insider_budget; try assumption; try (split; assumption); try (split; discriminate). clear - HQ. lia.
Qed.

(* ---------- cases ---------- *)
(* On the 61-bit group of the examples: with up to 1000 pairs of messages, 1000 tests and 10 submissions the numbers of coins on which the coalition
   says yes differ by less than 2^-16 of all coins. *)
Example C85_case (pf : profile) (before after : list (list (Fr E61))) (G H : rng_impl E61) (st : rng_st G) (sh : rng_st H) (t q : nat) (A : insider E61 bool) (All : list (list (Fr E61))) :
  Forall (fun tape => length tape = (2 * 4 + 1)%nat) before -> Forall (fun tape => length tape = (2 * 4 + 1)%nat) after ->
  (t <= 1000)%nat -> (q <= 10)%nat -> ilimited t q 1000 A ->
  NoDup All -> (forall coins, In coins All <-> length coins = (2 * 4 + 6 + 3 * 1000)%nat) ->
  let says_yes second coins := match insider_experiment pf (ark_backend pf y_domain 3) G H x_gens 16 before after second A st sh coins with Some g => g | None => false end in
  let yes second := Z.of_nat (length (filter (says_yes second) All)) in
  Z.abs (yes false - yes true) * 2 ^ 16 <= Z.of_nat (length All).
Proof.
  intros Hbef Haft Ht Hq W Hnd HA says_yes yes. destruct z_cs as (cs & Hcs & Hd). destruct y_conditions as (C1 & C2 & C3 & C4).
  assert (HG : eg_G x_gens <> gzero) by (intros Z; apply (f_equal sval) in Z; vm_compute in Z; discriminate Z). assert (H4 : (0 < 4)%nat) by lia.
  pose proof (C85_shares_reveal_no_messages E61 x_gens pf y_domain 3 4 1000 16 cs y_xs before after All HG x_H y_domain_ok C1 C2 C3 C4 y_count H4 Hcs Hd Hbef Haft Hnd HA G H st sh t q A W) as B.
  cbv zeta in B. fold (says_yes false) (says_yes true) in B. fold (yes false) (yes true) in B.
  assert (Ly : Z.of_nat (length y_xs) <= 2 ^ 12) by (unfold y_xs, y_points; rewrite map_length, seq_length; unfold y_N; lia).
  change (modulus (K_of E61)) with (2 ^ 61 - 1) in B. set (d := Z.abs _) in *. assert (Hd0 : 0 <= d) by apply Z.abs_nonneg. set (T := Z.of_nat (length All)) in *. assert (HT0 : 0 <= T) by (unfold T; lia).
  set (N := Z.of_nat (length y_xs)) in *. assert (HN0 : 0 <= N) by (unfold N; lia). replace (Z.of_nat 1000) with 1000 in B by lia. replace (Z.of_nat 4) with 4 in B by lia.
  assert (Ht' : 0 <= Z.of_nat t + 2 * Z.of_nat q <= 1020) by lia. assert (Hq' : 0 <= Z.of_nat q <= 10) by lia. set (u := Z.of_nat t + 2 * Z.of_nat q) in *. set (v := Z.of_nat q) in *. clearbody d T N u v. clear - B Hd0 HT0 HN0 Ly Ht' Hq'.
  assert (D3 : 0 <= 4 * u * (1000 + 1) * (3 * N + 9 * (3 * 4 + 9)) <= 4 * 1020 * 1001 * (3 * 2 ^ 12 + 189)) by (split; [repeat apply Z.mul_nonneg_nonneg; lia|apply Z.mul_le_mono_nonneg; lia]).
  set (z := 4 * u * (1000 + 1) * (3 * N + 9 * (3 * 4 + 9))) in *. clearbody z.
  assert (D5 : (v + 1) * z <= 11 * (4 * 1020 * 1001 * (3 * 2 ^ 12 + 189))) by (apply Z.mul_le_mono_nonneg; lia).
  set (f := 4 * N + _ + _) in B. assert (Hf : 0 <= f <= 2 ^ 34) by (unfold f; lia). clearbody f.
  assert (D6 : 0 <= 2 * v * (v + 2) <= 2 * 10 * 12) by (split; [repeat apply Z.mul_nonneg_nonneg; lia|apply Z.mul_le_mono_nonneg; lia]).
  assert (D4 : 2 * v * (v + 2) * f <= 2 * 10 * 12 * 2 ^ 34) by (apply Z.mul_le_mono_nonneg; lia).
  assert (D7 : (2 * v + 3) * (N + (1 + 4 + 4 * (N + 2))) <= 23 * (2 ^ 12 + (1 + 4 + 4 * (2 ^ 12 + 2)))) by (apply Z.mul_le_mono_nonneg; lia).
  set (s := _ + _ + _) in B. assert (Hs : s <= 2 ^ 44 - 1) by (unfold s; lia). clearbody s.
  assert (d * (2 ^ 61 - 1) <= (2 ^ 44 - 1) * T) by (etransitivity; [exact B|apply Z.mul_le_mono_nonneg_r; lia]). lia.
Qed.
(* Coins on which a key generation with three parties works and the game with any coalition that sees shares comes to an end. *)
Example C85_game_case (pf : profile) (G H : rng_impl E61) (st : rng_st G) (sh : rng_st H) (R : Type) (A : insider E61 R) t q second : ilimited t q 1 A ->
  insider_experiment pf (ark_backend pf y_domain 3) G H x_gens 16 [map nz61 [2; 3; 4; 5; 6; 7; 8; 9; 10]] [map nz61 [12; 13; 14; 15; 16; 17; 18; 19; 20]] second A st sh u_coins <> None.
Proof.
  intros W. destruct z_cs as (cs & Hcs & Hd). destruct y_conditions as (C1 & C2 & C3 & C4). assert (H4 : (0 < 4)%nat) by lia. assert (H3 : (0 < 3)%nat) by lia.
  assert (HG : eg_G x_gens <> gzero) by (intros Z; apply (f_equal sval) in Z; vm_compute in Z; discriminate Z).
  assert (Hbef : Forall (fun tape : list (Fr E61) => length tape = (2 * 4 + 1)%nat) [map nz61 [2; 3; 4; 5; 6; 7; 8; 9; 10]]) by (constructor; [reflexivity|constructor]).
  assert (Haft : Forall (fun tape : list (Fr E61) => length tape = (2 * 4 + 1)%nat) [map nz61 [12; 13; 14; 15; 16; 17; 18; 19; 20]]) by (constructor; [reflexivity|constructor]).
  destruct (C85_game_ends E61 R x_gens pf y_domain 3 4 16 cs y_xs _ _ G H st sh t q 1 second A u_coins HG x_H y_domain_ok C1 C2 C3 C4 y_count H4 H3 Hcs Hd Hbef Haft W eq_refl z_gamma z_delta z_in)
    as (keys & rest & ho & part & r & cps & seen & ms & st' & op & _ & _ & X & _).
  rewrite X. discriminate.
Qed.
