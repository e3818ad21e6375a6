(* PropBls.v -- C83: the bounds and the end-to-end theorems at the parameters of /repo's tests: BLS12-381, chunks of 4, 8 and 16 bits, the library's
   domains and its computation of the quotient *)
From Verif Require Import Base BaseFacts Algebra Utils UtilsFacts Setup Keygen Encryption Circuit CircuitFacts CircuitSat CommitmentFacts VecFacts KeygenFacts EncryptFacts Spec KeySpec
  Protocol Groth16 ArkGroth16 PolyFacts Groth16Spec Groth16Facts ArkFacts SchwartzZippel ArkCoset PropGroth16 PropWrongValues PropCircuit SoundSpec SoundDkgSpec PrivacySpec PrivacyDkgSpec
  CcaSpec RccaSpec RccaDkgSpec NonmalSpec SoundAdaptSpec PropSoundAdapt PropCca PropRcca PropRccaDkg PropUtils Instance Examples Radix2 CosetGame.

(* The library's domains over this field: for every number of coefficients up to 2^32 a multiplicative group of the smallest sufficient power of two,
   without the generator 7 of the coset; none beyond. *)
Theorem C83_domains_of_the_library (E : pairing) (n : nat) : modulus (K_of E) = bls_r ->
  (Z.of_nat n <= 2 ^ 32 -> exists xs k, @bls_domain (K_of E) n = Some xs /\ Z.of_nat (length xs) = 2 ^ k /\ 0 <= k <= 32 /\ (n <= length xs)%nat /\
     ((1 <= n)%nat -> (length xs < 2 * n)%nat) /\ mult_group xs /\ ~ In bls_generator xs) /\
  (2 ^ 32 < Z.of_nat n -> @bls_domain (K_of E) n = None).
Proof.
  intros HE. assert (Hpow : forall k, Z.of_nat (2 ^ k) = 2 ^ Z.of_nat k) by (intros k; rewrite Nat2Z.inj_pow; reflexivity). split.
  - intros Hn. assert (Hk : (Nat.log2_up n <= 32)%nat).
    { apply Nat2Z.inj_le. destruct (le_lt_dec (Nat.log2_up n) 32) as [H|H]; [lia|exfalso].
      destruct n as [|[|n]]; [cbn in H; lia|cbn in H; lia|]. pose proof (Nat.log2_up_spec (S (S n)) ltac:(lia)) as [Hs _].
      assert (Hm : 2 ^ 32 <= 2 ^ Z.of_nat (pred (Nat.log2_up (S (S n))))) by (apply Z.pow_le_mono_r; lia). apply Nat2Z.inj_lt in Hs. rewrite Hpow in Hs. lia. }
    destruct (@bls_domain (K_of E) n) as [xs|] eqn:Hd.
    + destruct (radix2_spec _ _ _ _ (bls_root_ok HE) Hd) as (Hl & _ & Hg & _). exists xs, (Z.of_nat (Nat.log2_up n)). split; [reflexivity|]. split; [rewrite Hl; apply Hpow|]. split; [lia|].
      split; [rewrite Hl; apply radix2_covers|]. split; [|split; [exact Hg|exact (bls_generator_outside HE n xs Hd)]].
      intros H1. rewrite Hl. destruct n as [|[|n]]; [lia|cbn; lia|]. pose proof (Nat.log2_up_spec (S (S n)) ltac:(lia)) as [Hs _].
      assert (H2 : (0 < Nat.log2_up (S (S n)))%nat) by (apply Nat.log2_up_pos; lia).
      replace (Nat.log2_up (S (S n))) with (S (pred (Nat.log2_up (S (S n))))) by lia. rewrite Nat.pow_succ_r'. lia.
    + exfalso. unfold bls_domain, radix2_domain in Hd. destruct (Nat.ltb_spec 32 (Nat.log2_up n)); [lia|discriminate].
  - intros Hn. unfold bls_domain, radix2_domain. destruct (Nat.ltb_spec 32 (Nat.log2_up n)) as [H|H]; [reflexivity|exfalso].
    pose proof (radix2_covers n) as Hc. apply Nat2Z.inj_le in Hc. rewrite Hpow in Hc.
    assert (2 ^ Z.of_nat (Nat.log2_up n) <= 2 ^ 32) by (apply Z.pow_le_mono_r; lia). lia.
Qed.
(* ark-groth16 over this field is a correct Groth16 backend (Groth16Spec.backend_correct), in both build profiles. *)
Theorem C83_backend_correct (E : pairing) (pf : profile) (fuel : nat) : modulus (K_of E) = bls_r -> backend_correct (@bls_backend E pf fuel).
Proof.
  intros HE. apply C75_coset_backend_correct; [exact (radix2_ok _ _ (bls_root_ok HE))|exact (bls_generator_nonzero HE)|].
  intros n xs Hd. destruct (radix2_spec _ _ _ _ (bls_root_ok HE) Hd) as (_ & _ & Hg & _). split; [exact Hg|exact (bls_generator_outside HE n xs Hd)].
Qed.

(* 64, 32 or 16 chunks; circuits of 32513, 16129 or 7937 rows and domains of 32768, 16384 or 8192 points *)
Definition bls_chunks (b : Z) : nat := Z.to_nat (256 / b).
Theorem C83_sizes (E : pairing) (b : Z) : bls12_381 E -> supported b ->
  chunks_count (K_of E) b = Ok (256 / b) /\ Z.of_nat (bls_chunks b) = 256 / b /\
  exists cs xs, generate_constraints (BitsizeCheckCircuit b (256 / b) None true) (@cs_new (K_of E) Circuit.Setup) = Ok cs /\
    Z.of_nat (length (cs_cons cs) + cs_num_inst cs) = 256 / b * (512 - b) + 1 /\
    @bls_domain (K_of E) (length (cs_cons cs) + cs_num_inst cs) = Some xs /\ Z.of_nat (length xs) = 131072 / b.
Proof.
  intros [HE HL] Hb.
  assert (Hbits : modulus_bit_size (K_of E) = 255) by (unfold modulus_bit_size; rewrite HE; vm_compute; reflexivity).
  assert (Hcount : chunks_count (K_of E) b = Ok (256 / b)) by (unfold chunks_count; rewrite Hbits; destruct Hb as [->|[->| ->]]; reflexivity).
  split; [exact Hcount|]. split; [destruct Hb as [->|[->| ->]]; reflexivity|].
  destruct (C38_circuit_shape (K_of E) b (256 / b) ltac:(rewrite Hbits; destruct Hb as [->|[->| ->]]; lia) Hcount) as (c & cs & Hc & Hs & Hi & Hlen).
  unfold circuit_new in Hc. rewrite Hcount in Hc. cbn [bind] in Hc. injection Hc as <-. exists cs. rewrite Hbits in Hlen.
  assert (Hrows : Z.of_nat (length (cs_cons cs) + cs_num_inst cs) = 256 / b * (512 - b) + 1) by (rewrite Nat2Z.inj_add, Hlen, Hi; ring).
  destruct (proj1 (C83_domains_of_the_library E (length (cs_cons cs) + cs_num_inst cs) HE)) as (xs & k & Hd & Hx & Hk & Hge & Hlt & _).
  { rewrite Hrows. destruct Hb as [->|[->| ->]]; discriminate. }
  exists xs. split; [exact Hs|]. split; [exact Hrows|]. split; [exact Hd|]. set (rows := (length (cs_cons cs) + cs_num_inst cs)%nat) in *. clearbody rows.
  assert (H1 : 256 / b * (512 - b) + 1 <= 2 ^ k < 2 * (256 / b * (512 - b) + 1)).
  { rewrite <- Hrows, <- Hx. assert (Hrow1 : (1 <= rows)%nat) by (destruct rows; [exfalso; destruct Hb as [->|[->| ->]]; discriminate Hrows|lia]). specialize (Hlt Hrow1). lia. }
  rewrite Hx. assert (Hk' : k = Z.log2_up (256 / b * (512 - b) + 1)).
  { symmetry. apply Z.log2_up_unique; [destruct (Z.eq_dec k 0) as [->|]; [exfalso; destruct Hb as [->|[->| ->]]; apply (proj1 H1); reflexivity|lia]|]. split; [|lia].
    destruct (Z.eq_dec k 0) as [->|Hk0]; [exfalso; destruct Hb as [->|[->| ->]]; apply (proj1 H1); reflexivity|].
    replace k with (Z.succ (Z.pred k)) in H1 by lia. rewrite Z.pow_succ_r in H1 by lia. lia. }
  rewrite Hk'. destruct Hb as [->|[->| ->]]; vm_compute; reflexivity.
Qed.

(* everything the theorems about games ask of the parameters *)
Lemma bls_params (E : pairing) (b : Z) : bls12_381 E -> supported b ->
  domain_ok (@bls_domain (K_of E)) /\ bls_generator <> @fzero (K_of E) /\ (forall n xs, @bls_domain (K_of E) n = Some xs -> mult_group xs /\ ~ In bls_generator xs) /\
  b <= modulus_bit_size (K_of E) /\ b < modulus_bit_size (K_of E) /\ 2 ^ b <= modulus (K_of E) /\
  64 * Z.of_nat (limbs (K_of E)) - b < modulus_bit_size (K_of E) /\ 64 * Z.of_nat (limbs (K_of E)) < 256 * b /\ 0 < b <= 16 /\
  chunks_count (K_of E) b = Ok (Z.of_nat (bls_chunks b)) /\ (0 < bls_chunks b)%nat /\ 16 <= Z.of_nat (bls_chunks b) <= 64 /\
  exists cs xs, generate_constraints (BitsizeCheckCircuit b (Z.of_nat (bls_chunks b)) None true) (@cs_new (K_of E) Circuit.Setup) = Ok cs /\
    @bls_domain (K_of E) (length (cs_cons cs) + cs_num_inst cs) = Some xs /\ 0 <= Z.of_nat (length xs) <= 32768.
Proof.
  intros HE Hb. pose proof (C83_sizes E b HE Hb) as (Hc & Hn & cs & xs & Hs & _ & Hd & Hx). destruct HE as [HE HL].
  assert (Hbits : modulus_bit_size (K_of E) = 255) by (unfold modulus_bit_size; rewrite HE; vm_compute; reflexivity).
  split; [exact (radix2_ok _ _ (bls_root_ok HE))|]. split; [exact (bls_generator_nonzero HE)|]. split.
  { intros n ys Hy. destruct (radix2_spec _ _ _ _ (bls_root_ok HE) Hy) as (_ & _ & Hg & _). split; [exact Hg|exact (bls_generator_outside HE n ys Hy)]. }
  rewrite Hbits, HE, HL, Hn. change (Z.of_nat 4) with 4.
  split; [destruct Hb as [->|[->| ->]]; lia|]. split; [destruct Hb as [->|[->| ->]]; lia|]. split; [destruct Hb as [->|[->| ->]]; vm_compute; discriminate|].
  split; [destruct Hb as [->|[->| ->]]; lia|]. split; [destruct Hb as [->|[->| ->]]; lia|]. split; [destruct Hb as [->|[->| ->]]; lia|].
  split; [exact Hc|]. split; [apply Nat2Z.inj_lt; rewrite Hn; destruct Hb as [->|[->| ->]]; reflexivity|].
  split; [destruct Hb as [->|[->| ->]]; vm_compute; split; discriminate|].
  exists cs, xs. split; [exact Hs|]. split; [exact Hd|]. rewrite Hx. destruct Hb as [->|[->| ->]]; vm_compute; split; discriminate.
Qed.
Lemma margin (L p B M c : Z) : L * p <= B * M -> B * c <= p -> 0 <= M -> 0 < p -> 0 <= c -> L * c <= M.
Proof. intros H1 H2 H3 H4 H5. apply Z.mul_le_mono_pos_l with (p := p); [exact H4|]. nia. Qed.
Lemma game_budget (N n T q k C D : Z) : 0 <= N <= 32768 -> 16 <= n <= 64 -> 0 <= T <= 2 ^ 64 -> 0 <= q -> 2 * q <= T -> 0 <= k <= 2 ^ 20 -> 0 <= C <= 4 -> 0 <= D <= 2 * q + 1 ->
  (N + (1 + n + n * (N + 2)) + C * T * (k + 1) * (3 * N + 9 * (3 * n + 9)) + D * (4 * N + 7 * (3 * n + 6) + k ^ 2 * (3 * N + 9 * (3 * n + 9)))) * 2 ^ 128 <= bls_r.
Proof.
  intros HN Hn HT Hq HqT Hk HC HD.
  assert (M : forall a b x y, 0 <= a <= x -> 0 <= b <= y -> 0 <= a * b <= x * y) by (intros a b x y Ha Hb; split; [apply Z.mul_nonneg_nonneg; lia|apply Z.mul_le_mono_nonneg; lia]).
  assert (H1 : 0 <= n * (N + 2) <= 64 * 32770) by (apply M; lia).
  assert (H2 : 0 <= 3 * N + 9 * (3 * n + 9) <= 100113) by lia.
  assert (H3 : 0 <= C * T <= 4 * 2 ^ 64) by (apply M; lia).
  assert (H4 : 0 <= C * T * (k + 1) <= 4 * 2 ^ 64 * (2 ^ 20 + 1)) by (apply M; lia).
  pose proof (M _ _ _ _ H4 H2) as H5.
  assert (H6 : 0 <= k ^ 2 <= 2 ^ 20 * 2 ^ 20) by (rewrite Z.pow_2_r; apply M; lia).
  pose proof (M _ _ _ _ H6 H2) as H7.
  assert (H8 : 0 <= 4 * N + 7 * (3 * n + 6) + k ^ 2 * (3 * N + 9 * (3 * n + 9)) <= 132458 + 2 ^ 20 * 2 ^ 20 * 100113) by lia.
  assert (H9 : 0 <= D <= 2 ^ 64 + 1) by lia. pose proof (M _ _ _ _ H9 H8) as H10.
  etransitivity; [apply Z.mul_le_mono_nonneg_r; [discriminate|]|].
  - instantiate (1 := 32768 + (1 + 64 + 64 * 32770) + 4 * 2 ^ 64 * (2 ^ 20 + 1) * 100113 + (2 ^ 64 + 1) * (132458 + 2 ^ 20 * 2 ^ 20 * 100113)). lia.
  - vm_compute. discriminate.
Qed.
Lemma prover_budget (N n T : Z) : 0 <= N <= 32768 -> 16 <= n <= 64 -> 0 <= T <= 2 ^ 64 ->
  (T * (3 * N + 7 * (3 * n + 6)) + (4 * N + 7 * (3 * n + 6) + (1 + n + n * (N + 2)))) * 2 ^ 128 <= bls_r.
Proof.
  intros HN Hn HT.
  assert (M : forall a b x y, 0 <= a <= x -> 0 <= b <= y -> 0 <= a * b <= x * y) by (intros a b x y Ha Hb; split; [apply Z.mul_nonneg_nonneg; lia|apply Z.mul_le_mono_nonneg; lia]).
  assert (H1 : 0 <= n * (N + 2) <= 64 * 32770) by (apply M; lia).
  assert (H2 : 0 <= 3 * N + 7 * (3 * n + 6) <= 100113) by lia.
  pose proof (M _ _ _ _ HT H2) as H3.
  etransitivity; [apply Z.mul_le_mono_nonneg_r; [discriminate|]|].
  - instantiate (1 := 2 ^ 64 * 100113 + (132458 + (1 + 64 + 64 * 32770))). lia.
  - vm_compute. discriminate.
Qed.
Lemma setup_budget (N n : Z) : 0 <= N <= 32768 -> 16 <= n <= 64 -> (N + (2 + (1 + n + n * (N + 2)))) * 2 ^ 230 <= bls_r.
Proof.
  intros HN Hn. assert (H1 : n * (N + 2) <= 64 * 32770) by (apply Z.mul_le_mono_nonneg; lia).
  etransitivity; [apply Z.mul_le_mono_nonneg_r; [discriminate|]|].
  - instantiate (1 := 32768 + (2 + (1 + 64 + 64 * 32770))). lia.
  - vm_compute. discriminate.
Qed.

Ltac params HE Hb := destruct (bls_params _ _ HE Hb) as (Hdom & Hg0 & Hgrp & Hbits & Hbits' & HbM & Hc1 & Hc2 & Hb16 & Hcount & Hn0 & Hn64 & cs & xs & Hcs & Hxs & HN).
Ltac pos := let H := fresh in pose proof (eq_refl : 0 < bls_r) as H; lia.

(* All but 2^-230 of the setups give keys with which every message, for every state of the encryptor's generator, is encrypted with an accepted
   proof and decrypted to the message. *)
Theorem C83_almost_every_setup_works (E : pairing) (gens : encryption_gens E) (pf pf' : profile) (fuel : nat) (b : Z) (L : list (list (Fr E))) :
  bls12_381 E -> supported b -> eg_G gens <> gzero -> eg_H gens <> gzero -> (0 < fuel)%nat -> NoDup L ->
  let n := bls_chunks b in
  (forall coins, In coins L -> length coins = (3 * n + 7)%nat /\ ~ exists pk sk ek dk rest,
     setup_for_groth16 (bls_backend pf fuel) (replay_rng E) b gens coins = Ok (pk, sk, ek, dk, rest) /\
     forall (R : rng_impl E) (st : rng_st R) (m : Fr E), exists ct r p st' nu,
       encrypt_with_proof pf (bls_backend pf fuel) R m ek pk b st = Ok (ct, r, p, st') /\
       verify_commitment_and_proof ct p (prepare_verifying_key (gpk_vk (pk_pk pk))) (prepare_ek ek) (prepare_gens gens) = Ok tt /\
       ct_decrypt_given_groth16_vk pf' ct sk (prepare_dk dk) (gpk_vk (pk_pk pk)) b = Ok (m, nu)) ->
  Z.of_nat (length L) * 2 ^ 230 <= modulus (K_of E) ^ Z.of_nat (3 * n + 7).
Proof.
  intros HE Hb HG HH Hf Hnd. params HE Hb. cbv zeta. intros HL. pose proof (proj1 HE) as Hp.
  assert (Hbound := C77_setups_usually_work (E := E) (bls_chunks b) cs xs pf bls_domain fuel b gens Hdom Hb HbM Hcount Hn0 Hcs Hxs HG HH Hf 0 L Hnd).
  cbv zeta in Hbound. rewrite Nat.add_0_r in Hbound. rewrite Hp in Hbound |- *. eapply margin; [apply Hbound|apply setup_budget; assumption|apply Z.pow_nonneg; discriminate|reflexivity|discriminate].
  intros coins Hin. destruct (HL coins Hin) as [Hl Hbad]. split; [exact Hl|]. intros (_ & pk & sk & ek & dk & rest & g_i & Hset & Hgi & Hndg). apply Hbad.
  exists pk, sk, ek, dk, rest. split; [exact Hset|]. intros R st m.
  assert (Hgs : skipn 1 (vk_gamma_abc_g1 (gpk_vk (pk_pk pk))) = g_i).
  { unfold get_gs_for_encryption, slice_from in Hgi. destruct (Nat.leb 1 _); [|discriminate]. congruence. }
  destruct (C39_end_to_end pf pf' E (bls_backend pf fuel) (replay_rng E) R b gens coins pk sk ek dk rest m st) as (ct & r & p & st' & He & Hv & nu & Hd);
    [apply C83_backend_correct; exact Hp|exact Hb|exact HbM|exact Hc1|exact Hc2|exact Hset|rewrite Hgs; exact Hndg|].
  exists ct, r, p, st', nu. split; [exact He|]. split; [exact Hv|exact Hd].
Qed.

(* All but 2^-230 of the coins (of the SRS and of one honest party, whatever the other parties' tapes) lead to a key with which every message is
   encrypted with an accepted proof and delivered by the parties together to a destination. *)
Theorem C83_almost_every_key_generation_works (E : pairing) (gens : encryption_gens E) (pf pf' : profile) (fuel : nat) (b : Z) (before after : list (list (Fr E))) (L : list (list (Fr E))) :
  bls12_381 E -> supported b -> eg_G gens <> gzero -> eg_H gens <> gzero -> (0 < fuel)%nat ->
  let n := bls_chunks b in
  Forall (fun tape => length tape = (2 * n + 1)%nat) before -> Forall (fun tape => length tape = (2 * n + 1)%nat) after -> NoDup L ->
  (forall coins, In coins L -> length coins = (2 * n + 6)%nat /\ ~ exists keys rest,
     dkg_setup (bls_backend pf fuel) gens b before after coins = Ok (keys, rest) /\
     forall (R G : rng_impl E) (st : rng_st R) (st1 : rng_st G) (m : Fr E), exists ct r p st' g_i ds st1',
       encrypt_with_proof pf (bls_backend pf fuel) R m (kg_ek keys) (kg_pk keys) b st = Ok (ct, r, p, st') /\
       verify_commitment_and_proof ct p (prepare_verifying_key (gpk_vk (pk_pk (kg_pk keys)))) (prepare_ek (kg_ek keys)) (prepare_gens gens) = Ok tt /\
       get_gs_for_encryption (gpk_vk (pk_pk (kg_pk keys))) = Ok g_i /\
       decrypt_together pf G b gens g_i (map fst (kg_parties keys)) ct st1 = Ok (ds, st1') /\ compose pf' ds b = Ok m) ->
  Z.of_nat (length L) * 2 ^ 230 <= modulus (K_of E) ^ Z.of_nat (2 * n + 6).
Proof.
  intros HE Hb HG HH Hf. params HE Hb. cbv zeta. intros Hbef Haft Hnd HL. pose proof (proj1 HE) as Hp.
  assert (Hbound := C80_key_generations_usually_work (E := E) (bls_chunks b) cs xs pf bls_domain fuel b gens HG HH Hdom Hb HbM (conj Hc1 Hc2) Hcount Hn0 Hf Hcs Hxs before after Hbef Haft 0 L Hnd).
  cbv zeta in Hbound. rewrite Nat.add_0_r in Hbound. rewrite Hp in Hbound |- *. eapply margin; [apply Hbound|apply setup_budget; assumption|apply Z.pow_nonneg; discriminate|reflexivity|discriminate].
  intros coins Hin. destruct (HL coins Hin) as [Hl Hbad]. split; [exact Hl|]. intros (_ & _ & _ & keys & rest & g_i & Hset & Hgi & Hnz). apply Hbad.
  exists keys, rest. split; [exact Hset|]. intros R G st st1 m.
  destruct (C80_honest_ciphertexts pf (bls_backend pf fuel) G R b gens before after coins keys rest g_i m st1 st [] (C83_backend_correct E pf fuel Hp) Hb HbM Hc1 Hc2 Hset Hgi Hnz) as (ct & r & p & st2 & ds & He & Hds & Hserv & _).
  cbn [in_dec] in Hserv. unfold service_by_parties in Hserv.
  destruct (verify_commitment_and_proof ct p _ _ _) as [[]|err|] eqn:Hv; [|discriminate Hserv|discriminate Hserv]. rewrite Hgi in Hserv.
  destruct (decrypt_together pf G b gens g_i (map fst (kg_parties keys)) ct st1) as [[ch st1']|err|] eqn:Hd; [|discriminate Hserv|discriminate Hserv].
  unfold reply_for in Hserv. cbn in Hserv. assert (ch = ds) by congruence. subst ch.
  destruct (C01_decompose_compose_round_trip pf pf' (K_of E) m b Hb) as (ds' & Hds' & Hcomp). assert (ds' = ds) by congruence. subst ds'.
  exists ct, r, p, st2, g_i, ds, st1'. split; [exact He|]. split; [exact Hv|]. split; [exact Hgi|]. split; [exact Hd|exact Hcomp].
Qed.

(* 2^64 tests: an adaptive prover gets a ciphertext and proof accepted that does not decrypt to the chunks read off its linear combinations on at
   most 2^-128 of the setups. *)
Theorem C83_accepted_ciphertexts_decrypt (E : pairing) (gens : encryption_gens E) (pf : profile) (fuel : nat) (b : Z) (P : prover E) (L : list (list (Fr E))) :
  bls12_381 E -> supported b -> eg_G gens <> gzero -> eg_H gens <> gzero -> Z.of_nat (tests P) <= 2 ^ 64 -> NoDup L ->
  let n := bls_chunks b in
  (forall tape, In tape L -> length tape = (3 * n + 7)%nat /\ exists pk sk ek dk st',
     setup_for_groth16 (bls_backend pf fuel) (replay_rng E) b gens tape = Ok (pk, sk, ek, dk, st') /\
     let S := play P (public_g1 gens pk ek) (public_g2 gens pk ek dk) in
     verify_commitment_and_proof (forge_ciphertext S gens pk ek) (forge_proof S gens pk ek dk)
       (prepare_verifying_key (gpk_vk (pk_pk pk))) (prepare_ek ek) (prepare_gens gens) = Ok tt /\
     ~ (exists g_i, get_gs_for_encryption (gpk_vk (pk_pk pk)) = Ok g_i /\ let ct := forge_ciphertext S gens pk ek in
        decrypt_to_chunks pf (ct_X_r ct) (ct_enc_chunks ct) sk (prepare_dk dk) g_i b = Ok (extracted_chunks n S, sk [*] ct_X_r ct))) ->
  Z.of_nat (length L) * 2 ^ 128 <= modulus (K_of E) ^ Z.of_nat (3 * n + 7).
Proof.
  intros HE Hb HG HH Ht Hnd. params HE Hb. cbv zeta. intros HL. pose proof (proj1 HE) as Hp.
  assert (Hbound := C68_adaptive_provers_ciphertexts_decrypt E gens pf bls_domain fuel (bls_chunks b) b cs xs P L HG HH Hdom Hb16 Hbits' Hcount Hn0 Hcs Hxs Hnd HL).
  rewrite Hp in Hbound |- *. eapply margin; [exact Hbound|apply prover_budget; try assumption; lia|apply Z.pow_nonneg; discriminate|reflexivity|discriminate].
Qed.

(* A budget of 2^64 tests and submissions and 2^20 chosen messages, against the key holder of setup_for_groth16: the numbers of coins on which the
   attacker says yes in the two worlds differ by at most 2^-128 of all coins. *)
Theorem C83_chosen_messages_stay_secret (E : pairing) (gens : encryption_gens E) (pf : profile) (fuel : nat) (b : Z) (t q k : nat) (A : adversary E bool) (All : list (list (Fr E))) :
  bls12_381 E -> supported b -> eg_G gens <> gzero -> eg_H gens <> gzero ->
  limited t q k A -> Z.of_nat t + 2 * Z.of_nat q <= 2 ^ 64 -> Z.of_nat k <= 2 ^ 20 ->
  NoDup All -> (forall coins, In coins All <-> length coins = (3 * bls_chunks b + 7 + 3 * k)%nat) ->
  let says_yes second coins := match experiment_rcca pf (bls_backend pf fuel) gens b second A coins with Some g => g | None => false end in
  let yes second := Z.of_nat (length (filter (says_yes second) All)) in
  Z.abs (yes false - yes true) * 2 ^ 128 <= Z.of_nat (length All).
Proof.
  intros HE Hb HG HH Hlim Ht Hk Hnd Hall. params HE Hb. cbv zeta. pose proof (proj1 HE) as Hp.
  assert (Hbound := C78_adaptively_chosen_messages_stay_secret E gens pf bls_domain fuel (bls_chunks b) k b cs xs All HG HH Hdom Hb HbM Hc1 Hc2 Hcount Hn0 Hcs Hxs Hnd Hall t q A Hlim).
  cbv zeta in Hbound. rewrite Hp in Hbound.
  assert (Hf : forall second, filter (fun coins => match experiment_rcca pf (bls_backend pf fuel) gens b second A coins with Some g => g | None => false end) All =
    filter (fun coins => match experiment_rcca pf (ark_backend pf bls_domain fuel) gens b second A coins with Some g => g | None => false end) All).
  { intros second. apply filter_ext. intros coins. unfold bls_backend. rewrite (coset_experiment bls_generator pf bls_domain fuel b Hdom Hg0 Hgrp Hb Hbits). reflexivity. }
  cbv beta. rewrite !Hf. eapply margin; [exact Hbound|apply game_budget with (q := Z.of_nat q); try assumption; lia|lia|reflexivity|discriminate].
Qed.
Theorem C83_no_forgery_after_chosen_messages (E : pairing) (gens : encryption_gens E) (pf : profile) (fuel : nat) (b : Z) (t q k : nat) (second : bool)
    (A : adversary E (strategy E)) (L : list (list (Fr E))) :
  bls12_381 E -> supported b -> eg_G gens <> gzero -> eg_H gens <> gzero ->
  limited t q k A -> Z.of_nat t + 2 * Z.of_nat q <= 2 ^ 64 -> Z.of_nat k <= 2 ^ 20 -> NoDup L ->
  let n := bls_chunks b in
  (forall coins, In coins L -> length coins = (3 * n + 7 + 3 * k)%nat /\ exists pk sk ek dk rest S cps,
     setup_for_groth16 (bls_backend pf fuel) (replay_rng E) b gens coins = Ok (pk, sk, ek, dk, rest) /\
     duel pf (bls_backend pf fuel) gens b pk sk ek dk second A [] [] rest = Some (S, cps) /\
     let ct := ciphertext_from S (table_g1 gens pk ek cps) in
     let q := proof_from S (table_g1 gens pk ek cps) (table_g2 gens pk ek dk cps) in
     verify_commitment_and_proof ct q (prepare_verifying_key (gpk_vk (pk_pk pk))) (prepare_ek ek) (prepare_gens gens) = Ok tt /\
     ~ (digits_ok b (extracted_chunks n S) /\ exists g_i, get_gs_for_encryption (gpk_vk (pk_pk pk)) = Ok g_i /\
        encrypts ek g_i (extracted_chunks n S) (ct_vec ct) (extracted_r n S)) /\
     ~ (exists ct0 q0, In (ct0, q0) cps /\ ct = rerandomized ek (extracted_r n S) ct0 /\ exists kappa, kappa <> fzero /\ pr_a q = kappa [*] pr_a q0)) ->
  Z.of_nat (length L) * 2 ^ 128 <= modulus (K_of E) ^ Z.of_nat (3 * n + 7 + 3 * k).
Proof.
  intros HE Hb HG HH Hlim Ht Hk Hnd. params HE Hb. cbv zeta. intros HL. pose proof (proj1 HE) as Hp.
  assert (Hbound := C78_chosen_messages_do_not_help_to_forge E gens pf bls_domain fuel (bls_chunks b) b cs xs t q k second A L HG HH Hdom Hb HbM Hc1 Hc2 Hcount Hn0 Hcs Hxs Hlim Hnd).
  cbv zeta in Hbound. rewrite Hp in Hbound |- *. eapply margin; [apply Hbound|apply game_budget with (q := Z.of_nat q); try assumption; lia|apply Z.pow_nonneg; discriminate|reflexivity|discriminate].
  intros coins Hin. destruct (HL coins Hin) as (Hl & pk & sk & ek & dk & rest & S & cps & Hset & Hduel & Hrest). split; [exact Hl|].
  exists pk, sk, ek, dk, rest, S, cps. split; [exact Hset|]. split; [|exact Hrest].
  unfold bls_backend in Hduel. rewrite (coset_duel bls_generator pf bls_domain fuel b Hdom Hg0 Hgrp Hb Hbits) in Hduel. exact Hduel.
Qed.

(* The same against all parties but one of the distributed key generation, any number of them, whose decryptions are made by the parties together. *)
Theorem C83_coalitions_learn_no_chosen_messages (E : pairing) (gens : encryption_gens E) (pf : profile) (fuel : nat) (b : Z) (before after : list (list (Fr E)))
    (G : rng_impl E) (st : rng_st G) (t q k : nat) (A : adversary E bool) (All : list (list (Fr E))) :
  bls12_381 E -> supported b -> eg_G gens <> gzero -> eg_H gens <> gzero ->
  let n := bls_chunks b in
  Forall (fun tape => length tape = (2 * n + 1)%nat) before -> Forall (fun tape => length tape = (2 * n + 1)%nat) after ->
  limited t q k A -> Z.of_nat t + 2 * Z.of_nat q <= 2 ^ 64 -> Z.of_nat k <= 2 ^ 20 ->
  NoDup All -> (forall coins, In coins All <-> length coins = (2 * n + 6 + 3 * k)%nat) ->
  let says_yes second coins := match experiment_rcca_dkg pf (bls_backend pf fuel) G gens b before after second A st coins with Some g => g | None => false end in
  let yes second := Z.of_nat (length (filter (says_yes second) All)) in
  Z.abs (yes false - yes true) * 2 ^ 128 <= Z.of_nat (length All).
Proof.
  intros HE Hb HG HH. params HE Hb. cbv zeta. intros Hbef Haft Hlim Ht Hk Hnd Hall. pose proof (proj1 HE) as Hp.
  assert (Hbound := C80_adaptively_chosen_messages_stay_secret E gens pf bls_domain fuel (bls_chunks b) k b cs xs before after All HG HH Hdom Hb HbM Hc1 Hc2 Hcount Hn0 Hcs Hxs Hbef Haft Hnd Hall G st t q A Hlim).
  cbv zeta in Hbound. rewrite Hp in Hbound.
  assert (Hf : forall second, filter (fun coins => match experiment_rcca_dkg pf (bls_backend pf fuel) G gens b before after second A st coins with Some g => g | None => false end) All =
    filter (fun coins => match experiment_rcca_dkg pf (ark_backend pf bls_domain fuel) G gens b before after second A st coins with Some g => g | None => false end) All).
  { intros second. apply filter_ext. intros coins. unfold bls_backend. rewrite (coset_experiment_dkg bls_generator pf bls_domain fuel b Hdom Hg0 Hgrp Hb Hbits). reflexivity. }
  cbv beta. rewrite !Hf. eapply margin; [exact Hbound|apply game_budget with (q := Z.of_nat q); try assumption; lia|lia|reflexivity|discriminate].
Qed.
Theorem C83_coalitions_cannot_forge (E : pairing) (gens : encryption_gens E) (pf : profile) (fuel : nat) (b : Z) (before after : list (list (Fr E)))
    (G : rng_impl E) (st : rng_st G) (t q k : nat) (second : bool) (A : adversary E (strategy E)) (L : list (list (Fr E))) :
  bls12_381 E -> supported b -> eg_G gens <> gzero -> eg_H gens <> gzero ->
  let n := bls_chunks b in
  Forall (fun tape => length tape = (2 * n + 1)%nat) before -> Forall (fun tape => length tape = (2 * n + 1)%nat) after ->
  limited t q k A -> Z.of_nat t + 2 * Z.of_nat q <= 2 ^ 64 -> Z.of_nat k <= 2 ^ 20 -> NoDup L ->
  let nb := length before in let parties := (length before + 1 + length after)%nat in
  (forall coins, In coins L -> length coins = (2 * n + 6 + 3 * k)%nat /\ exists keys rest S cps,
     dkg_setup (bls_backend pf fuel) gens b before after coins = Ok (keys, rest) /\
     dkg_duel pf (bls_backend pf fuel) G gens b keys second A [] [] rest st = Some (S, cps) /\
     let T1 := dkg_g1 gens (public_run keys cps) in let T2 := dkg_g2 gens (public_run keys cps) in
     let ct := ciphertext_from S T1 in let q := proof_from S T1 T2 in
     verify_commitment_and_proof ct q (prepare_verifying_key (gpk_vk (pk_pk (kg_pk keys)))) (prepare_ek (kg_ek keys)) (prepare_gens gens) = Ok tt /\
     ~ (digits_ok b (dkg_extracted_chunks n nb parties S) /\ exists g_i, get_gs_for_encryption (gpk_vk (pk_pk (kg_pk keys))) = Ok g_i /\
        encrypts (kg_ek keys) g_i (dkg_extracted_chunks n nb parties S) (ct_vec ct) (dkg_extracted_r n nb parties S)) /\
     ~ (exists ct0 q0, In (ct0, q0) cps /\ ct = rerandomized (kg_ek keys) (dkg_extracted_r n nb parties S) ct0 /\ exists kappa, kappa <> fzero /\ pr_a q = kappa [*] pr_a q0)) ->
  Z.of_nat (length L) * 2 ^ 128 <= modulus (K_of E) ^ Z.of_nat (2 * n + 6 + 3 * k).
Proof.
  intros HE Hb HG HH. params HE Hb. cbv zeta. intros Hbef Haft Hlim Ht Hk Hnd HL. pose proof (proj1 HE) as Hp.
  assert (Hbound := C80_chosen_messages_do_not_help_to_forge E gens pf bls_domain fuel (bls_chunks b) b cs xs before after G st t q k second A L HG HH Hdom Hb HbM Hc1 Hc2 Hcount Hn0 Hcs Hxs Hbef Haft Hlim Hnd).
  cbv zeta in Hbound. rewrite Hp in Hbound |- *. eapply margin; [apply Hbound|apply game_budget with (q := Z.of_nat q); try assumption; lia|apply Z.pow_nonneg; discriminate|reflexivity|discriminate].
  intros coins Hin. destruct (HL coins Hin) as (Hl & keys & rest & S & cps & Hset & Hduel & Hrest). split; [exact Hl|].
  exists keys, rest, S, cps. split; [exact Hset|]. split; [|exact Hrest].
  unfold bls_backend in Hduel. rewrite (coset_dkg_duel bls_generator pf bls_domain fuel b Hdom Hg0 Hgrp Hb Hbits) in Hduel. exact Hduel.
Qed.

Lemma bls_setup (E : pairing) pf fuel (R : rng_impl E) b gens st : setup_for_groth16 (@bls_backend E pf fuel) R b gens st = setup_for_groth16 (ark_backend pf bls_domain fuel) R b gens st.
Proof. reflexivity. Qed.
(* The hypotheses hold on the group with the scalar field of BLS12-381 in the examples: there are setups that work for every message with each
   supported chunk size, domains of 5 and of 2^32 coefficients, none of 2^32 + 1, and attackers within the budget that use all moves. *)
Definition b_gens : encryption_gens EB := @EncryptionGens EB (of_Z 3) (of_Z 5).
Definition b_attacker : adversary EB bool := Offer (of_Z 20) (of_Z 21) (Try [[fone]] (Stop true) (Ship (@Strategy EB [] [] [] [] [] []) (fun r => match r with Opened _ => Stop true | _ => Stop false end))).
Example C83_case (pf pf' : profile) (b : Z) : supported b ->
  bls12_381 EB /\ eg_G b_gens <> gzero /\ eg_H b_gens <> gzero /\ limited 1 1 1 b_attacker /\
  @bls_domain (K_of EB) (Z.to_nat (2 ^ 32 + 1)) = None /\ (exists xs, @bls_domain (K_of EB) 5 = Some xs /\ length xs = 8%nat) /\
  exists coins pk sk ek dk rest, length coins = (3 * bls_chunks b + 7)%nat /\
    setup_for_groth16 (bls_backend pf 3) (replay_rng EB) b b_gens coins = Ok (pk, sk, ek, dk, rest) /\
    forall (R : rng_impl EB) (st : rng_st R) (m : Fr EB), exists ct r p st' nu,
       encrypt_with_proof pf (bls_backend pf 3) R m ek pk b st = Ok (ct, r, p, st') /\
       verify_commitment_and_proof ct p (prepare_verifying_key (gpk_vk (pk_pk pk))) (prepare_ek ek) (prepare_gens b_gens) = Ok tt /\
       ct_decrypt_given_groth16_vk pf' ct sk (prepare_dk dk) (gpk_vk (pk_pk pk)) b = Ok (m, nu).
Proof.
  intros Hb. assert (HE : bls12_381 EB) by (split; reflexivity).
  assert (HG : eg_G b_gens <> gzero) by (intros H; apply (f_equal sval) in H; vm_compute in H; discriminate).
  assert (HH : eg_H b_gens <> gzero) by (intros H; apply (f_equal sval) in H; vm_compute in H; discriminate).
  split; [exact HE|]. split; [exact HG|]. split; [exact HH|].
  split; [apply limited_offer, limited_try; [apply limited_stop|]; apply limited_ship; intros [| |]; apply limited_stop|].
  split; [apply (C83_domains_of_the_library EB); [reflexivity|]; rewrite Z2Nat.id by discriminate; reflexivity|].
  split; [eexists; split; [reflexivity|reflexivity]|].
  params HE Hb.
  destruct (@working_exists EB (bls_chunks b) cs xs pf bls_domain 3 b b_gens Hdom Hb HbM Hcount Hn0 Hcs Hxs HG HH ltac:(lia) 0) as (coins & Hl & _ & pk & sk & ek & dk & rest & g_i & Hset & Hgi & Hndg).
  { pose proof (setup_budget _ _ HN Hn64) as Hbud. change (modulus (K_of EB)) with bls_r. assert (0 <= Z.of_nat (bls_chunks b) * (Z.of_nat (length xs) + 2)) by (apply Z.mul_nonneg_nonneg; lia).
    set (D := Z.of_nat (length xs) + _) in *. assert (0 <= D) by (unfold D; lia). clearbody D. assert (D * 2 < bls_r \/ D = 0) by (change (2 ^ 230) with (4 * 2 ^ 228) in Hbud; nia). destruct H1 as [H1|H1]; [lia|rewrite H1; reflexivity]. }
  rewrite <- bls_setup in Hset. rewrite Nat.add_0_r in Hl. exists coins, pk, sk, ek, dk, rest. split; [exact Hl|]. split; [exact Hset|]. intros R st m.
  assert (Hgs : skipn 1 (vk_gamma_abc_g1 (gpk_vk (pk_pk pk))) = g_i).
  { unfold get_gs_for_encryption, slice_from in Hgi. destruct (Nat.leb 1 _); [|discriminate]. congruence. }
  destruct (C39_end_to_end pf pf' EB (bls_backend pf 3) (replay_rng EB) R b b_gens coins pk sk ek dk rest m st) as (ct & r & p & st' & He & Hv & nu & Hd);
    [apply C83_backend_correct; reflexivity|exact Hb|exact HbM|exact Hc1|exact Hc2|exact Hset|rewrite Hgs; exact Hndg|].
  exists ct, r, p, st', nu. split; [exact He|]. split; [exact Hv|exact Hd].
Qed.
