(* PropPrivacyMany.v -- C66: what many encryptions under one key reveal together *)
From Verif Require Import Base BaseFacts Algebra Utils UtilsFacts Setup Keygen Encryption Circuit CircuitFacts CircuitSat CommitmentFacts VecFacts KeySpec KeygenFacts
  EncryptFacts DecryptFacts Spec VerifyFacts Protocol ReencFacts DistFacts PropVerify Groth16 ArkGroth16 PolyFacts Groth16Spec ArkFacts Groth16Facts SchwartzZippel SoundCore SoundSpec
  SoundAlg SoundGame SoundLink SoundFacts SoundCount SoundHonest Instance Examples PropGroth16 PropGroth16Cases PropSoundCases PropZK PrivacySpec PrivacyAlg PrivacyGame PrivacyLink PrivacyCount
  PropPrivacy PrivacySpan PrivacyMany.

(* The coins of one execution are 3n+7+3k scalars: those of setup_for_groth16, then for each of the k messages the randomness of the
   encryption and the two scalars of the prover.  All is the set of all coins. *)

(* C66.  An observer that sees the setup including the decryption key, and k ciphertexts with their proofs under one encryption key,
   and tests q adaptively chosen products of pairings of all these elements, guesses the same thing for any two lists of k messages up
   to (N + 2qk(3N + 9(3n+9)))/p. *)
Theorem C66_many_ciphertexts_hide_their_messages (E : pairing) (gens : encryption_gens E) (pf : profile)
    (domain : nat -> option (list (Fr E))) (fuel n k : nat) (b : Z) (cs : csys (K_of E)) (xs : list (Fr E)) (All : list (list (Fr E))) :
  eg_G gens <> gzero -> eg_H gens <> gzero -> domain_ok domain -> supported b -> 2 ^ b <= modulus (K_of E) ->
  64 * Z.of_nat (limbs (K_of E)) - b < modulus_bit_size (K_of E) -> 64 * Z.of_nat (limbs (K_of E)) < 256 * b ->
  chunks_count (K_of E) b = Ok (Z.of_nat n) -> (0 < n)%nat ->
  generate_constraints (BitsizeCheckCircuit b (Z.of_nat n) None true) (cs_new Circuit.Setup) = Ok cs ->
  domain (length (cs_cons cs) + cs_num_inst cs)%nat = Some xs ->
  NoDup All -> (forall coins, In coins All <-> length coins = (3 * n + 7 + 3 * k)%nat) ->
  forall (O : observer E) (msgs msgs' : list (Fr E)), length msgs = k -> length msgs' = k ->
  let yes ms := Z.of_nat (length (filter (experiment_many pf (ark_backend pf domain fuel) gens b O ms) All)) in
  Z.abs (yes msgs - yes msgs') * modulus (K_of E) <=
  (Z.of_nat (length xs) + 2 * Z.of_nat (questions O) * Z.of_nat k * (3 * Z.of_nat (length xs) + 9 * (3 * Z.of_nat n + 9))) * Z.of_nat (length All).
Proof.
  intros HG HH Hdom Hb HbM H1 H2 Hcount Hn0 Hcs Hxs Hnd HA O msgs msgs' Lm Lm'. cbv zeta. rewrite (all_tuples_count _ All Hnd HA).
  pose proof (@modulus_gt1 (K_of E)) as Hp.
  eapply Z.le_trans; [apply Z.mul_le_mono_nonneg_r; [lia|apply count_difference]|].
  rewrite <- Lm. apply (many_bound n cs xs pf domain fuel b gens HG HH Hdom Hb HbM (conj H1 H2) Hcount Hn0 Hcs Hxs msgs msgs' O); [congruence|apply NoDup_filter; exact Hnd|].
  intros coins Hin. apply filter_In in Hin. destruct Hin as [Hin Hne]. split; [rewrite Lm; apply HA; exact Hin|].
  intros Z. rewrite Z in Hne. rewrite Bool.eqb_reflx in Hne. discriminate Hne.
Qed.

(* The coins on which the guess depends on the messages are few. *)
Theorem C66_guess_rarely_depends_on_the_messages (E : pairing) (gens : encryption_gens E) (pf : profile)
    (domain : nat -> option (list (Fr E))) (fuel n k : nat) (b : Z) (cs : csys (K_of E)) (xs : list (Fr E)) (O : observer E) (msgs msgs' : list (Fr E)) (L : list (list (Fr E))) :
  eg_G gens <> gzero -> eg_H gens <> gzero -> domain_ok domain -> supported b -> 2 ^ b <= modulus (K_of E) ->
  64 * Z.of_nat (limbs (K_of E)) - b < modulus_bit_size (K_of E) -> 64 * Z.of_nat (limbs (K_of E)) < 256 * b ->
  chunks_count (K_of E) b = Ok (Z.of_nat n) -> (0 < n)%nat ->
  generate_constraints (BitsizeCheckCircuit b (Z.of_nat n) None true) (cs_new Circuit.Setup) = Ok cs ->
  domain (length (cs_cons cs) + cs_num_inst cs)%nat = Some xs ->
  length msgs = k -> length msgs' = k -> NoDup L ->
  (forall coins, In coins L -> length coins = (3 * n + 7 + 3 * k)%nat /\
     experiment_many pf (ark_backend pf domain fuel) gens b O msgs coins <> experiment_many pf (ark_backend pf domain fuel) gens b O msgs' coins) ->
  Z.of_nat (length L) * modulus (K_of E) <=
  (Z.of_nat (length xs) + 2 * Z.of_nat (questions O) * Z.of_nat k * (3 * Z.of_nat (length xs) + 9 * (3 * Z.of_nat n + 9))) * modulus (K_of E) ^ Z.of_nat (3 * n + 7 + 3 * k).
Proof.
  intros HG HH Hdom Hb HbM H1 H2 Hcount Hn0 Hcs Hxs Lm Lm' Hnd HL.
  subst k. apply (many_bound n cs xs pf domain fuel b gens HG HH Hdom Hb HbM (conj H1 H2) Hcount Hn0 Hcs Hxs msgs msgs' O); [congruence|exact Hnd|exact HL].
Qed.

(* The experiment is not vacuous: unless gamma or delta is zero or tau falls into the domain, the whole execution succeeds and every
   published ciphertext passes both verifications, so the observer sees k accepted ciphertexts. *)
Theorem C66_experiment_shows_accepted_ciphertexts (E : pairing) (gens : encryption_gens E) (pf : profile)
    (domain : nat -> option (list (Fr E))) (fuel n : nat) (b : Z) (cs : csys (K_of E)) (xs : list (Fr E)) (msgs coins : list (Fr E)) :
  eg_G gens <> gzero -> eg_H gens <> gzero -> domain_ok domain -> supported b -> 2 ^ b <= modulus (K_of E) ->
  64 * Z.of_nat (limbs (K_of E)) - b < modulus_bit_size (K_of E) -> 64 * Z.of_nat (limbs (K_of E)) < 256 * b ->
  chunks_count (K_of E) b = Ok (Z.of_nat n) -> (0 < n)%nat -> (0 < fuel)%nat ->
  generate_constraints (BitsizeCheckCircuit b (Z.of_nat n) None true) (cs_new Circuit.Setup) = Ok cs ->
  domain (length (cs_cons cs) + cs_num_inst cs)%nat = Some xs ->
  length coins = (3 * n + 7 + 3 * length msgs)%nat -> nth 2 coins fzero <> fzero -> nth 3 coins fzero <> fzero -> ~ In (nth 4 coins fzero) xs ->
  exists pk sk ek dk rest cps, setup_for_groth16 (ark_backend pf domain fuel) (replay_rng E) b gens coins = Ok (pk, sk, ek, dk, rest) /\
    encrypt_all pf (ark_backend pf domain fuel) (replay_rng E) msgs ek pk b rest = Ok (cps, []) /\
    length cps = length msgs /\
    Forall (fun cp => verify_commitment_and_proof (fst cp) (snd cp) (prepare_verifying_key (gpk_vk (pk_pk pk))) (prepare_ek ek) (prepare_gens gens) = Ok tt) cps /\
    forall O, experiment_many pf (ark_backend pf domain fuel) gens b O msgs coins = observe O (table_g1 gens pk ek cps) (table_g2 gens pk ek dk cps).
Proof.
  intros HG HH Hdom Hb HbM H1 H2 Hcount Hn0 Hf Hcs Hxs Hl Hga Hde Hin.
  assert (Hv : vanishing_at xs (nth 4 coins fzero) <> fzero) by (rewrite vanishing_zero; exact Hin).
  destruct (setup_exists_rest n cs xs pf domain fuel b gens (bits_of _ b Hb HbM) Hcount Hn0 Hcs Hxs coins ltac:(lia) Hga Hde Hv Hf) as (pk & sk & ek & dk & Hset).
  assert (X : forall ms st, length st = (3 * length ms)%nat -> exists cps, encrypt_all pf (ark_backend pf domain fuel) (replay_rng E) ms ek pk b st = Ok (cps, []) /\ length cps = length ms /\
    Forall (fun cp => verify_commitment_and_proof (fst cp) (snd cp) (prepare_verifying_key (gpk_vk (pk_pk pk))) (prepare_ek ek) (prepare_gens gens) = Ok tt) cps).
  { pose proof Hset as Hset'. unfold setup_for_groth16 in Hset'. apply bind_Ok_inv in Hset'. destruct Hset' as (circ & Hcirc & Hset').
    apply bind_Ok_inv in Hset'. destruct Hset' as ([pk0 st1] & Hsrs & Hset'). apply bind_Ok_inv in Hset'. destruct Hset' as (g_i & Hgs & Hset').
    apply bind_Ok_inv in Hset'. destruct Hset' as ([[[sk0 ek0] dk0] st3] & Hk & Hset'). injection Hset' as -> -> -> -> _.
    assert (Hk' : honest_key b gens g_i (gpk_delta_g1 (pk_pk pk)) (pk_gamma_g1 pk) ek) by (left; exists sk, dk, (replay_rng E), st1, st3; exact Hk).
    assert (Hs' : from_srs (ark_backend pf domain fuel) (generate_constraints circ) gens pk) by (exists (replay_rng E), coins, st1; exact Hsrs).
    induction ms as [|m ms IH]; intros st Ls.
    - destruct st; [|discriminate]. exists []. repeat split; constructor.
    - destruct st as [|r [|rr [|ss st]]]; try (cbn in Ls; lia). destruct (IH st ltac:(cbn in Ls; lia)) as (cps & A1 & A2 & A3).
      destruct (with_proof_any_key pf E (ark_backend pf domain fuel) (replay_rng E) b circ gens pk g_i ek m [r; rr; ss] (ark_backend_correct pf domain fuel Hdom) Hb HbM (conj H1 H2) Hcirc Hs' Hgs Hk')
        as (ct & r' & q & s1 & s2 & Hrun & _ & Hver).
      apply (encrypt_with_proof_rest _ _ _ _ _ _ _ _ _ st) in Hrun. exists ((ct, q) :: cps). cbn [encrypt_all]. rewrite Hrun. cbn [bind]. rewrite A1. cbn [bind].
      split; [reflexivity|]. split; [cbn; congruence|]. constructor; [exact Hver|exact A3]. }
  destruct (X msgs (skipn (3 * n + 7) coins) ltac:(rewrite skipn_length; lia)) as (cps & A1 & A2 & A3).
  exists pk, sk, ek, dk, (skipn (3 * n + 7) coins), cps. split; [exact Hset|]. split; [exact A1|]. split; [exact A2|]. split; [exact A3|].
  intros O. unfold experiment_many. rewrite Hset, A1. reflexivity.
Qed.

(* On the concrete group of order 2^61-1 with four 16-bit chunks: a thousand ciphertexts and up to 2^20 questions, advantage below 2^-16. *)
Example C66_case (pf : profile) (O : observer E61) (msgs msgs' : list (Fr E61)) (All : list (list (Fr E61))) : Z.of_nat (questions O) <= 2 ^ 20 ->
  length msgs = 1000%nat -> length msgs' = 1000%nat -> NoDup All -> (forall coins, In coins All <-> length coins = (3 * 4 + 7 + 3 * 1000)%nat) ->
  let yes ms := Z.of_nat (length (filter (experiment_many pf (ark_backend pf y_domain 3) x_gens 16 O ms) All)) in
  Z.abs (yes msgs - yes msgs') * 2 ^ 16 <= Z.of_nat (length All).
Proof.
  intros Hq Lm Lm' Hnd HA yes. destruct z_cs as (cs & Hcs & Hd). destruct y_conditions as (C1 & C2 & C3 & C4).
  assert (HG : eg_G x_gens <> gzero) by (intros H; apply (f_equal sval) in H; vm_compute in H; discriminate H). assert (H4 : (0 < 4)%nat) by lia.
  pose proof (C66_many_ciphertexts_hide_their_messages E61 x_gens pf y_domain 3 4 1000 16 cs y_xs All HG x_H y_domain_ok C1 C2 C3 C4 y_count H4 Hcs Hd Hnd HA O msgs msgs' Lm Lm') as B. cbv zeta in B. fold (yes msgs) (yes msgs') in B.
  assert (Ly : Z.of_nat (length y_xs) <= 2 ^ 12) by (unfold y_xs, y_points; rewrite map_length, seq_length; unfold y_N; lia).
  change (modulus (K_of E61)) with (2 ^ 61 - 1) in B. set (d := Z.abs _) in *. assert (0 <= d) by apply Z.abs_nonneg. set (T := Z.of_nat (length All)) in *. assert (0 <= T) by (unfold T; lia).
  set (N := Z.of_nat (length y_xs)) in *. set (q := Z.of_nat (questions O)) in *. replace (Z.of_nat 1000) with 1000 in B by lia.
  assert (N + 2 * q * 1000 * (3 * N + 9 * (3 * Z.of_nat 4 + 9)) <= 2 ^ 12 + 2 * 2 ^ 20 * 1000 * (3 * 2 ^ 12 + 189)) by (assert (0 <= N) by (unfold N; lia); assert (0 <= q) by (unfold q; lia); nia).
  assert (d * (2 ^ 61 - 1) <= (2 ^ 12 + 2 * 2 ^ 20 * 1000 * (3 * 2 ^ 12 + 189)) * T) by nia.
  lia.
Qed.
(* and an execution that shows two accepted ciphertexts *)
Example C66_shown_case (pf : profile) : exists pk sk ek dk rest cps,
  setup_for_groth16 (ark_backend pf y_domain 3) (replay_rng E61) 16 x_gens (z_tape ++ [nz61 3; nz61 5; nz61 7; nz61 11; nz61 13; nz61 17]) = Ok (pk, sk, ek, dk, rest) /\
  encrypt_all pf (ark_backend pf y_domain 3) (replay_rng E61) [nz61 (2 ^ 48); nz61 (2 ^ 49)] ek pk 16 rest = Ok (cps, []) /\ length cps = 2%nat /\
  Forall (fun cp => verify_commitment_and_proof (fst cp) (snd cp) (prepare_verifying_key (gpk_vk (pk_pk pk))) (prepare_ek ek) (prepare_gens x_gens) = Ok tt) cps.
Proof.
  destruct z_cs as (cs & Hcs & Hd). destruct y_conditions as (C1 & C2 & C3 & C4). assert (H4 : (0 < 4)%nat) by lia.
  assert (HG : eg_G x_gens <> gzero) by (intros H; apply (f_equal sval) in H; vm_compute in H; discriminate H). assert (H3 : (0 < 3)%nat) by lia.
  destruct (C66_experiment_shows_accepted_ciphertexts E61 x_gens pf y_domain 3 4 16 cs y_xs [nz61 (2 ^ 48); nz61 (2 ^ 49)] (z_tape ++ [nz61 3; nz61 5; nz61 7; nz61 11; nz61 13; nz61 17])
    HG x_H y_domain_ok C1 C2 C3 C4 y_count H4 H3 Hcs Hd) as (pk & sk & ek & dk & rest & cps & A1 & A2 & A3 & A4 & _).
  - reflexivity.
  - exact z_gamma.
  - exact z_delta.
  - exact z_in.
  - exists pk, sk, ek, dk, rest, cps. split; [exact A1|]. split; [exact A2|]. split; [exact A3|exact A4].
Qed.
