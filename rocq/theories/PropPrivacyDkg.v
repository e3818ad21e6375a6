(* PropPrivacyDkg.v -- C67: a coalition of all parties but one of the distributed key generation learns nothing about the messages *)
From Verif Require Import Base BaseFacts Algebra Utils UtilsFacts Setup Keygen Encryption Circuit CircuitFacts CircuitSat CommitmentFacts VecFacts KeySpec KeygenFacts
  EncryptFacts DecryptFacts Spec VerifyFacts Protocol ReencFacts DistFacts PropVerify Groth16 ArkGroth16 PolyFacts Groth16Spec ArkFacts Groth16Facts SchwartzZippel SoundCore SoundSpec
  SoundAlg SoundGame SoundLink SoundFacts SoundCount SoundHonest Instance Examples PropGroth16 PropGroth16Cases PropSoundCases PropZK PrivacySpec PrivacyAlg PrivacyGame PrivacyLink PrivacyCount
  PropPrivacy PrivacySpan PrivacyMany PrivacyDkgSpec PrivacyDkg.

(* The coins of one execution are 2n+6+3k scalars: five for the SRS, the 2n+1 secrets of the honest party, and for each of the k
   messages the randomness of the encryption and the two scalars of the prover.  All is the set of all coins.  The tapes of the other
   parties (2n+1 scalars each) are fixed before the coins are drawn and are otherwise arbitrary; the observer may depend on them.  It
   sees every contribution, every P_1 share, the final encryption key, the SRS and all ciphertexts with their proofs. *)

(* C67.  Whatever the other parties' secrets, an observer that asks q adaptively chosen products of pairings of all the published
   elements guesses the same thing for any two lists of k messages up to (N + 2qk(3N + 9(3n+9)))/p. *)
Theorem C67_all_but_one_party_learn_nothing (E : pairing) (gens : encryption_gens E) (pf : profile)
    (domain : nat -> option (list (Fr E))) (fuel n k : nat) (b : Z) (cs : csys (K_of E)) (xs : list (Fr E)) (All : list (list (Fr E))) :
  eg_G gens <> gzero -> eg_H gens <> gzero -> domain_ok domain -> supported b -> 2 ^ b <= modulus (K_of E) ->
  64 * Z.of_nat (limbs (K_of E)) - b < modulus_bit_size (K_of E) -> 64 * Z.of_nat (limbs (K_of E)) < 256 * b ->
  chunks_count (K_of E) b = Ok (Z.of_nat n) -> (0 < n)%nat ->
  generate_constraints (BitsizeCheckCircuit b (Z.of_nat n) None true) (cs_new Circuit.Setup) = Ok cs ->
  domain (length (cs_cons cs) + cs_num_inst cs)%nat = Some xs ->
  NoDup All -> (forall coins, In coins All <-> length coins = (2 * n + 6 + 3 * k)%nat) ->
  forall before after : list (list (Fr E)), Forall (fun tape => length tape = (2 * n + 1)%nat) before -> Forall (fun tape => length tape = (2 * n + 1)%nat) after ->
  forall (O : observer E) (msgs msgs' : list (Fr E)), length msgs = k -> length msgs' = k ->
  let yes ms := Z.of_nat (length (filter (experiment_dkg pf (ark_backend pf domain fuel) gens b before after O ms) All)) in
  Z.abs (yes msgs - yes msgs') * modulus (K_of E) <=
  (Z.of_nat (length xs) + 2 * Z.of_nat (questions O) * Z.of_nat k * (3 * Z.of_nat (length xs) + 9 * (3 * Z.of_nat n + 9))) * Z.of_nat (length All).
Proof.
  intros HG HH Hdom Hb HbM H1 H2 Hcount Hn0 Hcs Hxs Hnd HA before after Hbef Haft O msgs msgs' Lm Lm'. cbv zeta. rewrite (all_tuples_count _ All Hnd HA).
  pose proof (@modulus_gt1 (K_of E)) as Hp.
  eapply Z.le_trans; [apply Z.mul_le_mono_nonneg_r; [lia|apply count_difference]|].
  apply (dkg_bound n cs xs pf domain fuel b gens HG HH Hdom Hb HbM (conj H1 H2) Hcount Hn0 Hcs Hxs before after Hbef Haft k msgs msgs' O); [exact Lm|exact Lm'|apply NoDup_filter; exact Hnd|].
  intros coins Hin. apply filter_In in Hin. destruct Hin as [Hin Hne]. split; [apply HA; exact Hin|].
  intros Z. rewrite Z in Hne. rewrite Bool.eqb_reflx in Hne. discriminate Hne.
Qed.

(* The coins on which the coalition's guess depends on the messages are few. *)
Theorem C67_guess_rarely_depends_on_the_messages (E : pairing) (gens : encryption_gens E) (pf : profile)
    (domain : nat -> option (list (Fr E))) (fuel n k : nat) (b : Z) (cs : csys (K_of E)) (xs : list (Fr E)) (before after : list (list (Fr E)))
    (O : observer E) (msgs msgs' : list (Fr E)) (L : list (list (Fr E))) :
  eg_G gens <> gzero -> eg_H gens <> gzero -> domain_ok domain -> supported b -> 2 ^ b <= modulus (K_of E) ->
  64 * Z.of_nat (limbs (K_of E)) - b < modulus_bit_size (K_of E) -> 64 * Z.of_nat (limbs (K_of E)) < 256 * b ->
  chunks_count (K_of E) b = Ok (Z.of_nat n) -> (0 < n)%nat ->
  generate_constraints (BitsizeCheckCircuit b (Z.of_nat n) None true) (cs_new Circuit.Setup) = Ok cs ->
  domain (length (cs_cons cs) + cs_num_inst cs)%nat = Some xs ->
  Forall (fun tape => length tape = (2 * n + 1)%nat) before -> Forall (fun tape => length tape = (2 * n + 1)%nat) after ->
  length msgs = k -> length msgs' = k -> NoDup L ->
  (forall coins, In coins L -> length coins = (2 * n + 6 + 3 * k)%nat /\
     experiment_dkg pf (ark_backend pf domain fuel) gens b before after O msgs coins <> experiment_dkg pf (ark_backend pf domain fuel) gens b before after O msgs' coins) ->
  Z.of_nat (length L) * modulus (K_of E) <=
  (Z.of_nat (length xs) + 2 * Z.of_nat (questions O) * Z.of_nat k * (3 * Z.of_nat (length xs) + 9 * (3 * Z.of_nat n + 9))) * modulus (K_of E) ^ Z.of_nat (2 * n + 6 + 3 * k).
Proof.
  intros HG HH Hdom Hb HbM H1 H2 Hcount Hn0 Hcs Hxs Hbef Haft Lm Lm' Hnd HL.
  apply (dkg_bound n cs xs pf domain fuel b gens HG HH Hdom Hb HbM (conj H1 H2) Hcount Hn0 Hcs Hxs before after Hbef Haft k msgs msgs' O); [exact Lm|exact Lm'|exact Hnd|exact HL].
Qed.

(* The experiment is not vacuous: unless gamma or delta is zero or tau falls into the domain, the execution succeeds, its key is the
   one the distributed key generation makes from the contributions of all the parties, one P_1 share is published per party, and every
   published ciphertext passes both verifications. *)
Theorem C67_experiment_shows_accepted_ciphertexts (E : pairing) (gens : encryption_gens E) (pf : profile)
    (domain : nat -> option (list (Fr E))) (fuel n : nat) (b : Z) (cs : csys (K_of E)) (xs : list (Fr E)) (before after : list (list (Fr E))) (msgs coins : list (Fr E)) :
  eg_G gens <> gzero -> eg_H gens <> gzero -> domain_ok domain -> supported b -> 2 ^ b <= modulus (K_of E) ->
  64 * Z.of_nat (limbs (K_of E)) - b < modulus_bit_size (K_of E) -> 64 * Z.of_nat (limbs (K_of E)) < 256 * b ->
  chunks_count (K_of E) b = Ok (Z.of_nat n) -> (0 < n)%nat -> (0 < fuel)%nat ->
  generate_constraints (BitsizeCheckCircuit b (Z.of_nat n) None true) (cs_new Circuit.Setup) = Ok cs ->
  domain (length (cs_cons cs) + cs_num_inst cs)%nat = Some xs ->
  Forall (fun tape => length tape = (2 * n + 1)%nat) before -> Forall (fun tape => length tape = (2 * n + 1)%nat) after ->
  length coins = (2 * n + 6 + 3 * length msgs)%nat -> nth 2 coins fzero <> fzero -> nth 3 coins fzero <> fzero -> ~ In (nth 4 coins fzero) xs ->
  exists run g_i parties, dkg_execution pf (ark_backend pf domain fuel) gens b before after msgs coins = Ok run /\
    get_gs_for_encryption (gpk_vk (pk_pk (dr_pk run))) = Ok g_i /\
    dr_parts run = map snd parties /\ length parties = (length before + 1 + length after)%nat /\ length (dr_shares run) = length parties /\
    from_dkg b gens g_i (gpk_delta_g1 (pk_pk (dr_pk run))) (pk_gamma_g1 (dr_pk run)) parties (dr_ek run) /\
    length (dr_cps run) = length msgs /\
    Forall (fun cp => verify_commitment_and_proof (fst cp) (snd cp) (prepare_verifying_key (gpk_vk (pk_pk (dr_pk run)))) (prepare_ek (dr_ek run)) (prepare_gens gens) = Ok tt) (dr_cps run) /\
    forall O, experiment_dkg pf (ark_backend pf domain fuel) gens b before after O msgs coins = observe O (dkg_g1 gens run) (dkg_g2 gens run).
Proof.
  intros HG HH Hdom Hb HbM H1 H2 Hcount Hn0 Hf Hcs Hxs Hbef Haft Hl Hga Hde Hin.
  destruct coins as [|al [|be [|ga [|de [|ta d]]]]]; try (cbn [length] in Hl; exfalso; clear -Hl; lia). cbn [nth] in Hga, Hde, Hin. cbn [length] in Hl.
  assert (Hv : vanishing_at xs ta <> fzero) by (rewrite vanishing_zero; exact Hin).
  destruct (srs_local n cs xs pf domain fuel b gens Hb HbM Hn0 Hcs Hxs al be ga de ta Hv) as [(pk & Lg & Hsrs)|No].
  2: { exfalso. destruct (setup_exists n cs xs pf domain fuel b gens (bits_of _ b Hb HbM) Hcount Hn0 Hcs Hxs (al :: be :: ga :: de :: ta :: repeat fzero (3 * n + 2))
         ltac:(cbn [length]; rewrite repeat_length; lia) Hga Hde Hv Hf) as (pk & sk & ek & dk & Hset).
       unfold setup_for_groth16, circuit_new in Hset. rewrite Hcount in Hset. cbn [bind] in Hset. apply bind_Ok_inv in Hset. destruct Hset as ([pk0 st1] & Hs & _). exact (No _ _ Hs). }
  assert (Ld : length (skipn n d) = (S n + 3 * length msgs)%nat) by (rewrite skipn_length; lia).
  destruct (skipn n d) as [|t0 d'] eqn:E1; [discriminate|]. cbn [length] in Ld.
  set (sh := firstn n d). set (t := firstn n d'). set (rest := skipn n d').
  assert (Ls : length sh = n) by (unfold sh; rewrite firstn_length; lia). assert (Lt : length t = n) by (unfold t; rewrite firstn_length; lia).
  assert (Ed : d = sh ++ (t0 :: t) ++ rest). { unfold sh, t, rest. rewrite <- (firstn_skipn n d) at 1. f_equal. rewrite E1. cbn [app]. f_equal. symmetry. apply firstn_skipn. }
  assert (Lr : length rest = (3 * length msgs)%nat) by (unfold rest; rewrite skipn_length; lia).
  set (g_i := skipn 1 (vk_gamma_abc_g1 (gpk_vk (pk_pk pk)))). set (dl := gpk_delta_g1 (pk_pk pk)). set (c := pk_gamma_g1 pk).
  assert (Lgi : length g_i = n) by (unfold g_i; rewrite skipn_length; lia).
  assert (Hgs : get_gs_for_encryption (gpk_vk (pk_pk pk)) = Ok g_i) by (unfold get_gs_for_encryption, slice_from; rewrite Lg; reflexivity).
  set (hon := (SecretKeyST sh (t0 :: t), ekp_formula gens g_i dl c sh t0 t)).
  set (parties := map (party n gens g_i dl c) before ++ hon :: map (party n gens g_i dl c) after).
  assert (Fp : Forall (from_partial b gens g_i dl c) parties).
  { assert (X : forall l, Forall (full n) l -> Forall (from_partial b gens g_i dl c) (map (party n gens g_i dl c) l)).
    { intros l Hl'. rewrite Forall_forall in Hl' |- *. intros q Hq. apply in_map_iff in Hq. destruct Hq as (tape & <- & Hi). destruct (tape_cut n cs xs b Hn0 tape (Hl' tape Hi)) as (Et & L1 & L2).
      exists (replay_rng E), tape, []. rewrite Et at 1. rewrite (partial_replay b gens g_i dl c n) by (try assumption; lia). reflexivity. }
    apply Forall_app. split; [apply X; exact Hbef|]. constructor; [|apply X; exact Haft].
    exists (replay_rng E), (sh ++ (t0 :: t) ++ []), []. rewrite (partial_replay b gens g_i dl c n) by (try assumption; lia). reflexivity. }
  assert (Hne : parties <> []) by (unfold parties; destruct before; discriminate).
  pose proof (dkg_formula b gens g_i dl c parties n Hcount Hne Fp) as Hdkg. set (ek := ek_formula _ _ _ _ _ _ _) in Hdkg.
  assert (Hfd : from_dkg b gens g_i dl c parties ek) by (split; [exact Hne|split; [exact Fp|exact Hdkg]]).
  assert (Hk' : honest_key b gens g_i dl c ek) by (right; exists parties; exact Hfd).
  assert (Hcirc : circuit_new (K := K_of E) b None None true = Ok (BitsizeCheckCircuit b (Z.of_nat n) None true)) by (unfold circuit_new; rewrite Hcount; reflexivity).
  assert (Hs' : from_srs (ark_backend pf domain fuel) (generate_constraints (BitsizeCheckCircuit b (Z.of_nat n) None true)) gens pk) by (exists (replay_rng E), (al :: be :: ga :: de :: ta :: []), []; apply Hsrs).
  assert (X : forall ms st, length st = (3 * length ms)%nat -> exists cps, encrypt_all pf (ark_backend pf domain fuel) (replay_rng E) ms ek pk b st = Ok (cps, []) /\ length cps = length ms /\
    Forall (fun cp => verify_commitment_and_proof (fst cp) (snd cp) (prepare_verifying_key (gpk_vk (pk_pk pk))) (prepare_ek ek) (prepare_gens gens) = Ok tt) cps).
  { induction ms as [|m ms IH]; intros st Lst.
    - destruct st; [|discriminate]. exists []. repeat split; constructor.
    - destruct st as [|r [|rr [|ss st]]]; try (cbn in Lst; exfalso; clear -Lst; lia). destruct (IH st ltac:(cbn in Lst; clear -Lst; lia)) as (cps & A1 & A2 & A3).
      destruct (with_proof_any_key pf E (ark_backend pf domain fuel) (replay_rng E) b _ gens pk g_i ek m [r; rr; ss] (ark_backend_correct pf domain fuel Hdom) Hb HbM (conj H1 H2) Hcirc Hs' Hgs Hk')
        as (ct & r' & q & s1 & s2 & Hrun & _ & Hver).
      apply (encrypt_with_proof_rest _ _ _ _ _ _ _ _ _ st) in Hrun. exists ((ct, q) :: cps). cbn [encrypt_all]. rewrite Hrun. cbn [bind]. rewrite A1. cbn [bind].
      split; [reflexivity|]. split; [cbn; congruence|]. constructor; [exact Hver|exact A3]. }
  destruct (X msgs rest Lr) as (cps & A1 & A2 & A3). clear X.
  pose proof Hdkg as Hd'. unfold dkg in Hd'. apply bind_Ok_inv in Hd'. destruct Hd' as (com & Hcom & Hd'). apply bind_Ok_inv in Hd'. destruct Hd' as (shares & Hsh & Hd').
  apply bind_Ok_inv in Hd'. destruct Hd' as (p1 & Hp1 & Hd'). assert (Hfin : keygenFinal com p1 = ek) by congruence.
  assert (Hrun : dkg_execution pf (ark_backend pf domain fuel) gens b before after msgs (al :: be :: ga :: de :: ta :: d) = Ok (DkgRun pk (map snd parties) shares ek cps)).
  { unfold dkg_execution. rewrite Hcirc. cbn [bind]. rewrite Hsrs. cbn [bind]. rewrite Hgs. cbn [bind]. cbv zeta. fold dl c.
    rewrite (contributions_ok n cs xs b gens Hcount Hn0 g_i dl c before Lgi Hbef). cbn [bind]. rewrite Ed at 1. rewrite (partial_replay b gens g_i dl c n sh t0 t rest Hcount) by (try assumption; lia). cbn [bind].
    rewrite (contributions_ok n cs xs b gens Hcount Hn0 g_i dl c after Lgi Haft). cbn [bind]. fold hon. fold parties. rewrite Hcom. cbn [bind]. rewrite Hsh. cbn [bind]. rewrite Hp1. cbn [bind].
    rewrite Hfin, A1. reflexivity. }
  exists (DkgRun pk (map snd parties) shares ek cps), g_i, parties. cbn [dr_pk dr_parts dr_shares dr_ek dr_cps].
  split; [exact Hrun|]. split; [exact Hgs|]. split; [reflexivity|].
  split; [unfold parties; rewrite app_length; cbn [length]; rewrite !map_length; lia|]. split; [exact (mapM_length _ _ _ Hsh)|]. split; [exact Hfd|]. split; [exact A2|]. split; [exact A3|].
  intros O. unfold experiment_dkg. rewrite Hrun. reflexivity.
Qed.

(* On the concrete group of order 2^61-1 with four 16-bit chunks: any number of corrupted parties, a thousand ciphertexts and up to 2^20
   questions, advantage below 2^-16. *)
Example C67_case (pf : profile) (before after : list (list (Fr E61))) (O : observer E61) (msgs msgs' : list (Fr E61)) (All : list (list (Fr E61))) :
  Forall (fun tape => length tape = 9%nat) before -> Forall (fun tape => length tape = 9%nat) after -> Z.of_nat (questions O) <= 2 ^ 20 ->
  length msgs = 1000%nat -> length msgs' = 1000%nat -> NoDup All -> (forall coins, In coins All <-> length coins = (2 * 4 + 6 + 3 * 1000)%nat) ->
  let yes ms := Z.of_nat (length (filter (experiment_dkg pf (ark_backend pf y_domain 3) x_gens 16 before after O ms) All)) in
  Z.abs (yes msgs - yes msgs') * 2 ^ 16 <= Z.of_nat (length All).
Proof.
  intros Hbef Haft Hq Lm Lm' Hnd HA yes. destruct z_cs as (cs & Hcs & Hd). destruct y_conditions as (C1 & C2 & C3 & C4).
  assert (HG : eg_G x_gens <> gzero) by (intros H; apply (f_equal sval) in H; vm_compute in H; discriminate H). assert (H4 : (0 < 4)%nat) by lia.
  pose proof (C67_all_but_one_party_learn_nothing E61 x_gens pf y_domain 3 4 1000 16 cs y_xs All HG x_H y_domain_ok C1 C2 C3 C4 y_count H4 Hcs Hd Hnd HA before after Hbef Haft O msgs msgs' Lm Lm') as B. cbv zeta in B. fold (yes msgs) (yes msgs') in B.
  assert (Ly : Z.of_nat (length y_xs) <= 2 ^ 12) by (unfold y_xs, y_points; rewrite map_length, seq_length; unfold y_N; lia).
  change (modulus (K_of E61)) with (2 ^ 61 - 1) in B. set (d := Z.abs _) in *. assert (0 <= d) by apply Z.abs_nonneg. set (T := Z.of_nat (length All)) in *. assert (0 <= T) by (unfold T; lia).
  set (N := Z.of_nat (length y_xs)) in *. set (q := Z.of_nat (questions O)) in *. replace (Z.of_nat 1000) with 1000 in B by lia.
  assert (N + 2 * q * 1000 * (3 * N + 9 * (3 * Z.of_nat 4 + 9)) <= 2 ^ 12 + 2 * 2 ^ 20 * 1000 * (3 * 2 ^ 12 + 189)) by (assert (0 <= N) by (unfold N; lia); assert (0 <= q) by (unfold q; lia); nia).
  assert (d * (2 ^ 61 - 1) <= (2 ^ 12 + 2 * 2 ^ 20 * 1000 * (3 * 2 ^ 12 + 189)) * T) by nia.
  lia.
Qed.
(* and an execution of three parties, the second of them honest, that shows an accepted ciphertext *)
Example C67_shown_case (pf : profile) : exists run,
  dkg_execution pf (ark_backend pf y_domain 3) x_gens 16 [map nz61 [2; 3; 4; 5; 6; 7; 8; 9; 10]] [map nz61 [12; 13; 14; 15; 16; 17; 18; 19; 20]] [nz61 (2 ^ 48)] (firstn 17 z_tape) = Ok run /\
  length (dr_parts run) = 3%nat /\ length (dr_shares run) = 3%nat /\ length (dr_cps run) = 1%nat /\
  Forall (fun cp => verify_commitment_and_proof (fst cp) (snd cp) (prepare_verifying_key (gpk_vk (pk_pk (dr_pk run)))) (prepare_ek (dr_ek run)) (prepare_gens x_gens) = Ok tt) (dr_cps run).
Proof.
  destruct z_cs as (cs & Hcs & Hd). destruct y_conditions as (C1 & C2 & C3 & C4). assert (H4 : (0 < 4)%nat) by lia.
  assert (HG : eg_G x_gens <> gzero) by (intros H; apply (f_equal sval) in H; vm_compute in H; discriminate H). assert (H3 : (0 < 3)%nat) by lia.
  destruct (C67_experiment_shows_accepted_ciphertexts E61 x_gens pf y_domain 3 4 16 cs y_xs [map nz61 [2; 3; 4; 5; 6; 7; 8; 9; 10]] [map nz61 [12; 13; 14; 15; 16; 17; 18; 19; 20]]
    [nz61 (2 ^ 48)] (firstn 17 z_tape) HG x_H y_domain_ok C1 C2 C3 C4 y_count H4 H3 Hcs Hd) as (run & g_i & parties & A1 & _ & A2 & A3 & A4 & _ & A5 & A6 & _).
  - constructor; [reflexivity|constructor].
  - constructor; [reflexivity|constructor].
  - reflexivity.
  - exact z_gamma.
  - exact z_delta.
  - exact z_in.
  - exists run. split; [exact A1|]. split; [rewrite A2, map_length; exact A3|]. split; [rewrite A4; exact A3|]. split; [exact A5|exact A6].
Qed.
