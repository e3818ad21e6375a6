(* PropNonmalDkg.v -- C74: what all parties but one of the distributed key generation can make from the ciphertexts they have seen *)
From Verif Require Import Base BaseFacts Algebra Utils UtilsFacts Setup Keygen Encryption Circuit CircuitFacts CircuitSat CommitmentFacts VecFacts KeySpec KeygenFacts
  EncryptFacts DecryptFacts Spec VerifyFacts Protocol ReencFacts DistFacts PropVerify Groth16 ArkGroth16 PolyFacts Groth16Spec ArkFacts Groth16Facts SchwartzZippel SoundCore SoundSpec
  SoundAlg SoundGame SoundLink SoundFacts SoundCount SoundHonest PropGroth16 PropGroth16More PropGroth16Cases PropSound PropSoundCases PropZK PrivacySpec PrivacyAlg PrivacyGame PrivacyLink PrivacyCount
  PrivacySpan PrivacyMany PropPrivacy PrivacyDkgSpec PrivacyDkg PropPrivacyDkg SoundAdaptSpec SoundAdapt SoundDkgSpec SoundDkg PropSoundDkg NonmalCore NonmalAlg NonmalSpec NonmalGame NonmalRows NonmalLink NonmalCount PropNonmal NonmalDkg
  Instance Examples.

(* The coins of one execution are 2n+6 scalars for the SRS and the secrets of the honest party and three per honest encryption under the
   final key.  The tapes of the other parties are fixed before the coins are drawn and are otherwise arbitrary.  The coalition sees every
   contribution, every P_1 share, the final key, the SRS and the ciphertexts with their proofs, tests adaptively products of pairings of
   what it sees, and outputs linear combinations.  What it gets accepted is, but for the stated fraction of the coins, an encryption of the
   chunks read off its coefficients or one of the ciphertexts it saw with an encryption of zeros under a randomness it knows added. *)
Theorem C74_coalitions_make_fresh_ciphertexts_or_copies (E : pairing) (gens : encryption_gens E) (pf : profile)
    (domain : nat -> option (list (Fr E))) (fuel n : nat) (b : Z) (cs : csys (K_of E)) (xs : list (Fr E)) (before after : list (list (Fr E)))
    (msgs : list (Fr E)) (P : prover E) (L : list (list (Fr E))) :
  eg_G gens <> gzero -> eg_H gens <> gzero -> domain_ok domain -> supported b -> 2 ^ b <= modulus (K_of E) ->
  64 * Z.of_nat (limbs (K_of E)) - b < modulus_bit_size (K_of E) -> 64 * Z.of_nat (limbs (K_of E)) < 256 * b ->
  chunks_count (K_of E) b = Ok (Z.of_nat n) -> (0 < n)%nat ->
  generate_constraints (BitsizeCheckCircuit b (Z.of_nat n) None true) (cs_new Circuit.Setup) = Ok cs ->
  domain (length (cs_cons cs) + cs_num_inst cs)%nat = Some xs ->
  Forall (fun tape => length tape = (2 * n + 1)%nat) before -> Forall (fun tape => length tape = (2 * n + 1)%nat) after ->
  NoDup L ->
  let nb := length before in let m := (length before + 1 + length after)%nat in
  (forall coins, In coins L -> length coins = (2 * n + 6 + 3 * length msgs)%nat /\ exists run,
     dkg_execution pf (ark_backend pf domain fuel) gens b before after msgs coins = Ok run /\
     let S := play P (dkg_g1 gens run) (dkg_g2 gens run) in
     let ct := ciphertext_from S (dkg_g1 gens run) in let q := proof_from S (dkg_g1 gens run) (dkg_g2 gens run) in
     verify_commitment_and_proof ct q (prepare_verifying_key (gpk_vk (pk_pk (dr_pk run)))) (prepare_ek (dr_ek run)) (prepare_gens gens) = Ok tt /\
     ~ (digits_ok b (dkg_extracted_chunks n nb m S) /\ exists g_i, get_gs_for_encryption (gpk_vk (pk_pk (dr_pk run))) = Ok g_i /\
        encrypts (dr_ek run) g_i (dkg_extracted_chunks n nb m S) (ct_vec ct) (dkg_extracted_r n nb m S)) /\
     ~ (exists ct0 q0, In (ct0, q0) (dr_cps run) /\ ct = rerandomized (dr_ek run) (dkg_extracted_r n nb m S) ct0 /\ exists kappa, kappa <> fzero /\ pr_a q = kappa [*] pr_a q0)) ->
  let N := Z.of_nat (length xs) in let t := Z.of_nat (tests P) in let k := Z.of_nat (length msgs) in
  Z.of_nat (length L) * modulus (K_of E) <=
  (N + ((t * (3 * N + 7 * (3 * Z.of_nat n + 6)) + (4 * N + 7 * (3 * Z.of_nat n + 6))) + k * (t + k) * (3 * N + 9 * (3 * Z.of_nat n + 9))))
    * modulus (K_of E) ^ Z.of_nat (2 * n + 6 + 3 * length msgs).
Proof.
  intros HG HH Hd Hb HM C1 C2 Hc Hn Hcs Hxs Hbef Haft Hnd nb m HL.
  exact (dkg_nonmal_bound n cs xs pf domain fuel b gens HG HH Hd Hb HM (conj C1 C2) Hc Hn Hcs Hxs before after Hbef Haft msgs P L Hnd HL).
Qed.

(* ---------- both exceptions and the excluded coins exist ---------- *)
Section Sides.
Context {E : pairing}.
Notation K := (K_of E).
Notation F := (Fr E).
Add Ring Knd : (@scalar_ring_theory K).
Notation e i env := (nth i env fzero).
Variables (n : nat) (cs : csys K) (xs : list F) (pf : profile) (domain : nat -> option (list F)) (fuel : nat) (b : Z) (gens : encryption_gens E).
Notation B := (ark_backend pf domain fuel).
Hypothesis HG : eg_G gens <> gzero.
Hypothesis Hdom_ok : domain_ok domain.
Hypothesis Hb : supported b.
Hypothesis HbM : 2 ^ b <= modulus K.
Hypothesis Hcomp : chunk_compatible K b.
Hypothesis Hcount : chunks_count K b = Ok (Z.of_nat n).
Hypothesis Hn0 : (0 < n)%nat.
Hypothesis Hcs : generate_constraints (BitsizeCheckCircuit b (Z.of_nat n) None true) (@cs_new K Circuit.Setup) = Ok cs.
Hypothesis Hdomain : domain (length (cs_cons cs) + cs_num_inst cs)%nat = Some xs.
Variables (before after : list (list F)).
Hypothesis Hbef : Forall (fun tape => length tape = (2 * n + 1)%nat) before.
Hypothesis Haft : Forall (fun tape => length tape = (2 * n + 1)%nat) after.
Let nb := length before.
Let m := (length before + 1 + length after)%nat.

(* a strategy for the table of a central execution, with another combination for B, as a strategy of the coalition *)
Definition padded (S0 : strategy E) (sb : list F) : strategy E :=
  let pad c := repeat fzero (m * (2 * n + 3)) ++ c in
  Strategy (pad (sg_a S0)) sb (pad (sg_c S0)) (pad (sg_X_r S0)) (map pad (sg_chunks S0)) (pad (sg_commitment S0)).
Lemma padded_extracts S0 sb : dkg_extracted_chunks n nb m (padded S0 sb) = extracted_chunks n S0 /\ dkg_extracted_r n nb m (padded S0 sb) = extracted_r n S0.
Proof.
  unfold padded, dkg_extracted_chunks, dkg_extracted_r, extracted_chunks, extracted_r. cbv zeta. cbn [sg_commitment]. split.
  - apply map_ext_in. intros j Hj. apply in_seq in Hj. f_equal. rewrite nth_pad, nth_padl by (unfold nb, m; nia). ring.
  - rewrite nth_pad, nth_padl by (unfold nb, m; nia). ring.
Qed.
Lemma padded_ciphertext S0 sb (U T : list (G1 E)) : length U = (m * (2 * n + 3))%nat -> ciphertext_from (padded S0 sb) (U ++ T) = ciphertext_from S0 T.
Proof.
  intros LU. unfold ciphertext_from, padded. cbv zeta. cbn [sg_X_r sg_chunks sg_commitment]. rewrite !dot_skip by exact LU. rewrite map_map. f_equal. apply map_ext. intros c. apply dot_skip. exact LU.
Qed.
Lemma dot_skip_unit (Ps Qs : list (G2 E)) k i : length Ps = k -> dot (repeat fzero k ++ unit_row i) (Ps ++ Qs) = nth i Qs gzero.
Proof.
  revert Ps; induction k as [|k IH]; intros [|P Ps] Hl; try discriminate; [cbn [repeat app]; apply dot_unit_row|]. cbn [repeat app dot]. rewrite IH by (cbn in Hl; congruence). rewrite smul_0_l. apply gadd_0_l.
Qed.

Theorem C74_copying_strategies (msgs : list F) (i : nat) (rho : F) : (i < length msgs)%nat -> exists S : strategy E,
  dkg_extracted_r n nb m S = rho /\ dkg_extracted_chunks n nb m S = repeat 0 n /\
  forall coins run, length coins = (2 * n + 6 + 3 * length msgs)%nat -> ~ In (nth 4 coins fzero) xs ->
    dkg_execution pf B gens b before after msgs coins = Ok run ->
    let ct := ciphertext_from S (dkg_g1 gens run) in let q := proof_from S (dkg_g1 gens run) (dkg_g2 gens run) in
    exists ct0 q0, nth_error (dr_cps run) i = Some (ct0, q0) /\ ct = rerandomized (dr_ek run) rho ct0 /\
      q = Proof (pr_a q0) (pr_b q0) (pr_c q0 [+] (rho [*] ek_P_2 (dr_ek run))) /\
      verify_commitment_and_proof ct q (prepare_verifying_key (gpk_vk (pk_pk (dr_pk run)))) (prepare_ek (dr_ek run)) (prepare_gens gens) = Ok tt /\
      (ct_X_r ct0 <> gzero -> ~ exists g_i, get_gs_for_encryption (gpk_vk (pk_pk (dr_pk run))) = Ok g_i /\
         encrypts (dr_ek run) g_i (dkg_extracted_chunks n nb m S) (ct_vec ct) (dkg_extracted_r n nb m S)).
Proof.
  intros Hi. destruct (C73_copying_strategies n cs xs pf domain fuel b gens Hdom_ok Hb HbM Hcomp Hcount Hn0 Hcs Hdomain msgs i rho Hi) as (S0 & X1 & X2 & HS).
  destruct (dkg_as_central n cs xs pf domain fuel b gens Hb HbM Hcount Hn0 Hcs Hdomain before after Hbef Haft) as (rows1 & rows2 & _ & HC).
  set (sb := repeat fzero (m * (n + 1) + (1 + (3 + (cs_num_inst cs + cs_num_wit cs) + (n + 1)))) ++ @unit_row E i). exists (padded S0 sb). destruct (padded_extracts S0 sb) as [Y1 Y2]. rewrite Y1, Y2.
  split; [exact X1|]. split; [exact X2|]. intros coins run Lc Hin Hrun. cbv zeta. assert (Hv : vanishing_at xs (e 4 coins) <> fzero) by (rewrite vanishing_zero; exact Hin).
  destruct (HC msgs coins (repeat fzero (S n)) run Lc ltac:(apply repeat_length) Hv Hrun) as (Lk & E4 & Lcps & sk & dk & st' & Hset & Henc & _ & _ & (U1 & LU1 & EU1) & (U2 & W2 & LU2 & LW2 & EU2)).
  destruct (HS _ (dr_pk run) sk (dr_ek run) dk _ (dr_cps run) st' Lk ltac:(rewrite E4; exact Hin) Hset Henc) as (ct0 & q0 & Z1 & Z2 & Z3 & Z4 & Z5).
  assert (Ect : ciphertext_from (padded S0 sb) (dkg_g1 gens run) = ciphertext_from S0 (table_g1 gens (dr_pk run) (dr_ek run) (dr_cps run))) by (rewrite EU1; apply padded_ciphertext; exact LU1).
  assert (Eb : dot sb (dkg_g2 gens run) = pr_b q0).
  { assert (Es : dkg_g2 gens run = (U2 ++ eg_H gens :: W2) ++ map (fun cp => pr_b (snd cp)) (dr_cps run)) by (rewrite EU2, <- app_assoc; reflexivity).
    rewrite Es. unfold sb. rewrite dot_skip_unit by (rewrite app_length; cbn [length]; lia). erewrite nth_error_nth; [reflexivity|]. rewrite nth_error_map, Z1. reflexivity. }
  assert (Eq : proof_from (padded S0 sb) (dkg_g1 gens run) (dkg_g2 gens run) = proof_from S0 (table_g1 gens (dr_pk run) (dr_ek run) (dr_cps run)) (table_g2 gens (dr_pk run) (dr_ek run) dk (dr_cps run))).
  { rewrite Z3. pose proof (f_equal pr_a Z3) as A1. pose proof (f_equal pr_c Z3) as A2. unfold proof_from in A1, A2. cbn [pr_a pr_c] in A1, A2.
    unfold proof_from, padded. cbv zeta. cbn [sg_a sg_b sg_c]. rewrite Eb. rewrite EU1. rewrite !dot_skip by exact LU1. rewrite A1, A2. reflexivity. }
  rewrite Ect, Eq. exists ct0, q0. split; [exact Z1|]. split; [exact Z2|]. split; [exact Z3|]. split; [exact Z4|exact Z5].
Qed.

Theorem C74_every_known_execution_can_be_cheated (msgs coins : list F) run (ds : list Z) (r : F) :
  length coins = (2 * n + 6 + 3 * length msgs)%nat -> ~ In (nth 4 coins fzero) xs -> dkg_execution pf B gens b before after msgs coins = Ok run ->
  (forall ct0 q0, In (ct0, q0) (dr_cps run) -> ct_X_r ct0 <> gzero) -> length ds = n -> Forall (fun z => 0 <= z < modulus K) ds ->
  exists S : strategy E, dkg_extracted_chunks n nb m S = ds /\ dkg_extracted_r n nb m S = r /\
    let ct := ciphertext_from S (dkg_g1 gens run) in let q := proof_from S (dkg_g1 gens run) (dkg_g2 gens run) in
    verify_commitment_and_proof ct q (prepare_verifying_key (gpk_vk (pk_pk (dr_pk run)))) (prepare_ek (dr_ek run)) (prepare_gens gens) = Ok tt /\
    ~ exists ct0 q0, In (ct0, q0) (dr_cps run) /\ ct = rerandomized (dr_ek run) (dkg_extracted_r n nb m S) ct0.
Proof.
  intros Lc Hin Hrun Hx Lds Hds. assert (Hv : vanishing_at xs (e 4 coins) <> fzero) by (rewrite vanishing_zero; exact Hin).
  destruct (dkg_as_central n cs xs pf domain fuel b gens Hb HbM Hcount Hn0 Hcs Hdomain before after Hbef Haft) as (rows1 & rows2 & _ & HC).
  destruct (HC msgs coins (repeat fzero (S n)) run Lc ltac:(apply repeat_length) Hv Hrun) as (Lk & E4 & Lcps & sk & dk & st' & Hset & Henc & _ & _ & (U1 & LU1 & EU1) & (U2 & W2 & LU2 & LW2 & EU2)).
  set (c := centralk n before after coins (repeat fzero (S n))) in *. assert (Hvc : vanishing_at xs (e 4 c) <> fzero) by (rewrite E4; exact Hv).
  destruct (run_split n cs xs pf domain fuel b gens Hdom_ok Hb HbM Hcomp Hcount Hn0 Hcs Hdomain msgs c (dr_pk run) sk (dr_ek run) dk _ (dr_cps run) st' Lk Hvc Hset Henc) as (Hs0 & L0 & Hv0 & _).
  set (c0 := firstn (3 * n + 7) c) in *.
  destruct (pub_lengths n cs xs pf domain fuel b gens Hb HbM Hcount Hn0 Hcs Hdomain c0 _ sk _ dk [] ltac:(lia) Hv0 Hs0) as [LP1 LP2].
  destruct (known_setup_cheat_full gens pf domain fuel n b cs xs c0 _ sk _ dk [] ds r Hdom_ok (bits_of _ b Hb HbM) Hcount Hn0 Hcs Hdomain L0 ltac:(rewrite <- vanishing_zero; exact Hv0) Hs0 Lds Hds)
    as (S & A1 & A2 & A3 & A4 & A5).
  set (S1 := blind n cs xs S). set (sb := repeat fzero (m * (n + 1)) ++ [@fone K]).
  assert (HQ : (n < P1 n cs xs)%nat) by (unfold P1; lia).
  assert (X1 : extracted_chunks n S1 = ds).
  { rewrite <- A1. unfold extracted_chunks, S1, blind. cbn [sg_commitment]. apply map_ext_in. intros j Hj. apply in_seq in Hj. rewrite nth_front by lia. reflexivity. }
  assert (X2 : extracted_r n S1 = r) by (rewrite <- A2; unfold extracted_r, S1, blind; cbn [sg_commitment]; apply nth_front; lia).
  assert (X3 : ciphertext_from S1 (table_g1 gens (dr_pk run) (dr_ek run) (dr_cps run)) = forge_ciphertext S gens (dr_pk run) (dr_ek run)).
  { unfold ciphertext_from, forge_ciphertext, S1, blind, table_g1. cbn [sg_X_r sg_chunks sg_commitment]. rewrite !dot_front by exact LP1. rewrite map_map. f_equal. apply map_ext. intros c'. apply dot_front. exact LP1. }
  destruct (padded_extracts S1 sb) as [Y1 Y2]. exists (padded S1 sb). rewrite Y1, Y2, X1, X2. split; [reflexivity|]. split; [reflexivity|]. cbv zeta.
  assert (Ect : ciphertext_from (padded S1 sb) (dkg_g1 gens run) = forge_ciphertext S gens (dr_pk run) (dr_ek run)) by (rewrite EU1, padded_ciphertext by exact LU1; exact X3).
  assert (Eq : proof_from (padded S1 sb) (dkg_g1 gens run) (dkg_g2 gens run) = forge_proof S gens (dr_pk run) (dr_ek run) dk).
  { unfold proof_from, forge_proof, padded. cbv zeta. cbn [sg_a sg_b sg_c]. rewrite EU1, EU2, A3. rewrite !dot_skip by exact LU1. unfold sb. rewrite dot_skip2 by exact LU2.
    unfold S1, blind, table_g1. cbn [sg_a sg_c]. rewrite !dot_front by exact LP1. unfold public_g2. cbn [app dot]. rewrite gadd_0_r. reflexivity. }
  rewrite Ect, Eq. split; [exact A5|].
  intros (ct0 & q0 & Hi & Z). apply (Hx ct0 q0 Hi). apply (f_equal ct_X_r) in Z. rewrite A4 in Z. unfold rerandomized in Z. cbn [ct_X_r] in Z.
  apply (gadd_cancel_l (r [*] ek_X_0 (dr_ek run))). rewrite gadd_0_r, gadd_comm. symmetry. exact Z.
Qed.
End Sides.

(* One execution of three parties with one honest ciphertext on which one strategy of the first and the last is accepted with the chunks
   2^16, 0, 0, 0 and is no copy, and another is a copy and no encryption of chunks it knows. *)
Section First.
Context {E : pairing}.
Notation K := (K_of E).
Notation F := (Fr E).
Variables (n : nat) (cs : csys K) (xs : list F) (pf : profile) (domain : nat -> option (list F)) (fuel : nat) (b : Z) (gens : encryption_gens E).
Notation B := (ark_backend pf domain fuel).
Hypothesis HG : eg_G gens <> gzero.
Hypothesis Hdom_ok : domain_ok domain.
Hypothesis Hb : supported b.
Hypothesis HbM : 2 ^ b <= modulus K.
Hypothesis Hcomp : chunk_compatible K b.
Hypothesis Hcount : chunks_count K b = Ok (Z.of_nat n).
Hypothesis Hn0 : (0 < n)%nat.
Hypothesis Hcs : generate_constraints (BitsizeCheckCircuit b (Z.of_nat n) None true) (@cs_new K Circuit.Setup) = Ok cs.
Hypothesis Hdomain : domain (length (cs_cons cs) + cs_num_inst cs)%nat = Some xs.
Lemma first_not_zero msg coins pk sk ek dk rest cps st' : (3 * n + 7 <= length coins)%nat -> vanishing_at xs (nth 4 coins fzero) <> fzero ->
  setup_for_groth16 B (replay_rng E) b gens coins = Ok (pk, sk, ek, dk, rest) -> encrypt_all pf B (replay_rng E) [msg] ek pk b rest = Ok (cps, st') ->
  nth 3 coins fzero <> fzero -> fst (rand_scalar (replay_rng E) rest) <> fzero -> forall ct0 q0, In (ct0, q0) cps -> ct_X_r ct0 <> gzero.
Proof.
  intros Lc Hv Hset Henc Hd Hr ct0 q0 Hi. cbn [encrypt_all] in Henc. apply bind_Ok_inv in Henc. destruct Henc as ([[[ct r] q] s1] & Hrun & Henc). cbn [bind] in Henc.
  assert (Ec : cps = [(ct, q)]) by congruence. subst cps. destruct Hi as [Hi|[]]. assert (ct0 = ct) by congruence. subst ct0. clear Hi Henc.
  pose proof (setup_tape_rest n cs xs pf domain fuel b gens Hcount Hcs Hdomain (proj1 (cs_shape n cs xs b (bits_of _ b Hb HbM) Hn0 Hcs)) coins pk sk ek dk _ Lc Hv Hset) as (_ & _ & Hgs & _ & Hek & _).
  set (g_i := gis n cs xs gens coins) in *. assert (Lg : length g_i = n) by (unfold g_i, gis; rewrite map_length; apply seq_length).
  match type of Hek with ek = ek_formula _ _ ?d ?g ?s ?t0 ?t => destruct (ek_formula_lengths gens g_i d g s t0 t n ltac:(rewrite map_length; apply seq_length) ltac:(rewrite map_length; apply seq_length) ltac:(lia)) as (LX & LY & LZ) end.
  cbv zeta in LX, LY, LZ. rewrite <- Hek in LX, LY, LZ.
  destruct (hs_run n cs xs pf domain fuel b gens Hdom_ok Hb HbM Hcomp Hcount Hcs Hdomain msg) as (Ld & D & _).
  rewrite (first_element pf E b msg _ ek g_i pk rest ct r q s1 _ n Hrun Hgs D LX LY LZ (n256 n cs xs b Hcount Hn0) Ld Lg). rewrite Hek. cbn [ek_formula ek_X_0].
  intros Z. apply smul_eq_zero in Z. destruct Z as [Z|Z]; [exact (Hr Z)|]. apply smul_eq_zero in Z. destruct Z as [Z|Z]; [exact (Hd Z)|exact (HG Z)].
Qed.
Variables (before after : list (list F)).
Hypothesis Hbef : Forall (fun tape => length tape = (2 * n + 1)%nat) before.
Hypothesis Haft : Forall (fun tape => length tape = (2 * n + 1)%nat) after.
Lemma dkg_first_not_zero msg coins run : length coins = (2 * n + 6 + 3 * length [msg])%nat -> vanishing_at xs (nth 4 coins fzero) <> fzero ->
  dkg_execution pf B gens b before after [msg] coins = Ok run -> nth 3 coins fzero <> fzero -> nth (2 * n + 6) coins fzero <> fzero -> forall ct0 q0, In (ct0, q0) (dr_cps run) -> ct_X_r ct0 <> gzero.
Proof.
  intros Lc Hv Hrun Hd Hr.
  destruct (dkg_as_central n cs xs pf domain fuel b gens Hb HbM Hcount Hn0 Hcs Hdomain before after Hbef Haft) as (rows1 & rows2 & _ & HC).
  destruct (HC [msg] coins (repeat fzero (S n)) run Lc ltac:(apply repeat_length) Hv Hrun) as (Lk & E4 & _ & sk & dk & st' & Hset & Henc & _).
  assert (E3 : nth 3 (centralk n before after coins (repeat fzero (S n))) fzero = nth 3 coins fzero).
  { assert (L0 : length (firstn (2 * n + 6) coins) = (2 * n + 6)%nat) by (rewrite firstn_length; lia).
    destruct (shiftd_split n cs xs b Hn0 before after (firstn (2 * n + 6) coins) (repeat fzero (S n)) L0 ltac:(apply repeat_length)) as (al & be & ga & de & ta & sh & t0 & t & rho & v & E0 & _ & _ & _ & _ & Ec).
    unfold centralk. rewrite Ec. cbn [app nth]. rewrite <- (nth_front fzero (2 * n + 6) 3 coins) by lia. rewrite E0. reflexivity. }
  refine (first_not_zero msg _ (dr_pk run) sk (dr_ek run) dk _ (dr_cps run) st' _ _ Hset Henc _ _); [rewrite Lk; lia|rewrite E4; exact Hv|rewrite E3; exact Hd|].
  intros Z. apply Hr. rewrite <- Z. rewrite <- (firstn_skipn (2 * n + 6) coins) at 1. rewrite app_nth2; rewrite firstn_length_le by lia; [|lia]. rewrite Nat.sub_diag.
  destruct (skipn (2 * n + 6) coins); reflexivity.
Qed.
End First.
Definition u_coins : list (Fr E61) := firstn 14 z_tape ++ [nz61 3; nz61 5; nz61 7].
Lemma u_rest : nth (2 * 4 + 6) u_coins fzero <> fzero.
Proof. assert (Z : nth (2 * 4 + 6) u_coins fzero = nz61 3) by reflexivity. rewrite Z. exact nz3. Qed.
Example C74_case (pf : profile) (msg : Fr E61) : exists (cs : csys K61) run (S S' : strategy E61),
  let before := [map nz61 [2; 3; 4; 5; 6; 7; 8; 9; 10]] in let after := [map nz61 [12; 13; 14; 15; 16; 17; 18; 19; 20]] in
  generate_constraints (BitsizeCheckCircuit 16 (Z.of_nat 4) None true) (cs_new Circuit.Setup) = Ok cs /\
  y_domain (length (cs_cons cs) + cs_num_inst cs)%nat = Some y_xs /\ length u_coins = (2 * 4 + 6 + 3 * length [msg])%nat /\
  dkg_execution pf (ark_backend pf y_domain 3) x_gens 16 before after [msg] u_coins = Ok run /\ length (dr_parts run) = 3%nat /\ length (dr_cps run) = 1%nat /\
  (let ct := ciphertext_from S (dkg_g1 x_gens run) in let q := proof_from S (dkg_g1 x_gens run) (dkg_g2 x_gens run) in
   verify_commitment_and_proof ct q (prepare_verifying_key (gpk_vk (pk_pk (dr_pk run)))) (prepare_ek (dr_ek run)) (prepare_gens x_gens) = Ok tt /\
   ~ digits_ok 16 (dkg_extracted_chunks 4 1 3 S) /\ ~ exists ct0 q0, In (ct0, q0) (dr_cps run) /\ ct = rerandomized (dr_ek run) (dkg_extracted_r 4 1 3 S) ct0) /\
  (let ct := ciphertext_from S' (dkg_g1 x_gens run) in let q := proof_from S' (dkg_g1 x_gens run) (dkg_g2 x_gens run) in
   verify_commitment_and_proof ct q (prepare_verifying_key (gpk_vk (pk_pk (dr_pk run)))) (prepare_ek (dr_ek run)) (prepare_gens x_gens) = Ok tt /\
   ~ exists g_i, get_gs_for_encryption (gpk_vk (pk_pk (dr_pk run))) = Ok g_i /\ encrypts (dr_ek run) g_i (dkg_extracted_chunks 4 1 3 S') (ct_vec ct) (dkg_extracted_r 4 1 3 S')).
Proof.
  destruct z_cs as (cs & Hcs & Hd). destruct y_conditions as (C1 & C2 & C3 & C4). assert (H4 : (0 < 4)%nat) by lia. assert (H3 : (0 < 3)%nat) by lia.
  assert (HG : eg_G x_gens <> gzero) by (intros H; apply (f_equal sval) in H; vm_compute in H; discriminate H).
  assert (Hbef : Forall (fun tape : list (Fr E61) => length tape = (2 * 4 + 1)%nat) [map nz61 [2; 3; 4; 5; 6; 7; 8; 9; 10]]) by (constructor; [reflexivity|constructor]).
  assert (Haft : Forall (fun tape : list (Fr E61) => length tape = (2 * 4 + 1)%nat) [map nz61 [12; 13; 14; 15; 16; 17; 18; 19; 20]]) by (constructor; [reflexivity|constructor]).
  assert (Hl : length u_coins = (2 * 4 + 6 + 3 * length [msg])%nat) by reflexivity.
  assert (Hv : vanishing_at y_xs (nth 4 u_coins fzero) <> fzero) by (rewrite vanishing_zero; exact z_in).
  destruct (C67_experiment_shows_accepted_ciphertexts E61 x_gens pf y_domain 3 4 16 cs y_xs _ _ [msg] u_coins HG x_H y_domain_ok C1 C2 C3 C4 y_count H4 H3 Hcs Hd Hbef Haft Hl z_gamma z_delta z_in)
    as (run & g_i & parties & A1 & _ & A2 & A3 & _ & _ & A4 & _).
  pose proof (dkg_first_not_zero 4 cs y_xs pf y_domain 3 16 x_gens HG y_domain_ok C1 C2 (conj C3 C4) y_count H4 Hcs Hd _ _ Hbef Haft msg u_coins run Hl Hv A1 z_delta u_rest) as Hx.
  destruct (C74_every_known_execution_can_be_cheated 4 cs y_xs pf y_domain 3 16 x_gens y_domain_ok C1 C2 (conj C3 C4) y_count H4 Hcs Hd _ _ Hbef Haft [msg] u_coins run [2 ^ 16; 0; 0; 0] (nz61 55)
    Hl z_in A1 Hx eq_refl z_small) as (S & S1 & _ & S3). cbv zeta in S3. destruct S3 as [S3 S4].
  destruct (C74_copying_strategies 4 cs y_xs pf y_domain 3 16 x_gens y_domain_ok C1 C2 (conj C3 C4) y_count H4 Hcs Hd _ _ Hbef Haft [msg] 0 (nz61 55) ltac:(cbn [length]; lia)) as (S' & _ & _ & T).
  destruct (T u_coins run Hl z_in A1) as (ct0 & q0 & T1 & _ & _ & T4 & T5). apply nth_error_In in T1. specialize (T5 (Hx ct0 q0 T1)).
  exists cs, run, S, S'. cbv zeta. split; [exact Hcs|]. split; [exact Hd|]. split; [exact Hl|]. split; [exact A1|]. split; [rewrite A2, map_length; exact A3|]. split; [exact A4|]. split.
  - split; [exact S3|]. split; [|exact S4]. intros X. cbn [length Nat.add] in S1. rewrite S1 in X. apply Forall_inv in X. lia.
  - split; [exact T4|exact T5].
Qed.
