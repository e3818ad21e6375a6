(* PropSoundDkg.v -- C69: knowledge soundness when the encryption key is made by the distributed key generation and the prover is all parties but one *)
From Verif Require Import Base BaseFacts Algebra Utils UtilsFacts Setup Keygen Encryption Circuit CircuitFacts CircuitSat CommitmentFacts VecFacts KeySpec KeygenFacts
  EncryptFacts DecryptFacts Spec VerifyFacts Protocol ReencFacts DistFacts PropVerify Groth16 ArkGroth16 PolyFacts Groth16Spec ArkFacts Groth16Facts SchwartzZippel SoundCore SoundSpec
  SoundAlg SoundGame SoundLink SoundFacts SoundCount SoundHonest Instance Examples PropGroth16 PropGroth16Cases PropSoundCases PropZK PrivacySpec PrivacyAlg PrivacyGame PrivacyLink PrivacyCount
  PropPrivacy PrivacySpan PrivacyMany PrivacyDkgSpec PrivacyDkg PropPrivacyDkg SoundAdaptSpec SoundAdapt SoundDkgSpec SoundDkg.

(* The coins of one execution are 2n+6 scalars: five for the SRS and the 2n+1 secrets of the honest party.  The tapes of the other parties
   are fixed before the coins are drawn and are otherwise arbitrary; the prover, which may depend on them, sees every contribution, every
   P_1 share, the final key and the SRS, tests adaptively products of pairings of what it sees, and outputs linear combinations of it. *)

(* C69.  The coins on which the coalition gets something accepted that is not an encryption of the b-bit chunks read off its coefficients
   are at most a fraction (4N + 7(3n+6) + (number of tests) (3N + 7(3n+6)))/p of all. *)
Theorem C69_all_but_one_party_know_what_they_encrypt (E : pairing) (gens : encryption_gens E) (pf : profile)
    (domain : nat -> option (list (Fr E))) (fuel n : nat) (b : Z) (cs : csys (K_of E)) (xs : list (Fr E)) (before after : list (list (Fr E)))
    (P : prover E) (L : list (list (Fr E))) :
  eg_G gens <> gzero -> eg_H gens <> gzero -> domain_ok domain -> supported b -> 2 ^ b <= modulus (K_of E) ->
  chunks_count (K_of E) b = Ok (Z.of_nat n) -> (0 < n)%nat ->
  generate_constraints (BitsizeCheckCircuit b (Z.of_nat n) None true) (cs_new Circuit.Setup) = Ok cs ->
  domain (length (cs_cons cs) + cs_num_inst cs)%nat = Some xs ->
  Forall (fun tape => length tape = (2 * n + 1)%nat) before -> Forall (fun tape => length tape = (2 * n + 1)%nat) after ->
  NoDup L ->
  let nb := length before in let m := (length before + 1 + length after)%nat in
  (forall coins, In coins L -> length coins = (2 * n + 6)%nat /\ exists run,
     dkg_execution pf (ark_backend pf domain fuel) gens b before after [] coins = Ok run /\
     let S := play P (dkg_g1 gens run) (dkg_g2 gens run) in
     let ct := ciphertext_from S (dkg_g1 gens run) in let q := proof_from S (dkg_g1 gens run) (dkg_g2 gens run) in
     verify_commitment_and_proof ct q (prepare_verifying_key (gpk_vk (pk_pk (dr_pk run)))) (prepare_ek (dr_ek run)) (prepare_gens gens) = Ok tt /\
     ~ (digits_ok b (dkg_extracted_chunks n nb m S) /\ exists g_i, get_gs_for_encryption (gpk_vk (pk_pk (dr_pk run))) = Ok g_i /\
        encrypts (dr_ek run) g_i (dkg_extracted_chunks n nb m S) (ct_vec ct) (dkg_extracted_r n nb m S))) ->
  Z.of_nat (length L) * modulus (K_of E) <=
  (Z.of_nat (tests P) * (3 * Z.of_nat (length xs) + 7 * (3 * Z.of_nat n + 6)) + (4 * Z.of_nat (length xs) + 7 * (3 * Z.of_nat n + 6))) * modulus (K_of E) ^ Z.of_nat (2 * n + 6).
Proof.
  intros HG HH Hd Hb HbM Hc Hn Hcs Hxs Hbef Haft Hnd nb m HL. pose proof (bits_of _ b Hb HbM) as Hbits.
  apply (dkg_adaptive_bound n cs xs pf domain fuel b gens HG HH Hb HbM Hc Hn Hcs Hxs before after Hbef Haft) with (bad := fun ds r ct q pk ek =>
     verify_commitment_and_proof ct q (prepare_verifying_key (gpk_vk (pk_pk pk))) (prepare_ek ek) (prepare_gens gens) = Ok tt /\
     ~ (digits_ok b ds /\ exists g_i, get_gs_for_encryption (gpk_vk (pk_pk pk)) = Ok g_i /\ encrypts ek g_i ds (ct_vec ct) r)).
  - intros S L0 Hnd0 HL0. eapply cheat_bound; try eassumption; lia.
  - exact Hnd.
  - exact HL.
Qed.

(* The same for the commitment check without the proof. *)
Theorem C69_all_but_one_party_commitment_check_alone (E : pairing) (gens : encryption_gens E) (pf : profile)
    (domain : nat -> option (list (Fr E))) (fuel n : nat) (b : Z) (cs : csys (K_of E)) (xs : list (Fr E)) (before after : list (list (Fr E)))
    (P : prover E) (L : list (list (Fr E))) :
  eg_G gens <> gzero -> eg_H gens <> gzero -> domain_ok domain -> supported b -> 2 ^ b <= modulus (K_of E) ->
  chunks_count (K_of E) b = Ok (Z.of_nat n) -> (0 < n)%nat ->
  generate_constraints (BitsizeCheckCircuit b (Z.of_nat n) None true) (cs_new Circuit.Setup) = Ok cs ->
  domain (length (cs_cons cs) + cs_num_inst cs)%nat = Some xs ->
  Forall (fun tape => length tape = (2 * n + 1)%nat) before -> Forall (fun tape => length tape = (2 * n + 1)%nat) after ->
  NoDup L ->
  let nb := length before in let m := (length before + 1 + length after)%nat in
  (forall coins, In coins L -> length coins = (2 * n + 6)%nat /\ exists run,
     dkg_execution pf (ark_backend pf domain fuel) gens b before after [] coins = Ok run /\
     let S := play P (dkg_g1 gens run) (dkg_g2 gens run) in
     let ct := ciphertext_from S (dkg_g1 gens run) in
     verify_commitment ct (prepare_ek (dr_ek run)) (prepare_gens gens) = Ok tt /\
     ~ (exists g_i, get_gs_for_encryption (gpk_vk (pk_pk (dr_pk run))) = Ok g_i /\
        encrypts (dr_ek run) g_i (dkg_extracted_chunks n nb m S) (ct_vec ct) (dkg_extracted_r n nb m S))) ->
  Z.of_nat (length L) * modulus (K_of E) <=
  (Z.of_nat (tests P) * (3 * Z.of_nat (length xs) + 7 * (3 * Z.of_nat n + 6)) + (4 * Z.of_nat (length xs) + 7 * (3 * Z.of_nat n + 6))) * modulus (K_of E) ^ Z.of_nat (2 * n + 6).
Proof.
  intros HG HH Hd Hb HbM Hc Hn Hcs Hxs Hbef Haft Hnd nb m HL. pose proof (bits_of _ b Hb HbM) as Hbits.
  apply (dkg_adaptive_bound n cs xs pf domain fuel b gens HG HH Hb HbM Hc Hn Hcs Hxs before after Hbef Haft) with (bad := fun ds r ct q pk ek =>
     verify_commitment ct (prepare_ek ek) (prepare_gens gens) = Ok tt /\
     ~ (exists g_i, get_gs_for_encryption (gpk_vk (pk_pk pk)) = Ok g_i /\ encrypts ek g_i ds (ct_vec ct) r)).
  - intros S L0 Hnd0 HL0. eapply commitment_cheat_bound; try eassumption; lia.
  - exact Hnd.
  - exact HL.
Qed.

(* The order of the quantifiers matters: whoever knows the honest party's coins too can have any chunks accepted, with any randomness
   read off, whatever the tapes of the others. *)
Lemma dot_skip {E : pairing} (c : list (Fr E)) (Ps Qs : list (G1 E)) k : length Ps = k -> dot (repeat fzero k ++ c) (Ps ++ Qs) = dot c Qs.
Proof.
  revert Ps; induction k as [|k IH]; intros [|P Ps] Hl; try discriminate; [reflexivity|]. cbn [repeat app dot]. rewrite IH by (cbn in Hl; congruence). rewrite smul_0_l. apply gadd_0_l.
Qed.
Lemma dot_skip2 {E : pairing} (x : Fr E) (Ps Qs : list (G2 E)) Q k : length Ps = k -> dot (repeat fzero k ++ [x]) (Ps ++ Q :: Qs) = x [*] Q.
Proof.
  revert Ps; induction k as [|k IH]; intros [|P Ps] Hl; try discriminate; [cbn [repeat app dot]; apply gadd_0_r|]. cbn [repeat app dot]. rewrite IH by (cbn in Hl; congruence). rewrite smul_0_l. apply gadd_0_l.
Qed.
Lemma nth_pad {E : pairing} (c : list (Fr E)) k i : nth (k + i) (repeat fzero k ++ c) fzero = nth i c fzero.
Proof. induction k as [|k IH]; [reflexivity|]. cbn [repeat app Nat.add nth]. exact IH. Qed.
Lemma nth_padl {E : pairing} (c : list (Fr E)) k i : (i < k)%nat -> nth i (repeat fzero k ++ c) fzero = @fzero (K_of E).
Proof. revert i; induction k as [|k IH]; intros [|i] Hi; try lia; [reflexivity|]. cbn [repeat app nth]. apply IH. lia. Qed.
Section Known.
Context {E : pairing}.
Add Ring Krk : (@scalar_ring_theory (K_of E)).
Theorem C69_every_known_execution_can_be_cheated (gens : encryption_gens E) (pf : profile)
    (domain : nat -> option (list (Fr E))) (fuel n : nat) (b : Z) (cs : csys (K_of E)) (xs : list (Fr E)) (before after : list (list (Fr E))) (coins : list (Fr E))
    run (ds : list Z) (r : Fr E) :
  domain_ok domain -> supported b -> 2 ^ b <= modulus (K_of E) -> chunks_count (K_of E) b = Ok (Z.of_nat n) -> (0 < n)%nat ->
  generate_constraints (BitsizeCheckCircuit b (Z.of_nat n) None true) (cs_new Circuit.Setup) = Ok cs ->
  domain (length (cs_cons cs) + cs_num_inst cs)%nat = Some xs ->
  Forall (fun tape => length tape = (2 * n + 1)%nat) before -> Forall (fun tape => length tape = (2 * n + 1)%nat) after ->
  length coins = (2 * n + 6)%nat -> ~ In (nth 4 coins fzero) xs ->
  dkg_execution pf (ark_backend pf domain fuel) gens b before after [] coins = Ok run ->
  length ds = n -> Forall (fun z => 0 <= z < modulus (K_of E)) ds ->
  let nb := length before in let m := (length before + 1 + length after)%nat in
  exists S : strategy E, dkg_extracted_chunks n nb m S = ds /\ dkg_extracted_r n nb m S = r /\
    verify_commitment_and_proof (ciphertext_from S (dkg_g1 gens run)) (proof_from S (dkg_g1 gens run) (dkg_g2 gens run))
      (prepare_verifying_key (gpk_vk (pk_pk (dr_pk run)))) (prepare_ek (dr_ek run)) (prepare_gens gens) = Ok tt.
Proof.
  intros Hd Hb HbM Hc Hn Hcs Hxs Hbef Haft Hl Hin Hrun Lds Hds nb m. pose proof (bits_of _ b Hb HbM) as Hbits.
  assert (Hv : vanishing_at xs (nth 4 coins fzero) <> fzero) by (rewrite vanishing_zero; exact Hin).
  destruct (dkg_central n cs xs pf domain fuel b gens Hb HbM Hc Hn Hcs Hxs before after Hbef Haft coins run Hl Hv Hrun) as (c & rho & dk & Lc & E4 & Hset & (P1 & LP & EP) & (Q1 & Q2 & LQ & EQ)).
  fold m in LP, LQ.
  destruct (known_setup_cheat gens pf domain fuel n b cs xs c (dr_pk run) rho (dr_ek run) dk [] ds r Hd Hbits Hc Hn Hcs Hxs Lc ltac:(rewrite E4; exact Hin) Hset Lds Hds) as (S & A1 & A2 & A3 & A4).
  set (pad := fun c : list (Fr E) => repeat fzero (m * (2 * n + 3)) ++ c).
  exists (Strategy (pad (sg_a S)) (repeat fzero (m * (n + 1)) ++ [fone]) (pad (sg_c S)) (pad (sg_X_r S)) (map pad (sg_chunks S)) (pad (sg_commitment S))).
  assert (Hpad : forall x, dot (pad x) (dkg_g1 gens run) = dot x (public_g1 gens (dr_pk run) (dr_ek run))) by (intros x; rewrite EP; apply dot_skip; exact LP).
  split; [|split].
  - rewrite <- A1. unfold dkg_extracted_chunks, extracted_chunks. cbn [sg_commitment]. apply map_ext_in. intros j Hj. apply in_seq in Hj. f_equal. unfold pad.
    rewrite nth_pad, nth_padl by (unfold nb, m; nia). ring.
  - rewrite <- A2. unfold dkg_extracted_r, extracted_r. cbn [sg_commitment]. unfold pad. rewrite nth_pad, nth_padl by (unfold nb, m; nia). ring.
  - assert (EC : ciphertext_from (Strategy (pad (sg_a S)) (repeat fzero (m * (n + 1)) ++ [fone]) (pad (sg_c S)) (pad (sg_X_r S)) (map pad (sg_chunks S)) (pad (sg_commitment S))) (dkg_g1 gens run) = forge_ciphertext S gens (dr_pk run) (dr_ek run)).
    { unfold ciphertext_from, forge_ciphertext. cbn [sg_X_r sg_chunks sg_commitment]. rewrite !Hpad, map_map. f_equal. apply map_ext. exact Hpad. }
    assert (EQ' : proof_from (Strategy (pad (sg_a S)) (repeat fzero (m * (n + 1)) ++ [fone]) (pad (sg_c S)) (pad (sg_X_r S)) (map pad (sg_chunks S)) (pad (sg_commitment S))) (dkg_g1 gens run) (dkg_g2 gens run) = forge_proof S gens (dr_pk run) (dr_ek run) dk).
    { unfold proof_from, forge_proof. cbn [sg_a sg_b sg_c]. rewrite !Hpad, A3. f_equal. rewrite EQ, dot_skip2 by exact LQ. unfold public_g2. cbn [app dot]. symmetry. apply gadd_0_r. }
    rewrite EC, EQ'. exact A4.
Qed.
End Known.

(* One execution of three parties on which a strategy, knowing all coins, has the chunks 2^16, 0, 0, 0 accepted: the hypotheses of C69 can be
   met by a list of coins that is not empty. *)
Example C69_case (pf : profile) : exists (cs : csys K61) run (P : prover E61),
  let before := [map nz61 [2; 3; 4; 5; 6; 7; 8; 9; 10]] in let after := [map nz61 [12; 13; 14; 15; 16; 17; 18; 19; 20]] in
  generate_constraints (BitsizeCheckCircuit 16 (Z.of_nat 4) None true) (cs_new Circuit.Setup) = Ok cs /\
  y_domain (length (cs_cons cs) + cs_num_inst cs)%nat = Some y_xs /\ length (firstn 14 z_tape) = (2 * 4 + 6)%nat /\
  dkg_execution pf (ark_backend pf y_domain 3) x_gens 16 before after [] (firstn 14 z_tape) = Ok run /\ length (dr_parts run) = 3%nat /\
  let S := play P (dkg_g1 x_gens run) (dkg_g2 x_gens run) in
  verify_commitment_and_proof (ciphertext_from S (dkg_g1 x_gens run)) (proof_from S (dkg_g1 x_gens run) (dkg_g2 x_gens run))
    (prepare_verifying_key (gpk_vk (pk_pk (dr_pk run)))) (prepare_ek (dr_ek run)) (prepare_gens x_gens) = Ok tt /\
  dkg_extracted_chunks 4 1 3 S = [2 ^ 16; 0; 0; 0] /\ ~ digits_ok 16 (dkg_extracted_chunks 4 1 3 S).
Proof.
  destruct z_cs as (cs & Hcs & Hd). destruct y_conditions as (C1 & C2 & C3 & C4). assert (H4 : (0 < 4)%nat) by lia. assert (H3 : (0 < 3)%nat) by lia.
  assert (HG : eg_G x_gens <> gzero) by (intros H; apply (f_equal sval) in H; vm_compute in H; discriminate H).
  assert (Hbef : Forall (fun tape : list (Fr E61) => length tape = (2 * 4 + 1)%nat) [map nz61 [2; 3; 4; 5; 6; 7; 8; 9; 10]]) by (constructor; [reflexivity|constructor]).
  assert (Haft : Forall (fun tape : list (Fr E61) => length tape = (2 * 4 + 1)%nat) [map nz61 [12; 13; 14; 15; 16; 17; 18; 19; 20]]) by (constructor; [reflexivity|constructor]).
  assert (Hl : length (firstn 14 z_tape) = (2 * 4 + 6)%nat) by reflexivity.
  destruct (C67_experiment_shows_accepted_ciphertexts E61 x_gens pf y_domain 3 4 16 cs y_xs _ _ [] (firstn 14 z_tape) HG x_H y_domain_ok C1 C2 C3 C4 y_count H4 H3 Hcs Hd Hbef Haft Hl z_gamma z_delta z_in)
    as (run & g_i & parties & A1 & _ & A2 & A3 & _).
  destruct (C69_every_known_execution_can_be_cheated x_gens pf y_domain 3 4 16 cs y_xs _ _ (firstn 14 z_tape) run [2 ^ 16; 0; 0; 0] (nz61 55) y_domain_ok C1 C2 y_count H4 Hcs Hd Hbef Haft Hl z_in A1 eq_refl z_small) as (S & HS & _ & Hver).
  exists cs, run, (Output S). cbv zeta. cbn [play]. split; [exact Hcs|]. split; [exact Hd|]. split; [exact Hl|]. split; [exact A1|]. split; [rewrite A2, map_length; exact A3|]. split; [exact Hver|].
  split; [exact HS|]. intros X. cbn [length Nat.add] in HS. rewrite HS in X. apply Forall_inv in X. lia.
Qed.
