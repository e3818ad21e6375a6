(* PropSoundCases.v -- the two sides of C59-C61: the honest prover is one of the strategies (and is always accepted), and the
   order of the quantifiers matters: for every single setup there is a strategy that cheats on it. *)
From Verif Require Import Base BaseFacts Algebra Utils UtilsFacts Setup Commitment CommitmentFacts Keygen KeygenFacts Encryption EncryptFacts
  DecryptFacts RoundTrip VerifyFacts Spec KeySpec VecFacts Protocol ReencFacts DistFacts PropVerify Circuit CircuitFacts CircuitSat
  Groth16 ArkGroth16 PolyFacts Groth16Spec ArkFacts Groth16Facts Instance Examples PropGroth16 PropGroth16Cases SchwartzZippel SoundCore SoundSpec SoundAlg SoundGame SoundLink
  SoundFacts SoundCount SoundHonest PropSound.

Section Sides.
Context {E : pairing}.
Notation K := (K_of E).
Notation F := (Fr E).
Add Ring Krs : (@scalar_ring_theory K).

(* encrypt_with_proof on fixed message and randomness is a strategy: one S for all setups, accepted on every setup, and the extractor
   reads the digits of the message and the encryption randomness off it *)
Lemma honest_strategy_run (gens : encryption_gens E) (pf : profile)
    (domain : nat -> option (list F)) (fuel n : nat) (b : Z) (cs : csys K) (xs : list F) (msg r rr ss : F) :
  domain_ok domain -> supported b -> 2 ^ b <= modulus K -> 64 * Z.of_nat (limbs K) - b < modulus_bit_size K -> 64 * Z.of_nat (limbs K) < 256 * b ->
  chunks_count K b = Ok (Z.of_nat n) ->
  generate_constraints (BitsizeCheckCircuit b (Z.of_nat n) None true) (cs_new Circuit.Setup) = Ok cs ->
  domain (length (cs_cons cs) + cs_num_inst cs)%nat = Some xs ->
  exists sp ds, let S := honest_strategy n cs xs sp ds r rr ss in length ds = n /\
  generate_constraints (BitsizeCheckCircuit b (Z.of_nat n) (Some (map (fun m => of_Z m) ds)) true) (@cs_new K Prove) = Ok sp /\ decompose pf msg b = Ok ds /\ extracted_chunks n S = ds /\ extracted_r n S = r /\
  forall tape pk sk ek dk st', length tape = (3 * n + 7)%nat -> ~ In (nth 4 tape fzero) xs ->
    setup_for_groth16 (ark_backend pf domain fuel) (replay_rng E) b gens tape = Ok (pk, sk, ek, dk, st') ->
    encrypt_with_proof pf (ark_backend pf domain fuel) (replay_rng E) msg ek pk b [r; rr; ss]
      = Ok (forge_ciphertext S gens pk ek, r, forge_proof S gens pk ek dk, []) /\
    verify_commitment_and_proof (forge_ciphertext S gens pk ek) (forge_proof S gens pk ek dk)
      (prepare_verifying_key (gpk_vk (pk_pk pk))) (prepare_ek ek) (prepare_gens gens) = Ok tt.
Proof.
  intros Hdom Hb HM H1 H2 Hn Hcs Hxs.
  assert (Hbp : 0 < b) by (destruct Hb as [->|[->| ->]]; lia).
  assert (Hbits : 0 < b <= modulus_bit_size K) by (split; [exact Hbp|apply bits_ge; [lia|exact HM]]).
  destruct (decompose_spec pf K msg b Hb) as (ds & Hd & Hdr & Hdv & Hdl).
  destruct (compatible_count pf b msg ds Hb (conj H1 H2) Hd) as [Hcnt Hpos].
  assert (Hdn : length ds = n). { rewrite Hn in Hcnt. assert (A : Z.of_nat n = Z.of_nat (length ds)) by congruence. lia. }
  set (vs := map (fun m => @of_Z K m) ds).
  destruct (@generate_setup K b (Z.of_nat n) true ltac:(lia)) as (s & Hs & Hi & Hw & Hc). rewrite Hcs in Hs. injection Hs as <-. rewrite Nat2Z.id in Hi, Hc.
  destruct (@generate_prove K b (Z.of_nat n) true vs ltac:(lia)) as (sp & Hsp & Hip & Hwp & Hcp & Hinst & Hwit).
  assert (Lv : length vs = n) by (unfold vs; rewrite map_length; exact Hdn). rewrite Lv in *.
  exists sp, ds. cbv zeta. split; [exact Hdn|]. split; [exact Hsp|]. split; [exact Hd|].
  assert (Hsmall : Forall (fun z => 0 <= z < modulus K) ds). { eapply Forall_impl; [|exact Hdr]. intros z Hz; cbn beta in Hz. lia. }
  destruct (honest_extracts n cs xs b Hbits ltac:(lia) Hcs sp ds r rr ss Hdn Hsmall) as [X1 X2]. split; [exact X1|]. split; [exact X2|].
  intros tape pk sk ek dk st' Hl Hin Hset.
  assert (Hv : vanishing_at xs (nth 4 tape fzero) <> fzero) by (rewrite vanishing_zero; exact Hin).
  assert (Hn0 : (0 < n)%nat) by lia.
  pose proof (setup_shape n cs xs pf domain fuel b gens Hbits Hn Hn0 Hcs Hxs tape pk sk ek dk st' Hl Hv Hset) as Hsh.
  pose proof (setup_tape n cs xs pf domain fuel b gens Hn Hcs Hxs Hi tape pk sk ek dk st' Hl Hv Hset) as (_ & _ & Hg & Hsk & Hek & Hdk & Hdel & Hgam & _).
  set (g_i := gis n cs xs gens tape) in *.
  assert (Lg : length g_i = n) by (unfold g_i, gis; rewrite map_length, seq_length; reflexivity).
  destruct (ek_formula_lengths gens g_i (nth 3 tape fzero [*] eg_G gens) (fneg (nth 2 tape fzero) [*] eg_G gens) (map (e_s tape) (seq 0 n)) (e_t n tape 0) (map (fun j => e_t n tape (S j)) (seq 0 n)) n
    ltac:(rewrite map_length, seq_length; reflexivity) ltac:(rewrite map_length, seq_length; reflexivity) ltac:(lia)) as (LX & LY & LZ). cbv zeta in LX, LY, LZ. rewrite <- Hek in LX, LY, LZ.
  unfold setup_for_groth16 in Hset. apply bind_Ok_inv in Hset. destruct Hset as (circ & Hcirc & Hset).
  apply bind_Ok_inv in Hset. destruct Hset as ([pk0 st1] & Hsrs & Hset). apply bind_Ok_inv in Hset. destruct Hset as (g_i' & Hg' & Hset).
  apply bind_Ok_inv in Hset. destruct Hset as ([[[sk0 ek0] dk0] st2] & Hk & Hset).
  assert (pk0 = pk) by congruence. assert (ek0 = ek) by congruence. assert (sk0 = sk) by congruence. assert (dk0 = dk) by congruence. clear Hset. subst pk0 ek0 sk0 dk0.
  assert (Q : g_i' = g_i) by congruence. subst g_i'.
  destruct (with_proof_any_key pf E (ark_backend pf domain fuel) (replay_rng E) b circ gens pk g_i ek msg [r; rr; ss] (ark_backend_correct pf domain fuel Hdom) Hb HM (conj H1 H2) Hcirc)
    as (ct & r' & p & sa & sb & Hrun & Henc & Hver); [exists (replay_rng E), tape, st1; exact Hsrs|exact Hg|left; exists sk, dk, (replay_rng E), st1, st2; exact Hk|].
  pose proof (encrypt_chunks_ok (replay_rng E) ds ek g_i [r; rr; ss] ltac:(lia) ltac:(lia) ltac:(pose proof (chunks_count_range _ _ _ Hn); lia) ltac:(lia) ltac:(lia)) as He.
  change (rand_scalar (replay_rng E) [r; rr; ss]) with (r, [rr; ss]) in He. cbn [fst snd] in He.
  assert (Henc' : encrypt pf (replay_rng E) msg ek g_i b [r; rr; ss] = Ok (ct_formula ek g_i ds r, r, [rr; ss])).
  { unfold encrypt. rewrite Hd. cbn [bind]. rewrite He. cbn [bind]. rewrite ct_of_vec_ct_vec. reflexivity. }
  rewrite Henc' in Henc. injection Henc as Ect Er Esa. subst r'.
  pose proof (honest_ciphertext_is_forged n cs xs b gens Hbits Hn0 Hcs pk ek g_i sp ds r rr ss Hsh Hdn Hg) as Fct. rewrite Ect in Fct. 
  assert (Hpf : p = forge_proof (honest_strategy n cs xs sp ds r rr ss) gens pk ek dk /\ sb = []).
  { pose proof Hrun as Hw'. unfold encrypt_with_proof in Hw'. rewrite Hg in Hw'. cbn [bind] in Hw'. rewrite Henc' in Hw'. cbn [bind] in Hw'. rewrite Hd in Hw'. cbn [bind] in Hw'.
    unfold circuit_new in Hw'. rewrite Hn in Hw'. cbn [bind] in Hw'. fold vs in Hw'. apply bind_Ok_inv in Hw'. destruct Hw' as ([p' st3] & Hp & Hw'). injection Hw' as _ -> ->.
    eapply honest_proof_is_forged; [exact Hxs|exact Hsh|rewrite LZ; lia|exact Hsp|rewrite Hcp, Hc; reflexivity|rewrite Hip, Hi; reflexivity|exists vs; exact Hinst|exact Hp]. }
  destruct Hpf as [-> ->]. rewrite Fct in Hrun, Hver. split; assumption.
Qed.
Theorem C59_honest_prover_is_a_strategy (gens : encryption_gens E) (pf : profile)
    (domain : nat -> option (list F)) (fuel n : nat) (b : Z) (cs : csys K) (xs : list F) (msg r rr ss : F) :
  domain_ok domain -> supported b -> 2 ^ b <= modulus K -> 64 * Z.of_nat (limbs K) - b < modulus_bit_size K -> 64 * Z.of_nat (limbs K) < 256 * b ->
  chunks_count K b = Ok (Z.of_nat n) ->
  generate_constraints (BitsizeCheckCircuit b (Z.of_nat n) None true) (cs_new Circuit.Setup) = Ok cs ->
  domain (length (cs_cons cs) + cs_num_inst cs)%nat = Some xs ->
  exists (S : strategy E) ds, decompose pf msg b = Ok ds /\ extracted_chunks n S = ds /\ extracted_r n S = r /\
  forall tape pk sk ek dk st', length tape = (3 * n + 7)%nat -> ~ In (nth 4 tape fzero) xs ->
    setup_for_groth16 (ark_backend pf domain fuel) (replay_rng E) b gens tape = Ok (pk, sk, ek, dk, st') ->
    encrypt_with_proof pf (ark_backend pf domain fuel) (replay_rng E) msg ek pk b [r; rr; ss]
      = Ok (forge_ciphertext S gens pk ek, r, forge_proof S gens pk ek dk, []) /\
    verify_commitment_and_proof (forge_ciphertext S gens pk ek) (forge_proof S gens pk ek dk)
      (prepare_verifying_key (gpk_vk (pk_pk pk))) (prepare_ek ek) (prepare_gens gens) = Ok tt.
Proof.
  intros Hdom Hb HM H1 H2 Hn Hcs Hxs. destruct (honest_strategy_run gens pf domain fuel n b cs xs msg r rr ss Hdom Hb HM H1 H2 Hn Hcs Hxs) as (sp & ds & _ & _ & HS). cbv zeta in HS.
  exists (honest_strategy n cs xs sp ds r rr ss), ds. exact HS.
Qed.

(* the cheating strategy is a function of alpha, beta, gamma and the evaluation point alone *)
Lemma srs_secrets_cheat (gens : encryption_gens E) (pf : profile)
    (domain : nat -> option (list F)) (fuel n : nat) (b : Z) (cs : csys K) (xs : list F) (al be ga ta : F) (ds : list Z) (r : F) :
  domain_ok domain -> 0 < b <= modulus_bit_size K -> chunks_count K b = Ok (Z.of_nat n) -> (0 < n)%nat ->
  generate_constraints (BitsizeCheckCircuit b (Z.of_nat n) None true) (cs_new Circuit.Setup) = Ok cs ->
  domain (length (cs_cons cs) + cs_num_inst cs)%nat = Some xs -> ~ In ta xs ->
  length ds = n -> Forall (fun z => 0 <= z < modulus K) ds ->
  exists S : strategy E, extracted_chunks n S = ds /\ extracted_r n S = r /\ sg_b S = [fone] /\
    forall tape pk sk ek dk st', length tape = (3 * n + 7)%nat -> nth 0 tape fzero = al -> nth 1 tape fzero = be -> nth 2 tape fzero = ga -> nth 4 tape fzero = ta ->
    setup_for_groth16 (ark_backend pf domain fuel) (replay_rng E) b gens tape = Ok (pk, sk, ek, dk, st') ->
    ct_X_r (forge_ciphertext S gens pk ek) = r [*] ek_X_0 ek /\
    verify_commitment_and_proof (forge_ciphertext S gens pk ek) (forge_proof S gens pk ek dk)
      (prepare_verifying_key (gpk_vk (pk_pk pk))) (prepare_ek ek) (prepare_gens gens) = Ok tt.
Proof.
  intros Hdom Hbits Hn Hn0 Hcs Hxs Hin0 Hdn Hsmall.
  destruct (@generate_setup K b (Z.of_nat n) true ltac:(lia)) as (s & Hs & Hi & Hw & Hc). rewrite Hcs in Hs. injection Hs as <-. rewrite Nat2Z.id in Hi, Hc. clear Hw Hc.
  set (ws := map (fun j => fmul (qq cs xs al be ta j) (finv ga)) (seq 0 (cs_num_inst cs))).
  set (A := fadd (fmul al be) (fmul ga (fdot (fone :: map of_Z ds) ws))).
  set (hs := honest_strategy n cs xs cs ds r fzero fzero).
  set (ni := cs_num_inst cs). set (nw := cs_num_wit cs). set (M := (ni + nw)%nat). set (N := length xs).
  exists (Strategy
    (g1_coeffs (zs n) fzero A fzero fzero fzero fzero (zs M) (zs M) (zs (N - 1)) (zs nw) (zs ni) fzero (zs n) fzero) [fone]
    (g1_coeffs (zs n) fzero fzero fzero fzero fzero fzero (zs M) (zs M) (zs (N - 1)) (zs nw) (zs ni) fzero (zs n) r)
    (sg_X_r hs) (sg_chunks hs) (sg_commitment hs)).
  destruct (honest_extracts n cs xs b Hbits ltac:(lia) Hcs cs ds r fzero fzero Hdn Hsmall) as [X1 X2]. split; [exact X1|]. split; [exact X2|]. split; [reflexivity|].
  intros tape pk sk ek dk st' Hl Hal Hbe Hga Hta Hset. assert (Hin : ~ In (nth 4 tape fzero) xs) by (rewrite Hta; exact Hin0).
  assert (Hv : vanishing_at xs (nth 4 tape fzero) <> fzero) by (rewrite vanishing_zero; exact Hin).
  pose proof (setup_shape n cs xs pf domain fuel b gens Hbits Hn Hn0 Hcs Hxs tape pk sk ek dk st' Hl Hv Hset) as Hsh.
  pose proof (setup_tape n cs xs pf domain fuel b gens Hn Hcs Hxs Hi tape pk sk ek dk st' Hl Hv Hset) as (_ & _ & Hg & Hsk & Hek & Hdk & Hdel & Hgam & Hvk & _).
  set (g_i := gis n cs xs gens tape) in *. set (G := eg_G gens) in *. set (H := eg_H gens) in *.
  assert (Lg : length g_i = n) by (unfold g_i, gis; rewrite map_length, seq_length; reflexivity).
  assert (Habc : vk_gamma_abc_g1 (gpk_vk (pk_pk pk)) = map (fun a => a [*] G) ws) by (rewrite Hvk, Hal, Hbe, Hga, Hta; unfold ws; rewrite map_map; reflexivity).
  match goal with |- ct_X_r (forge_ciphertext ?S _ _ _) = _ /\ _ => change (forge_ciphertext S gens pk ek) with (forge_ciphertext hs gens pk ek) end.
  pose proof (honest_ciphertext_is_forged n cs xs b gens Hbits Hn0 Hcs pk ek g_i cs ds r fzero fzero Hsh Hdn Hg) as Fct. fold hs in Fct. rewrite <- Fct. split; [reflexivity|].
  pose proof (chunks_count_range _ _ _ Hn) as H256.
  destruct (ek_formula_lengths gens g_i (nth 3 tape fzero [*] eg_G gens) (fneg (nth 2 tape fzero) [*] eg_G gens) (map (e_s tape) (seq 0 n)) (e_t n tape 0) (map (fun j => e_t n tape (S j)) (seq 0 n)) n
    ltac:(rewrite map_length, seq_length; reflexivity) ltac:(rewrite map_length, seq_length; reflexivity) ltac:(lia)) as (LX & LY & LZ). cbv zeta in LX, LY, LZ. fold G in LX, LY, LZ. rewrite <- Hek in LX, LY, LZ.
  unfold verify_commitment_and_proof.
  assert (Hcom : verify_commitment (ct_formula ek g_i ds r) (prepare_ek ek) (prepare_gens gens) = Ok tt).
  { rewrite Hek. apply (honest_verifies _ _ _ _ _ _ _ _ _ n); rewrite ?map_length, ?seq_length; lia. }
  rewrite Hcom. cbn [bind].
  pose proof Hset as Hset'. unfold setup_for_groth16 in Hset. apply bind_Ok_inv in Hset. destruct Hset as (circ & Hcirc & Hset).
  apply bind_Ok_inv in Hset. destruct Hset as ([pk0 st1] & Hsrs & Hset). apply bind_Ok_inv in Hset. destruct Hset as (g_i' & Hg' & Hset).
  apply bind_Ok_inv in Hset. destruct Hset as ([[[sk0 ek0] dk0] st2] & Hk & Hset).
  assert (pk0 = pk) by congruence. assert (ek0 = ek) by congruence. assert (sk0 = sk) by congruence. assert (dk0 = dk) by congruence. clear Hset. subst pk0 ek0 sk0 dk0.
  assert (Q : g_i' = g_i) by congruence. subst g_i'.
  pose proof (exact_any_key (ark_backend pf domain fuel) (generate_constraints circ) gens pk g_i b ek ds (ct_X_r (ct_formula ek g_i ds r)) (ct_enc_chunks (ct_formula ek g_i ds r))
    (ct_commitment (ct_formula ek g_i ds r)) r (Proof (A [*] G) H gzero) (ark_backend_correct pf domain fuel Hdom)) as X.
  destruct X as [X _]; [exists (replay_rng E), tape, st1; exact Hsrs|exact Hg|left; exists sk, dk, (replay_rng E), st1, st2; exact Hk| |].
  { exists (replay_rng E), [r], []. rewrite encrypt_chunks_ok by lia. reflexivity. }
  replace (forge_proof _ gens pk ek dk) with (blinded (Proof (A [*] G) H gzero) r ek).
  2:{ unfold forge_proof, blinded. cbn [sg_a sg_b sg_c pr_a pr_b pr_c].
      assert (EB : dot [fone] (public_g2 gens pk ek dk) = H) by (unfold public_g2; cbn [app dot]; rewrite smul_1_l; apply gadd_0_r).
      rewrite EB, !(dot_g1_coeffs n cs xs gens) by (try exact Hsh; apply zs_length). rewrite !dot_zs. fold G. apply (f_equal2 (fun x y => Proof x H y)); glin. }
  apply X. unfold inputs_of. rewrite Lg, Hdn, Nat.sub_diag. cbn [repeat]. rewrite app_nil_r.
  split; [rewrite Habc; unfold ws; rewrite !map_length, seq_length, Hdn; exact Hi|]. cbn [pr_a pr_b pr_c].
  rewrite Habc, dot_smul_map. rewrite Hvk, Hal, Hbe, Hga. cbn [vk_alpha_g1 vk_beta_g2 vk_gamma_g2 vk_delta_g2]. fold G H.
  rewrite pair_zero_l, !pair_smul_r, !pair_smul_l, <- !smul_fmul, gadd_0_r, <- smul_fadd. f_equal. unfold A. ring.
Qed.
Lemma known_setup_cheat_full (gens : encryption_gens E) (pf : profile)
    (domain : nat -> option (list F)) (fuel n : nat) (b : Z) (cs : csys K) (xs : list F) (tape : list F) pk sk ek dk st' (ds : list Z) (r : F) :
  domain_ok domain -> 0 < b <= modulus_bit_size K -> chunks_count K b = Ok (Z.of_nat n) -> (0 < n)%nat ->
  generate_constraints (BitsizeCheckCircuit b (Z.of_nat n) None true) (cs_new Circuit.Setup) = Ok cs ->
  domain (length (cs_cons cs) + cs_num_inst cs)%nat = Some xs ->
  length tape = (3 * n + 7)%nat -> ~ In (nth 4 tape fzero) xs ->
  setup_for_groth16 (ark_backend pf domain fuel) (replay_rng E) b gens tape = Ok (pk, sk, ek, dk, st') ->
  length ds = n -> Forall (fun z => 0 <= z < modulus K) ds ->
  exists S : strategy E, extracted_chunks n S = ds /\ extracted_r n S = r /\ sg_b S = [fone] /\ ct_X_r (forge_ciphertext S gens pk ek) = r [*] ek_X_0 ek /\
    verify_commitment_and_proof (forge_ciphertext S gens pk ek) (forge_proof S gens pk ek dk)
      (prepare_verifying_key (gpk_vk (pk_pk pk))) (prepare_ek ek) (prepare_gens gens) = Ok tt.
Proof.
  intros Hdom Hbits Hn Hn0 Hcs Hxs Hl Hin Hset Hdn Hsmall.
  destruct (srs_secrets_cheat gens pf domain fuel n b cs xs (nth 0 tape fzero) (nth 1 tape fzero) (nth 2 tape fzero) (nth 4 tape fzero) ds r Hdom Hbits Hn Hn0 Hcs Hxs Hin Hdn Hsmall) as (S & A1 & A2 & A3 & A4).
  exists S. destruct (A4 tape pk sk ek dk st' Hl eq_refl eq_refl eq_refl eq_refl Hset) as [B1 B2]. repeat split; assumption.
Qed.
Lemma known_setup_cheat (gens : encryption_gens E) (pf : profile)
    (domain : nat -> option (list F)) (fuel n : nat) (b : Z) (cs : csys K) (xs : list F) (tape : list F) pk sk ek dk st' (ds : list Z) (r : F) :
  domain_ok domain -> 0 < b <= modulus_bit_size K -> chunks_count K b = Ok (Z.of_nat n) -> (0 < n)%nat ->
  generate_constraints (BitsizeCheckCircuit b (Z.of_nat n) None true) (cs_new Circuit.Setup) = Ok cs ->
  domain (length (cs_cons cs) + cs_num_inst cs)%nat = Some xs ->
  length tape = (3 * n + 7)%nat -> ~ In (nth 4 tape fzero) xs ->
  setup_for_groth16 (ark_backend pf domain fuel) (replay_rng E) b gens tape = Ok (pk, sk, ek, dk, st') ->
  length ds = n -> Forall (fun z => 0 <= z < modulus K) ds ->
  exists S : strategy E, extracted_chunks n S = ds /\ extracted_r n S = r /\ sg_b S = [fone] /\
    verify_commitment_and_proof (forge_ciphertext S gens pk ek) (forge_proof S gens pk ek dk)
      (prepare_verifying_key (gpk_vk (pk_pk pk))) (prepare_ek ek) (prepare_gens gens) = Ok tt.
Proof.
  intros H1 H2 H3 H4 H5 H6 H7 H8 H9 H10 H11.
  destruct (known_setup_cheat_full gens pf domain fuel n b cs xs tape pk sk ek dk st' ds r H1 H2 H3 H4 H5 H6 H7 H8 H9 H10 H11) as (S & A1 & A2 & A3 & _ & A4).
  exists S. repeat split; assumption.
Qed.

(* Refutation of the other order of quantifiers: with knowledge of the setup randomness every chunk values whatsoever, in particular
   ones that do not fit in b bits, can be encrypted under any randomness and accepted. *)
Theorem C59_every_known_setup_can_be_cheated (gens : encryption_gens E) (pf : profile)
    (domain : nat -> option (list F)) (fuel n : nat) (b : Z) (cs : csys K) (xs : list F) (tape : list F) pk sk ek dk st' (ds : list Z) (r : F) :
  domain_ok domain -> 0 < b <= modulus_bit_size K -> chunks_count K b = Ok (Z.of_nat n) -> (0 < n)%nat ->
  generate_constraints (BitsizeCheckCircuit b (Z.of_nat n) None true) (cs_new Circuit.Setup) = Ok cs ->
  domain (length (cs_cons cs) + cs_num_inst cs)%nat = Some xs ->
  length tape = (3 * n + 7)%nat -> ~ In (nth 4 tape fzero) xs ->
  setup_for_groth16 (ark_backend pf domain fuel) (replay_rng E) b gens tape = Ok (pk, sk, ek, dk, st') ->
  length ds = n -> Forall (fun z => 0 <= z < modulus K) ds ->
  exists S : strategy E, extracted_chunks n S = ds /\ extracted_r n S = r /\
    verify_commitment_and_proof (forge_ciphertext S gens pk ek) (forge_proof S gens pk ek dk)
      (prepare_verifying_key (gpk_vk (pk_pk pk))) (prepare_ek ek) (prepare_gens gens) = Ok tt.
Proof.
  intros Hdom Hbits Hn Hn0 Hcs Hxs Hl Hin Hset Hdn Hsmall.
  destruct (known_setup_cheat gens pf domain fuel n b cs xs tape pk sk ek dk st' ds r Hdom Hbits Hn Hn0 Hcs Hxs Hl Hin Hset Hdn Hsmall) as (S & A1 & A2 & _ & A3).
  exists S. split; [exact A1|]. split; [exact A2|exact A3].
Qed.
End Sides.

(* one concrete setup (the tape of PropGroth16Cases.v without its rejected draws) on which a strategy encrypts the chunks 2^16, 0, 0, 0
   and is accepted: the hypotheses of C59 can be met by a list of setups that is not empty *)
Definition z_tape : list (Fr E61) := [y_alpha; y_beta; y_gamma; y_delta; y_x; y_rho] ++ y_s ++ (y_t0 :: y_t) ++ y_v.
Transparent y_xs.
Lemma z_domain : y_domain (428 + 5) = Some y_xs.
Proof. unfold y_domain. assert (T : Z.of_nat (428 + 5) <? 2 ^ 60 = true) by reflexivity. rewrite T. reflexivity. Qed.
Lemma z_circ : y_circ = generate_constraints (BitsizeCheckCircuit 16 4 None true).
Proof. unfold y_circ. reflexivity. Qed.
Lemma z_cs : exists cs : csys K61, generate_constraints (BitsizeCheckCircuit 16 (Z.of_nat 4) None true) (cs_new Circuit.Setup) = Ok cs /\
  y_domain (length (cs_cons cs) + cs_num_inst cs)%nat = Some y_xs.
Proof.
  assert (E4 : Z.of_nat 4 = 4) by reflexivity. rewrite E4.
  destruct y_setup_cs as (cs & Hcs & Hi & Hc). rewrite z_circ in Hcs. exists cs. split; [exact Hcs|]. rewrite Hc, Hi, y_cons_length.
  exact z_domain.
Qed.
Lemma z_in : ~ In (nth 4 z_tape fzero) y_xs.
Proof.
  assert (Ex : nth 4 z_tape fzero = y_x) by reflexivity. rewrite Ex.
  unfold y_xs, y_points. rewrite in_map_iff. intros (i & Hi' & Hin). apply in_seq in Hin. unfold y_N in Hin.
  apply (f_equal sval) in Hi'. unfold y_x, nz61 in Hi'. rewrite !sval_of_Z in Hi'. change (modulus K61) with (2 ^ 61 - 1) in Hi'. rewrite !Z.mod_small in Hi'; lia.
Qed.
Lemma z_bits : 0 < 16 <= modulus_bit_size K61.
Proof. vm_compute. split; [reflexivity|discriminate]. Qed.
Lemma z_length : length z_tape = (3 * 4 + 7)%nat.
Proof. reflexivity. Qed.
Lemma z_gamma : nth 2 z_tape fzero <> fzero.
Proof. intros Z. apply (f_equal sval) in Z. vm_compute in Z. discriminate Z. Qed.
Lemma z_delta : nth 3 z_tape fzero <> fzero.
Proof. intros Z. apply (f_equal sval) in Z. vm_compute in Z. discriminate Z. Qed.
Lemma z_small : Forall (fun z => 0 <= z < modulus K61) [2 ^ 16; 0; 0; 0].
Proof. change (modulus K61) with (2 ^ 61 - 1). repeat constructor; lia. Qed.
Example C59_case (pf : profile) : exists (cs : csys K61) pk sk ek dk st' (S : strategy E61),
  generate_constraints (BitsizeCheckCircuit 16 (Z.of_nat 4) None true) (cs_new Circuit.Setup) = Ok cs /\
  y_domain (length (cs_cons cs) + cs_num_inst cs)%nat = Some y_xs /\ length z_tape = (3 * 4 + 7)%nat /\
  setup_for_groth16 (ark_backend pf y_domain 3) (replay_rng E61) 16 x_gens z_tape = Ok (pk, sk, ek, dk, st') /\
  verify_commitment_and_proof (forge_ciphertext S x_gens pk ek) (forge_proof S x_gens pk ek dk)
    (prepare_verifying_key (gpk_vk (pk_pk pk))) (prepare_ek ek) (prepare_gens x_gens) = Ok tt /\
  extracted_chunks 4 S = [2 ^ 16; 0; 0; 0] /\ ~ digits_ok 16 (extracted_chunks 4 S).
Proof.
  destruct z_cs as (cs & Hcs & Hd). assert (H4 : (0 < 4)%nat) by lia.
  destruct (setup_exists 4 cs y_xs pf y_domain 3 16 x_gens z_bits y_count H4 Hcs Hd z_tape z_length z_gamma z_delta) as (pk & sk & ek & dk & Hset); [rewrite vanishing_zero; exact z_in|lia|].
  destruct (C59_every_known_setup_can_be_cheated x_gens pf y_domain 3 4 16 cs y_xs z_tape pk sk ek dk [] [2 ^ 16; 0; 0; 0] (nz61 55) y_domain_ok z_bits y_count H4 Hcs Hd z_length z_in Hset eq_refl z_small)
      as (S & HS & _ & Hver).
  exists cs, pk, sk, ek, dk, [], S. split; [exact Hcs|]. split; [exact Hd|]. split; [exact z_length|]. split; [exact Hset|]. split; [exact Hver|]. split; [exact HS|].
  rewrite HS. intros X. apply Forall_inv in X. lia.
Qed.

(* that same accepted ciphertext does not decrypt to the chunks read off the strategy (C60): decryption never returns more than 2^16-1 *)
Lemma decrypted_chunks_are_u16 (pf : profile) (E : pairing) (c_0 : G1 E) c sk dk g_i b ms nu :
  decrypt_to_chunks pf c_0 c sk dk g_i b = Ok (ms, nu) -> Forall (fun m => 0 <= m < 2 ^ 16) ms.
Proof.
  rewrite decrypt_to_chunks_unfold. intros H. apply bind_Ok_inv in H. destruct H as (cnt & _ & H).
  destruct (negb _); [discriminate H|]. destruct (Nat.ltb _ _); [discriminate H|].
  apply bind_Ok_inv in H. destruct H as (z & _ & H). apply bind_Ok_inv in H. destruct H as (ms' & Hm & H). injection H as -> _.
  apply mapM_seq_elim in Hm. destruct Hm as [_ Hm]. apply Forall_forall. intros m Hin. apply In_nth_error in Hin. destruct Hin as (i & Hi). apply Hm in Hi.
  unfold chunk_step in Hi. apply bind_Ok_inv in Hi. destruct Hi as (ci & _ & Hi). apply bind_Ok_inv in Hi. destruct Hi as (v2 & _ & Hi).
  apply bind_Ok_inv in Hi. destruct Hi as (v1 & _ & Hi). apply bind_Ok_inv in Hi. destruct Hi as (p & _ & Hi).
  destruct (gis_zero p); [injection Hi as <-; lia|]. apply bind_Ok_inv in Hi. destruct Hi as (g & _ & Hi).
  destruct (solve_dlog_spec (as_u16 (z - 1)) (pair g v2) p) as [(k & Hk & Hr & _)|(Hk & _)]; rewrite Hk in Hi; [|discriminate Hi]. injection Hi as <-.
  unfold as_u16 in Hr. pose proof (Z.mod_pos_bound (z - 1) (2 ^ 16) ltac:(lia)). lia.
Qed.
Example C60_case (pf : profile) : exists pk sk ek dk st' (S : strategy E61),
  setup_for_groth16 (ark_backend pf y_domain 3) (replay_rng E61) 16 x_gens z_tape = Ok (pk, sk, ek, dk, st') /\
  verify_commitment_and_proof (forge_ciphertext S x_gens pk ek) (forge_proof S x_gens pk ek dk)
    (prepare_verifying_key (gpk_vk (pk_pk pk))) (prepare_ek ek) (prepare_gens x_gens) = Ok tt /\
  ~ exists g_i, get_gs_for_encryption (gpk_vk (pk_pk pk)) = Ok g_i /\ let ct := forge_ciphertext S x_gens pk ek in
     decrypt_to_chunks pf (ct_X_r ct) (ct_enc_chunks ct) sk (prepare_dk dk) g_i 16 = Ok (extracted_chunks 4 S, sk [*] ct_X_r ct).
Proof.
  destruct (C59_case pf) as (cs & pk & sk & ek & dk & st' & S & _ & _ & _ & Hset & Hver & HS & _).
  exists pk, sk, ek, dk, st', S. split; [exact Hset|]. split; [exact Hver|]. intros (g_i & _ & Hd). cbv zeta in Hd.
  apply decrypted_chunks_are_u16 in Hd. rewrite HS in Hd. apply Forall_inv in Hd. lia.
Qed.

(* C61: on every known setup the commitment check accepts things that are not encryptions of what the strategy knows -- one element in
   the first chunk, with the matching commitment *)
Section Com.
Context {E : pairing}.
Add Ring Krc : (@scalar_ring_theory (K_of E)).
Theorem C61_every_known_setup_can_be_cheated (gens : encryption_gens E) (pf : profile)
    (domain : nat -> option (list (Fr E))) (fuel n : nat) (b : Z) (cs : csys (K_of E)) (xs : list (Fr E)) (tape : list (Fr E)) pk sk ek dk st' :
  eg_G gens <> gzero -> eg_H gens <> gzero ->
  0 < b <= modulus_bit_size (K_of E) -> chunks_count (K_of E) b = Ok (Z.of_nat n) -> (0 < n)%nat ->
  generate_constraints (BitsizeCheckCircuit b (Z.of_nat n) None true) (cs_new Circuit.Setup) = Ok cs ->
  domain (length (cs_cons cs) + cs_num_inst cs)%nat = Some xs ->
  length tape = (3 * n + 7)%nat -> ~ In (nth 4 tape fzero) xs ->
  setup_for_groth16 (ark_backend pf domain fuel) (replay_rng E) b gens tape = Ok (pk, sk, ek, dk, st') ->
  exists S : strategy E, verify_commitment (forge_ciphertext S gens pk ek) (prepare_ek ek) (prepare_gens gens) = Ok tt /\
     ~ (exists g_i, get_gs_for_encryption (gpk_vk (pk_pk pk)) = Ok g_i /\
        encrypts ek g_i (extracted_chunks n S) (ct_vec (forge_ciphertext S gens pk ek)) (extracted_r n S)).
Proof.
  intros HG HH Hbits Hn Hn0 Hcs Hxs Hl Hin Hset.
  destruct (@generate_setup (K_of E) b (Z.of_nat n) true ltac:(lia)) as (s & Hs & Hi & Hw & Hc). rewrite Hcs in Hs. injection Hs as <-. rewrite Nat2Z.id in Hi, Hc. clear Hw Hc.
  assert (Hv : vanishing_at xs (nth 4 tape fzero) <> fzero) by (rewrite vanishing_zero; exact Hin).
  pose proof (setup_shape n cs xs pf domain fuel b gens Hbits Hn Hn0 Hcs Hxs tape pk sk ek dk st' Hl Hv Hset) as Hsh.
  pose proof (setup_tape n cs xs pf domain fuel b gens Hn Hcs Hxs Hi tape pk sk ek dk st' Hl Hv Hset) as (_ & _ & Hg & Hsk & Hek & Hdk & Hdel & Hgam & Hvk & _).
  set (g_i := gis n cs xs gens tape) in *.
  assert (Lg : length g_i = n) by (unfold g_i, gis; rewrite map_length, seq_length; reflexivity).
  set (ni := cs_num_inst cs). set (nw := cs_num_wit cs). set (M := (ni + nw)%nat). set (N := length xs).
  set (at_G := fun a : Fr E => g1_coeffs (zs n) fzero a fzero fzero fzero fzero (zs M) (zs M) (zs (N - 1)) (zs nw) (zs ni) fzero (zs n) fzero).
  set (S := Strategy [] [] [] [] (at_G fone :: repeat [] (n - 1)) (at_G (e_t n tape 1))). exists S.
  assert (HatG : forall a, dot (at_G a) (public_g1 gens pk ek) = a [*] eg_G gens).
  { intros a. unfold at_G. rewrite (dot_g1_coeffs n cs xs gens) by (try exact Hsh; apply zs_length). rewrite !dot_zs. glin. }
  assert (Hct : forge_ciphertext S gens pk ek = Ciphertext gzero (eg_G gens :: repeat gzero (n - 1)) (e_t n tape 1 [*] eg_G gens)).
  { unfold forge_ciphertext, S. cbn [sg_X_r sg_chunks sg_commitment dot map]. rewrite !HatG, smul_1_l. apply (f_equal2 (fun x y => Ciphertext gzero (eg_G gens :: x) y)); [|reflexivity].
    generalize (n - 1)%nat. intros q. induction q as [|q IH]; [reflexivity|]. cbn [repeat map]. rewrite IH. reflexivity. }
  rewrite Hct. split.
  - rewrite Hek. apply (verify_exact _ _ _ _ _ _ _ n); rewrite ?map_length, ?seq_length; try lia; [exact HH|pose proof (chunks_count_range _ _ _ Hn); lia|].
    cbn [ct_enc_chunks ct_commitment ct_X_r length]. rewrite repeat_length. split; [lia|].
    destruct n as [|m]; [lia|]. cbn [seq map dot]. rewrite smul_0_r, gadd_0_l.
    assert (Z : forall l, dot l (repeat (@gzero _ (G1 E)) (Datatypes.S m - 1)) = gzero).
    { generalize (Datatypes.S m - 1)%nat. intros q l. revert q. induction l as [|x l IH]; intros [|q]; cbn [repeat dot]; try reflexivity. rewrite IH, smul_0_r. apply gadd_0_l. }
    rewrite Z. symmetry. apply gadd_0_r.
  - intros (g' & Hg' & Henc). assert (g' = g_i) by congruence. subst g'. apply encrypts_inv in Henc. destruct Henc as (k & Hwf & Hm & _ & Hv').
    assert (Er : extracted_r n S = fzero).
    { unfold extracted_r, S, at_G, g1_coeffs. cbn [sg_commitment]. rewrite app_nth1 by (rewrite app_length, zs_length; cbn [length]; lia). rewrite app_nth2 by (rewrite zs_length; lia).
      rewrite zs_length, Nat.sub_diag. reflexivity. }
    assert (Ec : nth 0 (extracted_chunks n S) 0 = 0).
    { unfold extracted_chunks. destruct n as [|m]; [lia|]. cbn [seq map nth]. unfold S, at_G, g1_coeffs, zs. cbn [sg_commitment repeat app nth]. vm_compute. reflexivity. }
    rewrite Er in Hv'. unfold ct_vec, ct_formula in Hv'. cbn [ct_X_r ct_enc_chunks ct_commitment] in Hv'. 
    apply (f_equal (fun l => nth 1 l gzero)) in Hv'. cbn [app nth] in Hv'. apply HG. rewrite Hv'.
    rewrite app_nth1 by (rewrite body_formula_length, Hm; unfold extracted_chunks in Hm; rewrite map_length, seq_length in Hm; lia).
    unfold body_formula. unfold extracted_chunks in Hm. rewrite map_length, seq_length in Hm. 
    replace (length (extracted_chunks n S)) with n by (unfold extracted_chunks; rewrite map_length, seq_length; reflexivity).
    destruct n as [|m]; [lia|]. cbn [seq map nth]. cbn [nth] in Ec. rewrite Ec. 
    rewrite smul_0_l. change (of_Z 0) with (@fzero (K_of E)). rewrite smul_0_l. apply gadd_0_l.
Qed.
End Com.
