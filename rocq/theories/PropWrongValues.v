(* PropWrongValues.v -- C75: what the prover returns for wrong values. *)
From Verif Require Import Base BaseFacts Algebra Utils UtilsFacts Setup Keygen Encryption Circuit CircuitFacts CircuitSat CommitmentFacts VecFacts KeygenFacts EncryptFacts Spec KeySpec
  Protocol ReencFacts DistFacts VerifyFacts Groth16 ArkGroth16 PolyFacts Groth16Spec Groth16Facts ArkFacts SchwartzZippel ArkCoset PropVerify PropRandom PropGroth16 Instance Examples PropGroth16Cases.

(* the circuit of the prover, with its values *)
Definition values_circuit {E : pairing} (b n : Z) (vs : list (Fr E)) : synthesizer E := generate_constraints (BitsizeCheckCircuit b n (Some vs) true).
(* the two ways of computing the quotient polynomial: by division (ArkGroth16.v) or on the coset g * domain (ArkCoset.v) *)
Definition an_ark_backend {E : pairing} (pf : profile) (domain : nat -> option (list (Fr E))) (fuel : nat) (B : groth16_backend E) : Prop :=
  B = ark_backend pf domain fuel \/ exists g, B = ark_backend_coset g pf domain fuel.

Section Wrong.
Context {E : pairing}.
Notation K := (K_of E).

Lemma an_ark_prove pf domain fuel (B : groth16_backend E) : an_ark_backend pf domain fuel B ->
  exists quo, (forall circ pk r s, create_proof_with_reduction B circ pk r s = ark_prove_h quo pf domain circ pk r s) /\
    (forall R circ gens st, generate_srs B R circ gens st = generate_srs (ark_backend pf domain fuel) R circ gens st).
Proof.
  intros [->|(g & ->)]; [exists witness_map|exists (witness_map_coset g)]; split; intros; reflexivity.
Qed.
Lemma exceeds (b : Z) (vs : list (Fr E)) : Exists (fun v => 2 ^ b <= into_bigint v) vs <-> ~ Forall (fun v => into_bigint v < 2 ^ b) vs.
Proof.
  split.
  - intros H Hf. apply Exists_exists in H. destruct H as (v & Hv & H). rewrite Forall_forall in Hf. specialize (Hf v Hv). lia.
  - intros H. destruct (Forall_Exists_dec (fun v : Fr E => into_bigint v < 2 ^ b) (fun v => Z_lt_dec _ _) vs) as [Hf|Hf]; [contradiction|].
    eapply Exists_impl; [|exact Hf]. intros v Hv. cbn in Hv. lia.
Qed.
(* the prover's constraint system against the one of the setup *)
Lemma values_instance (b n n' : Z) (vs : list (Fr E)) s : 0 <= b <= modulus_bit_size K -> Z.of_nat (length vs) = n ->
  generate_constraints (BitsizeCheckCircuit b n None true) (@cs_new K Circuit.Setup) = Ok s ->
  exists sp, values_circuit b n' vs (@cs_new K Prove) = Ok sp /\ cs_ok s /\ cs_cons sp = cs_cons s /\ cs_num_inst sp = cs_num_inst s /\
    cs_inst sp = fone :: vs /\ S (length vs) = cs_num_inst s /\ length (cs_wit sp) = cs_num_wit s /\
    (is_satisfied sp = true <-> Forall (fun v => into_bigint v < 2 ^ b) vs).
Proof.
  intros Hb Hn Hs. destruct (@generate_setup K b n true Hb) as (s0 & Hs0 & Hi & Hw & Hc). rewrite Hs in Hs0. injection Hs0 as <-.
  replace (Z.to_nat n) with (length vs) in * by lia.
  destruct (@generate_prove K b n' true vs Hb) as (sp & Hsp & Hip & Hwp & Hcp & Hinst & Hwit). exists sp. split; [exact Hsp|].
  split; [|split; [congruence|split; [congruence|split; [exact Hinst|split; [rewrite Hi; reflexivity|split]]]]].
  - unfold cs_ok. rewrite Hi, Hw, Hc. cbn [wit0]. apply all_cons_ok.
    + unfold circuit_vars, alloc_vars. rewrite Forall_map. apply Forall_forall. intros i Hi'. apply in_seq in Hi'. cbn. lia.
    + unfold circuit_vars. rewrite alloc_vars_length. lia.
  - rewrite Hwit, Hw. cbn [wit0 app Nat.add]. clear -Hb. induction vs as [|v vs IH]; cbn [flat_map length Nat.mul]; [reflexivity|].
    rewrite app_length, vwits_length, IH by lia. reflexivity.
  - rewrite is_satisfied_iff, Hcp, Hinst, Hwit. cbn [wit0 app]. rewrite (honest_public (Z.to_nat b) vs) by lia. rewrite Z2Nat.id by lia. reflexivity.
Qed.
End Wrong.

(* The library's coset computation is a correct Groth16 backend as well, over every domain that is a multiplicative group not
   containing g: everything proved for correct backends (C33, C34, C36, C39) holds for it. *)
Theorem C75_coset_backend_correct :
  forall (E : pairing) (g : Fr E) (pf : profile) domain fuel, domain_ok domain -> g <> fzero ->
  (forall n xs, domain n = Some xs -> mult_group xs /\ ~ In g xs) ->
  backend_correct (ark_backend_coset g pf domain fuel) /\
  (* on satisfied constraints it returns exactly the same proofs *)
  forall circ pk r s cs xs, circ (cs_new Prove) = Ok cs -> is_satisfied cs = true -> length (cs_inst cs) = cs_num_inst cs ->
    domain (length (cs_cons cs) + cs_num_inst cs)%nat = Some xs ->
    create_proof_with_reduction (ark_backend_coset g pf domain fuel) circ pk r s = create_proof_with_reduction (ark_backend pf domain fuel) circ pk r s.
Proof.
  intros E g pf domain fuel Hd Hg Hm.
  assert (Same : forall circ pk r s cs xs, circ (cs_new Prove) = Ok cs -> is_satisfied cs = true -> length (cs_inst cs) = cs_num_inst cs ->
    domain (length (cs_cons cs) + cs_num_inst cs)%nat = Some xs ->
    create_proof_with_reduction (ark_backend_coset g pf domain fuel) circ pk r s = create_proof_with_reduction (ark_backend pf domain fuel) circ pk r s).
  { intros circ pk r s cs xs Hc Hsat Hl Hx. destruct (Hm _ _ Hx) as [Hgr Hng]. destruct (Hd _ _ Hx) as [_ Hlen].
    apply (coset_agrees g pf domain circ pk r s cs xs Hc Hsat Hx); [rewrite Hl; exact Hlen|exact Hgr|exact Hng|exact Hg]. }
  split; [|exact Same]. pose proof (ark_backend_correct (E := E) pf domain fuel Hd) as HB. constructor.
  - exact (setup_shape _ HB).
  - intros R circ alpha beta gamma delta G H st pk st' s circ' sp xs r1 r2 Hgen Hs Hsp Hin.
    destruct (proofs_accepted _ HB R circ alpha beta gamma delta G H st pk st' s circ' sp xs r1 r2 Hgen Hs Hsp Hin) as (p & Hp & Ha).
    exists p. split; [|exact Ha]. rewrite <- Hp. destruct Hin as (_ & Hc & Hni & _ & Hl & _ & Hsat).
    cbn [ark_backend generate_parameters_with_qap] in Hgen. apply ark_generate_inv in Hgen. destruct Hgen as (s' & ys & t & Hs' & Hy & _).
    rewrite Hs in Hs'. injection Hs' as <-. apply (Same circ' pk r1 r2 sp ys Hsp Hsat); [congruence|]. rewrite Hc, Hni. exact Hy.
Qed.

(* Debug builds: create_proof panics on a value that does not fit, whatever the keys, the generator and the other values. *)
Theorem C75_debug_build_panics :
  forall (E : pairing) domain fuel B (R : rng_impl E) b n vs r pk ek st,
  an_ark_backend Debug domain fuel B -> 0 <= b <= modulus_bit_size (K_of E) ->
  Exists (fun v => 2 ^ b <= into_bigint v) vs ->
  create_proof B R (values_circuit b n vs) r pk ek st = Panic.
Proof.
  intros E domain fuel B R b n vs r pk ek st HB Hb Hx. destruct (an_ark_prove _ _ _ _ HB) as (quo & Hp & _).
  unfold create_proof. destruct (rand_scalar R st) as [t s1]. destruct (rand_scalar R s1) as [s s2]. rewrite Hp. unfold ark_prove_h.
  destruct (@generate_prove (K_of E) b n true vs Hb) as (sp & Hsp & _ & _ & Hcp & Hinst & Hwit). unfold values_circuit. rewrite Hsp. cbn [bind].
  destruct (is_satisfied sp) eqn:Es; [|reflexivity]. exfalso. apply exceeds in Hx. apply Hx.
  rewrite is_satisfied_iff, Hcp, Hinst, Hwit in Es. cbn [wit0 app] in Es. rewrite (honest_public (Z.to_nat b) vs) in Es by lia. rewrite Z2Nat.id in Es by lia. exact Es.
Qed.

(* Release builds: create_proof returns a proof for all values.  If the values are not those of the ciphertext or one of them does not
   fit, verify_proof rejects it -- for all evaluation points of the setup outside a list of at most 2N-2 (N the domain size), which
   does not depend on the generators, the other setup secrets gamma and delta, the keys, the ciphertext or any randomness. *)
Theorem C75_wrong_values_rejected :
  forall (E : pairing) domain fuel B b n xs (m : list Z) (vs : list (Fr E)) alpha beta,
  an_ark_backend Release domain fuel B -> domain_ok domain -> chunks_count (K_of E) b = Ok n -> 0 <= b < modulus_bit_size (K_of E) ->
  domain (Z.to_nat n * (2 * Z.to_nat (modulus_bit_size (K_of E)) - Z.to_nat b + 1) + (1 + Z.to_nat n))%nat = Some xs ->
  Z.of_nat (length vs) = n -> length m = length vs ->
  (map of_Z m <> vs /\ beta <> fzero) \/ (map of_Z m = vs /\ Exists (fun v => 2 ^ b <= into_bigint v) vs) ->
  exists bad : list (Fr E), (length bad <= 2 * length xs - 2)%nat /\
  forall (R : rng_impl E) st gamma delta tau gens pk st' g_i ek c_0 c psi r (R' : rng_impl E) st1 n',
  generate_srs B R (generate_constraints (BitsizeCheckCircuit b n None true)) gens st = Ok (pk, st') ->
  draws R 5 st = [alpha; beta; gamma; delta; tau] -> ~ In tau xs -> ~ In tau bad -> eg_G gens <> gzero -> eg_H gens <> gzero ->
  get_gs_for_encryption (gpk_vk (pk_pk pk)) = Ok g_i -> honest_key b gens g_i (gpk_delta_g1 (pk_pk pk)) (pk_gamma_g1 pk) ek ->
  encrypts ek g_i m (c_0 :: c ++ [psi]) r ->
  exists q st2, create_proof B R' (values_circuit b n' vs) r pk ek st1 = Ok (q, st2) /\
    verify_proof (prepare_verifying_key (gpk_vk (pk_pk pk))) q (Ciphertext c_0 c psi) = Err PairingCheckFailed.
Proof.
  intros E domain fuel B b n xs m vs alpha beta HB Hdom Hn Hb Hxs Hlv Hlm Hw.
  destruct (an_ark_prove _ _ _ _ HB) as (quo & Hp & Hgs).
  destruct (@generate_setup (K_of E) b n true ltac:(lia)) as (s & Hs & Hi & Hwi & Hcons).
  assert (Hlen : length (cs_cons s) = (Z.to_nat n * (2 * Z.to_nat (modulus_bit_size (K_of E)) - Z.to_nat b + 1))%nat).
  { rewrite Hcons, all_cons_length by lia. unfold circuit_vars. rewrite alloc_vars_length. reflexivity. }
  destruct (values_instance b n n vs s ltac:(lia) Hlv Hs) as (sp & Hsp & Hok & Hcp & Hni & Hinst & Hls & Lw & Hsat).
  assert (Hxs' : domain (length (cs_cons s) + cs_num_inst s)%nat = Some xs) by (rewrite Hlen, Hi; exact Hxs).
  destruct (Hdom _ _ Hxs') as [Hnd Hl].
  set (x := map (@of_Z (K_of E)) m) in *. assert (Lx : length x = length vs) by (unfold x; rewrite map_length; exact Hlm).
  set (P := bad_poly (quo xs sp) xs s alpha beta vs x (cs_wit sp)).
  assert (Hy : exists y, peval P y <> fzero).
  { destruct Hw as [[Hne Hb0]|[He Hex]].
    - destruct (list_eq_dec feq_dec x vs) as [Q|_]; [contradiction|].
      assert (J : exists j, (j < length vs)%nat /\ nth j x fzero <> nth j vs fzero).
      { clearbody x. clear -Lx Hne. revert x Lx Hne. induction vs as [|v vs IH]; intros [|y x] Lx Hne; cbn [length] in Lx; try lia; [contradiction|].
        destruct (feq_dec y v) as [->|Hd]; [|exists 0%nat; split; [cbn [length]; lia|exact Hd]].
        destruct (IH x ltac:(lia)) as (j & Hj & Hd); [intros ->; apply Hne; reflexivity|]. exists (S j). split; [cbn [length]; lia|exact Hd]. }
      destruct J as (j & Hj & Hd). eexists. apply (bad_poly_inputs _ _ _ _ _ _ _ _ j); [exact Hnd|lia|exact Lx|exact Hj|exact Hd|exact Hb0].
    - unfold P. rewrite He. apply bad_poly_unsat; [exact Hnd|lia|]. intros Hf. apply exceeds in Hex. apply Hex. apply Hsat. rewrite is_satisfied_iff, Hcp, Hinst. exact Hf. }
  destruct Hy as (y & Hy). destruct (roots_list P y Hy) as (bad & Lbad & Hbad). exists bad.
  assert (Hx1 : (1 < length xs)%nat).
  { destruct vs as [|v vs]; [|cbn [length] in Hls; lia]. exfalso. destruct m; [|discriminate]. destruct Hw as [[Hne _]|[_ Hex]]; [apply Hne; reflexivity|inversion Hex]. }
  split. { pose proof (bad_poly_length (quo xs sp) xs s alpha beta vs x (cs_wit sp) Hx1) as LP. fold P in LP. lia. }
  intros R st gamma delta tau gens pk st' g_i ek c_0 c psi r R' st1 n' Hsrs Hdr Hnt Hnb HG HH Hg Hk He.
  destruct (values_instance b n n' vs s ltac:(lia) Hlv Hs) as (sp' & Hsp' & _).
  assert (E1 : values_circuit b n' vs = values_circuit b n vs) by reflexivity. rewrite E1 in *. clear Hsp' sp'.
  rewrite Hgs in Hsrs. pose proof Hsrs as Hsrs'. unfold generate_srs in Hsrs'. cbn [draws] in Hdr.
  destruct (rand_scalar R st) as [al s1]. cbn [fst snd] in Hdr. destruct (rand_scalar R s1) as [be s2]. cbn [fst snd] in Hdr.
  destruct (rand_scalar R s2) as [ga s3]. cbn [fst snd] in Hdr. destruct (rand_scalar R s3) as [de s4] eqn:D4. cbn [fst snd] in Hdr.
  destruct (rand_scalar R s4) as [ta s5] eqn:D5. cbn [fst snd] in Hdr. injection Hdr as -> -> -> -> ->.
  apply bind_Ok_inv in Hsrs'. destruct Hsrs' as ([gpk s6] & Hgen & Hpk). cbn [ark_backend generate_parameters_with_qap] in Hgen.
  destruct (rand_scalar R' st1) as [r1 st2] eqn:F1. destruct (rand_scalar R' st2) as [r2 st3] eqn:F2.
  destruct (ark_prove_exact quo domain fuel R _ alpha beta gamma delta (eg_G gens) (eg_H gens) s4 gpk s6 s xs tau s5 (values_circuit b n vs) sp vs x r1 r2
    Hdom Hgen Hs Hxs' D5 Hnt Hsp Hok Hcp Hni Hinst Hls Lw Lx) as (p & Hpp & Hacc).
  assert (Hpk' : pk_pk pk = gpk) by (injection Hpk as <- _; reflexivity).
  exists (blinded p r ek), st3. split.
  { unfold create_proof. rewrite F1, F2, Hp, Hpk', Hpp. reflexivity. }
  pose proof (exact_any_key (ark_backend Release domain fuel) (generate_constraints (BitsizeCheckCircuit b n None true)) gens pk g_i b ek m c_0 c psi r p
    (ark_backend_correct Release domain fuel Hdom) (ex_intro _ R (ex_intro _ st (ex_intro _ st' Hsrs))) Hg Hk He) as X.
  cbv zeta in X. destruct X as [X [Y|Y]]; [|exact Y]. exfalso. apply Hnb, Hbad.
  apply bad_poly_eval. apply Hacc; [intros Hz; apply pair_nondeg in Hz; destruct Hz; contradiction|].
  rewrite <- Hpk'. apply X in Y.
  assert (Hgl : length g_i = length m).
  { destruct (generate_srs_ok _ R _ gens st _ _ (ark_backend_correct Release domain fuel Hdom) Hsrs) as [_ (cs & Hcs & Hlen')]. rewrite Hs in Hcs. injection Hcs as <-.
    unfold get_gs_for_encryption, slice_from in Hg. destruct (Nat.leb_spec 1 (length (vk_gamma_abc_g1 (gpk_vk (pk_pk pk))))); [|discriminate].
    assert (A : skipn 1 (vk_gamma_abc_g1 (gpk_vk (pk_pk pk))) = g_i) by congruence. rewrite <- A, skipn_length, Hlen', Hi. lia. }
  unfold inputs_of in Y. rewrite Hgl, Nat.sub_diag in Y. cbn [repeat] in Y. rewrite app_nil_r in Y. exact Y.
Qed.

(* ----- concrete cases ----- *)
Section Case.
Context {E : pairing}.
Notation K := (K_of E).
Add Ring Kr : (@scalar_ring_theory (K_of E)).
Lemma outside_exists (l : list (Fr E)) : Z.of_nat (length l) < modulus K -> exists t, ~ In t l.
Proof.
  intros H. pose proof (scalars_outside_length l) as L. destruct (scalars_outside l) as [|t rest] eqn:Es; [cbn [length] in L; lia|].
  exists t. apply scalars_outside_in. rewrite Es. left. reflexivity.
Qed.
(* with a domain much smaller than the field there is a setup for which the whole story happens *)
Lemma wrong_run domain fuel b n xs (m : list Z) gens alpha beta gamma delta rest (r : Fr E) :
  domain_ok domain -> chunks_count K b = Ok n -> n < 256 -> 0 <= b < modulus_bit_size K ->
  domain (Z.to_nat n * (2 * Z.to_nat (modulus_bit_size K) - Z.to_nat b + 1) + (1 + Z.to_nat n))%nat = Some xs ->
  Z.of_nat (length m) = n -> Exists (fun v : Fr E => 2 ^ b <= into_bigint v) (map of_Z m) -> 3 * Z.of_nat (length xs) < modulus K ->
  gamma <> fzero -> delta <> fzero -> (0 < fuel)%nat -> eg_G gens <> gzero -> eg_H gens <> gzero ->
  exists tau pk sk ek dk st ct q st2,
    setup_for_groth16 (ark_backend Release domain fuel) (replay_rng E) b gens (alpha :: beta :: gamma :: delta :: tau :: rest) = Ok (pk, sk, ek, dk, st) /\
    encrypt_decomposed_message (replay_rng E) m ek (skipn 1 (vk_gamma_abc_g1 (gpk_vk (pk_pk pk)))) [r] = Ok (ct_vec ct, r, []) /\
    create_proof (ark_backend Release domain fuel) (replay_rng E) (values_circuit b n (map of_Z m)) r pk ek [] = Ok (q, st2) /\
    verify_proof (prepare_verifying_key (gpk_vk (pk_pk pk))) q ct = Err PairingCheckFailed.
Proof.
  intros Hdom Hn H256 Hb Hxs Hlm Hex Hsz Hg Hd Hf HG HH.
  destruct (C75_wrong_values_rejected E domain fuel (ark_backend Release domain fuel) b n xs m (map of_Z m) alpha beta) as (bad & Lb & Hbad);
    [left; reflexivity|exact Hdom|exact Hn|exact Hb|exact Hxs|rewrite map_length; exact Hlm|rewrite map_length; reflexivity|right; split; [reflexivity|exact Hex]|].
  destruct (outside_exists (xs ++ bad)) as (tau & Ht); [rewrite app_length; lia|]. rewrite in_app_iff in Ht.
  destruct (C39_setup_succeeds Release E domain fuel (replay_rng E) b n gens (alpha :: beta :: gamma :: delta :: tau :: rest)
     alpha (beta :: gamma :: delta :: tau :: rest) beta (gamma :: delta :: tau :: rest) gamma (delta :: tau :: rest) delta (tau :: rest) tau rest xs
     Hn Hb eq_refl eq_refl eq_refl eq_refl eq_refl Hg Hd Hf Hxs ltac:(intros X; apply Ht; left; exact X)) as (pk & sk & ek & dk & st & Hset).
  pose proof Hset as Hset'. unfold setup_for_groth16, circuit_new in Hset'. rewrite Hn in Hset'. cbn [bind] in Hset'.
  apply bind_Ok_inv in Hset'. destruct Hset' as ([pk0 st1] & Hsrs & Hset'). apply bind_Ok_inv in Hset'. destruct Hset' as (g_i & Hgi & Hset').
  apply bind_Ok_inv in Hset'. destruct Hset' as ([[[sk0 ek0] dk0] st2] & Hk & Hset').
  assert (Q : pk0 = pk /\ ek0 = ek) by (injection Hset' as -> _ -> _ _; split; reflexivity). destruct Q as [-> ->].
  assert (Hkey : honest_key b gens g_i (gpk_delta_g1 (pk_pk pk)) (pk_gamma_g1 pk) ek) by (left; exists sk0, dk0; exists (replay_rng E), st1, st2; exact Hk).
  pose proof Hkey as Hkey'. apply honest_key_inv in Hkey'. destruct Hkey' as (k & s & t0 & t & Hn' & Hgl & Hlt & Hls & Hlt' & Hek).
  assert (Hkn : Z.of_nat k = n) by congruence.
  destruct (ek_formula_lengths gens g_i (gpk_delta_g1 (pk_pk pk)) (pk_gamma_g1 pk) s t0 t k Hls Hlt' Hgl) as (HX & HY & HZ). cbv zeta in HX, HY, HZ.
  rewrite <- Hek in HX, HY, HZ.
  pose proof (encrypt_chunks_ok (replay_rng E) m ek g_i [r] ltac:(lia) ltac:(lia) ltac:(lia) ltac:(lia) ltac:(lia)) as He.
  change (fst (rand_scalar (replay_rng E) [r])) with r in He. change (snd (rand_scalar (replay_rng E) [r])) with (@nil (Fr E)) in He.
  set (ct := ct_formula ek g_i m r) in *.
  assert (Hgs : skipn 1 (vk_gamma_abc_g1 (gpk_vk (pk_pk pk))) = g_i).
  { unfold get_gs_for_encryption, slice_from in Hgi. destruct (Nat.leb 1 _); [|discriminate]. congruence. }
  destruct (Hbad (replay_rng E) (alpha :: beta :: gamma :: delta :: tau :: rest) gamma delta tau gens pk st1 g_i ek (ct_X_r ct) (ct_enc_chunks ct) (ct_commitment ct) r (replay_rng E) [] n)
    as (q & st3 & Hq & Hv); [exact Hsrs|reflexivity|intros X; apply Ht; left; exact X|intros X; apply Ht; right; exact X|exact HG|exact HH|exact Hgi|exact Hkey|exists (replay_rng E), [r], []; exact He|].
  exists tau, pk, sk, ek, dk, st, ct, q, st3. split; [exact Hset|]. rewrite Hgs. split; [exact He|]. split; [exact Hq|].
  replace (Ciphertext (ct_X_r ct) (ct_enc_chunks ct) (ct_commitment ct)) with ct in Hv by (destruct ct; reflexivity). exact Hv.
Qed.

(* the domains of arkworks: the powers of a root of unity *)
Lemma fpow_add (w : Fr E) i j : fpow w (i + j) = fmul (fpow w i) (fpow w j).
Proof. induction i as [|i IH]; [change (fpow w 0) with (@fone K); cbn [Nat.add]; ring|]. cbn [Nat.add]. rewrite !fpow_S, IH. ring. Qed.
Lemma powers_mult_group (w : Fr E) N : (0 < N)%nat -> w <> fzero -> fpow w N = fone -> (forall i, (0 < i < N)%nat -> fpow w i <> fone) ->
  mult_group (map (fpow w) (seq 0 N)).
Proof.
  intros HN Hw H1 Hm.
  assert (Hnz : forall i, fpow w i <> fzero).
  { induction i as [|i IH]; [exact fneq01|]. rewrite fpow_S. intros Hz. apply fmul_integral in Hz. destruct Hz as [Hz|Hz]; [exact (Hw Hz)|exact (IH Hz)]. }
  assert (Hlt : forall i j, (i < j < N)%nat -> fpow w i <> fpow w j).
  { intros i j Hij He. apply (Hm (j - i)%nat ltac:(lia)). replace j with (i + (j - i))%nat in He by lia. rewrite fpow_add in He.
    assert (Hz : fmul (fpow w i) (fsub (fpow w (j - i)) fone) = fzero).
    { replace (fmul (fpow w i) (fsub (fpow w (j - i)) fone)) with (fsub (fmul (fpow w i) (fpow w (j - i))) (fpow w i)) by ring. rewrite <- He. ring. }
    apply fmul_integral in Hz. destruct Hz as [Hz|Hz]; [exfalso; exact (Hnz i Hz)|]. apply fsub_zero_eq. exact Hz. }
  split; [|split; [|split]].
  - apply nodup_map_in; [|apply seq_NoDup]. intros i j Hi Hj He. apply in_seq in Hi, Hj.
    destruct (lt_eq_lt_dec i j) as [[H|H]|H]; [exfalso; apply (Hlt i j ltac:(lia) He)|exact H|exfalso; apply (Hlt j i ltac:(lia)); symmetry; exact He].
  - destruct N; [lia|discriminate].
  - intros Hin. apply in_map_iff in Hin. destruct Hin as (i & Hi & _). exact (Hnz i Hi).
  - intros x y Hx Hy. apply in_map_iff in Hx, Hy. destruct Hx as (i & <- & Hi). destruct Hy as (j & <- & Hj). apply in_seq in Hi, Hj.
    rewrite <- fpow_add. apply in_map_iff. destruct (le_lt_dec N (i + j)) as [Hge|Hlt'].
    + exists (i + j - N)%nat. split; [|apply in_seq; lia]. replace (i + j)%nat with (N + (i + j - N))%nat at 2 by lia. rewrite fpow_add, H1. ring.
    + exists (i + j)%nat. split; [reflexivity|apply in_seq; lia].
Qed.
Lemma fpow_mul (w : Fr E) i j : fpow w (i * j) = fpow (fpow w i) j.
Proof. induction j as [|j IH]; [rewrite Nat.mul_0_r; reflexivity|]. rewrite Nat.mul_succ_r, fpow_add, IH, fpow_S. ring. Qed.
Lemma fpow_one n : fpow (@fone K) n = fone.
Proof. induction n as [|n IH]; [reflexivity|]. rewrite fpow_S, IH. ring. Qed.
End Case.

(* the run with the values [65536; 0; 0; 0] at chunk size 16: setup, encryption, proof, rejection *)
Example C75_case_rejected :
  exists tau pk sk ek dk st ct q st2,
    setup_for_groth16 (y_backend Release) (replay_rng E61) 16 x_gens (y_alpha :: y_beta :: y_gamma :: y_delta :: tau :: y_tape) = Ok (pk, sk, ek, dk, st) /\
    encrypt_decomposed_message (replay_rng E61) [65536; 0; 0; 0] ek (skipn 1 (vk_gamma_abc_g1 (gpk_vk (pk_pk pk)))) [nz61 55] = Ok (ct_vec ct, nz61 55, []) /\
    create_proof (y_backend Release) (replay_rng E61) (values_circuit 16 4 (map of_Z [65536; 0; 0; 0])) (nz61 55) pk ek [] = Ok (q, st2) /\
    verify_proof (prepare_verifying_key (gpk_vk (pk_pk pk))) q ct = Err PairingCheckFailed.
Proof.
  apply (wrong_run (E := E61) y_domain 3 16 4 y_xs).
  - exact y_domain_ok.
  - exact y_count.
  - lia.
  - change (modulus_bit_size (K_of E61)) with 61. lia.
  - reflexivity.
  - reflexivity.
  - apply Exists_cons_hd. unfold into_bigint. rewrite sval_of_Z. change (modulus (K_of E61)) with (2 ^ 61 - 1). vm_compute. intros H. discriminate H.
  - unfold y_xs, y_points. rewrite map_length, seq_length. change (modulus (K_of E61)) with (2 ^ 61 - 1). unfold y_N. lia.
  - intros H. apply (f_equal sval) in H. vm_compute in H. discriminate.
  - intros H. apply (f_equal sval) in H. vm_compute in H. discriminate.
  - lia.
  - intros H. apply (f_equal sval) in H. vm_compute in H. discriminate.
  - exact x_H.
Qed.

(* in a debug build the same call panics *)
Example C75_case_debug pk ek : create_proof (y_backend Debug) (replay_rng E61) (values_circuit 16 4 (map of_Z [65536; 0; 0; 0])) (nz61 55) pk ek [] = Panic.
Proof.
  apply (C75_debug_build_panics E61 y_domain 3); [left; reflexivity|change (modulus_bit_size (K_of E61)) with 61; lia|].
  apply Exists_cons_hd. unfold into_bigint. rewrite sval_of_Z. change (modulus (K_of E61)) with (2 ^ 61 - 1). vm_compute. intros H. discriminate H.
Qed.

(* the 451st roots of unity of the field 2^61-1, and the coset of 3 *)
Definition c75_w : Fr E61 := nz61 575545359357196353.
Definition c75_domain (k : nat) : option (list (Fr E61)) := if (k <=? 451)%nat then Some (map (fpow c75_w) (seq 0 451)) else None.
Fixpoint c75_run (n : nat) (x : Z) : bool * Z :=
  match n with O => (true, x) | S k => let (b, y) := c75_run k x in (b && negb (y =? 1), y * 575545359357196353 mod (2 ^ 61 - 1)) end.
Lemma c75_run_pow n : snd (c75_run n 575545359357196353) = sval (fpow c75_w (S n)) /\
  (fst (c75_run n 575545359357196353) = true -> forall i, (i < n)%nat -> fpow c75_w (S i) <> fone).
Proof.
  assert (Hw : 575545359357196353 = sval (fpow c75_w 1)).
  { assert (H : fpow c75_w 1 = c75_w) by (rewrite fpow_S; change (fpow c75_w 0) with (@fone (K_of E61)); ring).
    rewrite H. unfold c75_w, nz61. rewrite sval_of_Z. symmetry. apply Z.mod_small. change (modulus (K_of E61)) with (2 ^ 61 - 1). lia. }
  induction n as [|n [IH1 IH2]]; [split; [exact Hw|intros _ i Hi; lia]|]. cbn [c75_run]. destruct (c75_run n 575545359357196353) as [b y]. cbn [fst snd] in *. split.
  - rewrite fpow_S. rewrite IH1. unfold c75_w at 2, nz61. cbn [fmul]. unfold fmul. rewrite !sval_of_Z. change (modulus (K_of E61)) with (2 ^ 61 - 1). rewrite Z.mul_comm. rewrite Z.mul_mod_idemp_l by lia. reflexivity.
  - intros Hb i Hi. apply andb_prop in Hb. destruct Hb as [Hb Hy]. destruct (Nat.eq_dec i n) as [->|]; [|apply IH2; [exact Hb|lia]].
    intros H. rewrite H in IH1. rewrite IH1 in Hy. vm_compute in Hy. discriminate.
Qed.
Lemma c75_order : fpow c75_w 451 = fone /\ forall i, (0 < i < 451)%nat -> fpow c75_w i <> fone.
Proof.
  destruct (c75_run_pow 450) as [H1 H2].
  assert (E1 : c75_run 450 575545359357196353 = (true, 1)) by (vm_compute; reflexivity). rewrite E1 in H1, H2. cbn [fst snd] in H1, H2. split.
  - apply scalar_eq. rewrite <- H1. reflexivity.
  - intros i Hi. destruct i as [|i]; [lia|]. apply H2; [reflexivity|lia].
Qed.
Lemma c75_outside : ~ In (nz61 3) (map (fpow c75_w) (seq 0 451)).
Proof.
  intros H. apply in_map_iff in H. destruct H as (i & Hi & _).
  assert (H : fpow (nz61 3) 451 = fone).
  { rewrite <- Hi, <- fpow_mul, Nat.mul_comm, fpow_mul, (proj1 c75_order). apply fpow_one. }
  unfold nz61 in H. rewrite fpow_of_Z in H. apply (f_equal sval) in H. rewrite sval_of_Z in H. vm_compute in H. discriminate.
Qed.
(* the library's own computation over roots of unity, meeting the hypotheses of C75_coset_backend_correct *)
Example C75_case_coset pf : backend_correct (ark_backend_coset (nz61 3) pf c75_domain 3) /\ c75_domain 433 <> None.
Proof.
  split; [|discriminate].
  assert (Hg : forall n xs, c75_domain n = Some xs -> mult_group xs /\ (n <= length xs)%nat /\ ~ In (nz61 3) xs).
  { intros n xs H. unfold c75_domain in H. destruct (Nat.leb_spec n 451) as [Hn|]; [|discriminate]. assert (X : map (fpow c75_w) (seq 0 451) = xs) by congruence. rewrite <- X. split.
    - apply powers_mult_group; [lia| |exact (proj1 c75_order)|exact (proj2 c75_order)].
      intros Hz. apply (f_equal sval) in Hz. vm_compute in Hz. discriminate.
    - split; [rewrite map_length, seq_length; exact Hn|exact c75_outside]. }
  apply C75_coset_backend_correct.
  - intros n xs H. destruct (Hg n xs H) as [(Hnd & _) [Hl _]]. split; [exact Hnd|exact Hl].
  - intros Hz. apply (f_equal sval) in Hz. vm_compute in Hz. discriminate.
  - intros n xs H. destruct (Hg n xs H) as [Hm [_ Ho]]. split; [exact Hm|exact Ho].
Qed.

(* The remaining outcomes of the setup: the domain of the library does not exist, or one of the two inverted secrets was drawn as zero. *)
Theorem C39_setup_errors :
  forall (pf : profile) (E : pairing) domain fuel (R : rng_impl E) b n gens st alpha beta gamma delta tau,
  chunks_count (K_of E) b = Ok n -> 0 <= b < modulus_bit_size (K_of E) -> draws R 5 st = [alpha; beta; gamma; delta; tau] -> (0 < fuel)%nat ->
  match domain (Z.to_nat n * (2 * Z.to_nat (modulus_bit_size (K_of E)) - Z.to_nat b + 1) + (1 + Z.to_nat n))%nat with
  | None => setup_for_groth16 (ark_backend pf domain fuel) R b gens st = Err (SynthesisError PolynomialDegreeTooLarge)
  | Some xs => ~ In tau xs -> gamma = fzero \/ delta = fzero -> setup_for_groth16 (ark_backend pf domain fuel) R b gens st = Err (SynthesisError UnexpectedIdentity)
  end.
Proof.
  intros pf E domain fuel R b n gens st alpha beta gamma delta tau Hn Hb Hdr Hf.
  destruct (@generate_setup (K_of E) b n true ltac:(lia)) as (s & Hs & Hi & Hw & Hcons).
  assert (Hlen : length (cs_cons s) = (Z.to_nat n * (2 * Z.to_nat (modulus_bit_size (K_of E)) - Z.to_nat b + 1))%nat).
  { rewrite Hcons, all_cons_length by lia. unfold circuit_vars. rewrite alloc_vars_length. reflexivity. }
  cbn [draws] in Hdr.
  destruct (rand_scalar R st) as [al s1] eqn:D1. cbn [fst snd] in Hdr. destruct (rand_scalar R s1) as [be s2] eqn:D2. cbn [fst snd] in Hdr.
  destruct (rand_scalar R s2) as [ga s3] eqn:D3. cbn [fst snd] in Hdr. destruct (rand_scalar R s3) as [de s4] eqn:D4. cbn [fst snd] in Hdr.
  destruct (rand_scalar R s4) as [ta s5] eqn:D5. cbn [fst snd] in Hdr. injection Hdr as -> -> -> -> ->.
  unfold setup_for_groth16, circuit_new. rewrite Hn. cbn [bind]. unfold generate_srs. rewrite D1, D2, D3, D4.
  cbn [generate_parameters_with_qap ark_backend]. unfold ark_generate. rewrite Hs. cbn [bind]. rewrite Hlen, Hi.
  destruct (domain _) as [xs|]; [|reflexivity]. cbn [domain_or_err bind]. intros Ht H0.
  assert (Hso : sample_outside R fuel xs s4 = Ok (tau, s5)).
  { destruct fuel; [lia|]. cbn [sample_outside]. rewrite D5. destruct (feqb (vanishing_at xs tau) fzero) eqn:Ez; [|reflexivity].
    exfalso. apply Ht. apply feqb_spec in Ez. apply vanishing_zero. exact Ez. }
  rewrite Hso. cbn [bind]. destruct (instance_map s _) as [[a c] d]. unfold inverse_or_err.
  destruct (feqb gamma fzero) eqn:Eg; [reflexivity|]. cbn [bind].
  destruct H0 as [H0|H0]; rewrite H0 in *; [rewrite (proj2 (feqb_spec _ _) eq_refl) in Eg; discriminate|]. rewrite (proj2 (feqb_spec _ _) eq_refl). reflexivity.
Qed.
Example C39_case_errors :
  setup_for_groth16 (y_backend Release) (replay_rng E61) 16 x_gens (y_alpha :: y_beta :: nz61 0 :: y_delta :: nz61 500 :: y_tape) = Err (SynthesisError UnexpectedIdentity) /\
  setup_for_groth16 (ark_backend Release (fun _ => None) 3) (replay_rng E61) 16 x_gens y_tape = Err (SynthesisError PolynomialDegreeTooLarge).
Proof.
  assert (C2 : 0 <= 16 < modulus_bit_size (K_of E61)) by (change (modulus_bit_size (K_of E61)) with 61; lia). split.
  - pose proof (C39_setup_errors Release E61 y_domain 3 (replay_rng E61) 16 4 x_gens (y_alpha :: y_beta :: nz61 0 :: y_delta :: nz61 500 :: y_tape)
      y_alpha y_beta (nz61 0) y_delta (nz61 500) y_count C2 eq_refl ltac:(lia)) as X.
    change (y_domain _) with (Some y_xs) in X. cbv iota in X. apply X; [|left; reflexivity].
    intros H. unfold y_xs, y_points in H. apply in_map_iff in H. destruct H as (i & Hi & H). apply in_seq in H. unfold y_N in H.
    apply (f_equal sval) in Hi. unfold nz61 in Hi. rewrite !sval_of_Z in Hi. change (modulus (K_of E61)) with (2 ^ 61 - 1) in Hi. rewrite !Z.mod_small in Hi by lia. lia.
  - exact (C39_setup_errors Release E61 (fun _ => None) 3 (replay_rng E61) 16 4 x_gens y_tape _ _ _ _ _ y_count C2 eq_refl ltac:(lia)).
Qed.
