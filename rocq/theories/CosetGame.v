(* CosetGame.v -- honest encryption with the library's coset computation (ArkCoset.v) gives exactly the ciphertexts and proofs of ArkGroth16.v,
   so the games of C68, C78 and C80 are the same games for it (used for C83). *)
From Verif Require Import Base BaseFacts Algebra Utils UtilsFacts Setup Keygen Encryption Circuit CircuitFacts CircuitSat CommitmentFacts VecFacts KeygenFacts EncryptFacts Spec KeySpec
  Protocol Groth16 ArkGroth16 PolyFacts Groth16Spec Groth16Facts ArkFacts SchwartzZippel ArkCoset PropWrongValues SoundSpec SoundDkgSpec PrivacySpec PrivacyDkgSpec CcaSpec RccaSpec RccaDkgSpec.

Section Coset.
Context {E : pairing}.
Notation K := (K_of E).
Variables (g : Fr E) (pf : profile) (domain : nat -> option (list (Fr E))) (fuel : nat) (b : Z).
Hypothesis Hdom : domain_ok domain.
Hypothesis Hg : g <> fzero.
Hypothesis Hm : forall n xs, domain n = Some xs -> mult_group xs /\ ~ In g xs.
Hypothesis Hb : supported b.
Hypothesis Hbits : b <= modulus_bit_size K.
Notation B := (ark_backend pf domain fuel).
Notation Bc := (ark_backend_coset g pf domain fuel).

Lemma coset_proves n (ds : list Z) (pk : groth16_proving_key E) r s : digits_ok b ds ->
  create_proof_with_reduction Bc (generate_constraints (BitsizeCheckCircuit b n (Some (map of_Z ds)) true)) pk r s =
  create_proof_with_reduction B (generate_constraints (BitsizeCheckCircuit b n (Some (map of_Z ds)) true)) pk r s.
Proof.
  intros Hd. assert (Hb0 : 0 <= b <= modulus_bit_size K) by (destruct Hb as [->|[->| ->]]; lia).
  destruct (@generate_setup K b (Z.of_nat (length ds)) true Hb0) as (s0 & Hs0 & Hi & _ & _).
  destruct (@values_instance E b (Z.of_nat (length ds)) n (map of_Z ds) s0 Hb0 ltac:(rewrite map_length; reflexivity) Hs0) as (sp & Hsp & _ & Hc & Hni & Hinst & Hl & _ & Hsat).
  assert (Hs : is_satisfied sp = true).
  { apply Hsat. apply Forall_forall. intros v Hv. apply in_map_iff in Hv. destruct Hv as (d & <- & Hin). unfold digits_ok in Hd. rewrite Forall_forall in Hd. specialize (Hd d Hin).
    unfold into_bigint. rewrite sval_of_Z. pose proof (Z.mod_le d (modulus K) ltac:(lia) ltac:(pose proof (@modulus_gt1 K); lia)). lia. }
  assert (Hil : length (cs_inst sp) = cs_num_inst sp) by (rewrite Hinst, Hni, <- Hl; reflexivity).
  destruct (domain (length (cs_cons sp) + cs_num_inst sp)%nat) as [xs|] eqn:Hx.
  - destruct (C75_coset_backend_correct E g pf domain fuel Hdom Hg Hm) as [_ Same]. exact (Same _ pk r s sp xs Hsp Hs Hil Hx).
  - cbn [ark_backend ark_backend_coset create_proof_with_reduction]. unfold ark_prove_coset. rewrite ark_prove_is. unfold ark_prove_h.
    change (generate_constraints (BitsizeCheckCircuit b n (Some (map of_Z ds)) true) (cs_new Prove)) with (values_circuit b n (map of_Z ds) (@cs_new K Prove)).
    rewrite Hsp. cbn [bind]. rewrite Hs, Hx. destruct pf; reflexivity.
Qed.
Lemma coset_encrypts (R : rng_impl E) m ek pk st : encrypt_with_proof pf Bc R m ek pk b st = encrypt_with_proof pf B R m ek pk b st.
Proof.
  unfold encrypt_with_proof. destruct (get_gs_for_encryption (gpk_vk (pk_pk pk))) as [g_i|e|]; [|reflexivity|reflexivity]. cbn [bind].
  destruct (encrypt pf R m ek g_i b st) as [[[ct r] st1]|e|]; [|reflexivity|reflexivity]. cbn [bind].
  destruct (decompose_spec pf K m b Hb) as (ds & Hds & Hok & _). rewrite Hds. cbn [bind].
  unfold circuit_new. destruct (chunks_count K b) as [n|e|]; [|reflexivity|reflexivity]. cbn [bind]. unfold create_proof.
  destruct (rand_scalar R st1) as [t st2]. destruct (rand_scalar R st2) as [s st3]. pose proof (coset_proves n ds (pk_pk pk) t s Hok) as X. cbv zeta. change (fun m : Z => of_Z m) with (@of_Z K). rewrite X. reflexivity.
Qed.
Lemma coset_setup (R : rng_impl E) gens st : setup_for_groth16 Bc R b gens st = setup_for_groth16 B R b gens st.
Proof. reflexivity. Qed.
Lemma coset_dkg_setup gens before after coins : dkg_setup Bc gens b before after coins = dkg_setup B gens b before after coins.
Proof. reflexivity. Qed.

Lemma coset_duel {R} gens pk sk ek dk second (A : adversary E R) : forall offered cps coins,
  duel pf Bc gens b pk sk ek dk second A offered cps coins = duel pf B gens b pk sk ek dk second A offered cps coins.
Proof.
  induction A as [r|q A1 IH1 A2 IH2|m m' A IH|St next IH]; intros offered cps coins; cbn [duel].
  - reflexivity.
  - rewrite IH1, IH2. reflexivity.
  - rewrite coset_encrypts. destruct (encrypt_with_proof pf B (replay_rng E) (if second then m' else m) ek pk b coins) as [[[[ct r] p] coins']|e|]; [apply IH|reflexivity|reflexivity].
  - apply IH.
Qed.
Lemma coset_dkg_duel {R} (G : rng_impl E) gens keys second (A : adversary E R) : forall offered cps coins st,
  dkg_duel pf Bc G gens b keys second A offered cps coins st = dkg_duel pf B G gens b keys second A offered cps coins st.
Proof.
  induction A as [r|q A1 IH1 A2 IH2|m m' A IH|St next IH]; intros offered cps coins st; cbn [dkg_duel].
  - reflexivity.
  - rewrite IH1, IH2. reflexivity.
  - rewrite coset_encrypts. destruct (encrypt_with_proof pf B (replay_rng E) (if second then m' else m) (kg_ek keys) (kg_pk keys) b coins) as [[[[ct r] p] coins']|e|]; [apply IH|reflexivity|reflexivity].
  - destruct (service_by_parties _ _ _ _ _ _ _ _ _) as [answer st']. apply IH.
Qed.
Lemma coset_experiment {R} gens second (A : adversary E R) coins : experiment_rcca pf Bc gens b second A coins = experiment_rcca pf B gens b second A coins.
Proof.
  unfold experiment_rcca. rewrite coset_setup. destruct (setup_for_groth16 B (replay_rng E) b gens coins) as [[[[[pk sk] ek] dk] rest]|e|]; [|reflexivity|reflexivity].
  rewrite coset_duel. reflexivity.
Qed.
Lemma coset_experiment_dkg {R} (G : rng_impl E) gens before after second (A : adversary E R) st coins :
  experiment_rcca_dkg pf Bc G gens b before after second A st coins = experiment_rcca_dkg pf B G gens b before after second A st coins.
Proof.
  unfold experiment_rcca_dkg. rewrite coset_dkg_setup. destruct (dkg_setup B gens b before after coins) as [[keys rest]|e|]; [|reflexivity|reflexivity].
  rewrite coset_dkg_duel. reflexivity.
Qed.
End Coset.
