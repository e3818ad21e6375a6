(* SoundAdapt.v -- adaptive provers (for C68): off a few hypersurfaces the answers of all tests are determined, so the prover plays one
   fixed strategy there *)
From Verif Require Import Base BaseFacts Algebra Utils UtilsFacts Setup Keygen Encryption Circuit CircuitFacts CircuitSat CommitmentFacts VecFacts KeySpec KeygenFacts
  EncryptFacts DecryptFacts Spec VerifyFacts Protocol ReencFacts DistFacts Groth16 ArkGroth16 PolyFacts Groth16Spec ArkFacts Groth16Facts SchwartzZippel SoundCore SoundSpec
  SoundAlg SoundGame SoundLink SoundFacts SoundCount SoundHonest PrivacySpec PrivacyAlg PrivacyGame PrivacyCount SoundAdaptSpec.

Section Adapt.
Context {E : pairing}.
Notation K := (K_of E).
Notation F := (Fr E).
Add Ring Kr : (@scalar_ring_theory K).
Notation "x +f y" := (fadd x y) (at level 50, left associativity).
Notation "x *f y" := (fmul x y) (at level 40, left associativity).
Notation e i env := (nth i env fzero).
Variables (n : nat) (cs : csys K) (xs : list F) (pf : profile) (domain : nat -> option (list F)) (fuel : nat) (b : Z) (gens : encryption_gens E).
Let ni := cs_num_inst cs.
Let nc := length (cs_cons cs).
Let N := length xs.
Let k := (3 * n + 7)%nat.
Notation G := (eg_G gens).
Notation H := (eg_H gens).
Notation p := (modulus K).
Hypothesis HG : G <> gzero.
Hypothesis HH : H <> gzero.
Hypothesis Hdom_ok : domain_ok domain.
Hypothesis Hb : 0 < b <= modulus_bit_size K.
Hypothesis Hcount : chunks_count K b = Ok (Z.of_nat n).
Hypothesis Hn0 : (0 < n)%nat.
Hypothesis Hcs : generate_constraints (BitsizeCheckCircuit b (Z.of_nat n) None true) (@cs_new K Circuit.Setup) = Ok cs.
Hypothesis Hdomain : domain (nc + ni)%nat = Some xs.

(* a test as a polynomial in the tape *)
Definition f_test (q : list (list F)) (env : list F) : F := mdot q (g1e n cs xs env) (g2e n cs xs env).
Lemma pf_test q : @pfun K k (dg (3 * N) 7) (f_test q).
Proof.
  destruct (vec_g1 n cs xs k) as (m1 & LU & PU). destruct (vec_g2 n cs xs k) as (m2 & LV & PV). unfold f_test.
  apply (pfun_ext k _ (fun env => fsum (map (fun i => fdot (unit_vec m1 i) (g1e n cs xs env) *f fdot (nth i q []) (g2e n cs xs env)) (seq 0 m1)))).
  - intros env _. symmetry. pose proof (list_as_map fzero (g1e n cs xs env)) as EU. rewrite LU in EU.
    transitivity (mdot q (map (fun i => nth i (g1e n cs xs env) fzero) (seq 0 m1)) (g2e n cs xs env)); [f_equal; exact EU|]. rewrite (mdot_map q (fun i => nth i (g1e n cs xs env) fzero) m1). symmetry. f_equal. apply map_ext_in. intros i Hi. apply in_seq in Hi. f_equal.
    rewrite fdot_comm. rewrite (fdot_nth_sum _ (unit_vec m1 i) m1) by apply unit_length. pose proof (fsum_delta (fun j => nth j (g1e n cs xs env) fzero) m1 0 i ltac:(lia)) as D. cbn [Nat.add] in D.
    rewrite <- D. f_equal. apply map_ext_in. intros j Hj. apply in_seq in Hj. unfold unit_vec. rewrite (map_seq_nth _ m1 j fzero) by lia. reflexivity.
  - apply (pfun_fsum k _ (fun i env => fdot (unit_vec m1 i) (g1e n cs xs env) *f fdot (nth i q []) (g2e n cs xs env))). intros i _.
    apply (pfun_mul k _ (dg (2 * N) 5) (dg N 2)); [|apply PU|apply PV]. intros j _. unfold dg. destruct (Nat.eqb j 4); lia.
Qed.
Let D7 := 3 * Z.of_nat N + 7 * (3 * Z.of_nat n + 6).
Lemma test_dichotomy q : (forall env, length env = k -> f_test q env = fzero) \/ small_zeros k D7 (f_test q).
Proof.
  destruct (all_or_some n cs xs Hn0 k (fun env => f_test q env = fzero) (fun env => feq_dec _ _)) as [Z|(env & H1 & H2)]; [left; exact Z|right].
  pose proof (small_dg n cs xs Hn0 _ _ _ env (pf_test q) H1 H2) as Sm. unfold D7. 
  destruct Sm as (d & a & A1 & A2 & A3 & A4). exists d, a. split; [exact A1|]. split; [exact A2|]. split; [exact A3|]. etransitivity; [exact A4|]. rewrite !Nat2Z.inj_add, !Nat2Z.inj_mul. lia.
Qed.
Lemma test_answer env pk sk ek dk st' q : length env = k -> vanishing_at xs (e 4 env) <> fzero ->
  setup_for_groth16 (ark_backend pf domain fuel) (replay_rng E) b gens env = Ok (pk, sk, ek, dk, st') ->
  geqb (pairing_product q (public_g1 gens pk ek) (public_g2 gens pk ek dk)) gzero = feqb (f_test q env) fzero.
Proof.
  intros Hl Hv Hs. pose proof (proj1 (cs_shape n cs xs b Hb Hn0 Hcs)) as Hni.
  destruct (setup_tape n cs xs pf domain fuel b gens Hcount Hcs Hdomain Hni env pk sk ek dk st' Hl Hv Hs) as (Hga & Hde & _ & _ & _ & _ & _ & _ & _ & P1 & P2).
  rewrite P1, P2, pairing_product_exp. fold (f_test q env). apply eq_true_iff_eq. rewrite geqb_spec, feqb_spec.
  assert (Hw : finv (e 2 env *f e 3 env) <> fzero).
  { intros Z. apply (@fneq01 K). assert (X : e 2 env *f e 3 env <> fzero) by (intros Y; apply fmul_integral in Y; destruct Y; contradiction).
    rewrite <- (finv_r _ X), Z. ring. }
  split.
  - intros Z. apply smul_eq_zero in Z. destruct Z as [Z|Z]; [apply fmul_integral in Z; destruct Z; [contradiction|assumption]|].
    apply pair_nondeg in Z. destruct Z; contradiction.
  - intros ->. match goal with |- (?a *f _) [*] _ = _ => replace (a *f fzero) with (@fzero K) by ring end. apply smul_0_l.
Qed.

(* If every fixed strategy has a property of tapes on few tapes only, so has an adaptive prover. *)
Lemma adaptive_bound (bad : strategy E -> list F -> Prop) (D : Z) (P : prover E) :
  (forall St L, NoDup L -> (forall l, In l L -> length l = k /\ (vanishing_at xs (e 4 l) <> fzero -> bad St l)) -> Z.of_nat (length L) * p <= D * p ^ Z.of_nat k) ->
  forall L, NoDup L -> (forall l, In l L -> length l = k /\ (vanishing_at xs (e 4 l) <> fzero -> exists pk sk ek dk st',
    setup_for_groth16 (ark_backend pf domain fuel) (replay_rng E) b gens l = Ok (pk, sk, ek, dk, st') /\ bad (play P (public_g1 gens pk ek) (public_g2 gens pk ek dk)) l)) ->
  Z.of_nat (length L) * p <= (Z.of_nat (tests P) * D7 + D) * p ^ Z.of_nat k.
Proof.
  intros Hfix. pose proof (@modulus_gt1 K) as Hp. assert (Pk : 0 < p ^ Z.of_nat k) by (apply Z.pow_pos_nonneg; lia). assert (H7 : 0 <= D7) by (unfold D7; lia).
  induction P as [St|q P1 IH1 P2 IH2]; intros L Hnd HL.
  - cbn [tests]. rewrite Z.mul_0_l, Z.add_0_l. apply (Hfix St L Hnd). intros l Hl. destruct (HL l Hl) as [H1 H2]. split; [exact H1|]. intros Hv. destruct (H2 Hv) as (pk & sk & ek & dk & st' & _ & Hbad). exact Hbad.
  - cbn [tests]. destruct (test_dichotomy q) as [Z|Z].
    + assert (X : Z.of_nat (length L) * p <= (Z.of_nat (tests P1) * D7 + D) * p ^ Z.of_nat k).
      { apply (IH1 L Hnd). intros l Hl. destruct (HL l Hl) as [H1 H2]. split; [exact H1|]. intros Hv. destruct (H2 Hv) as (pk & sk & ek & dk & st' & Hs & Hbad).
        exists pk, sk, ek, dk, st'. split; [exact Hs|]. cbn [play] in Hbad. rewrite (test_answer l pk sk ek dk st' q H1 Hv Hs), (Z l H1) in Hbad.
        rewrite (proj2 (feqb_spec fzero fzero) eq_refl) in Hbad. exact Hbad. }
      nia.
    + destruct (split_list (fun l => feqb (f_test q l) fzero) L Hnd) as (L1 & L2 & N1 & N2 & Len & I1 & I2).
      assert (B1 : Z.of_nat (length L1) * p <= D7 * p ^ Z.of_nat k).
      { pose proof (union_bound k [(D7, f_test q)] L1 ltac:(constructor; [exact Z|constructor]) N1) as U. cbn [map fst zsum] in U. rewrite Z.add_0_r in U. apply U.
        intros l Hl. destruct (I1 l Hl) as [Hi Hz]. split; [apply HL; exact Hi|constructor 1; apply feqb_spec; exact Hz]. }
      assert (B2 : Z.of_nat (length L2) * p <= (Z.of_nat (tests P2) * D7 + D) * p ^ Z.of_nat k).
      { apply (IH2 L2 N2). intros l Hl. destruct (I2 l Hl) as [Hi Hz]. destruct (HL l Hi) as [H1 H2]. split; [exact H1|]. intros Hv. destruct (H2 Hv) as (pk & sk & ek & dk & st' & Hs & Hbad).
        exists pk, sk, ek, dk, st'. split; [exact Hs|]. cbn [play] in Hbad. rewrite (test_answer l pk sk ek dk st' q H1 Hv Hs), Hz in Hbad. exact Hbad. }
      rewrite Len, Nat2Z.inj_add. nia.
Qed.
End Adapt.
