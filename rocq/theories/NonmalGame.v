(* NonmalGame.v -- provers that see one honest ciphertext with its proof: acceptance as polynomial equations in all coins, and counting (for C73) *)
From Verif Require Import Base BaseFacts Algebra Utils UtilsFacts Setup Keygen Encryption Circuit CircuitFacts CircuitSat CommitmentFacts VecFacts KeySpec KeygenFacts
  EncryptFacts DecryptFacts Spec VerifyFacts Protocol ReencFacts DistFacts Groth16 ArkGroth16 PolyFacts Groth16Spec ArkFacts Groth16Facts SchwartzZippel SoundCore SoundSpec
  SoundAlg SoundGame SoundLink SoundFacts SoundCount PrivacySpec PrivacyAlg PrivacyGame PrivacySpan SoundAdaptSpec NonmalCore NonmalAlg.

Section NGame.
Context {E : pairing}.
Notation K := (K_of E).
Notation F := (Fr E).
Add Ring Kr : (@scalar_ring_theory K).
Notation "x +f y" := (fadd x y) (at level 50, left associativity).
Notation "x *f y" := (fmul x y) (at level 40, left associativity).
Notation "x -f y" := (fsub x y) (at level 50, left associativity).
Notation e i env := (nth i env fzero).
Notation p := (modulus K).

Variables (n : nat) (cs : csys K) (xs : list F) (m : nat -> F) (z : list F).
Let ni := cs_num_inst cs.
Let nw := cs_num_wit cs.
Let nc := length (cs_cons cs).
Let N := length xs.
Let M := (ni + nw)%nat.
Let k := (3 * n + 10)%nat.
Notation pf T x f := (@pfun (K_of E) k (dg T x) f).
Let D1 := 3 * Z.of_nat N + 9 * (3 * Z.of_nat n + 9).

Definition f_com1 (S0 : strategy E) (env : list F) : F :=
  eq_com1 n cs xs m S0 (e 0 env) (e 1 env) (e 2 env) (e 3 env) (e 4 env) (e_s env) (e_t n env) (e_r n env) (a_of n cs xs z env) (b_of n cs xs z env).
Definition f_qap1 (S0 : strategy E) (env : list F) : F :=
  eq_qap1 n cs xs m S0 (e 0 env) (e 1 env) (e 2 env) (e 3 env) (e 4 env) (e 5 env) (e_s env) (e_t n env) (e_v n env) (e_r n env) (a_of n cs xs z env) (b_of n cs xs z env).
Lemma pf_u c : pf (2 * N) 7 (fun env => fdot c (u_of n cs xs m z env)).
Proof. destruct (vec_u n cs xs m z) as (l & _ & H). apply H. Qed.
Lemma pf_vv c : pf N 2 (fun env => fdot c (v_of n cs xs z env)).
Proof. destruct (vec_v n cs xs z) as (l & _ & H). apply H. Qed.
Lemma pf_com1 S0 : pf (3 * N) 9 (f_com1 S0).
Proof.
  unfold f_com1, eq_com1. apply pfun_sub; [|apply (pf_weak k (2 * N) 7); [lia|lia|apply pf_u]].
  set (l := sg_X_r S0 :: sg_chunks S0).
  apply (pfun_ext k _ (fun env => fsum (map (fun j => fdot (nth j l []) (u_of n cs xs m z env) *f e_t n env j) (seq 0 (S n))))).
  - intros env _. rewrite (fdot_nth_sum _ (map (e_t n env) (seq 0 (S n))) (S n)) by (rewrite map_length, seq_length; reflexivity). f_equal.
    apply map_ext_in. intros j Hj. apply in_seq in Hj. rewrite (map_seq_nth _ (S n) j fzero) by lia. f_equal. symmetry.
    apply (map_nth (fun c => fdot c (u_of n cs xs m z env)) l []).
  - apply (pfun_fsum k _ (fun j env => fdot (nth j l []) (u_of n cs xs m z env) *f e_t n env j)). intros j _. apply (pm n cs xs (2 * N) 7 0 1); [lia|lia|apply pf_u|].
    unfold e_t. apply (pv n cs xs). lia.
Qed.
Lemma pf_qap1 S0 : pf (3 * N) 9 (f_qap1 S0).
Proof.
  unfold f_qap1, eq_qap1. apply pfun_sub; [apply pfun_sub; [apply pfun_sub|]|].
  - apply (pm n cs xs (2 * N) 7 N 2); [lia|lia|apply pf_u|apply pf_vv].
  - apply (pf_weak k 0 5); [lia|lia|]. apply (pm n cs xs 0 4 0 1); [lia|lia| |apply (pv n cs xs); lia]. apply (pm n cs xs 0 3 0 1); [lia|lia| |apply (pv n cs xs); lia]. apply (pm n cs xs 0 2 0 1); [lia|lia| |apply (pv n cs xs); lia].
    apply (pm n cs xs 0 1 0 1); [lia|lia|apply (pv n cs xs); lia|apply (pv n cs xs); lia].
  - apply (pm n cs xs 0 1 (2 * N) 7); [lia|lia|apply (pv n cs xs); lia|]. apply pfun_add.
    + apply (pfun_fsum k _ (fun c env => fdot c (u_of n cs xs m z env))). intros c _. apply pf_u.
    + apply (pm n cs xs 0 2 N 1); [lia|lia| |apply pf_qq]. apply (pm n cs xs 0 1 0 1); [lia|lia|apply (pv n cs xs); lia|apply (pv n cs xs); lia].
  - apply (pm n cs xs 0 1 (2 * N) 7); [lia|lia|apply (pv n cs xs); lia|apply pf_u].
Qed.
Lemma small_pf f env : pf (3 * N) 9 f -> length env = k -> f env <> fzero -> small_zeros k D1 f.
Proof.
  intros Hf Hl Hn. exists (dg (3 * N) 9), env. split; [exact Hf|]. split; [exact Hl|]. split; [exact Hn|].
  unfold k, D1. replace (3 * n + 10)%nat with (5 + (3 * n + 5))%nat by lia. rewrite deg_sum_dg. lia.
Qed.
Lemma zero_or_small_pf f : (0 < n)%nat -> pf (3 * N) 9 f -> (forall env, length env = k -> f env = fzero) \/ small_zeros k D1 f.
Proof.
  intros Hn0 Hf. destruct (all_or_some n cs xs Hn0 k (fun env => f env = fzero) (fun env => feq_dec _ _)) as [H|(env & H1 & H2)]; [left; exact H|right].
  exact (small_pf f env Hf H1 H2).
Qed.

(* ---------- identically zero ---------- *)
Variable b0 : Z.
Hypothesis Hb0 : 0 < b0 <= modulus_bit_size K.
Hypothesis Hn0 : (0 < n)%nat.
Hypothesis Hcs : generate_constraints (BitsizeCheckCircuit b0 (Z.of_nat n) None true) (@cs_new K Circuit.Setup) = Ok cs.
(* every choice of exponents comes from coins *)
Lemma coins_for al be ga de ta rh s t v r a b : de <> fzero -> exists env, length env = k /\
  e 0 env = al /\ e 1 env = be /\ e 2 env = ga /\ e 3 env = de /\ e 4 env = ta /\ e 5 env = rh /\ e_r n env = r /\ a_of n cs xs z env = a /\ b_of n cs xs z env = b /\
  (forall j, (j < n)%nat -> e_s env j = s j) /\ (forall j, (j < S n)%nat -> e_t n env j = t j) /\ (forall j, (j < n)%nat -> e_v n env j = v j).
Proof.
  intros Hd.
  set (A := al +f fdot z (map (colA cs xs ta) (seq 0 M))). set (B := be +f fdot z (map (colB cs xs ta) (seq 0 M))).
  set (T := tape_of n al be ga de ta rh s t v). set (rr := (a -f A) *f finv de). set (ss := (b -f B) *f finv de).
  assert (LT : length T = (3 * n + 7)%nat) by apply (tape_of_length n cs xs b0 Hb0 Hn0 Hcs).
  assert (R0 : forall i, e (3 * n + 7 + i) (T ++ [r; rr; ss]) = e i [r; rr; ss]) by (intros i; rewrite app_nth2 by lia; rewrite LT; f_equal; lia).
  exists (T ++ [r; rr; ss]). split; [rewrite app_length, LT; unfold k; cbn [length]; lia|].
  do 6 (split; [reflexivity|]).
  split; [unfold e_r; rewrite <- (Nat.add_0_r (3 * n + 7)), R0; reflexivity|].
  split.
  { unfold a_of, e_rr. replace (3 * n + 8)%nat with (3 * n + 7 + 1)%nat by lia. rewrite R0. cbn [nth T tape_of app]. fold ni nw M A. unfold rr.
    transitivity (A +f (a -f A) *f (finv de *f de)); [ring|]. rewrite finv_l by exact Hd. ring. }
  split.
  { unfold b_of, e_ss. replace (3 * n + 9)%nat with (3 * n + 7 + 2)%nat by lia. rewrite R0. cbn [nth T tape_of app]. fold ni nw M B. unfold ss.
    transitivity (B +f (b -f B) *f (finv de *f de)); [ring|]. rewrite finv_l by exact Hd. ring. }
  split; [intros j Hj; unfold e_s, T; rewrite (tape_nth n cs xs b0 Hb0 Hn0 Hcs) by lia; exact (tape_of_s n al be ga de ta rh s t v j Hj)|].
  split; [intros j Hj; unfold e_t, T; rewrite (tape_nth n cs xs b0 Hb0 Hn0 Hcs) by lia; exact (tape_of_t n cs xs b0 Hb0 Hn0 Hcs al be ga de ta rh s t v j Hj)|].
  intros j Hj; unfold e_v, T; rewrite (tape_nth n cs xs b0 Hb0 Hn0 Hcs) by lia; exact (tape_of_v n cs xs b0 Hb0 Hn0 Hcs al be ga de ta rh s t v j Hj).
Qed.
Lemma com1_everywhere S0 : (forall env, length env = k -> f_com1 S0 env = fzero) ->
  forall al be ga de ta s t r a b, de <> fzero -> eq_com1 n cs xs m S0 al be ga de ta s t r a b = fzero.
Proof.
  intros H al be ga de ta s t r a b Hd. destruct (coins_for al be ga de ta fzero s t (fun _ => fzero) r a b Hd) as (env & Hl & E0 & E1 & E2 & E3 & E4 & _ & Er & Ea & Eb & Hs & Ht & _).
  specialize (H env Hl). unfold f_com1 in H. rewrite E0, E1, E2, E3, E4, Er, Ea, Eb in H. unfold eq_com1 in *.
  rewrite (seen1_ext n cs xs b0 Hb0 Hn0 Hcs m _ _ _ _ _ _ _ s t r a b Hs Ht) in H.
  rewrite (map_ext_in (e_t n env) t (seq 0 (S n))) in H by (intros j Hj; apply in_seq in Hj; apply Ht; lia). exact H.
Qed.
Lemma qap1_everywhere S0 : (forall env, length env = k -> f_qap1 S0 env = fzero) ->
  forall al be ga de ta rh s t v r a b, de <> fzero -> eq_qap1 n cs xs m S0 al be ga de ta rh s t v r a b = fzero.
Proof.
  intros H al be ga de ta rh s t v r a b Hd. destruct (coins_for al be ga de ta rh s t v r a b Hd) as (env & Hl & E0 & E1 & E2 & E3 & E4 & E5 & Er & Ea & Eb & Hs & Ht & Hv).
  specialize (H env Hl). unfold f_qap1 in H. rewrite E0, E1, E2, E3, E4, E5, Er, Ea, Eb in H. unfold eq_qap1 in *.
  rewrite (seen1_ext n cs xs b0 Hb0 Hn0 Hcs m _ _ _ _ _ _ _ s t r a b Hs Ht) in H.
  unfold seen2 in *. rewrite (g2b_ext n cs xs b0 Hb0 Hn0 Hcs _ _ _ _ _ _ _ _ s t v Hs Ht Hv) in H. exact H.
Qed.

(* combinations of the published elements do not involve the first proof element *)
Lemma public_part c al be ga de ta s t r a b a' b' : (forall j, (P1 n cs xs <= j)%nat -> nth j c fzero = fzero) ->
  fdot c (seen1 n cs xs m al be ga de ta s t r a b) = fdot c (seen1 n cs xs m al be ga de ta s t r a' b').
Proof.
  intros Hc. rewrite !sv_eq. f_equal. unfold sv, hpart.
  assert (H3 : ha n cs xs c = fzero) by (unfold ha; apply Hc; lia). assert (H4 : hd' n cs xs c = fzero) by (unfold hd'; apply Hc; lia). rewrite H3, H4. ring.
Qed.

(* ---------- one fixed strategy ---------- *)
Hypothesis Hxs : NoDup xs.
Hypothesis Hdom : (nc + ni <= N)%nat.
Definition A_fine (S0 : strategy E) (env : list F) : Prop :=
  fdot (sg_a S0) (u_of n cs xs m z env) = ha n cs xs (sg_a S0) *f (e 3 env *f (e 2 env *f e 3 env *f a_of n cs xs z env)).
Definition fine1 (S0 : strategy E) (av : list (list F)) (env : list F) : Prop :=
  hx n cs xs (sg_commitment S0) = fzero \/
  (hx n cs xs (sg_commitment S0) = fone /\ ha n cs xs (sg_a S0) <> fzero /\ (forall j, (j < n)%nat -> nth j (sg_commitment S0) fzero = fzero) /\ A_fine S0 env /\
   forall R, In R av -> fdot (sg_a S0) (u_of n cs xs m z env) <> fdot R (u_of n cs xs m z env)).
Lemma fixed_bound S0 av (A : Z) (L : list (list F)) : 1 <= A -> Z.of_nat (length av) <= A -> (forall R, In R av -> forall j, (P1 n cs xs <= j)%nat -> nth j R fzero = fzero) -> NoDup L ->
  (forall env, In env L -> length env = k /\ e 3 env <> fzero /\ length (sg_chunks S0) = n /\ f_com1 S0 env = fzero /\ f_qap1 S0 env = fzero /\ ~ fine1 S0 av env) ->
  Z.of_nat (length L) * p <= A * D1 * p ^ Z.of_nat k.
Proof.
  intros HA1 HA Hav Hnd HL. pose proof (@modulus_gt1 K) as Hp. assert (Pk : 0 < p ^ Z.of_nat k) by (apply Z.pow_pos_nonneg; lia). assert (H9 : 9 <= D1) by (unfold D1; lia).
  destruct (Z_le_gt_dec p 8) as [Hp8|Hp8].
  { pose proof (tuples_bound k L Hnd ltac:(intros l Hl; apply HL; exact Hl)) as HT. assert (HAD : 9 <= A * D1) by nia. generalize dependent (A * D1). intros X HX. nia. }
  assert (One : forall f, small_zeros k D1 f -> (forall env, In env L -> f env = fzero) -> Z.of_nat (length L) * p <= A * D1 * p ^ Z.of_nat k).
  { intros f Hf Hz. pose proof (union_bound k [(D1, f)] L ltac:(constructor; [exact Hf|constructor]) Hnd) as U. cbn [map fst zsum] in U. rewrite Z.add_0_r in U.
    eapply Z.le_trans; [apply U|nia]. intros l Hl. split; [apply HL; exact Hl|constructor 1; apply Hz; exact Hl]. }
  destruct (zero_or_small_pf _ Hn0 (pf_com1 S0)) as [Zc|Zc]; [|apply (One _ Zc); intros env He; apply HL; exact He].
  destruct (zero_or_small_pf _ Hn0 (pf_qap1 S0)) as [Zq|Zq]; [|apply (One _ Zq); intros env He; apply HL; exact He].
  destruct L as [|env0 L0]; [cbn [length]; nia|]. set (L := env0 :: L0) in *.
  assert (Hlen : length (sg_chunks S0) = n) by (apply (HL env0); left; reflexivity).
  pose proof (proj1 (cs_shape n cs xs b0 Hb0 Hn0 Hcs)) as Hni. fold ni in Hni.
  destruct (nonmal_alg n cs xs m ltac:(lia) Hxs Hdom Hni Hn0 S0 Hlen (com1_everywhere S0 Zc) (qap1_everywhere S0 Zq)) as [Q|(Q1 & Q2 & Q3 & Q4)].
  { exfalso. destruct (HL env0 (or_introl eq_refl)) as (_ & _ & _ & _ & _ & Hf). apply Hf. left. exact Q. }
  set (fs := map (fun R => (D1, fun env => fdot (sg_a S0) (u_of n cs xs m z env) -f fdot R (u_of n cs xs m z env))) av).
  assert (Hsum : zsum (map fst fs) = D1 * Z.of_nat (length av)). { unfold fs. rewrite map_map. cbn [fst]. apply (zsum_const n cs xs Hn0). }
  eapply Z.le_trans; [apply (union_bound k fs L)|rewrite Hsum; nia].
  - unfold fs. apply Forall_map, Forall_forall. intros R HR. cbn [fst snd].
    destruct (zero_or_small_pf (fun env => fdot (sg_a S0) (u_of n cs xs m z env) -f fdot R (u_of n cs xs m z env)) Hn0) as [Zz|Zz]; [|exfalso|exact Zz].
    { apply (pf_weak k (2 * N) 7); [lia|lia|]. apply pfun_sub; apply pf_u. }
    set (zz := fun _ : nat => @fzero K).
    assert (Y : forall a, ha n cs xs (sg_a S0) *f a = fdot R (seen1 n cs xs m fzero fzero fone fone fzero zz zz fzero a fzero)).
    { intros a. destruct (coins_for fzero fzero fone fone fzero fzero zz zz zz fzero a fzero (@fneq01 K)) as (env & Hl & E0 & E1 & E2 & E3 & E4 & _ & Er & Ea & Eb & Hs & Ht & _).
      specialize (Zz env Hl). apply fsub_zero_eq in Zz. unfold u_of in Zz. rewrite E0, E1, E2, E3, E4, Er, Ea, Eb in Zz.
      rewrite (seen1_ext n cs xs b0 Hb0 Hn0 Hcs m _ _ _ _ _ _ _ zz zz fzero a fzero Hs Ht) in Zz. rewrite <- Zz, Q4 by apply fneq01. ring. }
    apply Q2. pose proof (Y fone) as Y1. rewrite (public_part R fzero fzero fone fone fzero zz zz fzero fone fzero fzero fzero (Hav R HR)), <- (Y fzero) in Y1.
    transitivity (ha n cs xs (sg_a S0) *f fone); [ring|]. rewrite Y1. ring.
  - exact Hnd.
  - intros env Hin. destruct (HL env Hin) as (Hl & Hde & _ & _ & _ & Hf). split; [exact Hl|].
    destruct (Exists_dec (fun Df => snd Df env = fzero) fs (fun Df => feq_dec (snd Df env) fzero)) as [X|X]; [exact X|exfalso]. apply Hf. right.
    split; [exact Q1|]. split; [exact Q2|]. split; [exact Q3|]. split; [unfold A_fine, u_of; apply Q4; exact Hde|].
    intros R HR Z. apply X. apply Exists_exists. exists (D1, fun env => fdot (sg_a S0) (u_of n cs xs m z env) -f fdot R (u_of n cs xs m z env)). split.
    + unfold fs. apply (in_map (fun R => (D1, fun env => fdot (sg_a S0) (u_of n cs xs m z env) -f fdot R (u_of n cs xs m z env))) av R HR).
    + cbn [snd]. rewrite Z. ring.
Qed.

(* ---------- adaptive provers that see combinations of the table ---------- *)
Variables (rows1 rows2 : list (list F)).
Fixpoint play1 (P : prover E) (env : list F) : strategy E :=
  match P with
  | Output St => St
  | Test q P1 P2 => if feqb (f_ans n cs xs (pull_back q rows1 rows2) m z env) fzero then play1 P1 env else play1 P2 env
  end.
Lemma adaptive1 (bad : strategy E -> list F -> Prop) (D : Z) (P : prover E) : 0 <= D ->
  (forall St L, NoDup L -> (forall l, In l L -> length l = k /\ bad St l) -> Z.of_nat (length L) * p <= D * p ^ Z.of_nat k) ->
  forall L, NoDup L -> (forall l, In l L -> length l = k /\ bad (play1 P l) l) ->
  Z.of_nat (length L) * p <= (Z.of_nat (tests P) * D1 + D) * p ^ Z.of_nat k.
Proof.
  intros HD Hfix. pose proof (@modulus_gt1 K) as Hp. assert (Pk : 0 < p ^ Z.of_nat k) by (apply Z.pow_pos_nonneg; lia). assert (H9 : 9 <= D1) by (unfold D1; lia).
  induction P as [St|q P1 IH1 P2 IH2]; intros L Hnd HL.
  - cbn [tests]. rewrite Z.mul_0_l, Z.add_0_l. exact (Hfix St L Hnd HL).
  - cbn [tests]. destruct (zero_or_small_pf _ Hn0 (pf_ans n cs xs (pull_back q rows1 rows2) m z)) as [Z|Z].
    + assert (X : Z.of_nat (length L) * p <= (Z.of_nat (tests P1) * D1 + D) * p ^ Z.of_nat k).
      { apply (IH1 L Hnd). intros l Hl. destruct (HL l Hl) as [H1 H2]. split; [exact H1|]. cbn [play1] in H2. rewrite (Z l H1), (proj2 (feqb_spec fzero fzero) eq_refl) in H2. exact H2. }
      nia.
    + destruct (split_list (fun l => feqb (f_ans n cs xs (pull_back q rows1 rows2) m z l) fzero) L Hnd) as (L1 & L2 & N1 & N2 & Len & I1 & I2).
      assert (B1 : Z.of_nat (length L1) * p <= D1 * p ^ Z.of_nat k).
      { pose proof (union_bound k [(D1, f_ans n cs xs (pull_back q rows1 rows2) m z)] L1 ltac:(constructor; [exact Z|constructor]) N1) as U. cbn [map fst zsum] in U. rewrite Z.add_0_r in U. apply U.
        intros l Hl. destruct (I1 l Hl) as [Hi Hz]. split; [apply HL; exact Hi|constructor 1; apply feqb_spec; exact Hz]. }
      assert (B2 : Z.of_nat (length L2) * p <= (Z.of_nat (tests P2) * D1 + D) * p ^ Z.of_nat k).
      { apply (IH2 L2 N2). intros l Hl. destruct (I2 l Hl) as [Hi Hz]. destruct (HL l Hi) as [H1 H2]. split; [exact H1|]. cbn [play1] in H2. rewrite Hz in H2. exact H2. }
      rewrite Len, Nat2Z.inj_add. nia.
Qed.
End NGame.
