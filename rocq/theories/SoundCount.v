(* SoundCount.v -- the counting argument of C59-C60: how many setups a fixed affine strategy can cheat *)
From Verif Require Import Base BaseFacts Algebra Utils UtilsFacts Setup Keygen Encryption Circuit CircuitFacts CircuitSat CommitmentFacts VecFacts KeySpec KeygenFacts
  EncryptFacts DecryptFacts Spec VerifyFacts Protocol ReencFacts DistFacts Groth16 ArkGroth16 PolyFacts Groth16Spec ArkFacts Groth16Facts SchwartzZippel SoundCore SoundSpec
  SoundAlg SoundGame SoundLink SoundFacts.

Lemma deg_sum_const m x : deg_sum m (fun _ => x) = Z.of_nat x * Z.of_nat m.
Proof. induction m as [|m IH]; cbn [deg_sum]; [lia|]. rewrite IH. lia. Qed.
Lemma deg_sum_ext m : forall d d', (forall i, (i < m)%nat -> d i = d' i) -> deg_sum m d = deg_sum m d'.
Proof. induction m as [|m IH]; intros d d' H; cbn [deg_sum]; [reflexivity|]. rewrite (H 0%nat) by lia. f_equal. apply IH. intros i Hi. apply H. lia. Qed.
Lemma deg_sum_dg m T x : deg_sum (5 + m) (dg T x) = Z.of_nat T + Z.of_nat x * Z.of_nat (4 + m).
Proof.
  cbn [deg_sum Nat.add dg Nat.eqb]. rewrite deg_sum_const. lia.
Qed.
(* degree one in variable i only *)
Definition dvar (i : nat) : nat -> nat := fun j => if Nat.eqb j i then 1%nat else 0%nat.
Lemma deg_sum_dvar m : forall i, (i < m)%nat -> deg_sum m (dvar i) = 1.
Proof.
  induction m as [|m IH]; intros i Hi; [lia|]. cbn [deg_sum]. destruct i as [|i].
  - rewrite (deg_sum_ext m _ (fun _ => 0%nat)) by (intros j _; reflexivity). rewrite deg_sum_const. cbn. lia.
  - rewrite (deg_sum_ext m _ (dvar i)) by (intros j _; reflexivity). rewrite IH by lia. cbn. lia.
Qed.
(* degree one in the first two variables, N in the fifth *)
Definition dqq (N : nat) : nat -> nat := fun j => match j with 0%nat | 1%nat => 1%nat | 4%nat => N | _ => 0%nat end.
Lemma deg_sum_dqq m N : deg_sum (5 + m) (dqq N) = Z.of_nat N + 2.
Proof. cbn [deg_sum Nat.add dqq]. rewrite deg_sum_const. lia. Qed.

Section Count.
Context {E : pairing}.
Notation K := (K_of E).
Notation F := (Fr E).
Add Ring Kr : (@scalar_ring_theory K).
Notation "x +f y" := (fadd x y) (at level 50, left associativity).
Notation "x *f y" := (fmul x y) (at level 40, left associativity).
Notation e i env := (nth i env fzero).

Variables (n : nat) (cs : csys K) (xs : list F) (pf : profile) (domain : nat -> option (list F)) (fuel : nat) (b : Z) (gens : encryption_gens E) (S0 : strategy E).
Let ni := cs_num_inst cs.
Let nc := length (cs_cons cs).
Let N := length xs.
Let k := (3 * n + 7)%nat.
Notation G := (eg_G gens).
Notation H := (eg_H gens).
Notation p := (modulus K).
Hypothesis HG : G <> gzero.
Hypothesis HH : H <> gzero.
Hypothesis Hdom_ok : domain_ok domain.
Hypothesis Hb : 0 < b <= modulus_bit_size K.
Hypothesis Hcount : chunks_count K b = Ok (Z.of_nat n).
Hypothesis Hn0 : (0 < n)%nat.
Hypothesis Hcs : generate_constraints (BitsizeCheckCircuit b (Z.of_nat n) None true) (@cs_new K Circuit.Setup) = Ok cs.
Hypothesis Hdomain : domain (nc + ni)%nat = Some xs.

Lemma small_vanishing : Z.of_nat N < p -> small_zeros k (Z.of_nat N) (fun env : list F => vanishing_at xs (e 4 env)).
Proof.
  intros HN. pose proof (scalars_outside_length xs) as Ho. fold N in Ho. destruct (scalars_outside xs) as [|x l] eqn:Eo; [cbn in Ho; lia|].
  assert (Hx : ~ In x xs) by (apply scalars_outside_in; rewrite Eo; left; reflexivity).
  exists (dg N 0), (repeat fzero 4 ++ x :: repeat fzero (3 * n + 2)). split; [|split; [|split]].
  - apply (pfun_ext k _ (fun env => peval (fold_right (fun x p => pmul [fneg x; fone] p) [fone] xs) (e 4 env))); [intros; apply prod_lin_eval|].
    apply pf_tau. rewrite prod_lin_length. fold N. lia.
  - rewrite app_length. cbn [length]. rewrite !repeat_length. unfold k. lia.
  - cbn [repeat app nth]. intros Z. apply vanishing_zero in Z. contradiction.
  - unfold k. replace (3 * n + 7)%nat with (5 + (3 * n + 2))%nat by lia. rewrite deg_sum_dg. lia.
Qed.
Lemma small_dg T x f a : @pfun K k (dg T x) f -> length a = k -> f a <> fzero -> small_zeros k (Z.of_nat T + Z.of_nat x * Z.of_nat (3 * n + 6)) f.
Proof.
  intros Hf Ha Hn. exists (dg T x), a. split; [exact Hf|]. split; [exact Ha|]. split; [exact Hn|].
  unfold k. replace (3 * n + 7)%nat with (5 + (3 * n + 2))%nat by lia. rewrite deg_sum_dg. lia.
Qed.

Let D := 4 * Z.of_nat N + 7 * (3 * Z.of_nat n + 6).
(* either the number of tapes is small, or both equations hold identically *)
Lemma count_or_identity (L : list (list F)) extra (fs : list (Z * (list F -> F))) :
  NoDup L -> (forall l, In l L -> length l = k) -> 0 <= extra -> zsum (map fst fs) <= extra ->
  (D + extra < p -> Forall (fun Df => small_zeros k (fst Df) (snd Df)) fs) ->
  (forall l, In l L -> vanishing_at xs (e 4 l) <> fzero -> f_com n cs xs S0 l = fzero /\ f_qap n cs xs S0 l = fzero) ->
  (8 < p -> (forall env, length env = k -> f_com n cs xs S0 env = fzero) -> (forall env, length env = k -> f_qap n cs xs S0 env = fzero) ->
   forall l, In l L -> vanishing_at xs (e 4 l) <> fzero -> Exists (fun Df => snd Df l = fzero) fs) ->
  Z.of_nat (length L) * p <= (D + extra) * p ^ Z.of_nat k.
Proof.
  intros Hnd Hl He Hsum Hsmall Hacc Hcase. pose proof (@modulus_gt1 K) as Hp. pose proof (tuples_bound k L Hnd Hl) as HT.
  assert (Pk : 0 < p ^ Z.of_nat k) by (apply Z.pow_pos_nonneg; lia).
  destruct (Z_le_gt_dec (Z.of_nat (length L) * p) ((D + extra) * p ^ Z.of_nat k)) as [Hle|Hgt]; [exact Hle|exfalso].
  assert (HD : D + extra < p) by nia.
  assert (Hp8 : 8 < p) by (unfold D in HD; lia).
  assert (HNp : Z.of_nat N < p) by (unfold D in HD; lia).
  pose proof (small_vanishing HNp) as Sv.
  assert (Zc : forall env, length env = k -> f_com n cs xs S0 env = fzero).
  { intros env Henv. destruct (feq_dec (f_com n cs xs S0 env) fzero) as [Z|NZ]; [exact Z|exfalso].
    pose proof (small_dg _ _ _ env (pf_com n cs xs k S0) Henv NZ) as Sc.
    pose proof (union_bound k [(Z.of_nat N, fun env => vanishing_at xs (e 4 env)); (Z.of_nat (3 * length xs) + Z.of_nat 7 * Z.of_nat (3 * n + 6), f_com n cs xs S0)] L
      ltac:(repeat constructor; assumption) Hnd) as U.
    cbn [map fst zsum] in U. fold N in U. assert (B : Z.of_nat (length L) * p <= D * p ^ Z.of_nat k).
    { eapply Z.le_trans; [apply U|]. 2:{ apply Z.mul_le_mono_nonneg_r; [lia|]. unfold D. lia. }
      intros l Hin. split; [apply Hl; exact Hin|]. destruct (feq_dec (vanishing_at xs (e 4 l)) fzero) as [Z|Z]; [left; exact Z|right; left]. apply (Hacc l Hin Z). }
    nia. }
  assert (Zq : forall env, length env = k -> f_qap n cs xs S0 env = fzero).
  { intros env Henv. destruct (feq_dec (f_qap n cs xs S0 env) fzero) as [Z|NZ]; [exact Z|exfalso].
    pose proof (small_dg _ _ _ env (pf_qap n cs xs k S0) Henv NZ) as Sc.
    pose proof (union_bound k [(Z.of_nat N, fun env => vanishing_at xs (e 4 env)); (Z.of_nat (3 * length xs) + Z.of_nat 7 * Z.of_nat (3 * n + 6), f_qap n cs xs S0)] L
      ltac:(repeat constructor; assumption) Hnd) as U.
    cbn [map fst zsum] in U. fold N in U. assert (B : Z.of_nat (length L) * p <= D * p ^ Z.of_nat k).
    { eapply Z.le_trans; [apply U|]. 2:{ apply Z.mul_le_mono_nonneg_r; [lia|]. unfold D. lia. }
      intros l Hin. split; [apply Hl; exact Hin|]. destruct (feq_dec (vanishing_at xs (e 4 l)) fzero) as [Z|Z]; [left; exact Z|right; left]. apply (Hacc l Hin Z). }
    nia. }
  pose proof (union_bound k ((Z.of_nat N, fun env => vanishing_at xs (e 4 env)) :: fs) L ltac:(constructor; [exact Sv|exact (Hsmall HD)]) Hnd) as U.
  cbn [map fst zsum] in U. assert (B : Z.of_nat (length L) * p <= (Z.of_nat N + zsum (map fst fs)) * p ^ Z.of_nat k).
  { apply U. intros l Hin. split; [apply Hl; exact Hin|]. destruct (feq_dec (vanishing_at xs (e 4 l)) fzero) as [Z|Z]; [left; exact Z|right].
    apply (Hcase Hp8 Zc Zq l Hin Z). }
  assert ((Z.of_nat N + zsum (map fst fs)) * p ^ Z.of_nat k <= (D + extra) * p ^ Z.of_nat k) by (apply Z.mul_le_mono_nonneg_r; [lia|unfold D; lia]).
  lia.
Qed.

Theorem cheat_bound (L : list (list F)) : NoDup L ->
  (forall l, In l L -> length l = k /\ (vanishing_at xs (e 4 l) <> fzero -> exists pk sk ek dk st', setup_for_groth16 (ark_backend pf domain fuel) (replay_rng E) b gens l = Ok (pk, sk, ek, dk, st') /\
    verify_commitment_and_proof (forge_ciphertext S0 gens pk ek) (forge_proof S0 gens pk ek dk) (prepare_verifying_key (gpk_vk (pk_pk pk))) (prepare_ek ek) (prepare_gens gens) = Ok tt /\
    ~ (digits_ok b (extracted_chunks n S0) /\ exists g_i, get_gs_for_encryption (gpk_vk (pk_pk pk)) = Ok g_i /\
       encrypts ek g_i (extracted_chunks n S0) (ct_vec (forge_ciphertext S0 gens pk ek)) (extracted_r n S0)))) ->
  Z.of_nat (length L) * p <= D * p ^ Z.of_nat k.
Proof.
  intros Hnd HL. replace D with (D + 0) by lia.
  apply (count_or_identity L 0 []); [exact Hnd|intros l Hl; apply HL; exact Hl|lia|cbn; lia|intros _; constructor| |].
  - intros l Hin Hv. destruct (HL l Hin) as (Hl & HX). destruct (HX Hv) as (pk & sk & ek & dk & st' & Hs & Hacc & _).
    destruct (proj1 (accept_poly n cs xs pf domain fuel b gens S0 HG HH Hb Hcount Hn0 Hcs Hdomain l pk sk ek dk st' Hl Hv Hs) Hacc) as (_ & H1 & H2). split; assumption.
  - intros Hp8 Zc Zq l Hin Hv. exfalso. destruct (HL l Hin) as (Hl & HX). destruct (HX Hv) as (pk & sk & ek & dk & st' & Hs & Hacc & Hbad).
    destruct (proj1 (accept_poly n cs xs pf domain fuel b gens S0 HG HH Hb Hcount Hn0 Hcs Hdomain l pk sk ek dk st' Hl Hv Hs) Hacc) as (Hlen & _).
    pose proof (com_everywhere n cs xs b S0 Hb Hn0 Hcs Zc) as Ec. pose proof (qap_everywhere n cs xs b S0 Hb Hn0 Hcs Zq) as Eq.
    apply Hbad. split; [eapply forged_digits; eassumption|].
    pose proof (forged_is_encryption n cs xs pf domain fuel b gens S0 Hdom_ok Hb Hcount Hn0 Hcs Hdomain Hp8 l pk sk ek dk st' Hl Hv Hs Hlen Ec) as Ef.
    destruct (setup_tape n cs xs pf domain fuel b gens Hcount Hcs Hdomain (proj1 (cs_shape n cs xs b Hb Hn0 Hcs)) l pk sk ek dk st' Hl Hv Hs) as (_ & _ & Hgs & _ & Hek & _).
    exists (gis n cs xs gens l). split; [exact Hgs|]. rewrite Ef. exists (replay_rng E), [extracted_r n S0], []. apply (encrypts_intro n).
    + rewrite Hek. apply formula_wf; try (rewrite map_length, seq_length; reflexivity); [unfold gis; rewrite map_length, seq_length; lia|exact (n256 n cs xs b Hcount Hn0)].
    + unfold extracted_chunks. rewrite map_length, seq_length. reflexivity.
    + unfold gis. rewrite map_length, seq_length. lia.
Qed.

(* the commitment check alone *)
Theorem commitment_cheat_bound (L : list (list F)) : NoDup L ->
  (forall l, In l L -> length l = k /\ (vanishing_at xs (e 4 l) <> fzero -> exists pk sk ek dk st', setup_for_groth16 (ark_backend pf domain fuel) (replay_rng E) b gens l = Ok (pk, sk, ek, dk, st') /\
    verify_commitment (forge_ciphertext S0 gens pk ek) (prepare_ek ek) (prepare_gens gens) = Ok tt /\
    ~ (exists g_i, get_gs_for_encryption (gpk_vk (pk_pk pk)) = Ok g_i /\
       encrypts ek g_i (extracted_chunks n S0) (ct_vec (forge_ciphertext S0 gens pk ek)) (extracted_r n S0)))) ->
  Z.of_nat (length L) * p <= D * p ^ Z.of_nat k.
Proof.
  intros Hnd HL. pose proof (@modulus_gt1 K) as Hp. pose proof (tuples_bound k L Hnd ltac:(intros l Hl; apply HL; exact Hl)) as HT.
  assert (Pk : 0 < p ^ Z.of_nat k) by (apply Z.pow_pos_nonneg; lia).
  destruct (Z_le_gt_dec (Z.of_nat (length L) * p) (D * p ^ Z.of_nat k)) as [Hle|Hgt]; [exact Hle|exfalso].
  assert (HD : D < p) by nia.
  assert (Hp8 : 8 < p) by (unfold D in HD; lia).
  assert (HNp : Z.of_nat N < p) by (unfold D in HD; lia).
  pose proof (small_vanishing HNp) as Sv.
  assert (Hacc : forall l, In l L -> vanishing_at xs (e 4 l) <> fzero -> length (sg_chunks S0) = n /\ f_com n cs xs S0 l = fzero).
  { intros l Hin Hv. destruct (HL l Hin) as (Hl & HX). destruct (HX Hv) as (pk & sk & ek & dk & st' & Hs & Ha & _).
    exact (proj1 (accept_com n cs xs pf domain fuel b gens S0 HG HH Hb Hcount Hn0 Hcs Hdomain l pk sk ek dk st' Hl Hv Hs) Ha). }
  assert (Zc : forall env, length env = k -> f_com n cs xs S0 env = fzero).
  { intros env Henv. destruct (feq_dec (f_com n cs xs S0 env) fzero) as [Z|NZ]; [exact Z|exfalso].
    pose proof (small_dg _ _ _ env (pf_com n cs xs k S0) Henv NZ) as Sc.
    pose proof (union_bound k [(Z.of_nat N, fun env => vanishing_at xs (e 4 env)); (Z.of_nat (3 * length xs) + Z.of_nat 7 * Z.of_nat (3 * n + 6), f_com n cs xs S0)] L
      ltac:(repeat constructor; assumption) Hnd) as U.
    cbn [map fst zsum] in U. fold N in U. assert (B : Z.of_nat (length L) * p <= D * p ^ Z.of_nat k).
    { eapply Z.le_trans; [apply U|]. 2:{ apply Z.mul_le_mono_nonneg_r; [lia|]. unfold D. lia. }
      intros l Hin. split; [apply HL; exact Hin|]. destruct (feq_dec (vanishing_at xs (e 4 l)) fzero) as [Z|Z]; [left; exact Z|right; left]. apply (Hacc l Hin Z). }
    nia. }
  pose proof (com_everywhere n cs xs b S0 Hb Hn0 Hcs Zc) as Ec.
  pose proof (union_bound k [(Z.of_nat N, fun env => vanishing_at xs (e 4 env))] L ltac:(repeat constructor; assumption) Hnd) as U.
  cbn [map fst zsum] in U. assert (B : Z.of_nat (length L) * p <= (Z.of_nat N + 0) * p ^ Z.of_nat k).
  { apply U. intros l Hin. split; [apply HL; exact Hin|]. destruct (feq_dec (vanishing_at xs (e 4 l)) fzero) as [Z|Hv]; [left; exact Z|exfalso].
    destruct (HL l Hin) as (Hl & HX). destruct (HX Hv) as (pk & sk & ek & dk & st' & Hs & _ & Hbad). destruct (Hacc l Hin Hv) as [Hlen _].
    pose proof (forged_is_encryption n cs xs pf domain fuel b gens S0 Hdom_ok Hb Hcount Hn0 Hcs Hdomain Hp8 l pk sk ek dk st' Hl Hv Hs Hlen Ec) as Ef.
    destruct (setup_tape n cs xs pf domain fuel b gens Hcount Hcs Hdomain (proj1 (cs_shape n cs xs b Hb Hn0 Hcs)) l pk sk ek dk st' Hl Hv Hs) as (_ & _ & Hgs & _ & Hek & _).
    apply Hbad. exists (gis n cs xs gens l). split; [exact Hgs|]. rewrite Ef. exists (replay_rng E), [extracted_r n S0], []. apply (encrypts_intro n).
    + rewrite Hek. apply formula_wf; try (rewrite map_length, seq_length; reflexivity); [unfold gis; rewrite map_length, seq_length; lia|exact (n256 n cs xs b Hcount Hn0)].
    + unfold extracted_chunks. rewrite map_length, seq_length. reflexivity.
    + unfold gis. rewrite map_length, seq_length. lia. }
  assert ((Z.of_nat N + 0) * p ^ Z.of_nat k <= D * p ^ Z.of_nat k) by (apply Z.mul_le_mono_nonneg_r; [lia|unfold D; lia]).
  lia.
Qed.

(* ---------- the degenerate setups ---------- *)
Lemma small_var i : (i < k)%nat -> small_zeros k 1 (fun env : list F => e i env).
Proof.
  intros Hi. exists (dvar i), (repeat fone k). split; [|split; [|split]].
  - apply (pfun_ext k _ (fun env => peval [fzero; fone] (e i env))); [intros env _; cbn; ring|]. apply pfun_peval. unfold dvar. rewrite Nat.eqb_refl. cbn. lia.
  - apply repeat_length.
  - cbv beta. rewrite (nth_indep _ fzero fone) by (rewrite repeat_length; exact Hi). rewrite nth_repeat. apply fneq01.
  - rewrite deg_sum_dvar by exact Hi. lia.
Qed.
Lemma small_qq j : (j < n)%nat -> small_zeros k (Z.of_nat N + 2) (fun env : list F => qq cs xs (e 0 env) (e 1 env) (e 4 env) (S j)).
Proof.
  intros Hj. pose proof (cs_shape n cs xs b Hb Hn0 Hcs) as (Hni & _ & _). destruct (Hdom_ok _ _ Hdomain) as [Hnd HN]. fold N in HN.
  set (x := nth (nc + S j) xs fzero).
  exists (dqq N), (fzero :: (fsub fone (colC cs xs x (S j))) :: fzero :: fzero :: x :: repeat fzero (3 * n + 2)). split; [|split; [|split]].
  - assert (HA : forall f, @pfun K k (dg N 0) f -> @pfun K k (dqq N) f).
    { intros f. apply pfun_weaken. intros i _. unfold dg, dqq. destruct i as [|[|[|[|[|i]]]]]; cbn; lia. }
    assert (HM : forall i f, (i < 2)%nat -> @pfun K k (dg N 0) f -> @pfun K k (dqq N) (fun env => e i env *f f env)).
    { intros i f Hi Hf. apply (pfun_mul k _ (dvar i) (dg N 0)); [| |exact Hf].
      - intros i' _. unfold dvar, dg, dqq. destruct i as [|[|i]]; [| |lia]; destruct i' as [|[|[|[|[|i']]]]]; cbn; lia.
      - apply (pfun_ext k _ (fun env => peval [fzero; fone] (e i env))); [intros env _; cbn; ring|]. apply pfun_peval. unfold dvar. rewrite Nat.eqb_refl. cbn. lia. }
    unfold qq. apply pfun_add; [apply pfun_add|].
    + apply HM; [lia|apply pf_colA].
    + apply HM; [lia|apply pf_colB].
    + apply HA, pf_colC.
  - cbn [length]. rewrite repeat_length. unfold k. lia.
  - cbn [nth]. unfold qq. unfold x at 2. rewrite (colA_at n cs xs Hnd HN Hni Hn0) by (fold ni; lia). rewrite Nat.eqb_refl. intros Z. apply (@fneq01 K).
    etransitivity; [|exact Z]. fold x. ring.
  - unfold k. replace (3 * n + 7)%nat with (5 + (3 * n + 2))%nat by lia. rewrite deg_sum_dqq. lia.
Qed.
Definition degenerate_polys : list (Z * (list F -> F)) :=
  (1, fun env => e 5 env) :: map (fun j => (1, fun env => e (7 + 2 * n + j) env)) (seq 0 n)
  ++ map (fun j => (Z.of_nat N + 2, fun env => qq cs xs (e 0 env) (e 1 env) (e 4 env) (S j))) (seq 0 n).
Lemma zsum_app l m : zsum (l ++ m) = zsum l + zsum m.
Proof. induction l as [|a l IH]; cbn [app zsum]; [lia|rewrite IH; lia]. Qed.
Lemma zsum_const {A} (l : list A) c : zsum (map (fun _ => c) l) = c * Z.of_nat (length l).
Proof. induction l as [|a l IH]; cbn [map zsum length]; [lia|rewrite IH; lia]. Qed.
Lemma degenerate_sum : zsum (map fst degenerate_polys) = 1 + Z.of_nat n + Z.of_nat n * (Z.of_nat N + 2).
Proof.
  unfold degenerate_polys. cbn [map fst zsum]. rewrite map_app, zsum_app, !map_map. cbn [fst]. rewrite !zsum_const, seq_length. lia.
Qed.
Lemma degenerate_small : Forall (fun Df => small_zeros k (fst Df) (snd Df)) degenerate_polys.
Proof.
  unfold degenerate_polys. constructor; [apply small_var; unfold k; lia|]. apply Forall_app. split; apply Forall_map, Forall_forall; intros j Hj; apply in_seq in Hj; cbn [fst snd].
  - apply small_var. unfold k. lia.
  - apply small_qq. lia.
Qed.
Lemma degenerate_tape l : ~ Exists (fun Df => snd Df l = fzero) degenerate_polys -> e 2 l <> fzero ->
  nondegenerate (dk_formula gens (e 5 l) (map (e_s l) (seq 0 n)) (map (e_v n l) (seq 0 n))) (gis n cs xs gens l) n.
Proof.
  intros Hx Hga. assert (Hall : Forall (fun Df => snd Df l <> fzero) degenerate_polys).
  { apply Forall_forall. intros Df Hin Z. apply Hx. apply Exists_exists. exists Df. split; assumption. }
  unfold degenerate_polys in Hall. apply Forall_cons_iff in Hall. destruct Hall as [Hr Hall]. apply Forall_app in Hall. destruct Hall as [Hv Hq].
  rewrite Forall_map in Hv, Hq. rewrite Forall_forall in Hv, Hq. cbn [snd] in Hr, Hv, Hq. split.
  - cbn [dk_V_2 dk_formula]. rewrite map_map. apply Forall_map, Forall_forall. intros j Hj Z. apply smul_eq_zero in Z. destruct Z as [Z|Z]; [|contradiction].
    apply fmul_integral in Z. destruct Z as [Z|Z]; [|contradiction]. apply (Hv j Hj). exact Z.
  - rewrite firstn_all2 by (unfold gis; rewrite map_length, seq_length; lia). unfold gis. apply Forall_map, Forall_forall. intros j Hj Z.
    apply smul_eq_zero in Z. destruct Z as [Z|Z]; [|contradiction]. apply fmul_integral in Z. destruct Z as [Z|Z]; [apply (Hq j Hj); exact Z|].
    apply (@fneq01 K). rewrite <- (finv_r (e 2 l) Hga), Z. ring.
Qed.

Theorem undecryptable_bound (L : list (list F)) : b <= 16 -> b < modulus_bit_size K -> NoDup L ->
  (forall l, In l L -> length l = k /\ (vanishing_at xs (e 4 l) <> fzero -> exists pk sk ek dk st', setup_for_groth16 (ark_backend pf domain fuel) (replay_rng E) b gens l = Ok (pk, sk, ek, dk, st') /\
    verify_commitment_and_proof (forge_ciphertext S0 gens pk ek) (forge_proof S0 gens pk ek dk) (prepare_verifying_key (gpk_vk (pk_pk pk))) (prepare_ek ek) (prepare_gens gens) = Ok tt /\
    ~ exists g_i, get_gs_for_encryption (gpk_vk (pk_pk pk)) = Ok g_i /\ let ct := forge_ciphertext S0 gens pk ek in
       decrypt_to_chunks pf (ct_X_r ct) (ct_enc_chunks ct) sk (prepare_dk dk) g_i b = Ok (extracted_chunks n S0, sk [*] ct_X_r ct))) ->
  Z.of_nat (length L) * p <= (D + (1 + Z.of_nat n + Z.of_nat n * (Z.of_nat N + 2))) * p ^ Z.of_nat k.
Proof.
  intros Hb16 Hbits Hnd HL.
  apply (count_or_identity L _ degenerate_polys); [exact Hnd|intros l Hl; apply HL; exact Hl|lia|rewrite degenerate_sum; lia|intros _; exact degenerate_small| |].
  - intros l Hin Hv. destruct (HL l Hin) as (Hl & HX). destruct (HX Hv) as (pk & sk & ek & dk & st' & Hs & Hacc & _).
    destruct (proj1 (accept_poly n cs xs pf domain fuel b gens S0 HG HH Hb Hcount Hn0 Hcs Hdomain l pk sk ek dk st' Hl Hv Hs) Hacc) as (_ & H1 & H2). split; assumption.
  - intros Hp8 Zc Zq l Hin Hv. destruct (Exists_dec (fun Df => snd Df l = fzero) degenerate_polys (fun Df => feq_dec (snd Df l) fzero)) as [X|X]; [exact X|exfalso].
    destruct (HL l Hin) as (Hl & HX). destruct (HX Hv) as (pk & sk & ek & dk & st' & Hs & Hacc & Hbad).
    destruct (proj1 (accept_poly n cs xs pf domain fuel b gens S0 HG HH Hb Hcount Hn0 Hcs Hdomain l pk sk ek dk st' Hl Hv Hs) Hacc) as (Hlen & _).
    pose proof (com_everywhere n cs xs b S0 Hb Hn0 Hcs Zc) as Ec. pose proof (qap_everywhere n cs xs b S0 Hb Hn0 Hcs Zq) as Eq.
    assert (Hdig : digits_ok b (extracted_chunks n S0)) by (eapply forged_digits; eassumption).
    pose proof (forged_is_encryption n cs xs pf domain fuel b gens S0 Hdom_ok Hb Hcount Hn0 Hcs Hdomain Hp8 l pk sk ek dk st' Hl Hv Hs Hlen Ec) as Ef.
    destruct (setup_tape n cs xs pf domain fuel b gens Hcount Hcs Hdomain (proj1 (cs_shape n cs xs b Hb Hn0 Hcs)) l pk sk ek dk st' Hl Hv Hs) as (Hga & _ & Hgs & -> & Hek & Hdk & _).
    apply Hbad. exists (gis n cs xs gens l). split; [exact Hgs|]. cbv zeta. rewrite Ef, Hdk.
    assert (Ls : length (map (e_s l) (seq 0 n)) = n) by (rewrite map_length, seq_length; reflexivity).
    apply decrypt_exact.
    + rewrite !map_length. reflexivity.
    + rewrite Ls. exact (n256 n cs xs b Hcount Hn0).
    + rewrite Ls. unfold gis. rewrite map_length, seq_length. lia.
    + rewrite Ls. apply degenerate_tape; assumption.
    + lia.
    + unfold max_chunk. rewrite Z.min_l by lia. unfold modulus_bit_size in Hbits. pose proof (@modulus_gt1 K) as Hp. pose proof (Z.log2_spec p ltac:(lia)) as [Hlog _].
      assert (2 ^ b <= 2 ^ Z.log2 p) by (apply Z.pow_le_mono_r; lia). lia.
    + split; [|split; [|reflexivity]].
      * rewrite Hek. apply honest_body_opens.
        -- rewrite Ls. unfold extracted_chunks. rewrite map_length, seq_length. reflexivity.
        -- eapply Forall_impl; [|exact Hdig]. intros z Hz. cbv beta in Hz. lia.
      * eapply Forall_impl; [|exact Hdig]. intros z Hz. cbv beta in Hz. unfold max_chunk. rewrite Z.min_l by lia. lia.
Qed.
End Count.
