(* SoundKnown.v -- the counting argument when the secrets of decryption are known to the prover (for C76) *)
From Verif Require Import Base BaseFacts Algebra Utils UtilsFacts Setup Keygen Encryption Circuit CircuitFacts CircuitSat CommitmentFacts VecFacts KeySpec KeygenFacts
  EncryptFacts DecryptFacts Spec VerifyFacts Protocol ReencFacts DistFacts Groth16 ArkGroth16 PolyFacts Groth16Spec ArkFacts Groth16Facts SchwartzZippel SoundCore SoundSpec
  SoundAlg SoundGame SoundLink SoundFacts SoundCount SoundHonest PrivacySpec PrivacyAlg PrivacyGame PrivacyCount SoundAdaptSpec SoundAdapt SoundKnownSpec.

Section Known.
Context {E : pairing}.
Notation K := (K_of E).
Notation F := (Fr E).
Add Ring Kr : (@scalar_ring_theory K).
Notation "x +f y" := (fadd x y) (at level 50, left associativity).
Notation "x *f y" := (fmul x y) (at level 40, left associativity).
Notation e i env := (nth i env fzero).

Variables (n : nat) (cs : csys K) (xs : list F) (pf : profile) (domain : nat -> option (list F)) (fuel : nat) (b : Z) (gens : encryption_gens E).
Let ni := cs_num_inst cs.
Let nc := length (cs_cons cs).
Let N := length xs.
Let k := (3 * n + 7)%nat.
Let kc := (n + 6)%nat.
Notation G := (eg_G gens).
Notation H := (eg_H gens).
Notation p := (modulus K).
Hypothesis HG : G <> gzero.
Hypothesis HH : H <> gzero.
Hypothesis Hdom_ok : domain_ok domain.
Hypothesis Hb : 0 < b <= modulus_bit_size K.
Hypothesis Hcount : chunks_count K b = Ok (Z.of_nat n).
Hypothesis Hn0 : (0 < n)%nat.
Hypothesis Hcs : generate_constraints (BitsizeCheckCircuit b (Z.of_nat n) None true) (@cs_new K Circuit.Setup) = Ok cs.
Hypothesis Hdomain : domain (nc + ni)%nat = Some xs.
Variables (rho : F) (s v : list F).
Hypothesis Ls : length s = n.
Hypothesis Lv : length v = n.
Notation emb := (known_tape rho s v).

Lemma emb_length c : length c = kc -> length (emb c) = k.
Proof. intros Hc. unfold known_tape. rewrite app_length, firstn_length. cbn [length]. rewrite !app_length, skipn_length, Ls, Lv, Hc. unfold k, kc. lia. Qed.
Lemma emb_first c i : length c = kc -> (i < 5)%nat -> e i (emb c) = e i c.
Proof.
  intros Hc Hi. unfold known_tape. rewrite app_nth1 by (rewrite firstn_length, Hc; unfold kc; lia). rewrite <- (firstn_skipn 5 c) at 2.
  rewrite app_nth1 by (rewrite firstn_length, Hc; unfold kc; lia). reflexivity.
Qed.
Lemma skip_skip {A} : forall a b0 (l : list A), skipn a (skipn b0 l) = skipn (a + b0) l.
Proof. intros a b0. induction b0 as [|m IH]; intros l; [rewrite Nat.add_0_r; reflexivity|]. rewrite Nat.add_succ_r. destruct l as [|x l]; [rewrite !skipn_nil; reflexivity|]. cbn [skipn]. apply IH. Qed.
(* the position of a coin on the tape *)
Definition place (i : nat) : nat := if (i <? 5)%nat then i else (i + 1 + n)%nat.
Lemma emb_upd c i x : length c = kc -> (i < kc)%nat -> emb (upd c i x) = upd (emb c) (place i) x.
Proof.
  intros Hc Hi. unfold known_tape, upd, place. destruct (Nat.ltb_spec i 5) as [H5|H5].
  - assert (E1 : firstn 5 (firstn i c ++ x :: skipn (S i) c) = firstn i (firstn 5 c) ++ x :: skipn (S i) (firstn 5 c)).
    { rewrite firstn_app, firstn_firstn, Nat.min_r by lia. rewrite firstn_length, Nat.min_l by (rewrite Hc; unfold kc in *; lia).
      rewrite firstn_firstn, Nat.min_l by lia. f_equal.
      rewrite skipn_firstn_comm. replace (5 - i)%nat with (S (5 - S i))%nat by lia. reflexivity. }
    assert (E2 : skipn 5 (firstn i c ++ x :: skipn (S i) c) = skipn 5 c).
    { rewrite skipn_app, skipn_all2 by (rewrite firstn_length; lia). rewrite firstn_length, Nat.min_l by (rewrite Hc; unfold kc in *; lia).
      replace (5 - i)%nat with (S (4 - i))%nat by lia. change (skipn (4 - i) (skipn (S i) c) = skipn 5 c). rewrite skip_skip. f_equal. lia. }
    rewrite E1, E2. assert (L5 : length (firstn 5 c) = 5%nat) by (rewrite firstn_length, Hc; unfold kc; lia).
    set (A := firstn 5 c) in *. set (R := rho :: s ++ skipn 5 c ++ v).
    rewrite (firstn_app i A R), (skipn_app (S i) A R), L5. replace (i - 5)%nat with 0%nat by lia. replace (S i - 5)%nat with 0%nat by lia. cbn [firstn]. rewrite app_nil_r.
    rewrite <- app_assoc. reflexivity.
  - assert (E1 : firstn 5 (firstn i c ++ x :: skipn (S i) c) = firstn 5 c).
    { rewrite firstn_app, firstn_firstn, Nat.min_l by lia. rewrite firstn_length, Nat.min_l by lia. replace (5 - i)%nat with 0%nat by lia. cbn [firstn]. apply app_nil_r. }
    assert (E2 : skipn 5 (firstn i c ++ x :: skipn (S i) c) = firstn (i - 5) (skipn 5 c) ++ x :: skipn (S (i - 5)) (skipn 5 c)).
    { rewrite skipn_app, firstn_length, Nat.min_l by lia. replace (5 - i)%nat with 0%nat by lia. rewrite skipn_firstn_comm. rewrite skip_skip. replace (S (i - 5) + 5)%nat with (S i) by lia. reflexivity. }
    rewrite E1, E2. set (A := firstn 5 c). set (B := skipn 5 c). assert (LA : length A = 5%nat) by (unfold A; rewrite firstn_length, Hc; unfold kc; lia).
    assert (LB : length B = S n) by (unfold B; rewrite skipn_length, Hc; unfold kc; lia).
    replace (A ++ rho :: s ++ B ++ v) with ((A ++ rho :: s) ++ B ++ v) by (rewrite <- app_assoc; reflexivity).
    assert (LP : length (A ++ rho :: s) = (6 + n)%nat) by (rewrite app_length; cbn [length]; lia).
    rewrite firstn_app, skipn_app, LP. replace (i + 1 + n - (6 + n))%nat with (i - 5)%nat by lia. replace (S (i + 1 + n) - (6 + n))%nat with (S (i - 5)) by lia.
    rewrite (firstn_all2 (A ++ rho :: s)) by lia. rewrite (skipn_all2 (A ++ rho :: s)) by lia. cbn [app].
    rewrite (firstn_app (i - 5) B v), (skipn_app (S (i - 5)) B v). replace (i - 5 - length B)%nat with 0%nat by (unfold kc in Hi; lia). replace (S (i - 5) - length B)%nat with 0%nat by (unfold kc in Hi; lia).
    cbn [firstn skipn]. rewrite app_nil_r. repeat first [rewrite <- app_assoc|progress cbn [app]]. reflexivity.
Qed.
Lemma pfun_emb T x f : @pfun K k (dg T x) f -> @pfun K kc (dg T x) (fun c => f (emb c)).
Proof.
  intros Hf i c Hi Hc. destruct (Hf (place i) (emb c)) as (q & Lq & Eq); [unfold place, k, kc in *; destruct (i <? 5)%nat eqn:E5; [apply Nat.ltb_lt in E5|apply Nat.ltb_ge in E5]; lia|apply emb_length; exact Hc|].
  exists q. split.
  - replace (dg T x i) with (dg T x (place i)); [exact Lq|]. unfold dg, place. destruct (Nat.ltb_spec i 5); [reflexivity|].
    destruct (Nat.eqb_spec (i + 1 + n) 4); [lia|]. destruct (Nat.eqb_spec i 4); [lia|reflexivity].
  - intros y. rewrite emb_upd by assumption. apply Eq.
Qed.
Lemma small_emb T x f c : @pfun K k (dg T x) f -> length c = kc -> f (emb c) <> fzero -> small_zeros kc (Z.of_nat T + Z.of_nat x * (Z.of_nat n + 5)) (fun c => f (emb c)).
Proof.
  intros Hf Hc Hne. exists (dg T x), c. split; [apply pfun_emb; exact Hf|]. split; [exact Hc|]. split; [exact Hne|].
  unfold kc. replace (n + 6)%nat with (5 + (n + 1))%nat by lia. rewrite deg_sum_dg. lia.
Qed.
Lemma small_vanishing_known : Z.of_nat N < p -> small_zeros kc (Z.of_nat N) (fun c : list F => vanishing_at xs (e 4 c)).
Proof.
  intros HN. pose proof (scalars_outside_length xs) as Ho. fold N in Ho. destruct (scalars_outside xs) as [|x l] eqn:Eo; [cbn in Ho; lia|].
  assert (Hx : ~ In x xs) by (apply scalars_outside_in; rewrite Eo; left; reflexivity).
  exists (dg N 0), (repeat fzero 4 ++ x :: repeat fzero (n + 1)). split; [|split; [|split]].
  - apply (pfun_ext kc _ (fun env => peval (fold_right (fun x p => pmul [fneg x; fone] p) [fone] xs) (e 4 env))); [intros; apply prod_lin_eval|].
    apply pf_tau. rewrite prod_lin_length. fold N. lia.
  - rewrite app_length. cbn [length]. rewrite !repeat_length. unfold kc. lia.
  - cbn [repeat app nth]. intros Z. apply vanishing_zero in Z. contradiction.
  - unfold kc. replace (n + 6)%nat with (5 + (n + 1))%nat by lia. rewrite deg_sum_dg. lia.
Qed.

(* ---------- identities ---------- *)
Definition sf (j : nat) : F := nth j s fzero.
Definition vf (j : nat) : F := nth j v fzero.
Definition coins_of (al be ga de ta : F) (t : nat -> F) : list F := [al; be; ga; de; ta] ++ map t (seq 0 (S n)).
Lemma coins_of_length al be ga de ta t : length (coins_of al be ga de ta t) = kc.
Proof. unfold coins_of, kc. rewrite app_length, map_length, seq_length. cbn [length]. lia. Qed.
Lemma emb_coins al be ga de ta t : emb (coins_of al be ga de ta t) = tape_of n al be ga de ta rho sf t vf.
Proof.
  unfold known_tape, coins_of, tape_of. cbn [app firstn skipn]. do 6 f_equal.
  assert (E1 : map sf (seq 0 n) = s) by (unfold sf; rewrite <- Ls; symmetry; apply list_as_map).
  assert (E2 : map vf (seq 0 n) = v) by (unfold vf; rewrite <- Lv; symmetry; apply list_as_map). rewrite E1, E2. reflexivity.
Qed.
Lemma eq_com_ext (S0 : strategy E) al be ga de ta s1 s2 t1 t2 : (forall j, (j < n)%nat -> s1 j = s2 j) -> (forall j, (j < S n)%nat -> t1 j = t2 j) ->
  eq_com n cs xs S0 al be ga de ta s1 t1 = eq_com n cs xs S0 al be ga de ta s2 t2.
Proof.
  intros H1 H2. unfold eq_com. rewrite (g1b_ext n cs xs b Hb Hn0 Hcs al be ga de ta s1 t1 s2 t2 H1 H2).
  rewrite (map_ext_in t1 t2 (seq 0 (S n))) by (intros j Hj; apply in_seq in Hj; apply H2; lia). reflexivity.
Qed.
Lemma com_known (S0 : strategy E) : (forall c, length c = kc -> f_com n cs xs S0 (emb c) = fzero) -> forall al be ga de ta t, eq_com n cs xs S0 al be ga de ta sf t = fzero.
Proof.
  intros Hz al be ga de ta t. specialize (Hz _ (coins_of_length al be ga de ta t)). rewrite emb_coins in Hz. rewrite <- Hz. unfold f_com. cbn [tape_of nth].
  apply eq_com_ext; intros j Hj; symmetry; [eapply tape_of_s|eapply tape_of_t]; eassumption.
Qed.
Lemma qap_known (S0 : strategy E) : (forall c, length c = kc -> f_qap n cs xs S0 (emb c) = fzero) -> forall al be ga de ta t, eq_qap n cs xs S0 al be ga de ta rho sf t vf = fzero.
Proof.
  intros Hz al be ga de ta t. specialize (Hz _ (coins_of_length al be ga de ta t)). rewrite emb_coins in Hz. unfold f_qap, eq_qap in *. cbn [tape_of nth] in Hz.
  rewrite (g1b_ext n cs xs b Hb Hn0 Hcs al be ga de ta _ _ sf t) in Hz by (intros j Hj; first [eapply tape_of_s|eapply tape_of_t]; eassumption).
  rewrite (g2b_ext n cs xs b Hb Hn0 Hcs be ga de ta rho _ _ _ sf t vf) in Hz by (intros j Hj; first [eapply tape_of_s|eapply tape_of_t|eapply tape_of_v]; eassumption). exact Hz.
Qed.
Lemma emb_s c j : length c = kc -> (j < n)%nat -> e_s (emb c) j = sf j.
Proof.
  intros Hc Hj. unfold e_s, known_tape, sf. rewrite app_nth2; rewrite firstn_length, Nat.min_l by (rewrite Hc; unfold kc; lia); [|lia].
  replace (6 + j - 5)%nat with (S j) by lia. cbn [nth]. rewrite app_nth1 by lia. reflexivity.
Qed.
Lemma emb_rho c : length c = kc -> e 5 (emb c) = rho.
Proof. intros Hc. unfold known_tape. rewrite app_nth2; rewrite firstn_length, Nat.min_l by (rewrite Hc; unfold kc; lia); [|lia]. reflexivity. Qed.
Lemma emb_v c j : length c = kc -> (j < n)%nat -> e_v n (emb c) j = vf j.
Proof.
  intros Hc Hj. unfold e_v, known_tape, vf. rewrite app_nth2; rewrite firstn_length, Nat.min_l by (rewrite Hc; unfold kc; lia); [|lia].
  replace (7 + 2 * n + j - 5)%nat with (S (n + (S n + j))) by lia. cbn [nth]. rewrite app_nth2 by lia. rewrite app_nth2; rewrite skipn_length, Hc, Ls; unfold kc; [|lia].
  f_equal. lia.
Qed.

(* ---------- counting ---------- *)
Let D := 4 * Z.of_nat N + 7 * (Z.of_nat n + 5).
Section Strategy.
Variable S0 : strategy E.
Lemma known_count_or_identity (L : list (list F)) extra (fs : list (Z * (list F -> F))) :
  NoDup L -> (forall c, In c L -> length c = kc) -> 0 <= extra -> zsum (map fst fs) <= extra ->
  (D + extra < p -> Forall (fun Df => small_zeros kc (fst Df) (snd Df)) fs) ->
  (forall c, In c L -> vanishing_at xs (e 4 c) <> fzero -> f_com n cs xs S0 (emb c) = fzero /\ f_qap n cs xs S0 (emb c) = fzero) ->
  (8 < p -> (forall c, length c = kc -> f_com n cs xs S0 (emb c) = fzero) -> (forall c, length c = kc -> f_qap n cs xs S0 (emb c) = fzero) ->
   forall c, In c L -> vanishing_at xs (e 4 c) <> fzero -> Exists (fun Df => snd Df c = fzero) fs) ->
  Z.of_nat (length L) * p <= (D + extra) * p ^ Z.of_nat kc.
Proof.
  intros Hnd Hl He Hsum Hsmall Hacc Hcase. pose proof (@modulus_gt1 K) as Hp. pose proof (tuples_bound kc L Hnd Hl) as HT.
  assert (Pk : 0 < p ^ Z.of_nat kc) by (apply Z.pow_pos_nonneg; lia).
  destruct (Z_le_gt_dec (Z.of_nat (length L) * p) ((D + extra) * p ^ Z.of_nat kc)) as [Hle|Hgt]; [exact Hle|exfalso].
  assert (HD : D + extra < p) by nia.
  assert (Hp8 : 8 < p) by (unfold D in HD; lia).
  assert (HNp : Z.of_nat N < p) by (unfold D in HD; lia).
  pose proof (small_vanishing_known HNp) as Sv.
  assert (Z7 : forall f, @pfun K k (dg (3 * N) 7) f -> (forall c, In c L -> vanishing_at xs (e 4 c) <> fzero -> f (emb c) = fzero) -> forall c, length c = kc -> f (emb c) = fzero).
  { intros f Pf Hf c Hc. destruct (feq_dec (f (emb c)) fzero) as [Z|NZ]; [exact Z|exfalso].
    pose proof (small_emb _ _ _ c Pf Hc NZ) as Sc.
    pose proof (union_bound kc [(Z.of_nat N, fun env => vanishing_at xs (e 4 env)); (Z.of_nat (3 * N) + Z.of_nat 7 * (Z.of_nat n + 5), fun c => f (emb c))] L
      ltac:(repeat constructor; assumption) Hnd) as U.
    cbn [map fst zsum] in U. assert (B : Z.of_nat (length L) * p <= D * p ^ Z.of_nat kc).
    { eapply Z.le_trans; [apply U|]. 2:{ apply Z.mul_le_mono_nonneg_r; [lia|]. unfold D. lia. }
      intros l Hin. split; [apply Hl; exact Hin|]. destruct (feq_dec (vanishing_at xs (e 4 l)) fzero) as [Z|Z]; [left; exact Z|right; left]. apply (Hf l Hin Z). }
    nia. }
  assert (Zc : forall c, length c = kc -> f_com n cs xs S0 (emb c) = fzero) by (apply Z7; [apply pf_com|intros c Hc Hv; apply (Hacc c Hc Hv)]).
  assert (Zq : forall c, length c = kc -> f_qap n cs xs S0 (emb c) = fzero) by (apply Z7; [apply pf_qap|intros c Hc Hv; apply (Hacc c Hc Hv)]).
  pose proof (union_bound kc ((Z.of_nat N, fun env => vanishing_at xs (e 4 env)) :: fs) L ltac:(constructor; [exact Sv|exact (Hsmall HD)]) Hnd) as U.
  cbn [map fst zsum] in U. assert (B : Z.of_nat (length L) * p <= (Z.of_nat N + zsum (map fst fs)) * p ^ Z.of_nat kc).
  { apply U. intros l Hin. split; [apply Hl; exact Hin|]. destruct (feq_dec (vanishing_at xs (e 4 l)) fzero) as [Z|Z]; [left; exact Z|right].
    apply (Hcase Hp8 Zc Zq l Hin Z). }
  assert ((Z.of_nat N + zsum (map fst fs)) * p ^ Z.of_nat kc <= (D + extra) * p ^ Z.of_nat kc) by (apply Z.mul_le_mono_nonneg_r; [lia|unfold D; lia]).
  lia.
Qed.
Lemma known_extraction c pk sk ek dk st' : 8 < p -> length c = kc -> vanishing_at xs (e 4 c) <> fzero ->
  setup_for_groth16 (ark_backend pf domain fuel) (replay_rng E) b gens (emb c) = Ok (pk, sk, ek, dk, st') -> length (sg_chunks S0) = n ->
  (forall c, length c = kc -> f_com n cs xs S0 (emb c) = fzero) ->
  forge_ciphertext S0 gens pk ek = ct_formula ek (gis n cs xs gens (emb c)) (extracted_chunks n S0) (extracted_r n S0) /\
  get_gs_for_encryption (gpk_vk (pk_pk pk)) = Ok (gis n cs xs gens (emb c)) /\
  encrypts ek (gis n cs xs gens (emb c)) (extracted_chunks n S0) (ct_vec (forge_ciphertext S0 gens pk ek)) (extracted_r n S0).
Proof.
  intros Hp8 Hc Hv Hs Hlen Zc. assert (Hv' : vanishing_at xs (e 4 (emb c)) <> fzero) by (rewrite emb_first by (try exact Hc; lia); exact Hv).
  assert (Ec : forall al be ga de ta t, eq_com n cs xs S0 al be ga de ta (e_s (emb c)) t = fzero).
  { intros al be ga de ta t. rewrite <- (com_known S0 Zc al be ga de ta t). apply eq_com_ext; [intros j Hj; apply emb_s; assumption|reflexivity]. }
  pose proof (forged_is_encryption_at n cs xs pf domain fuel b gens S0 Hdom_ok Hb Hcount Hn0 Hcs Hdomain Hp8 (emb c) pk sk ek dk st' (emb_length c Hc) Hv' Hs Hlen Ec) as Ef.
  destruct (setup_tape n cs xs pf domain fuel b gens Hcount Hcs Hdomain (proj1 (cs_shape n cs xs b Hb Hn0 Hcs)) (emb c) pk sk ek dk st' (emb_length c Hc) Hv' Hs) as (_ & _ & Hgs & _ & Hek & _).
  split; [exact Ef|]. split; [exact Hgs|]. rewrite Ef. exists (replay_rng E), [extracted_r n S0], []. apply (encrypts_intro n).
  + rewrite Hek. apply formula_wf; try (rewrite map_length, seq_length; reflexivity); [unfold gis; rewrite map_length, seq_length; lia|exact (n256 n cs xs b Hcount Hn0)].
  + unfold extracted_chunks. rewrite map_length, seq_length. reflexivity.
  + unfold gis. rewrite map_length, seq_length. lia.
Qed.
Theorem known_cheat_bound (L : list (list F)) : NoDup L ->
  (forall c, In c L -> length c = kc /\ (vanishing_at xs (e 4 c) <> fzero -> exists pk sk ek dk st', setup_for_groth16 (ark_backend pf domain fuel) (replay_rng E) b gens (emb c) = Ok (pk, sk, ek, dk, st') /\
    verify_commitment_and_proof (forge_ciphertext S0 gens pk ek) (forge_proof S0 gens pk ek dk) (prepare_verifying_key (gpk_vk (pk_pk pk))) (prepare_ek ek) (prepare_gens gens) = Ok tt /\
    ~ (digits_ok b (extracted_chunks n S0) /\ exists g_i, get_gs_for_encryption (gpk_vk (pk_pk pk)) = Ok g_i /\
       encrypts ek g_i (extracted_chunks n S0) (ct_vec (forge_ciphertext S0 gens pk ek)) (extracted_r n S0)))) ->
  Z.of_nat (length L) * p <= D * p ^ Z.of_nat kc.
Proof.
  intros Hnd HL. replace D with (D + 0) by lia.
  apply (known_count_or_identity L 0 []); [exact Hnd|intros l Hl; apply HL; exact Hl|lia|cbn; lia|intros _; constructor| |].
  - intros c Hin Hv. destruct (HL c Hin) as (Hc & HX). destruct (HX Hv) as (pk & sk & ek & dk & st' & Hs & Hacc & _).
    assert (Hv' : vanishing_at xs (e 4 (emb c)) <> fzero) by (rewrite emb_first by (try exact Hc; lia); exact Hv).
    destruct (proj1 (accept_poly n cs xs pf domain fuel b gens S0 HG HH Hb Hcount Hn0 Hcs Hdomain (emb c) pk sk ek dk st' (emb_length c Hc) Hv' Hs) Hacc) as (_ & H1 & H2). split; assumption.
  - intros Hp8 Zc Zq c Hin Hv. exfalso. destruct (HL c Hin) as (Hc & HX). destruct (HX Hv) as (pk & sk & ek & dk & st' & Hs & Hacc & Hbad).
    assert (Hv' : vanishing_at xs (e 4 (emb c)) <> fzero) by (rewrite emb_first by (try exact Hc; lia); exact Hv).
    destruct (proj1 (accept_poly n cs xs pf domain fuel b gens S0 HG HH Hb Hcount Hn0 Hcs Hdomain (emb c) pk sk ek dk st' (emb_length c Hc) Hv' Hs) Hacc) as (Hlen & _).
    apply Hbad. split.
    + apply (forged_digits_at n cs xs domain b S0 Hdom_ok Hb Hn0 Hcs Hdomain Hp8 sf rho vf Hlen); [apply com_known; exact Zc|apply qap_known; exact Zq].
    + exists (gis n cs xs gens (emb c)). destruct (known_extraction c pk sk ek dk st' Hp8 Hc Hv Hs Hlen Zc) as (_ & A & B). split; [exact A|exact B].
Qed.
(* the commitment check alone *)
Theorem known_commitment_bound (L : list (list F)) : NoDup L ->
  (forall c, In c L -> length c = kc /\ (vanishing_at xs (e 4 c) <> fzero -> exists pk sk ek dk st', setup_for_groth16 (ark_backend pf domain fuel) (replay_rng E) b gens (emb c) = Ok (pk, sk, ek, dk, st') /\
    verify_commitment (forge_ciphertext S0 gens pk ek) (prepare_ek ek) (prepare_gens gens) = Ok tt /\
    ~ (exists g_i, get_gs_for_encryption (gpk_vk (pk_pk pk)) = Ok g_i /\
       encrypts ek g_i (extracted_chunks n S0) (ct_vec (forge_ciphertext S0 gens pk ek)) (extracted_r n S0)))) ->
  Z.of_nat (length L) * p <= D * p ^ Z.of_nat kc.
Proof.
  intros Hnd HL. pose proof (@modulus_gt1 K) as Hp. pose proof (tuples_bound kc L Hnd ltac:(intros l Hl; apply HL; exact Hl)) as HT.
  assert (Pk : 0 < p ^ Z.of_nat kc) by (apply Z.pow_pos_nonneg; lia).
  destruct (Z_le_gt_dec (Z.of_nat (length L) * p) (D * p ^ Z.of_nat kc)) as [Hle|Hgt]; [exact Hle|exfalso].
  assert (HD : D < p) by nia.
  assert (Hp8 : 8 < p) by (unfold D in HD; lia).
  assert (HNp : Z.of_nat N < p) by (unfold D in HD; lia).
  pose proof (small_vanishing_known HNp) as Sv.
  assert (Hacc : forall c, In c L -> vanishing_at xs (e 4 c) <> fzero -> length (sg_chunks S0) = n /\ f_com n cs xs S0 (emb c) = fzero).
  { intros c Hin Hv. destruct (HL c Hin) as (Hc & HX). destruct (HX Hv) as (pk & sk & ek & dk & st' & Hs & Ha & _).
    assert (Hv' : vanishing_at xs (e 4 (emb c)) <> fzero) by (rewrite emb_first by (try exact Hc; lia); exact Hv).
    exact (proj1 (accept_com n cs xs pf domain fuel b gens S0 HG HH Hb Hcount Hn0 Hcs Hdomain (emb c) pk sk ek dk st' (emb_length c Hc) Hv' Hs) Ha). }
  assert (Zc : forall c, length c = kc -> f_com n cs xs S0 (emb c) = fzero).
  { intros c Hc. destruct (feq_dec (f_com n cs xs S0 (emb c)) fzero) as [Z|NZ]; [exact Z|exfalso].
    pose proof (small_emb _ _ _ c (pf_com n cs xs k S0) Hc NZ) as Sc.
    pose proof (union_bound kc [(Z.of_nat N, fun env => vanishing_at xs (e 4 env)); (Z.of_nat (3 * length xs) + Z.of_nat 7 * (Z.of_nat n + 5), fun c => f_com n cs xs S0 (emb c))] L
      ltac:(repeat constructor; assumption) Hnd) as U.
    cbn [map fst zsum] in U. fold N in U. assert (B : Z.of_nat (length L) * p <= D * p ^ Z.of_nat kc).
    { eapply Z.le_trans; [apply U|]. 2:{ apply Z.mul_le_mono_nonneg_r; [lia|]. unfold D. lia. }
      intros l Hin. split; [apply HL; exact Hin|]. destruct (feq_dec (vanishing_at xs (e 4 l)) fzero) as [Z|Z]; [left; exact Z|right; left]. apply (Hacc l Hin Z). }
    nia. }
  pose proof (union_bound kc [(Z.of_nat N, fun env => vanishing_at xs (e 4 env))] L ltac:(repeat constructor; assumption) Hnd) as U.
  cbn [map fst zsum] in U. assert (B : Z.of_nat (length L) * p <= (Z.of_nat N + 0) * p ^ Z.of_nat kc).
  { apply U. intros c Hin. split; [apply HL; exact Hin|]. destruct (feq_dec (vanishing_at xs (e 4 c)) fzero) as [Z|Hv]; [left; exact Z|exfalso].
    destruct (HL c Hin) as (Hc & HX). destruct (HX Hv) as (pk & sk & ek & dk & st' & Hs & _ & Hbad). destruct (Hacc c Hin Hv) as [Hlen _].
    apply Hbad. exists (gis n cs xs gens (emb c)). destruct (known_extraction c pk sk ek dk st' Hp8 Hc Hv Hs Hlen Zc) as (_ & A1 & A2). split; [exact A1|exact A2]. }
  assert ((Z.of_nat N + 0) * p ^ Z.of_nat kc <= D * p ^ Z.of_nat kc) by (apply Z.mul_le_mono_nonneg_r; [lia|unfold D; lia]).
  lia.
Qed.

(* decryption *)
Lemma small_qq_known j : (j < n)%nat -> small_zeros kc (Z.of_nat N + 2) (fun env : list F => qq cs xs (e 0 env) (e 1 env) (e 4 env) (S j)).
Proof.
  intros Hj. pose proof (cs_shape n cs xs b Hb Hn0 Hcs) as (Hni & _ & _). destruct (Hdom_ok _ _ Hdomain) as [Hnd HN]. fold N in HN.
  set (x := nth (nc + S j) xs fzero).
  exists (dqq N), (fzero :: (fsub fone (colC cs xs x (S j))) :: fzero :: fzero :: x :: repeat fzero (n + 1)). split; [|split; [|split]].
  - assert (HA : forall f, @pfun K kc (dg N 0) f -> @pfun K kc (dqq N) f).
    { intros f. apply pfun_weaken. intros i _. unfold dg, dqq. destruct i as [|[|[|[|[|i]]]]]; cbn; lia. }
    assert (HM : forall i f, (i < 2)%nat -> @pfun K kc (dg N 0) f -> @pfun K kc (dqq N) (fun env => e i env *f f env)).
    { intros i f Hi Hf. apply (pfun_mul kc _ (dvar i) (dg N 0)); [| |exact Hf].
      - intros i' _. unfold dvar, dg, dqq. destruct i as [|[|i]]; [| |lia]; destruct i' as [|[|[|[|[|i']]]]]; cbn; lia.
      - apply (pfun_ext kc _ (fun env => peval [fzero; fone] (e i env))); [intros env _; cbn; ring|]. apply pfun_peval. unfold dvar. rewrite Nat.eqb_refl. cbn. lia. }
    unfold qq. apply pfun_add; [apply pfun_add|].
    + apply HM; [lia|apply pf_colA].
    + apply HM; [lia|apply pf_colB].
    + apply HA, pf_colC.
  - cbn [length]. rewrite repeat_length. unfold kc. lia.
  - cbn [nth]. unfold qq. unfold x at 2. rewrite (colA_at n cs xs Hnd HN Hni Hn0) by (fold ni; lia). rewrite Nat.eqb_refl. intros Z. apply (@fneq01 K).
    etransitivity; [|exact Z]. fold x. ring.
  - unfold kc. replace (n + 6)%nat with (5 + (n + 1))%nat by lia. rewrite deg_sum_dqq. lia.
Qed.
Definition dead_polys : list (Z * (list F -> F)) := map (fun j => (Z.of_nat N + 2, fun env => qq cs xs (e 0 env) (e 1 env) (e 4 env) (S j))) (seq 0 n).
Lemma dead_sum : zsum (map fst dead_polys) = Z.of_nat n * (Z.of_nat N + 2).
Proof. unfold dead_polys. rewrite map_map. cbn [fst]. rewrite (zsum_const n cs xs Hn0), seq_length. lia. Qed.
Lemma dead_small : Forall (fun Df => small_zeros kc (fst Df) (snd Df)) dead_polys.
Proof. unfold dead_polys. apply Forall_map, Forall_forall. intros j Hj; apply in_seq in Hj; cbn [fst snd]. apply small_qq_known. lia. Qed.
Lemma alive_tape c : length c = kc -> rho <> fzero -> Forall (fun x => x <> fzero) v -> ~ Exists (fun Df => snd Df c = fzero) dead_polys -> e 2 (emb c) <> fzero ->
  nondegenerate (dk_formula gens (e 5 (emb c)) (map (e_s (emb c)) (seq 0 n)) (map (e_v n (emb c)) (seq 0 n))) (gis n cs xs gens (emb c)) n.
Proof.
  intros Hc Hr Hv Hx Hga. apply (degenerate_tape n cs xs gens HG HH Hn0); [|exact Hga]. intros X. unfold degenerate_polys in X.
  apply Exists_cons in X. destruct X as [X|X]; [cbn [snd] in X; rewrite (emb_rho c Hc) in X; contradiction|].
  apply Exists_app in X. destruct X as [X|X].
  - apply Exists_exists in X. destruct X as (Df & Hin & Z). apply in_map_iff in Hin. destruct Hin as (j & <- & Hj). apply in_seq in Hj. cbn [snd] in Z.
    assert (Ev : e_v n (emb c) j = vf j) by (apply emb_v; [exact Hc|lia]). unfold e_v in Ev. rewrite Ev in Z. unfold vf in Z. rewrite Forall_forall in Hv. apply (Hv (nth j v fzero)); [apply nth_In; lia|exact Z].
  - apply Hx. apply Exists_exists in X. destruct X as (Df & Hin & Z). apply in_map_iff in Hin. destruct Hin as (j & <- & Hj). cbn [snd] in Z. apply in_seq in Hj as Hj'.
    apply Exists_exists. eexists. split; [apply in_map_iff; exists j; split; [reflexivity|exact Hj]|]. cbn [snd]. rewrite !emb_first in Z by (try exact Hc; lia). exact Z.
Qed.
Theorem known_undecryptable_bound (L : list (list F)) : b <= 16 -> b < modulus_bit_size K -> rho <> fzero -> Forall (fun x => x <> fzero) v -> NoDup L ->
  (forall c, In c L -> length c = kc /\ (vanishing_at xs (e 4 c) <> fzero -> exists pk sk ek dk st', setup_for_groth16 (ark_backend pf domain fuel) (replay_rng E) b gens (emb c) = Ok (pk, sk, ek, dk, st') /\
    verify_commitment_and_proof (forge_ciphertext S0 gens pk ek) (forge_proof S0 gens pk ek dk) (prepare_verifying_key (gpk_vk (pk_pk pk))) (prepare_ek ek) (prepare_gens gens) = Ok tt /\
    ~ exists g_i, get_gs_for_encryption (gpk_vk (pk_pk pk)) = Ok g_i /\ let ct := forge_ciphertext S0 gens pk ek in
       decrypt_to_chunks pf (ct_X_r ct) (ct_enc_chunks ct) sk (prepare_dk dk) g_i b = Ok (extracted_chunks n S0, sk [*] ct_X_r ct))) ->
  Z.of_nat (length L) * p <= (D + Z.of_nat n * (Z.of_nat N + 2)) * p ^ Z.of_nat kc.
Proof.
  intros Hb16 Hbits Hrho Hvs Hnd HL.
  apply (known_count_or_identity L _ dead_polys); [exact Hnd|intros l Hl; apply HL; exact Hl|lia|rewrite dead_sum; lia|intros _; exact dead_small| |].
  - intros c Hin Hv. destruct (HL c Hin) as (Hc & HX). destruct (HX Hv) as (pk & sk & ek & dk & st' & Hs & Hacc & _).
    assert (Hv' : vanishing_at xs (e 4 (emb c)) <> fzero) by (rewrite emb_first by (try exact Hc; lia); exact Hv).
    destruct (proj1 (accept_poly n cs xs pf domain fuel b gens S0 HG HH Hb Hcount Hn0 Hcs Hdomain (emb c) pk sk ek dk st' (emb_length c Hc) Hv' Hs) Hacc) as (_ & H1 & H2). split; assumption.
  - intros Hp8 Zc Zq c Hin Hv. destruct (Exists_dec (fun Df => snd Df c = fzero) dead_polys (fun Df => feq_dec (snd Df c) fzero)) as [X|X]; [exact X|exfalso].
    destruct (HL c Hin) as (Hc & HX). destruct (HX Hv) as (pk & sk & ek & dk & st' & Hs & Hacc & Hbad).
    assert (Hv' : vanishing_at xs (e 4 (emb c)) <> fzero) by (rewrite emb_first by (try exact Hc; lia); exact Hv).
    destruct (proj1 (accept_poly n cs xs pf domain fuel b gens S0 HG HH Hb Hcount Hn0 Hcs Hdomain (emb c) pk sk ek dk st' (emb_length c Hc) Hv' Hs) Hacc) as (Hlen & _).
    assert (Hdig : digits_ok b (extracted_chunks n S0)).
    { apply (forged_digits_at n cs xs domain b S0 Hdom_ok Hb Hn0 Hcs Hdomain Hp8 sf rho vf Hlen); [apply com_known; exact Zc|apply qap_known; exact Zq]. }
    destruct (known_extraction c pk sk ek dk st' Hp8 Hc Hv Hs Hlen Zc) as (Ef & _ & _).
    destruct (setup_tape n cs xs pf domain fuel b gens Hcount Hcs Hdomain (proj1 (cs_shape n cs xs b Hb Hn0 Hcs)) (emb c) pk sk ek dk st' (emb_length c Hc) Hv' Hs) as (Hga & _ & Hgs & -> & Hek & Hdk & _).
    apply Hbad. exists (gis n cs xs gens (emb c)). split; [exact Hgs|]. cbv zeta. rewrite Ef, Hdk.
    assert (Ls' : length (map (e_s (emb c)) (seq 0 n)) = n) by (rewrite map_length, seq_length; reflexivity).
    apply decrypt_exact.
    + rewrite !map_length. reflexivity.
    + rewrite Ls'. exact (n256 n cs xs b Hcount Hn0).
    + rewrite Ls'. unfold gis. rewrite map_length, seq_length. lia.
    + rewrite Ls'. apply alive_tape; assumption.
    + lia.
    + unfold max_chunk. rewrite Z.min_l by lia. unfold modulus_bit_size in Hbits. pose proof (@modulus_gt1 K) as Hp. pose proof (Z.log2_spec p ltac:(lia)) as [Hlog _].
      assert (2 ^ b <= 2 ^ Z.log2 p) by (apply Z.pow_le_mono_r; lia). lia.
    + split; [|split; [|reflexivity]].
      * rewrite Hek. apply honest_body_opens.
        -- rewrite Ls'. unfold extracted_chunks. rewrite map_length, seq_length. reflexivity.
        -- eapply Forall_impl; [|exact Hdig]. intros z Hz. cbv beta in Hz. lia.
      * eapply Forall_impl; [|exact Hdig]. intros z Hz. cbv beta in Hz. unfold max_chunk. rewrite Z.min_l by lia. lia.
Qed.
End Strategy.

(* ---------- adaptive provers ---------- *)
Let D7 := 3 * Z.of_nat N + 7 * (Z.of_nat n + 5).
Lemma known_test_dichotomy q : (forall c, length c = kc -> f_test n cs xs q (emb c) = fzero) \/ small_zeros kc D7 (fun c => f_test n cs xs q (emb c)).
Proof.
  destruct (all_or_some n cs xs Hn0 kc (fun c => f_test n cs xs q (emb c) = fzero) (fun c => feq_dec _ _)) as [Z|(c & H1 & H2)]; [left; exact Z|right].
  pose proof (small_emb _ _ _ c (pf_test n cs xs Hn0 q) H1 H2) as Sm. unfold D7.
  destruct Sm as (d & a & A1 & A2 & A3 & A4). exists d, a. split; [exact A1|]. split; [exact A2|]. split; [exact A3|]. etransitivity; [exact A4|]. rewrite !Nat2Z.inj_mul. unfold N. lia.
Qed.
Lemma known_adaptive_bound (bad : strategy E -> list F -> Prop) (D0 : Z) (P : prover E) :
  (forall St L, NoDup L -> (forall l, In l L -> length l = kc /\ (vanishing_at xs (e 4 l) <> fzero -> bad St l)) -> Z.of_nat (length L) * p <= D0 * p ^ Z.of_nat kc) ->
  forall L, NoDup L -> (forall l, In l L -> length l = kc /\ (vanishing_at xs (e 4 l) <> fzero -> exists pk sk ek dk st',
    setup_for_groth16 (ark_backend pf domain fuel) (replay_rng E) b gens (emb l) = Ok (pk, sk, ek, dk, st') /\ bad (play P (public_g1 gens pk ek) (public_g2 gens pk ek dk)) l)) ->
  Z.of_nat (length L) * p <= (Z.of_nat (tests P) * D7 + D0) * p ^ Z.of_nat kc.
Proof.
  intros Hfix. pose proof (@modulus_gt1 K) as Hp. assert (Pk : 0 < p ^ Z.of_nat kc) by (apply Z.pow_pos_nonneg; lia). assert (H7 : 0 <= D7) by (unfold D7; lia).
  assert (Hemb : forall l, length l = kc -> vanishing_at xs (e 4 l) <> fzero -> vanishing_at xs (e 4 (emb l)) <> fzero) by (intros l Hl Hv; rewrite emb_first by (try exact Hl; lia); exact Hv).
  induction P as [St|q P1 IH1 P2 IH2]; intros L Hnd HL.
  - cbn [tests]. rewrite Z.mul_0_l, Z.add_0_l. apply (Hfix St L Hnd). intros l Hl. destruct (HL l Hl) as [H1 H2]. split; [exact H1|]. intros Hv. destruct (H2 Hv) as (pk & sk & ek & dk & st' & _ & Hbad). exact Hbad.
  - cbn [tests]. destruct (known_test_dichotomy q) as [Z|Z].
    + assert (X : Z.of_nat (length L) * p <= (Z.of_nat (tests P1) * D7 + D0) * p ^ Z.of_nat kc).
      { apply (IH1 L Hnd). intros l Hl. destruct (HL l Hl) as [H1 H2]. split; [exact H1|]. intros Hv. destruct (H2 Hv) as (pk & sk & ek & dk & st' & Hs & Hbad).
        exists pk, sk, ek, dk, st'. split; [exact Hs|]. cbn [play] in Hbad.
        rewrite (test_answer n cs xs pf domain fuel b gens HG HH Hb Hcount Hn0 Hcs Hdomain (emb l) pk sk ek dk st' q (emb_length l H1) (Hemb l H1 Hv) Hs), (Z l H1) in Hbad.
        rewrite (proj2 (feqb_spec fzero fzero) eq_refl) in Hbad. exact Hbad. }
      nia.
    + destruct (split_list (fun l => feqb (f_test n cs xs q (emb l)) fzero) L Hnd) as (L1 & L2 & N1 & N2 & Len & I1 & I2).
      assert (B1 : Z.of_nat (length L1) * p <= D7 * p ^ Z.of_nat kc).
      { pose proof (union_bound kc [(D7, fun c => f_test n cs xs q (emb c))] L1 ltac:(constructor; [exact Z|constructor]) N1) as U. cbn [map fst zsum] in U. rewrite Z.add_0_r in U. apply U.
        intros l Hl. destruct (I1 l Hl) as [Hi Hz]. split; [apply HL; exact Hi|constructor 1; apply feqb_spec; exact Hz]. }
      assert (B2 : Z.of_nat (length L2) * p <= (Z.of_nat (tests P2) * D7 + D0) * p ^ Z.of_nat kc).
      { apply (IH2 L2 N2). intros l Hl. destruct (I2 l Hl) as [Hi Hz]. destruct (HL l Hi) as [H1 H2]. split; [exact H1|]. intros Hv. destruct (H2 Hv) as (pk & sk & ek & dk & st' & Hs & Hbad).
        exists pk, sk, ek, dk, st'. split; [exact Hs|]. cbn [play] in Hbad.
        rewrite (test_answer n cs xs pf domain fuel b gens HG HH Hb Hcount Hn0 Hcs Hdomain (emb l) pk sk ek dk st' q (emb_length l H1) (Hemb l H1 Hv) Hs), Hz in Hbad. exact Hbad. }
      rewrite Len, Nat2Z.inj_add. nia.
Qed.
End Known.
