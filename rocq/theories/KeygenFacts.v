(* KeygenFacts.v -- proofs about key generation (C08-C11) *)
From Coq Require Import Permutation.
From Verif Require Import Base BaseFacts Algebra Utils UtilsFacts WindowFacts Setup Keygen Spec KeySpec VecFacts.

Section KeygenFacts.
Context {E : pairing}.
Add Ring Kr : (@scalar_ring_theory (K_of E)).

Lemma rand_scalars_length (R : rng_impl E) n st : length (fst (rand_scalars R n st)) = n.
Proof.
  revert st; induction n as [|n IH]; intros st; cbn; [reflexivity|].
  destruct (rand_scalar R st) as [x st1]. specialize (IH st1).
  destruct (rand_scalars R n st1) as [xs st2]. cbn in *. now rewrite IH.
Qed.

Lemma make_Y_eq n (g_i : list (G1 E)) t0 (t : list (Fr E)) : length t = n -> (n <= length g_i)%nat ->
  make_Y n g_i (t0 :: t) = Ok (scale t g_i).
Proof.
  intros Ht Hg. unfold make_Y. apply mapM_seq_intro.
  - rewrite scale_length; lia.
  - intros i y Hy. cbn [Nat.add].
    assert (Hi : (i < n)%nat) by (rewrite <- (Nat.min_l n (length g_i)), <- Ht at 1 by lia; rewrite <- scale_length; apply nth_error_Some; congruence).
    destruct (idx_lt g_i i) as (g & Hg1 & Hg2); [lia|]. rewrite Hg1. cbn [bind].
    replace (i + 1)%nat with (S i) by lia.
    destruct (idx_lt t i) as (x & Hx1 & Hx2); [lia|].
    rewrite (idx_nth_error (t0 :: t) (S i) x) by exact Hx2. cbn [bind].
    rewrite (scale_nth_error _ _ _ _ _ Hx2 Hg2) in Hy. injection Hy as <-. reflexivity.
Qed.

Lemma st_prods_eq (s : list (Fr E)) t0 t n : length s = n -> length t = n ->
  mapM (fun j => sj <- idx s j ;; tj <- idx (t0 :: t) (j + 1) ;; Ok (fmul sj tj)) (seq 0 n)
  = Ok (map (fun i => fmul (nth i s fzero) (nth i t fzero)) (seq 0 n)).
Proof.
  intros Hs Ht. apply mapM_seq_intro; [now rewrite map_length, seq_length|].
  intros i y Hy. cbn [Nat.add].
  assert (Hi : (i < n)%nat) by (rewrite <- (seq_length n 0), <- (map_length (fun i => fmul (nth i s fzero) (nth i t fzero))); apply nth_error_Some; congruence).
  rewrite map_seq_nth_error in Hy by exact Hi. injection Hy as <-.
  rewrite (idx_nth_error s i (nth i s fzero)) by (apply nth_error_nth'; lia). cbn [bind].
  replace (i + 1)%nat with (S i) by lia.
  rewrite (idx_nth_error (t0 :: t) (S i) (nth i t fzero)) by (cbn; apply nth_error_nth'; lia). reflexivity.
Qed.

Lemma map_smul_smul (d : G2 E) rho (v : list (Fr E)) :
  map (fun x => x [*] (rho [*] d)) v = map (fun x => fmul x rho [*] d) v.
Proof. apply map_ext. intros x. symmetry. apply smul_fmul. Qed.

(* ---------- keygen ---------- *)
Theorem keygen_short (R : rng_impl E) b gens g_i delta gamma st n :
  chunks_count (K_of E) b = Ok n -> (length g_i < Z.to_nat n)%nat ->
  keygen R b gens g_i delta gamma st = Err (VectorShorterThanExpected (length g_i) (Z.to_nat n)) /\
  FkeygenPartial R b gens g_i delta gamma st = Err (VectorShorterThanExpected (length g_i) (Z.to_nat n)).
Proof.
  intros Hn Hlt. unfold keygen, FkeygenPartial. rewrite Hn; cbn [bind].
  destruct (Nat.ltb_spec (length g_i) (Z.to_nat n)); [split; reflexivity | lia].
Qed.

Theorem keygen_formula (R : rng_impl E) b gens g_i delta gamma st n :
  chunks_count (K_of E) b = Ok n -> (Z.to_nat n <= length g_i)%nat ->
  exists rho s t0 t v st',
    length s = Z.to_nat n /\ length t = Z.to_nat n /\ length v = Z.to_nat n /\
    keygen R b gens g_i delta gamma st =
      Ok (rho, ek_formula gens g_i delta gamma s t0 t, dk_formula gens rho s v, st').
Proof.
  intros Hn Hle. unfold keygen. rewrite Hn; cbn [bind].
  destruct (Nat.ltb_spec (length g_i) (Z.to_nat n)); [lia|].
  destruct (rand_scalar R st) as [rho st0].
  pose proof (rand_scalars_length R (Z.to_nat n) st0) as Hs.
  destruct (rand_scalars R (Z.to_nat n) st0) as [s st1]. cbn [fst] in Hs.
  pose proof (rand_scalars_length R (Z.to_nat n + 1) st1) as Ht.
  destruct (rand_scalars R (Z.to_nat n + 1) st1) as [tt st2]. cbn [fst] in Ht.
  pose proof (rand_scalars_length R (Z.to_nat n) st2) as Hv.
  destruct (rand_scalars R (Z.to_nat n) st2) as [v st3]. cbn [fst] in Hv.
  destruct tt as [|t0 t]; [cbn in Ht; lia|]. assert (Ht' : length t = Z.to_nat n) by (cbn in Ht; lia).
  exists rho, s, t0, t, v, st3. split; [exact Hs|]. split; [exact Ht'|]. split; [exact Hv|].
  rewrite !multiply_field_elems_correct. cbn [bind].
  rewrite make_Y_eq by assumption. cbn [bind]. cbn [idx nth_error bind].
  rewrite st_prods_eq by assumption. cbn [bind].
  rewrite map_map. unfold ek_formula, dk_formula. unfold smul at 1.
  rewrite (fdot_as_fsum s t (Z.to_nat n)) by exact Hs.
  change (mul_bigint (eg_H gens) (into_bigint rho)) with (rho [*] eg_H gens). rewrite map_smul_smul.
  do 2 f_equal. f_equal. f_equal.
  apply map_ext. intros [a c]. reflexivity.
Qed.

Theorem partial_formula (R : rng_impl E) b gens g_i delta gamma st n :
  chunks_count (K_of E) b = Ok n -> (Z.to_nat n <= length g_i)%nat ->
  exists s t0 t st',
    length s = Z.to_nat n /\ length t = Z.to_nat n /\
    FkeygenPartial R b gens g_i delta gamma st =
      Ok (SecretKeyST s (t0 :: t), ekp_formula gens g_i delta gamma s t0 t, st').
Proof.
  intros Hn Hle. unfold FkeygenPartial. rewrite Hn; cbn [bind].
  destruct (Nat.ltb_spec (length g_i) (Z.to_nat n)); [lia|].
  pose proof (rand_scalars_length R (Z.to_nat n) st) as Hs.
  destruct (rand_scalars R (Z.to_nat n) st) as [s st1]. cbn [fst] in Hs.
  pose proof (rand_scalars_length R (Z.to_nat n + 1) st1) as Ht.
  destruct (rand_scalars R (Z.to_nat n + 1) st1) as [tt st2]. cbn [fst] in Ht.
  destruct tt as [|t0 t]; [cbn in Ht; lia|]. assert (Ht' : length t = Z.to_nat n) by (cbn in Ht; lia).
  exists s, t0, t, st2. split; [exact Hs|]. split; [exact Ht'|].
  rewrite !multiply_field_elems_correct. cbn [bind].
  rewrite make_Y_eq by assumption. reflexivity.
Qed.

(* everything that follows uses keys only through these two inversion lemmas *)
Lemma from_keygen_inv b (gens : encryption_gens E) g_i delta gamma sk ek dk : from_keygen b gens g_i delta gamma sk ek dk ->
  exists n s t0 t v, chunks_count (K_of E) b = Ok (Z.of_nat n) /\ (n <= length g_i)%nat /\ (n < 256)%nat /\
    length s = n /\ length t = n /\ length v = n /\
    ek = ek_formula gens g_i delta gamma s t0 t /\ dk = dk_formula gens sk s v.
Proof.
  intros (R & st & st' & H).
  destruct (chunks_count (K_of E) b) as [n|e|] eqn:Hn; [|unfold keygen in H; rewrite Hn in H; discriminate..].
  pose proof (chunks_count_range _ _ _ Hn) as Hr.
  destruct (le_lt_dec (Z.to_nat n) (length g_i)) as [Hle|Hlt].
  - destruct (keygen_formula R b gens g_i delta gamma st n Hn Hle) as (rho & s & t0 & t & v & st'' & Hs & Ht & Hv & Hk).
    rewrite Hk in H. injection H as <- <- <- _.
    exists (Z.to_nat n), s, t0, t, v. rewrite Z2Nat.id by lia. repeat split; try assumption; lia.
  - destruct (keygen_short R b gens g_i delta gamma st n Hn Hlt) as [Hk _]. rewrite Hk in H. discriminate.
Qed.

Lemma from_partial_inv b gens g_i delta gamma p : @from_partial E b gens g_i delta gamma p ->
  exists n s t0 t, chunks_count (K_of E) b = Ok (Z.of_nat n) /\ (n <= length g_i)%nat /\ (n < 256)%nat /\
    length s = n /\ length t = n /\
    p = (SecretKeyST s (t0 :: t), ekp_formula gens g_i delta gamma s t0 t).
Proof.
  destruct p as [sk ekp]. intros (R & st & st' & H). cbn [fst snd] in H.
  destruct (chunks_count (K_of E) b) as [n|e|] eqn:Hn; [|unfold FkeygenPartial in H; rewrite Hn in H; discriminate..].
  pose proof (chunks_count_range _ _ _ Hn) as Hr.
  destruct (le_lt_dec (Z.to_nat n) (length g_i)) as [Hle|Hlt].
  - destruct (partial_formula R b gens g_i delta gamma st n Hn Hle) as (s & t0 & t & st'' & Hs & Ht & Hk).
    rewrite Hk in H. injection H as <- <- _.
    exists (Z.to_nat n), s, t0, t. rewrite Z2Nat.id by lia. repeat split; try assumption; lia.
  - destruct (keygen_short R b gens g_i delta gamma st n Hn Hlt) as [_ Hk]. rewrite Hk in H. discriminate.
Qed.

(* the replay generator can produce every key of the right shape *)
Lemma replay_scalars (l : list (Fr E)) rest : rand_scalars (replay_rng E) (length l) (l ++ rest) = (l, rest).
Proof. induction l as [|x l IH]; [reflexivity|]. cbn in *. rewrite IH. reflexivity. Qed.

Theorem keygen_replay b gens g_i delta gamma n rho s t0 t v rest :
  chunks_count (K_of E) b = Ok (Z.of_nat n) -> (n <= length g_i)%nat ->
  length s = n -> length t = n -> length v = n ->
  keygen (replay_rng E) b gens g_i delta gamma (rho :: s ++ (t0 :: t) ++ v ++ rest) =
    Ok (rho, ek_formula gens g_i delta gamma s t0 t, dk_formula gens rho s v, rest).
Proof.
  intros Hn Hle Hs Ht Hv. unfold keygen. rewrite Hn; cbn [bind]. rewrite Nat2Z.id.
  destruct (Nat.ltb_spec (length g_i) n); [lia|].
  change (rand_scalar (replay_rng E) (rho :: s ++ (t0 :: t) ++ v ++ rest)) with (rho, s ++ (t0 :: t) ++ v ++ rest).
  cbv iota beta zeta. rewrite <- Hs at 1. rewrite replay_scalars. cbv iota beta zeta.
  replace (n + 1)%nat with (length (t0 :: t)) by (cbn; lia). rewrite replay_scalars. cbv iota beta zeta.
  rewrite <- Hv at 1. rewrite replay_scalars. cbv iota beta zeta.
  rewrite !multiply_field_elems_correct. cbn [bind].
  rewrite make_Y_eq by assumption. cbn [bind]. cbn [idx nth_error bind].
  rewrite st_prods_eq by assumption. cbn [bind].
  rewrite map_map. unfold ek_formula, dk_formula. unfold smul at 1.
  rewrite (fdot_as_fsum s t n) by exact Hs.
  change (mul_bigint (eg_H gens) (into_bigint rho)) with (rho [*] eg_H gens). rewrite map_smul_smul.
  do 2 f_equal. f_equal. f_equal.
  apply map_ext. intros [a c]. reflexivity.
Qed.

Theorem partial_replay b gens g_i delta gamma n s t0 t rest :
  chunks_count (K_of E) b = Ok (Z.of_nat n) -> (n <= length g_i)%nat ->
  length s = n -> length t = n ->
  FkeygenPartial (replay_rng E) b gens g_i delta gamma (s ++ (t0 :: t) ++ rest) =
    Ok (SecretKeyST s (t0 :: t), ekp_formula gens g_i delta gamma s t0 t, rest).
Proof.
  intros Hn Hle Hs Ht. unfold FkeygenPartial. rewrite Hn; cbn [bind]. rewrite Nat2Z.id.
  destruct (Nat.ltb_spec (length g_i) n); [lia|].
  rewrite <- Hs at 1. rewrite replay_scalars. cbv iota beta zeta.
  replace (n + 1)%nat with (length (t0 :: t)) by (cbn; lia). rewrite replay_scalars. cbv iota beta zeta.
  rewrite !multiply_field_elems_correct. cbn [bind]. rewrite make_Y_eq by assumption. reflexivity.
Qed.

(* ---------- shapes ---------- *)
Lemma ek_formula_lengths gens g_i delta gamma (s : list (Fr E)) t0 t n :
  length s = n -> length t = n -> (n <= length g_i)%nat ->
  let ek := ek_formula gens g_i delta gamma s t0 t in
  length (ek_X ek) = n /\ length (ek_Y ek) = n /\ length (ek_Z ek) = (n + 1)%nat.
Proof.
  intros Hs Ht Hg. cbn. rewrite !map_length, scale_length. repeat split; lia.
Qed.

Lemma enc_supported_ok n : (n < 256)%nat -> enc_supported_chunks_count n n (n + 1) = Ok (Z.of_nat n).
Proof. intros H. unfold enc_supported_chunks_count. rewrite !Nat.eqb_refl. cbn. rewrite as_u8_small by lia. reflexivity. Qed.
Lemma dec_supported_ok n : (n < 256)%nat -> dec_supported_chunks_count n n = Ok (Z.of_nat n).
Proof. intros H. unfold dec_supported_chunks_count. rewrite Nat.eqb_refl. cbn. rewrite as_u8_small by lia. reflexivity. Qed.

Theorem keygen_valid b gens g_i delta gamma sk ek dk : @from_keygen E b gens g_i delta gamma sk ek dk ->
  exists n, chunks_count (K_of E) b = Ok (Z.of_nat n) /\
    ek_supported_chunks_count ek = Ok (Z.of_nat n) /\ ek_validate ek = Ok tt /\
    pek_supported_chunks_count (prepare_ek ek) = Ok (Z.of_nat n) /\ pek_validate (prepare_ek ek) = Ok tt /\
    dk_supported_chunks_count dk = Ok (Z.of_nat n) /\ dk_validate dk = Ok tt /\
    pdk_supported_chunks_count (prepare_dk dk) = Ok (Z.of_nat n) /\ pdk_validate (prepare_dk dk) = Ok tt /\
    length (ek_X ek) = n /\ length (ek_Y ek) = n /\ length (ek_Z ek) = (n + 1)%nat /\
    length (dk_V_1 dk) = n /\ length (dk_V_2 dk) = n.
Proof.
  intros H. apply from_keygen_inv in H.
  destruct H as (n & s & t0 & t & v & Hn & Hg & H256 & Hs & Ht & Hv & -> & ->).
  destruct (ek_formula_lengths gens g_i delta gamma s t0 t n Hs Ht Hg) as (HX & HY & HZ). cbv zeta in HX, HY, HZ.
  assert (HV1 : length (dk_V_1 (dk_formula gens sk s v)) = n) by (cbn; rewrite map_length, combine_length; lia).
  assert (HV2 : length (dk_V_2 (dk_formula gens sk s v)) = n) by (cbn; rewrite map_length; lia).
  exists n. split; [exact Hn|].
  assert (H1 : ek_supported_chunks_count (ek_formula gens g_i delta gamma s t0 t) = Ok (Z.of_nat n)).
  { unfold ek_supported_chunks_count. rewrite HX, HY, HZ. apply enc_supported_ok; exact H256. }
  assert (H2 : pek_supported_chunks_count (prepare_ek (ek_formula gens g_i delta gamma s t0 t)) = Ok (Z.of_nat n)).
  { unfold pek_supported_chunks_count. unfold prepare_ek. cbn [pek_X pek_Y pek_Z]. rewrite map_length, HX, HY, HZ. apply enc_supported_ok; exact H256. }
  assert (H3 : dk_supported_chunks_count (dk_formula gens sk s v) = Ok (Z.of_nat n)).
  { unfold dk_supported_chunks_count. rewrite HV1, HV2. apply dec_supported_ok; exact H256. }
  assert (H4 : pdk_supported_chunks_count (prepare_dk (dk_formula gens sk s v)) = Ok (Z.of_nat n)).
  { unfold pdk_supported_chunks_count. unfold prepare_dk. cbn [pdk_V_1 pdk_V_2]. rewrite !map_length, HV1, HV2. apply dec_supported_ok; exact H256. }
  unfold ek_validate, pek_validate, dk_validate, pdk_validate. rewrite H1, H2, H3, H4. cbn [bind].
  repeat split; try reflexivity; assumption.
Qed.

(* ---------- combination ---------- *)
Lemma add_into_eq {K} {G : group K} (a b : list G) :
  add_into a b = if (length a <=? length b)%nat then Ok (zip_with gadd a b) else Panic.
Proof. unfold add_into. apply mapM_zip. Qed.

Definition ekp_ge (ek0 ek : ek_partial E) : Prop :=
  (length (ekp_X ek0) <= length (ekp_X ek))%nat /\ (length (ekp_Y ek0) <= length (ekp_Y ek))%nat /\
  (length (ekp_Z ek0) <= length (ekp_Z ek))%nat.

Lemma combineEKs_step_ok (ek ek_i : ek_partial E) : ekp_ge ek ek_i ->
  combineEKs_step ek ek_i = Ok (FEncryptionKeyPartial (ekp_X_0 ek) (zip_with gadd (ekp_X ek) (ekp_X ek_i))
     (zip_with gadd (ekp_Y ek) (ekp_Y ek_i)) (zip_with gadd (ekp_Z ek) (ekp_Z ek_i)) (ekp_P_2 ek [+] ekp_P_2 ek_i)).
Proof.
  intros (HX & HY & HZ). unfold combineEKs_step. rewrite !add_into_eq.
  apply Nat.leb_le in HX, HY, HZ. rewrite HX, HY, HZ. reflexivity.
Qed.
Lemma combineEKs_step_panic (ek ek_i : ek_partial E) : ~ ekp_ge ek ek_i -> combineEKs_step ek ek_i = Panic.
Proof.
  intros H. unfold combineEKs_step. rewrite !add_into_eq. unfold ekp_ge in H.
  destruct (Nat.leb_spec (length (ekp_X ek)) (length (ekp_X ek_i))); [|reflexivity].
  destruct (Nat.leb_spec (length (ekp_Y ek)) (length (ekp_Y ek_i))); [|reflexivity].
  destruct (Nat.leb_spec (length (ekp_Z ek)) (length (ekp_Z ek_i))); [|reflexivity].
  tauto.
Qed.
Lemma ekp_ge_dec ek0 ek : {ekp_ge ek0 ek} + {~ ekp_ge ek0 ek}.
Proof.
  unfold ekp_ge. destruct (le_dec (length (ekp_X ek0)) (length (ekp_X ek)));
  destruct (le_dec (length (ekp_Y ek0)) (length (ekp_Y ek)));
  destruct (le_dec (length (ekp_Z ek0)) (length (ekp_Z ek))); (left; tauto) || (right; tauto).
Qed.

Lemma combineEKs_fold_ok (rest : list (ek_partial E)) ek0 : Forall (ekp_ge ek0) rest ->
  foldM combineEKs_step rest ek0 = Ok (FEncryptionKeyPartial (ekp_X_0 ek0)
     (fold_left (zip_with gadd) (map ekp_X rest) (ekp_X ek0))
     (fold_left (zip_with gadd) (map ekp_Y rest) (ekp_Y ek0))
     (fold_left (zip_with gadd) (map ekp_Z rest) (ekp_Z ek0))
     (fold_left gadd (map ekp_P_2 rest) (ekp_P_2 ek0))).
Proof.
  revert ek0; induction rest as [|ek rest IH]; intros ek0 H; cbn [foldM map fold_left].
  - destruct ek0; reflexivity.
  - inversion H as [|? ? H1 H2]; subst. rewrite combineEKs_step_ok by exact H1. cbn [bind].
    destruct H1 as (HX & HY & HZ).
    rewrite IH; [reflexivity|].
    eapply Forall_impl; [|exact H2]. intros k (A & B & C). unfold ekp_ge; cbn. rewrite !zip_with_length. repeat split; lia.
Qed.
Lemma combineEKs_fold_panic (rest : list (ek_partial E)) ek0 : ~ Forall (ekp_ge ek0) rest ->
  foldM combineEKs_step rest ek0 = Panic.
Proof.
  revert ek0; induction rest as [|ek rest IH]; intros ek0 H; cbn [foldM].
  - exfalso. apply H. constructor.
  - destruct (ekp_ge_dec ek0 ek) as [H1|H1].
    + rewrite combineEKs_step_ok by exact H1. cbn [bind]. destruct H1 as (HX & HY & HZ). apply IH. intros H2. apply H. constructor; [repeat split; assumption|].
      eapply Forall_impl; [|exact H2]. intros k (A & B & C). unfold ekp_ge in *; cbn in *. rewrite !zip_with_length in *. repeat split; lia.
    + rewrite combineEKs_step_panic by exact H1. reflexivity.
Qed.

Theorem combineEKs_ok gamma (ek0 : ek_partial E) rest : Forall (ekp_ge ek0) rest ->
  combineEKs gamma (ek0 :: rest) = Ok (FEncryptionKeyPartial (ekp_X_0 ek0)
    (col_sum (length (ekp_X ek0)) (map ekp_X (ek0 :: rest)))
    (col_sum (length (ekp_Y ek0)) (map ekp_Y (ek0 :: rest)))
    (col_sum (length (ekp_Z ek0)) (map ekp_Z (ek0 :: rest)))
    (gamma [+] gsum (map ekp_P_2 (ek0 :: rest)))).
Proof.
  intros H. unfold combineEKs. rewrite combineEKs_fold_ok by exact H. cbn [bind ekp_X_0 ekp_X ekp_Y ekp_Z ekp_P_2].
  rewrite !fold_zip_gadd, fold_left_gadd.
  - reflexivity.
  - apply Forall_map. eapply Forall_impl; [|exact H]. intros k (A & B & C); exact C.
  - apply Forall_map. eapply Forall_impl; [|exact H]. intros k (A & B & C); exact B.
  - apply Forall_map. eapply Forall_impl; [|exact H]. intros k (A & B & C); exact A.
Qed.
Theorem combineEKs_panic gamma (ek0 : ek_partial E) rest : ~ Forall (ekp_ge ek0) rest ->
  combineEKs gamma (ek0 :: rest) = Panic.
Proof. intros H. unfold combineEKs. rewrite combineEKs_fold_panic by exact H. reflexivity. Qed.

Theorem combineP1share_ok (p0 : p1share E) rest :
  combineP1share (p0 :: rest) = Ok (P1share (gsum (map p1_P_1 (p0 :: rest)))).
Proof.
  unfold combineP1share. do 2 f_equal.
  assert (H : forall l (a : G1 E), fold_left (fun acc p => acc [+] p1_P_1 p) l a = a [+] gsum (map p1_P_1 l)).
  { induction l as [|p l IH]; intros a; cbn [fold_left map]; [symmetry; apply gadd_0_r|].
    rewrite IH, gsum_cons. symmetry; apply gadd_assoc. }
  rewrite H. reflexivity.
Qed.

Theorem genP1share_ok (ek : ek_partial E) (sk : secret_key_st E) t0 t :
  st_t sk = t0 :: t -> (length (ekp_X ek) <= length t)%nat ->
  genP1share ek sk = Ok (P1share ((t0 [*] ekp_X_0 ek) [+] dot t (ekp_X ek))).
Proof.
  intros Ht Hle. unfold genP1share. rewrite Ht. cbn [idx nth_error bind].
  assert (Hm : mapM (fun j => x <- idx (ekp_X ek) j ;; tj <- idx (t0 :: t) (j + 1) ;; Ok (mul_bigint x (into_bigint tj)))
                 (seq 0 (length (ekp_X ek))) = Ok (scale t (ekp_X ek))).
  { apply mapM_seq_intro; [rewrite scale_length; lia|]. intros i y Hy. cbn [Nat.add].
    assert (Hi : (i < length (ekp_X ek))%nat).
    { rewrite <- (Nat.min_r (length t) (length (ekp_X ek))) by lia. rewrite <- scale_length. apply nth_error_Some; congruence. }
    destruct (idx_lt (ekp_X ek) i Hi) as (x & Hx & Hx'). rewrite Hx. cbn [bind].
    destruct (idx_lt t i) as (a & Ha & Ha'); [lia|]. replace (i + 1)%nat with (S i) by lia.
    rewrite (idx_nth_error (t0 :: t) (S i) a) by exact Ha'. cbn [bind].
    rewrite (scale_nth_error _ _ _ _ _ Ha' Hx') in Hy. injection Hy as <-. reflexivity. }
  rewrite Hm. cbn [bind]. rewrite fold_left_gadd, gsum_scale_dot. reflexivity.
Qed.
Theorem genP1share_panic (ek : ek_partial E) (sk : secret_key_st E) :
  (length (st_t sk) <= length (ekp_X ek))%nat -> genP1share ek sk = Panic.
Proof.
  intros Hle. unfold genP1share. destruct (st_t sk) as [|t0 t]; [reflexivity|]. cbn [idx nth_error bind].
  cbn [length] in Hle.
  rewrite (mapM_seq_panic _ 0 (length (ekp_X ek)) (length t)); [reflexivity | lia | |].
  - intros i Hi. cbn [Nat.add]. destruct (idx_lt (ekp_X ek) i) as (x & Hx & _); [lia|]. rewrite Hx. cbn [bind].
    destruct (idx_lt (t0 :: t) (i + 1)) as (a & Ha & _); [cbn; lia|]. rewrite Ha. cbn; eauto.
  - cbn [Nat.add]. destruct (idx_lt (ekp_X ek) (length t)) as (x & Hx & _); [lia|]. rewrite Hx. cbn [bind].
    rewrite idx_ge by (cbn; lia). reflexivity.
Qed.

(* ---------- distributed key generation ---------- *)
(* secrets of a party *)
Definition party_s (p : secret_key_st E * ek_partial E) : list (Fr E) := st_s (fst p).
Definition party_t0 (p : secret_key_st E * ek_partial E) : Fr E := nth 0 (st_t (fst p)) fzero.
Definition party_t (p : secret_key_st E * ek_partial E) : list (Fr E) := tl (st_t (fst p)).

Theorem dkg_formula b gens g_i delta gamma parties n :
  chunks_count (K_of E) b = Ok (Z.of_nat n) ->
  parties <> [] -> Forall (@from_partial E b gens g_i delta gamma) parties ->
  dkg gamma parties = Ok (ek_formula gens g_i delta gamma
      (fcol_sum n (map party_s parties)) (fsum (map party_t0 parties)) (fcol_sum n (map party_t parties))).
Proof.
  intros Hn Hne Hall.
  assert (Hp : Forall (fun p => length (party_s p) = n /\ length (party_t p) = n /\ (n <= length g_i)%nat /\
      st_t (fst p) = party_t0 p :: party_t p /\
      snd p = ekp_formula gens g_i delta gamma (party_s p) (party_t0 p) (party_t p)) parties).
  { eapply Forall_impl; [|exact Hall]. intros p H. apply from_partial_inv in H.
    destruct H as (n' & s & t0 & t & Hn' & Hg & _ & Hs & Ht & ->).
    rewrite Hn in Hn'. injection Hn' as Hn'. apply Nat2Z.inj in Hn'. subst n'.
    cbn. repeat split; assumption. }
  clear Hall.
  assert (Hg : (n <= length g_i)%nat).
  { destruct parties as [|p ps]; [congruence|]. inversion Hp as [|? ? H _]; subst. tauto. }
  set (S := fcol_sum n (map party_s parties)).
  set (T0 := fsum (map party_t0 parties)).
  set (T := fcol_sum n (map party_t parties)).
  (* the combined key *)
  assert (Hcomb : combineEKs gamma (map snd parties) = Ok (FEncryptionKeyPartial delta
      (map (fun x => x [*] delta) S) (scale T g_i) (map (fun x => x [*] eg_H gens) (T0 :: T))
      (fadd fone (fsum S) [*] gamma))).
  { assert (Hmap : map snd parties = map (fun p => ekp_formula gens g_i delta gamma (party_s p) (party_t0 p) (party_t p)) parties).
    { clear -Hp. induction Hp as [|p ps H _ IH]; [reflexivity|]. cbn [map]. rewrite IH. f_equal. tauto. }
    rewrite Hmap. destruct parties as [|p0 ps]; [congruence|]. cbn [map].
    inversion Hp as [|? ? (Hs0 & Ht0 & _ & _ & _) Hps]; subst p0 ps.
    rewrite combineEKs_ok.
    2:{ apply Forall_map. eapply Forall_impl; [|exact Hps]. intros p (Hs & Ht & _).
        unfold ekp_ge. cbn. rewrite !map_length, !scale_length, Hs, Ht. lia. }
    cbn [ekp_X_0 ekp_X ekp_Y ekp_Z ekp_P_2 ekp_formula].
    f_equal. f_equal.
    - (* X *)
      rewrite map_length, Hs0. unfold S. rewrite <- col_sum_smul. f_equal. cbn [map]. rewrite !map_map. reflexivity.
    - (* Y *)
      rewrite scale_length, Ht0. rewrite Nat.min_l by exact Hg. unfold T. rewrite <- col_sum_scale by exact Hg. f_equal. cbn [map]. rewrite !map_map. reflexivity.
    - (* Z *)
      rewrite map_length. cbn [length]. rewrite Ht0.
      match goal with |- col_sum _ ?m = _ =>
        replace m with (map ekp_Z (map (fun p => ekp_formula gens g_i delta gamma (party_s p) (party_t0 p) (party_t p)) (x :: l))) by reflexivity end.
      rewrite map_map. cbn [ekp_Z ekp_formula].
      rewrite <- (map_map (fun p => party_t0 p :: party_t p) (map (fun z => z [*] eg_H gens))).
      rewrite col_sum_smul.
      change (T0 [*] eg_H gens :: map (fun x0 : Fr E => x0 [*] eg_H gens) T) with (map (fun x0 : Fr E => x0 [*] eg_H gens) (T0 :: T)).
      f_equal. unfold fcol_sum at 1. cbn [seq map]. f_equal.
      { unfold T0. rewrite map_map. reflexivity. }
      unfold T, fcol_sum. rewrite <- (seq_shift n 0). etransitivity; [apply map_map|]. apply map_ext. intros i.
      rewrite !map_map. reflexivity.
    - (* P_2 *)
      rewrite smul_fadd, smul_1_l. f_equal.
      match goal with |- gsum ?m = _ =>
        replace m with (map (fun p => fsum (party_s p) [*] gamma) (x :: l)) by (cbn [map]; rewrite map_map; reflexivity) end.
      rewrite <- (map_map (fun p => fsum (party_s p)) (fun a => a [*] gamma)), gsum_map_smul. f_equal.
      unfold S, fcol_sum.
      transitivity (fsum (map (fun p => fsum (map (fun i => nth i (party_s p) fzero) (seq 0 n))) (x :: l))).
      + f_equal. apply map_ext_in. intros p Hin. rewrite Forall_forall in Hp. destruct (Hp p Hin) as (Hs & _).
        rewrite <- Hs. rewrite <- list_as_map. reflexivity.
      + rewrite fsum_swap. f_equal. apply map_ext. intros i. rewrite map_map. reflexivity. }
  unfold dkg. rewrite Hcomb. cbn [bind].
  set (ekc := FEncryptionKeyPartial delta (map (fun x => x [*] delta) S) (scale T g_i) (map (fun x => x [*] eg_H gens) (T0 :: T))
      (fadd fone (fsum S) [*] gamma)).
  assert (Hshares : mapM (fun p => genP1share ekc (fst p)) parties =
     Ok (map (fun p => P1share (fadd (party_t0 p) (fdot (party_t p) S) [*] delta)) parties)).
  { rewrite <- mapM_map_Ok. apply mapM_ext. intros p Hin. rewrite Forall_forall in Hp.
    destruct (Hp p Hin) as (Hs & Ht & _ & Hst & _).
    rewrite (genP1share_ok ekc (fst p) _ _ Hst) by (cbn; rewrite map_length; unfold S; rewrite fcol_sum_length; lia).
    cbn [ekp_X_0 ekp_X ekc]. rewrite dot_smul_map, smul_fadd. reflexivity. }
  rewrite Hshares. cbn [bind].
  destruct parties as [|p0 ps]; [congruence|]. cbn [map]. rewrite combineP1share_ok. cbn [bind].
  unfold keygenFinal. cbn [ekc ekp_X_0 ekp_X ekp_Y ekp_Z ekp_P_2 p1_P_1]. unfold ek_formula. f_equal. f_equal.
  change (P1share (fadd (party_t0 p0) (fdot (party_t p0) S) [*] delta) :: map (fun p => P1share (fadd (party_t0 p) (fdot (party_t p) S) [*] delta)) ps)
    with (map (fun p => P1share (fadd (party_t0 p) (fdot (party_t p) S) [*] delta)) (p0 :: ps)).
  rewrite map_map. cbn [p1_P_1].
  rewrite <- (map_map (fun p => fadd (party_t0 p) (fdot (party_t p) S)) (fun a => a [*] delta)), gsum_map_smul. f_equal.
  rewrite fsum_map_add. f_equal.
  rewrite fdot_comm, (fdot_as_fsum T S n) by (unfold T; apply fcol_sum_length).
  transitivity (fsum (map (fun p => fsum (map (fun i => fmul (nth i (party_t p) fzero) (nth i S fzero)) (seq 0 n))) (p0 :: ps))).
  - f_equal. apply map_ext_in. intros p Hin. rewrite Forall_forall in Hp. destruct (Hp p Hin) as (_ & Ht & _).
    apply fdot_as_fsum; exact Ht.
  - rewrite fsum_swap. f_equal. apply map_ext_in. intros i Hi. apply in_seq in Hi.
    unfold T. rewrite fcol_sum_nth by lia. rewrite map_map.
    rewrite (map_ext _ (fun p => fmul (nth i S fzero) (nth i (party_t p) fzero))) by (intros; ring).
    rewrite fsum_map_mul. ring.
Qed.
End KeygenFacts.
