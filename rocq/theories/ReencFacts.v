(* ReencFacts.v -- homomorphic addition and re-encryption (C25-C32, C42) *)
From Coq Require Import Permutation.
From Verif Require Import Base BaseFacts Algebra Utils UtilsFacts CommitmentFacts Setup Keygen KeygenFacts Encryption
  EncryptFacts DecryptFacts RoundTrip VerifyFacts Spec KeySpec VecFacts Protocol.

(* ---------- chunk vectors ---------- *)
Lemma chunk_add_length a b : length (chunk_add a b) = Nat.min (length a) (length b).
Proof. revert b; induction a as [|x a IH]; intros [|y b]; cbn; [reflexivity..|]. now rewrite IH. Qed.
Lemma chunk_add_nth a b i : length a = length b -> nth i (chunk_add a b) 0 = nth i a 0 + nth i b 0.
Proof.
  revert b i; induction a as [|x a IH]; intros [|y b] i H; cbn [length] in H; try discriminate; [destruct i; reflexivity|].
  destruct i; cbn [chunk_add nth]; [reflexivity|]. apply IH. lia.
Qed.
Lemma chunk_add_assoc a b c : chunk_add a (chunk_add b c) = chunk_add (chunk_add a b) c.
Proof. revert b c; induction a as [|x a IH]; intros [|y b] [|z c]; cbn; try reflexivity. rewrite IH. f_equal. lia. Qed.
Lemma chunk_add_comm a b : chunk_add a b = chunk_add b a.
Proof. revert b; induction a as [|x a IH]; intros [|y b]; cbn; try reflexivity. rewrite IH. f_equal. lia. Qed.
Lemma chunk_add_0_r a n : length a = n -> chunk_add a (repeat 0 n) = a.
Proof. intros <-. induction a as [|x a IH]; cbn; [reflexivity|]. rewrite IH. f_equal. lia. Qed.
Lemma chunk_sum_length n ms : Forall (fun m => length m = n) ms -> length (chunk_sum n ms) = n.
Proof.
  intros H. unfold chunk_sum. induction H as [|m ms Hm _ IH]; cbn [fold_right]; [apply repeat_length|].
  rewrite chunk_add_length. lia.
Qed.
Lemma chunk_sum_fold n ms m0 : length m0 = n -> Forall (fun m => length m = n) ms ->
  fold_left chunk_add ms m0 = chunk_sum n (m0 :: ms).
Proof.
  revert m0; induction ms as [|m ms IH]; intros m0 H0 H; cbn [fold_left].
  - unfold chunk_sum; cbn. symmetry. apply chunk_add_0_r; exact H0.
  - inversion H as [|? ? Hm Hms]; subst. rewrite IH by (rewrite ?chunk_add_length; try assumption; lia).
    unfold chunk_sum; cbn [fold_right]. rewrite !chunk_add_assoc. reflexivity.
Qed.
(* the sums are entry by entry *)
Lemma chunk_sum_nth n ms i : Forall (fun m => length m = n) ms ->
  nth i (chunk_sum n ms) 0 = fold_right (fun m acc => nth i m 0 + acc) 0 ms.
Proof.
  intros H. induction H as [|m ms Hm Hms IH]; cbn [fold_right].
  - unfold chunk_sum; cbn. destruct (lt_dec i n); [apply nth_repeat|]. apply nth_overflow. rewrite repeat_length; lia.
  - change (chunk_sum n (m :: ms)) with (chunk_add m (chunk_sum n ms)).
    rewrite chunk_add_nth by (rewrite chunk_sum_length by exact Hms; exact Hm). rewrite IH. reflexivity.
Qed.
Lemma chunk_sum_nonneg n ms : Forall (fun m => length m = n /\ Forall (fun z => 0 <= z) m) ms -> Forall (fun z => 0 <= z) (chunk_sum n ms).
Proof.
  intros H. induction H as [|m ms [Hl Hm] Hms IH].
  - unfold chunk_sum; cbn. clear. induction n; constructor; [lia|assumption].
  - change (chunk_sum n (m :: ms)) with (chunk_add m (chunk_sum n ms)).
    revert IH. generalize (chunk_sum n ms). clear -Hm. intros l Hl. revert m Hm.
    induction Hl as [|z l Hz _ IH]; intros [|x m] Hm; cbn [chunk_add]; try constructor; inversion Hm; subst; [lia|apply IH; assumption].
Qed.

Section ReencFacts.
Context {E : pairing}.
Add Ring Kr : (@scalar_ring_theory (K_of E)).

(* ---------- addition ---------- *)
Lemma add_cts_eq (a b : list (G1 E)) : add_cts a b = if (length a <=? length b)%nat then Ok (zip_with gadd a b) else Panic.
Proof. apply mapM_zip. Qed.

Lemma zip_with_app {A B C} (f : A -> B -> C) l1 l2 r1 r2 : length l1 = length l2 ->
  zip_with f (l1 ++ r1) (l2 ++ r2) = zip_with f l1 l2 ++ zip_with f r1 r2.
Proof.
  revert l2; induction l1 as [|a l1 IH]; intros [|b l2] H; cbn [length] in H; try discriminate; [reflexivity|].
  cbn [app]. unfold zip_with in *. cbn [combine map]. rewrite IH by lia. reflexivity.
Qed.
Lemma zip_with_cons {A B C} (f : A -> B -> C) a b l1 l2 : zip_with f (a :: l1) (b :: l2) = f a b :: zip_with f l1 l2.
Proof. reflexivity. Qed.

Lemma body_formula_add X g_i m1 m2 (r1 r2 : Fr E) : length m1 = length m2 ->
  zip_with gadd (body_formula X g_i m1 r1) (body_formula X g_i m2 r2) = body_formula X g_i (chunk_add m1 m2) (fadd r1 r2).
Proof.
  intros Hl. rewrite (list_as_map gzero (zip_with gadd _ _)). rewrite zip_with_length, !body_formula_length, <- Hl, Nat.min_id.
  unfold body_formula at 3. rewrite chunk_add_length, <- Hl, Nat.min_id. apply map_ext_in. intros i Hi. apply in_seq in Hi.
  rewrite zip_gadd_nth by (rewrite !body_formula_length; exact Hl). rewrite !body_formula_nth by lia.
  rewrite chunk_add_nth by exact Hl. rewrite of_Z_add. glin.
Qed.
Lemma dot_map_chunk_add m1 m2 (xs : list (G1 E)) : length m1 = length m2 ->
  dot (map of_Z (chunk_add m1 m2)) xs = dot (map of_Z m1) xs [+] dot (map of_Z m2) xs.
Proof.
  revert m2 xs; induction m1 as [|a m1 IH]; intros [|b m2] xs H; cbn [length] in H; try discriminate; [cbn; symmetry; apply gadd_0_l|].
  cbn [chunk_add map]. destruct xs as [|x xs]; cbn [dot]; [symmetry; apply gadd_0_l|]. rewrite IH by lia. rewrite of_Z_add. glin.
Qed.
Lemma ct_formula_add ek g_i m1 m2 (r1 r2 : Fr E) : length m1 = length m2 ->
  zip_with gadd (ct_vec (ct_formula ek g_i m1 r1)) (ct_vec (ct_formula ek g_i m2 r2)) =
  ct_vec (ct_formula ek g_i (chunk_add m1 m2) (fadd r1 r2)).
Proof.
  intros Hl. unfold ct_vec, ct_formula. cbn [ct_X_r ct_enc_chunks ct_commitment]. rewrite zip_with_cons, zip_with_app by (rewrite !body_formula_length; exact Hl).
  f_equal; [glin|]. f_equal; [apply body_formula_add; exact Hl|].
  unfold zip_with; cbn [combine map]. f_equal. unfold psi_formula. rewrite dot_map_chunk_add by exact Hl. glin.
Qed.

(* encryptions are formulas; formulas are encryptions *)
Lemma encrypts_inv ek g_i m (ct : list (G1 E)) r : encrypts ek g_i m ct r ->
  exists n, wf_key n ek /\ length m = n /\ (n <= length g_i)%nat /\ ct = ct_vec (ct_formula ek g_i m r).
Proof.
  intros (R & st & st' & H). rewrite encrypt_chunks_total in H. cbv zeta in H. unfold wf_key.
  destruct (Nat.eqb_spec (length (ek_Y ek)) (length (ek_X ek))) as [HY|]; cbn [negb] in H; [|discriminate].
  destruct (Nat.eqb_spec (length (ek_Z ek)) (length (ek_X ek) + 1)) as [HZ|]; cbn [negb] in H; [|discriminate].
  destruct (Nat.eqb_spec (length m) (length (ek_X ek) mod 256)) as [Hm|]; cbn [negb] in H; [|discriminate].
  destruct (Nat.ltb_spec (length g_i) (length m)) as [|Hg]; [discriminate|].
  destruct (Nat.ltb_spec (length (ek_X ek)) 256) as [H256|]; [|discriminate].
  rewrite Nat.mod_small in Hm by exact H256. injection H as <- <- <-.
  exists (length (ek_X ek)). repeat split; try assumption; try reflexivity; lia.
Qed.
Lemma encrypts_intro n ek g_i m (r : Fr E) : wf_key n ek -> length m = n -> (n <= length g_i)%nat ->
  encrypt_decomposed_message (replay_rng E) m ek g_i [r] = Ok (ct_vec (ct_formula ek g_i m r), r, []).
Proof.
  intros (H256 & HX & HY & HZ) Hm Hg. rewrite encrypt_chunks_ok by lia. reflexivity.
Qed.

Theorem add_is_encryption_of_sum ek g_i m1 m2 ct1 ct2 (r1 r2 : Fr E) : encrypts ek g_i m1 ct1 r1 -> encrypts ek g_i m2 ct2 r2 ->
  exists ct, add_cts ct1 ct2 = Ok ct /\
    encrypt_decomposed_message (replay_rng E) (chunk_add m1 m2) ek g_i [fadd r1 r2] = Ok (ct, fadd r1 r2, []).
Proof.
  intros H1 H2. apply encrypts_inv in H1, H2. destruct H1 as (n & Hwf & Hm1 & Hg & ->). destruct H2 as (n2 & Hwf2 & Hm2 & _ & ->).
  assert (Hnn : n2 = n) by (destruct Hwf as (_ & A & _); destruct Hwf2 as (_ & B & _); lia). rewrite Hnn in *; clear Hnn n2.
  rewrite add_cts_eq. assert (Hlen : length (ct_vec (ct_formula ek g_i m1 r1)) = length (ct_vec (ct_formula ek g_i m2 r2))).
  { unfold ct_vec, ct_formula. cbn [ct_X_r ct_enc_chunks ct_commitment length]. rewrite !app_length, !body_formula_length. cbn [length]. lia. }
  rewrite Hlen, Nat.leb_refl. rewrite ct_formula_add by lia. eexists. split; [reflexivity|].
  apply (encrypts_intro n); [exact Hwf | rewrite chunk_add_length; lia | exact Hg].
Qed.

Theorem sum_is_encryption_of_sum ek g_i n (cts : list (list (G1 E))) msgs rs : cts <> [] -> length (ek_X ek) = n ->
  Forall2 (fun mr ct => encrypts ek g_i (fst mr) ct (snd mr)) (combine msgs rs) cts -> length msgs = length rs ->
  exists ct, sum_cts cts = Ok ct /\
    encrypt_decomposed_message (replay_rng E) (chunk_sum n msgs) ek g_i [fsum rs] = Ok (ct, fsum rs, []).
Proof.
  intros Hne Hn Hall Hl.
  destruct msgs as [|m0 msgs]; destruct rs as [|r0 rs]; cbn [length] in Hl; try lia.
  { cbn in Hall. inversion Hall; subst. contradiction. }
  cbn [combine] in Hall. inversion Hall as [|x ct0 l cts' H0 Hrest]; subst x l cts. cbn [fst snd] in H0.
  apply encrypts_inv in H0. destruct H0 as (n0 & Hwf & Hm0 & Hg & ->).
  assert (Hnn : n0 = n) by (destruct Hwf as (_ & A & _); lia). rewrite Hnn in *; clear Hnn n0.
  assert (Hfold : forall cts' msgs rs m0 r0, length msgs = length rs -> length m0 = n ->
     Forall2 (fun mr ct => encrypts ek g_i (fst mr) ct (snd mr)) (combine msgs rs) cts' ->
     foldM add_cts cts' (ct_vec (ct_formula ek g_i m0 r0)) =
       Ok (ct_vec (ct_formula ek g_i (fold_left chunk_add msgs m0) (fadd r0 (fsum rs)))) /\ Forall (fun m => length m = n) msgs).
  { clear Hne Hall Hl Hrest Hm0. clear msgs rs m0 r0 cts'. intros cts'. induction cts' as [|ct cts' IH]; intros msgs rs m0 r0 Hl Hm0 Hall.
    - assert (Hc : combine msgs rs = []) by (inversion Hall; reflexivity).
      destruct msgs as [|m msgs]; destruct rs as [|r rs]; try discriminate. cbn. split; [|constructor]. do 3 f_equal. ring.
    - destruct msgs as [|m msgs]; destruct rs as [|r rs]; cbn [length] in Hl; try lia; [inversion Hall|].
      cbn [combine] in Hall. inversion Hall as [|x y l l' H0 Hrest]; subst x y l l'. cbn [fst snd] in H0.
      apply encrypts_inv in H0. destruct H0 as (n1 & Hwf1 & Hm1 & _ & ->).
      assert (Hnn : n1 = n) by (destruct Hwf as (_ & A & _); destruct Hwf1 as (_ & B & _); lia). rewrite Hnn in *; clear Hnn n1.
      cbn [foldM]. rewrite add_cts_eq.
      assert (Hlen : length (ct_vec (ct_formula ek g_i m0 r0)) = length (ct_vec (ct_formula ek g_i m r))).
      { unfold ct_vec, ct_formula. cbn [ct_X_r ct_enc_chunks ct_commitment length]. rewrite !app_length, !body_formula_length. cbn [length]. lia. }
      rewrite Hlen, Nat.leb_refl. rewrite ct_formula_add by lia. cbn [bind].
      destruct (IH msgs rs (chunk_add m0 m) (fadd r0 r)) as [Heq Hf]; [lia | rewrite chunk_add_length; lia | exact Hrest |].
      rewrite Heq. cbn [fold_left]. rewrite fsum_cons. split; [do 3 f_equal; ring|]. constructor; assumption. }
  destruct (Hfold cts' msgs rs m0 r0) as [Heq Hf]; [lia | exact Hm0 | exact Hrest |].
  cbn [sum_cts]. rewrite Heq. eexists. split; [reflexivity|].
  rewrite (chunk_sum_fold n) by assumption. rewrite fsum_cons.
  apply (encrypts_intro n); [exact Hwf | apply chunk_sum_length; constructor; assumption | exact Hg].
Qed.

(* accepted ciphertexts add up to an accepted one, honest or not *)
Definition ct_add (a b : ciphertext E) : ciphertext E :=
  Ciphertext (ct_X_r a [+] ct_X_r b) (zip_with gadd (ct_enc_chunks a) (ct_enc_chunks b)) (ct_commitment a [+] ct_commitment b).
Lemma ct_vec_add a b : length (ct_enc_chunks a) = length (ct_enc_chunks b) ->
  zip_with gadd (ct_vec a) (ct_vec b) = ct_vec (ct_add a b).
Proof. intros H. unfold ct_vec. rewrite zip_with_cons, zip_with_app by exact H. reflexivity. Qed.
Lemma ct_vec_length (a : ciphertext E) : length (ct_vec a) = (length (ct_enc_chunks a) + 2)%nat.
Proof. unfold ct_vec. cbn [length]. rewrite app_length. cbn [length]. lia. Qed.
Lemma pdot_zip (xs ys : list (G1 E)) qs : length xs = length ys -> pdot (zip_with gadd xs ys) qs = pdot xs qs [+] pdot ys qs.
Proof.
  revert ys qs; induction xs as [|x xs IH]; intros [|y ys] qs H; cbn [length] in H; try discriminate; [cbn; symmetry; apply gadd_0_l|].
  rewrite zip_with_cons. destruct qs as [|q qs]; cbn [pdot]; [symmetry; apply gadd_0_l|]. rewrite IH, pair_add_l by lia. glin.
Qed.
Lemma defect_add ek gens a b : length (ct_enc_chunks a) = length (ct_enc_chunks b) ->
  defect ek gens (ct_add a b) = defect ek gens a [+] defect ek gens b.
Proof.
  intros H. unfold defect, ct_add. cbn [ct_X_r ct_enc_chunks ct_commitment]. rewrite <- zip_with_cons, pdot_zip by (cbn [length]; lia).
  rewrite pair_add_l. glin.
Qed.
Theorem add_accepted (v1 v2 : list (G1 E)) ct1 ct2 ek gens :
  ct_of_vec v1 = Ok ct1 -> ct_of_vec v2 = Ok ct2 ->
  verify_commitment ct1 (prepare_ek ek) (prepare_gens gens) = Ok tt ->
  verify_commitment ct2 (prepare_ek ek) (prepare_gens gens) = Ok tt ->
  exists v ct, add_cts v1 v2 = Ok v /\ ct_of_vec v = Ok ct /\ verify_commitment ct (prepare_ek ek) (prepare_gens gens) = Ok tt.
Proof.
  intros P1 P2 V1 V2.
  assert (Hparse : forall v (ct : ciphertext E), ct_of_vec v = Ok ct -> v = ct_vec ct).
  { intros v ct H. destruct v as [|x rest]; cbn [ct_of_vec] in H; [discriminate|].
    destruct (rev rest) as [|psi cs] eqn:Er; [discriminate|]. injection H as <-. unfold ct_vec; cbn [ct_X_r ct_enc_chunks ct_commitment].
    rewrite <- (rev_involutive rest), Er. reflexivity. }
  apply Hparse in P1, P2. subst v1 v2.
  pose proof (accept_wf _ _ _ V1) as W1. pose proof (accept_wf _ _ _ V2) as W2.
  assert (Hl : length (ct_enc_chunks ct1) = length (ct_enc_chunks ct2)) by (destruct W1 as (_ & A & _); destruct W2 as (_ & B & _); lia).
  exists (ct_vec (ct_add ct1 ct2)), (ct_add ct1 ct2). split; [|split].
  - rewrite add_cts_eq, !ct_vec_length, Hl, Nat.leb_refl, ct_vec_add by exact Hl. reflexivity.
  - apply ct_of_vec_ct_vec.
  - apply (verify_accept _ _ _ _ W1) in V1. apply (verify_accept _ _ _ _ W2) in V2. apply (verify_accept _ _ _ _ W1).
    destruct V1 as [_ V1]. destruct V2 as [_ V2]. split.
    + unfold ct_add; cbn [ct_enc_chunks]. rewrite zip_with_length. lia.
    + rewrite defect_add by exact Hl. rewrite V1, V2. apply gadd_0_l.
Qed.

(* ---------- openings ---------- *)
Lemma opens_add (s : list (Fr E)) g_i c_0 c ms c_0' c' ms' : opens_to s g_i c_0 c ms -> opens_to s g_i c_0' c' ms' ->
  opens_to s g_i (c_0 [+] c_0') (zip_with gadd c c') (chunk_add ms ms').
Proof.
  intros (Hc & Hm & H) (Hc' & Hm' & H'). unfold opens_to. rewrite zip_with_length, chunk_add_length. split; [lia|]. split; [lia|].
  intros i Hi. destruct (H i Hi) as [Hp He]. destruct (H' i Hi) as [Hp' He'].
  rewrite chunk_add_nth, zip_gadd_nth by lia. split; [lia|]. rewrite He, He', of_Z_add. glin.
Qed.
Lemma opens_unique (s : list (Fr E)) g_i c_0 c ms ms' : opens_to s g_i c_0 c ms -> opens_to s g_i c_0 c ms' ->
  (length s <= length g_i)%nat -> Forall (fun x => x <> gzero) (firstn (length s) g_i) ->
  Forall (fun z => z < modulus (K_of E)) ms -> Forall (fun z => z < modulus (K_of E)) ms' -> ms = ms'.
Proof.
  intros (_ & Hm & H) (_ & Hm' & H') Hg Hnz Hr Hr'.
  apply nth_error_ext_eq; [lia|]. intros i a a' Ha Ha'.
  assert (Hi : (i < length s)%nat) by (rewrite <- Hm; apply nth_error_Some; congruence).
  destruct (H i Hi) as [Hp He]. destruct (H' i Hi) as [Hp' He'].
  rewrite (nth_error_nth _ _ 0 Ha) in *. rewrite (nth_error_nth _ _ 0 Ha') in *.
  rewrite Forall_forall in Hr, Hr', Hnz. specialize (Hr a (nth_error_In _ _ Ha)). specialize (Hr' a' (nth_error_In _ _ Ha')).
  assert (Hgi : nth i g_i gzero <> gzero).
  { apply Hnz. apply (nth_error_In _ i). rewrite <- (firstn_skipn (length s) g_i) at 2.
    rewrite app_nth1 by (rewrite firstn_length; lia). apply nth_error_nth'. rewrite firstn_length; lia. }
  rewrite He in He'. apply gadd_cancel_l in He'. apply smul_inj_scalar in He'; [|exact Hgi].
  apply (f_equal sval) in He'. rewrite !of_Z_small in He' by lia. exact He'.
Qed.

(* decrypting a sum that is out of range *)
Theorem decrypt_out_of_range pf gens rho (s v : list (Fr E)) g_i b c_0 c ms :
  length v = length s -> (length s < 256)%nat -> (length s <= length g_i)%nat ->
  nondegenerate (dk_formula gens rho s v) g_i (length s) ->
  1 <= b <= 31 -> max_chunk b < modulus (K_of E) ->
  opens_to s g_i c_0 c ms -> Forall (fun z => z < modulus (K_of E)) ms -> ~ Forall (fun z => z <= max_chunk b) ms ->
  decrypt_to_chunks pf c_0 c rho (prepare_dk (dk_formula gens rho s v)) g_i b = Err CouldNotFindDiscreteLog.
Proof.
  intros Hv H256 Hg Hnd Hb HM Hop Hr Hout.
  destruct (decrypt_sound_shape pf gens rho s v g_i b c_0 c Hv H256 Hg (proj1 Hop) ltac:(lia)) as [(ms' & nu & H)|H]; [|exact H].
  exfalso. apply decrypt_exact in H; try assumption. destruct H as (Hop' & Hmax & _). apply Hout.
  assert (ms = ms').
  { apply (opens_unique s g_i c_0 c); try assumption; [apply Hnd|]. eapply Forall_impl; [|exact Hmax]. cbn; intros; lia. }
  subst ms'. exact Hmax.
Qed.

(* ---------- decryption after re-encryption ---------- *)
Definition reenc_step (M : Z) (gi_mi g_i : list (G1 E)) (i : nat) : outcome Z :=
  x <- idx gi_mi i ;; if gis_zero x then Ok 0 else g <- idx g_i i ;; solve_discrete_log M g x.

Lemma reenc_unfold pf (c_0 : G1 E) c sk g_i b :
  decrypt_to_chunks_after_re_encryption pf c_0 c sk g_i b =
  if (length g_i <? length c)%nat then Err (VectorShorterThanExpected (length c) (length g_i)) else
  one_shl <- one_shl_u32 pf b ;;
  mapM (reenc_step (as_u16 (one_shl - 1)) (map (fun ci => ci [+] mul_bigint c_0 (into_bigint (fneg sk))) c) g_i) (seq 0 (length c)).
Proof. reflexivity. Qed.

Theorem reenc_shape pf (c_0 : G1 E) c sk g_i b : 0 <= b <= 31 ->
  ((length g_i < length c)%nat ->
     decrypt_to_chunks_after_re_encryption pf c_0 c sk g_i b = Err (VectorShorterThanExpected (length c) (length g_i))) /\
  ((length c <= length g_i)%nat ->
     (exists ms, decrypt_to_chunks_after_re_encryption pf c_0 c sk g_i b = Ok ms /\ length ms = length c) \/
     decrypt_to_chunks_after_re_encryption pf c_0 c sk g_i b = Err CouldNotFindDiscreteLog).
Proof.
  intros Hb. rewrite reenc_unfold. destruct (Nat.ltb_spec (length g_i) (length c)) as [Hg|Hg]; split; intros Hlt; try lia; [reflexivity|].
  destruct (max_chunk_eq pf b Hb) as (z & Hz & HMz). rewrite Hz. cbn [bind]. rewrite HMz.
  set (f := reenc_step _ _ _).
  assert (Hf : forall i, In i (seq 0 (length c)) -> f i <> Panic /\ (forall e, f i = Err e -> e = CouldNotFindDiscreteLog)).
  { intros i Hi. apply in_seq in Hi. unfold f, reenc_step.
    destruct (idx_lt (map (fun ci => ci [+] mul_bigint c_0 (into_bigint (fneg sk))) c) i) as (x & -> & _); [rewrite map_length; lia|]. cbn [bind].
    destruct (gis_zero x); [split; discriminate|]. destruct (idx_lt g_i i) as (g & -> & _); [lia|]. cbn [bind].
    split; [apply solve_dlog_no_panic | apply solve_dlog_err]. }
  destruct (mapM f (seq 0 (length c))) as [ms|e|] eqn:Em.
  - left. exists ms. split; [reflexivity|]. apply mapM_length in Em. rewrite seq_length in Em. exact Em.
  - right. apply mapM_Err_inv in Em. destruct Em as (i & Hi & He). f_equal. apply (proj2 (Hf i Hi)). exact He.
  - exfalso. revert Em. apply mapM_no_panic. intros i Hi. apply Hf; exact Hi.
Qed.

Theorem reenc_debug_panic (c_0 : G1 E) c sk g_i b : 32 <= b -> (length c <= length g_i)%nat ->
  decrypt_to_chunks_after_re_encryption Debug c_0 c sk g_i b = Panic.
Proof.
  intros Hb Hg. rewrite reenc_unfold. destruct (Nat.ltb_spec (length g_i) (length c)); [lia|].
  unfold one_shl_u32. destruct (Z.ltb_spec b 32); [lia|reflexivity].
Qed.

Lemma nth_repeat_lt {A} (x d : A) n i : (i < n)%nat -> nth i (repeat x n) d = x.
Proof. revert i; induction n as [|n IH]; intros i Hi; [lia|]. destruct i; cbn; [reflexivity|]. apply IH; lia. Qed.

Lemma reenc_step_iff M (c_0 : G1 E) c sk g_i i k : (i < length c)%nat -> (length c <= length g_i)%nat ->
  nth i g_i gzero <> gzero -> 0 <= M < modulus (K_of E) -> (M = 0 -> k <= 0) ->
  (reenc_step M (map (fun ci => ci [+] mul_bigint c_0 (into_bigint (fneg sk))) c) g_i i = Ok k -> 
     0 <= k <= Z.max 1 M /\ nth i c gzero = (sk [*] c_0) [+] (of_Z k [*] nth i g_i gzero)) /\
  (0 <= k <= M -> nth i c gzero = (sk [*] c_0) [+] (of_Z k [*] nth i g_i gzero) ->
     reenc_step M (map (fun ci => ci [+] mul_bigint c_0 (into_bigint (fneg sk))) c) g_i i = Ok k).
Proof.
  intros Hi Hg Hgi HM HM0. unfold reenc_step.
  assert (Hx : idx (map (fun ci => ci [+] mul_bigint c_0 (into_bigint (fneg sk))) c) i = Ok (nth i c gzero [+] [-] (sk [*] c_0))).
  { apply idx_nth_error. rewrite nth_error_map, (nth_error_nth' _ gzero) by exact Hi. cbn [option_map]. do 2 f_equal.
    change (mul_bigint c_0 (into_bigint (fneg sk))) with (fneg sk [*] c_0). apply smul_fneg. }
  rewrite Hx. cbn [bind]. rewrite (idx_nth g_i i gzero) by lia. cbn [bind].
  set (d := nth i c gzero [+] [-] (sk [*] c_0)).
  assert (Hd : forall y, nth i c gzero = (sk [*] c_0) [+] y <-> d = y).
  { intros y. unfold d. split; intros H.
    - rewrite H. glin.
    - rewrite <- H. glin. }
  rewrite Hd. unfold gis_zero. destruct (geqb d gzero) eqn:Ez.
  - apply geqb_spec in Ez. rewrite Ez. split.
    + intros H; injection H as <-. split; [lia|]. change (of_Z 0) with (@fzero (K_of E)). symmetry; apply smul_0_l.
    + intros Hk H. symmetry in H. apply smul_eq_zero in H. destruct H as [H|H]; [|contradiction].
      apply (f_equal sval) in H. rewrite of_Z_small in H by lia. change (sval (@fzero (K_of E))) with (0 mod modulus (K_of E)) in H.
      rewrite Zmod_0_l in H. congruence.
  - apply geqb_false in Ez. split.
    + intros H. destruct (solve_dlog_spec M (nth i g_i gzero) d) as [(k0 & Hk & Hr & Hv & _)|(Hk & _)]; rewrite Hk in H; [|discriminate].
      injection H as <-. split; [lia|]. rewrite <- mul_bigint_smul. symmetry; exact Hv.
    + intros Hk H. destruct (Z.eq_dec k 0) as [->|Hk0].
      { exfalso. apply Ez. rewrite H. change (of_Z 0) with (@fzero (K_of E)). apply smul_0_l. }
      apply solve_dlog_exact; [exact Hgi | lia |]. split; [lia|]. rewrite mul_bigint_smul. symmetry; exact H.
Qed.

Theorem reenc_decrypt_exact pf (c_0 : G1 E) c sk g_i b ms : (length c <= length g_i)%nat ->
  Forall (fun x => x <> gzero) (firstn (length c) g_i) -> 1 <= b <= 31 -> max_chunk b < modulus (K_of E) ->
  (decrypt_to_chunks_after_re_encryption pf c_0 c sk g_i b = Ok ms <->
   opens_to (repeat sk (length c)) g_i c_0 c ms /\ Forall (fun z => z <= max_chunk b) ms).
Proof.
  intros Hg Hnz Hb HM. rewrite reenc_unfold. destruct (Nat.ltb_spec (length g_i) (length c)) as [Hlt|_]; [lia|].
  destruct (max_chunk_eq pf b ltac:(lia)) as (z & Hz & HMz). rewrite Hz. cbn [bind]. rewrite HMz.
  pose proof (max_chunk_pos b ltac:(lia)) as Hpos.
  assert (Hgi : forall i, (i < length c)%nat -> nth i g_i gzero <> gzero).
  { intros i Hi. rewrite Forall_forall in Hnz. apply Hnz. apply (nth_error_In _ i). rewrite <- (firstn_skipn (length c) g_i) at 2.
    rewrite app_nth1 by (rewrite firstn_length; lia). apply nth_error_nth'. rewrite firstn_length; lia. }
  set (f := reenc_step _ _ _). unfold opens_to. rewrite repeat_length. split.
  - intros H. apply mapM_seq_elim in H. destruct H as [Hl H].
    assert (Hall : forall i, (i < length c)%nat -> 0 <= nth i ms 0 <= max_chunk b /\
      nth i c gzero = (sk [*] c_0) [+] (of_Z (nth i ms 0) [*] nth i g_i gzero)).
    { intros i Hi. specialize (H i (nth i ms 0) ltac:(apply nth_error_nth'; lia)). cbn [Nat.add] in H.
      apply reenc_step_iff in H; try assumption; try lia; [|apply Hgi; exact Hi]. destruct H as [H1 H2]. split; [lia|exact H2]. }
    split; [split; [reflexivity|split; [exact Hl|]]|].
    + intros i Hi. destruct (Hall i Hi) as [H1 H2]. rewrite nth_repeat_lt by exact Hi. split; [lia|exact H2].
    + apply Forall_forall. intros x Hx. apply In_nth with (d := 0) in Hx. destruct Hx as (i & Hi & <-). apply Hall. lia.
  - intros [(_ & Hl & H) Hmax]. apply mapM_seq_intro; [exact Hl|]. intros i k Hk. cbn [Nat.add].
    assert (Hi : (i < length c)%nat) by (rewrite <- Hl; apply nth_error_Some; congruence).
    destruct (H i Hi) as [Hp He]. rewrite nth_repeat_lt in He by exact Hi. rewrite (nth_error_nth _ _ 0 Hk) in *.
    assert (k <= max_chunk b) by (rewrite Forall_forall in Hmax; apply Hmax; eapply nth_error_In; exact Hk).
    apply reenc_step_iff; try assumption; try lia. apply Hgi; exact Hi.
Qed.

Theorem reenc_decrypt_out_of_range pf (c_0 : G1 E) c sk g_i b ms : (length c <= length g_i)%nat ->
  Forall (fun x => x <> gzero) (firstn (length c) g_i) -> 1 <= b <= 31 -> max_chunk b < modulus (K_of E) ->
  opens_to (repeat sk (length c)) g_i c_0 c ms -> Forall (fun z => z < modulus (K_of E)) ms -> ~ Forall (fun z => z <= max_chunk b) ms ->
  decrypt_to_chunks_after_re_encryption pf c_0 c sk g_i b = Err CouldNotFindDiscreteLog.
Proof.
  intros Hg Hnz Hb HM Hop Hr Hout.
  destruct (reenc_shape pf c_0 c sk g_i b ltac:(lia)) as [_ H].
  destruct (H Hg) as [(ms' & H' & _)|H']; [|exact H']. exfalso.
  apply reenc_decrypt_exact in H'; try assumption. destruct H' as [Hop' Hmax]. apply Hout.
  assert (ms = ms').
  { apply (opens_unique (repeat sk (length c)) g_i c_0 c); rewrite ?repeat_length; try assumption.
    eapply Forall_impl; [|exact Hmax]. cbn; intros; lia. }
  subst ms'. exact Hmax.
Qed.

(* ---------- re-encryption shares ---------- *)
Lemma from_dest_inv (gens : encryption_gens E) sk pk : from_dest gens sk pk -> ekd_pk pk = sk [*] eg_G gens.
Proof.
  intros (R & st & st' & H). unfold Fkeygen_dest in H. destruct (rand_scalar R st) as [rho st1]. injection H as <- <- _. reflexivity.
Qed.

Lemma share_inv gens (c_0 : G1 E) c ekd sk share : share_of gens c_0 c ekd sk share ->
  (length c <= length (st_s sk))%nat /\
  exists rho, snd share = rho [*] eg_G gens /\
    fst share = map (fun i => (fneg (nth i (st_s sk) fzero) [*] c_0) [+] (rho [*] ekd_pk ekd)) (seq 0 (length c)).
Proof.
  intros (R & st & st' & H). unfold re_encrypt_share in H. destruct (rand_scalar R st) as [rho st1].
  destruct (le_lt_dec (length c) (length (st_s sk))) as [Hle|Hlt].
  - split; [exact Hle|]. exists rho. apply bind_Ok_inv in H. destruct H as (w & Hw & H). injection H as H1 H2 _.
    split; [symmetry; exact H2|]. rewrite <- H1.
    apply mapM_seq_elim in Hw. destruct Hw as [Hl Hw].
    apply nth_error_ext_eq; [rewrite map_length, seq_length; exact Hl|]. intros i a a' Ha Ha'.
    assert (Hi : (i < length c)%nat) by (rewrite <- Hl; apply nth_error_Some; congruence).
    specialize (Hw i a Ha). cbn [Nat.add] in Hw. rewrite (idx_nth (st_s sk) i fzero) in Hw by lia. cbn [bind] in Hw. injection Hw as Hw.
    rewrite (map_seq_nth_error (fun i => (fneg (nth i (st_s sk) fzero) [*] c_0) [+] (rho [*] ekd_pk ekd))) in Ha' by exact Hi.
    injection Ha' as <-. symmetry. exact Hw.
  - exfalso. rewrite (mapM_seq_panic _ 0 (length c) (length (st_s sk))) in H; [discriminate | exact Hlt | |].
    + intros i Hi. cbn [Nat.add]. rewrite (idx_nth (st_s sk) i fzero) by exact Hi. cbn [bind]. eauto.
    + cbn [Nat.add]. rewrite idx_ge by lia. reflexivity.
Qed.

(* re_encrypt_share panics exactly when the secret has fewer entries than the ciphertext *)
Theorem share_total (R : rng_impl E) gens (c_0 : G1 E) c ekd sk st :
  ((length c <= length (st_s sk))%nat -> exists share st', re_encrypt_share R gens c_0 c ekd sk st = Ok (share, st')) /\
  ((length (st_s sk) < length c)%nat -> re_encrypt_share R gens c_0 c ekd sk st = Panic).
Proof.
  unfold re_encrypt_share. destruct (rand_scalar R st) as [rho st1]. split; intros Hl.
  - match goal with |- context [mapM ?f ?l] => assert (Hm : exists w, mapM f l = Ok w) end.
    { eexists. rewrite <- mapM_map_Ok with (f := fun i => mul_bigint c_0 (into_bigint (fneg (nth i (st_s sk) fzero))) [+] mul_bigint (ekd_pk ekd) (into_bigint rho)).
      apply mapM_ext. intros i Hi. apply in_seq in Hi. rewrite (idx_nth (st_s sk) i fzero) by lia. reflexivity. }
    destruct Hm as (w & ->). cbn [bind]. eauto.
  - rewrite (mapM_seq_panic _ 0 (length c) (length (st_s sk))); [reflexivity | exact Hl | |].
    + intros i Hi. cbn [Nat.add]. rewrite (idx_nth (st_s sk) i fzero) by exact Hi. cbn [bind]. eauto.
    + cbn [Nat.add]. rewrite idx_ge by lia. reflexivity.
Qed.

Lemma combine_share_eq (g1 g2 : G1 E) w1 w2 :
  combine_re_encrypt_share g1 g2 w1 w2 = if (length w1 <=? length w2)%nat then Ok (zip_with gadd w1 w2, g1 [+] g2) else Panic.
Proof.
  unfold combine_re_encrypt_share. rewrite mapM_zip. destruct (length w1 <=? length w2)%nat; reflexivity.
Qed.

Theorem combine_shares_ok (s0 : list (G1 E) * G1 E) rest : Forall (fun s => (length (fst s0) <= length (fst s))%nat) rest ->
  combine_shares (s0 :: rest) = Ok (col_sum (length (fst s0)) (map fst (s0 :: rest)), gsum (map snd (s0 :: rest))).
Proof.
  intros H. cbn [combine_shares map].
  rewrite <- fold_zip_gadd by (apply Forall_map; exact H). rewrite gsum_cons, <- fold_left_gadd.
  destruct s0 as [w g]. cbn [fst snd] in *. revert w g H. induction rest as [|[w' g'] rest IH]; intros w g H; cbn [foldM map fold_left]; [reflexivity|].
  inversion H as [|? ? Hw Hrest]; subst. cbn [fst snd] in *. rewrite combine_share_eq. apply Nat.leb_le in Hw. rewrite Hw. cbn [bind].
  apply IH. apply Nat.leb_le in Hw. eapply Forall_impl; [|exact Hrest]. intros s Hs. cbn in Hs. rewrite zip_with_length. lia.
Qed.

Theorem combine_shares_perm (shares shares' : list (list (G1 E) * G1 E)) n : Forall (fun s => length (fst s) = n) shares ->
  Permutation shares shares' -> combine_shares shares = combine_shares shares'.
Proof.
  intros H Hp. destruct shares as [|s0 rest].
  - apply Permutation_nil in Hp. subst. reflexivity.
  - destruct shares' as [|s0' rest']; [apply Permutation_sym, Permutation_nil in Hp; discriminate|].
    assert (H' : Forall (fun s => length (fst s) = n) (s0' :: rest')) by (eapply Permutation_Forall; [exact Hp|exact H]).
    rewrite !combine_shares_ok.
    + inversion H as [|? ? E0 _]; inversion H' as [|? ? E0' _]; subst. rewrite E0'. f_equal. f_equal.
      * apply col_sum_perm, Permutation_map; exact Hp.
      * apply gsum_perm, Permutation_map; exact Hp.
    + inversion H' as [|? ? E0 Hr]; subst. eapply Forall_impl; [|exact Hr]. cbn; intros; lia.
    + inversion H as [|? ? E0 Hr]; subst. eapply Forall_impl; [|exact Hr]. cbn; intros; lia.
Qed.

(* the re-encrypted ciphertext, explicitly *)
Theorem reencrypt_explicit gens (c_0 : G1 E) c ekd skd sks shares : from_dest gens skd ekd -> sks <> [] ->
  Forall2 (share_of gens c_0 c ekd) sks shares ->
  exists g_r cs, reencrypt c shares = Ok (g_r :: cs) /\ length cs = length c /\
    forall i, (i < length c)%nat ->
      nth i cs gzero = (nth i c gzero [+] [-] (fsum (map (fun sk => nth i (st_s sk) fzero) sks) [*] c_0)) [+] (skd [*] g_r).
Proof.
  intros Hd Hne Hsh. apply from_dest_inv in Hd.
  assert (Hlen : Forall (fun s => length (fst s) = length c) shares).
  { clear -Hsh. induction Hsh as [|sk sh sks shares H _ IH]; [constructor|]. constructor; [|exact IH].
    apply share_inv in H. destruct H as (_ & rho & _ & ->). rewrite map_length, seq_length. reflexivity. }
  destruct sks as [|sk0 sks]; [contradiction|]. inversion Hsh as [|? s0 ? rest H0 Hrest]; subst.
  assert (Hcomb : combine_shares (s0 :: rest) = Ok (col_sum (length c) (map fst (s0 :: rest)), gsum (map snd (s0 :: rest)))).
  { rewrite combine_shares_ok; inversion Hlen as [|? ? E0 Hr]; subst; [rewrite E0; reflexivity|].
    eapply Forall_impl; [|exact Hr]. cbn; intros; lia. }
  unfold reencrypt. rewrite Hcomb. cbn [bind].
  set (shares := s0 :: rest) in *. set (g_r := gsum (map snd shares)). set (w := col_sum (length c) (map fst shares)).
  assert (Hwl : length w = length c) by apply col_sum_length.
  unfold combine_ct_with_w. rewrite mapM_zip, Hwl, Nat.leb_refl. cbn [bind].
  exists g_r, (zip_with gadd c w). split; [reflexivity|]. split; [rewrite zip_with_length; lia|].
  intros i Hi. rewrite zip_gadd_nth by lia.
  assert (Hw : nth i w gzero = [-] (fsum (map (fun sk => nth i (st_s sk) fzero) (sk0 :: sks)) [*] c_0) [+] (skd [*] g_r)).
  { unfold w, g_r. rewrite col_sum_nth by exact Hi. rewrite map_map. clear -Hsh Hd Hi.
    induction Hsh as [|sk sh l l' H _ IH]; cbn [map].
    - unfold fsum, gsum. cbn. rewrite smul_0_l, smul_0_r, gneg_0. symmetry; apply gadd_0_l.
    - rewrite !gsum_cons, fsum_cons, IH. apply share_inv in H. destruct H as (_ & rho & Hg & Hf). rewrite Hg, Hf.
      rewrite (map_seq_nth (fun i => (fneg (nth i (st_s sk) fzero) [*] c_0) [+] (rho [*] ekd_pk ekd))) by exact Hi.
      rewrite Hd. glin. }
  rewrite Hw. glin.
Qed.

Theorem reencrypt_opens gens (c_0 : G1 E) c ekd skd sks shares g_i ms : from_dest gens skd ekd -> sks <> [] ->
  Forall2 (share_of gens c_0 c ekd) sks shares ->
  opens_to (fcol_sum (length c) (map st_s sks)) g_i c_0 c ms ->
  exists g_r cs, reencrypt c shares = Ok (g_r :: cs) /\ length cs = length c /\ opens_to (repeat skd (length cs)) g_i g_r cs ms.
Proof.
  intros Hd Hne Hsh (_ & Hm & Hop). rewrite fcol_sum_length in Hm, Hop.
  destruct (reencrypt_explicit gens c_0 c ekd skd sks shares Hd Hne Hsh) as (g_r & cs & Hr & Hl & Hcs).
  exists g_r, cs. split; [exact Hr|]. split; [exact Hl|]. unfold opens_to. rewrite repeat_length. split; [reflexivity|]. split; [lia|].
  intros i Hi. rewrite Hl in Hi. destruct (Hop i Hi) as [Hp He]. split; [exact Hp|].
  rewrite nth_repeat_lt by lia. rewrite Hcs by exact Hi. rewrite He, fcol_sum_nth by exact Hi. rewrite map_map. glin.
Qed.
End ReencFacts.
