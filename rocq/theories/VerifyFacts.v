(* VerifyFacts.v -- commitment verification, individually and in batches (C19-C23) *)
From Verif Require Import Base BaseFacts Algebra Utils UtilsFacts CommitmentFacts Setup Keygen KeygenFacts Encryption
  EncryptFacts DecryptFacts RoundTrip Spec KeySpec VecFacts.

Section VerifyFacts.
Context {E : pairing}.
Add Ring Kr : (@scalar_ring_theory (K_of E)).

(* sum of pairings of two lists *)
Fixpoint pdot (xs : list (G1 E)) (qs : list (G2 E)) : GT E :=
  match xs, qs with
  | x :: xs', q :: qs' => pair x (prep q) [+] pdot xs' qs'
  | _, _ => gzero
  end.
Lemma pdot_combine xs qs : gsum (map (fun '(x, y) => pair x y) (combine xs (map prep qs))) = pdot xs qs.
Proof. revert qs; induction xs as [|x xs IH]; intros [|q qs]; cbn [map combine pdot]; try reflexivity. rewrite gsum_cons, IH. reflexivity. Qed.
Lemma multi_pairing_pdot xs qs : length xs = length qs -> multi_pairing xs (map prep qs) = Ok (pdot xs qs).
Proof. intros H. unfold multi_pairing. rewrite map_length, H, Nat.eqb_refl, pdot_combine. reflexivity. Qed.
Lemma multi_pairing_panic (xs : list (G1 E)) qs : length xs <> length qs -> multi_pairing xs qs = Panic.
Proof. intros H. unfold multi_pairing. destruct (Nat.eqb_spec (length xs) (length qs)); [contradiction|reflexivity]. Qed.
Lemma pdot_app xs ys qs ps : length xs = length qs -> pdot (xs ++ ys) (qs ++ ps) = pdot xs qs [+] pdot ys ps.
Proof.
  revert qs; induction xs as [|x xs IH]; intros [|q qs] H; cbn [length app pdot] in *; try discriminate; [symmetry; apply gadd_0_l|].
  rewrite IH by lia. apply gadd_assoc.
Qed.
Lemma pdot_smul (ts : list (Fr E)) xs (H : G2 E) : pdot xs (map (fun x => x [*] H) ts) = pair (dot ts xs) (prep H).
Proof.
  revert ts; induction xs as [|x xs IH]; intros [|a ts]; cbn [map pdot dot]; rewrite ?pair_zero_l; try reflexivity.
  rewrite IH, pair_add_l, pair_smul_l, pair_smul_r. reflexivity.
Qed.
Lemma pdot_as_gsum xs qs n : length xs = n -> length qs = n ->
  pdot xs qs = gsum (map (fun j => pair (nth j xs gzero) (prep (nth j qs gzero))) (seq 0 n)).
Proof.
  revert xs qs; induction n as [|n IH]; intros [|x xs] [|q qs] Hx Hq; cbn [length] in *; try discriminate; [reflexivity|].
  cbn [pdot seq map]. rewrite gsum_cons. cbn [nth]. f_equal. rewrite (IH xs qs) by lia.
  f_equal. rewrite <- seq_shift, map_map. reflexivity.
Qed.

(* the G1 side of the check *)
Definition ct_g1 (ct : ciphertext E) : list (G1 E) := ct_X_r ct :: ct_enc_chunks ct ++ [[-] ct_commitment ct].
Lemma ct_g1_length ct : length (ct_g1 ct) = (length (ct_enc_chunks ct) + 2)%nat.
Proof. unfold ct_g1. cbn [length]. rewrite app_length. cbn [length]. lia. Qed.

(* the defect of a ciphertext with respect to a key: zero iff the check passes *)
Definition defect (ek : encryption_key E) (gens : encryption_gens E) (ct : ciphertext E) : GT E :=
  pdot (ct_X_r ct :: ct_enc_chunks ct) (ek_Z ek) [+] [-] pair (ct_commitment ct) (prep (eg_H gens)).
Lemma defect_pdot ek gens ct : length (ek_Z ek) = S (length (ct_enc_chunks ct)) ->
  pdot (ct_g1 ct) (ek_Z ek ++ [eg_H gens]) = defect ek gens ct.
Proof.
  intros HZ. unfold ct_g1, defect.
  change (ct_X_r ct :: ct_enc_chunks ct ++ [[-] ct_commitment ct]) with ((ct_X_r ct :: ct_enc_chunks ct) ++ [[-] ct_commitment ct]).
  rewrite pdot_app by (cbn [length]; lia). f_equal. cbn [pdot]. rewrite gadd_0_r. apply pair_neg_l.
Qed.

Lemma get_g2_ok (ek : encryption_key E) gens : ek_Z ek <> [] ->
  get_g2_for_ciphertext_commitment_pairing_checks (prepare_ek ek) (prepare_gens gens) = Ok (map prep (ek_Z ek ++ [eg_H gens])).
Proof.
  intros HZ. unfold get_g2_for_ciphertext_commitment_pairing_checks, prepare_ek, prepare_gens. cbn [pek_Z peg_H].
  rewrite map_app. cbn [map]. destruct (ek_Z ek) as [|z zs]; [contradiction|]. cbn [map length].
  cbn [idx nth_error bind]. replace (S (length (map prep zs)) - 1)%nat with (length (map prep zs)) by lia.
  rewrite mapM_idx_tail. reflexivity.
Qed.

Lemma pek_count_prepare (ek : encryption_key E) : pek_supported_chunks_count (prepare_ek ek) = ek_supported_chunks_count ek.
Proof. unfold pek_supported_chunks_count, prepare_ek. cbn [pek_X pek_Y pek_Z]. rewrite map_length. reflexivity. Qed.

(* ---------- complete case analysis of the individual check (any key) ---------- *)
Theorem verify_total (ct : ciphertext E) (ek : encryption_key E) gens :
  let nX := length (ek_X ek) in
  verify_commitment ct (prepare_ek ek) (prepare_gens gens) =
    if negb (Nat.eqb (length (ek_Y ek)) nX) then Err (MalformedEncryptionKey (length (ek_Y ek)) nX)
    else if negb (Nat.eqb (length (ek_Z ek)) (nX + 1)) then Err (MalformedEncryptionKey (length (ek_Z ek)) nX)
    else if negb (Nat.eqb (length (ct_enc_chunks ct)) (nX mod 256))
         then Err (IncompatibleEncryptionKey (length (ct_enc_chunks ct)) (nX mod 256))
    else if (256 <=? nX)%nat then Panic
    else if gis_zero (defect ek gens ct) then Ok tt else Err InvalidCommitment.
Proof.
  intros nX. unfold verify_commitment, verify_ciphertext_commitment. rewrite pek_count_prepare.
  unfold ek_supported_chunks_count, enc_supported_chunks_count. fold nX.
  destruct (Nat.eqb_spec (length (ek_Y ek)) nX) as [HY|HY]; cbn [negb bind]; [|reflexivity].
  destruct (Nat.eqb_spec (length (ek_Z ek)) (nX + 1)) as [HZ|HZ]; cbn [negb bind]; [|reflexivity].
  assert (Hu8 : Z.to_nat (as_u8 (Z.of_nat nX)) = (nX mod 256)%nat).
  { unfold as_u8. change (2 ^ 8) with (Z.of_nat 256). rewrite <- Nat2Z.inj_mod, Nat2Z.id. reflexivity. }
  rewrite Hu8. destruct (Nat.eqb_spec (length (ct_enc_chunks ct)) (nX mod 256)) as [Hc|Hc]; cbn [negb]; [|reflexivity].
  rewrite get_g2_ok by (intros E'; rewrite E' in HZ; cbn in HZ; lia). cbn [bind].
  change (get_g1_for_ciphertext_commitment_pairing_checks (ct_X_r ct) (ct_enc_chunks ct) (ct_commitment ct)) with (ct_g1 ct).
  destruct (Nat.leb_spec 256 nX) as [Hge|Hlt].
  - pose proof (Nat.mod_upper_bound nX 256 ltac:(lia)).
    rewrite multi_pairing_panic; [reflexivity|]. rewrite ct_g1_length, map_length, app_length. cbn [length]. lia.
  - rewrite Nat.mod_small in Hc by exact Hlt.
    rewrite multi_pairing_pdot by (rewrite ct_g1_length, app_length; cbn [length]; lia). cbn [bind].
    rewrite defect_pdot by lia. reflexivity.
Qed.

Definition wf_key (n : nat) (ek : encryption_key E) : Prop :=
  (n < 256)%nat /\ length (ek_X ek) = n /\ length (ek_Y ek) = n /\ length (ek_Z ek) = (n + 1)%nat.

Lemma verify_wf n (ct : ciphertext E) (ek : encryption_key E) gens : wf_key n ek ->
  verify_commitment ct (prepare_ek ek) (prepare_gens gens) =
    if negb (Nat.eqb (length (ct_enc_chunks ct)) n) then Err (IncompatibleEncryptionKey (length (ct_enc_chunks ct)) n)
    else if gis_zero (defect ek gens ct) then Ok tt else Err InvalidCommitment.
Proof.
  intros (H256 & HX & HY & HZ). rewrite verify_total. cbv zeta. rewrite HX, HY, HZ, !Nat.eqb_refl, Nat.mod_small by exact H256.
  cbn [negb]. destruct (Nat.leb_spec 256 n); [lia|reflexivity].
Qed.

Lemma verify_accept n (ct : ciphertext E) (ek : encryption_key E) gens : wf_key n ek ->
  (verify_commitment ct (prepare_ek ek) (prepare_gens gens) = Ok tt <->
   length (ct_enc_chunks ct) = n /\ defect ek gens ct = gzero).
Proof.
  intros Hwf. rewrite (verify_wf n) by exact Hwf.
  destruct (Nat.eqb_spec (length (ct_enc_chunks ct)) n) as [Hc|Hc]; cbn [negb]; [|split; [discriminate|tauto]].
  unfold gis_zero. destruct (geqb (defect ek gens ct) gzero) eqn:Ed.
  - apply geqb_spec in Ed. tauto.
  - apply geqb_false in Ed. split; [discriminate|tauto].
Qed.

(* acceptance forces a well-formed key with fewer than 256 chunks *)
Lemma accept_wf (ct : ciphertext E) (ek : encryption_key E) gens :
  verify_commitment ct (prepare_ek ek) (prepare_gens gens) = Ok tt -> wf_key (length (ct_enc_chunks ct)) ek.
Proof.
  rewrite verify_total. cbv zeta. unfold wf_key.
  destruct (Nat.eqb_spec (length (ek_Y ek)) (length (ek_X ek))) as [HY|HY]; cbn [negb]; [|discriminate].
  destruct (Nat.eqb_spec (length (ek_Z ek)) (length (ek_X ek) + 1)) as [HZ|HZ]; cbn [negb]; [|discriminate].
  destruct (Nat.eqb_spec (length (ct_enc_chunks ct)) (length (ek_X ek) mod 256)) as [Hc|Hc]; cbn [negb]; [|discriminate].
  destruct (Nat.leb_spec 256 (length (ek_X ek))) as [Hge|Hlt]; [discriminate|]. intros _.
  rewrite Nat.mod_small in Hc by exact Hlt. repeat split; lia.
Qed.

(* ---------- uniqueness, for every key ---------- *)
Theorem accepted_commitment_unique (ct1 ct2 : ciphertext E) (ek : encryption_key E) gens : eg_H gens <> gzero ->
  ct_X_r ct1 = ct_X_r ct2 -> ct_enc_chunks ct1 = ct_enc_chunks ct2 ->
  verify_commitment ct1 (prepare_ek ek) (prepare_gens gens) = Ok tt ->
  verify_commitment ct2 (prepare_ek ek) (prepare_gens gens) = Ok tt -> ct1 = ct2.
Proof.
  intros HH H0 Hc V1 V2. pose proof (accept_wf _ _ _ V1) as W1. pose proof (accept_wf _ _ _ V2) as W2.
  apply (verify_accept _ _ _ _ W1) in V1. apply (verify_accept _ _ _ _ W2) in V2. destruct V1 as [_ V1]. destruct V2 as [_ V2].
  unfold defect in V1, V2. rewrite <- H0, <- Hc in V2.
  apply gsub_zero_eq in V1, V2. rewrite V1 in V2.
  assert (Hp : pair (ct_commitment ct1 [+] [-] ct_commitment ct2) (prep (eg_H gens)) = gzero).
  { rewrite pair_add_l, pair_neg_l, V2. apply gadd_neg_r. }
  apply pair_nondeg in Hp. destruct Hp as [Hp|Hp]; [|contradiction]. apply gsub_zero_eq in Hp.
  destruct ct1, ct2; cbn in *; congruence.
Qed.

Lemma pdot_diff_one (xs ys : list (G1 E)) qs i : length xs = length ys -> (i < length xs)%nat -> length xs = length qs ->
  (forall j, j <> i -> nth j xs gzero = nth j ys gzero) ->
  pdot xs qs [+] [-] pdot ys qs = pair (nth i xs gzero [+] [-] nth i ys gzero) (prep (nth i qs gzero)).
Proof.
  revert ys qs i; induction xs as [|x xs IH]; intros [|y ys] [|q qs] i Hl Hi Hq Hj; cbn [length] in *; try lia.
  cbn [pdot]. destruct i as [|i]; cbn [nth].
  - assert (Hrest : xs = ys).
    { apply nth_error_ext_eq; [lia|]. intros j a b Ha Hb. specialize (Hj (S j) ltac:(lia)). cbn [nth] in Hj.
      rewrite (nth_error_nth _ _ gzero Ha), (nth_error_nth _ _ gzero Hb) in Hj. exact Hj. }
    rewrite Hrest, pair_add_l, pair_neg_l. glin.
  - assert (Hx : x = y) by (apply (Hj 0%nat); lia). rewrite <- (IH ys qs i); try lia.
    + rewrite Hx. glin.
    + intros j Hne. apply (Hj (S j)). lia.
Qed.

Theorem changed_element_rejected (ct1 ct2 : ciphertext E) (ek : encryption_key E) gens i :
  length (ct_enc_chunks ct1) = length (ct_enc_chunks ct2) ->
  ct_commitment ct1 = ct_commitment ct2 ->
  (forall j, j <> i -> nth j (ct_X_r ct1 :: ct_enc_chunks ct1) gzero = nth j (ct_X_r ct2 :: ct_enc_chunks ct2) gzero) ->
  nth i (ct_X_r ct1 :: ct_enc_chunks ct1) gzero <> nth i (ct_X_r ct2 :: ct_enc_chunks ct2) gzero ->
  nth i (ek_Z ek) gzero <> gzero ->
  verify_commitment ct1 (prepare_ek ek) (prepare_gens gens) = Ok tt ->
  verify_commitment ct2 (prepare_ek ek) (prepare_gens gens) = Err InvalidCommitment.
Proof.
  intros Hl Hpsi Hj Hi HZi V1. pose proof (accept_wf _ _ _ V1) as W1.
  apply (verify_accept _ _ _ _ W1) in V1. destruct V1 as [_ V1].
  assert (W2 : wf_key (length (ct_enc_chunks ct2)) ek) by (rewrite <- Hl; exact W1).
  rewrite (verify_wf _ ct2 ek gens W2), Nat.eqb_refl. cbn [negb].
  unfold gis_zero. destruct (geqb (defect ek gens ct2) gzero) eqn:Ed; [|reflexivity]. exfalso. apply geqb_spec in Ed.
  unfold defect in V1, Ed. rewrite Hpsi in V1. apply gsub_zero_eq in V1, Ed. destruct W1 as (_ & _ & _ & HZ).
  assert (Hil : (i < length (ek_Z ek))%nat).
  { destruct (lt_dec i (length (ek_Z ek))); [assumption|]. exfalso. apply HZi. apply nth_overflow. lia. }
  pose proof (pdot_diff_one (ct_X_r ct1 :: ct_enc_chunks ct1) (ct_X_r ct2 :: ct_enc_chunks ct2) (ek_Z ek) i) as Hd.
  cbn [length] in Hd. specialize (Hd ltac:(lia) ltac:(lia) ltac:(lia) Hj).
  rewrite V1, Ed, gadd_neg_r in Hd. symmetry in Hd. apply pair_nondeg in Hd. destruct Hd as [Hd|Hd]; [|contradiction].
  apply gsub_zero_eq in Hd. contradiction.
Qed.

(* ---------- honest keys ---------- *)
Lemma formula_wf gens g_i delta gamma (s : list (Fr E)) t0 t n : length s = n -> length t = n -> (n <= length g_i)%nat -> (n < 256)%nat ->
  wf_key n (ek_formula gens g_i delta gamma s t0 t).
Proof.
  intros Hs Ht Hg H256. destruct (ek_formula_lengths gens g_i delta gamma s t0 t n Hs Ht Hg) as (HX & HY & HZ).
  repeat split; assumption.
Qed.

Lemma defect_formula gens g_i delta gamma (s : list (Fr E)) t0 t ct :
  defect (ek_formula gens g_i delta gamma s t0 t) gens ct =
  pair ((t0 [*] ct_X_r ct) [+] dot t (ct_enc_chunks ct) [+] [-] ct_commitment ct) (prep (eg_H gens)).
Proof.
  unfold defect, ek_formula. cbn [ek_Z]. rewrite pdot_smul. cbn [dot]. rewrite !pair_add_l, pair_neg_l. reflexivity.
Qed.

Theorem verify_exact gens g_i delta gamma (s : list (Fr E)) t0 t n ct : eg_H gens <> gzero ->
  length s = n -> length t = n -> (n <= length g_i)%nat -> (n < 256)%nat ->
  (verify_commitment ct (prepare_ek (ek_formula gens g_i delta gamma s t0 t)) (prepare_gens gens) = Ok tt <->
   length (ct_enc_chunks ct) = n /\ ct_commitment ct = (t0 [*] ct_X_r ct) [+] dot t (ct_enc_chunks ct)).
Proof.
  intros HH Hs Ht Hg H256. rewrite (verify_accept n) by (apply formula_wf; assumption). rewrite defect_formula.
  split; intros [Hc Hd]; (split; [exact Hc|]).
  - apply pair_nondeg in Hd. destruct Hd as [Hd|Hd]; [|contradiction]. apply gsub_zero_eq in Hd. symmetry; exact Hd.
  - rewrite Hd, gadd_neg_r. apply pair_zero_l.
Qed.

(* honest ciphertexts pass *)
Lemma honest_commitment gens g_i delta gamma (s : list (Fr E)) t0 t m r n :
  length s = n -> length t = n -> length m = n -> (n <= length g_i)%nat ->
  let ek := ek_formula gens g_i delta gamma s t0 t in
  psi_formula ek m r = (t0 [*] (r [*] delta)) [+] dot t (body_formula (ek_X ek) g_i m r).
Proof.
  intros Hs Ht Hm Hg ek. unfold psi_formula, ek, ek_formula. cbn [ek_Y ek_P_1 ek_X].
  rewrite (dot_as_gsum (map of_Z m) (scale t g_i) n) by (rewrite map_length; exact Hm).
  rewrite (dot_as_gsum t _ n Ht). rewrite (fdot_as_fsum s t n Hs).
  assert (Hbody : gsum (map (fun i => nth i t fzero [*] nth i (body_formula (map (fun x => x [*] delta) s) g_i m r) gzero) (seq 0 n)) =
     gsum (map (fun i => fmul (nth i s fzero) (nth i t fzero) [*] (r [*] delta)) (seq 0 n)) [+]
     gsum (map (fun i => nth i (map of_Z m) fzero [*] nth i (scale t g_i) gzero) (seq 0 n))).
  { rewrite <- gsum_map_add. f_equal. apply map_ext_in. intros i Hi. apply in_seq in Hi.
    rewrite body_formula_nth by lia. rewrite (nth_map_default (fun x => x [*] delta) s i fzero gzero) by apply smul_0_l.
    rewrite scale_nth. rewrite (nth_map_default (@of_Z (K_of E)) m i 0 fzero) by reflexivity. glin. }
  rewrite Hbody. rewrite <- (map_map (fun i => fmul (nth i s fzero) (nth i t fzero)) (fun a => a [*] (r [*] delta))), gsum_map_smul. glin.
Qed.

Theorem honest_verifies gens g_i delta gamma (s : list (Fr E)) t0 t m r n :
  length s = n -> length t = n -> length m = n -> (n <= length g_i)%nat -> (n < 256)%nat ->
  let ek := ek_formula gens g_i delta gamma s t0 t in
  verify_commitment (ct_formula ek g_i m r) (prepare_ek ek) (prepare_gens gens) = Ok tt.
Proof.
  intros Hs Ht Hm Hg H256 ek. unfold ek. rewrite (verify_accept n) by (apply formula_wf; assumption).
  unfold ct_formula. cbn [ct_enc_chunks]. rewrite body_formula_length. split; [exact Hm|].
  rewrite defect_formula. cbn [ct_X_r ct_enc_chunks ct_commitment].
  rewrite (honest_commitment gens g_i delta gamma s t0 t m r n) by assumption. cbn [ek_X_0 ek_formula].
  rewrite gadd_neg_r. apply pair_zero_l.
Qed.

(* ---------- batches ---------- *)
Lemma check_batch_sizes_ok (cts : list (ciphertext E)) n : Forall (fun ct => length (ct_enc_chunks ct) = n) cts ->
  check_batch_sizes cts n = Ok tt.
Proof. induction 1 as [|ct cts H _ IH]; cbn; [reflexivity|]. rewrite H, Nat.eqb_refl. exact IH. Qed.
Lemma check_batch_sizes_err (pre : list (ciphertext E)) ct post n : Forall (fun ct => length (ct_enc_chunks ct) = n) pre ->
  length (ct_enc_chunks ct) <> n ->
  check_batch_sizes (pre ++ ct :: post) n = Err (IncompatibleEncryptionKey (length (ct_enc_chunks ct)) n).
Proof.
  induction 1 as [|x pre H _ IH]; intros Hne; cbn.
  - destruct (Nat.eqb_spec (length (ct_enc_chunks ct)) n); [contradiction|reflexivity].
  - rewrite H, Nat.eqb_refl. cbn. apply IH; exact Hne.
Qed.

Lemma mapM_cts {A} (f : ciphertext E -> A) (cts : list (ciphertext E)) :
  mapM (fun i => ct <- idx cts i ;; Ok (f ct)) (seq 0 (length cts)) = Ok (map f cts).
Proof.
  apply mapM_seq_intro; [apply map_length|]. intros i y Hy. cbn [Nat.add]. rewrite nth_error_map in Hy.
  destruct (nth_error cts i) as [ct|] eqn:Hc; [|discriminate]. injection Hy as <-. rewrite (idx_nth_error _ _ _ Hc). reflexivity.
Qed.

Lemma batch_g1_ok (cts : list (ciphertext E)) rs n : cts <> [] -> length rs = length cts ->
  Forall (fun ct => length (ct_enc_chunks ct) = n) cts ->
  get_g1_for_ciphertext_commitments_in_batch_pairing_checks cts rs =
    Ok (map (fun j => dot rs (map (fun ct => nth j (ct_g1 ct) gzero) cts)) (seq 0 (n + 2))).
Proof.
  intros Hne Hl Hall. unfold get_g1_for_ciphertext_commitments_in_batch_pairing_checks.
  destruct cts as [|ct0 cts']; [contradiction|]. set (cts := ct0 :: cts') in *.
  cbn [idx nth_error bind cts]. fold cts. rewrite Hl.
  assert (Hct0 : length (ct_enc_chunks ct0) = n) by (inversion Hall; assumption). rewrite Hct0.
  assert (Hmsm : forall xs : list (G1 E), msm_bigint xs (map into_bigint rs) = dot rs xs).
  { intros xs. rewrite msm_dot, map_map. f_equal. rewrite <- (map_id rs) at 2. apply map_ext. intros a. apply of_Z_sval. }
  rewrite (mapM_cts ct_X_r cts). cbn [bind].
  assert (Hmid : mapM (fun j => bases <- mapM (fun i => ct <- idx cts i ;; idx (ct_enc_chunks ct) j) (seq 0 (length cts)) ;;
       Ok (msm_bigint bases (map into_bigint rs))) (seq 0 n) =
     Ok (map (fun j => dot rs (map (fun ct => nth (S j) (ct_g1 ct) gzero) cts)) (seq 0 n))).
  { rewrite <- mapM_map_Ok. apply mapM_ext. intros j Hj. apply in_seq in Hj.
    assert (Hin : mapM (fun i => ct <- idx cts i ;; idx (ct_enc_chunks ct) j) (seq 0 (length cts)) =
                  Ok (map (fun ct => nth (S j) (ct_g1 ct) gzero) cts)).
    { rewrite <- mapM_cts. apply mapM_ext. intros i Hi. apply in_seq in Hi.
      destruct (idx_lt cts i) as (ct & -> & Hct); [lia|]. cbn [bind].
      assert (Hlc : length (ct_enc_chunks ct) = n) by (rewrite Forall_forall in Hall; apply Hall; eapply nth_error_In; exact Hct).
      rewrite (idx_nth (ct_enc_chunks ct) j gzero) by lia. f_equal. unfold ct_g1. cbn [nth]. rewrite app_nth1 by lia. reflexivity. }
    rewrite Hin. cbn [bind]. rewrite Hmsm. reflexivity. }
  rewrite Hmid. cbn [bind]. rewrite (mapM_cts ct_commitment cts). cbn [bind]. rewrite !Hmsm.
  f_equal. replace (n + 2)%nat with (S (n + 1)) by lia. cbn [seq map].
  change (map (fun ct => nth 0 (ct_g1 ct) gzero) (ct0 :: cts')) with (map ct_X_r cts). f_equal.
  rewrite seq_app, map_app. cbn [seq map]. f_equal.
  - rewrite <- (seq_shift n 0), map_map. reflexivity.
  - f_equal. change (1 + n)%nat with (S n).
    assert (Hlast : forall l, Forall (fun ct => length (ct_enc_chunks ct) = n) l ->
       map (fun ct : ciphertext E => nth (S n) (ct_g1 ct) gzero) l = map (fun ct => [-] ct_commitment ct) l).
    { intros l Hlall. apply map_ext_in. intros ct Hct. rewrite Forall_forall in Hlall. unfold ct_g1. cbn [nth].
      rewrite app_nth2 by (rewrite (Hlall ct Hct); lia). rewrite (Hlall ct Hct), Nat.sub_diag. reflexivity. }
    change (nth (S n) (ct_g1 ct0) gzero :: map (fun ct => nth (S n) (ct_g1 ct) gzero) cts') with
      (map (fun ct : ciphertext E => nth (S n) (ct_g1 ct) gzero) cts).
    rewrite Hlast by exact Hall. clear. generalize cts. intros l. revert l.
    induction rs as [|a rs IH]; intros [|ct l]; cbn [dot map]; try apply gneg_0. rewrite gneg_add, IH, smul_gneg. reflexivity.
Qed.

Lemma dot_as_gsum_nth {A} (rs : list (Fr E)) (G : group (K_of E)) (f : A -> G) l : length rs = length l ->
  dot rs (map f l) = gsum (map (fun '(a, x) => a [*] f x) (combine rs l)).
Proof.
  revert l; induction rs as [|a rs IH]; intros [|x l] H; cbn [length] in H; try discriminate; [reflexivity|].
  cbn [map dot combine]. rewrite gsum_cons, IH by lia. reflexivity.
Qed.

Lemma batch_pairing (cts : list (ciphertext E)) rs n (qs : list (G2 E)) : length rs = length cts -> length qs = (n + 2)%nat ->
  Forall (fun ct => length (ct_enc_chunks ct) = n) cts ->
  pdot (map (fun j => dot rs (map (fun ct => nth j (ct_g1 ct) gzero) cts)) (seq 0 (n + 2))) qs =
  dot rs (map (fun ct => pdot (ct_g1 ct) qs) cts).
Proof.
  intros Hl Hq Hall. rewrite (pdot_as_gsum _ _ (n + 2)) by (rewrite ?map_length, ?seq_length; lia).
  rewrite dot_as_gsum_nth by exact Hl.
  transitivity (gsum (map (fun j => gsum (map (fun '(a, ct) => a [*] pair (nth j (ct_g1 ct) gzero) (prep (nth j qs gzero))) (combine rs cts))) (seq 0 (n + 2)))).
  - f_equal. apply map_ext_in. intros j Hj. apply in_seq in Hj.
    rewrite (map_seq_nth (fun j => dot rs (map (fun ct => nth j (ct_g1 ct) gzero) cts))) by lia.
    clear -Hl. revert cts Hl. induction rs as [|a rs IH]; intros [|ct cts] Hl; cbn [length] in Hl; try discriminate.
    + apply pair_zero_l.
    + cbn [map dot combine]. rewrite gsum_cons, pair_add_l, pair_smul_l, <- IH by lia. reflexivity.
  - rewrite gsum_swap. f_equal. apply map_ext_in. intros [a ct] Hin. apply in_combine_r in Hin.
    rewrite Forall_forall in Hall. specialize (Hall ct Hin).
    rewrite (pdot_as_gsum (ct_g1 ct) qs (n + 2)) by (rewrite ?ct_g1_length; lia).
    rewrite <- gsum_smul, map_map. reflexivity.
Qed.

(* complete case analysis *)
Theorem batch_total (cts : list (ciphertext E)) rs (ek : encryption_key E) gens :
  let nX := length (ek_X ek) in
  let bad := filter (fun ct => negb (Nat.eqb (length (ct_enc_chunks ct)) (nX mod 256))) cts in
  verify_commitments_in_batch cts rs (prepare_ek ek) (prepare_gens gens) =
    if negb (Nat.eqb (length rs) (length cts)) then Panic
    else if negb (Nat.eqb (length (ek_Y ek)) nX) then Err (MalformedEncryptionKey (length (ek_Y ek)) nX)
    else if negb (Nat.eqb (length (ek_Z ek)) (nX + 1)) then Err (MalformedEncryptionKey (length (ek_Z ek)) nX)
    else match bad with
    | ct :: _ => Err (IncompatibleEncryptionKey (length (ct_enc_chunks ct)) (nX mod 256))
    | [] => match cts with
            | [] => Panic
            | _ => if (256 <=? nX)%nat then Panic
                   else if gis_zero (dot rs (map (defect ek gens) cts)) then Ok tt else Err InvalidCommitment
            end
    end.
Proof.
  intros nX bad. unfold verify_commitments_in_batch.
  destruct (Nat.eqb_spec (length rs) (length cts)) as [Hl|Hl]; cbn [negb]; [|reflexivity].
  rewrite pek_count_prepare. unfold ek_supported_chunks_count, enc_supported_chunks_count. fold nX.
  destruct (Nat.eqb_spec (length (ek_Y ek)) nX) as [HY|HY]; cbn [negb bind]; [|reflexivity].
  destruct (Nat.eqb_spec (length (ek_Z ek)) (nX + 1)) as [HZ|HZ]; cbn [negb bind]; [|reflexivity].
  assert (Hu8 : Z.to_nat (as_u8 (Z.of_nat nX)) = (nX mod 256)%nat).
  { unfold as_u8. change (2 ^ 8) with (Z.of_nat 256). rewrite <- Nat2Z.inj_mod, Nat2Z.id. reflexivity. }
  rewrite Hu8. clear Hu8.
  destruct bad as [|ct bad'] eqn:Hbad.
  - assert (Hall : Forall (fun ct => length (ct_enc_chunks ct) = (nX mod 256)%nat) cts).
    { apply Forall_forall. intros ct Hin. destruct (Nat.eqb_spec (length (ct_enc_chunks ct)) (nX mod 256)) as [|Hn]; [assumption|].
      exfalso. assert (Hi : In ct bad). { unfold bad. apply filter_In. split; [exact Hin|]. apply Nat.eqb_neq in Hn. rewrite Hn. reflexivity. }
      rewrite Hbad in Hi. destruct Hi. }
    rewrite (check_batch_sizes_ok cts _ Hall). cbn [bind].
    destruct cts as [|ct0 cts'] eqn:Ects; [reflexivity|]. rewrite <- Ects in *.
    rewrite (batch_g1_ok cts rs (nX mod 256)) by (try assumption; congruence). cbn [bind].
    rewrite get_g2_ok by (intros E'; rewrite E' in HZ; cbn in HZ; lia). cbn [bind].
    destruct (Nat.leb_spec 256 nX) as [Hge|Hlt].
    + pose proof (Nat.mod_upper_bound nX 256 ltac:(lia)).
      rewrite multi_pairing_panic; [reflexivity|]. rewrite !map_length, seq_length, app_length. cbn [length]. lia.
    + rewrite Nat.mod_small in * by exact Hlt.
      rewrite multi_pairing_pdot by (rewrite map_length, seq_length, app_length; cbn [length]; lia). cbn [bind].
      rewrite batch_pairing by (try assumption; rewrite app_length; cbn [length]; lia).
      assert (Hmap : map (fun ct => pdot (ct_g1 ct) (ek_Z ek ++ [eg_H gens])) cts = map (defect ek gens) cts).
      { apply map_ext_in. intros ct Hin. apply defect_pdot. rewrite Forall_forall in Hall. rewrite (Hall ct Hin). lia. }
      rewrite Hmap. reflexivity.
  - (* the first bad one *)
    assert (Hsplit : forall l b0 bs, filter (fun ct : ciphertext E => negb (Nat.eqb (length (ct_enc_chunks ct)) (nX mod 256))) l = b0 :: bs ->
       exists pre post, l = pre ++ b0 :: post /\ Forall (fun ct => length (ct_enc_chunks ct) = (nX mod 256)%nat) pre /\
         length (ct_enc_chunks b0) <> (nX mod 256)%nat).
    { induction l as [|x l IH]; intros b0 bs H; cbn [filter] in H; [discriminate|].
      destruct (Nat.eqb_spec (length (ct_enc_chunks x)) (nX mod 256)) as [Hx|Hx]; cbn [negb] in H.
      - destruct (IH b0 bs H) as (pre & post & -> & Hp & Hb). exists (x :: pre), post. repeat split; [constructor; assumption | exact Hb].
      - injection H as -> _. exists [], l. repeat split; [constructor | exact Hx]. }
    destruct (Hsplit cts ct bad' Hbad) as (pre & post & -> & Hpre & Hct).
    rewrite check_batch_sizes_err by assumption. reflexivity.
Qed.

Lemma batch_accept n (cts : list (ciphertext E)) rs (ek : encryption_key E) gens : wf_key n ek -> cts <> [] ->
  (verify_commitments_in_batch cts rs (prepare_ek ek) (prepare_gens gens) = Ok tt <->
   length rs = length cts /\ Forall (fun ct => length (ct_enc_chunks ct) = n) cts /\ dot rs (map (defect ek gens) cts) = gzero).
Proof.
  intros (H256 & HX & HY & HZ) Hne. rewrite batch_total. cbv zeta. rewrite HX, HY, HZ, !Nat.eqb_refl, Nat.mod_small by exact H256. cbn [negb].
  destruct (Nat.eqb_spec (length rs) (length cts)) as [Hl|Hl]; cbn [negb]; [|split; [discriminate|tauto]].
  destruct (filter _ cts) as [|b0 bs] eqn:Hbad.
  - assert (Hall : Forall (fun ct => length (ct_enc_chunks ct) = n) cts).
    { apply Forall_forall. intros ct Hin. destruct (Nat.eqb_spec (length (ct_enc_chunks ct)) n) as [|Hn]; [assumption|].
      exfalso. assert (Hi : In ct []) by (rewrite <- Hbad; apply filter_In; split; [exact Hin|]; apply Nat.eqb_neq in Hn; rewrite Hn; reflexivity).
      destruct Hi. }
    destruct cts as [|ct0 cts'] eqn:Ects; [contradiction|]. rewrite <- Ects in *.
    destruct (Nat.leb_spec 256 n); [lia|].
    unfold gis_zero. destruct (geqb (dot rs (map (defect ek gens) cts)) gzero) eqn:Ed.
    + apply geqb_spec in Ed. tauto.
    + apply geqb_false in Ed. split; [discriminate|tauto].
  - split; [discriminate|]. intros (_ & Hall & _). exfalso.
    assert (Hi : In b0 (filter (fun ct : ciphertext E => negb (Nat.eqb (length (ct_enc_chunks ct)) n)) cts)) by (rewrite Hbad; left; reflexivity).
    apply filter_In in Hi. destruct Hi as [Hi Hn]. rewrite Forall_forall in Hall. rewrite (Hall b0 Hi), Nat.eqb_refl in Hn. discriminate.
Qed.

(* completeness *)
Theorem batch_complete (cts : list (ciphertext E)) rs (ek : encryption_key E) gens : cts <> [] -> length rs = length cts ->
  Forall (fun ct => verify_commitment ct (prepare_ek ek) (prepare_gens gens) = Ok tt) cts ->
  verify_commitments_in_batch cts rs (prepare_ek ek) (prepare_gens gens) = Ok tt.
Proof.
  intros Hne Hl Hall.
  assert (Hwf : wf_key (length (ek_X ek)) ek).
  { destruct cts as [|ct cts]; [contradiction|]. inversion Hall as [|? ? H _]; subst. apply accept_wf in H.
    pose proof H as (H256 & HX & HY & HZ). rewrite HX. exact H. }
  apply (batch_accept _ cts rs ek gens Hwf Hne). split; [exact Hl|]. split.
  - eapply Forall_impl; [|exact Hall]. intros ct H. apply (verify_accept _ _ _ _ Hwf) in H. tauto.
  - assert (Hz : map (defect ek gens) cts = map (fun _ => gzero) cts).
    { apply map_ext_in. intros ct Hin. rewrite Forall_forall in Hall. specialize (Hall ct Hin). apply (verify_accept _ _ _ _ Hwf) in Hall. tauto. }
    rewrite Hz. clear. revert cts. induction rs as [|a rs IH]; intros [|ct cts]; cbn [map dot]; try reflexivity.
    rewrite IH, smul_0_r. apply gadd_0_l.
Qed.

(* one ciphertext with coefficient 1: the same check *)
Theorem batch_single (ct : ciphertext E) (ek : encryption_key E) gens :
  verify_commitments_in_batch [ct] [fone] (prepare_ek ek) (prepare_gens gens) =
  verify_commitment ct (prepare_ek ek) (prepare_gens gens).
Proof.
  rewrite batch_total, verify_total. cbv zeta. cbn [length Nat.eqb negb filter map dot].
  destruct (negb (Nat.eqb (length (ek_Y ek)) (length (ek_X ek)))); [reflexivity|].
  destruct (negb (Nat.eqb (length (ek_Z ek)) (length (ek_X ek) + 1))); [reflexivity|].
  destruct (negb (Nat.eqb (length (ct_enc_chunks ct)) (length (ek_X ek) mod 256))); [reflexivity|].
  rewrite smul_1_l, gadd_0_r. reflexivity.
Qed.

(* ---------- soundness: polynomials with coefficients in a group ---------- *)
Section Poly.
Context {G : group (K_of E)}.
Fixpoint peval (ds : list G) (x : Fr E) : G := match ds with [] => gzero | d :: ds' => d [+] (x [*] peval ds' x) end.
Fixpoint pquot (ds : list G) (a : Fr E) : list G :=
  match ds with [] => [] | d :: ds' => match ds' with [] => [] | _ => peval ds' a :: pquot ds' a end end.
Lemma pquot_length ds a : length (pquot ds a) = pred (length ds).
Proof. induction ds as [|d ds IH]; [reflexivity|]. cbn [pquot]. destruct ds as [|d' ds]; [reflexivity|]. cbn [length] in *. rewrite IH. reflexivity. Qed.
Lemma pquot_spec ds a x : peval ds x [+] [-] peval ds a = fsub x a [*] peval (pquot ds a) x.
Proof.
  induction ds as [|d ds IH]; [cbn; rewrite smul_0_r; apply gadd_neg_r|].
  destruct ds as [|d' ds].
  - cbn. rewrite !smul_0_r. glin.
  - change (pquot (d :: d' :: ds) a) with (peval (d' :: ds) a :: pquot (d' :: ds) a).
    set (R := d' :: ds) in *. cbn [peval]. rewrite smul_gadd, <- smul_fmul.
    replace (fmul (fsub x a) x) with (fmul x (fsub x a)) by ring. rewrite smul_fmul, <- IH. glin.
Qed.
Lemma pquot_zero ds a : Forall (fun d => d = gzero) (pquot ds a) -> peval ds a = gzero -> Forall (fun d => d = gzero) ds.
Proof.
  induction ds as [|d ds IH]; intros Hq H0; [constructor|]. destruct ds as [|d' ds].
  - cbn in H0. rewrite smul_0_r, gadd_0_r in H0. constructor; [exact H0|constructor].
  - change (pquot (d :: d' :: ds) a) with (peval (d' :: ds) a :: pquot (d' :: ds) a) in Hq.
    set (R := d' :: ds) in *. pose proof (Forall_inv Hq) as Hr. cbv beta in Hr. pose proof (Forall_inv_tail Hq) as Hq'. specialize (IH Hq' Hr). constructor; [|exact IH].
    change (peval (d :: R) a) with (d [+] (a [*] peval R a)) in H0. rewrite Hr, smul_0_r, gadd_0_r in H0. exact H0.
Qed.
Lemma poly_roots rs : forall ds, NoDup rs -> (length ds <= length rs)%nat -> (forall r, In r rs -> peval ds r = gzero) ->
  Forall (fun d => d = gzero) ds.
Proof.
  induction rs as [|a rs IH]; intros ds Hnd Hl Hroot.
  - destruct ds; [constructor|cbn in Hl; lia].
  - inversion Hnd as [|? ? Hna Hnd']; subst. apply (pquot_zero ds a); [|apply Hroot; left; reflexivity].
    apply IH; [exact Hnd' | rewrite pquot_length; cbn [length] in Hl; lia |].
    intros r Hr. assert (Hra : r <> a) by (intros ->; contradiction).
    pose proof (pquot_spec ds a r) as Hs. rewrite (Hroot r) in Hs by (right; exact Hr). rewrite (Hroot a) in Hs by (left; reflexivity).
    rewrite gadd_neg_r in Hs. symmetry in Hs. apply smul_eq_zero in Hs. destruct Hs as [Hs|Hs]; [|exact Hs].
    apply fsub_zero_eq in Hs. contradiction.
Qed.
Lemma peval_dot (ds : list G) x : dot (map (fpow x) (seq 0 (length ds))) ds = peval ds x.
Proof.
  assert (H : forall k, dot (map (fpow x) (seq k (length ds))) ds = fpow x k [*] peval ds x).
  { induction ds as [|d ds IH]; intros k; cbn [length seq map dot peval]; [symmetry; apply smul_0_r|].
    rewrite IH, fpow_S. rewrite smul_gadd, <- smul_fmul. do 2 f_equal. ring. }
  rewrite H. change (fpow x 0) with (@fone (K_of E)). apply smul_1_l.
Qed.
End Poly.

Theorem batch_sound (cts : list (ciphertext E)) (ek : encryption_key E) gens (rs : list (Fr E)) :
  NoDup rs ->
  (forall r, In r rs ->
     verify_commitments_in_batch cts (map (fpow r) (seq 0 (length cts))) (prepare_ek ek) (prepare_gens gens) = Ok tt) ->
  (length cts <= length rs)%nat -> rs <> [] ->
  Forall (fun ct => verify_commitment ct (prepare_ek ek) (prepare_gens gens) = Ok tt) cts.
Proof.
  intros Hnd Hacc Hlen Hne.
  destruct cts as [|ct0 cts'] eqn:Ects; [constructor|]. rewrite <- Ects in *.
  assert (Hcne : cts <> []) by congruence.
  destruct rs as [|r0 rs'] eqn:Ers; [contradiction|]. rewrite <- Ers in *.
  assert (Hwf : wf_key (length (ek_X ek)) ek).
  { assert (H0 : In r0 rs) by (rewrite Ers; left; reflexivity). specialize (Hacc r0 H0). rewrite batch_total in Hacc. cbv zeta in Hacc.
    destruct (negb (Nat.eqb (length (map _ _)) (length cts))); [discriminate|]. unfold wf_key.
    destruct (Nat.eqb_spec (length (ek_Y ek)) (length (ek_X ek))) as [HY|HY]; cbn [negb] in Hacc; [|discriminate].
    destruct (Nat.eqb_spec (length (ek_Z ek)) (length (ek_X ek) + 1)) as [HZ|HZ]; cbn [negb] in Hacc; [|discriminate].
    destruct (filter _ cts); [|discriminate]. rewrite Ects in Hacc at 1.
    destruct (Nat.leb_spec 256 (length (ek_X ek))); [discriminate|]. repeat split; lia. }
  assert (Hshape : Forall (fun ct => length (ct_enc_chunks ct) = length (ek_X ek)) cts).
  { assert (H0 : In r0 rs) by (rewrite Ers; left; reflexivity). specialize (Hacc r0 H0).
    apply (batch_accept _ _ _ _ _ Hwf Hcne) in Hacc. tauto. }
  assert (Hz : Forall (fun d => d = gzero) (map (defect ek gens) cts)).
  { apply (poly_roots rs); [exact Hnd | rewrite map_length; exact Hlen |]. intros r Hr.
    specialize (Hacc r Hr). apply (batch_accept _ _ _ _ _ Hwf Hcne) in Hacc. destruct Hacc as (_ & _ & Hacc).
    rewrite <- peval_dot, map_length. exact Hacc. }
  apply Forall_forall. intros ct Hin. apply (verify_accept _ _ _ _ Hwf). split.
  - rewrite Forall_forall in Hshape. apply Hshape; exact Hin.
  - rewrite Forall_forall in Hz. apply Hz. apply in_map; exact Hin.
Qed.
End VerifyFacts.
