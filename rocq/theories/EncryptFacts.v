(* EncryptFacts.v -- what encryption returns (C24 and the basis of C12-C19, C25) *)
From Verif Require Import Base BaseFacts Algebra Utils UtilsFacts CommitmentFacts Setup Keygen KeygenFacts Encryption
  Spec KeySpec VecFacts.

Section EncryptFacts.
Context {E : pairing}.
Add Ring Kr : (@scalar_ring_theory (K_of E)).

(* ciphertext of chunk values m with randomness r, as formulas *)
Definition body_formula (X g_i : list (G1 E)) (m : list Z) (r : Fr E) : list (G1 E) :=
  map (fun i => (r [*] nth i X gzero) [+] (of_Z (nth i m 0) [*] nth i g_i gzero)) (seq 0 (length m)).
Definition psi_formula (ek : encryption_key E) (m : list Z) (r : Fr E) : G1 E :=
  dot (map of_Z m) (ek_Y ek) [+] (r [*] ek_P_1 ek).
Definition ct_formula (ek : encryption_key E) (g_i : list (G1 E)) (m : list Z) (r : Fr E) : ciphertext E :=
  Ciphertext (r [*] ek_X_0 ek) (body_formula (ek_X ek) g_i m r) (psi_formula ek m r).
Definition ct_vec (ct : ciphertext E) : list (G1 E) := ct_X_r ct :: ct_enc_chunks ct ++ [ct_commitment ct].

Lemma msm_dot (xs : list (G1 E)) (ms : list Z) : msm_bigint xs ms = dot (map of_Z ms) xs.
Proof.
  revert ms; induction xs as [|x xs IH]; intros [|m ms]; try reflexivity.
  rewrite msm_cons, IH, mul_bigint_smul. reflexivity.
Qed.

Lemma body_formula_length X g_i m r : length (body_formula X g_i m r) = length m.
Proof. unfold body_formula; now rewrite map_length, seq_length. Qed.
Lemma body_formula_nth X g_i m r i : (i < length m)%nat ->
  nth i (body_formula X g_i m r) gzero = (r [*] nth i X gzero) [+] (of_Z (nth i m 0) [*] nth i g_i gzero).
Proof.
  intros Hi. exact (map_seq_nth (fun i => (r [*] nth i X gzero) [+] (of_Z (nth i m 0) [*] nth i g_i gzero)) _ i gzero Hi).
Qed.

Theorem encrypt_chunks_ok (R : rng_impl E) (m : list Z) (ek : encryption_key E) g_i st :
  length (ek_Y ek) = length (ek_X ek) -> length (ek_Z ek) = (length (ek_X ek) + 1)%nat ->
  (length (ek_X ek) < 256)%nat -> length m = length (ek_X ek) -> (length m <= length g_i)%nat ->
  encrypt_decomposed_message R m ek g_i st =
    Ok (ct_vec (ct_formula ek g_i m (fst (rand_scalar R st))), fst (rand_scalar R st), snd (rand_scalar R st)).
Proof.
  intros HY HZ H256 Hm Hg. unfold encrypt_decomposed_message, ek_supported_chunks_count.
  rewrite HY, HZ, enc_supported_ok by exact H256. cbn [bind]. rewrite Nat2Z.id, Hm, Nat.eqb_refl. cbn [negb].
  destruct (Nat.ltb_spec (length g_i) (length (ek_X ek))); [lia|].
  destruct (rand_scalar R st) as [r st1]. cbn [fst snd].
  assert (Hbody : mapM (fun i => x <- idx (ek_X ek) i ;; g <- idx g_i i ;; m0 <- idx m i ;;
            Ok (mul_bigint x (into_bigint r) [+] mul_bigint g m0)) (seq 0 (length (ek_X ek)))
          = Ok (body_formula (ek_X ek) g_i m r)).
  { apply mapM_seq_intro; [rewrite body_formula_length; exact Hm|]. intros i y Hy. cbn [Nat.add].
    assert (Hi : (i < length m)%nat) by (rewrite <- (body_formula_length (ek_X ek) g_i m r); apply nth_error_Some; congruence).
    apply (nth_error_nth _ _ gzero) in Hy. rewrite body_formula_nth in Hy by exact Hi. subst y.
    rewrite (idx_nth (ek_X ek) i gzero), (idx_nth g_i i gzero), (idx_nth m i 0) by lia. cbn [bind].
    rewrite (mul_bigint_smul (nth i g_i gzero)). reflexivity. }
  rewrite Hbody. cbn [bind]. unfold ct_vec, ct_formula. cbn [ct_X_r ct_enc_chunks ct_commitment].
  do 5 f_equal. unfold ek_commitment_key. rewrite msm_app by lia. rewrite msm_dot. unfold psi_formula.
  do 3 f_equal. cbn. f_equal. apply gadd_0_r.
Qed.

Lemma ct_of_vec_ct_vec (ct : ciphertext E) : ct_of_vec (ct_vec ct) = Ok ct.
Proof.
  unfold ct_of_vec, ct_vec. rewrite rev_app_distr. cbn. rewrite rev_involutive. destruct ct; reflexivity.
Qed.

(* ---------- the complete case analysis of encrypt_decomposed_message ---------- *)
Theorem encrypt_chunks_total (R : rng_impl E) (m : list Z) (ek : encryption_key E) g_i st :
  let nX := length (ek_X ek) in
  encrypt_decomposed_message R m ek g_i st =
    if negb (Nat.eqb (length (ek_Y ek)) nX) then Err (MalformedEncryptionKey (length (ek_Y ek)) nX)
    else if negb (Nat.eqb (length (ek_Z ek)) (nX + 1)) then Err (MalformedEncryptionKey (length (ek_Z ek)) nX)
    else if negb (Nat.eqb (length m) (nX mod 256)) then Err (IncompatibleEncryptionKey (length m) (nX mod 256))
    else if (length g_i <? length m)%nat then Err (VectorShorterThanExpected (length m) (length g_i))
    else if (nX <? 256)%nat
    then Ok (ct_vec (ct_formula ek g_i m (fst (rand_scalar R st))), fst (rand_scalar R st), snd (rand_scalar R st))
    else Panic.
Proof.
  intros nX.
  destruct (Nat.eqb_spec (length (ek_Y ek)) nX) as [HY|HY]; cbn [negb];
    [|unfold encrypt_decomposed_message, ek_supported_chunks_count, enc_supported_chunks_count;
      fold nX; destruct (Nat.eqb_spec (length (ek_Y ek)) nX); [contradiction|reflexivity]].
  destruct (Nat.eqb_spec (length (ek_Z ek)) (nX + 1)) as [HZ|HZ]; cbn [negb];
    [|unfold encrypt_decomposed_message, ek_supported_chunks_count, enc_supported_chunks_count;
      fold nX; rewrite HY, Nat.eqb_refl; cbn [negb]; destruct (Nat.eqb_spec (length (ek_Z ek)) (nX + 1)); [contradiction|reflexivity]].
  destruct (Nat.ltb_spec nX 256) as [Hlt|Hge].
  - rewrite (Nat.mod_small nX 256) by exact Hlt.
    destruct (Nat.eqb_spec (length m) nX) as [Hm|Hm]; cbn [negb].
    + destruct (Nat.ltb_spec (length g_i) (length m)) as [Hg|Hg].
      * unfold encrypt_decomposed_message, ek_supported_chunks_count. fold nX. rewrite HY, HZ, enc_supported_ok by exact Hlt.
        cbn [bind]. rewrite Nat2Z.id, Hm, Nat.eqb_refl. cbn [negb]. rewrite <- Hm.
        destruct (Nat.ltb_spec (length g_i) (length m)); [reflexivity|lia].
      * apply encrypt_chunks_ok; assumption.
    + unfold encrypt_decomposed_message, ek_supported_chunks_count. fold nX. rewrite HY, HZ, enc_supported_ok by exact Hlt.
      cbn [bind]. rewrite Nat2Z.id. destruct (Nat.eqb_spec (length m) nX); [contradiction|reflexivity].
  - assert (Hcnt : ek_supported_chunks_count ek = Ok (Z.of_nat (nX mod 256))).
    { unfold ek_supported_chunks_count, enc_supported_chunks_count. fold nX. rewrite HY, HZ, !Nat.eqb_refl. cbn [negb].
      unfold as_u8. rewrite Nat2Z.inj_mod. reflexivity. }
    unfold encrypt_decomposed_message. rewrite Hcnt. cbn [bind]. rewrite Nat2Z.id.
    destruct (Nat.eqb_spec (length m) (nX mod 256)) as [Hm|Hm]; cbn [negb]; [|reflexivity].
    destruct (Nat.ltb_spec (length g_i) (length m)) as [Hg|Hg]; [reflexivity|].
    destruct (rand_scalar R st) as [r st1]. fold nX.
    pose proof (Nat.mod_upper_bound nX 256 ltac:(lia)) as Hmod.
    rewrite (mapM_seq_panic _ 0 nX (length m)); [reflexivity | lia | |].
    + intros i Hi. cbn [Nat.add]. rewrite (idx_nth (ek_X ek) i gzero), (idx_nth g_i i gzero), (idx_nth m i 0) by (fold nX; lia).
      cbn [bind]. eauto.
    + cbn [Nat.add]. rewrite (idx_nth (ek_X ek) (length m) gzero) by (fold nX; lia). cbn [bind].
      rewrite (idx_ge m) by lia. destruct (idx g_i (length m)) eqn:Eg; cbn [bind]; try reflexivity.
      unfold idx in Eg. destruct (nth_error g_i (length m)); discriminate.
Qed.

(* ---------- honest keys ---------- *)
Lemma honest_body_opens gens g_i delta gamma (s : list (Fr E)) t0 t m r :
  length m = length s -> Forall (fun z => 0 <= z) m ->
  let ek := ek_formula gens g_i delta gamma s t0 t in
  opens_to s g_i (ct_X_r (ct_formula ek g_i m r)) (ct_enc_chunks (ct_formula ek g_i m r)) m.
Proof.
  intros Hm Hpos. cbn. unfold opens_to. rewrite body_formula_length. split; [exact Hm|]. split; [exact Hm|].
  intros i Hi. split.
  - rewrite Forall_forall in Hpos. apply Hpos. apply nth_In. lia.
  - rewrite body_formula_nth by lia.
    rewrite (nth_map_default (fun x => x [*] delta) s i fzero gzero) by apply smul_0_l.
    rewrite <- !smul_fmul. f_equal. f_equal. ring.
Qed.
End EncryptFacts.
