(* PropSpyShare.v -- C82: one dishonest P_1 share gives away messages, although the contributions of all parties were honest. *)
From Verif Require Import Base BaseFacts Algebra Utils UtilsFacts Setup Keygen KeygenFacts Encryption
  EncryptFacts DecryptFacts RoundTrip VerifyFacts Spec KeySpec VecFacts Protocol Circuit ReencFacts DistFacts SchwartzZippel PrivacyAlg PrivacyDkgSpec PrivacyDkg Instance Examples PropEnc PropVerify PropProto PropRobust.

(* The last party waits for the shares of the others and then sends this one, made of public values and a scalar k of its own. *)
Definition spying_share {E : pairing} (k : Fr E) (X_0 : G1 E) (others : list (p1share E)) : p1share E := P1share ((k [*] X_0) [+] [-] gsum (map p1_P_1 others)).
(* Does the ciphertext contain the chunks m?  Uses k and public values only. *)
Definition candidate_test {E : pairing} (k : Fr E) (ek : encryption_key E) (c_0 psi : G1 E) (m : list Z) : bool :=
  geqb (psi [+] [-] (k [*] c_0)) (gsum (map (fun i => mul_bigint (nth i (ek_Y ek) gzero) (nth i m 0)) (seq 0 (length m)))).

Section Spy.
Context {E : pairing}.
Local Notation K := (K_of E).
Local Notation F := (Fr E).
Add Ring Kring82 : (@scalar_ring_theory K).

Lemma weighted (Y : list (G1 E)) (m : list Z) : gsum (map (fun i => mul_bigint (nth i Y gzero) (nth i m 0)) (seq 0 (length m))) = dot (map of_Z m) Y.
Proof.
  rewrite (dot_as_gsum (map of_Z m) Y (length m)) by apply map_length. f_equal. apply map_ext_in. intros i Hi. apply in_seq in Hi. rewrite mul_bigint_smul. f_equal.
  rewrite (nth_indep _ fzero (of_Z 0)) by (rewrite map_length; lia). rewrite map_nth. reflexivity.
Qed.
Lemma spy_sum (k : F) X_0 (others : list (p1share E)) : combineP1share (others ++ [spying_share k X_0 others]) = Ok (P1share (k [*] X_0)).
Proof.
  assert (Q : gsum (map p1_P_1 (others ++ [spying_share k X_0 others])) = k [*] X_0).
  { rewrite map_app, gsum_app. cbn [map spying_share p1_P_1]. rewrite gsum_cons. cbn [gsum]. unfold gsum at 2. cbn. rewrite (gadd_comm (k [*] X_0)).
    rewrite ?gadd_0_r. rewrite gadd_assoc, gadd_neg_r, gadd_0_l. reflexivity. }
  rewrite <- Q. destruct others as [|p0 l]; cbn [app]; apply combineP1share_ok.
Qed.

(* All contributions and all other shares are honest.  The key is produced and passes validate; everybody (knowing k) computes the weighted sum of the
   chunks of every honest ciphertext, so tests of candidate messages always recognize the right one, and wrong ones only if they have the same sum. *)
Theorem C82_one_dishonest_share_reveals_the_weighted_sum b gens g_i delta gamma parties (ek : encryption_key E) others own (k : F) :
  from_dkg b gens g_i delta gamma parties ek -> honest_shares gamma parties = Ok (others ++ [own]) ->
  exists ek', dkg_with_shares gamma parties (others ++ [spying_share k (ek_X_0 ek) others]) = Ok ek' /\ ek_validate ek' = Ok tt /\
    ek_X_0 ek' = ek_X_0 ek /\ ek_X ek' = ek_X ek /\ ek_Y ek' = ek_Y ek /\ ek_Z ek' = ek_Z ek /\ ek_P_2 ek' = ek_P_2 ek /\ ek_P_1 ek' = k [*] ek_X_0 ek /\
    forall m c_0 c psi r, encrypts ek' g_i m (c_0 :: c ++ [psi]) r ->
      psi [+] [-] (k [*] c_0) = gsum (map (fun i => mul_bigint (nth i (ek_Y ek) gzero) (nth i m 0)) (seq 0 (length m))) /\
      candidate_test k ek' c_0 psi m = true /\
      forall m', candidate_test k ek' c_0 psi m' = true <-> candidate_test fzero ek' c_0 (gsum (map (fun i => mul_bigint (nth i (ek_Y ek) gzero) (nth i m 0)) (seq 0 (length m)))) m' = true.
Proof.
  intros Hd Hsh. pose proof Hd as (_ & _ & Hdk). rewrite dkg_split, Hsh in Hdk. cbn [bind] in Hdk.
  unfold dkg_with_shares in *. destruct (combineEKs gamma (map snd parties)) as [ekp|e|] eqn:Ec; cbn [bind] in *; try discriminate Hdk.
  apply bind_Ok_inv in Hdk. destruct Hdk as (p1 & Hp1 & Hek). assert (Eek : ek = keygenFinal ekp p1) by congruence. clear Hek.
  assert (Hhk : honest_key b gens g_i delta gamma ek) by (right; exists parties; exact Hd). apply honest_key_inv in Hhk. destruct Hhk as (n & s & t0 & t & Hn & Hg & Hlt & Hs & Ht & Hek).
  pose proof (formula_wf gens g_i delta gamma s t0 t n Hs Ht Hg Hlt) as Hw. rewrite <- Hek in Hw. pose proof Hw as (_ & LX & LY & LZ).
  exists (keygenFinal ekp (P1share (k [*] ek_X_0 ek))). rewrite spy_sum. cbn [bind]. split; [reflexivity|]. split.
  { rewrite Eek in LX, LY, LZ. unfold ek_validate, ek_supported_chunks_count, enc_supported_chunks_count. unfold keygenFinal in *. cbn [ek_X ek_Y ek_Z] in *. rewrite LX, LY, LZ, !Nat.eqb_refl. reflexivity. }
  do 6 (split; [rewrite Eek; reflexivity|]).
  intros m c_0 c psi r He. apply encrypts_inv in He. destruct He as (n' & _ & Hm & _ & Hct). apply ct_vec_eq in Hct. destruct Hct as (-> & _ & ->).
  assert (EY : ek_Y (keygenFinal ekp (P1share (k [*] ek_X_0 ek))) = ek_Y ek) by (rewrite Eek; reflexivity).
  assert (EX : ek_X_0 (keygenFinal ekp (P1share (k [*] ek_X_0 ek))) = ek_X_0 ek) by (rewrite Eek; reflexivity).
  assert (EP : ek_P_1 (keygenFinal ekp (P1share (k [*] ek_X_0 ek))) = k [*] ek_X_0 ek) by reflexivity.
  set (ek' := keygenFinal ekp (P1share (k [*] ek_X_0 ek))) in *. unfold ct_formula. cbn [ct_X_r ct_commitment]. unfold psi_formula.
  assert (Hsum : (dot (map of_Z m) (ek_Y ek') [+] (r [*] ek_P_1 ek')) [+] [-] (k [*] (r [*] ek_X_0 ek')) = gsum (map (fun i => mul_bigint (nth i (ek_Y ek) gzero) (nth i m 0)) (seq 0 (length m)))).
  { rewrite weighted, EY, EX, EP, <- !smul_fmul. replace (fmul k r) with (fmul r k) by ring. rewrite <- gadd_assoc, gadd_neg_r, gadd_0_r. reflexivity. }
  split; [exact Hsum|]. unfold candidate_test. rewrite !Hsum, EY. split; [apply geqb_spec; reflexivity|].
  intros m'. rewrite smul_0_l, gneg_0, gadd_0_r. reflexivity.
Qed.

(* One unknown chunk is always found: candidates that differ from the message in the chunk j only (as numbers below the group order) are told apart. *)
Theorem C82_one_unknown_chunk_is_found (k : F) (ek : encryption_key E) g_i m c_0 c psi r m' j : ek_P_1 ek = k [*] ek_X_0 ek -> encrypts ek g_i m (c_0 :: c ++ [psi]) r ->
  length m' = length m -> (j < length m)%nat -> (forall i, i <> j -> nth i m' 0 = nth i m 0) -> nth j (ek_Y ek) gzero <> gzero ->
  0 <= nth j m 0 < modulus K -> 0 <= nth j m' 0 < modulus K ->
  candidate_test k ek c_0 psi m' = true <-> m' = m.
Proof.
  intros HP He Hl Hj Hi HY Hm Hm'. apply encrypts_inv in He. destruct He as (n' & _ & Hlm & _ & Hct). apply ct_vec_eq in Hct. destruct Hct as (-> & _ & ->).
  unfold candidate_test, ct_formula. cbn [ct_X_r ct_commitment]. unfold psi_formula. rewrite HP, <- !smul_fmul. replace (fmul k r) with (fmul r k) by ring. rewrite <- gadd_assoc, gadd_neg_r, gadd_0_r. rewrite <- weighted, geqb_spec, Hl.
  split; [|intros ->; reflexivity]. intros Hs.
  assert (Hsplit : forall (f : nat -> G1 E), gsum (map f (seq 0 (length m))) = f j [+] gsum (map (fun i => if Nat.eqb i j then gzero else f i) (seq 0 (length m)))).
  { intros f. assert (X : forall n0 st, (st <= j < st + n0)%nat -> gsum (map f (seq st n0)) = f j [+] gsum (map (fun i => if Nat.eqb i j then gzero else f i) (seq st n0))).
    { assert (Y : forall n0 st, (j < st)%nat -> gsum (map (fun i => if Nat.eqb i j then gzero else f i) (seq st n0)) = gsum (map f (seq st n0))).
      { intros n0 st Hst. f_equal. apply map_ext_in. intros i Hin. apply in_seq in Hin. destruct (Nat.eqb_spec i j); [lia|reflexivity]. }
      induction n0 as [|n0 IH]; intros st Hst; [lia|]. cbn [seq map]. rewrite !gsum_cons. destruct (Nat.eqb_spec st j) as [->|Hne].
      - rewrite Y by lia. rewrite gadd_0_l. reflexivity.
      - rewrite IH by lia. rewrite !gadd_assoc, (gadd_comm (f st)). reflexivity. }
    apply X. lia. }
  rewrite (Hsplit (fun i => mul_bigint (nth i (ek_Y ek) gzero) (nth i m 0))), (Hsplit (fun i => mul_bigint (nth i (ek_Y ek) gzero) (nth i m' 0))) in Hs.
  replace (map (fun i => if Nat.eqb i j then gzero else mul_bigint (nth i (ek_Y ek) gzero) (nth i m' 0)) (seq 0 (length m)))
    with (map (fun i => if Nat.eqb i j then gzero else mul_bigint (nth i (ek_Y ek) gzero) (nth i m 0)) (seq 0 (length m))) in Hs.
  2:{ apply map_ext. intros i. destruct (Nat.eqb_spec i j) as [|Hne]; [reflexivity|]. rewrite (Hi i Hne). reflexivity. }
  rewrite !(gadd_comm (mul_bigint _ _)) in Hs. apply gadd_cancel_l in Hs. rewrite !mul_bigint_smul in Hs. apply smul_inj_scalar in Hs; [|exact HY].
  apply (f_equal sval) in Hs. rewrite !sval_of_Z, !Z.mod_small in Hs by lia.
  apply (nth_ext m' m 0 0 Hl). intros i _. destruct (Nat.eq_dec i j) as [->|Hne]; [congruence|apply Hi; exact Hne].
Qed.

(* Wrong candidates rarely match: whatever the other parties did, two lists of chunks that differ (modulo the group order) in a chunk with a generator other
   than the identity have the same sum for at most a fraction 1/p of the coins of one honest party (2n+1 scalars). *)
Definition without {A} (i : nat) (l : list A) : list A := firstn i l ++ skipn (S i) l.
Lemma without_length {A} i (l : list A) k : length l = S k -> (i <= k)%nat -> length (without i l) = k.
Proof. intros H Hi. unfold without. rewrite app_length, firstn_length, skipn_length. lia. Qed.
Lemma without_inj (l1 l2 : list F) i : length l1 = length l2 -> (i < length l1)%nat -> without i l1 = without i l2 -> nth i l1 fzero = nth i l2 fzero -> l1 = l2.
Proof.
  revert l2 i; induction l1 as [|x l1 IH]; intros [|y l2] i Hl Hi Hw Hn; cbn [length] in *; try lia. destruct i as [|i].
  - unfold without in Hw. cbn [firstn skipn app nth] in *. congruence.
  - unfold without in Hw. cbn [firstn app nth] in *. change (skipn (S (S i)) (x :: l1)) with (skipn (S i) l1) in Hw. change (skipn (S (S i)) (y :: l2)) with (skipn (S i) l2) in Hw.
    assert (Hxy : x = y) by congruence. subst y. f_equal. apply (IH l2 i); [lia|lia| |exact Hn]. unfold without. congruence.
Qed.
Lemma without_nth (l1 l2 : list F) i j : without i l1 = without i l2 -> length l1 = length l2 -> (i < length l1)%nat -> j <> i -> nth j l1 fzero = nth j l2 fzero.
Proof.
  revert l2 i j; induction l1 as [|x l1 IH]; intros [|y l2] i j Hw Hl Hi Hj; cbn [length] in *; try lia. destruct i as [|i].
  - unfold without in Hw. cbn [firstn skipn app] in *. destruct j; [lia|]. cbn [nth]. congruence.
  - unfold without in Hw. cbn [firstn app] in *. change (skipn (S (S i)) (x :: l1)) with (skipn (S i) l1) in Hw. change (skipn (S (S i)) (y :: l2)) with (skipn (S i) l2) in Hw.
    destruct j as [|j]; cbn [nth]; [congruence|]. apply (IH l2 i j); [unfold without; congruence|lia|lia|lia].
Qed.

Theorem C82_wrong_candidates_rarely_match b gens g_i delta gamma before after n (m m' : list Z) j (L : list (list F)) :
  chunks_count K b = Ok (Z.of_nat n) -> (n <= length g_i)%nat -> (n < 256)%nat -> Forall (from_partial b gens g_i delta gamma) before -> Forall (from_partial b gens g_i delta gamma) after ->
  length m = n -> length m' = n -> (j < n)%nat -> nth j g_i gzero <> gzero -> @of_Z K (nth j m 0) <> of_Z (nth j m' 0) ->
  NoDup L -> (forall tape, In tape L -> length tape = (2 * n + 1)%nat /\ exists sk part rest ek,
     FkeygenPartial (replay_rng E) b gens g_i delta gamma tape = Ok (sk, part, rest) /\ dkg gamma (before ++ (sk, part) :: after) = Ok ek /\
     gsum (map (fun i => mul_bigint (nth i (ek_Y ek) gzero) (nth i m 0)) (seq 0 n)) = gsum (map (fun i => mul_bigint (nth i (ek_Y ek) gzero) (nth i m' 0)) (seq 0 n))) ->
  Z.of_nat (length L) * modulus K <= modulus K ^ Z.of_nat (2 * n + 1).
Proof.
  intros Hn Hg H256 Hb Ha Lm Lm' Hj Hgj Hne Hnd HL.
  set (idx0 := (n + 1 + j)%nat).
  set (kt := fcol_sum n (map party_t (before ++ after))).
  set (d := fun i => fsub (@of_Z K (nth i m 0)) (of_Z (nth i m' 0))).
  assert (Hcond : forall tape, In tape L -> length tape = (2 * n + 1)%nat /\ gsum (map (fun i => fmul (d i) (fadd (nth (n + 1 + i) tape fzero) (nth i kt fzero)) [*] nth i g_i gzero) (seq 0 n)) = gzero).
  { intros tape Ht. destruct (HL tape Ht) as (Lt & sk & part & rest & ek & Hk & Hd & Hs). split; [exact Lt|].
    assert (Hfp : Forall (from_partial b gens g_i delta gamma) (before ++ (sk, part) :: after)).
    { apply Forall_app. split; [exact Hb|]. constructor; [|exact Ha]. exists (replay_rng E), tape, rest. exact Hk. }
    assert (Hnn : before ++ (sk, part) :: after <> []) by (destruct before; discriminate).
    rewrite (dkg_formula b gens g_i delta gamma _ n Hn Hnn Hfp) in Hd.
    assert (Hn0 : (0 < n)%nat) by lia. destruct (@tape_cut E n (cs_new Circuit.Setup) [] b Hn0 tape Lt) as (Et & L1 & L2). rewrite Et in Hk. rewrite (partial_replay b gens g_i delta gamma n) in Hk by (try assumption; lia).
    assert (Esk : sk = SecretKeyST (ts_s n tape) (ts_t0 n tape :: ts_t n tape)) by congruence.
    assert (EY : ek_Y ek = scale (fcol_sum n (map party_t (before ++ (sk, part) :: after))) g_i).
    { assert (Eek : ek = ek_formula gens g_i delta gamma (fcol_sum n (map party_s (before ++ (sk, part) :: after))) (fsum (map party_t0 (before ++ (sk, part) :: after))) (fcol_sum n (map party_t (before ++ (sk, part) :: after)))) by congruence.
      rewrite Eek. reflexivity. }
    assert (HYi : forall i, (i < n)%nat -> nth i (ek_Y ek) gzero = fadd (nth (n + 1 + i) tape fzero) (nth i kt fzero) [*] nth i g_i gzero).
    { intros i Hi. rewrite EY, scale_nth. f_equal. unfold kt. rewrite !fcol_sum_nth by exact Hi. rewrite !map_app, !fsum_app. cbn [map]. rewrite fsum_cons.
      unfold party_t at 2. rewrite Esk. cbn [fst st_t tl]. unfold ts_t. rewrite nth_skipn. ring. }
    assert (Hz : gsum (map (fun i => mul_bigint (nth i (ek_Y ek) gzero) (nth i m 0)) (seq 0 n)) [+] [-] gsum (map (fun i => mul_bigint (nth i (ek_Y ek) gzero) (nth i m' 0)) (seq 0 n)) = gzero) by (rewrite Hs; apply gadd_neg_r).
    refine (eq_trans _ Hz). clear Hz Hs. generalize (fun i (Hi : In i (seq 0 n)) => HYi i (proj2 (proj1 (in_seq n 0 i) Hi))). generalize (seq 0 n). intros l Hl.
    induction l as [|i l IH]; [cbn; rewrite gneg_0, gadd_0_l; reflexivity|]. cbn [map]. rewrite !gsum_cons. rewrite IH by (intros i' Hi'; apply Hl; right; exact Hi').
    rewrite (Hl i (or_introl eq_refl)). rewrite !mul_bigint_smul, <- !smul_fmul. rewrite gneg_add.
    set (A := gsum _). set (B := [-] gsum _). set (x := fadd _ _). set (g := nth i g_i gzero).
    replace (fmul (d i) x) with (fadd (fmul (of_Z (nth i m 0)) x) (fneg (fmul (of_Z (nth i m' 0)) x))) by (unfold d; ring).
    rewrite smul_fadd, smul_fneg. set (u := _ [*] g). set (v := _ [*] g).
    rewrite <- !gadd_assoc. f_equal. rewrite gadd_assoc, (gadd_comm ([-] v) A), <- gadd_assoc. reflexivity. }
  assert (Hinj : forall t1 t2, In t1 L -> In t2 L -> without idx0 t1 = without idx0 t2 -> t1 = t2).
  { intros t1 t2 I1 I2 Hw. destruct (Hcond t1 I1) as (L1 & S1). destruct (Hcond t2 I2) as (L2 & S2). apply (without_inj t1 t2 idx0); [congruence|unfold idx0; lia|exact Hw|].
    assert (Hother : forall i, i <> j -> nth (n + 1 + i) t1 fzero = nth (n + 1 + i) t2 fzero).
    { intros i Hi. apply (without_nth t1 t2 idx0); [exact Hw|congruence|unfold idx0; lia|unfold idx0; lia]. }
    assert (X : forall l, NoDup l -> In j l -> gsum (map (fun i => fmul (d i) (fadd (nth (n + 1 + i) t1 fzero) (nth i kt fzero)) [*] nth i g_i gzero) l)
        [+] [-] gsum (map (fun i => fmul (d i) (fadd (nth (n + 1 + i) t2 fzero) (nth i kt fzero)) [*] nth i g_i gzero) l) = fmul (d j) (fsub (nth (n + 1 + j) t1 fzero) (nth (n + 1 + j) t2 fzero)) [*] nth j g_i gzero).
    { assert (Y : forall l, ~ In j l -> gsum (map (fun i => fmul (d i) (fadd (nth (n + 1 + i) t1 fzero) (nth i kt fzero)) [*] nth i g_i gzero) l)
        = gsum (map (fun i => fmul (d i) (fadd (nth (n + 1 + i) t2 fzero) (nth i kt fzero)) [*] nth i g_i gzero) l)).
      { intros l Hl. f_equal. apply map_ext_in. intros i Hi. rewrite Hother by (intros ->; contradiction). reflexivity. }
      induction l as [|i l IH]; intros Hnl Hin; [destruct Hin|]. inversion Hnl; subst. cbn [map]. rewrite !gsum_cons, gneg_add. destruct Hin as [->|Hin].
      - rewrite Y by assumption. set (S0 := gsum _). rewrite (gadd_comm ([-] _) ([-] S0)), <- gadd_assoc, (gadd_assoc S0), gadd_neg_r, gadd_0_l, <- smul_fneg, <- smul_fadd. f_equal. ring.
      - rewrite Hother by (intros ->; contradiction). set (u := _ [*] nth i g_i gzero). rewrite <- (IH ltac:(assumption) Hin). set (A := gsum _). set (B := [-] gsum _).
        rewrite (gadd_comm u A), <- gadd_assoc, (gadd_assoc u), gadd_neg_r, gadd_0_l. reflexivity. }
    specialize (X (seq 0 n) (seq_NoDup n 0) ltac:(apply in_seq; lia)). rewrite S1, S2, gneg_0, gadd_0_l in X. symmetry in X. apply smul_eq_zero in X. destruct X as [X|X]; [|contradiction].
    apply fmul_integral in X. destruct X as [X|X].
    - exfalso. apply Hne. unfold d in X. apply fsub_zero_eq in X. exact X.
    - apply fsub_zero_eq in X. exact X. }
  assert (Hbound : Z.of_nat (length (map (without idx0) L)) <= modulus K ^ Z.of_nat (2 * n)).
  { apply tuples_bound.
    - apply nodup_map_in; [exact Hinj|exact Hnd].
    - intros l Hl. apply in_map_iff in Hl. destruct Hl as (tape & <- & Hin). destruct (Hcond tape Hin) as (Lt & _). apply (without_length idx0 tape (2 * n)); [lia|unfold idx0; lia]. }
  rewrite map_length in Hbound. replace (Z.of_nat (2 * n + 1)) with (Z.of_nat (2 * n) + 1) by lia. rewrite Z.pow_add_r, Z.pow_1_r by lia.
  apply Z.mul_le_mono_nonneg_r; [pose proof (@modulus_gt1 K); lia|exact Hbound].
Qed.
End Spy.

(* ===== hypotheses met ===== *)
Definition c82_k : Fr E61 := nz61 99.
Definition c82_ek : outcome (encryption_key E61) :=
  shares <- honest_shares x_gamma x_parties ;;
  let others := removelast shares in dkg_with_shares x_gamma x_parties (others ++ [spying_share c82_k (ek_X_0 x_dkg_ek) others]).
Example C82_case_hypotheses : from_dkg 4 x_gens x_gi x_delta x_gamma x_parties x_dkg_ek /\ exists others own, honest_shares x_gamma x_parties = Ok (others ++ [own]).
Proof.
  split; [exact x_dkg|]. destruct (C51_honest_shares_exist E61 4 x_gens x_gi x_delta x_gamma x_parties x_dkg_ek x_dkg) as (sh & H1 & H2 & _).
  destruct (exists_last (l := sh)) as (o & own & ->); [intros ->; vm_compute in H2; discriminate|]. exists o, own. exact H1.
Qed.
Example C82_case :
  match c82_ek with
  | Ok ek =>
    match encrypt_decomposed_message (replay_rng E61) x_msg1 ek x_gi [x_r1] with
    | Ok (v, _, _) => map (candidate_test c82_k ek (nth 0 v gzero) (nth 17 v gzero)) [x_msg1; x_msg2; 2 :: tl x_msg1] = [true; false; false]
    | _ => False end
  | _ => False end.
Proof. vm_compute. reflexivity. Qed.
