(* DecryptFacts.v -- decryption (C12-C18, C43) *)
From Coq Require Import Znumtheory.
From Verif Require Import Base BaseFacts Algebra Utils UtilsFacts Setup Keygen KeygenFacts Encryption EncryptFacts
  Spec KeySpec VecFacts.

(* ---------- the discrete-log loops ---------- *)
Section Dlog.
Context {K : prime_field} {G : group K}.

Lemma dlog_loop_spec steps : forall j (cur g p : G), 1 <= j -> cur = mul_bigint g (j - 1) ->
  (exists k, dlog_loop steps j cur g p = Ok k /\ j <= k < j + Z.of_nat steps /\ mul_bigint g k = p /\
             (forall k', j <= k' < k -> mul_bigint g k' <> p)) \/
  (dlog_loop steps j cur g p = Err CouldNotFindDiscreteLog /\
     forall k, j <= k < j + Z.of_nat steps -> mul_bigint g k <> p).
Proof.
  induction steps as [|st IH]; intros j cur g p Hj Hcur; cbn [dlog_loop].
  - right. split; [reflexivity|]. intros k Hk; lia.
  - assert (Hcur' : cur [+] g = mul_bigint g j).
    { rewrite Hcur, gadd_comm, <- mul_bigint_succ. f_equal; lia. }
    rewrite Hcur'. destruct (geqb (mul_bigint g j) p) eqn:Eq.
    + apply geqb_spec in Eq. left. exists j. repeat split; [lia | lia | exact Eq | intros; lia].
    + apply geqb_false in Eq.
      destruct (IH (j + 1) (mul_bigint g j) g p) as [(k & Hk & Hr & Hv & Hmin)|(Hk & Hno)]; [lia | f_equal; lia | |].
      * left. exists k. rewrite Hk. split; [reflexivity|]. split; [lia|]. split; [exact Hv|].
        intros k' Hk'. destruct (Z.eq_dec k' j) as [->|Hne]; [exact Eq | apply Hmin; lia].
      * right. rewrite Hk. split; [reflexivity|]. intros k Hr.
        destruct (Z.eq_dec k j) as [->|Hne]; [exact Eq | apply Hno; lia].
Qed.

Lemma solve_dlog_spec M (g p : G) :
  (exists k, solve_discrete_log M g p = Ok k /\ 1 <= k <= Z.max 1 M /\ mul_bigint g k = p /\
             (forall k', 1 <= k' < k -> mul_bigint g k' <> p)) \/
  (solve_discrete_log M g p = Err CouldNotFindDiscreteLog /\
     forall k, 1 <= k <= Z.max 1 M -> mul_bigint g k <> p).
Proof.
  unfold solve_discrete_log. destruct (geqb p g) eqn:Eq.
  - apply geqb_spec in Eq. subst p. left. exists 1. repeat split; [lia | lia | intros; lia].
  - apply geqb_false in Eq.
    destruct (dlog_loop_spec (Z.to_nat (M - 1)) 2 g g p) as [(k & Hk & Hr & Hv & Hmin)|(Hk & Hno)]; [lia | reflexivity | |].
    + left. exists k. rewrite Hk. split; [reflexivity|]. split; [lia|]. split; [exact Hv|].
      intros k' Hk'. destruct (Z.eq_dec k' 1) as [->|Hne]; [intros E'; apply Eq; symmetry; exact E' | apply Hmin; lia].
    + right. rewrite Hk. split; [reflexivity|]. intros k Hr.
      destruct (Z.eq_dec k 1) as [->|Hne]; [intros E'; apply Eq; symmetry; exact E' | apply Hno; lia].
Qed.

(* when the base is not the identity and the maximum is below the order *)
Lemma solve_dlog_exact M (g p : G) k : g <> gzero -> 1 <= M < modulus K ->
  (solve_discrete_log M g p = Ok k <-> 1 <= k <= M /\ mul_bigint g k = p).
Proof.
  intros Hg HM. destruct (solve_dlog_spec M g p) as [(k0 & Hk & Hr & Hv & _)|(Hk & Hno)]; rewrite Hk; split.
  - intros H; injection H as <-. split; [lia|exact Hv].
  - intros [Hr' Hv']. f_equal. apply (mul_bigint_inj g); try lia; congruence.
  - discriminate.
  - intros [Hr' Hv']. exfalso. apply (Hno k); [lia|exact Hv'].
Qed.

Lemma solve_dlog_no_panic M (g p : G) : solve_discrete_log M g p <> Panic.
Proof. destruct (solve_dlog_spec M g p) as [(k & Hk & _)|(Hk & _)]; rewrite Hk; discriminate. Qed.

Lemma solve_dlog_err M (g p : G) e : solve_discrete_log M g p = Err e -> e = CouldNotFindDiscreteLog.
Proof. destruct (solve_dlog_spec M g p) as [(k & Hk & _)|(Hk & _)]; rewrite Hk; congruence. Qed.
End Dlog.

(* ---------- the maximum chunk value ---------- *)
(* largest value searched for a chunk size b <= 31 *)
Definition max_chunk (b : Z) : Z := 2 ^ Z.min b 16 - 1.

Lemma max_chunk_eq pf b : 0 <= b <= 31 -> exists z, one_shl_u32 pf b = Ok z /\ as_u16 (z - 1) = max_chunk b.
Proof.
  intros Hb. unfold one_shl_u32. destruct (Z.ltb_spec b 32); [|lia].
  exists (2 ^ b). split; [reflexivity|]. unfold as_u16, max_chunk.
  destruct (Z_le_gt_dec b 16) as [Hle|Hgt].
  - rewrite Z.min_l by lia. apply Z.mod_small.
    assert (1 <= 2 ^ b <= 2 ^ 16) by (split; [apply (Z.pow_le_mono_r 2 0 b); lia | apply Z.pow_le_mono_r; lia]).
    lia.
  - rewrite Z.min_r by lia.
    replace (2 ^ b - 1) with ((2 ^ 16 - 1) + (2 ^ (b - 16) - 1) * 2 ^ 16).
    + rewrite Z_mod_plus_full. reflexivity.
    + replace (2 ^ b) with (2 ^ (b - 16) * 2 ^ 16) by (rewrite <- Z.pow_add_r by lia; f_equal; lia). ring.
Qed.

Lemma max_chunk_pos b : 1 <= b -> 1 <= max_chunk b.
Proof.
  intros Hb. unfold max_chunk. assert (2 ^ 1 <= 2 ^ Z.min b 16) by (apply Z.pow_le_mono_r; lia). lia.
Qed.

Section DecryptFacts.
Context {E : pairing}.
Add Ring Kr : (@scalar_ring_theory (K_of E)).

Lemma multi_pairing_2 (a b : G1 E) (q q' : G2Prepared E) :
  multi_pairing [a; b] [q; q'] = Ok (pair a q [+] pair b q').
Proof. unfold multi_pairing. cbn. do 2 f_equal. apply gadd_0_r. Qed.

(* the value whose discrete log is searched, for the honest key entry (v2, v1) = (v rho H, s v H) *)
Lemma chunk_pairing (ci c0 : G1 E) (H : G2 E) (rho s v : Fr E) :
  pair ci (prep (fmul v rho [*] H)) [+] pair (mul_bigint c0 (into_bigint (fneg rho))) (prep (fmul s v [*] H))
  = pair (ci [+] [-] (s [*] c0)) (prep (fmul v rho [*] H)).
Proof.
  change (mul_bigint c0 (into_bigint (fneg rho))) with (fneg rho [*] c0).
  rewrite pair_add_l, pair_neg_l, !pair_smul_r, !pair_smul_l. glin.
Qed.

(* body of the loop in decrypt_to_chunks_given_pairing_powers, without table *)
Definition chunk_step (M : Z) (c : list (G1 E)) (c_0_rho : G1 E) (V1 V2 : list (G2Prepared E)) (g_i : list (G1 E)) (i : nat) : outcome Z :=
  ci <- idx c i ;;
  v2 <- idx V2 i ;;
  v1 <- idx V1 i ;;
  p <- multi_pairing [ci; c_0_rho] [v2; v1] ;;
  if gis_zero p then Ok 0 else g <- idx g_i i ;; solve_discrete_log M (pair g v2) p.

Lemma decrypt_to_chunks_unfold pf c_0 c sk (dk : prepared_decryption_key E) g_i b :
  decrypt_to_chunks pf c_0 c sk dk g_i b =
  (cnt <- pdk_supported_chunks_count dk ;;
   if negb (Nat.eqb (length c) (Z.to_nat cnt)) then Err (IncompatibleDecryptionKey (length c) (Z.to_nat cnt))
   else if (length g_i <? length c)%nat then Err (VectorShorterThanExpected (length c) (length g_i))
   else one_shl <- one_shl_u32 pf b ;;
   ms <- mapM (chunk_step (as_u16 (one_shl - 1)) c (mul_bigint c_0 (into_bigint (fneg sk))) (pdk_V_1 dk) (pdk_V_2 dk) g_i)
      (seq 0 (length c)) ;;
   Ok (ms, [-] mul_bigint c_0 (into_bigint (fneg sk)))).
Proof. reflexivity. Qed.

Lemma chunk_step_no_panic M c c0r V1 V2 g_i i :
  (i < length c)%nat -> (i < length V1)%nat -> (i < length V2)%nat -> (i < length g_i)%nat ->
  chunk_step M c c0r V1 V2 g_i i <> Panic /\
  (forall e, chunk_step M c c0r V1 V2 g_i i = Err e -> e = CouldNotFindDiscreteLog).
Proof.
  intros Hc H1 H2 Hg. unfold chunk_step.
  destruct (idx_lt c i Hc) as (ci & -> & _). destruct (idx_lt V2 i H2) as (v2 & -> & _).
  destruct (idx_lt V1 i H1) as (v1 & -> & _). destruct (idx_lt g_i i Hg) as (g & -> & _). cbn [bind].
  rewrite multi_pairing_2. cbn [bind].
  destruct (gis_zero _); [split; discriminate|]. split; [apply solve_dlog_no_panic | apply solve_dlog_err].
Qed.

(* ---------- C43: shapes and absence of panics ---------- *)
Theorem decrypt_to_chunks_shape pf c_0 c sk (dk : prepared_decryption_key E) g_i b : 0 <= b <= 31 ->
  let n1 := length (pdk_V_1 dk) in let n2 := length (pdk_V_2 dk) in
  let r := decrypt_to_chunks pf c_0 c sk dk g_i b in
  (n2 <> n1 -> r = Err (MalformedDecryptionKey n2 n1)) /\
  (n2 = n1 -> length c <> (n1 mod 256)%nat -> r = Err (IncompatibleDecryptionKey (length c) (n1 mod 256))) /\
  (n2 = n1 -> length c = (n1 mod 256)%nat -> (length g_i < length c)%nat ->
     r = Err (VectorShorterThanExpected (length c) (length g_i))) /\
  (n2 = n1 -> length c = (n1 mod 256)%nat -> (length c <= length g_i)%nat ->
     (exists ms nu, r = Ok (ms, nu) /\ length ms = length c) \/ r = Err CouldNotFindDiscreteLog).
Proof.
  intros Hb n1 n2 r. unfold r. rewrite decrypt_to_chunks_unfold. unfold pdk_supported_chunks_count, dec_supported_chunks_count.
  fold n1 n2. destruct (Nat.eqb_spec n2 n1) as [E12|E12]; cbn [negb bind].
  2:{ repeat split; intros; try contradiction; try reflexivity. }
  assert (Hu8 : Z.to_nat (as_u8 (Z.of_nat n1)) = (n1 mod 256)%nat).
  { unfold as_u8. change (2 ^ 8) with (Z.of_nat 256). rewrite <- Nat2Z.inj_mod, Nat2Z.id. reflexivity. }
  rewrite Hu8. destruct (Nat.eqb_spec (length c) (n1 mod 256)) as [Ec|Ec]; cbn [negb].
  2:{ repeat split; intros; try contradiction; try reflexivity. }
  split; [intros; contradiction|]. split; [intros; contradiction|].
  destruct (Nat.ltb_spec (length g_i) (length c)) as [Hg|Hg].
  { split; [intros; reflexivity | intros; lia]. }
  split; [intros; lia|]. intros _ _ _.
  destruct (max_chunk_eq pf b Hb) as (z & Hz & HM). rewrite Hz. cbn [bind]. rewrite HM.
  pose proof (Nat.mod_le n1 256 ltac:(lia)) as Hle.
  set (f := chunk_step (max_chunk b) c (mul_bigint c_0 (into_bigint (fneg sk))) (pdk_V_1 dk) (pdk_V_2 dk) g_i).
  assert (Hf : forall i, In i (seq 0 (length c)) -> f i <> Panic /\ (forall e, f i = Err e -> e = CouldNotFindDiscreteLog)).
  { intros i Hi. apply in_seq in Hi. apply chunk_step_no_panic; fold n1; fold n2; lia. }
  destruct (mapM f (seq 0 (length c))) as [ms|e|] eqn:Em.
  - left. eexists _, _. split; [reflexivity|]. apply mapM_length in Em. rewrite seq_length in Em. exact Em.
  - right. apply mapM_Err_inv in Em. destruct Em as (i & Hi & He). cbn. f_equal. apply (proj2 (Hf i Hi)). exact He.
  - exfalso. revert Em. apply mapM_no_panic. intros i Hi. apply Hf; exact Hi.
Qed.

Theorem decrypt_to_chunks_debug_panic c_0 c sk (dk : prepared_decryption_key E) g_i b : 32 <= b ->
  length (pdk_V_2 dk) = length (pdk_V_1 dk) -> length c = (length (pdk_V_1 dk) mod 256)%nat -> (length c <= length g_i)%nat ->
  decrypt_to_chunks Debug c_0 c sk dk g_i b = Panic.
Proof.
  intros Hb E12 Ec Hg. rewrite decrypt_to_chunks_unfold. unfold pdk_supported_chunks_count, dec_supported_chunks_count.
  rewrite E12, Nat.eqb_refl. cbn [negb bind].
  assert (Hu8 : Z.to_nat (as_u8 (Z.of_nat (length (pdk_V_1 dk)))) = (length (pdk_V_1 dk) mod 256)%nat).
  { unfold as_u8. change (2 ^ 8) with (Z.of_nat 256). rewrite <- Nat2Z.inj_mod, Nat2Z.id. reflexivity. }
  rewrite Hu8, Ec, Nat.eqb_refl. cbn [negb]. rewrite <- Ec.
  destruct (Nat.ltb_spec (length g_i) (length c)) as [Hlt0|Hge0]; [lia|].
  unfold one_shl_u32. destruct (Z.ltb_spec b 32); [lia|reflexivity].
Qed.

(* ---------- C14: exactness for honest keys ---------- *)
Lemma prepare_dk_formula_nth gens rho (s v : list (Fr E)) i : length v = length s -> (i < length s)%nat ->
  idx (pdk_V_1 (prepare_dk (dk_formula gens rho s v))) i = Ok (prep (fmul (nth i s fzero) (nth i v fzero) [*] eg_H gens)) /\
  idx (pdk_V_2 (prepare_dk (dk_formula gens rho s v))) i = Ok (prep (fmul (nth i v fzero) rho [*] eg_H gens)).
Proof.
  intros Hv Hi. unfold prepare_dk, dk_formula. cbn [pdk_V_1 pdk_V_2 dk_V_1 dk_V_2]. split; apply idx_nth_error; rewrite !nth_error_map.
  - rewrite (nth_error_nth' _ (@fzero (K_of E), @fzero (K_of E))) by (rewrite combine_length; lia).
    rewrite combine_nth by lia. reflexivity.
  - rewrite (nth_error_nth' _ (@fzero (K_of E))) by lia. reflexivity.
Qed.

Lemma chunk_step_honest M c c_0 gens rho (s v : list (Fr E)) g_i i :
  length c = length s -> length v = length s -> (i < length s)%nat -> (length s <= length g_i)%nat ->
  let dk := prepare_dk (dk_formula gens rho s v) in
  let d := nth i c gzero [+] [-] (nth i s fzero [*] c_0) in
  let q := fmul (nth i v fzero) rho [*] eg_H gens in
  chunk_step M c (mul_bigint c_0 (into_bigint (fneg rho))) (pdk_V_1 dk) (pdk_V_2 dk) g_i i =
    if gis_zero (pair d (prep q)) then Ok 0
    else solve_discrete_log M (pair (nth i g_i gzero) (prep q)) (pair d (prep q)).
Proof.
  intros Hc Hv Hi Hg dk d q. unfold chunk_step.
  destruct (prepare_dk_formula_nth gens rho s v i Hv Hi) as [H1 H2].
  rewrite (idx_nth c i gzero) by lia. cbn [bind]. unfold dk. rewrite H2. cbn [bind]. rewrite H1. cbn [bind].
  rewrite multi_pairing_2. cbn [bind]. rewrite chunk_pairing. fold d q.
  rewrite (idx_nth g_i i gzero) by lia. reflexivity.
Qed.

Lemma pair_dlog_iff (g d : G1 E) (q : G2 E) k : q <> gzero ->
  (mul_bigint (pair g (prep q)) k = pair d (prep q) <-> d = of_Z k [*] g).
Proof.
  intros Hq. rewrite mul_bigint_smul, <- pair_smul_l. split; intros H.
  - symmetry. apply gsub_zero_eq.
    destruct (pair_nondeg (of_Z k [*] g [+] [-] d) q) as [E'|E']; [|exact E'|contradiction].
    rewrite pair_add_l, pair_neg_l, H. apply gadd_neg_r.
  - rewrite H. reflexivity.
Qed.

(* one chunk of an honest key: Ok k exactly for the right value *)
Lemma chunk_step_iff M c c_0 gens rho (s v : list (Fr E)) g_i i k :
  length c = length s -> length v = length s -> (i < length s)%nat -> (length s <= length g_i)%nat ->
  fmul (nth i v fzero) rho [*] eg_H gens <> gzero -> nth i g_i gzero <> gzero -> 1 <= M < modulus (K_of E) ->
  let dk := prepare_dk (dk_formula gens rho s v) in
  (chunk_step M c (mul_bigint c_0 (into_bigint (fneg rho))) (pdk_V_1 dk) (pdk_V_2 dk) g_i i = Ok k <->
   0 <= k <= M /\ nth i c gzero = (nth i s fzero [*] c_0) [+] (of_Z k [*] nth i g_i gzero)).
Proof.
  intros Hc Hv Hi Hg Hq Hgi HM dk. unfold dk. rewrite chunk_step_honest by assumption.
  set (d := nth i c gzero [+] [-] (nth i s fzero [*] c_0)). set (q := fmul (nth i v fzero) rho [*] eg_H gens) in *.
  assert (Hd : forall y, nth i c gzero = (nth i s fzero [*] c_0) [+] y <-> d = y).
  { intros y. unfold d. split; intros H.
    - rewrite H. glin.
    - rewrite <- H. glin. }
  rewrite Hd.
  assert (Hgq : pair (nth i g_i gzero) (prep q) <> gzero).
  { intros E'. apply pair_nondeg in E'. tauto. }
  unfold gis_zero. destruct (geqb (pair d (prep q)) gzero) eqn:Ez.
  - apply geqb_spec in Ez. apply pair_nondeg in Ez. destruct Ez as [Ez|Ez]; [|contradiction].
    split.
    + intros H; injection H as <-. split; [lia|]. rewrite Ez. change (of_Z 0) with (@fzero (K_of E)). symmetry; apply smul_0_l.
    + intros [Hk Hdk]. f_equal. rewrite Ez in Hdk. symmetry in Hdk. apply smul_eq_zero in Hdk.
      destruct Hdk as [Hdk|Hdk]; [|contradiction]. apply (f_equal sval) in Hdk. rewrite of_Z_small in Hdk by lia.
      change (sval (@fzero (K_of E))) with (0 mod modulus (K_of E)) in Hdk. rewrite Zmod_0_l in Hdk. lia.
  - apply geqb_false in Ez. rewrite solve_dlog_exact by assumption. rewrite pair_dlog_iff by exact Hq.
    split.
    + intros [Hk Hdk]. split; [lia|exact Hdk].
    + intros [Hk Hdk]. split; [|exact Hdk].
      destruct (Z.eq_dec k 0) as [->|Hne]; [|lia]. exfalso. apply Ez.
      rewrite Hdk. change (of_Z 0) with (@fzero (K_of E)). rewrite smul_0_l. apply pair_zero_l.
Qed.

Lemma nondegenerate_entries gens rho (s v : list (Fr E)) g_i : length v = length s -> (length s <= length g_i)%nat ->
  nondegenerate (dk_formula gens rho s v) g_i (length s) ->
  forall i, (i < length s)%nat ->
    fmul (nth i v fzero) rho [*] eg_H gens <> gzero /\ nth i g_i gzero <> gzero.
Proof.
  intros Hv Hg [H1 H2] i Hi. split.
  - rewrite Forall_forall in H1. apply H1. unfold dk_formula; cbn [dk_V_2].
    apply in_map_iff. exists (nth i v fzero). split; [reflexivity|]. apply nth_In. lia.
  - rewrite Forall_forall in H2. apply H2.
    assert (Hn : nth_error (firstn (length s) g_i) i = Some (nth i g_i gzero)).
    { rewrite <- (firstn_skipn (length s) g_i) at 2.
      rewrite app_nth1 by (rewrite firstn_length; lia). apply nth_error_nth'. rewrite firstn_length; lia. }
    eapply nth_error_In; exact Hn.
Qed.

Lemma pdk_count_formula gens rho (s v : list (Fr E)) : length v = length s -> (length s < 256)%nat ->
  pdk_supported_chunks_count (prepare_dk (dk_formula gens rho s v)) = Ok (Z.of_nat (length s)).
Proof.
  intros Hv H256. unfold pdk_supported_chunks_count, prepare_dk, dk_formula. cbn [pdk_V_1 pdk_V_2 dk_V_1 dk_V_2].
  rewrite !map_length, combine_length. replace (Nat.min (length s) (length v)) with (length s) by lia. rewrite Hv.
  apply dec_supported_ok; exact H256.
Qed.

Lemma opens_to_nth_ok (s : list (Fr E)) g_i c_0 c ms :
  opens_to s g_i c_0 c ms -> length ms = length s.
Proof. intros (_ & H & _); exact H. Qed.

Theorem decrypt_exact pf gens rho (s v : list (Fr E)) g_i b c_0 c ms nu :
  length v = length s -> (length s < 256)%nat -> (length s <= length g_i)%nat ->
  nondegenerate (dk_formula gens rho s v) g_i (length s) ->
  1 <= b <= 31 -> max_chunk b < modulus (K_of E) ->
  (decrypt_to_chunks pf c_0 c rho (prepare_dk (dk_formula gens rho s v)) g_i b = Ok (ms, nu) <->
   opens_to s g_i c_0 c ms /\ Forall (fun z => z <= max_chunk b) ms /\ nu = rho [*] c_0).
Proof.
  intros Hv H256 Hg Hnd Hb HM.
  rewrite decrypt_to_chunks_unfold, pdk_count_formula by assumption. cbn [bind]. rewrite Nat2Z.id.
  destruct (Nat.eqb_spec (length c) (length s)) as [Hc|Hc]; cbn [negb].
  2:{ split; [discriminate|]. intros [(H & _) _]. contradiction. }
  destruct (Nat.ltb_spec (length g_i) (length c)) as [Hlt0|Hge0]; [lia|].
  destruct (max_chunk_eq pf b ltac:(lia)) as (z & Hz & HMz). rewrite Hz. cbn [bind]. rewrite HMz.
  assert (Hnu : [-] mul_bigint c_0 (into_bigint (fneg rho)) = rho [*] c_0).
  { change (mul_bigint c_0 (into_bigint (fneg rho))) with (fneg rho [*] c_0). glin. }
  rewrite Hnu.
  pose proof (nondegenerate_entries gens rho s v g_i Hv Hg Hnd) as Hent.
  pose proof (max_chunk_pos b ltac:(lia)) as Hpos.
  set (f := chunk_step (max_chunk b) c (mul_bigint c_0 (into_bigint (fneg rho)))
     (pdk_V_1 (prepare_dk (dk_formula gens rho s v))) (pdk_V_2 (prepare_dk (dk_formula gens rho s v))) g_i).
  assert (Hf : forall i k, (i < length s)%nat -> (f i = Ok k <-> 0 <= k <= max_chunk b /\
      nth i c gzero = (nth i s fzero [*] c_0) [+] (of_Z k [*] nth i g_i gzero))).
  { intros i k Hi. destruct (Hent i Hi) as [Hq Hgi]. apply chunk_step_iff; try assumption; lia. }
  split.
  - intros H. destruct (mapM f (seq 0 (length c))) as [ms'|e|] eqn:Em; cbn [bind] in H; try discriminate.
    injection H as -> <-. apply mapM_seq_elim in Em. destruct Em as [Hlen Hi].
    assert (Hall : forall i, (i < length s)%nat -> 0 <= nth i ms 0 <= max_chunk b /\
       nth i c gzero = (nth i s fzero [*] c_0) [+] (of_Z (nth i ms 0) [*] nth i g_i gzero)).
    { intros i Hlt. apply Hf; [exact Hlt|]. apply (Hi i). apply nth_error_nth'. lia. }
    split; [|split; [|reflexivity]].
    + unfold opens_to. split; [exact Hc|]. split; [lia|]. intros i Hlt. destruct (Hall i Hlt). split; [lia|assumption].
    + apply Forall_forall. intros z' Hz'. apply In_nth with (d := 0) in Hz'. destruct Hz' as (i & Hlt & <-).
      apply Hall. lia.
  - intros [(_ & Hlen & Hop) [Hmax ->]].
    rewrite (mapM_seq_intro f 0 (length c) ms); [reflexivity | lia |].
    intros i k Hk. cbn [Nat.add]. assert (Hi : (i < length s)%nat) by (rewrite <- Hlen; apply nth_error_Some; congruence).
    apply Hf; [exact Hi|]. apply (nth_error_nth _ _ 0) in Hk. destruct (Hop i Hi) as [Hp Heq]. rewrite Hk in *.
    split; [|exact Heq]. rewrite Forall_forall in Hmax. split; [exact Hp|]. apply Hmax. rewrite <- Hk. apply nth_In. lia.
Qed.

(* on well-shaped input an honest key gives the plaintext or CouldNotFindDiscreteLog *)
Theorem decrypt_sound_shape pf gens rho (s v : list (Fr E)) g_i b c_0 c :
  length v = length s -> (length s < 256)%nat -> (length s <= length g_i)%nat -> length c = length s -> 0 <= b <= 31 ->
  (exists ms nu, decrypt_to_chunks pf c_0 c rho (prepare_dk (dk_formula gens rho s v)) g_i b = Ok (ms, nu)) \/
  decrypt_to_chunks pf c_0 c rho (prepare_dk (dk_formula gens rho s v)) g_i b = Err CouldNotFindDiscreteLog.
Proof.
  intros Hv H256 Hg Hc Hb.
  destruct (decrypt_to_chunks_shape pf c_0 c rho (prepare_dk (dk_formula gens rho s v)) g_i b Hb) as (_ & _ & _ & H).
  assert (H1 : length (pdk_V_1 (prepare_dk (dk_formula gens rho s v))) = length s).
  { unfold prepare_dk, dk_formula. cbn [pdk_V_1 dk_V_1]. rewrite !map_length, combine_length. lia. }
  assert (H2 : length (pdk_V_2 (prepare_dk (dk_formula gens rho s v))) = length s).
  { unfold prepare_dk, dk_formula. cbn [pdk_V_2 dk_V_2]. rewrite !map_length. lia. }
  rewrite H1, H2, Nat.mod_small in H by exact H256.
  destruct H as [(ms & nu & H & _)|H]; try lia; [left; eauto | right; exact H].
Qed.

(* a degenerate entry always decrypts to 0 *)
Theorem decrypt_degenerate pf gens rho (s v : list (Fr E)) g_i b c_0 c ms nu i :
  length v = length s -> (length s < 256)%nat -> (length s <= length g_i)%nat ->
  decrypt_to_chunks pf c_0 c rho (prepare_dk (dk_formula gens rho s v)) g_i b = Ok (ms, nu) ->
  (i < length s)%nat -> nth i (dk_V_2 (dk_formula gens rho s v)) gzero = gzero -> nth i ms 0 = 0.
Proof.
  intros Hv H256 Hg H Hi Hdeg.
  rewrite decrypt_to_chunks_unfold, pdk_count_formula in H by assumption. cbn [bind] in H. rewrite Nat2Z.id in H.
  destruct (Nat.eqb_spec (length c) (length s)) as [Hc|Hc]; cbn [negb] in H; [|discriminate].
  destruct (Nat.ltb_spec (length g_i) (length c)) as [Hlt0|Hge0]; [lia|].
  destruct (one_shl_u32 pf b) as [z|e|]; cbn [bind] in H; try discriminate.
  destruct (mapM _ _) as [ms'|e|] eqn:Em in H; cbn [bind] in H; try discriminate. injection H as -> _.
  apply mapM_seq_elim in Em. destruct Em as [Hlen Hall].
  specialize (Hall i (nth i ms 0)). cbn [Nat.add] in Hall.
  rewrite chunk_step_honest in Hall by assumption.
  assert (Hq : fmul (nth i v fzero) rho [*] eg_H gens = gzero).
  { rewrite <- Hdeg. unfold dk_formula; cbn [dk_V_2].
    rewrite <- (nth_map_default (fun x => fmul x rho [*] eg_H gens) v i fzero gzero); [reflexivity|].
    replace (fmul fzero rho) with (@fzero (K_of E)) by ring. apply smul_0_l. }
  rewrite Hq, pair_zero_r in Hall. unfold gis_zero in Hall.
  replace (geqb (@gzero _ (GT E)) gzero) with true in Hall by (symmetry; apply geqb_spec; reflexivity).
  assert (Ok 0 = Ok (nth i ms 0)) by (apply Hall; apply nth_error_nth'; lia). congruence.
Qed.
End DecryptFacts.
