(* PairingPowers.v -- decryption with truncated tables of pairing powers (C16) *)
From Verif Require Import Base BaseFacts Algebra Utils UtilsFacts Setup Keygen KeygenFacts Encryption
  EncryptFacts DecryptFacts RoundTrip Spec KeySpec VecFacts.

Section PairingPowers.
Context {E : pairing}.

(* the two loop bodies side by side *)
Lemma chunk_step_table M c c0r V1 V2 (g_i : list (G1 E)) table i m : table <> [] ->
  chunk_step M c c0r V1 V2 g_i i = Ok m ->
  exists p, 0 <= m <= Z.max 1 M /\
    (m = 0 \/ exists g v, nth_error g_i i = Some g /\ nth_error V2 i = Some v /\ solve_discrete_log M (pair g v) p = Ok m) /\
    chunk_step_pp M c c0r V1 V2 g_i table i =
      if m =? 0 then Ok 0 else solve_discrete_log_using_pairing_powers i M p table.
Proof.
  intros Hne. unfold chunk_step, chunk_step_pp.
  destruct (idx c i) as [ci|e|]; cbn [bind]; try discriminate.
  destruct (idx V2 i) as [v2|e|] eqn:H2; cbn [bind]; try discriminate.
  destruct (idx V1 i) as [v1|e|]; cbn [bind]; try discriminate.
  destruct (multi_pairing _ _) as [p|e|]; cbn [bind]; try discriminate.
  exists p. destruct (gis_zero p).
  - injection H as <-. split; [lia|]. split; [left; reflexivity|reflexivity].
  - apply bind_Ok_inv in H. destruct H as (g & Hg & Hs).
    assert (Hm : 1 <= m <= Z.max 1 M).
    { destruct (solve_dlog_spec M (pair g v2) p) as [(k & Hk & Hr & _)|(Hk & _)]; rewrite Hk in Hs; [injection Hs as <-; lia|discriminate]. }
    split; [lia|]. split.
    + right. exists g, v2. apply idx_Ok_iff in Hg, H2. auto.
    + destruct (Nat.eqb_spec (length table) 0) as [E0|E0]; [destruct table; [contradiction|discriminate]|].
      destruct (Z.eqb_spec m 0); [lia|reflexivity].
Qed.

(* setting: a complete table, an honest or dishonest key of any shape, and the result of decrypting without table *)
Lemma with_table_reduce pf pf' (dk : prepared_decryption_key E) b g_i table table' c_0 c sk ms nu : 1 <= b <= 30 ->
  pdk_pairing_powers pf dk b g_i = Ok table ->
  decrypt_to_chunks pf' c_0 c sk dk g_i b = Ok (ms, nu) ->
  table' <> [] ->
  length ms = length c /\ length table = length c /\
  exists P : nat -> GT E,
    (forall i, (i < length c)%nat -> 0 <= nth i ms 0 <= max_chunk b /\
       (nth i ms 0 <> 0 -> exists row, nth_error table i = Some row /\ (Z.to_nat (max_chunk b) <= length row)%nat /\
           nth_error row (Z.to_nat (nth i ms 0 - 1)) = Some (P i) /\
           forall k, Z.of_nat k < nth i ms 0 - 1 -> nth_error row k <> Some (P i))) /\
    decrypt_to_chunks_given_pairing_powers pf' c_0 c sk dk g_i b (Some table') =
      (ms' <- mapM (fun i => if nth i ms 0 =? 0 then Ok 0
                             else solve_discrete_log_using_pairing_powers i (max_chunk b) (P i) table') (seq 0 (length c)) ;;
       Ok (ms', nu)).
Proof.
  intros Hb Ht Hdec Hne. destruct (pairing_powers_inv pf dk b g_i table Hb Ht) as (E12 & Hlen & Hrow).
  rewrite decrypt_to_chunks_unfold in Hdec. rewrite decrypt_with_table_unfold.
  unfold pdk_supported_chunks_count, dec_supported_chunks_count in *. rewrite E12, Nat.eqb_refl in *. cbn [negb bind] in *.
  assert (Hu8 : Z.to_nat (as_u8 (Z.of_nat (length (pdk_V_1 dk)))) = (length (pdk_V_1 dk) mod 256)%nat).
  { unfold as_u8. change (2 ^ 8) with (Z.of_nat 256). rewrite <- Nat2Z.inj_mod, Nat2Z.id. reflexivity. }
  rewrite Hu8 in *.
  destruct (Nat.eqb_spec (length c) (length (pdk_V_1 dk) mod 256)) as [Hc|Hc]; cbn [negb] in *; [|discriminate].
  destruct (Nat.ltb_spec (length g_i) (length c)) as [Hg|Hg]; [discriminate|].
  destruct (max_chunk_eq pf' b ltac:(lia)) as (z & Hz & HMz). rewrite Hz in *. cbn [bind] in *. rewrite HMz in *.
  apply bind_Ok_inv in Hdec. destruct Hdec as (ms1 & Hms & Hok). 
  assert (Hnu : [-] mul_bigint c_0 (into_bigint (fneg sk)) = nu) by congruence. assert (Hms1 : ms1 = ms) by congruence. subst ms1.
  apply mapM_seq_elim in Hms. destruct Hms as [Hlms Hms].
  pose proof (max_chunk_pos b ltac:(lia)) as Hpos.
  split; [exact Hlms|]. split; [lia|].
  set (f := chunk_step_pp (max_chunk b) c (mul_bigint c_0 (into_bigint (fneg sk))) (pdk_V_1 dk) (pdk_V_2 dk) g_i table').
  assert (Hall : forall i, exists p : GT E, (i < length c)%nat -> 0 <= nth i ms 0 <= max_chunk b /\
     (nth i ms 0 <> 0 -> exists row, nth_error table i = Some row /\ (Z.to_nat (max_chunk b) <= length row)%nat /\
           nth_error row (Z.to_nat (nth i ms 0 - 1)) = Some p /\
           forall k, Z.of_nat k < nth i ms 0 - 1 -> nth_error row k <> Some p) /\
     f i = if nth i ms 0 =? 0 then Ok 0 else solve_discrete_log_using_pairing_powers i (max_chunk b) p table').
  { intros i. destruct (lt_dec i (length c)) as [Hi|Hi]; [|exists gzero; intros; lia].
    specialize (Hms i (nth i ms 0) ltac:(apply nth_error_nth'; lia)). cbn [Nat.add] in Hms.
    destruct (chunk_step_table _ _ _ _ _ _ table' _ _ Hne Hms) as (p & Hr & Hsol & Hf).
    exists p. intros _. split; [lia|]. split; [|exact Hf].
    intros Hn0. destruct Hsol as [Hz0|(g & v & Hgi & Hvi & Hsol)]; [contradiction|].
    destruct (nth_error table i) as [row|] eqn:Hri; [|apply nth_error_None in Hri; lia].
    exists row. split; [reflexivity|].
    destruct (Hrow i row Hri) as (g' & v' & Hg' & Hv' & ->).
    rewrite Hgi in Hg'. injection Hg' as <-. rewrite Hvi in Hv'. injection Hv' as <-.
    assert (Hmax : max_chunk b <= 2 ^ b - 1).
    { unfold max_chunk. assert (2 ^ Z.min b 16 <= 2 ^ b) by (apply Z.pow_le_mono_r; lia). lia. }
    rewrite powers_row_length. split; [lia|].
    destruct (solve_dlog_spec (max_chunk b) (pair g v) p) as [(k & Hk & Hkr & Hkv & Hkmin)|(Hk & _)]; [|congruence].
    rewrite Hk in Hsol. injection Hsol as Hsol. rewrite <- Hsol in *. split.
    - rewrite powers_row_nth by lia. f_equal. rewrite Z2Nat.id by lia. replace (k - 1 + 1) with k by lia. exact Hkv.
    - intros k' Hk'. rewrite powers_row_nth by lia. intros Heq. injection Heq as Heq. apply (Hkmin (Z.of_nat k' + 1)); [lia|exact Heq]. }
  assert (HP : exists P : nat -> GT E, forall i, (i < length c)%nat -> 0 <= nth i ms 0 <= max_chunk b /\
     (nth i ms 0 <> 0 -> exists row, nth_error table i = Some row /\ (Z.to_nat (max_chunk b) <= length row)%nat /\
           nth_error row (Z.to_nat (nth i ms 0 - 1)) = Some (P i) /\
           forall k, Z.of_nat k < nth i ms 0 - 1 -> nth_error row k <> Some (P i)) /\
     f i = if nth i ms 0 =? 0 then Ok 0 else solve_discrete_log_using_pairing_powers i (max_chunk b) (P i) table').
  { clear -Hall. 
    assert (Hind : forall n, exists P : nat -> GT E, forall i, (i < n)%nat -> (i < length c)%nat -> 0 <= nth i ms 0 <= max_chunk b /\
     (nth i ms 0 <> 0 -> exists row, nth_error table i = Some row /\ (Z.to_nat (max_chunk b) <= length row)%nat /\
           nth_error row (Z.to_nat (nth i ms 0 - 1)) = Some (P i) /\
           forall k, Z.of_nat k < nth i ms 0 - 1 -> nth_error row k <> Some (P i)) /\
     f i = if nth i ms 0 =? 0 then Ok 0 else solve_discrete_log_using_pairing_powers i (max_chunk b) (P i) table').
    { induction n as [|n (P & IH)]; [exists (fun _ => gzero); intros; lia|].
      destruct (Hall n) as (p & Hp). exists (fun i => if Nat.eqb i n then p else P i). intros i Hi Hic.
      destruct (Nat.eqb_spec i n) as [->|Hne']; [apply Hp; exact Hic | apply IH; [lia|exact Hic]]. }
    destruct (Hind (length c)) as (P & HP). exists P. intros i Hi. apply HP; assumption. }
  destruct HP as (P & HP). exists P. split.
  - intros i Hi. destruct (HP i Hi) as (A & B & _). split; assumption.
  - rewrite Hnu. match goal with |- (_ <- mapM _ ?l ;; _) = _ => assert (Hm : mapM f l = mapM (fun i => if nth i ms 0 =? 0 then Ok 0
                             else solve_discrete_log_using_pairing_powers i (max_chunk b) (P i) table') l) end.
    { apply mapM_ext. intros i Hi. apply in_seq in Hi. apply HP. lia. }
    rewrite Hm. reflexivity.
Qed.

Lemma max_chunk_u16 b : max_chunk b <= 65535.
Proof. unfold max_chunk. assert (2 ^ Z.min b 16 <= 2 ^ 16) by (apply Z.pow_le_mono_r; lia). lia. Qed.

(* a lookup in a row that still holds the needed entry *)
Lemma lookup_found i M (p : GT E) table row m : 1 <= M <= 65535 -> 1 <= m <= M -> nth_error table i = Some row ->
  nth_error row (Z.to_nat (m - 1)) = Some p -> (forall k, Z.of_nat k < m - 1 -> nth_error row k <> Some p) ->
  solve_discrete_log_using_pairing_powers i M p table = Ok m.
Proof.
  intros HM Hm Hrow Hp Hmin. destruct (lookup_exact i M p table HM) as (_ & _ & H).
  destruct (H row Hrow) as [(k & Hk & HkM & Hkp & Hkmin)|(Hno & _)].
  - rewrite Hk. f_equal. destruct (Z.lt_trichotomy (Z.of_nat k) (m - 1)) as [Hlt|[Heq|Hgt]]; [|lia|].
    + exfalso. apply (Hmin k Hlt Hkp).
    + exfalso. apply (Hkmin (Z.to_nat (m - 1))); [lia|exact Hp].
  - exfalso. apply (Hno (Z.to_nat (m - 1))); [lia|exact Hp].
Qed.

Lemma mapM_seq_err {B} (f : nat -> outcome B) k n j e :
  (j < n)%nat -> (forall i, (i < j)%nat -> exists b, f (k + i)%nat = Ok b) -> f (k + j)%nat = Err e ->
  mapM f (seq k n) = Err e.
Proof.
  revert k n; induction j as [|j IH]; intros k n Hj Hok Hp; destruct n as [|n]; try lia; cbn.
  - replace (k + 0)%nat with k in Hp by lia. rewrite Hp. reflexivity.
  - destruct (Hok 0%nat) as (b & Hb); [lia|]. replace (k + 0)%nat with k in Hb by lia. rewrite Hb. cbn.
    rewrite (IH (S k) n); [reflexivity | lia | |].
    + intros i Hi. destruct (Hok (S i)) as (b' & Hb'); [lia|]. exists b'. rewrite <- Hb'. f_equal. lia.
    + rewrite <- Hp. f_equal. lia.
Qed.

(* rows missing at the end of the table *)
Theorem truncated_table pf pf' (dk : prepared_decryption_key E) b g_i table c_0 c sk ms nu k : 1 <= b <= 30 ->
  pdk_pairing_powers pf dk b g_i = Ok table ->
  decrypt_to_chunks pf' c_0 c sk dk g_i b = Ok (ms, nu) ->
  (0 < k < length table)%nat ->
  let r := decrypt_to_chunks_given_pairing_powers pf' c_0 c sk dk g_i b (Some (firstn k table)) in
  ((forall i, (k <= i)%nat -> nth i ms 0 = 0) -> r = Ok (ms, nu)) /\
  (nth k ms 0 <> 0 -> r = Panic) /\
  (forall i, (k < i < length ms)%nat -> (forall j, (k <= j < i)%nat -> nth j ms 0 = 0) -> nth i ms 0 <> 0 ->
     r = Err InvalidPairingPowers).
Proof.
  intros Hb Ht Hdec Hk r.
  assert (Hlen' : length (firstn k table) = k) by (apply firstn_length_le; lia).
  assert (Hne : firstn k table <> []) by (intros E'; rewrite E' in Hlen'; cbn in Hlen'; lia).
  destruct (with_table_reduce pf pf' dk b g_i table (firstn k table) c_0 c sk ms nu Hb Ht Hdec Hne) as (Hlms & Hlt & P & HP & Hr).
  pose proof (max_chunk_pos b ltac:(lia)) as Hpos. pose proof (max_chunk_u16 b) as Hu16.
  set (f := fun i => if nth i ms 0 =? 0 then Ok 0 else solve_discrete_log_using_pairing_powers i (max_chunk b) (P i) (firstn k table)) in *.
  assert (Hpre : forall i, (i < k)%nat -> f i = Ok (nth i ms 0)).
  { intros i Hi. unfold f. destruct (HP i ltac:(lia)) as (Hrange & Hrow).
    destruct (Z.eqb_spec (nth i ms 0) 0) as [->|Hn0]; [reflexivity|].
    destruct (Hrow Hn0) as (row & Hri & _ & Hp & Hmin).
    apply (lookup_found i _ _ _ row); try lia; try assumption.
    rewrite <- Hri. rewrite <- (firstn_skipn k table) at 2. symmetry. apply nth_error_app1. lia. }
  assert (Hzero : forall i, nth i ms 0 = 0 -> f i = Ok (nth i ms 0)).
  { intros i Hi. unfold f. rewrite Hi. reflexivity. }
  unfold r. rewrite Hr. split; [|split].
  - intros Hz. rewrite (mapM_seq_intro f 0 (length c) ms); [reflexivity|exact Hlms|].
    intros i m Hm. cbn [Nat.add]. apply (nth_error_nth _ _ 0) in Hm. rewrite <- Hm.
    destruct (lt_dec i k); [apply Hpre; lia | apply Hzero, Hz; lia].
  - intros Hn0. rewrite (mapM_seq_panic f 0 (length c) k); [reflexivity|lia| |].
    + intros i Hi. cbn [Nat.add]. eexists. apply Hpre; exact Hi.
    + cbn [Nat.add]. unfold f. destruct (Z.eqb_spec (nth k ms 0) 0); [contradiction|].
      destruct (lookup_exact k (max_chunk b) (P k) (firstn k table) ltac:(lia)) as (_ & H & _). apply H. exact Hlen'.
  - intros i Hi Hz Hn0. rewrite (mapM_seq_err f 0 (length c) i InvalidPairingPowers); [reflexivity|lia| |].
    + intros j Hj. cbn [Nat.add]. exists (nth j ms 0). destruct (lt_dec j k); [apply Hpre; lia | apply Hzero, Hz; lia].
    + cbn [Nat.add]. unfold f. destruct (Z.eqb_spec (nth i ms 0) 0); [contradiction|].
      destruct (lookup_exact i (max_chunk b) (P i) (firstn k table) ltac:(lia)) as (H & _ & _). apply H. lia.
Qed.

(* one row cut down to L entries *)
Definition shorten_row (table : list (list (GT E))) (i L : nat) : list (list (GT E)) :=
  firstn i table ++ firstn L (nth i table []) :: skipn (S i) table.

Lemma shorten_row_nth table i L j : (i < length table)%nat ->
  nth_error (shorten_row table i L) j = if Nat.eqb j i then Some (firstn L (nth i table [])) else nth_error table j.
Proof.
  intros Hi. unfold shorten_row. assert (Hl : length (firstn i table) = i) by (apply firstn_length_le; lia).
  destruct (Nat.eqb_spec j i) as [->|Hne].
  - rewrite nth_error_app2 by lia. rewrite Hl, Nat.sub_diag. reflexivity.
  - destruct (lt_dec j i) as [Hlt|Hge].
    + rewrite nth_error_app1 by lia. rewrite <- (firstn_skipn i table) at 2. symmetry. apply nth_error_app1. lia.
    + rewrite nth_error_app2 by lia. rewrite Hl. destruct (j - i)%nat as [|d] eqn:Ed; [lia|]. cbn [nth_error].
      rewrite <- (firstn_skipn (S i) table) at 2. rewrite nth_error_app2 by (rewrite firstn_length_le; lia).
      rewrite firstn_length_le by lia. f_equal. lia.
Qed.

Theorem shortened_row pf pf' (dk : prepared_decryption_key E) b g_i table c_0 c sk ms nu i L : 1 <= b <= 30 ->
  pdk_pairing_powers pf dk b g_i = Ok table ->
  decrypt_to_chunks pf' c_0 c sk dk g_i b = Ok (ms, nu) ->
  (i < length table)%nat ->
  decrypt_to_chunks_given_pairing_powers pf' c_0 c sk dk g_i b (Some (shorten_row table i L)) =
    if Z.of_nat L <? nth i ms 0 then Panic else Ok (ms, nu).
Proof.
  intros Hb Ht Hdec Hi.
  assert (Hne : shorten_row table i L <> []) by (unfold shorten_row; intros E'; apply app_eq_nil in E'; destruct E'; discriminate).
  destruct (with_table_reduce pf pf' dk b g_i table (shorten_row table i L) c_0 c sk ms nu Hb Ht Hdec Hne) as (Hlms & Hlt & P & HP & Hr).
  pose proof (max_chunk_pos b ltac:(lia)) as Hpos. pose proof (max_chunk_u16 b) as Hu16.
  set (f := fun j => if nth j ms 0 =? 0 then Ok 0 else solve_discrete_log_using_pairing_powers j (max_chunk b) (P j) (shorten_row table i L)) in *.
  assert (Hother : forall j, (j < length c)%nat -> (j <> i \/ nth i ms 0 <= Z.of_nat L) -> f j = Ok (nth j ms 0)).
  { intros j Hj Hor. unfold f. destruct (HP j ltac:(lia)) as (Hrange & Hrow).
    destruct (Z.eqb_spec (nth j ms 0) 0) as [->|Hn0]; [reflexivity|].
    destruct (Hrow Hn0) as (row & Hri & _ & Hp & Hmin).
    destruct (Nat.eq_dec j i) as [->|Hji].
    - destruct Hor as [|HL]; [contradiction|].
      apply (lookup_found i _ _ _ (firstn L row)); try lia.
      + rewrite shorten_row_nth by exact Hi. rewrite Nat.eqb_refl. rewrite (nth_error_nth _ _ [] Hri). reflexivity.
      + rewrite <- Hp. rewrite <- (firstn_skipn L row) at 2. symmetry. apply nth_error_app1.
        assert ((Z.to_nat (nth i ms 0%Z - 1)%Z < length row)%nat) by (apply nth_error_Some; congruence).
        rewrite firstn_length. lia.
      + intros k Hk Hc. apply (Hmin k Hk). rewrite <- (firstn_skipn L row). rewrite nth_error_app1; [exact Hc|].
        apply nth_error_Some. congruence.
    - apply (lookup_found j _ _ _ row); try lia; try assumption.
      rewrite shorten_row_nth by exact Hi. destruct (Nat.eqb_spec j i); [contradiction|exact Hri]. }
  rewrite Hr. destruct (Z.ltb_spec (Z.of_nat L) (nth i ms 0)) as [HL|HL].
  - rewrite (mapM_seq_panic f 0 (length c) i); [reflexivity|lia| |].
    + intros j Hj. cbn [Nat.add]. eexists. apply Hother; [lia|left; lia].
    + cbn [Nat.add]. unfold f. destruct (HP i ltac:(lia)) as (Hrange & Hrow).
      destruct (Z.eqb_spec (nth i ms 0) 0) as [E0|Hn0]; [lia|].
      destruct (Hrow Hn0) as (row & Hri & Hrl & Hp & Hmin).
      destruct (lookup_exact i (max_chunk b) (P i) (shorten_row table i L) ltac:(lia)) as (_ & _ & H).
      destruct (H (firstn L row)) as [(k & Hk & HkM & Hkp & Hkmin)|(Hno & Hk)].
      { rewrite shorten_row_nth by exact Hi. rewrite Nat.eqb_refl. rewrite (nth_error_nth _ _ [] Hri). reflexivity. }
      * exfalso. assert (HkL : (k < length (firstn L row))%nat) by (apply nth_error_Some; congruence).
        rewrite firstn_length in HkL. apply (Hmin k); [lia|].
        rewrite <- (firstn_skipn L row). rewrite nth_error_app1; [exact Hkp|]. rewrite firstn_length; lia.
      * rewrite Hk. rewrite firstn_length. destruct (Z.ltb_spec (Z.of_nat (Nat.min L (length row))) (max_chunk b)); [reflexivity|lia].
  - rewrite (mapM_seq_intro f 0 (length c) ms); [reflexivity|exact Hlms|].
    intros j m Hm. cbn [Nat.add]. assert ((j < length ms)%nat) by (apply nth_error_Some; congruence).
    apply (nth_error_nth _ _ 0) in Hm. rewrite <- Hm. apply Hother; [lia|]. destruct (Nat.eq_dec j i); [right; lia|left; assumption].
Qed.
End PairingPowers.
