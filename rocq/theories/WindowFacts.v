(* WindowFacts.v -- fixed-base window multiplication is multiplication (C44) *)
From Coq Require Import Znumtheory.
From Verif Require Import Base BaseFacts Algebra Utils UtilsFacts.

Section WindowFacts.
Context {K : prime_field} {G : group K}.
Add Ring Kr : (@scalar_ring_theory K).

Lemma row_multiples_length count (cur g : G) : length (row_multiples count cur g) = count.
Proof. revert cur; induction count as [|c IH]; intros cur; cbn; [reflexivity | now rewrite IH]. Qed.

Lemma row_multiples_nth count (cur g : G) j : (j < count)%nat ->
  nth_error (row_multiples count cur g) j = Some (cur [+] mul_bigint g (Z.of_nat j)).
Proof.
  revert cur j; induction count as [|c IH]; intros cur j Hj; [lia|].
  destruct j as [|j]; cbn [row_multiples nth_error].
  - f_equal. cbn. symmetry. apply gadd_0_r.
  - rewrite IH by lia. f_equal. rewrite Nat2Z.inj_succ, mul_bigint_succ. symmetry. apply gadd_assoc.
Qed.

Lemma double_n_spec n (x : G) : double_n n x = mul_bigint x (2 ^ Z.of_nat n).
Proof.
  induction n as [|n IH]; [reflexivity|].
  change (double_n (S n) x) with (double_n n x [+] double_n n x).
  rewrite IH, <- mul_bigint_add, Nat2Z.inj_succ, Z.pow_succ_r by lia. f_equal; lia.
Qed.

Lemma double_n_add n m (x : G) : double_n n (double_n m x) = double_n (n + m) x.
Proof. rewrite !double_n_spec, <- mul_bigint_mul, Nat2Z.inj_add, Z.pow_add_r by lia. reflexivity. Qed.

(* entry j of row k, for j below the filled part of the row *)
Lemma table_rows_nth outerc window inw last (g : G) k j :
  (k < outerc)%nat -> (j < inw)%nat -> (k = outerc - 1 -> j < last)%nat ->
  exists row, nth_error (table_rows outerc window inw last g) k = Some row /\
     nth_error row j = Some (mul_bigint (double_n (k * window) g) (Z.of_nat j)).
Proof.
  revert g k; induction outerc as [|o IH]; intros g k Hk Hj Hlast; [lia|].
  cbn [table_rows]. destruct k as [|k].
  - eexists; split; [reflexivity|]. cbn [Nat.mul].
    change (double_n 0 g) with g.
    rewrite nth_error_app1.
    + rewrite row_multiples_nth; [f_equal; apply gadd_0_l|].
      destruct (Nat.eqb_spec o 0); [subst; specialize (Hlast eq_refl); lia | lia].
    + rewrite row_multiples_length. destruct (Nat.eqb_spec o 0); [subst; specialize (Hlast eq_refl); lia | lia].
  - cbn [nth_error]. destruct (IH (double_n window g) k) as (row & Hr & He); [lia | exact Hj | lia |].
    exists row; split; [exact Hr|]. rewrite He, double_n_add. do 3 f_equal. lia.
Qed.

Lemma table_rows_length outerc window inw last (g : G) : length (table_rows outerc window inw last g) = outerc.
Proof. revert g; induction outerc as [|o IH]; intros g; cbn; [reflexivity | now rewrite IH]. Qed.

(* the bits of a window *)
Lemma mod_pow_succ z w : 0 <= z -> z mod 2 ^ Z.of_nat (S w) = Z.b2z (Z.testbit z 0) + 2 * ((z / 2) mod 2 ^ Z.of_nat w).
Proof.
  intros Hz. rewrite Nat2Z.inj_succ, Z.pow_succ_r by lia.
  rewrite Z.rem_mul_r by (try lia; apply Z.pow_pos_nonneg; lia).
  rewrite Z.bit0_mod. reflexivity.
Qed.

Lemma window_bits_value ms start i w z : 0 <= z < 2 ^ Z.of_nat ms ->
  Z.of_nat (window_bits ms start i w z) = 2 ^ Z.of_nat i * ((z / 2 ^ Z.of_nat (start + i)) mod 2 ^ Z.of_nat w).
Proof.
  intros Hz. revert i; induction w as [|w IH]; intros i.
  - cbn [window_bits]. change (2 ^ Z.of_nat 0) with 1. rewrite Z.mod_1_r. cbn [Z.of_nat]. ring.
  - cbn [window_bits]. rewrite Nat2Z.inj_add, IH, mod_pow_succ by (apply Z.div_pos; [lia | apply Z.pow_pos_nonneg; lia]).
    rewrite Z.div_pow2_bits by lia. rewrite Z.add_0_l.
    replace (start + S i)%nat with (S (start + i)) by lia.
    rewrite (Nat2Z.inj_succ (start + i)), Z.pow_succ_r by lia.
    rewrite (Z.mul_comm 2 (2 ^ Z.of_nat (start + i))), <- Z.div_div by (try lia; apply Z.pow_pos_nonneg; lia).
    rewrite (Nat2Z.inj_succ i), (Z.pow_succ_r 2 (Z.of_nat i)) by lia.
    assert (Hb : Z.of_nat (if ((start + i <? ms)%nat && Z.testbit z (Z.of_nat (start + i)))%bool then 2 ^ i else 0)%nat
                 = 2 ^ Z.of_nat i * Z.b2z (Z.testbit z (Z.of_nat (start + i)))).
    { destruct (Nat.ltb_spec (start + i) ms) as [Hlt|Hge]; cbn [andb].
      - destruct (Z.testbit z (Z.of_nat (start + i))); cbn [Z.b2z]; [rewrite Nat2Z.inj_pow; change (Z.of_nat 2) with 2; ring | cbn; ring].
      - assert (Hf : Z.testbit z (Z.of_nat (start + i)) = false).
        { rewrite Z.testbit_odd, Z.shiftr_div_pow2 by lia. rewrite Z.div_small; [reflexivity|].
          split; [lia|]. eapply Z.lt_le_trans; [apply Hz | apply Z.pow_le_mono_r; lia]. }
        rewrite Hf.
        cbn. ring. }
    rewrite Hb. ring.
Qed.

Lemma mod_split z a w : 0 <= z ->
  z mod 2 ^ Z.of_nat (a + w) = z mod 2 ^ Z.of_nat a + 2 ^ Z.of_nat a * ((z / 2 ^ Z.of_nat a) mod 2 ^ Z.of_nat w).
Proof.
  intros Hz. rewrite Nat2Z.inj_add, Z.pow_add_r by lia.
  apply Z.rem_mul_r; [apply Z.pow_nonzero; lia | apply Z.pow_pos_nonneg; lia].
Qed.

(* one scalar *)
Lemma windowed_mul_correct window (g : G) (s : scalar K) : (0 < window)%nat ->
  let S := Z.to_nat (modulus_bit_size K) in
  let outerc := ((S + window - 1) / window)%nat in
  windowed_mul outerc window (get_window_table S window g) s = Ok (s [*] g).
Proof.
  intros Hw S outerc. unfold windowed_mul, get_window_table. fold outerc.
  set (last := (2 ^ (S - (outerc - 1) * window))%nat).
  set (table := table_rows outerc window (2 ^ window) last g).
  pose proof (modulus_bit_size_pos K) as Hbits.
  assert (HS : (0 < S)%nat) by (unfold S; lia).
  assert (Hout : (S <= outerc * window /\ (outerc - 1) * window < S /\ 0 < outerc)%nat).
  { pose proof (Nat.div_mod (S + window - 1) window ltac:(lia)).
    pose proof (Nat.mod_upper_bound (S + window - 1) window ltac:(lia)). fold outerc in H.
    assert (0 < outerc)%nat by nia. repeat split; nia. }
  destruct Hout as (Hcov & Hlast & Hpos).
  assert (Hz : 0 <= into_bigint s < 2 ^ Z.of_nat S).
  { pose proof (sval_range s). pose proof (modulus_bit_size_bounds K). unfold into_bigint, S.
    rewrite Z2Nat.id by lia. lia. }
  set (z := into_bigint s) in *.
  destruct (table_rows_nth outerc window (2 ^ window) last g 0 0) as (row0 & Hr0 & He0);
    [lia | pose proof (Nat.pow_nonzero 2 window); lia | intros; unfold last; pose proof (Nat.pow_nonzero 2 (S - (outerc - 1) * window)); lia |].
  fold table in Hr0. rewrite (idx_nth_error _ _ _ Hr0). cbn [bind]. rewrite (idx_nth_error _ _ _ He0). cbn [bind].
  change (mul_bigint (double_n (0 * window) g) (Z.of_nat 0)) with (@gzero K G).
  set (body := fun (res : G) (outer : nat) => row <- idx table outer ;;
      e <- idx row (window_bits S (outer * window) 0 window z) ;; Ok (res [+] e)).
  assert (Hloop : forall k, (k <= outerc)%nat ->
     foldM body (seq 0 k) gzero = Ok (mul_bigint g (z mod 2 ^ Z.of_nat (k * window)))).
  { induction k as [|k IH]; intros Hk.
    - cbn. rewrite Z.mod_1_r. reflexivity.
    - rewrite seq_S, foldM_app, IH by lia. cbn [bind foldM Nat.add]. unfold body at 1.
      set (d := window_bits S (k * window) 0 window z).
      assert (Hd : Z.of_nat d = (z / 2 ^ Z.of_nat (k * window)) mod 2 ^ Z.of_nat window).
      { unfold d. rewrite window_bits_value by exact Hz. rewrite Nat.add_0_r. change (2 ^ Z.of_nat 0) with 1. ring. }
      assert (Hp : 0 < 2 ^ Z.of_nat window) by (apply Z.pow_pos_nonneg; lia).
      assert (Hp' : 0 < 2 ^ Z.of_nat (k * window)) by (apply Z.pow_pos_nonneg; lia).
      assert (Hdw : (d < 2 ^ window)%nat).
      { apply Nat2Z.inj_lt. rewrite Hd, Nat2Z.inj_pow. change (Z.of_nat 2) with 2. apply Z.mod_pos_bound; exact Hp. }
      destruct (table_rows_nth outerc window (2 ^ window) last g k d) as (row & Hr & He); [lia | exact Hdw | |].
      { intros Hkl. unfold last. apply Nat2Z.inj_lt. rewrite Hd, Nat2Z.inj_pow. change (Z.of_nat 2) with 2.
        subst k. eapply Z.le_lt_trans; [apply Z.mod_le; [apply Z.div_pos; lia | exact Hp]|].
        apply Z.div_lt_upper_bound; [exact Hp'|]. rewrite <- Z.pow_add_r by apply Nat2Z.is_nonneg.
        rewrite <- Nat2Z.inj_add.
        clear -Hlast Hz. set (ow := ((outerc - 1) * window)%nat) in *. replace (ow + (S - ow))%nat with S by lia. apply Hz. }
      fold table in Hr. rewrite (idx_nth_error _ _ _ Hr). cbn [bind]. rewrite (idx_nth_error _ _ _ He). cbn [bind].
      f_equal. rewrite double_n_spec, <- mul_bigint_mul, <- mul_bigint_add. f_equal.
      replace (Datatypes.S k * window)%nat with (k * window + window)%nat by lia.
      rewrite mod_split by lia. rewrite Hd. ring. }
  rewrite Hloop by lia. f_equal. unfold smul. fold z. f_equal.
  apply Z.mod_small. split; [lia|]. eapply Z.lt_le_trans; [apply Hz|]. apply Z.pow_le_mono_r; lia.
Qed.

Lemma get_window_table_length S window (g : G) :
  length (get_window_table S window g) = ((S + window - 1) / window)%nat.
Proof. unfold get_window_table. apply table_rows_length. Qed.

Lemma get_mul_window_size_pos n : (0 < get_mul_window_size n)%nat.
Proof.
  unfold get_mul_window_size. destruct (Nat.ltb_spec n 32) as [Hlt|Hge]; [lia|].
  unfold ln_without_floats.
  assert (5 <= Z.log2_up (Z.of_nat n)) by (change 5 with (Z.log2_up 32); apply Z.log2_up_le_mono; lia).
  assert (3 <= Z.log2_up (Z.of_nat n) * 69 / 100) by (apply Z.div_le_lower_bound; lia).
  lia.
Qed.

(* any hint for the number of multiplications *)
Theorem window_multiply_many_correct hint (g : G) (xs : list (scalar K)) :
  window_table_multiply_many (window_table_new hint g) xs = Ok (map (fun x => x [*] g) xs).
Proof.
  unfold window_table_multiply_many, window_table_new, fixed_base_msm; cbn [wt_scalar_size wt_window_size wt_table].
  rewrite get_window_table_length, Nat.leb_refl.
  rewrite <- mapM_map_Ok. apply mapM_ext. intros x _.
  apply windowed_mul_correct, get_mul_window_size_pos.
Qed.

Theorem window_multiply_correct hint (g : G) (x : scalar K) :
  window_table_multiply (window_table_new hint g) x = Ok (x [*] g).
Proof.
  unfold window_table_multiply, window_table_new; cbn [wt_scalar_size wt_window_size wt_table wt_outerc].
  apply windowed_mul_correct, get_mul_window_size_pos.
Qed.

Theorem multiply_field_elems_correct (g : G) (xs : list (scalar K)) :
  multiply_field_elems_with_same_group_elem g xs = Ok (map (fun x => x [*] g) xs).
Proof. apply window_multiply_many_correct. Qed.
End WindowFacts.
