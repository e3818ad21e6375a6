(* CommitmentFacts.v -- proofs about chunked commitments (C05-C07) *)
From Coq Require Import Znumtheory.
From Verif Require Import Base BaseFacts Algebra Utils UtilsFacts WindowFacts Setup Commitment Spec.

Section CommitmentFacts.
Context {K : prime_field} {G : group K}.
Add Ring Kr : (@scalar_ring_theory K).

(* ---------- powers ---------- *)
Lemma fpow_S (a : scalar K) n : fpow a (S n) = fmul a (fpow a n).
Proof. reflexivity. Qed.
Lemma fpow_of_Z (z : Z) n : fpow (@of_Z K z) n = of_Z (z ^ Z.of_nat n).
Proof.
  induction n as [|n IH]; [reflexivity|].
  rewrite fpow_S, IH, <- of_Z_mul. f_equal. rewrite Nat2Z.inj_succ, Z.pow_succ_r by lia. reflexivity.
Qed.

(* ---------- doubling chain ---------- *)
Lemma doubling_chain_length steps l (g : G) : length (doubling_chain steps l g) = steps.
Proof. revert g; induction steps as [|s IH]; intros g; cbn; [reflexivity | now rewrite IH]. Qed.

Lemma doubling_chain_nth steps l (g : G) i : (i < steps)%nat ->
  nth_error (doubling_chain steps l g) i = Some (mul_bigint g (2 ^ Z.of_nat (l * S i))).
Proof.
  revert g i; induction steps as [|s IH]; intros g i Hi; [lia|].
  destruct i as [|i]; cbn [doubling_chain nth_error].
  - rewrite double_n_spec, Nat.mul_1_r. reflexivity.
  - rewrite IH by lia. f_equal. rewrite double_n_spec, <- mul_bigint_mul, <- Z.pow_add_r by lia. do 2 f_equal. lia.
Qed.

Lemma pos_trailing_zeros_iter k : pos_trailing_zeros (Nat.iter k xO xH) = k.
Proof. induction k as [|k IH]; [reflexivity|]. change (Nat.iter (S k) xO xH) with (xO (Nat.iter k xO xH)). cbn [pos_trailing_zeros]. now rewrite IH. Qed.
Lemma pow2_pos k : 2 ^ Z.of_nat k = Zpos (Nat.iter k xO xH).
Proof.
  induction k as [|k IH]; [reflexivity|].
  rewrite Nat2Z.inj_succ, Z.pow_succ_r, IH by lia. reflexivity.
Qed.
Lemma trailing_zeros_pow2 k : trailing_zeros (2 ^ Z.of_nat k) = k.
Proof. rewrite pow2_pos. apply pos_trailing_zeros_iter. Qed.
Lemma is_power_of_two_pow2 k : is_power_of_two (2 ^ Z.of_nat k) = true.
Proof.
  unfold is_power_of_two. rewrite Z.log2_pow2 by lia. rewrite Z.eqb_refl.
  assert (0 < 2 ^ Z.of_nat k) by (apply Z.pow_pos_nonneg; lia).
  destruct (Z.ltb_spec 0 (2 ^ Z.of_nat k)); [reflexivity | lia].
Qed.

(* the documented key: [R^(n-1) G, ..., R G, G] *)
Definition radix_powers (R : Z) (n : nat) (g : G) : list G :=
  map (fun i => of_Z (R ^ Z.of_nat (n - 1 - i)) [*] g) (seq 0 n).

Lemma radix_powers_length R n g : length (radix_powers R n g) = n.
Proof. unfold radix_powers; rewrite map_length, seq_length; reflexivity. Qed.

Lemma radix_powers_nth R n g i : (i < n)%nat ->
  nth_error (radix_powers R n g) i = Some (of_Z (R ^ Z.of_nat (n - 1 - i)) [*] g).
Proof. intros Hi. unfold radix_powers. rewrite nth_error_map, nth_error_seq by exact Hi. reflexivity. Qed.

Lemma key_power_of_2_eq (g : G) (n : nat) k : (0 < n)%nat ->
  commitment_key_for_radix_power_of_2 g (Z.of_nat n) (2 ^ Z.of_nat k) = radix_powers (2 ^ Z.of_nat k) n g.
Proof.
  intros Hn. unfold commitment_key_for_radix_power_of_2. rewrite trailing_zeros_pow2.
  set (chain := g :: doubling_chain (Z.to_nat (Z.of_nat n - 1)) k g).
  assert (Hlen : length chain = n) by (unfold chain; cbn [length]; rewrite doubling_chain_length; lia).
  assert (Hnth : forall i, (i < n)%nat -> nth_error chain i = Some (mul_bigint g (2 ^ Z.of_nat (k * i)))).
  { intros [|i] Hi; unfold chain; cbn [nth_error].
    - rewrite Nat.mul_0_r. reflexivity.
    - apply doubling_chain_nth. lia. }
  apply nth_error_ext_eq; [rewrite rev_length, radix_powers_length; exact Hlen|].
  intros i a b Ha Hb.
  assert (Hi : (i < n)%nat) by (rewrite <- Hlen, <- rev_length; apply nth_error_Some; congruence).
  rewrite radix_powers_nth in Hb by exact Hi. injection Hb as <-.
  assert (Ha' : nth_error chain (n - 1 - i) = Some a).
  { rewrite (nth_error_nth' (rev chain) g) in Ha by (rewrite rev_length; lia).
    rewrite rev_nth in Ha by lia. rewrite (nth_error_nth' chain g) by lia.
    rewrite <- Ha. do 2 f_equal. lia. }
  rewrite Hnth in Ha' by lia. injection Ha' as <-.
  rewrite mul_bigint_smul. do 2 f_equal. rewrite <- Z.pow_mul_r by lia. f_equal. lia.
Qed.

Lemma key_non_power_of_2_eq (g : G) (n : nat) R : (0 < n)%nat ->
  commitment_key_for_radix_non_power_of_2 g (Z.of_nat n) R = Ok (radix_powers R n g).
Proof.
  intros Hn. unfold commitment_key_for_radix_non_power_of_2.
  rewrite multiply_field_elems_correct. f_equal.
  destruct n as [|n]; [lia|].
  replace (Z.to_nat (Z.of_nat (S n) - 1)) with n by lia. rewrite Nat2Z.id.
  unfold radix_powers. rewrite seq_S, map_app, map_app, map_map. cbn [map Nat.add].
  f_equal.
  - change (seq 1 n) with (seq (S 0) n). rewrite <- seq_shift, map_map. apply map_ext_in. intros i Hi. apply in_seq in Hi.
    rewrite fpow_of_Z. do 4 f_equal. lia.
  - f_equal. f_equal. replace (S n - 1 - n)%nat with 0%nat by lia. reflexivity.
Qed.

(* ---------- the key ---------- *)
Lemma wrap_i32_small z : 0 <= z < 2 ^ 31 -> wrap_i32 z = z.
Proof.
  intros H. unfold wrap_i32. rewrite Z.mod_small by lia.
  destruct (Z.ltb_spec z (2 ^ 31)); [reflexivity | lia].
Qed.

Theorem commitment_key_spec pf (gens : chunked_commitment_gens G) b n : 1 <= b <= 30 ->
  chunks_count K b = Ok n -> 1 <= n ->
  commitment_key pf gens b = Ok (radix_powers (2 ^ b) (Z.to_nat n) (cg_G gens) ++ [cg_H gens]).
Proof.
  intros Hb Hn Hn1. unfold commitment_key, one_shl_i32.
  destruct (Z.ltb_spec b 32); [|lia]. cbn [bind].
  assert (Hp : 0 <= 2 ^ b < 2 ^ 31) by (split; [apply Z.pow_nonneg; lia | apply Z.pow_lt_mono_r; lia]).
  rewrite wrap_i32_small by exact Hp.
  unfold i32_as_u64. rewrite Z.mod_small by lia. rewrite Hn. cbn [bind].
  rewrite <- (Z2Nat.id b) by lia. rewrite is_power_of_two_pow2.
  rewrite <- (Z2Nat.id n) at 1 by lia. rewrite key_power_of_2_eq by lia. reflexivity.
Qed.

Theorem key_constructions_agree (g : G) (n : Z) k : 1 <= n -> 0 <= k ->
  commitment_key_for_radix_non_power_of_2 g n (2 ^ k) = Ok (commitment_key_for_radix_power_of_2 g n (2 ^ k)).
Proof.
  intros Hn Hk. rewrite <- (Z2Nat.id n), <- (Z2Nat.id k) by lia.
  rewrite key_power_of_2_eq, key_non_power_of_2_eq by lia. reflexivity.
Qed.

(* chunk size 31: the i32 literal overflows into the sign bit and the key is for a different radix *)
Definition radix31 : Z := 2 ^ 64 - 2 ^ 31.
Theorem commitment_key_31 pf (gens : chunked_commitment_gens G) n : chunks_count K 31 = Ok n -> 1 <= n ->
  commitment_key pf gens 31 = Ok (radix_powers radix31 (Z.to_nat n) (cg_G gens) ++ [cg_H gens]).
Proof.
  intros Hn Hn1. unfold commitment_key, one_shl_i32.
  change (31 <? 32) with true. cbv iota. cbn [bind].
  replace (i32_as_u64 (wrap_i32 (2 ^ 31))) with radix31 by reflexivity.
  rewrite Hn. cbn [bind]. replace (is_power_of_two radix31) with false by reflexivity.
  rewrite <- (Z2Nat.id n) at 1 by lia. rewrite key_non_power_of_2_eq by lia. reflexivity.
Qed.

Lemma radix31_differs : 65537 < modulus K -> @of_Z K radix31 <> of_Z (2 ^ 31).
Proof.
  intros Hp H. assert (Hd : (modulus K | radix31 - 2 ^ 31)).
  { apply of_Z_zero_iff. rewrite of_Z_sub, H. ring. }
  pose proof (modulus_prime K) as Hpr.
  assert (Hpw : forall e x, 0 <= e -> (modulus K | x ^ e) -> (modulus K | x)).
  { intros e x He. revert e He. apply (natlike_ind (fun e => (modulus K | x ^ e) -> (modulus K | x))).
    - intros Hx. rewrite Z.pow_0_r in Hx. apply Z.divide_1_r_nonneg in Hx; lia.
    - intros e He IH Hx. rewrite Z.pow_succ_r in Hx by exact He.
      apply prime_mult in Hx; [|exact Hpr]. destruct Hx; auto. }
  assert (Hsmall : forall x, 0 < x <= 65537 -> ~ (modulus K | x)).
  { intros x Hx Hdx. apply Z.divide_pos_le in Hdx; lia. }
  replace (radix31 - 2 ^ 31) with (2 ^ 32 * (65535 * 65537)) in Hd by reflexivity.
  apply prime_mult in Hd; [|exact Hpr]. destruct Hd as [Hd|Hd].
  - apply Hpw in Hd; [|lia]. apply Hsmall in Hd; [exact Hd | lia].
  - apply prime_mult in Hd; [|exact Hpr]. destruct Hd as [Hd|Hd]; apply Hsmall in Hd; lia || exact Hd.
Qed.

Theorem commitment_key_31_wrong pf (gens : chunked_commitment_gens G) n :
  65537 < modulus K -> cg_G gens <> gzero -> chunks_count K 31 = Ok n -> 2 <= n ->
  commitment_key pf gens 31 <> Ok (radix_powers (2 ^ 31) (Z.to_nat n) (cg_G gens) ++ [cg_H gens]).
Proof.
  intros Hp Hg Hn Hn2. rewrite (commitment_key_31 pf gens n Hn) by lia. intros H. injection H as H.
  apply (f_equal (fun l => nth_error l (Z.to_nat n - 2))) in H.
  rewrite !nth_error_app1 in H by (rewrite radix_powers_length; lia).
  rewrite !radix_powers_nth in H by lia. injection H as H.
  replace (Z.to_nat n - 1 - (Z.to_nat n - 2))%nat with 1%nat in H by lia.
  change (Z.of_nat 1) with 1 in H. rewrite !Z.pow_1_r in H.
  apply smul_inj_scalar in H; [|exact Hg]. apply (radix31_differs Hp). exact H.
Qed.

Theorem commitment_key_debug_panic (gens : chunked_commitment_gens G) b : 32 <= b ->
  commitment_key Debug gens b = Panic.
Proof. intros Hb. unfold commitment_key, one_shl_i32. destruct (Z.ltb_spec b 32); [lia | reflexivity]. Qed.

(* ---------- commitments ---------- *)
Lemma msm_nil_l (ss : list Z) : msm_bigint (@nil G) ss = gzero.
Proof. reflexivity. Qed.
Lemma msm_cons (x : G) s xs ss : msm_bigint (x :: xs) (s :: ss) = mul_bigint x s [+] msm_bigint xs ss.
Proof. reflexivity. Qed.

Lemma msm_app (xs ys : list G) ss us : length xs = length ss ->
  msm_bigint (xs ++ ys) (ss ++ us) = msm_bigint xs ss [+] msm_bigint ys us.
Proof.
  revert ss; induction xs as [|x xs IH]; intros [|s ss] H; try discriminate.
  - cbn [app]. rewrite msm_nil_l, gadd_0_l. reflexivity.
  - cbn [app]. rewrite !msm_cons, IH by (cbn in H; lia). apply gadd_assoc.
Qed.

Lemma msm_radix_aux R (g : G) ds : forall k,
  msm_bigint (map (fun i => of_Z (R ^ Z.of_nat (k + length ds - 1 - i)) [*] g) (seq k (length ds))) ds
  = of_Z (horner R 0 ds) [*] g.
Proof.
  induction ds as [|d ds IH]; intros k.
  - cbn. symmetry. apply smul_0_l.
  - cbn [length seq map]. rewrite msm_cons.
    replace (k + S (length ds) - 1 - k)%nat with (length ds) by lia.
    assert (E : map (fun i => of_Z (R ^ Z.of_nat (k + S (length ds) - 1 - i)) [*] g) (seq (S k) (length ds))
              = map (fun i => of_Z (R ^ Z.of_nat (S k + length ds - 1 - i)) [*] g) (seq (S k) (length ds))).
    { apply map_ext. intros i. replace (k + S (length ds))%nat with (S k + length ds)%nat by lia. reflexivity. }
    rewrite E, IH. cbn [horner fold_left]. fold (horner R (0 * R + d) ds). rewrite (horner_acc R (0 * R + d)).
    rewrite mul_bigint_smul. rewrite <- smul_fmul, <- smul_fadd. f_equal.
    rewrite Z.mul_0_l, Z.add_0_l. rewrite of_Z_add, of_Z_mul. reflexivity.
Qed.

Lemma msm_radix R (g : G) ds : msm_bigint (radix_powers R (length ds) g) ds = of_Z (horner R 0 ds) [*] g.
Proof. apply (msm_radix_aux R g ds 0). Qed.

(* the field fills its limbs up to less than one chunk, and the chunk count fits a u8 *)
Definition chunk_compatible (K : prime_field) (b : Z) : Prop :=
  64 * Z.of_nat (limbs K) - b < modulus_bit_size K /\ 64 * Z.of_nat (limbs K) < 256 * b.

Lemma compatible_count pf b (m : scalar K) ds : supported b -> chunk_compatible K b ->
  decompose pf m b = Ok ds -> chunks_count K b = Ok (Z.of_nat (length ds)) /\ (0 < length ds)%nat.
Proof.
  intros Hb [Hc Hf] Hd. split.
  - apply (chunks_count_matches pf K m b ds); assumption.
  - destruct (decompose_spec pf K m b Hb) as (ds' & Hd' & _ & _ & Hl).
    rewrite Hd in Hd'; injection Hd' as <-.
    pose proof (modulus_bit_size_pos K). pose proof (modulus_bit_size_le K). pose proof (supported_pos b Hb). nia.
Qed.

Theorem chunked_commitment_value pf b (m r : scalar K) (gens : chunked_commitment_gens G) :
  supported b -> chunk_compatible K b ->
  exists n key,
    chunks_count K b = Ok (Z.of_nat n) /\ length key = (n + 1)%nat /\ commitment_key pf gens b = Ok key /\
    chunked_commitment_new pf m r b gens = Ok ((m [*] cg_G gens) [+] (r [*] cg_H gens), key) /\
    get_commitment_given_commitment_key pf m r b key = Ok ((m [*] cg_G gens) [+] (r [*] cg_H gens)).
Proof.
  intros Hb Hc. destruct (decompose_spec pf K m b Hb) as (ds & Hd & Hr & Hv & Hl).
  destruct (compatible_count pf b m ds Hb Hc Hd) as [Hcount Hpos].
  assert (Hb' : 1 <= b <= 30) by (destruct Hb as [->|[->| ->]]; lia).
  pose proof (commitment_key_spec pf gens b _ Hb' Hcount ltac:(lia)) as Hkey. rewrite Nat2Z.id in Hkey.
  set (key := radix_powers (2 ^ b) (length ds) (cg_G gens) ++ [cg_H gens]) in *.
  assert (Hmsm : msm_bigint key (ds ++ [into_bigint r]) = (m [*] cg_G gens) [+] (r [*] cg_H gens)).
  { unfold key. rewrite msm_app by apply radix_powers_length. rewrite msm_radix.
    rewrite radix_value_horner in Hv. rewrite Hv, of_Z_sval. f_equal.
    cbn. apply gadd_0_r. }
  exists (length ds), key. split; [exact Hcount|]. split; [unfold key; rewrite app_length, radix_powers_length; reflexivity|].
  split; [exact Hkey|]. split.
  - unfold chunked_commitment_new, get_values_to_commit. rewrite Hd. cbn [bind]. rewrite Hkey. cbn [bind].
    rewrite Hmsm. reflexivity.
  - unfold get_commitment_given_commitment_key, get_values_to_commit. rewrite Hd. cbn [bind]. rewrite Hmsm. reflexivity.
Qed.

(* truncation *)
Lemma msm_truncate (xs : list G) ss us : (length xs <= length ss)%nat ->
  msm_bigint xs (ss ++ us) = msm_bigint xs ss.
Proof.
  revert ss; induction xs as [|x xs IH]; intros ss H; [reflexivity|].
  destruct ss as [|s ss]; [cbn in H; lia|]. cbn [app]. rewrite !msm_cons, IH by (cbn in H; lia). reflexivity.
Qed.

Theorem blinding_dropped pf b (m r1 r2 : scalar K) (gens : chunked_commitment_gens G) :
  supported b -> modulus_bit_size K <= 64 * Z.of_nat (limbs K) - b ->
  chunked_commitment_new pf m r1 b gens = chunked_commitment_new pf m r2 b gens /\
  (exists c, chunked_commitment_new pf m r1 b gens = Ok c).
Proof.
  intros Hb Hbits. destruct (decompose_spec pf K m b Hb) as (ds & Hd & Hr & Hv & Hl).
  pose proof (supported_pos b Hb) as Hpos.
  destruct (chunks_count_exact K b Hpos) as (q & Hq & Hq0 & Hcount).
  assert (Hb' : 1 <= b <= 30) by (destruct Hb as [->|[->| ->]]; lia).
  assert (Hkey : exists key, commitment_key pf gens b = Ok key /\ (length key <= length ds)%nat).
  { unfold is_ceil_div in Hq. pose proof (Z.mod_le q 256 ltac:(lia) ltac:(lia)) as Hqle.
    assert (Hqds : q + 1 <= Z.of_nat (length ds)) by nia.
    destruct (Z.eq_dec (q mod 256) 0) as [E|E].
    - (* the count wraps to 0 *)
      assert (256 <= q) by (destruct (Z_le_gt_dec 256 q); [assumption|]; rewrite Z.mod_small in E; lia).
      unfold commitment_key, one_shl_i32. destruct (Z.ltb_spec b 32); [|lia]. cbn [bind].
      assert (Hp : 0 <= 2 ^ b < 2 ^ 31) by (split; [apply Z.pow_nonneg; lia | apply Z.pow_lt_mono_r; lia]).
      rewrite wrap_i32_small by exact Hp. unfold i32_as_u64. rewrite Z.mod_small by lia.
      rewrite Hcount, E. cbn [bind]. rewrite <- (Z2Nat.id b) by lia. rewrite is_power_of_two_pow2. cbn [bind].
      eexists; split; [reflexivity|]. unfold commitment_key_for_radix_power_of_2.
      rewrite app_length, rev_length. cbn [length]. rewrite doubling_chain_length. cbn. lia.
    - pose proof (Z.mod_pos_bound q 256 ltac:(lia)).
      rewrite (commitment_key_spec pf gens b _ Hb' Hcount ltac:(lia)). eexists; split; [reflexivity|].
      rewrite app_length, radix_powers_length. cbn [length]. lia. }
  destruct Hkey as (key & Hkey & Hlen).
  unfold chunked_commitment_new, get_values_to_commit. rewrite Hd. cbn [bind]. rewrite Hkey. cbn [bind].
  rewrite !msm_truncate by exact Hlen. split; [reflexivity | eauto].
Qed.
End CommitmentFacts.
