(* Radix2.v -- the evaluation domains of the library: the powers of a root of unity of order a power of two (used for C83). *)
From Coq Require Import Znumtheory.
From Verif Require Import Base BaseFacts Algebra Utils Setup Keygen Encryption Circuit CircuitSat CommitmentFacts VecFacts EncryptFacts Spec Groth16 ArkGroth16
  PolyFacts Groth16Spec ArkFacts SchwartzZippel ArkCoset PropWrongValues Instance.

(* ark-poly 0.4, domain/radix2/mod.rs, Radix2EvaluationDomain::new (what GeneralEvaluationDomain::new, the D of ark-groth16 called from
   /repo/src/saver_groth16.rs:60 and :92, chooses for fields without a small subgroup, as the BLS12-381 scalar field): the size is
   num_coeffs.next_power_of_two(), None if its logarithm is above F::TWO_ADICITY, and the generator is F::get_root_of_unity(size):
   TWO_ADIC_ROOT_OF_UNITY squared two_adicity - log_size times (ark-ff 0.4, fields/fft_friendly.rs).  The elements are the powers of the generator in this order. *)
Definition squarings {K} (k : nat) (x : scalar K) : scalar K := Nat.iter k (fun w => fmul w w) x.
Definition radix2_domain {K} (root : scalar K) (two_adicity num_coeffs : nat) : option (list (scalar K)) :=
  let log_size := Nat.log2_up num_coeffs in
  if (two_adicity <? log_size)%nat then None
  else Some (map (fpow (squarings (two_adicity - log_size) root)) (seq 0 (2 ^ log_size))).

(* ark-bls12-381 0.4, fields/fr.rs (MontConfig): MODULUS, GENERATOR = 7, TWO_ADICITY = 32 and TWO_ADIC_ROOT_OF_UNITY = GENERATOR^((MODULUS-1) / 2^32). *)
Definition bls12_381 (E : pairing) : Prop := modulus (K_of E) = bls_r /\ limbs (K_of E) = 4%nat.
Definition bls_generator {K} : scalar K := of_Z 7.
Definition bls_root {K} : scalar K := of_Z 10238227357739495823651030575849232062558860180284477541189508159991286009131.
Definition bls_domain {K} : nat -> option (list (scalar K)) := radix2_domain bls_root 32.
(* ark-groth16 over this field: setup and prover with the library's domains and the quotient computed on the coset of the generator *)
Definition bls_backend {E : pairing} (pf : profile) (fuel : nat) : groth16_backend E := ark_backend_coset bls_generator pf bls_domain fuel.

Section Roots.
Context {E : pairing}.
Notation K := (K_of E).
Add Ring KrR : (@scalar_ring_theory (K_of E)).

Lemma squarings_S k (x : Fr E) : squarings (S k) x = fmul (squarings k x) (squarings k x).
Proof. reflexivity. Qed.
Lemma squarings_pow k (x : Fr E) : squarings k x = fpow x (2 ^ k).
Proof.
  induction k as [|k IH]; [change (2 ^ 0)%nat with 1%nat; rewrite fpow_S; change (fpow x 0) with (@fone K); change (squarings 0 x) with x; ring|].
  rewrite squarings_S, IH, <- fpow_add. f_equal. rewrite Nat.pow_succ_r'. lia.
Qed.
Lemma squarings_add i j (x : Fr E) : squarings (i + j) x = squarings i (squarings j x).
Proof. induction i as [|i IH]; [reflexivity|]. cbn [Nat.add]. rewrite !squarings_S, IH. reflexivity. Qed.
Lemma squarings_one k : squarings k (@fone K) = fone.
Proof. induction k as [|k IH]; [reflexivity|]. rewrite squarings_S, IH. ring. Qed.
Lemma squarings_zero k : squarings k (@fzero K) = fzero.
Proof. induction k as [|k IH]; [reflexivity|]. rewrite squarings_S, IH. ring. Qed.

Lemma odd_part d : (0 < d)%nat -> exists a m, d = (2 ^ a * (2 * m + 1))%nat.
Proof.
  induction d as [d IH] using lt_wf_ind. intros Hd. destruct (Nat.Even_or_Odd d) as [[h Hh]|[h Hh]].
  - destruct (IH h ltac:(lia) ltac:(lia)) as (a & m & Hm). exists (S a), m. rewrite Nat.pow_succ_r'. rewrite Hh, Hm. ring.
  - exists 0%nat, h. change (2 ^ 0)%nat with 1%nat. lia.
Qed.
Lemma fpow_sqr (x : Fr E) m : fpow x (2 * m) = fmul (fpow x m) (fpow x m).
Proof. rewrite <- fpow_add. f_equal. lia. Qed.

(* an element whose k-th squaring is -1 has order 2^(k+1) *)
Lemma root_order (w : Fr E) k : fone <> fneg (@fone K) -> squarings k w = fneg fone ->
  squarings (S k) w = fone /\ (forall i, (0 < i < 2 ^ S k)%nat -> fpow w i <> fone) /\ w <> fzero.
Proof.
  intros Hne Hk. split; [rewrite squarings_S, Hk; ring|]. split.
  - intros d Hd H1. destruct (odd_part d ltac:(lia)) as (a & m & ->).
    assert (Ha : (a <= k)%nat).
    { destruct (le_lt_dec a k) as [|Hlt]; [assumption|]. exfalso.
      pose proof (Nat.pow_le_mono_r 2 (S k) a ltac:(lia) Hlt) as Hp. nia. }
    assert (H2 : squarings (k - a) (fpow w (2 ^ a * (2 * m + 1))) = fneg fone).
    { rewrite fpow_mul, <- squarings_pow. set (u := squarings a w).
      assert (Hu : squarings (k - a) u = fneg fone) by (unfold u; rewrite <- squarings_add; replace (k - a + a)%nat with k by lia; exact Hk).
      rewrite !squarings_pow in *. rewrite <- fpow_mul, Nat.mul_comm, fpow_mul, Hu.
      replace (2 * m + 1)%nat with (S (2 * m)) by lia. rewrite fpow_S, fpow_mul.
      replace (fpow (fneg (@fone K)) 2) with (@fone K) by (rewrite !fpow_S; change (fpow (fneg (@fone K)) 0) with (@fone K); ring).
      rewrite fpow_one. ring. }
    rewrite H1, squarings_one in H2. exact (Hne H2).
  - intros ->. rewrite squarings_zero in Hk. apply Hne. 
    assert (H0 : fmul (@fone K) fone = fzero) by (replace (fmul (@fone K) fone) with (fneg (fneg (@fone K))) by ring; rewrite <- Hk; ring).
    apply fmul_integral in H0. destruct H0 as [H0|H0]; exfalso; apply (@fneq01 K); exact H0.
Qed.

Definition root_ok (root : Fr E) (s : nat) : Prop := fone <> fneg (@fone K) /\ match s with O => root = fone | S k => squarings k root = fneg fone end.
Lemma radix2_spec (root : Fr E) s n xs : root_ok root s -> radix2_domain root s n = Some xs ->
  length xs = (2 ^ Nat.log2_up n)%nat /\ (Nat.log2_up n <= s)%nat /\ mult_group xs /\ (forall x, In x xs -> squarings (Nat.log2_up n) x = fone).
Proof.
  unfold radix2_domain. intros [Hne Hr] Hd. destruct (Nat.ltb_spec s (Nat.log2_up n)) as [|Hle]; [discriminate|].
  assert (Hx : xs = map (fpow (squarings (s - Nat.log2_up n) root)) (seq 0 (2 ^ Nat.log2_up n))) by congruence. clear Hd.
  set (l := Nat.log2_up n) in *. set (w := squarings (s - l) root) in *.
  split; [rewrite Hx, map_length, seq_length; reflexivity|]. split; [exact Hle|].
  assert (Hw : squarings l w = fone /\ (forall i, (0 < i < 2 ^ l)%nat -> fpow w i <> fone) /\ w <> fzero).
  { destruct l as [|k].
    - change (2 ^ 0)%nat with 1%nat. unfold w. cbn [squarings Nat.iter]. change (Nat.iter (s - 0) (fun w => fmul w w) root) with (squarings (s - 0) root).
      rewrite Nat.sub_0_r. assert (H1 : squarings s root = fone).
      { destruct s as [|s']; [exact Hr|]. rewrite squarings_S, Hr. ring. }
      rewrite H1. split; [reflexivity|]. split; [intros i Hi; lia|]. exact (@fneq01 K).
    - apply root_order; [exact Hne|]. unfold w. rewrite <- squarings_add. destruct s as [|s']; [lia|].
      replace (k + (S s' - S k))%nat with s' by lia. exact Hr. }
  destruct Hw as (H1 & H2 & H3). split.
  - rewrite Hx. apply powers_mult_group; [|exact H3|rewrite <- squarings_pow; exact H1|exact H2].
    pose proof (Nat.pow_nonzero 2 l ltac:(lia)). lia.
  - rewrite Hx. intros x Hin. apply in_map_iff in Hin. destruct Hin as (i & <- & _).
    rewrite squarings_pow, <- fpow_mul, Nat.mul_comm, fpow_mul, <- squarings_pow, H1. apply fpow_one.
Qed.
Lemma radix2_covers n : (n <= 2 ^ Nat.log2_up n)%nat.
Proof.
  destruct n as [|[|n]]; [lia|cbn; lia|]. apply (Nat.log2_log2_up_spec (S (S n))). lia.
Qed.
Lemma radix2_ok (root : Fr E) s : root_ok root s -> domain_ok (radix2_domain root s).
Proof.
  intros Hr n xs Hd. destruct (radix2_spec root s n xs Hr Hd) as (Hl & _ & (Hnd & _) & _). split; [exact Hnd|]. rewrite Hl. apply radix2_covers.
Qed.
End Roots.

(* ---------- the constants of BLS12-381 ---------- *)
Section Bls.
Context {E : pairing}.
Notation K := (K_of E).
Hypothesis HE : modulus K = bls_r.
Add Ring KrB : (@scalar_ring_theory (K_of E)).

Fixpoint zsquarings (k : nat) (x : Z) : Z := match k with O => x | S k => let y := zsquarings k x in y * y mod bls_r end.
Lemma zsquarings_spec k x : 0 <= x < bls_r -> sval (squarings k (@of_Z K x)) = zsquarings k x.
Proof.
  intros Hx. induction k as [|k IH]; [change (squarings 0 (@of_Z K x)) with (@of_Z K x); cbn [zsquarings]; rewrite sval_of_Z, HE; apply Z.mod_small; exact Hx|].
  rewrite squarings_S. cbn [zsquarings]. cbv zeta. rewrite <- IH. unfold fmul. rewrite sval_of_Z, HE. reflexivity.
Qed.
Lemma bls_root_squarings : zsquarings 31 10238227357739495823651030575849232062558860180284477541189508159991286009131 = bls_r - 1.
Proof. vm_cast_no_check (eq_refl (bls_r - 1)). Qed.
Lemma bls_gen_squarings : (zsquarings 32 7 =? 1) = false.
Proof. vm_cast_no_check (eq_refl false). Qed.
Lemma sval_neg1 : sval (fneg (@fone K)) = bls_r - 1.
Proof.
  unfold fneg. rewrite sval_of_Z, HE. assert (H1 : sval (@fone K) = 1) by (unfold fone; rewrite sval_of_Z, HE; vm_compute; reflexivity). rewrite H1. vm_compute; reflexivity.
Qed.
Lemma bls_root_ok : root_ok (@bls_root K) 32.
Proof.
  split.
  - intros H. apply (f_equal sval) in H. rewrite sval_neg1 in H. unfold fone in H. rewrite sval_of_Z, HE in H. vm_compute in H. discriminate.
  - apply scalar_eq. unfold bls_root. rewrite zsquarings_spec by (split; [discriminate|reflexivity]). rewrite sval_neg1. apply bls_root_squarings.
Qed.
Lemma bls_generator_nonzero : @bls_generator K <> fzero.
Proof. intros H. apply (f_equal sval) in H. unfold bls_generator, fzero in H. rewrite !sval_of_Z, HE in H. vm_compute in H. discriminate. Qed.
Lemma bls_generator_outside n xs : @bls_domain K n = Some xs -> ~ In bls_generator xs.
Proof.
  intros Hd Hin. destruct (radix2_spec _ _ _ _ bls_root_ok Hd) as (_ & Hle & _ & H1). specialize (H1 _ Hin).
  assert (H2 : squarings 32 (@bls_generator K) = fone).
  { replace 32%nat with (32 - Nat.log2_up n + Nat.log2_up n)%nat by lia. rewrite squarings_add, H1. apply squarings_one. }
  apply (f_equal sval) in H2. unfold bls_generator in H2. rewrite zsquarings_spec in H2 by (split; [discriminate|reflexivity]).
  pose proof bls_gen_squarings as Hg. apply Z.eqb_neq in Hg. apply Hg. rewrite H2. unfold fone. rewrite sval_of_Z, HE. reflexivity.
Qed.
End Bls.
