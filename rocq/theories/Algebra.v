(* Algebra.v -- the algebraic interface of the arkworks dependencies used by /repo.
   Prime fields, groups of prime exponent and pairing engines are records of operations and laws; every
   theorem of the development quantifies over all of them.  Concrete instances are in Instance.v. *)
From Coq Require Import Znumtheory Eqdep_dec Ring.
From Verif Require Import Base.

(* ================================================================== *)
(** * Prime fields (ark_ff::PrimeField)                                *)
(* A prime field is Z/p represented by canonical integers stored in `limbs` 64-bit limbs (BigInt<N>). *)
Record prime_field := PrimeField {
  modulus : Z;
  limbs : nat;
  modulus_prime : prime modulus;
  modulus_fits : modulus < 2 ^ (64 * Z.of_nat limbs)
}.

(* F::MODULUS_BIT_SIZE: number of bits of the modulus. *)
Definition modulus_bit_size (K : prime_field) : Z := Z.log2 (modulus K) + 1.

Record scalar (K : prime_field) := Scalar {
  sval : Z;
  sval_ok : (sval mod modulus K =? sval) = true
}.
Arguments sval {K} s.
Arguments sval_ok {K} s.

Lemma of_Z_ok (K : prime_field) (z : Z) :
  ((z mod modulus K) mod modulus K =? z mod modulus K) = true.
Proof. apply Z.eqb_eq, Zmod_mod. Qed.

(* F::from(integer): reduction modulo p. *)
Definition of_Z {K} (z : Z) : scalar K := Scalar K (z mod modulus K) (of_Z_ok K z).

(* F::into_bigint: the canonical integer. *)
Definition into_bigint {K} (a : scalar K) : Z := sval a.

Definition fzero {K} : scalar K := of_Z 0.
Definition fone {K} : scalar K := of_Z 1.
Definition fadd {K} (a b : scalar K) : scalar K := of_Z (sval a + sval b).
Definition fmul {K} (a b : scalar K) : scalar K := of_Z (sval a * sval b).
Definition fneg {K} (a : scalar K) : scalar K := of_Z (- sval a).
Definition fsub {K} (a b : scalar K) : scalar K := of_Z (sval a - sval b).
Definition feqb {K} (a b : scalar K) : bool := sval a =? sval b.
(* Iterator::sum over field elements *)
Definition fsum {K} (l : list (scalar K)) : scalar K := fold_right fadd fzero l.
(* Field::pow with a small exponent *)
Definition fpow {K} (a : scalar K) (n : nat) : scalar K := Nat.iter n (fmul a) fone.

Arguments of_Z : simpl never.
Arguments fzero : simpl never.
Arguments fone : simpl never.
Arguments fadd : simpl never.
Arguments fmul : simpl never.
Arguments fneg : simpl never.
Arguments fsub : simpl never.

Section FieldFacts.
Context {K : prime_field}.

Lemma modulus_gt1 : 1 < modulus K.
Proof. destruct (modulus_prime K); assumption. Qed.

Lemma sval_range (a : scalar K) : 0 <= sval a < modulus K.
Proof.
  destruct a as [z Hz]; cbn. apply Z.eqb_eq in Hz. rewrite <- Hz.
  apply Z.mod_pos_bound. pose proof modulus_gt1; lia.
Qed.

Lemma sval_mod (a : scalar K) : sval a mod modulus K = sval a.
Proof. destruct a as [z Hz]; cbn. apply Z.eqb_eq; exact Hz. Qed.

Lemma scalar_eq (a b : scalar K) : sval a = sval b -> a = b.
Proof.
  destruct a as [x Hx], b as [y Hy]; cbn; intros ->. f_equal.
  apply UIP_dec, bool_dec.
Qed.

Lemma scalar_eq_mod (a b : scalar K) : sval a mod modulus K = sval b mod modulus K -> a = b.
Proof. intros H; apply scalar_eq. rewrite <- (sval_mod a), <- (sval_mod b); exact H. Qed.

Lemma sval_of_Z (z : Z) : sval (@of_Z K z) = z mod modulus K.
Proof. reflexivity. Qed.

Lemma of_Z_sval (a : scalar K) : of_Z (sval a) = a.
Proof. apply scalar_eq. rewrite sval_of_Z. apply sval_mod. Qed.

Lemma of_Z_small (z : Z) : 0 <= z < modulus K -> sval (@of_Z K z) = z.
Proof. intros H; rewrite sval_of_Z; apply Z.mod_small; exact H. Qed.

Lemma of_Z_eq_iff (x y : Z) : @of_Z K x = of_Z y <-> x mod modulus K = y mod modulus K.
Proof.
  split; intros H.
  - apply (f_equal sval) in H. exact H.
  - apply scalar_eq; exact H.
Qed.

Lemma feqb_spec (a b : scalar K) : feqb a b = true <-> a = b.
Proof.
  unfold feqb; rewrite Z.eqb_eq; split; [apply scalar_eq | intros ->; reflexivity].
Qed.

Lemma of_Z_add (x y : Z) : @of_Z K (x + y) = fadd (of_Z x) (of_Z y).
Proof. apply scalar_eq; unfold fadd; rewrite !sval_of_Z. apply Zplus_mod. Qed.
Lemma of_Z_mul (x y : Z) : @of_Z K (x * y) = fmul (of_Z x) (of_Z y).
Proof. apply scalar_eq; unfold fmul; rewrite !sval_of_Z. apply Zmult_mod. Qed.
Lemma of_Z_opp (x : Z) : @of_Z K (- x) = fneg (of_Z x).
Proof.
  apply scalar_eq; unfold fneg; rewrite !sval_of_Z.
  replace (- x) with (0 - x) by ring. rewrite (Zminus_mod 0 x).
  replace (- (x mod modulus K)) with (0 - x mod modulus K) by ring.
  rewrite (Zminus_mod 0 (x mod modulus K)). now rewrite Zmod_mod.
Qed.
Lemma of_Z_sub (x y : Z) : @of_Z K (x - y) = fsub (of_Z x) (of_Z y).
Proof. apply scalar_eq; unfold fsub; rewrite !sval_of_Z. apply Zminus_mod. Qed.

Lemma scalar_ring_theory :
  ring_theory (@fzero K) fone fadd fmul fsub fneg eq.
Proof.
  assert (Hrep : forall a : scalar K, exists z, a = of_Z z) by (intros a; exists (sval a); now rewrite of_Z_sval).
  constructor; intros;
    repeat match goal with a : scalar K |- _ => destruct (Hrep a) as [? ->]; clear a end;
    unfold fzero, fone;
    rewrite <- ?of_Z_add, <- ?of_Z_mul, <- ?of_Z_opp, <- ?of_Z_sub,
            <- ?of_Z_add, <- ?of_Z_mul, <- ?of_Z_opp, <- ?of_Z_sub, <- ?of_Z_add;
    f_equal; ring.
Qed.

Add Ring scalar_ring_local : scalar_ring_theory.

Lemma fneq01 : @fone K <> fzero.
Proof.
  intros H; apply (f_equal sval) in H. unfold fone, fzero in H. rewrite !sval_of_Z in H.
  pose proof modulus_gt1. rewrite !Z.mod_small in H; lia.
Qed.

Lemma of_Z_zero_iff (z : Z) : @of_Z K z = fzero <-> (modulus K | z).
Proof.
  unfold fzero. rewrite of_Z_eq_iff. rewrite Zmod_0_l.
  pose proof modulus_gt1. split; intros Hz.
  - apply Z.mod_divide in Hz; [exact Hz | lia].
  - apply Z.mod_divide; [lia | exact Hz].
Qed.

Lemma fmul_integral (a b : scalar K) : fmul a b = fzero -> a = fzero \/ b = fzero.
Proof.
  rewrite <- (of_Z_sval a), <- (of_Z_sval b), <- of_Z_mul, !of_Z_zero_iff.
  intros H. apply prime_mult in H; [exact H | apply modulus_prime].
Qed.

Lemma finv_exists (a : scalar K) : a <> fzero -> exists b, fmul a b = fone.
Proof.
  intros Ha.
  assert (Hr : rel_prime (sval a) (modulus K)).
  { apply rel_prime_sym, prime_rel_prime; [apply modulus_prime|].
    intros Hd. apply Ha. rewrite <- (of_Z_sval a). apply of_Z_zero_iff; exact Hd. }
  destruct (rel_prime_bezout _ _ Hr) as [u v Huv].
  exists (of_Z u). rewrite <- (of_Z_sval a), <- of_Z_mul.
  unfold fone. apply of_Z_eq_iff.
  replace (sval a * u) with (1 + (- v) * modulus K) by lia.
  apply Z_mod_plus_full.
Qed.

Lemma fsub_zero_eq (a b : scalar K) : fsub a b = fzero -> a = b.
Proof. intros H. replace a with (fadd (fsub a b) b) by ring. rewrite H. ring. Qed.

Lemma feq_dec (a b : scalar K) : {a = b} + {a <> b}.
Proof.
  destruct (feqb a b) eqn:E.
  - left; apply feqb_spec; exact E.
  - right; intros H; apply feqb_spec in H; congruence.
Qed.

Lemma fsum_app (l1 l2 : list (scalar K)) : fsum (l1 ++ l2) = fadd (fsum l1) (fsum l2).
Proof. induction l1 as [|a l1 IH]; cbn [fsum app fold_right]; [change (fold_right fadd fzero l2) with (fsum l2); ring | change (fold_right fadd fzero (l1 ++ l2)) with (fsum (l1 ++ l2)); change (fold_right fadd fzero l1) with (fsum l1); rewrite IH; ring]. Qed.

End FieldFacts.

(* ================================================================== *)
(** * Abelian groups of exponent p (ark_ec::CurveGroup / AffineRepr)   *)
(* A point type is an abelian group with decidable equality in which p*x = 0 for every element.
   Affine and projective forms of a point are the same element. *)
Record group (K : prime_field) := Group {
  gcar :> Type;
  gzero : gcar;
  gadd : gcar -> gcar -> gcar;
  gneg : gcar -> gcar;
  geqb : gcar -> gcar -> bool;
  gadd_assoc : forall x y z, gadd x (gadd y z) = gadd (gadd x y) z;
  gadd_comm : forall x y, gadd x y = gadd y x;
  gadd_0_l : forall x, gadd gzero x = x;
  gadd_neg_r : forall x, gadd x (gneg x) = gzero;
  geqb_spec : forall x y, geqb x y = true <-> x = y;
  gexponent : forall x, Pos.iter_op gadd (Z.to_pos (modulus K)) x = gzero
}.
Arguments gzero {K g}.
Arguments gadd {K g} _ _.
Arguments gneg {K g} _.
Arguments geqb {K g} _ _.
Arguments gadd_assoc {K g} _ _ _.
Arguments gadd_comm {K g} _ _.
Arguments gadd_0_l {K g} _.
Arguments gadd_neg_r {K g} _.
Arguments geqb_spec {K g} _ _.
Arguments gexponent {K g} _.

Declare Scope group_scope.
Delimit Scope group_scope with grp.
Notation "x [+] y" := (gadd x y) (at level 50, left associativity).
Notation "[-] x" := (gneg x) (at level 35, right associativity).

(* AffineRepr::mul_bigint: double-and-add on a non-negative integer (BigInt). *)
Definition mul_bigint {K} {G : group K} (x : G) (z : Z) : G :=
  match z with
  | Z0 => gzero
  | Zpos q => Pos.iter_op gadd q x
  | Zneg q => gneg (Pos.iter_op gadd q x)
  end.

(* Multiplication by a scalar: x.mul_bigint(s.into_bigint()) *)
Definition smul {K} {G : group K} (s : scalar K) (x : G) : G := mul_bigint x (into_bigint s).
Notation "s [*] x" := (smul s x) (at level 40, left associativity).

Definition gsum {K} {G : group K} (l : list G) : G := fold_right gadd gzero l.

(* VariableBaseMSM::msm_bigint (ark-ec 0.4): sum of bases[i]*scalars[i] over the common prefix. *)
Definition msm_bigint {K} {G : group K} (bases : list G) (scalars : list Z) : G :=
  gsum (map (fun '(b, s) => mul_bigint b s) (combine bases scalars)).

(* AffineRepr::is_zero *)
Definition gis_zero {K} {G : group K} (x : G) : bool := geqb x gzero.

(* Mathematical linear combination  sum_i cs_i * xs_i *)
Fixpoint dot {K} {G : group K} (cs : list (scalar K)) (xs : list G) : G :=
  match cs, xs with
  | c :: cs', x :: xs' => (c [*] x) [+] dot cs' xs'
  | _, _ => gzero
  end.

Section GroupFacts.
Context {K : prime_field} {G : group K}.
Implicit Types x y : G.

Lemma gadd_0_r x : x [+] gzero = x.
Proof. rewrite gadd_comm; apply gadd_0_l. Qed.
Lemma gadd_neg_l x : [-] x [+] x = gzero.
Proof. rewrite gadd_comm; apply gadd_neg_r. Qed.
Lemma gadd_cancel_l x y (z : G) : x [+] y = x [+] z -> y = z.
Proof.
  intros H. rewrite <- (gadd_0_l y), <- (gadd_0_l z), <- (gadd_neg_l x), <- !gadd_assoc, H; reflexivity.
Qed.
Lemma gneg_unique x y : x [+] y = gzero -> y = [-] x.
Proof. intros H. apply (gadd_cancel_l x). rewrite gadd_neg_r; exact H. Qed.
Lemma gneg_add x y : [-] (x [+] y) = [-] x [+] [-] y.
Proof.
  symmetry; apply gneg_unique.
  rewrite <- gadd_assoc, (gadd_assoc y), (gadd_comm y ([-] x)), <- gadd_assoc, gadd_neg_r, gadd_0_r.
  apply gadd_neg_r.
Qed.
Lemma gneg_0 : [-] (@gzero K G) = gzero.
Proof. symmetry; apply gneg_unique, gadd_0_l. Qed.
Lemma gneg_neg x : [-] [-] x = x.
Proof. symmetry; apply gneg_unique, gadd_neg_l. Qed.
Lemma gsub_zero_eq x y : x [+] [-] y = gzero -> x = y.
Proof. intros H. rewrite <- (gneg_neg y). apply gneg_unique. rewrite gadd_comm; exact H. Qed.

Lemma geq_dec x y : {x = y} + {x <> y}.
Proof.
  destruct (geqb x y) eqn:E.
  - left; apply geqb_spec; exact E.
  - right; intros H; apply geqb_spec in H; congruence.
Qed.
Lemma geqb_false x y : geqb x y = false <-> x <> y.
Proof.
  split; intros H.
  - intros E; apply geqb_spec in E; congruence.
  - destruct (geqb x y) eqn:E; [apply geqb_spec in E; congruence | reflexivity].
Qed.

(* repeated addition *)
Fixpoint nmul (n : nat) x : G := match n with O => gzero | S n' => x [+] nmul n' x end.

Lemma nmul_add n m x : nmul (n + m) x = nmul n x [+] nmul m x.
Proof. induction n as [|n IH]; cbn; [now rewrite gadd_0_l | rewrite IH; apply gadd_assoc]. Qed.

Lemma iter_op_nmul q x : Pos.iter_op gadd q x = nmul (Pos.to_nat q) x.
Proof.
  revert x; induction q as [|q IH] using Pos.peano_ind; intros x.
  - change (Pos.to_nat 1) with 1%nat. cbn. now rewrite gadd_0_r.
  - rewrite Pos.iter_op_succ by (intros; apply gadd_assoc).
    rewrite IH, Pos2Nat.inj_succ. reflexivity.
Qed.

Lemma mul_bigint_0 x : mul_bigint x 0 = gzero.
Proof. reflexivity. Qed.
Lemma mul_bigint_1 x : mul_bigint x 1 = x.
Proof. reflexivity. Qed.

Lemma mul_bigint_nmul x n : mul_bigint x (Z.of_nat n) = nmul n x.
Proof.
  destruct n as [|n]; [reflexivity|].
  cbn [Z.of_nat mul_bigint]. rewrite iter_op_nmul, SuccNat2Pos.id_succ. reflexivity.
Qed.

Lemma mul_bigint_opp x z : mul_bigint x (- z) = [-] mul_bigint x z.
Proof. destruct z; cbn; [now rewrite gneg_0 | reflexivity | now rewrite gneg_neg]. Qed.

Lemma mul_bigint_succ x z : mul_bigint x (Z.succ z) = x [+] mul_bigint x z.
Proof.
  destruct (Z_le_gt_dec 0 z) as [Hz|Hz].
  - rewrite <- (Z2Nat.id z) by lia. rewrite <- Nat2Z.inj_succ, !mul_bigint_nmul. reflexivity.
  - replace z with (- Z.of_nat (S (Z.to_nat (- z - 1)))) by lia.
    set (n := Z.to_nat (- z - 1)).
    replace (Z.succ (- Z.of_nat (S n))) with (- Z.of_nat n) by lia.
    rewrite !mul_bigint_opp, !mul_bigint_nmul. cbn [nmul].
    rewrite gneg_add, gadd_assoc, gadd_neg_r, gadd_0_l. reflexivity.
Qed.

Lemma mul_bigint_add x a b : mul_bigint x (a + b) = mul_bigint x a [+] mul_bigint x b.
Proof.
  revert a. assert (Hn : forall n a, mul_bigint x (Z.of_nat n + a) = mul_bigint x (Z.of_nat n) [+] mul_bigint x a).
  { induction n as [|n IH]; intros a.
    - cbn [Z.of_nat]. rewrite Z.add_0_l, mul_bigint_0, gadd_0_l. reflexivity.
    - rewrite Nat2Z.inj_succ, Z.add_succ_l, !mul_bigint_succ, IH. apply gadd_assoc. }
  intros a. destruct (Z_le_gt_dec 0 a) as [Ha|Ha].
  - rewrite <- (Z2Nat.id a) by lia. apply Hn.
  - set (n := Z.to_nat (- a)). replace a with (- Z.of_nat n) by (subst n; lia).
    apply (gadd_cancel_l (mul_bigint x (Z.of_nat n))).
    rewrite <- Hn, gadd_assoc, mul_bigint_opp, gadd_neg_r, gadd_0_l. f_equal; lia.
Qed.

Lemma mul_bigint_mul x a b : mul_bigint x (a * b) = mul_bigint (mul_bigint x b) a.
Proof.
  assert (Hn : forall n, mul_bigint x (Z.of_nat n * b) = mul_bigint (mul_bigint x b) (Z.of_nat n)).
  { induction n as [|n IH]; [reflexivity|].
    rewrite Nat2Z.inj_succ, Z.mul_succ_l, mul_bigint_add, IH, mul_bigint_succ. apply gadd_comm. }
  destruct (Z_le_gt_dec 0 a) as [Ha|Ha].
  - rewrite <- (Z2Nat.id a) by lia. apply Hn.
  - set (n := Z.to_nat (- a)). replace a with (- Z.of_nat n) by (subst n; lia).
    rewrite Z.mul_opp_l, !mul_bigint_opp, Hn. reflexivity.
Qed.

Lemma mul_bigint_zero_l z : mul_bigint (@gzero K G) z = gzero.
Proof.
  assert (Hn : forall n, mul_bigint (@gzero K G) (Z.of_nat n) = gzero).
  { intros n; rewrite mul_bigint_nmul. induction n; cbn; [reflexivity | now rewrite gadd_0_l]. }
  destruct (Z_le_gt_dec 0 z) as [Hz|Hz].
  - rewrite <- (Z2Nat.id z) by lia. apply Hn.
  - replace z with (- Z.of_nat (Z.to_nat (- z))) by lia. rewrite mul_bigint_opp, Hn. apply gneg_0.
Qed.

Lemma mul_bigint_gadd x y z : mul_bigint (x [+] y) z = mul_bigint x z [+] mul_bigint y z.
Proof.
  assert (Hn : forall n, mul_bigint (x [+] y) (Z.of_nat n) = mul_bigint x (Z.of_nat n) [+] mul_bigint y (Z.of_nat n)).
  { induction n as [|n IH].
    - cbn. now rewrite gadd_0_l.
    - rewrite Nat2Z.inj_succ, !mul_bigint_succ, IH.
      rewrite <- !gadd_assoc. f_equal. rewrite !gadd_assoc. f_equal. apply gadd_comm. }
  destruct (Z_le_gt_dec 0 z) as [Hz|Hz].
  - rewrite <- (Z2Nat.id z) by lia. apply Hn.
  - replace z with (- Z.of_nat (Z.to_nat (- z))) by lia. rewrite !mul_bigint_opp, Hn. apply gneg_add.
Qed.

Lemma mul_bigint_modulus x : mul_bigint x (modulus K) = gzero.
Proof.
  pose proof (@modulus_gt1 K). rewrite <- (gexponent x). unfold mul_bigint.
  destruct (modulus K); [lia | reflexivity | lia].
Qed.

Lemma mul_bigint_mod x z : mul_bigint x (z mod modulus K) = mul_bigint x z.
Proof.
  pose proof (@modulus_gt1 K).
  rewrite (Z_div_mod_eq_full z (modulus K)) at 2.
  rewrite mul_bigint_add, Z.mul_comm, mul_bigint_mul, mul_bigint_modulus, mul_bigint_zero_l, gadd_0_l.
  reflexivity.
Qed.

(* mul_bigint by an integer is multiplication by its residue *)
Lemma mul_bigint_smul x z : mul_bigint x z = of_Z z [*] x.
Proof. unfold smul, into_bigint; rewrite sval_of_Z; symmetry; apply mul_bigint_mod. Qed.

Lemma smul_0_l x : fzero [*] x = gzero.
Proof. unfold fzero; rewrite <- mul_bigint_smul; reflexivity. Qed.
Lemma smul_1_l x : fone [*] x = x.
Proof. unfold fone; rewrite <- mul_bigint_smul; reflexivity. Qed.
Lemma smul_0_r (a : scalar K) : a [*] (@gzero K G) = gzero.
Proof. apply mul_bigint_zero_l. Qed.
Lemma smul_fadd (a b : scalar K) x : fadd a b [*] x = (a [*] x) [+] (b [*] x).
Proof.
  unfold fadd; rewrite <- mul_bigint_smul, mul_bigint_add. reflexivity.
Qed.
Lemma smul_fmul (a b : scalar K) x : fmul a b [*] x = a [*] (b [*] x).
Proof. unfold fmul; rewrite <- mul_bigint_smul, mul_bigint_mul. reflexivity. Qed.
Lemma smul_fneg (a : scalar K) x : fneg a [*] x = [-] (a [*] x).
Proof. unfold fneg; rewrite <- mul_bigint_smul, mul_bigint_opp. reflexivity. Qed.
Lemma smul_fsub (a b : scalar K) x : fsub a b [*] x = (a [*] x) [+] [-] (b [*] x).
Proof.
  unfold fsub; rewrite <- mul_bigint_smul. unfold Z.sub. rewrite mul_bigint_add, mul_bigint_opp. reflexivity.
Qed.
Lemma smul_gadd (a : scalar K) x y : a [*] (x [+] y) = (a [*] x) [+] (a [*] y).
Proof. apply mul_bigint_gadd. Qed.
Lemma smul_gneg (a : scalar K) x : a [*] ([-] x) = [-] (a [*] x).
Proof. apply gneg_unique. rewrite <- smul_gadd, gadd_neg_r. apply smul_0_r. Qed.

(* in a group of prime exponent a non-zero scalar can be cancelled *)
Lemma smul_eq_zero (a : scalar K) x : a [*] x = gzero -> a = fzero \/ x = gzero.
Proof.
  intros H. destruct (feq_dec a fzero) as [Ha|Ha]; [left; exact Ha|right].
  destruct (finv_exists a Ha) as [b Hb].
  rewrite <- (smul_1_l x), <- Hb.
  assert (Hc : fmul a b = fmul b a) by (apply scalar_eq; unfold fmul; rewrite !sval_of_Z; f_equal; ring).
  rewrite Hc, smul_fmul, H. apply smul_0_r.
Qed.

Lemma smul_inj_scalar (a b : scalar K) x : x <> gzero -> a [*] x = b [*] x -> a = b.
Proof.
  intros Hx H. apply fsub_zero_eq.
  destruct (smul_eq_zero (fsub a b) x) as [E|E]; [|exact E|contradiction].
  rewrite smul_fsub, H. apply gadd_neg_r.
Qed.

Lemma smul_inj_point (a : scalar K) x y : a <> fzero -> a [*] x = a [*] y -> x = y.
Proof.
  intros Ha H. apply gsub_zero_eq.
  destruct (smul_eq_zero a (x [+] [-] y)) as [E|E]; [|contradiction|exact E].
  rewrite smul_gadd, smul_gneg, H. apply gadd_neg_r.
Qed.

(* discrete logs below the order are unique *)
Lemma mul_bigint_inj x (a b : Z) :
  x <> gzero -> 0 <= a < modulus K -> 0 <= b < modulus K -> mul_bigint x a = mul_bigint x b -> a = b.
Proof.
  intros Hx Ha Hb H. rewrite !mul_bigint_smul in H.
  apply smul_inj_scalar in H; [|exact Hx].
  apply (f_equal sval) in H. rewrite !of_Z_small in H; assumption.
Qed.

Lemma gsum_app (l1 l2 : list G) : gsum (l1 ++ l2) = gsum l1 [+] gsum l2.
Proof.
  unfold gsum. induction l1 as [|a l1 IH]; cbn; [now rewrite gadd_0_l | rewrite IH; apply gadd_assoc].
Qed.

End GroupFacts.

(* ================================================================== *)
(** * A reflective solver for linear identities in a group             *)
Section Reflect.
Context {K : prime_field} {G : group K}.
Add Ring scalar_ring_r : (@scalar_ring_theory K).

Inductive gexp := GV (n : nat) | G0 | GA (a b : gexp) | GN (a : gexp) | GS (c : scalar K) (a : gexp).

Fixpoint gden (env : list G) (e : gexp) : G :=
  match e with
  | GV n => nth n env gzero
  | G0 => gzero
  | GA a b => gden env a [+] gden env b
  | GN a => [-] gden env a
  | GS c a => c [*] gden env a
  end.

Fixpoint gcoef (e : gexp) (v : nat) : scalar K :=
  match e with
  | GV n => if Nat.eqb n v then fone else fzero
  | G0 => fzero
  | GA a b => fadd (gcoef a v) (gcoef b v)
  | GN a => fneg (gcoef a v)
  | GS c a => fmul c (gcoef a v)
  end.

Lemma dot_ext (f g : nat -> scalar K) (env : list G) k :
  (forall v, f v = g v) ->
  dot (map f (seq k (length env))) env = dot (map g (seq k (length env))) env.
Proof.
  intros H; revert k; induction env as [|x env IH]; intros k; cbn; [reflexivity|].
  rewrite H, IH. reflexivity.
Qed.

Lemma dot_add_r (f g : nat -> scalar K) (env : list G) k :
  dot (map (fun v => fadd (f v) (g v)) (seq k (length env))) env =
  dot (map f (seq k (length env))) env [+] dot (map g (seq k (length env))) env.
Proof.
  revert k; induction env as [|x env IH]; intros k; cbn; [now rewrite gadd_0_l|].
  rewrite smul_fadd, IH, <- !gadd_assoc. f_equal.
  rewrite !gadd_assoc. f_equal. apply gadd_comm.
Qed.
Lemma dot_neg_r (f : nat -> scalar K) (env : list G) k :
  dot (map (fun v => fneg (f v)) (seq k (length env))) env = [-] dot (map f (seq k (length env))) env.
Proof.
  revert k; induction env as [|x env IH]; intros k; cbn; [now rewrite gneg_0|].
  rewrite smul_fneg, IH, gneg_add. reflexivity.
Qed.
Lemma dot_mul_r c (f : nat -> scalar K) (env : list G) k :
  dot (map (fun v => fmul c (f v)) (seq k (length env))) env = c [*] dot (map f (seq k (length env))) env.
Proof.
  revert k; induction env as [|x env IH]; intros k; cbn; [now rewrite smul_0_r|].
  rewrite smul_fmul, IH, smul_gadd. reflexivity.
Qed.
Lemma dot_zero_r (env : list G) k :
  dot (map (fun _ => fzero) (seq k (length env))) env = gzero.
Proof.
  revert k; induction env as [|x env IH]; intros k; cbn; [reflexivity|].
  rewrite smul_0_l, IH. apply gadd_0_l.
Qed.
Lemma dot_var (env : list G) k n :
  dot (map (fun v => if Nat.eqb (k + n) v then fone else fzero) (seq k (length env))) env = nth n env gzero.
Proof.
  revert k n; induction env as [|x env IH]; intros k n; cbn; [now destruct n|].
  destruct n as [|n].
  - rewrite Nat.add_0_r, Nat.eqb_refl, smul_1_l.
    transitivity (x [+] dot (map (fun _ => fzero) (seq (S k) (length env))) env).
    + f_equal.
      assert (Hk : forall j, (k < j)%nat -> dot (map (fun v => if Nat.eqb k v then fone else fzero) (seq j (length env))) env
                     = dot (map (fun _ => fzero) (seq j (length env))) env).
      { clear. induction env as [|y env IH]; intros j Hj; cbn; [reflexivity|].
        destruct (Nat.eqb_spec k j); [lia|]. rewrite IH by lia. reflexivity. }
      apply Hk; lia.
    + rewrite dot_zero_r. apply gadd_0_r.
  - destruct (Nat.eqb_spec (k + S n) k); [lia|]. rewrite smul_0_l, gadd_0_l.
    rewrite <- (IH (S k) n). apply dot_ext. intros v. replace (k + S n)%nat with (S k + n)%nat by lia. reflexivity.
Qed.

Lemma gden_dot env e : gden env e = dot (map (gcoef e) (seq 0 (length env))) env.
Proof.
  induction e as [n| |a IHa b IHb|a IHa|c a IHa]; cbn [gden gcoef].
  - symmetry. apply (dot_var env 0 n).
  - symmetry. apply dot_zero_r.
  - rewrite IHa, IHb. symmetry. apply (dot_add_r (gcoef a) (gcoef b)).
  - rewrite IHa. symmetry. apply (dot_neg_r (gcoef a)).
  - rewrite IHa. symmetry. apply (dot_mul_r c (gcoef a)).
Qed.

Fixpoint coefs_eq (l : list nat) (e1 e2 : gexp) : Prop :=
  match l with
  | [] => True
  | v :: l' => gcoef e1 v = gcoef e2 v /\ coefs_eq l' e1 e2
  end.

Lemma gexp_eq env e1 e2 : coefs_eq (seq 0 (length env)) e1 e2 -> gden env e1 = gden env e2.
Proof.
  intros H. rewrite !gden_dot. f_equal.
  induction (seq 0 (length env)) as [|v l IH]; cbn in *; [reflexivity|].
  destruct H as [Hv Hl]. rewrite Hv, IH by exact Hl. reflexivity.
Qed.
End Reflect.

Ltac g_mem x l :=
  match l with
  | @nil _ => constr:(false)
  | cons x _ => constr:(true)
  | cons _ ?l' => g_mem x l'
  end.
Ltac g_find x l :=
  match l with
  | cons x _ => constr:(O)
  | cons _ ?l' => let n := g_find x l' in constr:(S n)
  end.
Ltac g_atoms t acc :=
  match t with
  | gadd ?a ?b => let acc := g_atoms a acc in g_atoms b acc
  | gneg ?a => g_atoms a acc
  | smul _ ?a => g_atoms a acc
  | gzero => acc
  | _ => match g_mem t acc with true => acc | false => constr:(cons t acc) end
  end.
Ltac g_reify K t env :=
  match t with
  | gadd ?a ?b => let a' := g_reify K a env in let b' := g_reify K b env in constr:(@GA K a' b')
  | gneg ?a => let a' := g_reify K a env in constr:(@GN K a')
  | smul ?c ?a => let a' := g_reify K a env in constr:(@GS K c a')
  | gzero => constr:(@G0 K)
  | _ => let n := g_find t env in constr:(@GV K n)
  end.
(* proves a linear identity in a group; coefficients are compared with `ring` (a ring for the scalars must be declared) *)
Ltac glin :=
  match goal with
  | |- @eq ?T ?a ?b =>
    match T with
    | gcar ?K ?G =>
      let env := g_atoms a (@nil (gcar K G)) in
      let env := g_atoms b env in
      let ea := g_reify K a env in
      let eb := g_reify K b env in
      change (@gden K G env ea = @gden K G env eb);
      apply gexp_eq; cbn [length seq coefs_eq gcoef Nat.eqb];
      repeat match goal with |- _ /\ _ => split | |- True => exact I end; try ring
    end
  end.

(* ================================================================== *)
(** * Pairing engines (ark_ec::pairing::Pairing)                       *)
(* G1, G2 and the target group (written additively, as PairingOutput is), prepared G2 elements, and the
   pairing of a G1 element with a prepared G2 element (E::pairing / one term of E::multi_pairing).
   G1Prepared is identified with G1Affine. Laws: bilinearity and non-degeneracy. *)
Record pairing := Pairing {
  K_of : prime_field;
  G1 : group K_of;
  G2 : group K_of;
  GT : group K_of;
  G2Prepared : Type;
  prep : G2 -> G2Prepared;
  pair : G1 -> G2Prepared -> GT;
  pair_add_l : forall x y q, pair (x [+] y) (prep q) = pair x (prep q) [+] pair y (prep q);
  pair_add_r : forall x q q', pair x (prep (q [+] q')) = pair x (prep q) [+] pair x (prep q');
  pair_nondeg : forall x q, pair x (prep q) = gzero -> x = gzero \/ q = gzero
}.
Arguments prep {p} _.
Arguments pair {p} _ _.
Arguments pair_add_l {p} _ _ _.
Arguments pair_add_r {p} _ _ _.
Arguments pair_nondeg {p} _ _ _.

Notation Fr E := (scalar (K_of E)).

(* E::multi_pairing: panics when the two sides have different lengths (zip_eq), otherwise the sum. *)
Definition multi_pairing {E : pairing} (a : list (G1 E)) (b : list (G2Prepared E)) : outcome (GT E) :=
  if Nat.eqb (length a) (length b)
  then Ok (gsum (map (fun '(x, y) => pair x y) (combine a b)))
  else Panic.

Section PairingFacts.
Context {E : pairing}.
Implicit Types (x y : G1 E) (q : G2 E).

Lemma pair_zero_l q : pair (@gzero _ (G1 E)) (prep q) = gzero.
Proof.
  apply (gadd_cancel_l (pair gzero (prep q))).
  rewrite <- pair_add_l, !gadd_0_r. reflexivity.
Qed.
Lemma pair_zero_r x : pair x (prep (@gzero _ (G2 E))) = gzero.
Proof.
  apply (gadd_cancel_l (pair x (prep gzero))).
  rewrite <- pair_add_r, !gadd_0_r. reflexivity.
Qed.
Lemma pair_neg_l x q : pair ([-] x) (prep q) = [-] pair x (prep q).
Proof. apply gneg_unique. rewrite <- pair_add_l, gadd_neg_r. apply pair_zero_l. Qed.
Lemma pair_neg_r x q : pair x (prep ([-] q)) = [-] pair x (prep q).
Proof. apply gneg_unique. rewrite <- pair_add_r, gadd_neg_r. apply pair_zero_r. Qed.

Lemma pair_nmul_l n x q : pair (nmul n x) (prep q) = nmul n (pair x (prep q)).
Proof. induction n as [|n IH]; cbn; [apply pair_zero_l | now rewrite pair_add_l, IH]. Qed.
Lemma pair_nmul_r n x q : pair x (prep (nmul n q)) = nmul n (pair x (prep q)).
Proof. induction n as [|n IH]; cbn; [apply pair_zero_r | now rewrite pair_add_r, IH]. Qed.

Lemma pair_smul_l (a : Fr E) x q : pair (a [*] x) (prep q) = a [*] pair x (prep q).
Proof.
  unfold smul, into_bigint. pose proof (sval_range a).
  rewrite <- (Z2Nat.id (sval a)) by lia. rewrite !mul_bigint_nmul. apply pair_nmul_l.
Qed.
Lemma pair_smul_r (a : Fr E) x q : pair x (prep (a [*] q)) = a [*] pair x (prep q).
Proof.
  unfold smul, into_bigint. pose proof (sval_range a).
  rewrite <- (Z2Nat.id (sval a)) by lia. rewrite !mul_bigint_nmul. apply pair_nmul_r.
Qed.
End PairingFacts.
