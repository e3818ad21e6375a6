(* Instance.v -- concrete prime fields and pairing engines.  They inhabit every interface of Algebra.v, and the
   examples beside the property theorems are computed in them. *)
From Coq Require Import Znumtheory.
From Verif Require Import Base Algebra Primality.

(* ---------- the BLS12-381 scalar field ---------- *)
Definition bls_r : Z := 0x73eda753299d7d483339d80809a1d80553bda402fffe5bfeffffffff00000001.
Lemma p906349_prime : prime 906349.
Proof. apply trial_division; vm_compute; reflexivity. Qed.
Lemma p254760293_prime : prime 254760293.
Proof. apply trial_division; vm_compute; reflexivity. Qed.
Lemma bls_r_prime : prime bls_r.
Proof.
  apply (cert3_prime bls_r 255 16364744645730252930785627053835748877812200352683725940437419160735895728481476 5 2 906349 254760293
    113545865660781439181660799981575955357863775192430029054148608
    26217937587563095239723870254092982918845276250263818911301829349969290592256
    23228006829848193982005774833676428102340799460332544135501612309786345839955
    35712579557439236096876167352832642893763751801196582581341201406049842986247 32 2 2);
    [reflexivity|exact prime_2|exact p906349_prime|exact p254760293_prime|discriminate|discriminate|discriminate|lia|lia|lia| |].
  - vm_cast_no_check (eq_refl true).
  - vm_cast_no_check (eq_refl true).
Qed.
Lemma bls_r_fits : bls_r < 2 ^ (64 * Z.of_nat 4).
Proof. vm_compute; reflexivity. Qed.
Definition BLS : prime_field := PrimeField bls_r 4 bls_r_prime bls_r_fits.

(* ---------- the Mersenne field 2^61 - 1 ---------- *)
Definition m61 : Z := 2 ^ 61 - 1.
Lemma m61_prime : prime m61.
Proof.
  apply (pocklington m61 [(1321, 1, 3); (331, 1, 3); (151, 1, 3); (61, 1, 2)]); [reflexivity|reflexivity|reflexivity| |].
  - repeat constructor; cbn; intuition congruence.
  - constructor; [apply (part_ok_correct m61 61 590295810358705651968 3 1321 1745528394559950 828993518632009434); [reflexivity|apply trial_division; vm_compute; reflexivity|vm_compute; reflexivity]|].
    constructor; [apply (part_ok_correct m61 61 590295810358705651968 3 331 6966293079195450 1881382712785867029); [reflexivity|apply trial_division; vm_compute; reflexivity|vm_compute; reflexivity]|].
    constructor; [apply (part_ok_correct m61 61 590295810358705651968 3 151 15270483504726450 1896004468068488480); [reflexivity|apply trial_division; vm_compute; reflexivity|vm_compute; reflexivity]|].
    constructor; [apply (part_ok_correct m61 61 590295810358705651968 2 61 37800705069076950 2232623763684192189); [reflexivity|apply trial_division; vm_compute; reflexivity|vm_compute; reflexivity]|].
    constructor.
Qed.
Lemma m61_fits : m61 < 2 ^ (64 * Z.of_nat 1).
Proof. vm_compute; reflexivity. Qed.
Definition M61 : prime_field := PrimeField m61 1 m61_prime m61_fits.

(* ---------- small fields ---------- *)
Lemma p31_prime : prime (2 ^ 31 - 1).
Proof. apply trial_division; vm_compute; reflexivity. Qed.
Lemma p31_fits : 2 ^ 31 - 1 < 2 ^ (64 * Z.of_nat 1).
Proof. vm_compute; reflexivity. Qed.
Definition M31 : prime_field := PrimeField (2 ^ 31 - 1) 1 p31_prime p31_fits.

(* ---------- the additive group of a field, and the pairing (x, y) -> x*y ---------- *)
Section Additive.
Context (K : prime_field).
Add Ring K_ring : (@scalar_ring_theory K).

Lemma iter_op_fadd (q : positive) (x : scalar K) : Pos.iter_op fadd q x = fmul (of_Z (Zpos q)) x.
Proof.
  induction q as [|q IH] using Pos.peano_ind.
  - change (Pos.iter_op fadd 1 x) with x. change (of_Z 1) with (@fone K). ring.
  - rewrite Pos.iter_op_succ by (intros; ring). rewrite IH.
    rewrite Pos2Z.inj_succ. unfold Z.succ. rewrite of_Z_add. change (of_Z 1) with (@fone K). ring.
Qed.
Lemma add_exponent (x : scalar K) : Pos.iter_op fadd (Z.to_pos (modulus K)) x = fzero.
Proof.
  rewrite iter_op_fadd. pose proof (@modulus_gt1 K). rewrite Z2Pos.id by lia.
  assert (E : @of_Z K (modulus K) = fzero) by (apply of_Z_zero_iff, Z.divide_refl).
  rewrite E. ring.
Qed.

Definition AddGroup : group K.
Proof.
  refine (Group K (scalar K) fzero fadd fneg feqb _ _ _ _ _ _).
  - intros; ring.
  - intros; ring.
  - intros; ring.
  - intros; ring.
  - apply feqb_spec.
  - apply add_exponent.
Defined.

Lemma smul_AddGroup (a : scalar K) (x : AddGroup) : a [*] x = fmul a x.
Proof.
  assert (H : forall z : Z, 0 <= z -> mul_bigint x z = fmul (of_Z z) x).
  { intros [|q|q] Hz; [| |lia].
    - change (of_Z 0) with (@fzero K). cbn. ring.
    - apply iter_op_fadd. }
  unfold smul, into_bigint. rewrite H by apply sval_range. now rewrite of_Z_sval.
Qed.

Definition Eng : pairing.
Proof.
  refine (Pairing K AddGroup AddGroup AddGroup AddGroup (fun q => q) (fun x y => fmul x y) _ _ _).
  - cbn. intros; ring.
  - cbn. intros; ring.
  - cbn. intros x q H. apply fmul_integral; exact H.
Defined.
End Additive.

(* the engines used in the examples *)
Definition EB : pairing := Eng BLS.
Definition E61 : pairing := Eng M61.

Lemma BLS_bits : modulus_bit_size BLS = 255.
Proof. vm_compute; reflexivity. Qed.
Lemma M61_bits : modulus_bit_size M61 = 61.
Proof. vm_compute; reflexivity. Qed.
