(* Spec.v -- the specification vocabulary used in the property statements.
   Nothing here refers to the model of the code (only to integers, lists and the algebraic interface). *)
From Verif Require Import Base Algebra.

(* Value of a digit list in base 2^b, most significant digit first. *)
Definition radix_value (b : Z) (digits : list Z) : Z := fold_left (fun acc d => acc * 2 ^ b + d) digits 0.

(* Every digit fits in b bits. *)
Definition digits_ok (b : Z) (digits : list Z) : Prop := Forall (fun d => 0 <= d < 2 ^ b) digits.

(* The chunk sizes the crate supports. *)
Definition supported (b : Z) : Prop := b = 4 \/ b = 8 \/ b = 16.

(* ceil(a/b) characterised without division *)
Definition is_ceil_div (a b q : Z) : Prop := (q - 1) * b < a <= q * b.

(* chunk-wise sum of two chunk vectors / of a list of chunk vectors of length n *)
Fixpoint chunk_add (m1 m2 : list Z) : list Z :=
  match m1, m2 with
  | a :: m1', b :: m2' => a + b :: chunk_add m1' m2'
  | _, _ => []
  end.
Definition chunk_sum (n : nat) (ms : list (list Z)) : list Z := fold_right chunk_add (repeat 0 n) ms.

(* i-th entry of the column-wise sum of vectors is the sum of the i-th entries (n entries) *)
Definition col_sum {K} {G : group K} (n : nat) (vs : list (list G)) : list G :=
  map (fun i => gsum (map (fun v => nth i v gzero) vs)) (seq 0 n).
Definition fcol_sum {K} (n : nat) (vs : list (list (scalar K))) : list (scalar K) :=
  map (fun i => fsum (map (fun v => nth i v fzero) vs)) (seq 0 n).

(* inner product of scalars *)
Fixpoint fdot {K} (a b : list (scalar K)) : scalar K :=
  match a, b with
  | x :: a', y :: b' => fadd (fmul x y) (fdot a' b')
  | _, _ => fzero
  end.

(* component-wise scalar multiples  t_i * g_i *)
Fixpoint scale {K} {G : group K} (t : list (scalar K)) (g : list G) : list G :=
  match t, g with
  | x :: t', y :: g' => (x [*] y) :: scale t' g'
  | _, _ => []
  end.

(* A decrypted chunk is representable for chunk size b: at most 2^b - 1, and a u16. *)
Definition fits (b z : Z) : Prop := z < 2 ^ b /\ z < 2 ^ 16.
(* The field is large enough to tell the representable chunks apart. *)
Definition field_holds (k : prime_field) (b : Z) : Prop := 2 ^ b <= modulus k \/ 2 ^ 16 <= modulus k.
