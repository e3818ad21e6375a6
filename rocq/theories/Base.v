(* Base.v -- outcomes, panicking indexing, machine integers.
   Nothing here is specific to one function of /repo; each definition says which Rust construct it models. *)
From Coq Require Export ZArith List Lia Bool Arith.
Export ListNotations.
Open Scope Z_scope.

(* ------------------------------------------------------------------ *)
(* Errors: /repo/src/error.rs lines 3-20 (enum SaverError).  The payload of SynthesisError is
   ark_relations::r1cs::SynthesisError (dependency); only the two variants mentioned by this crate
   (circuit.rs:61, saver_groth16.rs:145) are named, everything else is SynthOther. *)
Inductive synthesis_error := AssignmentMissing | UnexpectedIdentity | SynthOther (code : Z).

Inductive saver_error :=
| UnexpectedBase (b : Z)
| InvalidDecomposition
| SynthesisError (e : synthesis_error)
| AtLeastOneNonNoneRequired
| VectorShorterThanExpected (a b : nat)
| MalformedEncryptionKey (a b : nat)
| MalformedDecryptionKey (a b : nat)
| IncompatibleEncryptionKey (a b : nat)
| IncompatibleDecryptionKey (a b : nat)
| InvalidProof
| InvalidCommitment
| InvalidDecryption
| CouldNotFindDiscreteLog
| InvalidPairingPowers
| PairingCheckFailed.

(* Result of calling a Rust function: crate::Result<A> (lib.rs:23) plus an explicit panic. *)
Inductive outcome (A : Type) :=
| Ok (a : A)
| Err (e : saver_error)
| Panic.
Arguments Ok {A} a.
Arguments Err {A} e.
Arguments Panic {A}.

(* Sequencing; also the `?` operator. *)
Definition bind {A B} (x : outcome A) (f : A -> outcome B) : outcome B :=
  match x with Ok a => f a | Err e => Err e | Panic => Panic end.
Notation "x <- e ;; k" := (bind e (fun x => k)) (at level 61, e at next level, right associativity).
Notation "' p <- e ;; k" := (bind e (fun x => match x with p => k end))
  (at level 61, p pattern, e at next level, right associativity).

(* A for-loop that pushes one element per iteration and may stop early. *)
Fixpoint mapM {A B} (f : A -> outcome B) (l : list A) : outcome (list B) :=
  match l with
  | [] => Ok []
  | a :: l' => b <- f a ;; bs <- mapM f l' ;; Ok (b :: bs)
  end.

(* A for-loop over a state. *)
Fixpoint foldM {A S} (f : S -> A -> outcome S) (l : list A) (s : S) : outcome S :=
  match l with
  | [] => Ok s
  | a :: l' => s' <- f s a ;; foldM f l' s'
  end.

(* Slice/Vec indexing v[i]: panics when out of bounds. *)
Definition idx {A} (l : list A) (i : nat) : outcome A :=
  match nth_error l i with Some a => Ok a | None => Panic end.

(* Slice &v[a..]: panics when a > len. *)
Definition slice_from {A} (l : list A) (a : nat) : outcome (list A) :=
  if (a <=? length l)%nat then Ok (skipn a l) else Panic.

(* ------------------------------------------------------------------ *)
(* Build profile: overflow checks are on in debug builds and off (wrapping) in release builds. *)
Inductive profile := Debug | Release.

Definition as_u8 (z : Z) : Z := z mod 2 ^ 8.     (* `as u8`  *)
Definition as_u16 (z : Z) : Z := z mod 2 ^ 16.   (* `as u16` *)

(* `1u32 << b` for a u8 amount b: debug panics when b >= 32, release masks the amount. *)
Definition one_shl_u32 (pf : profile) (b : Z) : outcome Z :=
  if b <? 32 then Ok (2 ^ b) else
  match pf with Debug => Panic | Release => Ok (2 ^ (b mod 32)) end.

(* two's complement i32 of a non-negative 32 bit pattern *)
Definition wrap_i32 (z : Z) : Z :=
  let w := z mod 2 ^ 32 in if w <? 2 ^ 31 then w else w - 2 ^ 32.

(* `1 << b` where the literal has type i32 (the default integer type). *)
Definition one_shl_i32 (pf : profile) (b : Z) : outcome Z :=
  if b <? 32 then Ok (wrap_i32 (2 ^ b)) else
  match pf with Debug => Panic | Release => Ok (wrap_i32 (2 ^ (b mod 32))) end.

(* i32 subtraction *)
Definition sub_i32 (pf : profile) (a b : Z) : outcome Z :=
  let d := a - b in
  if (- 2 ^ 31 <=? d) && (d <? 2 ^ 31) then Ok d else
  match pf with Debug => Panic | Release => Ok (wrap_i32 d) end.

(* u16 addition *)
Definition add_u16 (pf : profile) (a b : Z) : outcome Z :=
  let s := a + b in
  if s <? 2 ^ 16 then Ok s else
  match pf with Debug => Panic | Release => Ok (s mod 2 ^ 16) end.

(* i32 as u64: sign extension. *)
Definition i32_as_u64 (z : Z) : Z := z mod 2 ^ 64.
