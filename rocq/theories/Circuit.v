(* Circuit.v -- model of /repo/src/circuit.rs.  The constraint system and the boolean gadgets it calls belong to
   ark-relations 0.4 and ark-r1cs-std 0.4 (dependencies not included in /repo); they are transcribed from their published
   source.  Constraint optimisation (inlining of symbolic linear combinations) is not modelled: linear combinations are
   written over variables directly. *)
From Verif Require Import Base Algebra Utils.

(* ark_relations::r1cs::Variable; instance variable 0 is the constant One *)
Inductive var := VOne | VInst (i : nat) | VWit (j : nat).

Section R1CS.
Context {K : prime_field}.

(* ark_relations::r1cs::LinearCombination *)
Definition lincomb := list (scalar K * var).
(* one rank-1 constraint  a * b = c *)
Record constraint := Constraint { c_a : lincomb; c_b : lincomb; c_c : lincomb }.

(* SynthesisMode::Setup / SynthesisMode::Prove *)
Inductive synth_mode := Setup | Prove.

(* ark_relations::r1cs::ConstraintSystem.  Instance and witness assignments stay at their initial value in setup mode. *)
Record csys := CSys {
  cs_mode : synth_mode;
  cs_num_inst : nat; cs_num_wit : nat;
  cs_cons : list constraint;
  cs_inst : list (scalar K); cs_wit : list (scalar K) }.

(* ConstraintSystem::new(): one instance variable, the constant 1 *)
Definition cs_new (mode : synth_mode) : csys := CSys mode 1 0 [] [fone] [].

(* ConstraintSystem::enforce_constraint *)
Definition enforce (s : csys) (c : constraint) : csys :=
  CSys (cs_mode s) (cs_num_inst s) (cs_num_wit s) (cs_cons s ++ [c]) (cs_inst s) (cs_wit s).

(* ConstraintSystem::new_input_variable; the value is only asked for outside setup mode *)
Definition new_input_variable (s : csys) (f : outcome (scalar K)) : outcome (var * csys) :=
  match cs_mode s with
  | Setup => Ok (VInst (cs_num_inst s), CSys Setup (S (cs_num_inst s)) (cs_num_wit s) (cs_cons s) (cs_inst s) (cs_wit s))
  | Prove => x <- f ;;
    Ok (VInst (cs_num_inst s), CSys Prove (S (cs_num_inst s)) (cs_num_wit s) (cs_cons s) (cs_inst s ++ [x]) (cs_wit s))
  end.

(* ConstraintSystem::new_witness_variable *)
Definition new_witness_variable (s : csys) (f : outcome (scalar K)) : outcome (var * csys) :=
  match cs_mode s with
  | Setup => Ok (VWit (cs_num_wit s), CSys Setup (cs_num_inst s) (S (cs_num_wit s)) (cs_cons s) (cs_inst s) (cs_wit s))
  | Prove => x <- f ;;
    Ok (VWit (cs_num_wit s), CSys Prove (cs_num_inst s) (S (cs_num_wit s)) (cs_cons s) (cs_inst s) (cs_wit s ++ [x]))
  end.

(* value of a variable and of a linear combination under an assignment; the instance list starts with the constant 1 *)
Definition var_value (inst wit : list (scalar K)) (v : var) : scalar K :=
  match v with VOne => fone | VInst i => nth i inst fzero | VWit j => nth j wit fzero end.
Definition lc_value (inst wit : list (scalar K)) (l : lincomb) : scalar K :=
  fsum (map (fun '(c, v) => fmul c (var_value inst wit v)) l).
Definition constraint_holds (inst wit : list (scalar K)) (c : constraint) : Prop :=
  fmul (lc_value inst wit (c_a c)) (lc_value inst wit (c_b c)) = lc_value inst wit (c_c c).
(* ConstraintSystem::is_satisfied *)
Definition constraint_holdsb (inst wit : list (scalar K)) (c : constraint) : bool :=
  feqb (fmul (lc_value inst wit (c_a c)) (lc_value inst wit (c_b c))) (lc_value inst wit (c_c c)).
Definition is_satisfied (s : csys) : bool := forallb (constraint_holdsb (cs_inst s) (cs_wit s)) (cs_cons s).

(* SynthesisError::AssignmentMissing, converted by From<SynthesisError> (src/error.rs:22-26) *)
Definition value_or_missing {A} (o : option A) : outcome A :=
  match o with Some a => Ok a | None => Err (SynthesisError AssignmentMissing) end.

(* a boolean wire: Boolean::Constant or Boolean::Is, the latter with the value it was allocated with
   (None in setup mode); the Not variant is never built by this circuit *)
Inductive boolean := BConst (b : bool) | BIs (v : var) (value : option bool).

Definition bool_scalar (b : bool) : scalar K := if b then fone else fzero.

(* AllocatedFp::new_variable with AllocationMode::Input or Witness: the variable and the value it remembers *)
Definition alloc_fp (public : bool) (value : option (scalar K)) (s : csys) : outcome (var * option (scalar K) * csys) :=
  '(v, s') <- (if public then new_input_variable s (value_or_missing value)
                         else new_witness_variable s (value_or_missing value)) ;;
  Ok (v, match cs_mode s with Setup => None | Prove => value end, s').

(* Boolean::new_witness: a witness variable with the constraint (1 - a) * a = 0 *)
Definition new_bool_witness (value : option bool) (s : csys) : outcome (boolean * csys) :=
  '(v, s1) <- new_witness_variable s (b <- value_or_missing value ;; Ok (bool_scalar b)) ;;
  Ok (BIs v value, enforce s1 (Constraint [(fone, VOne); (fneg fone, v)] [(fone, v)] [])).

Fixpoint new_bool_witnesses (values : list (option bool)) (s : csys) : outcome (list boolean * csys) :=
  match values with
  | [] => Ok ([], s)
  | x :: values' =>
    '(b, s1) <- new_bool_witness x s ;;
    '(bs, s2) <- new_bool_witnesses values' s1 ;;
    Ok (b :: bs, s2)
  end.

(* Boolean::lc *)
Definition boolean_lc (b : boolean) (coeff : scalar K) : lincomb :=
  match b with BConst true => [(coeff, VOne)] | BConst false => [] | BIs v _ => [(coeff, v)] end.

(* the loop  lc += bit.lc() * coeff; coeff.double_in_place() *)
Fixpoint pack_lc (bits : list boolean) (coeff : scalar K) : lincomb :=
  match bits with
  | [] => []
  | b :: bits' => boolean_lc b coeff ++ pack_lc bits' (fadd coeff coeff)
  end.

(* AllocatedFp::to_non_unique_bits_le: MODULUS_BIT_SIZE boolean witnesses, least significant first, and the constraint
   0 * 0 = sum of 2^i * bit_i - variable *)
Definition to_non_unique_bits_le (v : var) (value : option (scalar K)) (s : csys) : outcome (list boolean * csys) :=
  let nbits := Z.to_nat (modulus_bit_size K) in
  let values := match value with
    | Some x => map (fun i => Some (Z.testbit (into_bigint x) (Z.of_nat i))) (seq 0 nbits)
    | None => repeat None nbits
    end in
  '(bits, s1) <- new_bool_witnesses values s ;;
  Ok (bits, enforce s1 (Constraint [] [] (pack_lc bits fone ++ [(fneg fone, v)]))).

(* Boolean::or on the variants that occur: constants are absorbed, two allocated wires give a fresh witness c without a
   booleanity check and the constraint (1 - a) * (1 - b) = (1 - c) *)
Definition boolean_or (x y : boolean) (s : csys) : outcome (boolean * csys) :=
  match x, y with
  | BConst false, z | z, BConst false => Ok (z, s)
  | BConst true, _ | _, BConst true => Ok (BConst true, s)
  | BIs a va, BIs b vb =>
    let vc := match va, vb with Some p, Some q => Some (p || q) | _, _ => None end in
    '(c, s1) <- new_witness_variable s (z <- value_or_missing vc ;; Ok (bool_scalar z)) ;;
    Ok (BIs c vc, enforce s1 (Constraint [(fone, VOne); (fneg fone, a)] [(fone, VOne); (fneg fone, b)]
                                         [(fone, VOne); (fneg fone, c)]))
  end.

(* Boolean::enforce_equal against Boolean::constant(false): nothing for a false constant, an error for a true one, and
   a * 1 = 0 for an allocated wire *)
Definition enforce_false (x : boolean) (s : csys) : outcome csys :=
  match x with
  | BConst false => Ok s
  | BConst true => Err (SynthesisError AssignmentMissing)
  | BIs v _ => Ok (enforce s (Constraint [(fone, v)] [(fone, VOne)] []))
  end.

(* ------------------------------------------------------------------ *)
(* src/circuit.rs:13-20 struct BitsizeCheckCircuit *)
Record circuit := BitsizeCheckCircuit {
  required_bit_size : Z; num_values : Z; values : option (list (scalar K)); alloc_as_public : bool }.

(* src/circuit.rs:22-41 BitsizeCheckCircuit::new *)
Definition circuit_new (required_bit_size : Z) (num_values : option Z) (values : option (list (scalar K)))
    (alloc_as_public : bool) : outcome circuit :=
  n <- match num_values with Some n => Ok n | None => chunks_count K required_bit_size end ;;
  Ok (BitsizeCheckCircuit required_bit_size n values alloc_as_public).

(* src/circuit.rs:58-68: the allocation loop *)
Fixpoint alloc_values (public : bool) (values : list (option (scalar K))) (s : csys)
  : outcome (list (var * option (scalar K)) * csys) :=
  match values with
  | [] => Ok ([], s)
  | x :: values' =>
    '(v, value, s1) <- alloc_fp public x s ;;
    '(vs, s2) <- alloc_values public values' s1 ;;
    Ok ((v, value) :: vs, s2)
  end.

(* src/circuit.rs:77-79: the OR of the high bits *)
Fixpoint or_all (acc : boolean) (bits : list boolean) (s : csys) : outcome (boolean * csys) :=
  match bits with
  | [] => Ok (acc, s)
  | b :: bits' => '(acc', s1) <- boolean_or acc b s ;; or_all acc' bits' s1
  end.

(* src/circuit.rs:71-81: body of the loop over the variables; bits[required_bit_size..] panics when out of range *)
Definition check_value (required_bit_size : Z) (s : csys) (v : var * option (scalar K)) : outcome csys :=
  '(bits, s1) <- to_non_unique_bits_le (fst v) (snd v) s ;;
  high <- slice_from bits (Z.to_nat required_bit_size) ;;
  '(or_result, s2) <- or_all (BConst false) high s1 ;;
  enforce_false or_result s2.

(* src/circuit.rs:47-84 generate_constraints *)
Definition generate_constraints (c : circuit) (s : csys) : outcome csys :=
  let vals := match values c with
    | Some vs => map Some vs
    | None => repeat None (Z.to_nat (num_values c))
    end in
  '(vars, s1) <- alloc_values (alloc_as_public c) vals s ;;
  foldM (check_value (required_bit_size c)) vars s1.

End R1CS.
Arguments csys K : clear implicits.
Arguments constraint K : clear implicits.
Arguments circuit K : clear implicits.
Arguments lincomb K : clear implicits.
