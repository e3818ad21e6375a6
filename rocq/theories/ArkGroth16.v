(* ArkGroth16.v -- transcription of the parameter generator and the prover of ark-groth16 0.4 (generator.rs, prover.rs,
   r1cs_to_qap.rs), a dependency that is not in /repo; /repo calls it at src/saver_groth16.rs:58-67 and 93.
   Simplifications, all stated at the definition: the evaluation domain is any function returning enough distinct
   points (arkworks: a power-of-two group of roots of unity), fast Fourier transforms are replaced by interpolation and
   exact division, fixed-base multi-scalar multiplication by scalar multiplication (they agree: C44). *)
From Verif Require Import Base Algebra Utils Setup Circuit Groth16.

Section Poly.
Context {K : prime_field}.

(* Field::inverse of a non-zero element, by Fermat's little theorem *)
Definition finv (a : scalar K) : scalar K := Pos.iter_op fmul (Z.to_pos (modulus K - 2)) a.

(* dense polynomials, constant coefficient first *)
Definition poly := list (scalar K).
Definition peval (p : poly) (x : scalar K) : scalar K := fold_right (fun c acc => fadd c (fmul x acc)) fzero p.
Fixpoint padd (p q : poly) : poly :=
  match p, q with
  | [], _ => q
  | _, [] => p
  | a :: p', b :: q' => fadd a b :: padd p' q'
  end.
Definition pscale (c : scalar K) (p : poly) : poly := map (fmul c) p.
Fixpoint pmul (p q : poly) : poly :=
  match p with
  | [] => []
  | c :: p' => padd (pscale c q) (fzero :: pmul p' q)
  end.
Definition psub (p q : poly) : poly := padd p (pscale (fneg fone) q).
(* quotient and remainder of the division by X - a (Horner) *)
Fixpoint div_lin (a : scalar K) (p : poly) : poly * scalar K :=
  match p with
  | [] => ([], fzero)
  | [c] => ([], c)
  | c :: p' => let (q, r) := div_lin a p' in (r :: q, fadd c (fmul a r))
  end.
(* quotient by the vanishing polynomial of the points xs, one linear factor after the other *)
Definition div_vanishing (xs : list (scalar K)) (p : poly) : poly := fold_left (fun q x => fst (div_lin x q)) xs p.

(* vanishing polynomial of the points xs at t *)
Definition vanishing_at (xs : list (scalar K)) (t : scalar K) : scalar K :=
  fold_right (fun x acc => fmul (fsub t x) acc) fone xs.
(* the points other than the i-th *)
Definition others (xs : list (scalar K)) (i : nat) : list (scalar K) := firstn i xs ++ skipn (S i) xs.
(* i-th Lagrange polynomial, as a coefficient vector *)
Definition lagrange (xs : list (scalar K)) (i : nat) : poly :=
  pscale (finv (vanishing_at (others xs i) (nth i xs fzero)))
    (fold_right (fun x p => pmul [fneg x; fone] p) [fone] (others xs i)).
(* the polynomial with values vs on the points xs (EvaluationDomain::ifft) *)
Definition interpolate (xs : list (scalar K)) (vs : list (scalar K)) : poly :=
  fold_right padd [] (map (fun i => pscale (nth i vs fzero) (lagrange xs i)) (seq 0 (length xs))).
End Poly.

Section Generator.
Context {E : pairing}.
Notation K := (K_of E).

(* position of a variable in the full assignment: instance variables first (ConstraintSystem::make_row) *)
Definition var_index (num_inst : nat) (v : var) : nat :=
  match v with VOne => 0 | VInst i => i | VWit j => num_inst + j end.

(* sum of the coefficients of column j in one row of a constraint matrix *)
Definition row_coeff (num_inst : nat) (l : lincomb K) (j : nat) : Fr E :=
  fsum (map (fun '(c, v) => if Nat.eqb (var_index num_inst v) j then c else fzero) l).

(* r1cs_to_qap.rs, LibsnarkReduction::instance_map_with_evaluation: the loops  a[index] += u_i * coeff, written column by
   column; `u` are the Lagrange coefficients at t.  For the A matrix the instance variables get an extra u[num_constraints + j]. *)
Definition column (num_inst : nat) (rows : list (lincomb K)) (u : list (Fr E)) (j : nat) : Fr E :=
  fsum (map (fun '(l, u_i) => fmul u_i (row_coeff num_inst l j)) (combine rows u)).
Definition instance_map (s : csys K) (u : list (Fr E)) : list (Fr E) * list (Fr E) * list (Fr E) :=
  let ni := cs_num_inst s in
  let nc := length (cs_cons s) in
  let js := seq 0 (ni + cs_num_wit s) in
  (map (fun j => fadd (if (j <? ni)%nat then nth (nc + j) u fzero else fzero) (column ni (map c_a (cs_cons s)) u j)) js,
   map (column ni (map c_b (cs_cons s)) u) js,
   map (column ni (map c_c (cs_cons s)) u) js).

(* EvaluationDomain::sample_element_outside_domain: resample while the vanishing polynomial is zero.  The loop is
   unbounded; `fuel` bounds the number of draws and running out is Panic. *)
Fixpoint sample_outside (R : rng_impl E) (fuel : nat) (xs : list (Fr E)) (st : rng_st R) : outcome (Fr E * rng_st R) :=
  match fuel with
  | O => Panic
  | S f => let (t, st1) := rand_scalar R st in
           if feqb (vanishing_at xs t) fzero then sample_outside R f xs st1 else Ok (t, st1)
  end.

(* Field::inverse().ok_or(SynthesisError::UnexpectedIdentity)? *)
Definition inverse_or_err (a : Fr E) : outcome (Fr E) :=
  if feqb a fzero then Err (SynthesisError UnexpectedIdentity) else Ok (finv a).

(* SynthesisError::PolynomialDegreeTooLarge (ark-relations, src/r1cs/error.rs); the model of the repository's own error type
   (Base.v) names only the variants its code raises and numbers the others *)
Definition PolynomialDegreeTooLarge : synthesis_error := SynthOther 1.
Definition domain_or_err (o : option (list (Fr E))) : outcome (list (Fr E)) :=
  match o with Some xs => Ok xs | None => Err (SynthesisError PolynomialDegreeTooLarge) end.

(* generator.rs, Groth16::generate_parameters_with_qap; `domain n` is D::new(n) *)
Definition ark_generate (domain : nat -> option (list (Fr E))) (fuel : nat) (R : rng_impl E) (circ : synthesizer E)
    (alpha beta gamma delta : Fr E) (G : G1 E) (H : G2 E) (st : rng_st R) : outcome (groth16_proving_key E * rng_st R) :=
  s <- circ (cs_new Circuit.Setup) ;;
  let nc := length (cs_cons s) in
  let ni := cs_num_inst s in
  xs <- domain_or_err (domain (nc + ni)%nat) ;;
  '(t, st1) <- sample_outside R fuel xs st ;;
  let zt := vanishing_at xs t in
  let u := map (fun i => peval (lagrange xs i) t) (seq 0 (length xs)) in
  let '(a, b, c) := instance_map s u in
  gamma_inverse <- inverse_or_err gamma ;;
  delta_inverse <- inverse_or_err delta ;;
  let abc := map (fun j => fadd (fadd (fmul beta (nth j a fzero)) (fmul alpha (nth j b fzero))) (nth j c fzero))
                 (seq 0 (ni + cs_num_wit s)) in
  let gamma_abc := map (fun x => fmul x gamma_inverse) (firstn ni abc) in
  let l := map (fun x => fmul x delta_inverse) (skipn ni abc) in
  let h := map (fun i => fmul (fmul zt delta_inverse) (fpow t i)) (seq 0 (length xs - 1)) in
  let g1 := fun x : Fr E => x [*] G in
  let g2 := fun x : Fr E => x [*] H in
  let vk := VerifyingKey (g1 alpha) (g2 beta) (g2 gamma) (g2 delta) (map g1 gamma_abc) in
  Ok (Groth16ProvingKey vk (g1 beta) (g1 delta) (map g1 a) (map g1 b) (map g2 b) (map g1 h) (map g1 l), st1).

(* r1cs_to_qap.rs, LibsnarkReduction::witness_map_from_matrices.  The published code multiplies and divides on a coset;
   ArkCoset.v transcribes that computation and proves that the result is the same quotient whenever the constraints are satisfied;
   what either computation gives for unsatisfied constraints is the subject of PropWrongValues.v. *)
Definition witness_map (xs : list (Fr E)) (s : csys K) : poly :=
  let val := lc_value (cs_inst s) (cs_wit s) in
  let a := map (fun c => val (c_a c)) (cs_cons s) ++ cs_inst s in
  let b := map (fun c => val (c_b c)) (cs_cons s) in
  let c := map (fun c => val (c_c c)) (cs_cons s) in
  div_vanishing xs (psub (pmul (interpolate xs a) (interpolate xs b)) (interpolate xs c)).

(* prover.rs, calculate_coeff: initial + query[0] + msm(query[1..], assignment) + vk_param *)
Definition calculate_coeff {G : group K} (initial : G) (query : list G) (vk_param : G) (assignment : list (Fr E)) : outcome G :=
  el <- idx query 0 ;;
  rest <- slice_from query 1 ;;
  let acc := msm_bigint rest (map into_bigint assignment) in
  Ok (initial [+] el [+] acc [+] vk_param).

(* prover.rs, create_proof_with_reduction and create_proof_with_assignment.  In debug builds
   debug_assert!(cs.is_satisfied()) panics on an unsatisfied assignment. *)
Definition ark_prove (pf : profile) (domain : nat -> option (list (Fr E))) (circ : synthesizer E) (pk : groth16_proving_key E)
    (r s : Fr E) : outcome (proof E) :=
  cs <- circ (cs_new Prove) ;;
  _ <- match pf with Debug => if is_satisfied cs then Ok tt else Panic | Release => Ok tt end ;;
  xs <- domain_or_err (domain (length (cs_cons cs) + cs_num_inst cs)%nat) ;;
  let h := witness_map xs cs in
  let h_acc := msm_bigint (gpk_h_query pk) (map into_bigint h) in
  let l_aux_acc := msm_bigint (gpk_l_query pk) (map into_bigint (cs_wit cs)) in
  let r_s_delta_g1 := fmul r s [*] gpk_delta_g1 pk in
  inputs <- slice_from (cs_inst cs) 1 ;;
  let assignment := inputs ++ cs_wit cs in
  g_a <- calculate_coeff (r [*] gpk_delta_g1 pk) (gpk_a_query pk) (vk_alpha_g1 (gpk_vk pk)) assignment ;;
  g1_b <- (if feqb r fzero then Ok gzero
           else calculate_coeff (s [*] gpk_delta_g1 pk) (gpk_b_g1_query pk) (gpk_beta_g1 pk) assignment) ;;
  g2_b <- calculate_coeff (s [*] vk_delta_g2 (gpk_vk pk)) (gpk_b_g2_query pk) (vk_beta_g2 (gpk_vk pk)) assignment ;;
  let g_c := (s [*] g_a) [+] (r [*] g1_b) [+] [-] r_s_delta_g1 [+] l_aux_acc [+] h_acc in
  Ok (Proof g_a g2_b g_c).

(* the backend /repo is compiled against *)
Definition ark_backend (pf : profile) (domain : nat -> option (list (Fr E))) (fuel : nat) : groth16_backend E :=
  Groth16Backend E (ark_generate domain fuel) (ark_prove pf domain).
End Generator.
