(* Groth16Spec.v -- specification vocabulary for the Groth16 part: the standard verification equation and what is expected
   of a Groth16 implementation (setup shape and completeness).  ArkFacts.v proves that the transcription of ark-groth16 in
   ArkGroth16.v meets it. *)
From Verif Require Import Base Algebra Setup Keygen Encryption Circuit Groth16.

(* The Groth16 verification equation for public inputs x_1..x_l:
   e(A,B) = e(alpha,beta) + e(W_0 + sum x_i W_i, gamma) + e(C,delta), with exactly l+1 elements W. *)
Definition groth16_accepts {E} (vk : verifying_key E) (inputs : list (Fr E)) (p : proof E) : Prop :=
  length (vk_gamma_abc_g1 vk) = S (length inputs) /\
  pair (pr_a p) (prep (pr_b p)) =
    pair (vk_alpha_g1 vk) (prep (vk_beta_g2 vk))
    [+] pair (dot (fone :: inputs) (vk_gamma_abc_g1 vk)) (prep (vk_gamma_g2 vk))
    [+] pair (pr_c p) (prep (vk_delta_g2 vk)).

(* every variable occurring in the constraints has been allocated *)
Definition var_ok (num_inst num_wit : nat) (v : var) : Prop :=
  match v with VOne => True | VInst i => (i < num_inst)%nat | VWit j => (j < num_wit)%nat end.
Definition lc_ok {K} (num_inst num_wit : nat) (l : lincomb K) : Prop := Forall (fun cv => var_ok num_inst num_wit (snd cv)) l.
Definition cs_ok {K} (s : csys K) : Prop :=
  Forall (fun c => lc_ok (cs_num_inst s) (cs_num_wit s) (c_a c) /\ lc_ok (cs_num_inst s) (cs_num_wit s) (c_b c) /\
                   lc_ok (cs_num_inst s) (cs_num_wit s) (c_c c)) (cs_cons s).

(* the prover's constraint system sp is a satisfied instance of the one s seen at setup, with public inputs xs *)
Definition satisfied_instance {K} (s sp : csys K) (xs : list (scalar K)) : Prop :=
  cs_ok s /\ cs_cons sp = cs_cons s /\ cs_num_inst sp = cs_num_inst s /\
  cs_inst sp = fone :: xs /\ length (cs_inst sp) = cs_num_inst s /\ length (cs_wit sp) = cs_num_wit s /\
  is_satisfied sp = true.

Record backend_correct {E} (B : groth16_backend E) : Prop := BackendCorrect {
  (* shape of the parameters *)
  setup_shape : forall R circ alpha beta gamma delta G H st pk st',
    generate_parameters_with_qap B R circ alpha beta gamma delta G H st = Ok (pk, st') ->
    gamma <> fzero /\ delta <> fzero /\
    vk_alpha_g1 (gpk_vk pk) = alpha [*] G /\ vk_beta_g2 (gpk_vk pk) = beta [*] H /\
    vk_gamma_g2 (gpk_vk pk) = gamma [*] H /\ vk_delta_g2 (gpk_vk pk) = delta [*] H /\ gpk_delta_g1 pk = delta [*] G /\
    exists s, circ (cs_new Circuit.Setup) = Ok s /\ length (vk_gamma_abc_g1 (gpk_vk pk)) = cs_num_inst s;
  (* completeness *)
  proofs_accepted : forall R circ alpha beta gamma delta G H st pk st' s circ' sp xs r1 r2,
    generate_parameters_with_qap B R circ alpha beta gamma delta G H st = Ok (pk, st') ->
    circ (cs_new Circuit.Setup) = Ok s -> circ' (cs_new Prove) = Ok sp -> satisfied_instance s sp xs ->
    exists p, create_proof_with_reduction B circ' pk r1 r2 = Ok p /\ groth16_accepts (gpk_vk pk) xs p }.
