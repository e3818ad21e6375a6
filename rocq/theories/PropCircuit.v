(* PropCircuit.v -- properties C37 and C38: the bit-size circuit *)
From Verif Require Import Base BaseFacts Algebra Utils UtilsFacts VecFacts Circuit CircuitFacts CircuitSat Instance Spec.

(* ------------------------------------------------------------------ C37 *)
(* The constraint system generated while setting up accepts the public inputs vs, for some choice of the private
   witness, exactly when every one of them is below 2^b. *)
Theorem C37_bitsize_circuit_exact (K : prime_field) (b n : Z) :
  0 <= b <= modulus_bit_size K -> 0 <= n ->
  exists s, generate_constraints (BitsizeCheckCircuit b n None true) (@cs_new K Setup) = Ok s /\
    forall vs : list (scalar K), Z.of_nat (length vs) = n ->
      ((exists wit, Forall (constraint_holds (fone :: vs) wit) (cs_cons s)) <-> Forall (fun v => into_bigint v < 2 ^ b) vs).
Proof.
  intros Hb Hn. destruct (@generate_setup K b n true Hb) as (s & Hs & _ & _ & Hc). exists s. split; [exact Hs|].
  intros vs Hl. rewrite Hc. replace (Z.to_nat n) with (length vs) by lia. cbn [wit0].
  rewrite (satisfiable_public (Z.to_nat b) vs) by lia. rewrite Z2Nat.id by lia. reflexivity.
Qed.

(* The same with the values allocated as private witnesses (the LegoGroth16 mode): they are the first witnesses. *)
Theorem C37_bitsize_circuit_private (K : prime_field) (b n : Z) :
  0 <= b <= modulus_bit_size K -> 0 <= n ->
  exists s, generate_constraints (BitsizeCheckCircuit b n None false) (@cs_new K Setup) = Ok s /\ cs_num_inst s = 1%nat /\
    forall vs : list (scalar K), Z.of_nat (length vs) = n ->
      ((exists wit, Forall (constraint_holds [fone] (vs ++ wit)) (cs_cons s)) <-> Forall (fun v => into_bigint v < 2 ^ b) vs).
Proof.
  intros Hb Hn. destruct (@generate_setup K b n false Hb) as (s & Hs & Hi & _ & Hc). exists s. split; [exact Hs|]. split; [exact Hi|].
  intros vs Hl. rewrite Hc. replace (Z.to_nat n) with (length vs) by lia. cbn [wit0].
  rewrite (satisfiable_private (Z.to_nat b) vs) by lia. rewrite Z2Nat.id by lia. reflexivity.
Qed.

(* The prover's run on values vs generates the same constraints, puts exactly vs into the public inputs, and computes a
   satisfying assignment exactly when every value is below 2^b. *)
Theorem C37_prover_satisfies_iff_in_range (K : prime_field) (b n n' : Z) (vs : list (scalar K)) :
  0 <= b <= modulus_bit_size K -> Z.of_nat (length vs) = n ->
  exists s sp, generate_constraints (BitsizeCheckCircuit b n None true) (@cs_new K Setup) = Ok s /\
    generate_constraints (BitsizeCheckCircuit b n' (Some vs) true) (@cs_new K Prove) = Ok sp /\
    cs_cons sp = cs_cons s /\ cs_inst sp = fone :: vs /\ length (cs_wit sp) = cs_num_wit s /\
    (is_satisfied sp = true <-> Forall (fun v => into_bigint v < 2 ^ b) vs).
Proof.
  intros Hb Hn. destruct (@generate_setup K b n true Hb) as (s & Hs & _ & Hw & Hc).
  destruct (@generate_prove K b n' true vs Hb) as (sp & Hsp & _ & Hwp & Hcp & Hip & Hwit). exists s, sp.
  replace (Z.to_nat n) with (length vs) in * by lia. split; [exact Hs|]. split; [exact Hsp|]. split; [congruence|]. split; [exact Hip|]. split.
  - rewrite Hwit, Hw. cbn [wit0 app Nat.add]. clear -Hb. induction vs as [|v vs IH]; cbn [flat_map length Nat.mul]; [reflexivity|].
    rewrite app_length, vwits_length, IH by lia. reflexivity.
  - rewrite is_satisfied_iff, Hcp, Hip, Hwit. cbn [wit0 app]. rewrite (honest_public (Z.to_nat b) vs) by lia. rewrite Z2Nat.id by lia. reflexivity.
Qed.

(* A bit size beyond the field size panics (as soon as there is a value to check). *)
Theorem C37_oversized_panics (K : prime_field) (b n : Z) (public : bool) :
  modulus_bit_size K < b -> 0 < n ->
  generate_constraints (BitsizeCheckCircuit b n None public) (@cs_new K Setup) = Panic.
Proof.
  intros Hb Hn. unfold generate_constraints. cbn [values num_values alloc_as_public required_bit_size].
  rewrite (alloc_setup public (Z.to_nat n) (cs_new Setup) (repeat fzero (Z.to_nat n))) by (try reflexivity; apply repeat_length). cbn [bind].
  destruct (Z.to_nat n) as [|m] eqn:E; [lia|].
  assert (P : forall s v, cs_mode s = Setup -> check_value b s (v, @None (scalar K)) = Panic).
  { intros s v Hm. unfold check_value, to_non_unique_bits_le. cbn [fst snd]. rewrite new_bool_witnesses_ext by (intros Hm'; congruence).
    cbn [bind]. unfold slice_from. rewrite wires_length, wvars_length, repeat_length by (rewrite wvars_length; reflexivity).
    pose proof (Z.log2_nonneg (modulus K)). unfold modulus_bit_size in *.
    destruct (Nat.leb_spec (Z.to_nat b) (Z.to_nat (Z.log2 (modulus K) + 1))); [lia|reflexivity]. }
  destruct public; cbn [alloc_vars alloc_cs seq map repeat combine foldM cs_num_inst cs_num_wit cs_new]; rewrite P by reflexivity; reflexivity.
Qed.

(* Proving without values is reported as a missing assignment. *)
Theorem C37_missing_values_reported (K : prime_field) (b n : Z) (public : bool) : 0 < n ->
  generate_constraints (BitsizeCheckCircuit b n None public) (@cs_new K Prove) = Err (SynthesisError AssignmentMissing).
Proof. apply generate_prove_missing. Qed.

(* a satisfying and a violating case over the BLS12-381 scalar field *)
Example C37_case : forall sp, generate_constraints (BitsizeCheckCircuit 16 2 (Some [of_Z 65535; of_Z 7]) true) (@cs_new BLS Prove) = Ok sp -> is_satisfied sp = true.
Proof.
  intros sp H. destruct (C37_prover_satisfies_iff_in_range BLS 16 2 2 [of_Z 65535; of_Z 7]) as (s & sp' & _ & Hp & _ & _ & _ & I);
    [rewrite BLS_bits; lia|reflexivity|]. rewrite H in Hp. injection Hp as <-. apply I. repeat constructor; vm_compute; reflexivity.
Qed.
Example C37_case_out : forall sp, generate_constraints (BitsizeCheckCircuit 16 2 (Some [of_Z 65536; of_Z 7]) true) (@cs_new BLS Prove) = Ok sp -> is_satisfied sp = false.
Proof.
  intros sp H. destruct (C37_prover_satisfies_iff_in_range BLS 16 2 2 [of_Z 65536; of_Z 7]) as (s & sp' & _ & Hp & _ & _ & _ & I);
    [rewrite BLS_bits; lia|reflexivity|]. rewrite H in Hp. injection Hp as <-. destruct (is_satisfied sp); [|reflexivity].
  destruct I as [I _]. specialize (I eq_refl). inversion I as [|? ? X _]; subst. vm_compute in X. discriminate.
Qed.

(* ------------------------------------------------------------------ C38 *)
(* The circuit used by the setup: its public inputs are One and chunks_count values, and the number of constraints. *)
Theorem C38_circuit_shape (K : prime_field) (b n : Z) : 0 < b < modulus_bit_size K -> chunks_count K b = Ok n ->
  exists c s, circuit_new b None None true = Ok c /\ generate_constraints c (@cs_new K Setup) = Ok s /\
    Z.of_nat (cs_num_inst s) = n + 1 /\
    Z.of_nat (length (cs_cons s)) = n * (2 * modulus_bit_size K - b + 1).
Proof.
  intros Hb Hn. exists (BitsizeCheckCircuit b n None true). assert (Hb' : 0 <= b <= modulus_bit_size K) by lia.
  assert (Hn0 : 0 <= n). { unfold chunks_count in Hn. destruct (b =? 0); [discriminate|]. injection Hn as <-. apply Z.mod_pos_bound. lia. }
  destruct (@generate_setup K b n true Hb') as (s & Hs & Hi & _ & Hc).
  exists s. split; [unfold circuit_new; rewrite Hn; reflexivity|]. split; [exact Hs|]. split; [rewrite Hi; lia|].
  rewrite Hc, all_cons_length by lia. unfold circuit_vars. rewrite alloc_vars_length. rewrite Nat2Z.inj_mul, Z2Nat.id by lia. f_equal. lia.
Qed.
(* When values are given, their number counts and num_values is ignored: the prover's circuit has the shape of the setup
   circuit exactly when as many values are given as were announced at setup. *)
Theorem C38_prover_shape_matches_iff (K : prime_field) (b n n' : Z) (vs : list (scalar K)) : 0 < b < modulus_bit_size K -> 0 <= n ->
  exists s sp, generate_constraints (BitsizeCheckCircuit b n None true) (@cs_new K Setup) = Ok s /\
    generate_constraints (BitsizeCheckCircuit b n' (Some vs) true) (@cs_new K Prove) = Ok sp /\
    cs_num_inst sp = S (length vs) /\ Z.of_nat (length (cs_cons sp)) = Z.of_nat (length vs) * (2 * modulus_bit_size K - b + 1) /\
    (cs_num_inst sp = cs_num_inst s <-> Z.of_nat (length vs) = n) /\ (length (cs_cons sp) = length (cs_cons s) <-> Z.of_nat (length vs) = n) /\
    (Z.of_nat (length vs) = n -> cs_cons sp = cs_cons s).
Proof.
  intros Hb Hn. destruct (@generate_setup K b n true ltac:(lia)) as (s & Hs & Hi & _ & Hc).
  destruct (@generate_prove K b n' true vs ltac:(lia)) as (sp & Hsp & Hip & _ & Hcp & _). exists s, sp. split; [exact Hs|]. split; [exact Hsp|].
  assert (L : forall k, Z.of_nat (length (@all_cons K (Z.to_nat b) (circuit_vars true k) (wit0 true k))) = Z.of_nat k * (2 * modulus_bit_size K - b + 1)).
  { intros k. rewrite all_cons_length by lia. unfold circuit_vars. rewrite alloc_vars_length. rewrite Nat2Z.inj_mul. f_equal. lia. }
  rewrite Hip, Hi, Hcp, Hc. cbn [Nat.add]. split; [reflexivity|]. split; [apply L|].
  split; [split; intros H; lia|]. split.
  - split; intros H; [|f_equal; replace (Z.to_nat n) with (length vs) by lia; reflexivity].
    apply (f_equal Z.of_nat) in H. rewrite !L in H. apply Z.mul_reg_r in H; lia.
  - intros H. replace (Z.to_nat n) with (length vs) by lia. reflexivity.
Qed.
Theorem C38_bls_7920 : exists c s, circuit_new 16 None None true = Ok c /\ generate_constraints c (@cs_new BLS Setup) = Ok s /\
  cs_num_inst s = 17%nat /\ Z.of_nat (length (cs_cons s)) = 7920.
Proof.
  destruct (C38_circuit_shape BLS 16 16) as (c & s & A & C & D & F); [rewrite BLS_bits; lia|vm_compute; reflexivity|].
  exists c, s. split; [exact A|]. split; [exact C|]. rewrite BLS_bits in F. split; lia.
Qed.
