(* PropCommit.v -- C46: chunked commitments are perfectly hiding, binding up to a discrete logarithm, and additive. *)
From Verif Require Import Base BaseFacts Algebra Utils UtilsFacts Setup Commitment CommitmentFacts Spec Instance PropUtils.

(* C is what ChunkedCommitment::new returned for message m and blinding r *)
Definition commits (pf : profile) {K} {G : group K} (b : Z) (gens : chunked_commitment_gens G) (m r : scalar K) (C : G) : Prop :=
  exists key, chunked_commitment_new pf m r b gens = Ok (C, key).

Lemma commits_value pf {K} {G : group K} b (gens : chunked_commitment_gens G) m r C :
  supported b -> 64 * Z.of_nat (limbs K) - b < modulus_bit_size K -> 64 * Z.of_nat (limbs K) < 256 * b ->
  (commits pf b gens m r C <-> C = (m [*] cg_G gens) [+] (r [*] cg_H gens)).
Proof.
  intros Hb H1 H2. destruct (chunked_commitment_value pf b m r gens Hb (conj H1 H2)) as (n & key & _ & _ & _ & H & _).
  unfold commits. rewrite H. split; [intros (k & E); congruence|]. intros ->. eauto.
Qed.

Section CommitAlgebra.
Context {K : prime_field} {G : group K}.
Add Ring Kr : (@scalar_ring_theory K).
Lemma hiding_alg (m m' r x : scalar K) (g h : G) : g = x [*] h ->
  (m' [*] g) [+] (fadd r (fmul (fsub m m') x) [*] h) = (m [*] g) [+] (r [*] h).
Proof. intros ->. glin. Qed.
Lemma binding_alg1 (m m' r r' : scalar K) (g h : G) : (fsub m m' [*] g) [+] [-] (fsub r' r [*] h) =
  ((m [*] g) [+] (r [*] h)) [+] [-] ((m' [*] g) [+] (r' [*] h)).
Proof. glin. Qed.
Lemma binding_alg2 (a d : scalar K) (g : G) : fmul a d [*] g = d [*] (a [*] g).
Proof. glin. Qed.
Lemma binding_alg3 (a d : scalar K) (g : G) : d [*] (a [*] g) = fmul a d [*] g.
Proof. glin. Qed.
Lemma additive_alg (m m' r r' : scalar K) (g h : G) :
  ((m [*] g) [+] (r [*] h)) [+] ((m' [*] g) [+] (r' [*] h)) = (fadd m m' [*] g) [+] (fadd r r' [*] h).
Proof. glin. Qed.
Lemma scalar_div (a c d : scalar K) : fmul c d = fone -> a = fmul (fmul a d) c.
Proof. intros H. replace (fmul (fmul a d) c) with (fmul a (fmul c d)) by ring. rewrite H. ring. Qed.
End CommitAlgebra.

(* whatever was committed, for every other message exactly one blinding explains the same commitment *)
Theorem C46_perfectly_hiding :
  forall (pf : profile) (K : prime_field) (G : group K) b (gens : chunked_commitment_gens G) (m m' r : scalar K) (C : G),
  supported b -> 64 * Z.of_nat (limbs K) - b < modulus_bit_size K -> 64 * Z.of_nat (limbs K) < 256 * b ->
  cg_H gens <> gzero -> (exists x, cg_G gens = x [*] cg_H gens) ->
  commits pf b gens m r C ->
  exists r', commits pf b gens m' r' C /\ forall r'', commits pf b gens m' r'' C -> r'' = r'.
Proof.
  intros pf K G b gens m m' r C Hb H1 H2 HH [x Hx] HC. apply commits_value in HC; try assumption.
  exists (fadd r (fmul (fsub m m') x)).
  assert (E : (m' [*] cg_G gens) [+] (fadd r (fmul (fsub m m') x) [*] cg_H gens) = C).
  { rewrite HC. apply hiding_alg. exact Hx. }
  split; [apply commits_value; auto|]. intros r'' Hr. apply commits_value in Hr; try assumption.
  rewrite <- E in Hr. apply gadd_cancel_l in Hr. apply smul_inj_scalar in Hr; [symmetry; exact Hr|exact HH].
Qed.
(* two openings of one commitment: same message implies same blinding; different messages reveal the discrete logarithm
   of G to the base H, by a formula in the two openings *)
Theorem C46_binding_up_to_discrete_log :
  forall (pf : profile) (K : prime_field) (G : group K) b (gens : chunked_commitment_gens G) (m m' r r' : scalar K) (C : G),
  supported b -> 64 * Z.of_nat (limbs K) - b < modulus_bit_size K -> 64 * Z.of_nat (limbs K) < 256 * b ->
  cg_H gens <> gzero -> commits pf b gens m r C -> commits pf b gens m' r' C ->
  (m = m' -> r = r') /\
  (m <> m' -> (exists d, fmul (fsub m m') d = fone) /\
              forall d, fmul (fsub m m') d = fone -> cg_G gens = fmul (fsub r' r) d [*] cg_H gens).
Proof.
  intros pf K G b gens m m' r r' C Hb H1 H2 HH Hc Hc'. apply commits_value in Hc, Hc'; try assumption. split.
  - intros <-. rewrite Hc in Hc'. apply gadd_cancel_l in Hc'. apply smul_inj_scalar in Hc'; assumption.
  - intros Hne. split.
    + apply finv_exists. intros Hz. apply fsub_zero_eq in Hz. contradiction.
    + intros d Hd. assert (Hm : fsub m m' [*] cg_G gens = fsub r' r [*] cg_H gens).
      { apply gsub_zero_eq. rewrite binding_alg1, <- Hc, <- Hc'. apply gadd_neg_r. }
      rewrite <- (smul_1_l (cg_G gens)), <- Hd.
      rewrite binding_alg2, Hm. apply binding_alg3.
Qed.
Theorem C46_additive :
  forall (pf : profile) (K : prime_field) (G : group K) b (gens : chunked_commitment_gens G) (m m' r r' : scalar K) (C C' : G),
  supported b -> 64 * Z.of_nat (limbs K) - b < modulus_bit_size K -> 64 * Z.of_nat (limbs K) < 256 * b ->
  commits pf b gens m r C -> commits pf b gens m' r' C' -> commits pf b gens (fadd m m') (fadd r r') (C [+] C').
Proof.
  intros pf K G b gens m m' r r' C C' Hb H1 H2 Hc Hc'. apply commits_value in Hc, Hc'; try assumption. apply commits_value; try assumption.
  rewrite Hc, Hc'. apply additive_alg.
Qed.

(* concrete case: BLS12-381 scalars, 16-bit chunks, G = 3, H = 5 in the additive group: a message and a second opening *)
Definition c46_gens : chunked_commitment_gens (AddGroup BLS) := @ChunkedCommitmentGens BLS (AddGroup BLS) (of_Z 3) (of_Z 5).
Example ex_c46_hypotheses :
  supported 16 /\ 64 * Z.of_nat (limbs BLS) - 16 < modulus_bit_size BLS /\ 64 * Z.of_nat (limbs BLS) < 256 * 16 /\
  cg_H c46_gens <> gzero /\ (exists x, cg_G c46_gens = x [*] cg_H c46_gens) /\
  exists C, commits Debug 16 c46_gens (of_Z 70000) (of_Z 9) C.
Proof.
  split; [right; right; reflexivity|]. rewrite BLS_bits. split; [vm_compute; reflexivity|]. split; [vm_compute; reflexivity|].
  assert (H5 : @of_Z BLS 5 <> fzero).
  { intros H. apply (f_equal sval) in H. vm_compute in H. discriminate H. }
  split; [exact H5|]. split.
  - destruct (finv_exists (of_Z 5) H5) as [i Hi]. exists (fmul (of_Z 3) i). rewrite smul_AddGroup.
    change (cg_G c46_gens) with (@of_Z BLS 3). change (cg_H c46_gens) with (@of_Z BLS 5).
    apply scalar_div. exact Hi.
  - eexists. apply commits_value; [right; right; reflexivity|rewrite BLS_bits; vm_compute; reflexivity|vm_compute; reflexivity|reflexivity].
Qed.
