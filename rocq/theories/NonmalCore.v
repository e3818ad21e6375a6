(* NonmalCore.v -- comparing coefficients in the Groth16 equation when the prover has also seen an honest proof (for C73) *)
From Coq Require Import Znumtheory.
From Verif Require Import Base BaseFacts Algebra VecFacts Spec CommitmentFacts ArkGroth16 PolyFacts SchwartzZippel SoundCore.

Section Core.
Context {K : prime_field}.
Add Ring Kr : (@scalar_ring_theory K).
Notation F := (scalar K).
Notation "x +f y" := (fadd x y) (at level 50, left associativity).
Notation "x *f y" := (fmul x y) (at level 40, left associativity).
Notation "x -f y" := (fsub x y) (at level 50, left associativity).
Hypothesis big : 8 < modulus K.

Lemma two_nz (x : F) : x +f x = fzero -> x = fzero.
Proof.
  intros H. assert (P : (fone +f fone) *f x = fzero) by (rewrite <- H; ring). apply fmul_integral in P. destruct P as [P|P]; [|exact P].
  exfalso. unfold fone in P. rewrite <- of_Z_add in P. change (1 + 1) with 2 in P. apply of_Z_zero_iff in P.
  apply Z.divide_pos_le in P; lia.
Qed.
Lemma opp_nz : fneg (@fone K) <> fzero.
Proof. intros Z. apply (@fneq01 K). transitivity (fneg (fneg (@fone K))); [ring|]. rewrite Z. ring. Qed.
(* a polynomial of degree two that vanishes off zero *)
Lemma quad_off_zero (c0 c1 c2 : F) : (forall x, x <> fzero -> c0 +f x *f (c1 +f x *f c2) = fzero) -> c0 = fzero /\ c1 = fzero /\ c2 = fzero.
Proof.
  intros H. destruct (cubic_zero big fzero c0 c1 c2) as (_ & A & B & C); [|repeat split; assumption].
  intros x. destruct (feq_dec x fzero) as [->|Hx]; [ring|]. transitivity (x *f (c0 +f x *f (c1 +f x *f c2))); [ring|]. rewrite (H x Hx). ring.
Qed.

(* gamma*delta times the exponent of an element the prover makes out of the published elements, an honest ciphertext and its proof:
   e0, a1, d1 are the coefficients of the honest c_0, A, C; r, a, b the honest randomness and the exponents of A and B; Q is the
   statement of the honest proof *)
Definition m1_shape (al be ga de r a b k0 ka kb kd kg U1 V1 W1 U2 V2 W2 e0 a1 d1 QU QV QW : F) : F :=
  g1_shape al be ga de k0 ka kb kd kg U1 V1 W1 U2 V2 W2 +f e0 *f (ga *f de *f de *f r) +f a1 *f (ga *f de *f a)
  +f d1 *f (ga *f (a *f b -f al *f be -f (be *f QU +f al *f QV +f QW) -f ga *f de *f r)).

Variables (a0 aa ab ad ag U1 V1 W1 U2 V2 W2 e0 a1 d1 QU QV QW b0 bb bg bd b1 P x ZU ZV ZW c0 ca cb cd cg U1' V1' W1' U2' V2' W2' e0' a2 d2 : F).
Notation mA al be ga de r a b := (m1_shape al be ga de r a b a0 aa ab ad ag U1 V1 W1 U2 V2 W2 e0 a1 d1 QU QV QW).
Notation mC al be ga de r a b := (m1_shape al be ga de r a b c0 ca cb cd cg U1' V1' W1' U2' V2' W2' e0' a2 d2 QU QV QW).
Hypothesis HH : forall al be ga de r a b, de <> fzero ->
  mA al be ga de r a b *f (g2_shape be ga de b0 bb bg bd +f b1 *f b)
  -f al *f be *f ga *f de -f ga *f ((P +f x *f r) *f (de *f ga *f de) +f de *f (be *f ZU +f al *f ZV +f ZW)) -f de *f mC al be ga de r a b = fzero.

Lemma cancel_l (u v : F) : u <> fzero -> u *f v = fzero -> v = fzero.
Proof. intros Hx H. apply fmul_integral in H. destruct H; [contradiction|assumption]. Qed.

(* the terms that do not involve a *)
Let A0 al be ga de r := g1_shape al be ga de a0 aa ab ad ag U1 V1 W1 U2 V2 W2 +f e0 *f (ga *f de *f de *f r) -f d1 *f (ga *f (al *f be +f (be *f QU +f al *f QV +f QW) +f ga *f de *f r)).
Let C0 al be ga de r := g1_shape al be ga de c0 ca cb cd cg U1' V1' W1' U2' V2' W2' +f e0' *f (ga *f de *f de *f r) -f d2 *f (ga *f (al *f be +f (be *f QU +f al *f QV +f QW) +f ga *f de *f r)).
Let B0 be ga de := g2_shape be ga de b0 bb bg bd.
Let R0 al be ga de r := al *f be *f ga *f de +f ga *f ((P +f x *f r) *f (de *f ga *f de) +f de *f (be *f ZU +f al *f ZV +f ZW)) +f de *f C0 al be ga de r.
Lemma by_ab al be ga de r : de <> fzero ->
  (A0 al be ga de r *f B0 be ga de -f R0 al be ga de r = fzero) /\ (A0 al be ga de r *f b1 = fzero) /\
  (ga *f (a1 *f de *f b1 +f d1 *f B0 be ga de -f de *f d2) = fzero) /\ (ga *f (d1 *f b1) = fzero).
Proof.
  intros Hd.
  assert (L : forall b, (A0 al be ga de r *f B0 be ga de -f R0 al be ga de r +f b *f (A0 al be ga de r *f b1) = fzero) /\
     (ga *f de *f (a1 *f B0 be ga de -f de *f a2) +f b *f (ga *f (a1 *f de *f b1 +f d1 *f B0 be ga de -f de *f d2) +f b *f (ga *f (d1 *f b1))) = fzero)).
  { intros b. apply (lin_zero big). intros a. etransitivity; [|apply (HH al be ga de r a b Hd)]. unfold m1_shape, A0, C0, B0, R0, C0. ring. }
  assert (L1 : (A0 al be ga de r *f B0 be ga de -f R0 al be ga de r = fzero) /\ (A0 al be ga de r *f b1 = fzero)).
  { apply (lin_zero big). intros b. apply (proj1 (L b)). }
  assert (L2 : ga *f de *f (a1 *f B0 be ga de -f de *f a2) = fzero /\ ga *f (a1 *f de *f b1 +f d1 *f B0 be ga de -f de *f d2) = fzero /\ ga *f (d1 *f b1) = fzero).
  { apply (quad_zero big). intros b. apply (proj2 (L b)). }
  destruct L1 as [L1 L1']. destruct L2 as (_ & L2 & L2'). repeat split; assumption.
Qed.

Theorem nonmal_core : x = fzero \/ (x = fone /\ b1 <> fzero /\ a1 <> fzero /\ d1 = fzero /\ (ZU -f QU) +f U2' = fzero).
Proof.
  assert (N1 : @fone K <> fzero) by (intros Z; apply (@fneq01 K); congruence).
  destruct (feq_dec b1 fzero) as [Hb1|Hb1].
  - left.
    assert (EB : forall be de, de <> fzero -> d1 *f B0 be fone de -f de *f d2 = fzero).
    { intros be de Hd. destruct (by_ab fzero be fone de fzero Hd) as (_ & _ & Q & _). rewrite Hb1 in Q. etransitivity; [|exact Q]. ring. }
    destruct (feq_dec d1 fzero) as [Hd1|Hd1].
    + (* the honest C is not used *)
      assert (Hd2 : d2 = fzero). { pose proof (EB fzero fone N1) as Q. rewrite Hd1 in Q. transitivity (fneg (fzero *f B0 fzero fone fone -f fone *f d2)); [ring|]. rewrite Q. ring. }
      (* alpha beta *)
      assert (Hab : (aa +f V2 +f V1) *f bb = fone).
      { apply fsub_zero_eq.
        destruct (by_ab fone fone fone fone fzero N1) as (Q11 & _). destruct (by_ab fone fzero fone fone fzero N1) as (Q10 & _).
        destruct (by_ab fzero fone fone fone fzero N1) as (Q01 & _). destruct (by_ab fzero fzero fone fone fzero N1) as (Q00 & _).
        unfold A0, B0, R0, C0, g1_shape, g2_shape in Q11, Q10, Q01, Q00. rewrite Hd1, Hd2 in *.
        match type of Q11 with ?u = _ => match type of Q10 with ?v = _ => match type of Q01 with ?w = _ => match type of Q00 with ?z = _ => transitivity (u -f v -f w +f z) end end end end; [ring|].
        rewrite Q11, Q10, Q01, Q00. ring. }
      assert (Hbb : bb <> fzero) by (intros Z; apply (@fneq01 K); rewrite <- Hab, Z; ring).
      (* r *)
      assert (Hr : forall be ga de, de <> fzero -> ga <> fzero -> e0 *f B0 be ga de -f x *f ga -f e0' *f de = fzero).
      { intros be ga de Hd Hg. apply (cancel_l de); [exact Hd|]. apply (cancel_l de); [exact Hd|]. apply (cancel_l ga); [exact Hg|].
        destruct (by_ab fzero be ga de fone Hd) as (Q1 & _). destruct (by_ab fzero be ga de fzero Hd) as (Q0 & _).
        unfold A0, R0, C0 in Q1, Q0. rewrite Hd1, Hd2 in *.
        match type of Q1 with ?u = _ => match type of Q0 with ?v = _ => transitivity (u -f v) end end; [ring|]. rewrite Q1, Q0. ring. }
      assert (He0 : e0 = fzero).
      { apply (cancel_l bb); [exact Hbb|]. pose proof (Hr fone fone fone N1 N1) as Q1. pose proof (Hr fzero fone fone N1 N1) as Q0. unfold B0, g2_shape in Q1, Q0.
        match type of Q1 with ?u = _ => match type of Q0 with ?v = _ => transitivity (u -f v) end end; [ring|]. rewrite Q1, Q0. ring. }
      apply two_nz. pose proof (Hr fzero fone fone N1 N1) as Q1. pose proof (Hr fzero fone (fneg fone) opp_nz N1) as Q0. rewrite He0 in *.
      match type of Q1 with ?u = _ => match type of Q0 with ?v = _ => transitivity (fneg (u +f v)) end end; [ring|]. rewrite Q1, Q0. ring.
    + (* the honest C is used in A: then B is a multiple of delta *)
      exfalso. set (ka := d2 *f finv d1).
      assert (HB : forall be de, de <> fzero -> B0 be fone de = ka *f de).
      { intros be de Hd. apply fsub_zero_eq. apply (cancel_l d1); [exact Hd1|]. etransitivity; [|apply (EB be de Hd)]. unfold ka.
        transitivity (d1 *f B0 be fone de -f (d1 *f finv d1) *f d2 *f de); [ring|]. rewrite finv_r by exact Hd1. ring. }
      assert (Hkd : ka *f d1 = d2). { unfold ka. transitivity (d2 *f (d1 *f finv d1)); [ring|]. rewrite finv_r by exact Hd1. ring. }
      clearbody ka. apply (@fneq01 K).
      destruct (by_ab fone fone fone fone fzero N1) as (Q11 & _). destruct (by_ab fone fzero fone fone fzero N1) as (Q10 & _).
      destruct (by_ab fzero fone fone fone fzero N1) as (Q01 & _). destruct (by_ab fzero fzero fone fone fzero N1) as (Q00 & _).
      rewrite HB in Q11, Q10, Q01, Q00 by exact N1. unfold A0, R0, C0, g1_shape in Q11, Q10, Q01, Q00. rewrite <- Hkd in Q11, Q10, Q01, Q00.
      match type of Q11 with ?u = _ => match type of Q10 with ?v = _ => match type of Q01 with ?w = _ => match type of Q00 with ?z = _ => transitivity (fneg (u -f v -f w +f z)) end end end end; [ring|].
      rewrite Q11, Q10, Q01, Q00. ring.
  - right.
    assert (Hd1 : d1 = fzero). { destruct (by_ab fzero fzero fone fone fzero N1) as (_ & _ & _ & Q). apply (cancel_l b1); [exact Hb1|]. etransitivity; [|exact Q]. ring. }
    assert (HA : forall al be ga de r, de <> fzero -> A0 al be ga de r = fzero).
    { intros al be ga de r Hd. destruct (by_ab al be ga de r Hd) as (_ & Q & _). apply (cancel_l b1); [exact Hb1|]. etransitivity; [|exact Q]. ring. }
    assert (Hab : a1 *f b1 = d2).
    { apply fsub_zero_eq. destruct (by_ab fzero fzero fone fone fzero N1) as (_ & _ & Q & _). rewrite Hd1 in Q. etransitivity; [|exact Q]. ring. }
    assert (HR : forall al be ga de r, de <> fzero -> al *f be *f ga +f ga *f ((P +f x *f r) *f (ga *f de) +f (be *f ZU +f al *f ZV +f ZW)) +f C0 al be ga de r = fzero).
    { intros al be ga de r Hd. apply (cancel_l de); [exact Hd|]. destruct (by_ab al be ga de r Hd) as (Q & _). rewrite (HA al be ga de r Hd) in Q. unfold R0 in Q.
      match type of Q with ?u = _ => transitivity (fneg u) end; [ring|]. rewrite Q. ring. }
    (* r *)
    assert (Hr : forall de, de <> fzero -> x -f d2 +f e0' *f de = fzero).
    { intros de Hd. apply (cancel_l de); [exact Hd|]. pose proof (HR fzero fzero fone de fone Hd) as Q1. pose proof (HR fzero fzero fone de fzero Hd) as Q0. unfold C0 in Q1, Q0.
      match type of Q1 with ?u = _ => match type of Q0 with ?v = _ => transitivity (u -f v) end end; [ring|]. rewrite Q1, Q0. ring. }
    assert (Hx : x = d2).
    { apply fsub_zero_eq. apply two_nz. pose proof (Hr fone N1) as Q1. pose proof (Hr (fneg fone) opp_nz) as Q0.
      match type of Q1 with ?u = _ => match type of Q0 with ?v = _ => transitivity (u +f v) end end; [ring|]. rewrite Q1, Q0. ring. }
    (* alpha beta *)
    assert (Hd2 : d2 = fone).
    { symmetry. apply fsub_zero_eq. pose proof (HR fone fone fone fone fzero N1) as Q11. pose proof (HR fone fzero fone fone fzero N1) as Q10.
      pose proof (HR fzero fone fone fone fzero N1) as Q01. pose proof (HR fzero fzero fone fone fzero N1) as Q00. unfold C0, g1_shape in Q11, Q10, Q01, Q00.
      match type of Q11 with ?u = _ => match type of Q10 with ?v = _ => match type of Q01 with ?w = _ => match type of Q00 with ?z = _ => transitivity (u -f v -f w +f z) end end end end; [ring|].
      rewrite Q11, Q10, Q01, Q00. ring. }
    split; [rewrite Hx; exact Hd2|]. split; [exact Hb1|]. split; [intros Z; apply (@fneq01 K); rewrite <- Hd2, <- Hab, Z; ring|]. split; [exact Hd1|].
    (* gamma beta *)
    assert (Q : forall be, (be *f ZU +f ZW) -f (be *f QU +f QW) +f (be *f U2' +f W2') = fzero).
    { intros be.
      assert (Q : forall ga, ga *f ((be *f ZU +f ZW) -f (be *f QU +f QW) +f (be *f U2' +f W2')) = fzero).
      { intros ga. destruct (quad_off_zero (ga *f ((be *f ZU +f ZW) -f (be *f QU +f QW) +f (be *f U2' +f W2'))) (ga *f ga *f P +f ga *f (c0 +f cb *f be +f cg *f ga) +f (be *f U1' +f W1')) (ga *f cd)) as (Q & _); [|exact Q].
        intros de Hd. etransitivity; [|apply (HR fzero be ga de fzero Hd)]. unfold C0, g1_shape. rewrite Hd2. ring. }
      etransitivity; [|apply (Q fone)]. ring. }
    pose proof (Q fone) as Q1. pose proof (Q fzero) as Q0.
    match type of Q1 with ?u = _ => match type of Q0 with ?v = _ => transitivity (u -f v) end end; [ring|]. rewrite Q1, Q0. ring.
Qed.
End Core.
