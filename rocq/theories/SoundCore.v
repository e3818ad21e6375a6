(* SoundCore.v -- the two algebraic arguments behind C59-C60, over a prime field with more than 8 elements:
   comparing coefficients in the Groth16 equation, and in the quadratic form of the commitment check. *)
From Coq Require Import Znumtheory.
From Verif Require Import Base BaseFacts Algebra VecFacts Spec CommitmentFacts ArkGroth16 PolyFacts SchwartzZippel.

Section Core.
Context {K : prime_field}.
Add Ring Kr : (@scalar_ring_theory K).
Notation F := (scalar K).
Notation "x +f y" := (fadd x y) (at level 50, left associativity).
Notation "x *f y" := (fmul x y) (at level 40, left associativity).
Notation "x -f y" := (fsub x y) (at level 50, left associativity).

Hypothesis big : 8 < modulus K.

Lemma vanish_everywhere (p : @poly K) : (length p <= 8)%nat -> (forall x, peval p x = fzero) -> Forall (fun c => c = fzero) p.
Proof.
  intros Hl H. apply (coeffs_zero all_scalars); [apply all_scalars_nodup|intros r _; apply H|]. pose proof (@all_scalars_length K). lia.
Qed.
Lemma lin_zero (c0 c1 : F) : (forall x, c0 +f x *f c1 = fzero) -> c0 = fzero /\ c1 = fzero.
Proof.
  intros H. assert (P : Forall (fun c => c = fzero) [c0; c1]).
  { apply vanish_everywhere; [cbn; lia|]. intros x. etransitivity; [|apply (H x)]. cbn. ring. }
  inversion P as [|? ? A P1]; subst. inversion P1; subst. split; reflexivity.
Qed.
Lemma quad_zero (c0 c1 c2 : F) : (forall x, c0 +f x *f (c1 +f x *f c2) = fzero) -> c0 = fzero /\ c1 = fzero /\ c2 = fzero.
Proof.
  intros H. assert (P : Forall (fun c => c = fzero) [c0; c1; c2]).
  { apply vanish_everywhere; [cbn; lia|]. intros x. etransitivity; [|apply (H x)]. cbn. ring. }
  inversion P as [|? ? A P1]; subst. inversion P1 as [|? ? B P2]; subst. inversion P2; subst. repeat split.
Qed.
Lemma cubic_zero (c0 c1 c2 c3 : F) : (forall x, c0 +f x *f (c1 +f x *f (c2 +f x *f c3)) = fzero) -> c0 = fzero /\ c1 = fzero /\ c2 = fzero /\ c3 = fzero.
Proof.
  intros H. assert (P : Forall (fun c => c = fzero) [c0; c1; c2; c3]).
  { apply vanish_everywhere; [cbn; lia|]. intros x. etransitivity; [|apply (H x)]. cbn. ring. }
  inversion P as [|? ? A P1]; subst. inversion P1 as [|? ? B P2]; subst. inversion P2 as [|? ? C P3]; subst. inversion P3; subst. repeat split.
Qed.

(* ---------- Groth16 ---------- *)
(* gamma*delta times the exponents of the proof elements, as polynomials in alpha, beta, gamma, delta (tau is fixed) *)
Definition g1_shape (alpha beta gamma delta k0 ka kb kd kg U1 V1 W1 U2 V2 W2 : F) : F :=
  gamma *f delta *f (k0 +f ka *f alpha +f kb *f beta +f kd *f delta +f kg *f gamma)
  +f gamma *f (beta *f U2 +f alpha *f V2 +f W2) +f delta *f (beta *f U1 +f alpha *f V1 +f W1).
Definition g2_shape (beta gamma delta k0 kb kg kd : F) : F := k0 +f kb *f beta +f kg *f gamma +f kd *f delta.

Theorem groth16_core (a0 aa ab ad ag U1 V1 W1 U2 V2 W2 b0 bb bg bd r Up Vp Wp c0 ca cb cd cg U1' V1' W1' U2' V2' W2' : F) :
  (forall alpha beta gamma delta,
     g1_shape alpha beta gamma delta a0 aa ab ad ag U1 V1 W1 U2 V2 W2 *f g2_shape beta gamma delta b0 bb bg bd
     -f alpha *f beta *f gamma *f delta
     -f gamma *f (r *f (delta *f gamma *f delta) +f delta *f (beta *f Up +f alpha *f Vp +f Wp))
     -f delta *f g1_shape alpha beta gamma delta c0 ca cb cd cg U1' V1' W1' U2' V2' W2' = fzero) ->
  (Up +f U2') *f (Vp +f V2') = Wp +f W2'.
Proof.
  intros H.
  (* coefficients of alpha *)
  assert (H1 : forall beta gamma delta,
     ((gamma *f delta *f aa +f gamma *f V2 +f delta *f V1) *f (b0 +f bb *f beta +f bg *f gamma +f bd *f delta)
      -f beta *f gamma *f delta -f gamma *f delta *f Vp -f delta *f (gamma *f delta *f ca +f gamma *f V2' +f delta *f V1') = fzero) /\
     ((gamma *f delta *f (a0 +f ab *f beta +f ad *f delta +f ag *f gamma) +f gamma *f (beta *f U2 +f W2) +f delta *f (beta *f U1 +f W1))
        *f (b0 +f bb *f beta +f bg *f gamma +f bd *f delta)
      -f gamma *f (r *f (delta *f gamma *f delta) +f delta *f (beta *f Up +f Wp))
      -f delta *f (gamma *f delta *f (c0 +f cb *f beta +f cd *f delta +f cg *f gamma) +f gamma *f (beta *f U2' +f W2') +f delta *f (beta *f U1' +f W1')) = fzero)).
  { intros beta gamma delta. apply and_comm. apply lin_zero. intros alpha. etransitivity; [|apply (H alpha beta gamma delta)]. unfold g1_shape, g2_shape. ring. }
  (* coefficients of beta *)
  assert (Ha : forall gamma delta,
     ((gamma *f delta *f aa +f gamma *f V2 +f delta *f V1) *f (b0 +f bg *f gamma +f bd *f delta)
        -f gamma *f delta *f Vp -f delta *f (gamma *f delta *f ca +f gamma *f V2' +f delta *f V1') = fzero) /\
     ((gamma *f delta *f aa +f gamma *f V2 +f delta *f V1) *f bb -f gamma *f delta = fzero)).
  { intros gamma delta. apply lin_zero. intros beta. etransitivity; [|apply (proj1 (H1 beta gamma delta))]. ring. }
  assert (Hb : forall gamma delta,
     ((gamma *f delta *f (a0 +f ad *f delta +f ag *f gamma) +f gamma *f W2 +f delta *f W1) *f (b0 +f bg *f gamma +f bd *f delta)
       -f gamma *f (r *f (delta *f gamma *f delta) +f delta *f Wp)
       -f delta *f (gamma *f delta *f (c0 +f cd *f delta +f cg *f gamma) +f gamma *f W2' +f delta *f W1') = fzero) /\
     ((gamma *f delta *f ab +f gamma *f U2 +f delta *f U1) *f (b0 +f bg *f gamma +f bd *f delta)
       +f (gamma *f delta *f (a0 +f ad *f delta +f ag *f gamma) +f gamma *f W2 +f delta *f W1) *f bb
       -f gamma *f delta *f Up -f delta *f (gamma *f delta *f cb +f gamma *f U2' +f delta *f U1') = fzero) /\
     ((gamma *f delta *f ab +f gamma *f U2 +f delta *f U1) *f bb = fzero)).
  { intros gamma delta. apply quad_zero. intros beta. etransitivity; [|apply (proj2 (H1 beta gamma delta))]. ring. }
  (* alpha beta and beta^2 *)
  assert (Hab : forall delta, (delta *f V1 *f bb = fzero) /\ (delta *f aa *f bb +f V2 *f bb -f delta = fzero)).
  { intros delta. apply lin_zero. intros gamma. etransitivity; [|apply (proj2 (Ha gamma delta))]. ring. }
  assert (Hbb : forall delta, (delta *f U1 *f bb = fzero) /\ (delta *f ab *f bb +f U2 *f bb = fzero)).
  { intros delta. apply lin_zero. intros gamma. etransitivity; [|apply (proj2 (proj2 (Hb gamma delta)))]. ring. }
  assert (E1 : V2 *f bb = fzero /\ aa *f bb -f fone = fzero).
  { apply lin_zero. intros delta. etransitivity; [|apply (proj2 (Hab delta))]. ring. }
  assert (E2 : U2 *f bb = fzero /\ ab *f bb = fzero).
  { apply lin_zero. intros delta. etransitivity; [|apply (proj2 (Hbb delta))]. ring. }
  assert (E3 : V1 *f bb = fzero) by ((etransitivity; [|apply (proj1 (Hab fone))]; ring)).
  assert (E4 : U1 *f bb = fzero) by ((etransitivity; [|apply (proj1 (Hbb fone))]; ring)).
  destruct E1 as [E1 E5]. destruct E2 as [E2 E6]. apply fsub_zero_eq in E5.
  assert (Nb : bb <> fzero) by (intros Z; apply (@fneq01 K); rewrite <- E5, Z; ring).
  assert (Na : aa <> fzero) by (intros Z; apply (@fneq01 K); rewrite <- E5, Z; ring).
  assert (Ib : forall x, x *f bb = fzero -> x = fzero) by (intros x Hx; apply fmul_integral in Hx; destruct Hx; [assumption|contradiction]).
  assert (Ia : forall x, aa *f x = fzero -> x = fzero) by (intros x Hx; apply fmul_integral in Hx; destruct Hx; [contradiction|assumption]).
  apply Ib in E1, E2, E3, E4, E6. subst V2 U2 V1 U1 ab.
  (* alpha *)
  assert (Hal : forall delta,
     (fzero -f delta *f delta *f V1' = fzero) /\ (delta *f (aa *f (b0 +f bd *f delta) -f Vp -f delta *f ca -f V2') = fzero) /\ (delta *f aa *f bg = fzero)).
  { intros delta. apply quad_zero. intros gamma. etransitivity; [|apply (proj1 (Ha gamma delta))]. ring. }
  assert (E7 : bg = fzero) by (apply Ia; etransitivity; [|apply (proj2 (proj2 (Hal fone)))]; ring). subst bg.
  assert (E8 : aa *f b0 -f Vp -f V2' = fzero).
  { assert (Q : (@fzero K) = fzero /\ aa *f b0 -f Vp -f V2' = fzero /\ aa *f bd -f ca = fzero); [|apply Q].
    apply quad_zero. intros delta. etransitivity; [|apply (proj1 (proj2 (Hal delta)))]. ring. }
  (* beta *)
  assert (Hbe : forall delta,
     (delta *f W1 *f bb -f delta *f delta *f U1' = fzero) /\
     (delta *f (a0 +f ad *f delta) *f bb +f W2 *f bb -f delta *f Up -f delta *f (delta *f cb +f U2') = fzero) /\ (delta *f ag *f bb = fzero)).
  { intros delta. apply quad_zero. intros gamma. etransitivity; [|apply (proj1 (proj2 (Hb gamma delta)))]. ring. }
  assert (E9 : ag = fzero) by (apply Ib; (etransitivity; [|apply (proj2 (proj2 (Hbe fone)))]; ring)). subst ag.
  assert (E10 : W2 *f bb = fzero /\ a0 *f bb -f Up -f U2' = fzero /\ ad *f bb -f cb = fzero).
  { apply quad_zero. intros delta. etransitivity; [|apply (proj1 (proj2 (Hbe delta)))]. ring. }
  assert (E11 : (@fzero K) = fzero /\ W1 *f bb = fzero /\ fneg U1' = fzero).
  { apply quad_zero. intros delta. etransitivity; [|apply (proj1 (Hbe delta))]. ring. }
  destruct E10 as (E10 & E12 & _). destruct E11 as (_ & E11 & _). apply Ib in E10, E11. subst W2 W1.
  (* constant term *)
  assert (Hc : forall delta,
     (fzero -f delta *f delta *f W1' = fzero) /\
     (delta *f (a0 +f ad *f delta) *f (b0 +f bd *f delta) -f delta *f Wp -f delta *f (delta *f (c0 +f cd *f delta) +f W2') = fzero) /\
     (fzero -f r *f delta *f delta -f delta *f delta *f cg = fzero)).
  { intros delta. apply quad_zero. intros gamma. etransitivity; [|apply (proj1 (Hb gamma delta))]. ring. }
  assert (E13 : (@fzero K) = fzero /\ a0 *f b0 -f Wp -f W2' = fzero /\ ad *f b0 +f a0 *f bd -f c0 = fzero /\ ad *f bd -f cd = fzero).
  { apply cubic_zero. intros delta. etransitivity; [|apply (proj1 (proj2 (Hc delta)))]. ring. }
  destruct E13 as (_ & E13 & _).
  assert (S1 : Up +f U2' = a0 *f bb) by (symmetry; apply fsub_zero_eq; (etransitivity; [|apply E12]; ring)).
  assert (S2 : Vp +f V2' = aa *f b0) by (symmetry; apply fsub_zero_eq; (etransitivity; [|apply E8]; ring)).
  assert (S3 : Wp +f W2' = a0 *f b0) by (symmetry; apply fsub_zero_eq; (etransitivity; [|apply E13]; ring)).
  rewrite S1, S2, S3. transitivity (a0 *f b0 *f (aa *f bb)); [ring|]. rewrite E5. ring.
Qed.

(* ---------- the commitment check as a quadratic form ---------- *)
(* the i-th unit vector of length n *)
Definition unit_vec (n i : nat) : list F := map (fun j => if Nat.eqb j i then fone else fzero) (seq 0 n).
Lemma unit_length n i : length (unit_vec n i) = n.
Proof. unfold unit_vec. rewrite map_length, seq_length. reflexivity. Qed.
Lemma fdot_nth_sum (a t : list F) n : length t = n -> fdot a t = fsum (map (fun i => nth i a fzero *f nth i t fzero) (seq 0 n)).
Proof. intros H. rewrite fdot_comm, (fdot_as_fsum t a n H). f_equal. apply map_ext. intros i. ring. Qed.

(* vectors that are zero except at i and j *)
Definition two (n i j : nat) (x y : F) : list F := map (fun l => if Nat.eqb l i then x else if Nat.eqb l j then y else fzero) (seq 0 n).
Lemma two_length n i j x y : length (two n i j x y) = n.
Proof. unfold two. rewrite map_length, seq_length. reflexivity. Qed.
Lemma two_nth n i j x y l : (l < n)%nat -> nth l (two n i j x y) fzero = if Nat.eqb l i then x else if Nat.eqb l j then y else fzero.
Proof. intros H. unfold two. rewrite (map_seq_nth _ n l fzero H). reflexivity. Qed.
Lemma fsum_two (f : nat -> F) n i j x y : (i < n)%nat -> (j < n)%nat -> i <> j ->
  fsum (map (fun l => f l *f (if Nat.eqb l i then x else if Nat.eqb l j then y else fzero)) (seq 0 n)) = f i *f x +f f j *f y.
Proof.
  intros Hi Hj Hij.
  transitivity (fsum (map (fun l => (x *f (f l *f (if Nat.eqb l i then fone else fzero))) +f (y *f (f l *f (if Nat.eqb l j then fone else fzero)))) (seq 0 n))).
  - f_equal. apply map_ext. intros l. destruct (Nat.eqb_spec l i) as [Ei|Ei]; destruct (Nat.eqb_spec l j) as [Ej|Ej]; try lia; ring.
  - rewrite fsum_map_add, !fsum_map_mul. pose proof (fsum_delta f n 0 i Hi) as Di. pose proof (fsum_delta f n 0 j Hj) as Dj. cbn [Nat.add] in Di, Dj. rewrite Di, Dj. ring.
Qed.
Lemma fdot_two (a : list F) n i j x y : (i < n)%nat -> (j < n)%nat -> i <> j -> fdot a (two n i j x y) = nth i a fzero *f x +f nth j a fzero *f y.
Proof.
  intros Hi Hj Hij. rewrite (fdot_nth_sum a _ n (two_length n i j x y)). rewrite <- (fsum_two (fun l => nth l a fzero) n i j x y Hi Hj Hij).
  f_equal. apply map_ext_in. intros l Hl. apply in_seq in Hl. rewrite two_nth by lia. reflexivity.
Qed.

(* sum_j t_j base_j + sum_j t_j <q_j, t> = c + <l, t> for every t: compare coefficients *)
Theorem quadratic_core n (base l : list F) (c : F) (q : list (list F)) : (1 < n)%nat -> length base = n -> length q = n ->
  (forall t, length t = n -> fdot base t +f fdot (map (fun qj => fdot qj t) q) t = c +f fdot l t) ->
  c = fzero /\ (forall i, (i < n)%nat -> nth i base fzero = nth i l fzero) /\
  (forall i j, (i < n)%nat -> (j < n)%nat -> nth i (nth j q []) fzero +f nth j (nth i q []) fzero = fzero).
Proof.
  intros Hn Hb Hq H.
  assert (Hm : forall t i, nth i (map (fun qj => fdot qj t) q) fzero = fdot (nth i q []) t).
  { intros t i. rewrite <- (map_nth (fun qj => fdot qj t) q [] i). f_equal. }
  assert (H2 : forall i j x y, (i < n)%nat -> (j < n)%nat -> i <> j ->
     nth i base fzero *f x +f nth j base fzero *f y
     +f ((nth i (nth i q []) fzero *f x +f nth j (nth i q []) fzero *f y) *f x +f (nth i (nth j q []) fzero *f x +f nth j (nth j q []) fzero *f y) *f y)
     = c +f (nth i l fzero *f x +f nth j l fzero *f y)).
  { intros i j x y Hi Hj Hij. pose proof (H (two n i j x y) (two_length n i j x y)) as E.
    rewrite !fdot_two in E by assumption. rewrite !Hm, !fdot_two in E by assumption. exact E. }
  assert (Hone : forall i, (i < n)%nat -> c = fzero /\ nth i base fzero = nth i l fzero /\ nth i (nth i q []) fzero = fzero).
  { intros i Hi. assert (exists j, (j < n)%nat /\ i <> j) as (j & Hj & Hij). { destruct i as [|i]; [exists 1%nat|exists 0%nat]; lia. }
    assert (P : fneg c = fzero /\ nth i base fzero -f nth i l fzero = fzero /\ nth i (nth i q []) fzero = fzero).
    { apply quad_zero. intros x. pose proof (H2 i j x fzero Hi Hj Hij) as E.
      transitivity ((nth i base fzero *f x +f nth j base fzero *f fzero
        +f ((nth i (nth i q []) fzero *f x +f nth j (nth i q []) fzero *f fzero) *f x +f (nth i (nth j q []) fzero *f x +f nth j (nth j q []) fzero *f fzero) *f fzero))
        -f (c +f (nth i l fzero *f x +f nth j l fzero *f fzero))); [ring|]. rewrite E. ring. }
    destruct P as (P1 & P2 & P3). split; [|split; [apply fsub_zero_eq; exact P2|exact P3]].
    transitivity (fneg (fneg c)); [ring|]. rewrite P1. ring. }
  split; [apply (Hone 0%nat); lia|]. split; [intros i Hi; apply Hone; exact Hi|].
  intros i j Hi Hj. destruct (Nat.eq_dec i j) as [->|Hij].
  - destruct (Hone j Hj) as (_ & _ & ->). ring.
  - destruct (Hone i Hi) as (Hc & Bi & Qi). destruct (Hone j Hj) as (_ & Bj & Qj). pose proof (H2 i j fone fone Hi Hj Hij) as E.
    rewrite Hc, Bi, Bj, Qi, Qj in E.
    assert (E' : forall u v a b : F, u *f fone +f v *f fone +f ((fzero *f fone +f a *f fone) *f fone +f (b *f fone +f fzero *f fone) *f fone) = fzero +f (u *f fone +f v *f fone) -> b +f a = fzero).
    { intros u v a b E0. transitivity ((u *f fone +f v *f fone +f ((fzero *f fone +f a *f fone) *f fone +f (b *f fone +f fzero *f fone) *f fone)) -f (fzero +f (u *f fone +f v *f fone))); [ring|]. rewrite E0. ring. }
    apply (E' _ _ _ _ E).
Qed.
End Core.
