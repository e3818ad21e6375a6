(* PrivacyAlg.v -- the answer to one question of an observer as a polynomial in the random choices, and why the question whether it
   vanishes identically does not involve the message (for C64) *)
From Verif Require Import Base BaseFacts Algebra Utils Setup Keygen Encryption Circuit CircuitSat CommitmentFacts VecFacts EncryptFacts Spec Groth16 ArkGroth16
  PolyFacts Groth16Spec ArkFacts SchwartzZippel SoundCore SoundSpec SoundAlg PrivacySpec.

Section PAlg.
Context {E : pairing}.
Notation K := (K_of E).
Notation F := (Fr E).
Add Ring Kr : (@scalar_ring_theory K).
Notation "x +f y" := (fadd x y) (at level 50, left associativity).
Notation "x *f y" := (fmul x y) (at level 40, left associativity).
Notation "x -f y" := (fsub x y) (at level 50, left associativity).

(* the exponent of pairing_product *)
Fixpoint mdot (q : list (list F)) (us vs : list F) : F :=
  match q, us with
  | row :: q', u :: us' => u *f fdot row vs +f mdot q' us' vs
  | _, _ => fzero
  end.
Lemma mdot_nil us vs : mdot [] us vs = fzero.
Proof. destruct us; reflexivity. Qed.
Lemma mdot_app q us us' vs : mdot q (us ++ us') vs = mdot q us vs +f mdot (skipn (length us) q) us' vs.
Proof.
  revert q; induction us as [|u us IH]; intros [|row q]; cbn [app mdot length skipn]; try rewrite ?mdot_nil; try ring. rewrite IH. ring.
Qed.
Lemma mdot_single q u vs : mdot q [u] vs = u *f fdot (nth 0 q []) vs.
Proof. destruct q as [|row [|row' q]]; cbn [mdot nth fdot]; ring. Qed.
Lemma mdot_map q (f : nat -> F) n vs : mdot q (map f (seq 0 n)) vs = fsum (map (fun j => f j *f fdot (nth j q []) vs) (seq 0 n)).
Proof.
  revert q f; induction n as [|n IH]; intros q f; [destruct q; reflexivity|]. cbn [seq map]. rewrite fsum_cons, <- !seq_shift, !map_map. destruct q as [|row q].
  - cbn [mdot nth fdot]. rewrite (map_ext _ (fun _ => fzero)) by (intros [|j]; cbn [nth fdot]; ring). rewrite (@fsum_map_zero K). ring.
  - cbn [mdot nth]. rewrite (IH q (fun j => f (S j))). reflexivity.
Qed.
Lemma mdot_scale q (c : F) us vs : mdot q (map (fmul c) us) vs = c *f mdot q us vs.
Proof. revert us; induction q as [|row q IH]; intros [|u us]; cbn [map mdot]; try ring. rewrite IH. ring. Qed.
Lemma nth_skipn {A} (l : list A) a i d : nth i (skipn a l) d = nth (a + i) l d.
Proof. revert l; induction a as [|a IH]; intros [|x l]; cbn; try reflexivity; [destruct i; reflexivity|apply IH]. Qed.

Variables (n : nat) (cs : csys K) (xs : list F).
Let ni := cs_num_inst cs.
Let nw := cs_num_wit cs.
Let M := (ni + nw)%nat.
Notation qq := (qq cs xs).
Notation g1b := (g1b n cs xs).
Notation g2b := (g2b n cs xs).
Notation sum_n := (sum_n n).

(* gamma*delta^2 times the exponents of seen_g1, for chunk values m, encryption randomness r, and a proof (a G, b H, .) *)
Definition seen1 (m : nat -> F) al be ga de ta (s t : nat -> F) (r a b : F) : list F :=
  map (fmul de) (g1b al be ga de ta s t) ++
  [de *f (ga *f de *f (r *f de))] ++
  map (fun j => de *f (ga *f de *f (r *f (de *f s j)) +f m j *f (de *f qq al be ta (S j)))) (seq 0 n) ++
  [de *f (ga *f de *f (r *f (de *f (t 0%nat +f sum_n (fun j => s j *f t (S j))))) +f sum_n (fun j => m j *f (t (S j) *f (de *f qq al be ta (S j)))))] ++
  [de *f (ga *f de *f a)] ++
  [ga *f de *f (a *f b -f al *f be) -f ga *f (de *f qq al be ta 0 +f ga *f de *f (r *f (de *f (fone +f sum_n s))) +f sum_n (fun j => m j *f (de *f qq al be ta (S j))))].
Definition seen2 be ga de ta rh (s t v : nat -> F) (b : F) : list F := g2b be ga de ta rh s t v ++ [b].

Section Rows.
Variable q : list (list F).
Definition answer m al be ga de ta rh s t v r a b : F := mdot q (seen1 m al be ga de ta s t r a b) (seen2 be ga de ta rh s t v b).

Definition P1 := (S n + (5 + M + M + (length xs - 1) + nw + ni + 1 + n + 1))%nat.
Lemma g1b_length al be ga de ta s t : length (g1b al be ga de ta s t) = P1.
Proof. unfold SoundAlg.g1b, tpart, rest, P1. rewrite !app_length. cbn [length]. rewrite !map_length, !seq_length. unfold M, ni, nw. lia. Qed.
Definition P2 := (4 + M + S n + 1 + n + n)%nat.
Lemma g2b_length be ga de ta rh s t v : length (g2b be ga de ta rh s t v) = P2.
Proof. unfold SoundAlg.g2b, P2. rewrite !app_length. cbn [length]. rewrite !map_length, !seq_length. unfold M, ni, nw. lia. Qed.

Let row i := nth (P1 + i) q [].
Let rb i := nth P2 (row i) fzero.
Let ev (i : nat) be ga de ta rh s t v := fdot (row i) (g2b be ga de ta rh s t v).
Let val i be ga de ta rh s t v b := ev i be ga de ta rh s t v +f rb i *f b.
Lemma val_eq i be ga de ta rh s t v b : fdot (row i) (seen2 be ga de ta rh s t v b) = val i be ga de ta rh s t v b.
Proof. unfold seen2. rewrite fdot_app_r, g2b_length, fdot_single. reflexivity. Qed.

Lemma answer_split m al be ga de ta rh s t v r a b :
  answer m al be ga de ta rh s t v r a b =
  de *f mdot q (g1b al be ga de ta s t) (seen2 be ga de ta rh s t v b)
  +f de *f (ga *f de *f (r *f de)) *f val 0 be ga de ta rh s t v b
  +f sum_n (fun j => de *f (ga *f de *f (r *f (de *f s j)) +f m j *f (de *f qq al be ta (S j))) *f val (1 + j) be ga de ta rh s t v b)
  +f de *f (ga *f de *f (r *f (de *f (t 0%nat +f sum_n (fun j => s j *f t (S j))))) +f sum_n (fun j => m j *f (t (S j) *f (de *f qq al be ta (S j))))) *f val (1 + n) be ga de ta rh s t v b
  +f de *f (ga *f de *f a) *f val (2 + n) be ga de ta rh s t v b
  +f (ga *f de *f (a *f b -f al *f be) -f ga *f (de *f qq al be ta 0 +f ga *f de *f (r *f (de *f (fone +f sum_n s))) +f sum_n (fun j => m j *f (de *f qq al be ta (S j)))))
     *f val (3 + n) be ga de ta rh s t v b.
Proof.
  unfold answer, seen1. rewrite !mdot_app, !mdot_scale, !map_length, seq_length, g1b_length, !mdot_single, mdot_map. cbn [length].
  rewrite !nth_skipn.
  assert (Z : forall j, nth j (skipn 1 (skipn P1 q)) [] = row (1 + j)) by (intros j; rewrite !nth_skipn; unfold row; f_equal; lia).
  rewrite (map_ext (fun j => _ *f fdot (nth j (skipn 1 (skipn P1 q)) []) _) (fun j => de *f (ga *f de *f (r *f (de *f s j)) +f m j *f (de *f qq al be ta (S j))) *f val (1 + j) be ga de ta rh s t v b)).
  2:{ intros j. rewrite Z, val_eq. reflexivity. }
  rewrite <- !val_eq. unfold row.
  replace (P1 + (1 + (n + 0)))%nat with (P1 + (1 + n))%nat by lia.
  replace (P1 + (1 + (n + (1 + 0))))%nat with (P1 + (2 + n))%nat by lia. replace (P1 + (1 + (n + (1 + (1 + 0)))))%nat with (P1 + (3 + n))%nat by lia.
  match goal with |- context [fsum (map ?f (seq 0 n))] => change (fsum (map f (seq 0 n))) with (sum_n f) end. ring.
Qed.

Lemma sum_add (f g : nat -> F) : sum_n (fun j => f j +f g j) = sum_n f +f sum_n g.
Proof. unfold SoundAlg.sum_n. apply fsum_map_add. Qed.
Lemma sum_mul (c : F) (f : nat -> F) : sum_n (fun j => c *f f j) = c *f sum_n f.
Proof. unfold SoundAlg.sum_n. apply fsum_map_mul. Qed.
Lemma sum_ext (f g : nat -> F) : (forall j, (j < n)%nat -> f j = g j) -> sum_n f = sum_n g.
Proof. intros H. unfold SoundAlg.sum_n. f_equal. apply map_ext_in. intros j Hj. apply in_seq in Hj. apply H. lia. Qed.
Lemma sum_zero (f : nat -> F) : (forall j, (j < n)%nat -> f j = fzero) -> sum_n f = fzero.
Proof. intros H. rewrite (sum_ext f (fun _ => fzero) H). apply (@fsum_map_zero K). Qed.
(* f is zero except at i and j *)
Lemma sum_two (f : nat -> F) i j : (i < n)%nat -> (j < n)%nat -> i <> j -> (forall l, l <> i -> l <> j -> f l = fzero) -> sum_n f = f i +f f j.
Proof.
  intros Hi Hj Hij Hf. rewrite <- (fun X => fsum_two (fun _ => fone) n i j (f i) (f j) Hi Hj Hij X) || idtac.
  transitivity (fsum (map (fun l => fone *f (if Nat.eqb l i then f i else if Nat.eqb l j then f j else fzero)) (seq 0 n))).
  - unfold SoundAlg.sum_n. f_equal. apply map_ext. intros l. destruct (Nat.eqb_spec l i) as [->|A]; [ring|]. destruct (Nat.eqb_spec l j) as [->|B]; [ring|]. rewrite Hf by assumption. ring.
  - rewrite fsum_two by assumption. ring.
Qed.
Lemma sum_one (f : nat -> F) i : (i < n)%nat -> (forall l, l <> i -> f l = fzero) -> sum_n f = f i.
Proof.
  intros Hi Hf. pose proof (fsum_delta f n 0 i Hi) as D. cbn [Nat.add] in D. rewrite <- D. unfold SoundAlg.sum_n. f_equal. apply map_ext. intros l.
  destruct (Nat.eqb_spec l i) as [->|A]; [ring|]. rewrite Hf by exact A. ring.
Qed.

Definition wsum s t : F := t 0%nat +f sum_n (fun j => s j *f t (S j)).
Definition r_part be ga de ta rh s t v b : F :=
  de *f (val 0 be ga de ta rh s t v b +f sum_n (fun j => s j *f val (1 + j) be ga de ta rh s t v b) +f wsum s t *f val (1 + n) be ga de ta rh s t v b)
  -f ga *f (fone +f sum_n s) *f val (3 + n) be ga de ta rh s t v b.
Definition m_part be ga de ta rh s t v b j : F :=
  de *f val (1 + j) be ga de ta rh s t v b +f de *f t (S j) *f val (1 + n) be ga de ta rh s t v b -f ga *f val (3 + n) be ga de ta rh s t v b.
Definition a_part be ga de ta rh s t v b : F := de *f val (2 + n) be ga de ta rh s t v b +f b *f val (3 + n) be ga de ta rh s t v b.
Lemma answer_parts m al be ga de ta rh s t v r a b :
  answer m al be ga de ta rh s t v r a b =
  (de *f mdot q (g1b al be ga de ta s t) (seen2 be ga de ta rh s t v b) -f (ga *f de *f (al *f be) +f ga *f de *f qq al be ta 0) *f val (3 + n) be ga de ta rh s t v b)
  +f r *f (ga *f de *f de *f r_part be ga de ta rh s t v b)
  +f sum_n (fun j => m j *f (de *f qq al be ta (S j) *f m_part be ga de ta rh s t v b j))
  +f a *f (ga *f de *f a_part be ga de ta rh s t v b).
Proof.
  rewrite answer_split. unfold r_part, m_part, a_part, wsum.
  rewrite (sum_ext (fun j => de *f (ga *f de *f (r *f (de *f s j)) +f m j *f (de *f qq al be ta (S j))) *f val (1 + j) be ga de ta rh s t v b)
     (fun j => (r *f (ga *f de *f de *f de)) *f (s j *f val (1 + j) be ga de ta rh s t v b) +f m j *f (de *f qq al be ta (S j)) *f (de *f val (1 + j) be ga de ta rh s t v b))) by (intros; ring).
  rewrite (sum_ext (fun j => m j *f (de *f qq al be ta (S j) *f _))
     (fun j => m j *f (de *f qq al be ta (S j)) *f (de *f val (1 + j) be ga de ta rh s t v b) +f
               ((de *f val (1 + n) be ga de ta rh s t v b) *f (m j *f (t (S j) *f (de *f qq al be ta (S j)))) +f
               (fneg (ga *f val (3 + n) be ga de ta rh s t v b)) *f (m j *f (de *f qq al be ta (S j)))))) by (intros; ring).
  rewrite !sum_add, !sum_mul. ring.
Qed.

(* ---------- independence of the message ---------- *)
Hypothesis big : 8 < modulus K.

(* for a fixed i: coefficients of s and rho in As s_i + rho Bs + sum_j s_j (A_j s_i + rho B_j) *)
Lemma s_core (As Bs : F) (A B : nat -> F) i : (i < n)%nat ->
  (forall s rh, (As *f s i +f rh *f Bs) +f sum_n (fun j => s j *f (A j *f s i +f rh *f B j)) = fzero) ->
  forall j, (j < n)%nat -> A j = fzero /\ B j = fzero.
Proof.
  intros Hi H.
  assert (H1 : forall x rh, rh *f Bs +f x *f ((As +f rh *f B i) +f x *f A i) = fzero).
  { intros x rh. pose proof (H (fun l => if Nat.eqb l i then x else fzero) rh) as Z. cbv beta in Z. rewrite Nat.eqb_refl in Z.
    rewrite (sum_one _ i Hi) in Z; [rewrite Nat.eqb_refl in Z; etransitivity; [|exact Z]; ring|].
    intros l Hl. destruct (Nat.eqb_spec l i); [contradiction|]. ring. }
  assert (H2 : forall rh, rh *f Bs = fzero /\ As +f rh *f B i = fzero /\ A i = fzero) by (intros rh; apply (quad_zero big); intros x; apply H1).
  assert (HA : As = fzero). { destruct (H2 fzero) as (_ & Z & _). etransitivity; [|exact Z]. ring. }
  assert (HB : Bs = fzero). { destruct (H2 fone) as (Z & _). etransitivity; [|exact Z]. ring. }
  intros j Hj. destruct (Nat.eq_dec j i) as [->|Hij].
  - destruct (H2 fone) as (_ & Z & ZA). split; [exact ZA|]. rewrite HA in Z. etransitivity; [|exact Z]. ring.
  - assert (H3 : forall x, B j +f x *f A j = fzero).
    { intros x. pose proof (H (fun l => if Nat.eqb l i then x else if Nat.eqb l j then fone else fzero) fone) as Z. cbv beta in Z. rewrite Nat.eqb_refl in Z.
      rewrite (sum_two _ i j Hi Hj) in Z; [|intros X; apply Hij; symmetry; exact X|].
      2:{ intros l Hl Hl'. destruct (Nat.eqb_spec l i); [contradiction|]. destruct (Nat.eqb_spec l j); [contradiction|]. ring. }
      rewrite Nat.eqb_refl in Z. destruct (Nat.eqb_spec j i); [contradiction|]. rewrite Nat.eqb_refl in Z.
      destruct (H2 fone) as (_ & Zi & ZA). rewrite HA, HB in *. rewrite ZA in Z. assert (ZB : B i = fzero) by (etransitivity; [|exact Zi]; ring). rewrite ZB in Z.
      etransitivity; [|exact Z]. ring. }
    apply (lin_zero big) in H3. destruct H3 as [H3 H4]. split; assumption.
Qed.

(* the elements of G2 are linear in v *)
Let cS (c : list F) := skipn (4 + M + S n + 1) c.
Let cV (c : list F) := skipn n (cS c).
Definition base (c : list F) be ga de ta rh (t : nat -> F) : F := fdot c ([fone; be; ga; de] ++ map (colB cs xs ta) (seq 0 M) ++ map t (seq 0 (S n)) ++ [rh]).
Lemma g2b_linear c be ga de ta rh s t v :
  fdot c (g2b be ga de ta rh s t v) = base c be ga de ta rh t +f sum_n (fun i => v i *f (nth i (cS c) fzero *f s i +f rh *f nth i (cV c) fzero)).
Proof.
  unfold SoundAlg.g2b, base. fold ni nw M.
  match goal with |- fdot c (?w ++ ?x ++ ?y ++ ?z ++ ?u) = _ => replace (w ++ x ++ y ++ z ++ u) with ((w ++ x ++ y ++ z) ++ u) by (rewrite !app_assoc; reflexivity) end.
  rewrite fdot_app_r. f_equal. rewrite !app_length, !map_length, !seq_length. cbn [length].
  replace (4 + (M + (S n + 1)))%nat with (4 + M + S n + 1)%nat by lia. fold (cS c). rewrite fdot_app_r, map_length, seq_length. fold (cV c).
  rewrite !(fdot_nth_sum _ (map _ (seq 0 n)) n) by (rewrite map_length, seq_length; reflexivity). rewrite <- fsum_map_add. unfold SoundAlg.sum_n. f_equal.
  apply map_ext_in. intros j Hj. apply in_seq in Hj. rewrite !(map_seq_nth _ n j fzero) by lia. ring.
Qed.

Lemma row_core ka be ga de ta t (cx cp : list F) (cj : nat -> list F) :
  (forall rh s v, let ev c := fdot c (g2b be ga de ta rh s t v) in
     (ev cx -f ka) +f sum_n (fun j => s j *f (ev (cj j) -f ka)) +f wsum s t *f ev cp = fzero) ->
  forall rh s v j, (j < n)%nat -> fdot (cj j) (g2b be ga de ta rh s t v) +f t (S j) *f fdot cp (g2b be ga de ta rh s t v) = ka.
Proof.
  intros H.
  assert (Hzz : exists zz : nat -> F, forall j, zz j = fzero) by (exists (fun _ => fzero); reflexivity). destruct Hzz as (zz & Hzz).
  assert (Hz : forall c rh s, fdot c (g2b be ga de ta rh s t zz) = base c be ga de ta rh t).
  { intros c rh s. rewrite g2b_linear. rewrite sum_zero; [ring|]. intros j _. rewrite Hzz. ring. }
  assert (H0 : forall rh s, (base cx be ga de ta rh t -f ka +f t 0%nat *f base cp be ga de ta rh t) +f
      sum_n (fun j => s j *f (base (cj j) be ga de ta rh t -f ka +f t (S j) *f base cp be ga de ta rh t)) = fzero).
  { intros rh s. pose proof (H rh s zz) as Z. cbv beta zeta in Z. rewrite !Hz in Z. etransitivity; [|exact Z]. unfold wsum.
    rewrite (sum_ext (fun j => s j *f (base (cj j) be ga de ta rh t -f ka +f t (S j) *f base cp be ga de ta rh t))
       (fun j => s j *f (base (cj j) be ga de ta rh t -f ka) +f base cp be ga de ta rh t *f (s j *f t (S j)))) by (intros; ring).
    rewrite sum_add, sum_mul. 
    rewrite (sum_ext (fun j => s j *f (fdot (cj j) (g2b be ga de ta rh s t zz) -f ka)) (fun j => s j *f (base (cj j) be ga de ta rh t -f ka))) by (intros; rewrite Hz; reflexivity). ring. }
  assert (B0 : forall rh, base cx be ga de ta rh t -f ka +f t 0%nat *f base cp be ga de ta rh t = fzero).
  { intros rh. pose proof (H0 rh zz) as Z. rewrite sum_zero in Z by (intros; rewrite Hzz; ring). etransitivity; [|exact Z]. ring. }
  assert (B1 : forall rh j, (j < n)%nat -> base (cj j) be ga de ta rh t -f ka +f t (S j) *f base cp be ga de ta rh t = fzero).
  { intros rh j Hj. pose proof (H0 rh (fun l => if Nat.eqb l j then fone else fzero)) as Z. rewrite (sum_one _ j Hj) in Z.
    - rewrite Nat.eqb_refl, B0 in Z. etransitivity; [|exact Z]. ring.
    - intros l Hl. destruct (Nat.eqb_spec l j); [contradiction|]. ring. }
  (* the part linear in v *)
  assert (C : forall i, (i < n)%nat -> forall j, (j < n)%nat ->
     nth i (cS (cj j)) fzero +f t (S j) *f nth i (cS cp) fzero = fzero /\ nth i (cV (cj j)) fzero +f t (S j) *f nth i (cV cp) fzero = fzero).
  { intros i Hi. apply (s_core (nth i (cS cx) fzero +f t 0%nat *f nth i (cS cp) fzero) (nth i (cV cx) fzero +f t 0%nat *f nth i (cV cp) fzero)
      (fun j => nth i (cS (cj j)) fzero +f t (S j) *f nth i (cS cp) fzero) (fun j => nth i (cV (cj j)) fzero +f t (S j) *f nth i (cV cp) fzero) i Hi).
    intros s rh. assert (Hvv : exists v : nat -> F, forall l, v l = if Nat.eqb l i then @fone K else fzero) by (eexists; reflexivity). destruct Hvv as (v & Hvv).
    assert (Hv : forall c, fdot c (g2b be ga de ta rh s t v) = base c be ga de ta rh t +f (nth i (cS c) fzero *f s i +f rh *f nth i (cV c) fzero)).
    { intros c. rewrite g2b_linear. f_equal. rewrite (sum_one _ i Hi); [rewrite Hvv, Nat.eqb_refl; ring|]. intros l Hl. rewrite Hvv. destruct (Nat.eqb_spec l i); [contradiction|]. ring. }
    pose proof (H rh s v) as Z. cbv beta zeta in Z. rewrite !Hv in Z.
    rewrite (sum_ext (fun j => s j *f (fdot (cj j) (g2b be ga de ta rh s t v) -f ka))
      (fun j => s j *f ((nth i (cS (cj j)) fzero +f t (S j) *f nth i (cS cp) fzero) *f s i +f rh *f (nth i (cV (cj j)) fzero +f t (S j) *f nth i (cV cp) fzero))
         +f fneg (base cp be ga de ta rh t +f (nth i (cS cp) fzero *f s i +f rh *f nth i (cV cp) fzero)) *f (s j *f t (S j)))) in Z.
    2:{ intros j Hj. rewrite Hv. pose proof (B1 rh j Hj) as Bj.
        transitivity (s j *f ((base (cj j) be ga de ta rh t -f ka +f t (S j) *f base cp be ga de ta rh t) +f
          ((nth i (cS (cj j)) fzero +f t (S j) *f nth i (cS cp) fzero) *f s i +f rh *f (nth i (cV (cj j)) fzero +f t (S j) *f nth i (cV cp) fzero))
          -f t (S j) *f (base cp be ga de ta rh t +f (nth i (cS cp) fzero *f s i +f rh *f nth i (cV cp) fzero)))); [ring|]. rewrite Bj. ring. }
    rewrite sum_add, sum_mul in Z. unfold wsum in Z. etransitivity; [|exact Z]. pose proof (B0 rh) as Bx.
    transitivity ((base cx be ga de ta rh t -f ka +f t 0%nat *f base cp be ga de ta rh t) +f
      ((nth i (cS cx) fzero +f t 0%nat *f nth i (cS cp) fzero) *f s i +f rh *f (nth i (cV cx) fzero +f t 0%nat *f nth i (cV cp) fzero)) +f
      sum_n (fun j => s j *f ((nth i (cS (cj j)) fzero +f t (S j) *f nth i (cS cp) fzero) *f s i +f rh *f (nth i (cV (cj j)) fzero +f t (S j) *f nth i (cV cp) fzero)))).
    - rewrite Bx. ring.
    - ring. }
  intros rh s v j Hj. apply fsub_zero_eq. rewrite !g2b_linear.
  transitivity ((base (cj j) be ga de ta rh t -f ka +f t (S j) *f base cp be ga de ta rh t) +f
    (sum_n (fun i => v i *f (nth i (cS (cj j)) fzero *f s i +f rh *f nth i (cV (cj j)) fzero)) +f
     t (S j) *f sum_n (fun i => v i *f (nth i (cS cp) fzero *f s i +f rh *f nth i (cV cp) fzero)))); [ring|].
  rewrite B1 by exact Hj. rewrite <- sum_mul, <- sum_add. rewrite sum_zero; [ring|]. intros i Hi. destruct (C i Hi j Hj) as [C1 C2].
  transitivity (v i *f ((nth i (cS (cj j)) fzero +f t (S j) *f nth i (cS cp) fzero) *f s i +f rh *f (nth i (cV (cj j)) fzero +f t (S j) *f nth i (cV cp) fzero))); [ring|].
  rewrite C1, C2. ring.
Qed.

Variable m : nat -> F.
Hypothesis Hid : forall al be ga de ta rh s t v r a b, ga <> fzero -> de <> fzero -> answer m al be ga de ta rh s t v r a b = fzero.
Lemma cancel (x y : F) : x <> fzero -> x *f y = fzero -> y = fzero.
Proof. intros Hx H. apply fmul_integral in H. destruct H; [contradiction|assumption]. Qed.
Lemma a_part_zero be ga de ta rh s t v b : ga <> fzero -> de <> fzero -> a_part be ga de ta rh s t v b = fzero.
Proof.
  intros Hg Hd. pose proof (Hid fzero be ga de ta rh s t v fzero fone b Hg Hd) as H1. pose proof (Hid fzero be ga de ta rh s t v fzero fzero b Hg Hd) as H0.
  rewrite answer_parts in H1, H0. apply (cancel de); [exact Hd|]. apply (cancel ga); [exact Hg|].
  match type of H1 with ?x +f _ = _ => match type of H0 with ?x' +f _ = _ => transitivity ((x +f fone *f (ga *f de *f a_part be ga de ta rh s t v b)) -f (x' +f fzero *f (ga *f de *f a_part be ga de ta rh s t v b))) end end.
  - ring.
  - rewrite H1, H0. ring.
Qed.
Lemma r_part_zero be ga de ta rh s t v b : ga <> fzero -> de <> fzero -> r_part be ga de ta rh s t v b = fzero.
Proof.
  intros Hg Hd. pose proof (Hid fzero be ga de ta rh s t v fone fzero b Hg Hd) as H1. pose proof (Hid fzero be ga de ta rh s t v fzero fzero b Hg Hd) as H0.
  rewrite answer_parts in H1, H0. apply (cancel de); [exact Hd|]. apply (cancel de); [exact Hd|]. apply (cancel ga); [exact Hg|].
  match type of H1 with ?x +f _ +f ?y +f ?z = _ =>
    transitivity ((x +f fone *f (ga *f de *f de *f r_part be ga de ta rh s t v b) +f y +f z) -f (x +f fzero *f (ga *f de *f de *f r_part be ga de ta rh s t v b) +f y +f z)) end.
  - ring.
  - rewrite H1, H0. ring.
Qed.
Let ka := fneg (rb (2 + n)).
Lemma c_row be ga de ta rh s t v b : ga <> fzero -> de <> fzero -> val (3 + n) be ga de ta rh s t v b = de *f ka.
Proof.
  intros Hg Hd.
  assert (Q : de *f ev (2 + n) be ga de ta rh s t v = fzero /\ de *f rb (2 + n) +f ev (3 + n) be ga de ta rh s t v = fzero /\ rb (3 + n) = fzero).
  { apply (quad_zero big). intros x. pose proof (a_part_zero be ga de ta rh s t v x Hg Hd) as Z. unfold a_part, val in Z. etransitivity; [|exact Z]. ring. }
  destruct Q as (_ & Q1 & Q2). unfold val. rewrite Q2. unfold ka.
  transitivity ((de *f rb (2 + n) +f ev (3 + n) be ga de ta rh s t v) +f de *f fneg (rb (2 + n))); [ring|]. rewrite Q1. ring.
Qed.
Lemma r_row be ga de ta rh s t v b : ga <> fzero -> de <> fzero ->
  (val 0 be ga de ta rh s t v b -f ga *f ka) +f sum_n (fun j => s j *f (val (1 + j) be ga de ta rh s t v b -f ga *f ka)) +f wsum s t *f val (1 + n) be ga de ta rh s t v b = fzero.
Proof.
  intros Hg Hd. apply (cancel de); [exact Hd|]. pose proof (r_part_zero be ga de ta rh s t v b Hg Hd) as Z. unfold r_part in Z. rewrite c_row in Z by assumption.
  etransitivity; [|exact Z].
  rewrite (sum_ext (fun j => s j *f (val (1 + j) be ga de ta rh s t v b -f ga *f ka)) (fun j => s j *f val (1 + j) be ga de ta rh s t v b +f fneg (ga *f ka) *f s j)) by (intros; ring).
  rewrite sum_add, sum_mul. change (sum_n (fun j => s j)) with (sum_n s). ring.
Qed.
Lemma b_rows : rb (1 + n) = fzero /\ forall j, (j < n)%nat -> rb (1 + j) = fzero.
Proof.
  assert (H : forall s t, rb 0 +f sum_n (fun j => s j *f rb (1 + j)) +f wsum s t *f rb (1 + n) = fzero).
  { intros s t. pose proof (r_row fzero fone fone fzero fzero s t (fun _ => fzero) fone (@fneq01 K) (@fneq01 K)) as H1.
    pose proof (r_row fzero fone fone fzero fzero s t (fun _ => fzero) fzero (@fneq01 K) (@fneq01 K)) as H0.
    match type of H1 with ?x = _ => match type of H0 with ?y = _ => transitivity (x -f y); [|rewrite H1, H0; ring] end end.
    unfold val at 1 2 3 4 5 6.
    rewrite (sum_ext (fun j => s j *f (ev (1 + j) fzero fone fone fzero fzero s t (fun _ => fzero) +f rb (1 + j) *f fone -f fone *f ka))
      (fun j => s j *f rb (1 + j) +f s j *f (ev (1 + j) fzero fone fone fzero fzero s t (fun _ => fzero) +f rb (1 + j) *f fzero -f fone *f ka))) by (intros; ring).
    rewrite sum_add. ring. }
  assert (Z0 : rb 0 = fzero).
  { pose proof (H (fun _ => fzero) (fun _ => fzero)) as Z. unfold wsum in Z. rewrite !sum_zero in Z by (intros; ring). etransitivity; [|exact Z]. ring. }
  assert (Zn : rb (1 + n) = fzero).
  { pose proof (H (fun _ => fzero) (fun _ => fone)) as Z. unfold wsum in Z. rewrite !sum_zero, Z0 in Z by (intros; ring). etransitivity; [|exact Z]. ring. }
  split; [exact Zn|]. intros j Hj. pose proof (H (fun l => if Nat.eqb l j then fone else fzero) (fun _ => fzero)) as Z. rewrite Z0, Zn in Z.
  rewrite (sum_one _ j Hj) in Z; [rewrite Nat.eqb_refl in Z; etransitivity; [|exact Z]; ring|]. intros l Hl. destruct (Nat.eqb_spec l j); [contradiction|ring].
Qed.
Lemma m_part_zero be ga de ta rh s t v b j : (j < n)%nat -> ga <> fzero -> de <> fzero -> m_part be ga de ta rh s t v b j = fzero.
Proof.
  intros Hj Hg Hd. destruct b_rows as [Bn Bj].
  assert (R : fdot (row (1 + j)) (g2b be ga de ta rh s t v) +f t (S j) *f fdot (row (1 + n)) (g2b be ga de ta rh s t v) = ga *f ka).
  { apply (row_core (ga *f ka) be ga de ta t (row 0) (row (1 + n)) (fun j => row (1 + j))); [|exact Hj].
    intros rh' s' v'. cbv beta zeta. pose proof (r_row be ga de ta rh' s' t v' fzero Hg Hd) as Z. etransitivity; [|exact Z]. unfold val, ev.
    rewrite (sum_ext (fun j => s' j *f (fdot (row (1 + j)) (g2b be ga de ta rh' s' t v') +f rb (1 + j) *f fzero -f ga *f ka))
      (fun j => s' j *f (fdot (row (1 + j)) (g2b be ga de ta rh' s' t v') -f ga *f ka))) by (intros; ring). ring. }
  unfold m_part. rewrite c_row by assumption. unfold val, ev. rewrite Bn, (Bj j Hj).
  transitivity (de *f ((fdot (row (1 + j)) (g2b be ga de ta rh s t v) +f t (S j) *f fdot (row (1 + n)) (g2b be ga de ta rh s t v)) -f ga *f ka)); [ring|]. rewrite R. ring.
Qed.
Theorem answer_independent m' al be ga de ta rh s t v r a b : ga <> fzero -> de <> fzero -> answer m' al be ga de ta rh s t v r a b = fzero.
Proof.
  intros Hg Hd. pose proof (Hid al be ga de ta rh s t v r a b Hg Hd) as Z. rewrite answer_parts in Z |- *.
  rewrite sum_zero in Z by (intros j Hj; rewrite m_part_zero by assumption; ring).
  rewrite sum_zero by (intros j Hj; rewrite m_part_zero by assumption; ring). exact Z.
Qed.
End Rows.
End PAlg.
