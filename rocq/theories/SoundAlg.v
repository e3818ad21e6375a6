(* SoundAlg.v -- exponents of the published elements as polynomials in the random choices of a SAVER setup, and what the
   two verification equations force when they hold identically (for C59-C60) *)
From Verif Require Import Base BaseFacts Algebra Utils Setup Keygen Encryption Circuit CircuitSat CommitmentFacts VecFacts EncryptFacts Spec Groth16 ArkGroth16
  PolyFacts Groth16Spec ArkFacts SchwartzZippel SoundCore SoundSpec.

Section Alg.
Context {E : pairing}.
Notation K := (K_of E).
Notation F := (Fr E).
Add Ring Kr : (@scalar_ring_theory K).
Notation "x +f y" := (fadd x y) (at level 50, left associativity).
Notation "x *f y" := (fmul x y) (at level 40, left associativity).
Notation "x -f y" := (fsub x y) (at level 50, left associativity).

Lemma fdot_app_r (c xs ys : list F) : fdot c (xs ++ ys) = fdot c xs +f fdot (skipn (length xs) c) ys.
Proof. rewrite fdot_comm, fdot_app, fdot_comm, (fdot_comm ys). reflexivity. Qed.
Lemma fdot_map_r {A} (c : list F) (f : A -> F) (l : list A) k : fdot c (map (fun a => k *f f a) l) = k *f fdot c (map f l).
Proof. revert c; induction l as [|a l IH]; intros [|c0 c]; cbn [map fdot]; try ring. rewrite IH. ring. Qed.
Lemma fdot_map_add {A} (c : list F) (f g : A -> F) (l : list A) : fdot c (map (fun a => f a +f g a) l) = fdot c (map f l) +f fdot c (map g l).
Proof. revert c; induction l as [|a l IH]; intros [|c0 c]; cbn [map fdot]; try ring. rewrite IH. ring. Qed.
Lemma fdot_map_zero {A} (c : list F) (l : list A) : fdot c (map (fun _ => fzero) l) = fzero.
Proof. revert c; induction l as [|a l IH]; intros [|c0 c]; cbn [map fdot]; try ring. rewrite IH. ring. Qed.
(* pad or cut a coefficient list to length n *)
Definition pad (n : nat) (c : list F) : list F := map (fun j => nth j c fzero) (seq 0 n).
Lemma pad_length n c : length (pad n c) = n.
Proof. unfold pad. rewrite map_length, seq_length. reflexivity. Qed.
Lemma pad_nth n c j : (j < n)%nat -> nth j (pad n c) fzero = nth j c fzero.
Proof. intros H. unfold pad. rewrite (map_seq_nth _ n j fzero H). reflexivity. Qed.
Lemma pad_fdot n c xs : length xs = n -> fdot (pad n c) xs = fdot c xs.
Proof.
  intros H. rewrite !(fdot_nth_sum _ xs n H). f_equal. apply map_ext_in. intros j Hj. apply in_seq in Hj. rewrite pad_nth by lia. reflexivity.
Qed.

Variables (n : nat) (cs : csys K) (xs : list F).
Let ni := cs_num_inst cs.
Let nw := cs_num_wit cs.
Let nc := length (cs_cons cs).
Let N := length xs.
Let M := (ni + nw)%nat.

Definition lags (ta : F) : list F := map (fun i => peval (lagrange xs i) ta) (seq 0 N).
Definition colA (ta : F) (j : nat) : F := (if (j <? ni)%nat then nth (nc + j) (lags ta) fzero else fzero) +f column ni (map c_a (cs_cons cs)) (lags ta) j.
Definition colB (ta : F) (j : nat) : F := column ni (map c_b (cs_cons cs)) (lags ta) j.
Definition colC (ta : F) (j : nat) : F := column ni (map c_c (cs_cons cs)) (lags ta) j.
Definition qq (al be ta : F) (j : nat) : F := be *f colA ta j +f al *f colB ta j +f colC ta j.

(* gamma*delta times the exponents of public_g1 *)
Definition sum_n (f : nat -> F) : F := fsum (map f (seq 0 n)).
Definition tpart (al be ga de ta : F) (s t : nat -> F) : list F :=
  map (fun j => t (S j) *f (de *f qq al be ta (S j))) (seq 0 n) ++ [ga *f de *f (de *f (t 0%nat +f sum_n (fun j => s j *f t (S j))))].
Definition rest (al be ga de ta : F) (s : nat -> F) : list F :=
  [ga *f de; ga *f de *f al; ga *f de *f be; ga *f de *f de; fneg (ga *f de *f ga)]
  ++ map (fun j => ga *f de *f colA ta j) (seq 0 M) ++ map (fun j => ga *f de *f colB ta j) (seq 0 M)
  ++ map (fun i => ga *f (vanishing_at xs ta *f fpow ta i)) (seq 0 (N - 1))
  ++ map (fun j => ga *f qq al be ta (ni + j)) (seq 0 nw) ++ map (fun j => de *f qq al be ta j) (seq 0 ni)
  ++ [ga *f de *f de] ++ map (fun j => ga *f de *f (de *f s j)) (seq 0 n) ++ [fneg (ga *f de *f (ga *f (fone +f sum_n s)))].
Definition g1b al be ga de ta s t : list F := tpart al be ga de ta s t ++ rest al be ga de ta s.
(* the exponents of public_g2 *)
Definition g2b (be ga de ta rh : F) (s t v : nat -> F) : list F :=
  [fone; be; ga; de] ++ map (colB ta) (seq 0 M) ++ map t (seq 0 (S n)) ++ [rh] ++ map (fun j => s j *f v j) (seq 0 n) ++ map (fun j => v j *f rh) (seq 0 n).

(* the two equations, multiplied by gamma*delta *)
Definition eq_com (S : strategy E) al be ga de ta s t : F :=
  fdot (map (fun c => fdot c (g1b al be ga de ta s t)) (sg_X_r S :: sg_chunks S)) (map t (seq 0 (Datatypes.S n)))
  -f fdot (sg_commitment S) (g1b al be ga de ta s t).
Definition eq_qap (S : strategy E) al be ga de ta rh s t v : F :=
  fdot (sg_a S) (g1b al be ga de ta s t) *f fdot (sg_b S) (g2b be ga de ta rh s t v)
  -f al *f be *f ga *f de
  -f ga *f (fsum (map (fun c => fdot c (g1b al be ga de ta s t)) (sg_X_r S :: sg_chunks S)) +f de *f qq al be ta 0)
  -f de *f fdot (sg_c S) (g1b al be ga de ta s t).

(* ---------- the commitment equation ---------- *)
Definition lin (c : list F) (al be ga de ta : F) (s : nat -> F) : list F :=
  (nth n c fzero *f (ga *f de *f de)) ::
  map (fun j => nth j c fzero *f (de *f qq al be ta (S j)) +f nth n c fzero *f (ga *f de *f de *f s j)) (seq 0 n).
Lemma lin_length c al be ga de ta s : length (lin c al be ga de ta s) = S n.
Proof. unfold lin. cbn [length]. rewrite map_length, seq_length. reflexivity. Qed.
Lemma lin_nth c al be ga de ta s j : (j < n)%nat -> nth (S j) (lin c al be ga de ta s) fzero =
  nth j c fzero *f (de *f qq al be ta (S j)) +f nth n c fzero *f (ga *f de *f de *f s j).
Proof. intros H. unfold lin. cbn [nth]. rewrite (map_seq_nth _ n j fzero H). reflexivity. Qed.
Lemma tpart_length al be ga de ta s t : length (tpart al be ga de ta s t) = S n.
Proof. unfold tpart. rewrite app_length, map_length, seq_length. cbn. lia. Qed.
Lemma hd_skipn (c : list F) k : fdot (skipn k c) [fone] = nth k c fzero.
Proof. revert c; induction k as [|k IH]; intros [|c0 c]; [reflexivity|destruct c; cbn; ring|destruct k; reflexivity|apply IH]. Qed.
Lemma fdot_single (c : list F) k x : fdot (skipn k c) [x] = nth k c fzero *f x.
Proof. rewrite <- (hd_skipn c k). destruct (skipn k c) as [|a [|b l]]; cbn [fdot]; ring. Qed.
Lemma tpart_lin c al be ga de ta s t : fdot c (tpart al be ga de ta s t) = fdot (lin c al be ga de ta s) (map t (seq 0 (S n))).
Proof.
  unfold tpart. rewrite fdot_app_r, map_length, seq_length, fdot_single.
  rewrite (fdot_nth_sum c _ n) by (rewrite map_length, seq_length; reflexivity).
  unfold lin. cbn [seq map fdot]. rewrite <- seq_shift, map_map.
  rewrite (fdot_nth_sum _ (map (fun x => t (S x)) (seq 0 n)) n) by (rewrite map_length, seq_length; reflexivity).
  rewrite (map_ext_in (fun i => nth i c fzero *f nth i (map (fun j => t (S j) *f (de *f qq al be ta (S j))) (seq 0 n)) fzero)
     (fun j => nth j c fzero *f (t (S j) *f (de *f qq al be ta (S j))))).
  2:{ intros j Hj. apply in_seq in Hj. rewrite (map_seq_nth _ n j fzero) by lia. reflexivity. }
  rewrite (map_ext_in (fun i => nth i _ fzero *f nth i (map (fun x => t (S x)) (seq 0 n)) fzero)
     (fun j => nth j c fzero *f (t (S j) *f (de *f qq al be ta (S j))) +f (nth n c fzero *f (ga *f de *f de)) *f (s j *f t (S j)))).
  2:{ intros j Hj. apply in_seq in Hj. rewrite !(map_seq_nth _ n j fzero) by lia. ring. }
  rewrite fsum_map_add, fsum_map_mul. unfold sum_n. ring.
Qed.
Lemma g1b_split c al be ga de ta s t : fdot c (g1b al be ga de ta s t) =
  fdot (skipn (S n) c) (rest al be ga de ta s) +f fdot (lin c al be ga de ta s) (map t (seq 0 (S n))).
Proof. unfold g1b. rewrite fdot_app_r, tpart_length, tpart_lin. ring. Qed.

Hypothesis big : 8 < modulus K.
Hypothesis Hxs : NoDup xs.
Hypothesis Hdom : (nc + ni <= N)%nat.
Hypothesis Hni : ni = S n.
Hypothesis Hn : (0 < n)%nat.
Hypothesis Hok : cs_ok cs.

Lemma two_inv (x : F) : x +f x = fzero -> x = fzero.
Proof.
  intros H. assert (P : (fone +f fone) *f x = fzero) by (rewrite <- H; ring). apply fmul_integral in P. destruct P as [P|P]; [|exact P].
  exfalso. unfold fone in P. rewrite <- of_Z_add in P. change (1 + 1) with 2 in P. apply of_Z_zero_iff in P.
  apply Z.divide_pos_le in P; lia.
Qed.
(* the polynomials of the public inputs at the extra domain points *)
Lemma lags_nth ta i : (i < N)%nat -> nth i (lags ta) fzero = peval (lagrange xs i) ta.
Proof. intros H. unfold lags. rewrite (map_seq_nth _ N i fzero H). reflexivity. Qed.
Lemma column_zero (rows : list (lincomb K)) (u : list F) j : (forall i, (i < length rows)%nat -> nth i u fzero = fzero) -> column ni rows u j = fzero.
Proof.
  revert u; induction rows as [|l rows IH]; intros u H; [reflexivity|]. destruct u as [|u0 u]; [reflexivity|].
  unfold column in *. cbn [combine map]. rewrite fsum_cons, IH by (intros i Hi; apply (H (S i)); cbn; lia).
  pose proof (H 0%nat ltac:(cbn; lia)) as H0. cbn in H0. rewrite H0. ring.
Qed.
Lemma colA_at j k : (j < ni)%nat -> (k < ni)%nat -> colA (nth (nc + k) xs fzero) j = if Nat.eqb j k then fone else fzero.
Proof.
  intros Hj Hk. unfold colA. destruct (Nat.ltb_spec j ni); [|lia]. rewrite lags_nth by lia. rewrite lagrange_at by (try assumption; lia).
  rewrite column_zero; [destruct (Nat.eqb_spec (nc + j) (nc + k)); destruct (Nat.eqb_spec j k); try lia; ring|].
  intros i Hi. rewrite map_length in Hi. fold nc in Hi. rewrite lags_nth by lia. rewrite lagrange_at by (try assumption; lia).
  destruct (Nat.eqb_spec i (nc + k)); [lia|reflexivity].
Qed.

Variable S0 : strategy E.
Hypothesis Hlen : length (sg_chunks S0) = n.
(* the scalars s_1..s_n behind X_1..X_n may be known: the equation need only hold identically in the other secrets *)
Variable s : nat -> F.
Hypothesis Hcom : forall al be ga de ta t, eq_com S0 al be ga de ta s t = fzero.

Let cvec := sg_X_r S0 :: sg_chunks S0.
Let psi := sg_commitment S0.
Lemma cvec_length : length cvec = S n.
Proof. unfold cvec. cbn [length]. lia. Qed.

Lemma com_core al be ga de ta :
  fdot (skipn (S n) psi) (rest al be ga de ta s) = fzero /\
  (forall i, (i < S n)%nat -> fdot (skipn (S n) (nth i cvec [])) (rest al be ga de ta s) = nth i (lin psi al be ga de ta s) fzero) /\
  (forall i j, (i < S n)%nat -> (j < S n)%nat ->
     nth i (lin (nth j cvec []) al be ga de ta s) fzero +f nth j (lin (nth i cvec []) al be ga de ta s) fzero = fzero).
Proof.
  pose proof (@quadratic_core K big (S n) (map (fun c => fdot (skipn (S n) c) (rest al be ga de ta s)) cvec) (lin psi al be ga de ta s)
    (fdot (skipn (S n) psi) (rest al be ga de ta s)) (map (fun c => lin c al be ga de ta s) cvec)) as Q.
  destruct Q as (Q1 & Q2 & Q3); [lia|rewrite map_length; apply cvec_length|rewrite map_length; apply cvec_length| |].
  - intros t Ht. pose proof (Hcom al be ga de ta (fun j => nth j t fzero)) as H. unfold eq_com in H. apply fsub_zero_eq in H.
    fold cvec psi in H. rewrite g1b_split in H. rewrite <- (list_as_map fzero t) in H at 1 || idtac.
    assert (T : map (fun j => nth j t fzero) (seq 0 (S n)) = t) by (rewrite <- Ht; symmetry; apply list_as_map). rewrite T in H. rewrite <- H.
    rewrite map_map. clear -T. rewrite !(fdot_nth_sum _ t (S n)) by (rewrite <- T, map_length, seq_length; reflexivity). rewrite <- fsum_map_add. f_equal. apply map_ext.
    intros i.
    assert (P : forall (f : list F -> F), f [] = fzero -> nth i (map f cvec) fzero = f (nth i cvec [])) by (intros f Hf; rewrite <- Hf at 1; apply map_nth).
    assert (Z1 : fdot (skipn (S n) []) (rest al be ga de ta s) = fzero) by reflexivity.
    assert (Z2 : fdot (lin [] al be ga de ta s) t = fzero).
    { assert (L0 : lin [] al be ga de ta s = map (fun _ => fzero) (seq 0 (S n))).
      { unfold lin. cbn [seq map]. f_equal; [destruct n; cbn [nth]; ring|]. rewrite <- seq_shift, map_map. apply map_ext. intros j.
        replace (nth j [] fzero) with (@fzero K) by (destruct j; reflexivity). replace (nth n [] fzero) with (@fzero K) by (destruct n; reflexivity). ring. }
      rewrite L0, fdot_comm. apply fdot_map_zero. }
    rewrite (P (fun c => fdot (skipn (S n) c) (rest al be ga de ta s)) Z1), (P (fun c => fdot (lin c al be ga de ta s) t) Z2).
    rewrite (P (fun c => fdot c (g1b al be ga de ta s (fun j => nth j t fzero))) eq_refl). rewrite g1b_split, T. ring.
  - split; [exact Q1|]. split.
    + intros i Hi. rewrite <- (Q2 i Hi). symmetry. rewrite <- (map_nth (fun c => fdot (skipn (S n) c) (rest al be ga de ta s)) cvec [] i). f_equal.
    + intros i j Hi Hj. pose proof (Q3 i j Hi Hj) as Q.
      assert (P : forall k, (k < S n)%nat -> nth k (map (fun c => lin c al be ga de ta s) cvec) [] = lin (nth k cvec []) al be ga de ta s).
      { intros k Hk. rewrite (nth_indep _ [] (lin [] al be ga de ta s)) by (rewrite map_length, cvec_length; exact Hk).
        apply (map_nth (fun c => lin c al be ga de ta s)). }
      rewrite !P in Q by assumption. exact Q.
Qed.

Let y (j k : nat) := nth k (nth j cvec []) fzero.
Lemma coeffs_vanish j k : (j < S n)%nat -> (k < S n)%nat -> y j k = fzero.
Proof.
  assert (A : forall i l, (i < S n)%nat -> (l < S n)%nat -> forall al be ga de ta,
     nth i (lin (nth l cvec []) al be ga de ta s) fzero +f nth l (lin (nth i cvec []) al be ga de ta s) fzero = fzero).
  { intros i l Hi Hl al be ga de ta. apply (com_core al be ga de ta); assumption. }
  assert (P0 : y 0 n = fzero).
  { apply two_inv. pose proof (A 0%nat 0%nat ltac:(lia) ltac:(lia) fzero fzero fone fone fzero) as H.
    unfold lin in H. cbn [nth] in H. fold (y 0 n) in H. rewrite <- H. ring. }
  assert (Y0 : forall l, (l < n)%nat -> y 0 l = fzero /\ y (S l) n = fzero).
  { intros l Hl.
    assert (H : forall be ta, y (S l) n +f y 0 l *f (be *f colA ta (S l) +f colC ta (S l)) = fzero).
    { intros be ta. pose proof (A 0%nat (S l) ltac:(lia) ltac:(lia) fzero be fone fone ta) as H. rewrite lin_nth in H by exact Hl.
      change (nth 0 (lin ?c ?a ?b ?g ?d ?t ?s) fzero) with (nth n c fzero *f (g *f d *f d)) in H. fold (y (S l) n) (y 0 n) (y 0 l) in H. rewrite P0 in H.
      etransitivity; [|exact H]. unfold qq. ring. }
    assert (Hy : y 0 l = fzero).
    { set (x := nth (nc + S l) xs fzero). pose proof (H fone x) as H1. pose proof (H fzero x) as H2.
      assert (D : y 0 l *f colA x (S l) = fzero).
      { transitivity ((y (S l) n +f y 0 l *f (fone *f colA x (S l) +f colC x (S l))) -f (y (S l) n +f y 0 l *f (fzero *f colA x (S l) +f colC x (S l)))); [ring|].
        rewrite H1, H2. ring. }
      unfold x in D. rewrite colA_at, Nat.eqb_refl in D by lia. etransitivity; [|exact D]. ring. }
    split; [exact Hy|]. pose proof (H fzero fzero) as H0. rewrite Hy in H0. etransitivity; [|exact H0]. ring. }
  assert (YS : forall l m, (l < n)%nat -> (m < n)%nat -> y (S l) m = fzero).
  { intros l m Hl Hm.
    assert (H : forall be ta, y (S l) m *f (be *f colA ta (S m) +f colC ta (S m)) +f y (S m) l *f (be *f colA ta (S l) +f colC ta (S l)) = fzero).
    { intros be ta. pose proof (A (S m) (S l) ltac:(lia) ltac:(lia) fzero be fone fone ta) as H. rewrite !lin_nth in H by assumption.
      fold (y (S l) n) (y (S m) n) (y (S l) m) (y (S m) l) in H. rewrite (proj2 (Y0 l Hl)), (proj2 (Y0 m Hm)) in H. etransitivity; [|exact H]. unfold qq. ring. }
    set (x := nth (nc + S m) xs fzero). pose proof (H fone x) as H1. pose proof (H fzero x) as H2.
    assert (D : y (S l) m *f colA x (S m) +f y (S m) l *f colA x (S l) = fzero).
    { transitivity ((y (S l) m *f (fone *f colA x (S m) +f colC x (S m)) +f y (S m) l *f (fone *f colA x (S l) +f colC x (S l)))
        -f (y (S l) m *f (fzero *f colA x (S m) +f colC x (S m)) +f y (S m) l *f (fzero *f colA x (S l) +f colC x (S l)))); [ring|]. rewrite H1, H2. ring. }
    unfold x in D. rewrite !colA_at, Nat.eqb_refl in D by lia. destruct (Nat.eqb_spec (S l) (S m)) as [Q|Q].
    - injection Q as ->. apply two_inv. etransitivity; [|exact D]. ring.
    - etransitivity; [|exact D]. ring. }
  intros Hj Hk. destruct (Nat.eq_dec k n) as [->|Hkn].
  - destruct j as [|j]; [exact P0|]. apply Y0. lia.
  - destruct j as [|j]; [apply Y0; lia|]. apply YS; lia.
Qed.

Lemma com_value i al be ga de ta t : (i < S n)%nat ->
  fdot (nth i cvec []) (g1b al be ga de ta s t) = nth i (lin psi al be ga de ta s) fzero.
Proof.
  intros Hi. rewrite g1b_split. destruct (com_core al be ga de ta) as (_ & H & _). rewrite (H i Hi).
  assert (L : lin (nth i cvec []) al be ga de ta s = map (fun _ => fzero) (seq 0 (S n))).
  { unfold lin. fold (y i n). rewrite (coeffs_vanish i n) by lia. cbn [seq map]. apply (f_equal2 (@cons F)); [ring|]. rewrite <- seq_shift, map_map. apply map_ext_in.
    intros j Hj. apply in_seq in Hj. fold (y i j). rewrite (coeffs_vanish i j) by lia. ring. }
  rewrite L, fdot_comm, fdot_map_zero. ring.
Qed.
Lemma psi_value al be ga de ta t : fdot psi (g1b al be ga de ta s t) = fdot (lin psi al be ga de ta s) (map t (seq 0 (S n))).
Proof. rewrite g1b_split. destruct (com_core al be ga de ta) as (-> & _). ring. Qed.
Lemma cvec_sum al be ga de ta t : fsum (map (fun c => fdot c (g1b al be ga de ta s t)) cvec) = fsum (lin psi al be ga de ta s).
Proof.
  f_equal. rewrite (map_eq_seq _ [] cvec (S n) cvec_length). rewrite (list_as_map fzero (lin psi al be ga de ta s)), lin_length.
  apply map_ext_in. intros i Hi. apply in_seq in Hi. apply com_value. lia.
Qed.

(* ---------- the Groth16 equation ---------- *)
(* so may rho and v_1..v_n *)
Variables (rh : F) (v : nat -> F).
Hypothesis Hqap : forall al be ga de ta t, eq_qap S0 al be ga de ta rh s t v = fzero.

Let zz : nat -> F := fun _ => fzero.
Let c0' (c : list F) := skipn (S n) c.
Let c1 c := skipn 5 (c0' c).
Let c2 c := skipn M (c1 c).
Let c3 c := skipn M (c2 c).
Let c4 c := skipn (N - 1) (c3 c).
Let c5 c := skipn nw (c4 c).
Let c6 c := skipn ni (c5 c).
Let c7 c := skipn 1 (c6 c).
Let c8 c := skipn n (c7 c).
Definition colsA ta k m := map (colA ta) (seq k m).
Definition colsB ta k m := map (colB ta) (seq k m).
Definition colsC ta k m := map (colC ta) (seq k m).
Lemma map_seq_add (f : nat -> F) k m : map (fun j => f (k + j)%nat) (seq 0 m) = map f (seq k m).
Proof.
  replace (seq k m) with (map (fun j => (k + j)%nat) (seq 0 m)); [rewrite map_map; reflexivity|].
  induction k as [|k IH]; [apply map_id|]. rewrite <- seq_shift, <- IH, map_map. reflexivity.
Qed.
Lemma fdot_five (c : list F) x0 x1 x2 x3 x4 : fdot c [x0; x1; x2; x3; x4] =
  nth 0 c fzero *f x0 +f nth 1 c fzero *f x1 +f nth 2 c fzero *f x2 +f nth 3 c fzero *f x3 +f nth 4 c fzero *f x4.
Proof. rewrite (fdot_nth_sum c [x0; x1; x2; x3; x4] 5 eq_refl). cbn. ring. Qed.
Lemma fdot_four (c : list F) x0 x1 x2 x3 : fdot c [x0; x1; x2; x3] =
  nth 0 c fzero *f x0 +f nth 1 c fzero *f x1 +f nth 2 c fzero *f x2 +f nth 3 c fzero *f x3.
Proof. rewrite (fdot_nth_sum c [x0; x1; x2; x3] 4 eq_refl). cbn. ring. Qed.
Lemma fdot_one (c : list F) x : fdot c [x] = nth 0 c fzero *f x.
Proof. apply (fdot_single c 0 x). Qed.
Lemma fdot_qq c al be ta k m : fdot c (map (qq al be ta) (seq k m)) =
  be *f fdot c (colsA ta k m) +f al *f fdot c (colsB ta k m) +f fdot c (colsC ta k m).
Proof. unfold qq, colsA, colsB, colsC. rewrite !fdot_map_add, !fdot_map_r. reflexivity. Qed.

Lemma shape_g1_at c al be ga de ta (s' : nat -> F) : fdot c (g1b al be ga de ta s' zz) =
  g1_shape al be ga de
    (nth 0 (c0' c) fzero +f fdot (c1 c) (colsA ta 0 M) +f fdot (c2 c) (colsB ta 0 M)) (nth 1 (c0' c) fzero) (nth 2 (c0' c) fzero)
    (nth 3 (c0' c) fzero +f nth 0 (c6 c) fzero +f fdot (c7 c) (map s' (seq 0 n))) (fneg (nth 4 (c0' c) fzero) -f nth 0 (c8 c) fzero *f (fone +f sum_n s'))
    (fdot (c5 c) (colsA ta 0 ni)) (fdot (c5 c) (colsB ta 0 ni)) (fdot (c5 c) (colsC ta 0 ni))
    (fdot (c4 c) (colsA ta ni nw)) (fdot (c4 c) (colsB ta ni nw))
    (fdot (c4 c) (colsC ta ni nw) +f vanishing_at xs ta *f fdot (c3 c) (map (fpow ta) (seq 0 (N - 1)))).
Proof.
  rewrite g1b_split.
  assert (Zt : map zz (seq 0 (S n)) = map (fun _ => fzero) (seq 0 (S n))) by reflexivity. rewrite Zt, fdot_map_zero.
  fold (c0' c). unfold rest.
  rewrite fdot_app_r, fdot_five. cbn [length]. fold (c1 c).
  rewrite fdot_app_r, map_length, seq_length, fdot_map_r. fold (c2 c) (colsA ta 0 M).
  rewrite fdot_app_r, map_length, seq_length, fdot_map_r. fold (c3 c) (colsB ta 0 M).
  rewrite fdot_app_r, map_length, seq_length, fdot_map_r. fold (c4 c). rewrite fdot_map_r.
  rewrite fdot_app_r, map_length, seq_length, fdot_map_r. fold (c5 c). rewrite (map_seq_add (qq al be ta) ni nw), fdot_qq.
  rewrite fdot_app_r, map_length, seq_length, fdot_map_r. fold (c6 c). rewrite (fdot_qq (c5 c) al be ta 0 ni).
  rewrite fdot_app_r, fdot_one. cbn [length]. fold (c7 c).
  rewrite fdot_app_r, map_length, seq_length. fold (c8 c). rewrite fdot_one.
  rewrite (map_ext (fun j => ga *f de *f (de *f s' j)) (fun j => ga *f de *f de *f s' j)) by (intros j; ring). rewrite fdot_map_r.
  unfold g1_shape. ring.
Qed.
Lemma shape_g1 c al be ga de ta : fdot c (g1b al be ga de ta zz zz) =
  g1_shape al be ga de
    (nth 0 (c0' c) fzero +f fdot (c1 c) (colsA ta 0 M) +f fdot (c2 c) (colsB ta 0 M)) (nth 1 (c0' c) fzero) (nth 2 (c0' c) fzero)
    (nth 3 (c0' c) fzero +f nth 0 (c6 c) fzero) (fneg (nth 4 (c0' c) fzero) -f nth 0 (c8 c) fzero)
    (fdot (c5 c) (colsA ta 0 ni)) (fdot (c5 c) (colsB ta 0 ni)) (fdot (c5 c) (colsC ta 0 ni))
    (fdot (c4 c) (colsA ta ni nw)) (fdot (c4 c) (colsB ta ni nw))
    (fdot (c4 c) (colsC ta ni nw) +f vanishing_at xs ta *f fdot (c3 c) (map (fpow ta) (seq 0 (N - 1)))).
Proof.
  rewrite shape_g1_at. assert (Zq : sum_n zz = fzero) by (apply fsum_map_zero). rewrite Zq. unfold zz. rewrite fdot_map_zero. unfold g1_shape. ring.
Qed.
Let bb := sg_b S0.
Lemma shape_g2 be ga de ta : fdot bb (g2b be ga de ta fzero zz zz zz) =
  g2_shape be ga de (nth 0 bb fzero +f fdot (skipn 4 bb) (colsB ta 0 M)) (nth 1 bb fzero) (nth 2 bb fzero) (nth 3 bb fzero).
Proof.
  unfold g2b. rewrite fdot_app_r, fdot_four. cbn [length]. rewrite fdot_app_r, map_length, seq_length. fold (colsB ta 0 M).
  assert (Z : forall c : list F, fdot c (map zz (seq 0 (S n)) ++ [fzero] ++ map (fun j => zz j *f zz j) (seq 0 n) ++ map (fun j => zz j *f fzero) (seq 0 n)) = fzero).
  { intros c. rewrite !fdot_app_r, fdot_one. unfold zz. rewrite fdot_map_zero.
    rewrite (map_ext (fun _ => fzero *f fzero) (fun _ => fzero)) by (intros; ring). rewrite !fdot_map_zero. ring. }
  rewrite Z. unfold g2_shape. ring.
Qed.

Lemma shape_g2_at be ga de ta : fdot bb (g2b be ga de ta rh s zz v) =
  g2_shape be ga de (nth 0 bb fzero +f fdot (skipn 4 bb) (colsB ta 0 M)
    +f fdot (skipn (S n) (skipn M (skipn 4 bb))) ([rh] ++ map (fun j => s j *f v j) (seq 0 n) ++ map (fun j => v j *f rh) (seq 0 n)))
    (nth 1 bb fzero) (nth 2 bb fzero) (nth 3 bb fzero).
Proof.
  unfold g2b. rewrite fdot_app_r, fdot_four. cbn [length]. rewrite fdot_app_r, map_length, seq_length. fold (colsB ta 0 M).
  rewrite (fdot_app_r _ (map zz (seq 0 (S n)))), map_length, seq_length. unfold zz at 1. rewrite fdot_map_zero. unfold g2_shape. ring.
Qed.

(* the statement and the witness read off the strategy *)
Let ms := pad n psi.
Let ws := pad nw (c4 (sg_c S0)).
Lemma fdot_cons_seq (f : nat -> F) (a : F) m : fdot (a :: m) (map f (seq 0 ni)) = a *f f 0%nat +f fdot m (map f (seq 1 n)).
Proof. rewrite Hni. reflexivity. Qed.
Lemma qap_core ta :
  (fdot ((fone :: ms) ++ ws) (colsA ta 0 M)) *f (fdot ((fone :: ms) ++ ws) (colsB ta 0 M)) =
  fdot ((fone :: ms) ++ ws) (colsC ta 0 M) +f vanishing_at xs ta *f fdot (c3 (sg_c S0)) (map (fpow ta) (seq 0 (N - 1))).
Proof.
  assert (Sp : forall f : nat -> F, fdot ((fone :: ms) ++ ws) (map f (seq 0 M)) = f 0%nat +f fdot ms (map f (seq 1 n)) +f fdot (c4 (sg_c S0)) (map f (seq ni nw))).
  { intros f. unfold M. rewrite seq_app, map_app, fdot_app_r, map_length, seq_length.
    rewrite skipn_app. assert (L1 : length (fone :: ms) = ni) by (cbn [length]; unfold ms; rewrite pad_length; lia).
    rewrite L1, Nat.sub_diag. rewrite skipn_all2 by lia. cbn [skipn app Nat.add]. unfold ws. rewrite pad_fdot by (rewrite map_length, seq_length; reflexivity).
    f_equal. rewrite (fdot_comm ((fone :: ms) ++ pad nw (c4 (sg_c S0)))), fdot_comm.
    rewrite fdot_app. rewrite (skipn_all2 (map f (seq 0 ni))) by (rewrite map_length, seq_length; lia).
    replace (fdot (pad nw (c4 (sg_c S0))) []) with (@fzero K) by (destruct (pad nw (c4 (sg_c S0))); reflexivity). rewrite fdot_cons_seq. ring. }
  unfold colsA, colsB, colsC. rewrite !Sp.
  pose proof (fun al be ga de => Hqap al be ga de ta zz) as H.
  assert (Hlin : forall al be ga de, fsum (lin psi al be ga de ta s) = (nth n psi fzero *f (fone +f sum_n s)) *f (ga *f de *f de) +f de *f fdot ms (map (qq al be ta) (seq 1 n))).
  { intros al be ga de. unfold lin. rewrite fsum_cons. unfold ms.
    rewrite (map_ext _ (fun j => de *f (nth j psi fzero *f qq al be ta (S j)) +f nth n psi fzero *f (ga *f de *f de) *f s j)) by (intros j; ring).
    rewrite fsum_map_add, !fsum_map_mul. fold (sum_n s).
    assert (Q : fsum (map (fun j => nth j psi fzero *f qq al be ta (S j)) (seq 0 n)) = fdot (pad n psi) (map (qq al be ta) (seq 1 n))); [|rewrite Q; ring].
    symmetry. rewrite (fdot_nth_sum _ (map (qq al be ta) (seq 1 n)) n) by (rewrite map_length, seq_length; reflexivity).
    f_equal. apply map_ext_in. intros j Hj. apply in_seq in Hj. rewrite pad_nth by lia. rewrite <- (seq_shift n 0), map_map, (map_seq_nth _ n j fzero) by lia. reflexivity. }
  etransitivity; [eapply (@groth16_core K big) with (r := nth n psi fzero *f (fone +f sum_n s))
    (Up := colA ta 0 +f fdot ms (map (colA ta) (seq 1 n))) (Vp := colB ta 0 +f fdot ms (map (colB ta) (seq 1 n)))
    (Wp := colC ta 0 +f fdot ms (map (colC ta) (seq 1 n))) (U2' := fdot (c4 (sg_c S0)) (map (colA ta) (seq ni nw)))
    (V2' := fdot (c4 (sg_c S0)) (map (colB ta) (seq ni nw)))
    (W2' := fdot (c4 (sg_c S0)) (map (colC ta) (seq ni nw)) +f vanishing_at xs ta *f fdot (c3 (sg_c S0)) (map (fpow ta) (seq 0 (N - 1)))) |ring].
  intros al be ga de. pose proof (H al be ga de) as H'. unfold eq_qap in H'. fold cvec in H'. rewrite cvec_sum, Hlin in H'. rewrite !shape_g1_at, shape_g2_at in H'.
  rewrite fdot_qq in H'.
  assert (sub4 : forall a a' b c c' d : F, a = a' -> c = c' -> a' -f b -f c' -f d = fzero -> a -f b -f c -f d = fzero) by (intros; subst; assumption).
  eapply sub4; [| |exact H'].
  - reflexivity.
  - unfold qq, colsA, colsB, colsC. ring.
Qed.

Lemma qap_satisfied : Forall (constraint_holds (fone :: ms) ws) (cs_cons cs).
Proof.
  apply Forall_forall. intros k Hk. destruct (In_nth (cs_cons cs) k (@Constraint K [] [] []) Hk) as (i & Hi & Ek). fold nc in Hi.
  set (x := nth i xs fzero). pose proof (qap_core x) as Q.
  assert (Vz : vanishing_at xs x = fzero) by (apply vanishing_zero, nth_In; fold N; lia). rewrite Vz in Q.
  pose proof (instance_map_eval cs (fone :: ms) ws xs x eq_refl ltac:(discriminate) Hok) as I.
  specialize (I ltac:(cbn [length]; unfold ms; rewrite pad_length; fold ni; lia) ltac:(apply pad_length) Hdom). cbv zeta in I.
  unfold instance_map in I. cbv zeta in I. destruct I as (_ & _ & _ & IA & IB & IC).
  fold N ni nw nc M in IA, IB, IC. fold (lags x) in IA, IB, IC.
  assert (FA : fdot ((fone :: ms) ++ ws) (colsA x 0 M) = lc_value (fone :: ms) ws (c_a k)).
  { etransitivity; [exact IA|]. unfold x. rewrite interpolate_at by (try assumption; fold N; lia).
    rewrite app_nth1 by (rewrite map_length; exact Hi). rewrite (nth_indep _ fzero (lc_value (fone :: ms) ws (c_a (@Constraint K [] [] [])))) by (rewrite map_length; exact Hi).
    rewrite (map_nth (fun k => lc_value (fone :: ms) ws (c_a k))). rewrite Ek. reflexivity. }
  assert (FB : fdot ((fone :: ms) ++ ws) (colsB x 0 M) = lc_value (fone :: ms) ws (c_b k)).
  { etransitivity; [exact IB|]. unfold x. rewrite interpolate_at by (try assumption; fold N; lia).
    rewrite (nth_indep _ fzero (lc_value (fone :: ms) ws (c_b (@Constraint K [] [] [])))) by (rewrite map_length; exact Hi).
    rewrite (map_nth (fun k => lc_value (fone :: ms) ws (c_b k))). rewrite Ek. reflexivity. }
  assert (FC : fdot ((fone :: ms) ++ ws) (colsC x 0 M) = lc_value (fone :: ms) ws (c_c k)).
  { etransitivity; [exact IC|]. unfold x. rewrite interpolate_at by (try assumption; fold N; lia).
    rewrite (nth_indep _ fzero (lc_value (fone :: ms) ws (c_c (@Constraint K [] [] [])))) by (rewrite map_length; exact Hi).
    rewrite (map_nth (fun k => lc_value (fone :: ms) ws (c_c k))). rewrite Ek. reflexivity. }
  unfold constraint_holds. rewrite <- FA, <- FB, <- FC, Q. ring.
Qed.
End Alg.
