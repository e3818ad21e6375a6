(* NonmalAlg.v -- what the two verification equations force on combinations of the published elements, an honest ciphertext and its
   proof, when they hold identically (for C73) *)
From Verif Require Import Base BaseFacts Algebra Utils Setup Keygen Encryption Circuit CircuitSat CommitmentFacts VecFacts EncryptFacts Spec Groth16 ArkGroth16
  PolyFacts Groth16Spec ArkFacts SchwartzZippel SoundCore SoundSpec SoundAlg PrivacySpec PrivacyAlg NonmalCore.

Section NAlg.
Context {E : pairing}.
Notation K := (K_of E).
Notation F := (Fr E).
Add Ring Kr : (@scalar_ring_theory K).
Notation "x +f y" := (fadd x y) (at level 50, left associativity).
Notation "x *f y" := (fmul x y) (at level 40, left associativity).
Notation "x -f y" := (fsub x y) (at level 50, left associativity).
Variables (n : nat) (cs : csys K) (xs : list F) (m : nat -> F).
Let ni := cs_num_inst cs.
Let nw := cs_num_wit cs.
Let nc := length (cs_cons cs).
Let N := length xs.
Let M := (ni + nw)%nat.
Notation qq := (qq cs xs).
Notation g1b := (g1b n cs xs).
Notation g2b := (g2b n cs xs).
Notation sum_n := (sum_n n).
Notation lin := (lin n cs xs).
Notation P1 := (P1 n cs xs).
Notation P2 := (P2 n cs).
Notation seen1 := (seen1 n cs xs m).
Notation seen2 := (seen2 n cs xs).
Let zz : nat -> F := fun _ => fzero.

(* the two equations, multiplied by gamma*delta^2 *)
Definition eq_com1 (S : strategy E) al be ga de ta s t r a b : F :=
  fdot (map (fun c => fdot c (seen1 al be ga de ta s t r a b)) (sg_X_r S :: sg_chunks S)) (map t (seq 0 (Datatypes.S n)))
  -f fdot (sg_commitment S) (seen1 al be ga de ta s t r a b).
Definition eq_qap1 (S : strategy E) al be ga de ta rh s t v r a b : F :=
  fdot (sg_a S) (seen1 al be ga de ta s t r a b) *f fdot (sg_b S) (seen2 be ga de ta rh s t v b)
  -f al *f be *f ga *f de *f de
  -f ga *f (fsum (map (fun c => fdot c (seen1 al be ga de ta s t r a b)) (sg_X_r S :: sg_chunks S)) +f de *f de *f qq al be ta 0)
  -f de *f fdot (sg_c S) (seen1 al be ga de ta s t r a b).

(* coefficients of the honest elements *)
Definition h0 (c : list F) := nth P1 c fzero.
Definition h1 (c : list F) j := nth (P1 + (1 + j)) c fzero.
Definition hx (c : list F) := nth (P1 + (1 + n)) c fzero.
Definition ha (c : list F) := nth (P1 + (2 + n)) c fzero.
Definition hd' (c : list F) := nth (P1 + (3 + n)) c fzero.
(* the coefficients of the commitment key, counting what is inside the honest commitment *)
Definition eff (r : F) (c : list F) : list F := map (fun j => nth j c fzero +f hx c *f m j) (seq 0 n) ++ [nth n c fzero +f hx c *f r].
Lemma eff_nth r c j : (j < n)%nat -> nth j (eff r c) fzero = nth j c fzero +f hx c *f m j.
Proof. intros H. unfold eff. rewrite app_nth1 by (rewrite map_length, seq_length; exact H). rewrite (map_seq_nth _ n j fzero H). reflexivity. Qed.
Lemma eff_last r c : nth n (eff r c) fzero = nth n c fzero +f hx c *f r.
Proof. unfold eff. rewrite app_nth2; rewrite map_length, seq_length; [|lia]. rewrite Nat.sub_diag. reflexivity. Qed.
Definition hpart c al be ga de ta s r a b : F :=
  h0 c *f (ga *f de *f (r *f de))
  +f sum_n (fun j => h1 c j *f (ga *f de *f (r *f (de *f s j)) +f m j *f (de *f qq al be ta (S j))))
  +f ha c *f (ga *f de *f a)
  +f hd' c *f (ga *f (a *f b -f al *f be) -f ga *f (qq al be ta 0 +f ga *f de *f (r *f (fone +f sum_n s)) +f sum_n (fun j => m j *f qq al be ta (S j)))).
Definition restE c al be ga de ta s r a b : F := fdot (skipn (S n) c) (rest n cs xs al be ga de ta s) +f hpart c al be ga de ta s r a b.
Definition sv c al be ga de ta s t r a b : F := fdot c (g1b al be ga de ta s t) +f hpart c al be ga de ta s r a b +f hx c *f fdot (map m (seq 0 n) ++ [r]) (tpart n cs xs al be ga de ta s t).

Lemma fdot_scale_r (c : list F) (k : F) l : fdot c (map (fmul k) l) = k *f fdot c l.
Proof. revert c; induction l as [|a l IH]; intros [|c0 c]; cbn [map fdot]; try ring. rewrite IH. ring. Qed.
Lemma skipn_two {A} i j (l : list A) : skipn i (skipn j l) = skipn (j + i) l.
Proof. revert l; induction j as [|j IH]; intros [|x l]; cbn [skipn Nat.add]; try reflexivity; [apply skipn_nil|apply IH]. Qed.
Lemma sv_eq c al be ga de ta s t r a b : fdot c (seen1 al be ga de ta s t r a b) = de *f sv c al be ga de ta s t r a b.
Proof.
  unfold PrivacyAlg.seen1. rewrite !fdot_app_r, !map_length, seq_length, g1b_length, fdot_scale_r. cbn [length].
  rewrite !skipn_two, !fdot_single. rewrite (fdot_nth_sum _ (map _ (seq 0 n)) n) by (rewrite map_length, seq_length; reflexivity).
  rewrite (map_ext_in (fun i => nth i (skipn (P1 + 1) c) fzero *f _) (fun j => de *f (h1 c j *f (ga *f de *f (r *f (de *f s j)) +f m j *f (de *f qq al be ta (S j)))))).
  2:{ intros j Hj. apply in_seq in Hj. rewrite nth_skipn, (map_seq_nth _ n j fzero) by lia. unfold h1. replace (P1 + 1 + j)%nat with (P1 + (1 + j))%nat by lia. ring. }
  rewrite fsum_map_mul.
  replace (nth (P1 + 1 + n) c fzero) with (hx c) by (unfold hx; f_equal; lia).
  replace (nth (P1 + 1 + n + 1) c fzero) with (ha c) by (unfold ha; f_equal; lia).
  replace (nth (P1 + 1 + n + 1 + 1) c fzero) with (hd' c) by (unfold hd'; f_equal; lia).
  fold (h0 c). unfold sv, hpart.
  assert (T : fdot (map m (seq 0 n) ++ [r]) (tpart n cs xs al be ga de ta s t) =
    ga *f de *f (r *f (de *f (t 0%nat +f sum_n (fun j => s j *f t (S j))))) +f sum_n (fun j => m j *f (t (S j) *f (de *f qq al be ta (S j))))).
  { unfold tpart. rewrite fdot_app_r, map_length, seq_length, fdot_single.
    rewrite app_nth2; rewrite map_length, seq_length; [|lia]. rewrite Nat.sub_diag. cbn [nth].
    rewrite (fdot_nth_sum _ (map _ (seq 0 n)) n) by (rewrite map_length, seq_length; reflexivity).
    rewrite (map_ext_in (fun i => nth i (map m (seq 0 n) ++ [r]) fzero *f _) (fun j => m j *f (t (S j) *f (de *f qq al be ta (S j))))).
    2:{ intros j Hj. apply in_seq in Hj. rewrite app_nth1 by (rewrite map_length, seq_length; lia). rewrite !(map_seq_nth _ n j fzero) by lia. reflexivity. }
    unfold SoundAlg.sum_n. ring. }
  rewrite T. unfold SoundAlg.sum_n.
  rewrite (map_ext (fun j => m j *f (de *f qq al be ta (S j))) (fun j => de *f (m j *f qq al be ta (S j)))) by (intros; ring). rewrite fsum_map_mul. ring.
Qed.
Lemma lin_eff r c al be ga de ta s (t : list F) : length t = S n ->
  fdot (lin (eff r c) al be ga de ta s) t = fdot (lin c al be ga de ta s) t +f hx c *f fdot (lin (map m (seq 0 n) ++ [r]) al be ga de ta s) t.
Proof.
  intros Ht. rewrite !(fdot_nth_sum _ t (S n) Ht). rewrite <- fsum_map_mul, <- fsum_map_add. f_equal. apply map_ext_in. intros i Hi. apply in_seq in Hi.
  assert (Q : nth n (map m (seq 0 n) ++ [r]) fzero = r) by (rewrite app_nth2; rewrite map_length, seq_length; [rewrite Nat.sub_diag; reflexivity|lia]).
  destruct i as [|i].
  - unfold SoundAlg.lin. cbn [nth]. rewrite eff_last, Q. ring.
  - rewrite !lin_nth by lia. rewrite eff_last, Q, eff_nth by lia. rewrite app_nth1 by (rewrite map_length, seq_length; lia). rewrite (map_seq_nth m n i fzero) by lia. ring.
Qed.
Lemma sv_split c al be ga de ta s t r a b : sv c al be ga de ta s t r a b = restE c al be ga de ta s r a b +f fdot (lin (eff r c) al be ga de ta s) (map t (seq 0 (S n))).
Proof.
  unfold sv, restE. rewrite g1b_split, tpart_lin, lin_eff by (rewrite map_length, seq_length; reflexivity). ring.
Qed.

Hypothesis big : 8 < modulus K.
Hypothesis Hxs : NoDup xs.
Hypothesis Hdom : (nc + ni <= N)%nat.
Hypothesis Hni : ni = S n.
Hypothesis Hn : (0 < n)%nat.

Lemma colA_point j k : (j < ni)%nat -> (k < ni)%nat -> colA cs xs (nth (nc + k) xs fzero) j = if Nat.eqb j k then fone else fzero.
Proof. exact (colA_at n cs xs Hxs Hdom Hni Hn j k). Qed.
Lemma colA_witness j k : (ni <= j)%nat -> (k < ni)%nat -> colA cs xs (nth (nc + k) xs fzero) j = fzero.
Proof.
  intros Hj Hk. unfold colA. fold ni. destruct (Nat.ltb_spec j ni); [lia|]. rewrite (column_zero n cs xs Hdom Hni Hn); [ring|].
  intros i Hi. rewrite map_length in Hi. fold nc in Hi. rewrite (lags_nth xs) by (fold N; lia). rewrite lagrange_at by (try assumption; fold N; lia).
  destruct (Nat.eqb_spec i (nc + k)); [lia|reflexivity].
Qed.

(* antisymmetric coefficients vanish *)
Lemma antisym_vanish (Y : nat -> list F) :
  (forall i l, (i < S n)%nat -> (l < S n)%nat -> forall be ta, nth i (lin (Y l) fzero be fone fone ta zz) fzero +f nth l (lin (Y i) fzero be fone fone ta zz) fzero = fzero) ->
  forall j k, (j < S n)%nat -> (k < S n)%nat -> nth k (Y j) fzero = fzero.
Proof.
  intros A. set (y := fun j k => nth k (Y j) fzero).
  assert (P0 : y 0%nat n = fzero).
  { apply (two_nz big). pose proof (A 0%nat 0%nat ltac:(lia) ltac:(lia) fzero fzero) as H.
    unfold SoundAlg.lin in H. cbn [nth] in H. fold (y 0%nat n) in H. rewrite <- H. ring. }
  assert (Y0 : forall l, (l < n)%nat -> y 0%nat l = fzero /\ y (S l) n = fzero).
  { intros l Hl.
    assert (H : forall be ta, y (S l) n +f y 0%nat l *f (be *f colA cs xs ta (S l) +f colC cs xs ta (S l)) = fzero).
    { intros be ta. pose proof (A 0%nat (S l) ltac:(lia) ltac:(lia) be ta) as H. rewrite lin_nth in H by exact Hl.
      change (nth 0 (lin ?c ?a ?b ?g ?d ?t ?s) fzero) with (nth n c fzero *f (g *f d *f d)) in H. fold (y (S l) n) (y 0%nat n) (y 0%nat l) in H. rewrite P0 in H.
      etransitivity; [|exact H]. unfold SoundAlg.qq, zz. ring. }
    assert (Hy : y 0%nat l = fzero).
    { set (x := nth (nc + S l) xs fzero). pose proof (H fone x) as H1. pose proof (H fzero x) as H2.
      assert (D : y 0%nat l *f colA cs xs x (S l) = fzero).
      { transitivity ((y (S l) n +f y 0%nat l *f (fone *f colA cs xs x (S l) +f colC cs xs x (S l))) -f (y (S l) n +f y 0%nat l *f (fzero *f colA cs xs x (S l) +f colC cs xs x (S l)))); [ring|].
        rewrite H1, H2. ring. }
      unfold x in D. rewrite colA_point, Nat.eqb_refl in D by lia. etransitivity; [|exact D]. ring. }
    split; [exact Hy|]. pose proof (H fzero fzero) as H0. rewrite Hy in H0. etransitivity; [|exact H0]. ring. }
  assert (YS : forall l k, (l < n)%nat -> (k < n)%nat -> y (S l) k = fzero).
  { intros l k Hl Hk.
    assert (H : forall be ta, y (S l) k *f (be *f colA cs xs ta (S k) +f colC cs xs ta (S k)) +f y (S k) l *f (be *f colA cs xs ta (S l) +f colC cs xs ta (S l)) = fzero).
    { intros be ta. pose proof (A (S k) (S l) ltac:(lia) ltac:(lia) be ta) as H. rewrite !lin_nth in H by assumption.
      fold (y (S l) n) (y (S k) n) (y (S l) k) (y (S k) l) in H. rewrite (proj2 (Y0 l Hl)), (proj2 (Y0 k Hk)) in H. etransitivity; [|exact H]. unfold SoundAlg.qq. ring. }
    set (x := nth (nc + S k) xs fzero). pose proof (H fone x) as H1. pose proof (H fzero x) as H2.
    assert (D : y (S l) k *f colA cs xs x (S k) +f y (S k) l *f colA cs xs x (S l) = fzero).
    { transitivity ((y (S l) k *f (fone *f colA cs xs x (S k) +f colC cs xs x (S k)) +f y (S k) l *f (fone *f colA cs xs x (S l) +f colC cs xs x (S l)))
        -f (y (S l) k *f (fzero *f colA cs xs x (S k) +f colC cs xs x (S k)) +f y (S k) l *f (fzero *f colA cs xs x (S l) +f colC cs xs x (S l)))); [ring|]. rewrite H1, H2. ring. }
    unfold x in D. rewrite !colA_point, Nat.eqb_refl in D by lia. destruct (Nat.eqb_spec (S l) (S k)) as [Q|Q].
    - injection Q as ->. apply (two_nz big). etransitivity; [|exact D]. ring.
    - etransitivity; [|exact D]. ring. }
  intros j k Hj Hk. change (y j k = fzero). destruct (Nat.eq_dec k n) as [->|Hkn].
  - destruct j as [|j]; [exact P0|]. apply Y0. lia.
  - destruct j as [|j]; [apply Y0; lia|]. apply YS; lia.
Qed.

Variable S0 : strategy E.
Hypothesis Hlen : length (sg_chunks S0) = n.
Hypothesis Hcom : forall al be ga de ta s t r a b, de <> fzero -> eq_com1 S0 al be ga de ta s t r a b = fzero.
Let cvec := sg_X_r S0 :: sg_chunks S0.
Let psi := sg_commitment S0.
Lemma cvec1_length : length cvec = S n.
Proof. unfold cvec. cbn [length]. lia. Qed.

Lemma com1 al be ga de ta s t r a b : de <> fzero ->
  fdot (map (fun c => sv c al be ga de ta s t r a b) cvec) (map t (seq 0 (S n))) = sv psi al be ga de ta s t r a b.
Proof.
  intros Hd. pose proof (Hcom al be ga de ta s t r a b Hd) as H. unfold eq_com1 in H. fold cvec psi in H. apply fsub_zero_eq in H.
  rewrite (map_ext _ _ (fun c => sv_eq c al be ga de ta s t r a b)), sv_eq, fdot_comm, fdot_map_r, fdot_comm in H.
  apply fsub_zero_eq. apply (cancel_l de); [exact Hd|]. match type of H with ?u = ?v => transitivity (u -f v); [ring|] end. rewrite H. ring.
Qed.
Lemma com1_core al be ga de ta s r a b : de <> fzero ->
  restE psi al be ga de ta s r a b = fzero /\
  (forall i, (i < S n)%nat -> restE (nth i cvec []) al be ga de ta s r a b = nth i (lin (eff r psi) al be ga de ta s) fzero) /\
  (forall i j, (i < S n)%nat -> (j < S n)%nat ->
     nth i (lin (eff r (nth j cvec [])) al be ga de ta s) fzero +f nth j (lin (eff r (nth i cvec [])) al be ga de ta s) fzero = fzero).
Proof.
  intros Hd.
  pose proof (@quadratic_core K big (S n) (map (fun c => restE c al be ga de ta s r a b) cvec) (lin (eff r psi) al be ga de ta s)
    (restE psi al be ga de ta s r a b) (map (fun c => lin (eff r c) al be ga de ta s) cvec)) as Q.
  destruct Q as (Q1 & Q2 & Q3); [lia|rewrite map_length; apply cvec1_length|rewrite map_length; apply cvec1_length| |].
  - intros t Ht. pose proof (com1 al be ga de ta s (fun j => nth j t fzero) r a b Hd) as H. rewrite sv_split in H.
    assert (T : map (fun j => nth j t fzero) (seq 0 (S n)) = t) by (rewrite <- Ht; symmetry; apply list_as_map). rewrite T in H. rewrite <- H.
    rewrite map_map, (map_ext _ _ (fun c => sv_split c al be ga de ta s (fun j => nth j t fzero) r a b)). rewrite T.
    rewrite !(fdot_comm (map _ cvec)), fdot_map_add. reflexivity.
  - split; [exact Q1|]. split.
    + intros i Hi. rewrite <- (Q2 i Hi). rewrite (nth_indep _ fzero (restE [] al be ga de ta s r a b)) by (rewrite map_length, cvec1_length; exact Hi).
      symmetry. apply (map_nth (fun c => restE c al be ga de ta s r a b)).
    + intros i j Hi Hj. pose proof (Q3 i j Hi Hj) as Q.
      assert (P : forall k, (k < S n)%nat -> nth k (map (fun c => lin (eff r c) al be ga de ta s) cvec) [] = lin (eff r (nth k cvec [])) al be ga de ta s).
      { intros k Hk. rewrite (nth_indep _ [] (lin (eff r []) al be ga de ta s)) by (rewrite map_length, cvec1_length; exact Hk).
        apply (map_nth (fun c => lin (eff r c) al be ga de ta s)). }
      rewrite !P in Q by assumption. exact Q.
Qed.
Lemma com1_value i al be ga de ta s t r a b : de <> fzero -> (i < S n)%nat ->
  sv (nth i cvec []) al be ga de ta s t r a b = nth i (lin (eff r psi) al be ga de ta s) fzero.
Proof.
  intros Hd Hi. rewrite sv_split. destruct (com1_core al be ga de ta s r a b Hd) as (_ & H & _). rewrite (H i Hi).
  assert (N1 : @fone K <> fzero) by apply fneq01.
  pose proof (antisym_vanish (fun l => eff r (nth l cvec []))) as V. cbv beta in V.
  assert (V' : forall k, (k < S n)%nat -> nth k (eff r (nth i cvec [])) fzero = fzero).
  { intros k Hk. apply V; [|exact Hi|exact Hk]. intros i' l' Hi' Hl' be' ta'. apply (com1_core fzero be' fone fone ta' zz r fzero fzero N1); assumption. }
  assert (L : lin (eff r (nth i cvec [])) al be ga de ta s = map (fun _ => fzero) (seq 0 (S n))).
  { unfold SoundAlg.lin. rewrite (V' n) by lia. cbn [seq map]. apply (f_equal2 (@cons F)); [ring|]. rewrite <- seq_shift, map_map. apply map_ext_in.
    intros j Hj. apply in_seq in Hj. rewrite (V' j) by lia. ring. }
  rewrite L, fdot_comm, fdot_map_zero. ring.
Qed.
Lemma cvec1_sum al be ga de ta s t r a b : de <> fzero -> fsum (map (fun c => sv c al be ga de ta s t r a b) cvec) = fsum (lin (eff r psi) al be ga de ta s).
Proof.
  intros Hd. f_equal. rewrite (map_eq_seq _ [] cvec (S n) cvec1_length). rewrite (list_as_map fzero (lin (eff r psi) al be ga de ta s)), lin_length.
  apply map_ext_in. intros i Hi. apply in_seq in Hi. apply com1_value; [exact Hd|lia].
Qed.

(* ---------- the Groth16 equation ---------- *)
Lemma sum_dot (f g : nat -> F) : sum_n (fun j => f j *f g (S j)) = fdot (map f (seq 0 n)) (map g (seq 1 n)).
Proof.
  rewrite (fdot_nth_sum _ (map g (seq 1 n)) n) by (rewrite map_length, seq_length; reflexivity). unfold SoundAlg.sum_n. f_equal. apply map_ext_in. intros j Hj. apply in_seq in Hj.
  rewrite <- (seq_shift n 0), map_map, !(map_seq_nth _ n j fzero) by lia. reflexivity.
Qed.
Lemma tpart_zero c al be ga de ta : fdot c (tpart n cs xs al be ga de ta zz zz) = fzero.
Proof. rewrite tpart_lin. unfold zz at 2. apply fdot_map_zero. Qed.
Lemma shape_sv c ta : exists k0 ka kb kd kg U1 V1 W1 w2 V2 W2, forall al be ga de r a b,
  sv c al be ga de ta zz zz r a b =
  m1_shape al be ga de r a b k0 ka kb kd kg U1 V1 W1 (fdot w2 (colsA cs xs ta ni nw)) V2 W2 (h0 c) (ha c) (hd' c)
    (colA cs xs ta 0 +f fdot (map m (seq 0 n)) (colsA cs xs ta 1 n)) (colB cs xs ta 0 +f fdot (map m (seq 0 n)) (colsB cs xs ta 1 n)) (colC cs xs ta 0 +f fdot (map m (seq 0 n)) (colsC cs xs ta 1 n)).
Proof.
  pose proof (fun al be ga de => shape_g1 n cs xs c al be ga de ta) as H. cbv beta in H.
  match type of H with forall al be ga de, _ = g1_shape al be ga de ?k0 ?ka ?kb ?kd ?kg ?U1 ?V1 ?W1 (fdot ?w2 _) ?V2 ?W2 =>
    exists k0, ka, kb, kd, kg, (U1 +f fdot (map (fun j => h1 c j *f m j) (seq 0 n)) (colsA cs xs ta 1 n)),
      (V1 +f fdot (map (fun j => h1 c j *f m j) (seq 0 n)) (colsB cs xs ta 1 n)), (W1 +f fdot (map (fun j => h1 c j *f m j) (seq 0 n)) (colsC cs xs ta 1 n)), w2, V2, W2 end.
  intros al be ga de r a b. unfold sv. rewrite tpart_zero. change (SoundAlg.g1b n cs xs al be ga de ta zz zz) with (SoundAlg.g1b n cs xs al be ga de ta (fun _ => fzero) (fun _ => fzero)).
  rewrite (H al be ga de). unfold hpart. 
  rewrite (sum_ext n cs (fun j => h1 c j *f (ga *f de *f (r *f (de *f zz j)) +f m j *f (de *f qq al be ta (S j)))) (fun j => de *f ((h1 c j *f m j) *f qq al be ta (S j)))) by (intros; unfold zz; ring).
  rewrite sum_mul, (sum_dot (fun j => h1 c j *f m j) (qq al be ta)), (sum_dot m (qq al be ta)), !fdot_qq.
  rewrite (sum_zero n cs zz) by reflexivity. unfold m1_shape, g1_shape, SoundAlg.qq, ni, nw. ring.
Qed.

Hypothesis Hqap : forall al be ga de ta rh s t v r a b, de <> fzero -> eq_qap1 S0 al be ga de ta rh s t v r a b = fzero.
Let cA := sg_a S0.
Let cC := sg_c S0.
Definition hb (c : list F) := nth P2 c fzero.
Lemma qap1 al be ga de ta rh s t v r a b : de <> fzero ->
  sv cA al be ga de ta s t r a b *f (fdot (sg_b S0) (g2b be ga de ta rh s t v) +f hb (sg_b S0) *f b)
  -f al *f be *f ga *f de -f ga *f (fsum (lin (eff r psi) al be ga de ta s) +f de *f qq al be ta 0) -f de *f sv cC al be ga de ta s t r a b = fzero.
Proof.
  intros Hd. apply (cancel_l de); [exact Hd|]. pose proof (Hqap al be ga de ta rh s t v r a b Hd) as H. unfold eq_qap1 in H. fold cA cC cvec in H.
  rewrite (map_ext _ _ (fun c => sv_eq c al be ga de ta s t r a b)), fsum_map_mul, cvec1_sum in H by exact Hd. rewrite !sv_eq in H.
  unfold PrivacyAlg.seen2 in H. rewrite fdot_app_r, g2b_length, fdot_single in H. fold (hb (sg_b S0)) in H. etransitivity; [|exact H]. ring.
Qed.
Lemma qap1_core ta : hx psi = fzero \/ (hx psi = fone /\ hb (sg_b S0) <> fzero /\ ha cA <> fzero /\ hd' cA = fzero /\
  exists w2, fdot (map (fun j => nth j psi fzero) (seq 0 n)) (colsA cs xs ta 1 n) +f fdot w2 (colsA cs xs ta ni nw) = fzero).
Proof.
  destruct (shape_sv cA ta) as (a0 & aa & ab & ad & ag & U1 & V1 & W1 & w2 & V2 & W2 & HA).
  destruct (shape_sv cC ta) as (c0 & ca & cb & cd & cg & U1' & V1' & W1' & w2' & V2' & W2' & HC).
  set (QU := colA cs xs ta 0 +f fdot (map m (seq 0 n)) (colsA cs xs ta 1 n)) in *.
  set (QV := colB cs xs ta 0 +f fdot (map m (seq 0 n)) (colsB cs xs ta 1 n)) in *.
  set (QW := colC cs xs ta 0 +f fdot (map m (seq 0 n)) (colsC cs xs ta 1 n)) in *.
  set (ys := map (fun j => nth j psi fzero +f hx psi *f m j) (seq 0 n)).
  set (ZU := colA cs xs ta 0 +f fdot ys (colsA cs xs ta 1 n)). set (ZV := colB cs xs ta 0 +f fdot ys (colsB cs xs ta 1 n)). set (ZW := colC cs xs ta 0 +f fdot ys (colsC cs xs ta 1 n)).
  set (bl := sg_b S0) in *.
  pose proof (@nonmal_core K big a0 aa ab ad ag U1 V1 W1 (fdot w2 (colsA cs xs ta ni nw)) V2 W2 (h0 cA) (ha cA) (hd' cA) QU QV QW
    (nth 0 bl fzero +f fdot (skipn 4 bl) (colsB cs xs ta 0 M)) (nth 1 bl fzero) (nth 2 bl fzero) (nth 3 bl fzero) (hb bl) (nth n psi fzero) (hx psi) ZU ZV ZW
    c0 ca cb cd cg U1' V1' W1' (fdot w2' (colsA cs xs ta ni nw)) V2' W2' (h0 cC) (ha cC) (hd' cC)) as Q.
  destruct Q as [Q|(Q1 & Q2 & Q3 & Q4 & Q5)].
  - intros al be ga de r a b Hd. pose proof (qap1 al be ga de ta fzero zz zz zz r a b Hd) as H. rewrite HA, HC in H. fold bl in H.
    pose proof (shape_g2 n cs xs S0 be ga de ta) as H2. fold bl zz M in H2. 
    change (SoundAlg.g2b n cs xs be ga de ta fzero (fun _ => fzero) (fun _ => fzero) (fun _ => fzero)) with (SoundAlg.g2b n cs xs be ga de ta fzero zz zz zz) in H2.
    rewrite H2 in H.
    assert (L : fsum (lin (eff r psi) al be ga de ta zz) = (nth n psi fzero +f hx psi *f r) *f (ga *f de *f de) +f de *f fdot ys (map (qq al be ta) (seq 1 n))).
    { unfold SoundAlg.lin. rewrite fsum_cons, eff_last. f_equal.
      rewrite (map_ext_in _ (fun j => de *f ((nth j psi fzero +f hx psi *f m j) *f qq al be ta (S j)))).
      2:{ intros j Hj. apply in_seq in Hj. rewrite eff_nth by lia. unfold zz. ring. }
      rewrite fsum_map_mul. f_equal. exact (sum_dot (fun j => nth j psi fzero +f hx psi *f m j) (qq al be ta)). }
    rewrite L, fdot_qq in H. fold QU QV QW in H. etransitivity; [|exact H]. unfold ZU, ZV, ZW, SoundAlg.qq, M, ni, nw. ring.
  - left. exact Q.
  - right. split; [exact Q1|]. split; [exact Q2|]. split; [exact Q3|]. split; [exact Q4|]. exists w2'. etransitivity; [|exact Q5]. unfold ZU, QU.
    assert (Y : fdot ys (colsA cs xs ta 1 n) = fdot (map (fun j => nth j psi fzero) (seq 0 n)) (colsA cs xs ta 1 n) +f fdot (map m (seq 0 n)) (colsA cs xs ta 1 n)).
    { unfold ys. rewrite Q1. rewrite !(fdot_comm (map _ _)), <- fdot_map_add. f_equal. apply map_ext. intros; ring. }
    rewrite Y. ring.
Qed.
Theorem nonmal_alg : hx psi = fzero \/ (hx psi = fone /\ ha cA <> fzero /\ (forall j, (j < n)%nat -> nth j psi fzero = fzero) /\
  forall al be ga de ta s t r a b, de <> fzero -> fdot cA (seen1 al be ga de ta s t r a b) = ha cA *f (de *f (ga *f de *f a))).
Proof.
  destruct (qap1_core fzero) as [Q|(Q1 & Q2 & Q3 & Q4 & _)]; [left; exact Q|right]. split; [exact Q1|]. split; [exact Q3|]. split.
  - intros k Hk. destruct (qap1_core (nth (nc + S k) xs fzero)) as [Q|(_ & _ & _ & _ & w2 & Q)]; [exfalso; apply (@fneq01 K); rewrite <- Q1; exact Q|].
    assert (Z2 : fdot w2 (colsA cs xs (nth (nc + S k) xs fzero) ni nw) = fzero).
    { unfold colsA. rewrite (map_ext_in _ (fun _ => fzero)); [apply fdot_map_zero|]. intros j Hj. apply in_seq in Hj. apply colA_witness; lia. }
    rewrite Z2 in Q. unfold colsA in Q. rewrite <- (sum_dot (fun j => nth j psi fzero)) in Q. rewrite (sum_ext n cs _ (fun j => nth j psi fzero *f (if Nat.eqb j k then fone else fzero))) in Q.
    2:{ intros j Hj. rewrite colA_point by lia. cbn [Nat.eqb]. reflexivity. }
    pose proof (fsum_delta (fun j => nth j psi fzero) n 0 k Hk) as D. cbn [Nat.add] in D. unfold SoundAlg.sum_n in Q. rewrite D in Q. etransitivity; [|exact Q]. ring.
  - intros al be ga de ta s t r a b Hd. rewrite sv_eq.
    assert (Z : forall a b, sv cA al be ga de ta s t r a b = sv cA al be ga de ta s t r fzero fzero +f ha cA *f (ga *f de *f a)).
    { intros a' b'. unfold sv, hpart. rewrite Q4. ring. }
    assert (Z0 : sv cA al be ga de ta s t r fzero fzero = fzero).
    { apply (cancel_l (hb (sg_b S0))); [exact Q2|]. pose proof (qap1 al be ga de ta fzero s t zz r fzero fone Hd) as X1. pose proof (qap1 al be ga de ta fzero s t zz r fzero fzero Hd) as X0.
      rewrite (Z fzero fone) in X1. assert (C : sv cC al be ga de ta s t r fzero fone = sv cC al be ga de ta s t r fzero fzero) by (unfold sv, hpart; ring). rewrite C in X1.
      match type of X1 with ?u = _ => match type of X0 with ?v = _ => transitivity (u -f v); [ring|] end end. rewrite X1, X0. ring. }
    rewrite (Z a b), Z0. ring.
Qed.
End NAlg.
