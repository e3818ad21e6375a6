(* SchwartzZippel.v -- counting zeros of polynomial functions over a prime field (used for C59-C60).
   A function of k field elements is polynomial of degree at most d i in its i-th argument (`pfun k d f`) when fixing all the other
   arguments leaves a polynomial with at most d i + 1 coefficients. *)
From Coq Require Import Znumtheory.
From Verif Require Import Base BaseFacts Algebra VecFacts ArkGroth16 PolyFacts.

Section SZ.
Context {K : prime_field}.
Add Ring Kr : (@scalar_ring_theory K).
Notation F := (scalar K).

(* ---------- roots of univariate polynomials ---------- *)
Lemma roots_bound (rs : list F) : forall p : @poly K, NoDup rs -> (forall r, In r rs -> peval p r = fzero) ->
  (length p <= length rs)%nat -> forall t, peval p t = fzero.
Proof.
  induction rs as [|r rs IH]; intros p Hnd Hz Hl t.
  { destruct p; [reflexivity|cbn in Hl; lia]. }
  apply NoDup_cons_iff in Hnd. destruct Hnd as [Hr Hnd].
  pose proof (div_lin_spec r p) as D. rewrite (div_lin_rem r p), (Hz r (or_introl eq_refl)) in D.
  rewrite D. rewrite (IH (fst (div_lin r p))); [ring|exact Hnd| |rewrite div_lin_length; cbn [length] in Hl; lia].
  intros y Hy. pose proof (Hz y (or_intror Hy)) as Y. rewrite D in Y.
  assert (Y' : fmul (fsub y r) (peval (fst (div_lin r p)) y) = fzero) by (rewrite <- Y; ring).
  apply fmul_integral in Y'. destruct Y' as [Y'|Y']; [|exact Y']. apply fsub_zero_eq in Y'. subst. contradiction.
Qed.
(* with at least as many roots as coefficients every coefficient is zero *)
Lemma coeffs_zero (rs : list F) : forall p : @poly K, NoDup rs -> (forall r, In r rs -> peval p r = fzero) ->
  (length p <= length rs)%nat -> Forall (fun c => c = fzero) p.
Proof.
  (* divide out the roots one after the other *)
  assert (DL : forall (r : F) (p : @poly K), peval p r = fzero -> Forall (fun c => c = fzero) (fst (div_lin r p)) -> Forall (fun c => c = fzero) p).
  { intros r p. induction p as [|c p IH]; intros Hz Hq; [constructor|]. destruct p as [|c' p].
    - cbn in Hz. constructor; [|constructor]. rewrite <- Hz. ring.
    - change (div_lin r (c :: c' :: p)) with (let (q, r0) := div_lin r (c' :: p) in (r0 :: q, fadd c (fmul r r0))) in Hq.
      rewrite peval_cons in Hz. pose proof (div_lin_rem r (c' :: p)) as R.
      destruct (div_lin r (c' :: p)) as [q0 r0].
      cbn [fst snd] in *. apply Forall_cons_iff in Hq. destruct Hq as [H0 Hq0]. rewrite H0 in R. rewrite <- R in Hz.
      assert (P : Forall (fun c => c = fzero) (c' :: p)) by (apply IH; [symmetry; exact R|exact Hq0]).
      constructor; [|exact P]. rewrite <- Hz. ring. }
  induction rs as [|r rs IH]; intros p Hnd Hz Hl.
  { destruct p; [constructor|cbn in Hl; lia]. }
  apply NoDup_cons_iff in Hnd. destruct Hnd as [Hr Hnd].
  apply (DL r); [apply Hz; left; reflexivity|]. apply IH; [exact Hnd| |rewrite div_lin_length; cbn [length] in Hl; lia].
  pose proof (div_lin_spec r p) as D. rewrite (div_lin_rem r p), (Hz r (or_introl eq_refl)) in D.
  intros y Hy. pose proof (Hz y (or_intror Hy)) as Y. rewrite D in Y.
  assert (Y' : fmul (fsub y r) (peval (fst (div_lin r p)) y) = fzero) by (rewrite <- Y; ring).
  apply fmul_integral in Y'. destruct Y' as [Y'|Y']; [|exact Y']. apply fsub_zero_eq in Y'. subst. contradiction.
Qed.

Lemma nodup_map_in {A B} (f : A -> B) (l : list A) : (forall a b, In a l -> In b l -> f a = f b -> a = b) -> NoDup l -> NoDup (map f l).
Proof.
  intros Hi H. induction H as [|a l Ha Hl IH]; cbn [map]; constructor.
  - intros Hin. apply in_map_iff in Hin. destruct Hin as (b & E & Hb). apply Ha. rewrite (Hi a b) ; [exact Hb|left; reflexivity|right; exact Hb|symmetry; exact E].
  - apply IH. intros x y Hx Hy. apply Hi; right; assumption.
Qed.

(* ---------- the field has p elements ---------- *)
Definition all_scalars : list F := map (fun i => of_Z (Z.of_nat i)) (seq 0 (Z.to_nat (modulus K))).
Lemma all_scalars_length : Z.of_nat (length all_scalars) = modulus K.
Proof. unfold all_scalars. rewrite map_length, seq_length. pose proof (@modulus_gt1 K). lia. Qed.
Lemma all_scalars_in x : In x all_scalars.
Proof.
  unfold all_scalars. apply in_map_iff. exists (Z.to_nat (sval x)). pose proof (sval_range x) as R. split.
  - rewrite Z2Nat.id by lia. apply of_Z_sval.
  - apply in_seq. lia.
Qed.
Lemma all_scalars_nodup : NoDup all_scalars.
Proof.
  unfold all_scalars. apply nodup_map_in; [|apply seq_NoDup].
  intros i j Hi Hj H. apply in_seq in Hi, Hj. apply (f_equal sval) in H. rewrite !of_Z_small in H by lia. lia.
Qed.
Lemma scalars_bound (l : list F) : NoDup l -> Z.of_nat (length l) <= modulus K.
Proof.
  intros H. rewrite <- all_scalars_length. apply inj_le. apply NoDup_incl_length; [exact H|]. intros x _. apply all_scalars_in.
Qed.
(* all scalars that are not in a given list *)
Definition scalars_outside (xs : list F) : list F := filter (fun x => negb (feqb (vanishing_at xs x) fzero)) all_scalars.
Lemma scalars_outside_in xs x : In x (scalars_outside xs) <-> ~ In x xs.
Proof.
  unfold scalars_outside. rewrite filter_In, <- (vanishing_zero xs x). rewrite Bool.negb_true_iff. split.
  - intros [_ H] Hz. apply feqb_spec in Hz. congruence.
  - intros H. split; [apply all_scalars_in|]. destruct (feqb (vanishing_at xs x) fzero) eqn:E; [|reflexivity].
    apply feqb_spec in E. contradiction.
Qed.
Lemma scalars_outside_nodup xs : NoDup (scalars_outside xs).
Proof. apply NoDup_filter, all_scalars_nodup. Qed.
Lemma scalars_outside_length xs : modulus K - Z.of_nat (length xs) <= Z.of_nat (length (scalars_outside xs)).
Proof.
  assert (H : (length all_scalars <= length (scalars_outside xs ++ xs))%nat).
  { apply NoDup_incl_length; [apply all_scalars_nodup|]. intros x _. apply in_or_app.
    destruct (in_dec feq_dec x xs) as [Hx|Hx]; [right; exact Hx|left; apply scalars_outside_in; exact Hx]. }
  rewrite app_length in H. pose proof all_scalars_length. lia.
Qed.

(* ---------- splitting a list of tuples by its first components ---------- *)
Definition heads (L : list (list F)) : list F := nodup feq_dec (map (hd fzero) L).
Definition tails_at (x : F) (L : list (list F)) : list (list F) := map (@tl F) (filter (fun l => feqb (hd fzero l) x) L).
Lemma filter_split {A} (f : A -> bool) (l : list A) : (length l = length (filter f l) + length (filter (fun x => negb (f x)) l))%nat.
Proof. induction l as [|a l IH]; [reflexivity|]. cbn [filter]. destruct (f a); cbn [negb length]; lia. Qed.
Lemma filter_filter_length {A} (f g : A -> bool) (l : list A) : (forall x, In x l -> f x = true -> g x = true) ->
  length (filter f (filter g l)) = length (filter f l).
Proof.
  induction l as [|a l IH]; intros H; [reflexivity|]. cbn [filter]. pose proof (H a (or_introl eq_refl)) as Ha.
  assert (IH' := IH (fun x Hx => H x (or_intror Hx))). destruct (g a) eqn:G; cbn [filter]; destruct (f a) eqn:Fa; cbn [length]; try lia.
Qed.
Fixpoint zsum (l : list Z) : Z := match l with [] => 0 | a :: l' => a + zsum l' end.
Lemma length_by_heads (hs : list F) : NoDup hs -> forall L, (forall l, In l L -> In (hd fzero l) hs) ->
  Z.of_nat (length L) = zsum (map (fun x => Z.of_nat (length (tails_at x L))) hs).
Proof.
  induction hs as [|h hs IH]; intros Hnd L Hin.
  { destruct L as [|l L]; [reflexivity|]. destruct (Hin l (or_introl eq_refl)). }
  apply NoDup_cons_iff in Hnd. destruct Hnd as [Hh Hnd]. cbn [map zsum].
  set (L2 := filter (fun l => negb (feqb (hd fzero l) h)) L).
  assert (S2 : (length L = length (tails_at h L) + length L2)%nat) by (unfold tails_at; rewrite map_length; apply filter_split).
  assert (I2 : forall l, In l L2 -> In (hd fzero l) hs).
  { intros l Hl. unfold L2 in Hl. apply filter_In in Hl. destruct Hl as [Hl Hn]. destruct (Hin l Hl) as [E|E]; [|exact E].
    apply Bool.negb_true_iff in Hn. rewrite <- E in Hn. assert (T : feqb h h = true) by (apply feqb_spec; reflexivity).
    exfalso. rewrite E in Hn. assert (feqb (hd fzero l) (hd fzero l) = true) by (apply feqb_spec; reflexivity). congruence. }
  pose proof (IH Hnd L2 I2) as E. rewrite S2, Nat2Z.inj_add, E. f_equal. f_equal. apply map_ext_in. intros x Hx. f_equal.
  unfold tails_at. rewrite !map_length. unfold L2. apply filter_filter_length. intros l _ Hl. apply feqb_spec in Hl. apply Bool.negb_true_iff.
  destruct (feqb (hd fzero l) h) eqn:E2; [|reflexivity]. apply feqb_spec in E2. subst x. rewrite E2 in Hx. contradiction.
Qed.
Lemma heads_in L l : In l L -> In (hd fzero l) (heads L).
Proof. intros H. unfold heads. apply nodup_In. apply in_map. exact H. Qed.
Lemma heads_nodup L : NoDup (heads L).
Proof. apply NoDup_nodup. Qed.
Lemma tails_nodup k x L : NoDup L -> (forall l, In l L -> length l = S k) -> NoDup (tails_at x L).
Proof.
  intros Hnd Hl. unfold tails_at. apply nodup_map_in; [|apply NoDup_filter; exact Hnd].
  intros a b Ha Hb E. apply filter_In in Ha, Hb. destruct Ha as [Ha Xa], Hb as [Hb Xb]. apply feqb_spec in Xa, Xb.
  pose proof (Hl a Ha). pose proof (Hl b Hb). destruct a as [|a0 a]; [discriminate|]. destruct b as [|b0 b]; [discriminate|]. cbn in *. congruence.
Qed.
Lemma tails_in k x L l' : (forall l, In l L -> length l = S k) -> In l' (tails_at x L) -> In (x :: l') L /\ length l' = k.
Proof.
  intros Hl H. unfold tails_at in H. apply in_map_iff in H. destruct H as (l & <- & H). apply filter_In in H. destruct H as [H X].
  apply feqb_spec in X. pose proof (Hl l H). destruct l as [|a l]; [discriminate|]. cbn in *. subst. split; [exact H|lia].
Qed.

Lemma zsum_bound {A} (f : A -> Z) (l : list A) (B : Z) : (forall x, In x l -> f x <= B) -> zsum (map f l) <= Z.of_nat (length l) * B.
Proof.
  induction l as [|a l IH]; intros H; [cbn; lia|]. cbn [map zsum length]. rewrite Nat2Z.inj_succ, Z.mul_succ_l.
  pose proof (H a (or_introl eq_refl)). assert (IH' := IH (fun x Hx => H x (or_intror Hx))). lia.
Qed.
Lemma zsum_filter {A} (f : A -> Z) (g : A -> bool) (l : list A) :
  zsum (map f l) = zsum (map f (filter g l)) + zsum (map f (filter (fun x => negb (g x)) l)).
Proof. induction l as [|a l IH]; [reflexivity|]. cbn [map filter zsum]. destruct (g a); cbn [negb map zsum]; lia. Qed.

(* there are p^k tuples of length k *)
Lemma tuples_bound k : forall L : list (list F), NoDup L -> (forall l, In l L -> length l = k) -> Z.of_nat (length L) <= modulus K ^ Z.of_nat k.
Proof.
  pose proof (@modulus_gt1 K) as Hp. induction k as [|k IH]; intros L Hnd Hl.
  - rewrite Z.pow_0_r. destruct L as [|a [|b L]]; cbn [length]; try lia. exfalso.
    pose proof (Hl a (or_introl eq_refl)). pose proof (Hl b (or_intror (or_introl eq_refl))). destruct a, b; try discriminate.
    apply NoDup_cons_iff in Hnd. destruct Hnd as [Hx _]. apply Hx. left; reflexivity.
  - rewrite (length_by_heads (heads L) (heads_nodup L) L (heads_in L)).
    eapply Z.le_trans; [apply (zsum_bound _ _ (modulus K ^ Z.of_nat k))|].
    + intros x _. apply IH; [apply (tails_nodup k); assumption|]. intros l' Hl'. apply (tails_in k x L l' Hl Hl').
    + rewrite Nat2Z.inj_succ, Z.pow_succ_r by lia. apply Z.mul_le_mono_nonneg_r; [apply Z.pow_nonneg; lia|apply scalars_bound, heads_nodup].
Qed.

(* ---------- polynomial functions ---------- *)
(* replace the i-th component *)
Definition upd (l : list F) (i : nat) (x : F) : list F := firstn i l ++ x :: skipn (S i) l.
Definition pfun (k : nat) (d : nat -> nat) (f : list F -> F) : Prop :=
  forall i env, (i < k)%nat -> length env = k -> exists c : @poly K, (length c <= S (d i))%nat /\ forall x, f (upd env i x) = peval c x.

Lemma upd_length l i x : (i < length l)%nat -> length (upd l i x) = length l.
Proof. intros H. unfold upd. rewrite app_length, firstn_length. cbn [length]. rewrite skipn_length. lia. Qed.
Lemma upd_nth_same l i x : (i < length l)%nat -> nth i (upd l i x) fzero = x.
Proof. intros H. unfold upd. rewrite app_nth2; rewrite firstn_length; [|lia]. replace (i - Nat.min i (length l))%nat with 0%nat by lia. reflexivity. Qed.
Lemma upd_nth_other l i j x : (i < length l)%nat -> i <> j -> nth j (upd l i x) fzero = nth j l fzero.
Proof.
  revert i j; induction l as [|a l IH]; intros i j H N; [cbn in H; lia|]. destruct i as [|i].
  - destruct j as [|j]; [lia|]. reflexivity.
  - destruct j as [|j]; [reflexivity|]. cbn in H. change (upd (a :: l) (S i) x) with (a :: upd l i x). cbn [nth]. apply IH; lia.
Qed.
Lemma upd_cons a l i x : upd (a :: l) (S i) x = a :: upd l i x.
Proof. reflexivity. Qed.

Lemma pfun_weaken k d d' f : (forall i, (i < k)%nat -> (d i <= d' i)%nat) -> pfun k d f -> pfun k d' f.
Proof. intros H Hf i env Hi Hl. destruct (Hf i env Hi Hl) as (c & Hc & He). exists c. split; [specialize (H i Hi); lia|exact He]. Qed.
Lemma pfun_ext k d f g : (forall env, length env = k -> f env = g env) -> pfun k d f -> pfun k d g.
Proof.
  intros H Hf i env Hi Hl. destruct (Hf i env Hi Hl) as (c & Hc & He). exists c. split; [exact Hc|]. intros x. rewrite <- He. symmetry. apply H.
  rewrite upd_length; lia.
Qed.
Lemma pfun_const k d (c : F) : pfun k d (fun _ => c).
Proof. intros i env _ _. exists [c]. split; [cbn; lia|]. intros x. cbn. ring. Qed.
Lemma pfun_peval k d j (p : @poly K) : (length p <= S (d j))%nat -> pfun k d (fun env => peval p (nth j env fzero)).
Proof.
  intros Hp i env Hi Hl. destruct (Nat.eq_dec i j) as [->|N].
  - exists p. split; [exact Hp|]. intros x. rewrite upd_nth_same by lia. reflexivity.
  - exists [peval p (nth j env fzero)]. split; [cbn; lia|]. intros x. rewrite upd_nth_other by lia. cbn. ring.
Qed.
Lemma pfun_add k d f g : pfun k d f -> pfun k d g -> pfun k d (fun env => fadd (f env) (g env)).
Proof.
  intros Hf Hg i env Hi Hl. destruct (Hf i env Hi Hl) as (c & Lc & Ec). destruct (Hg i env Hi Hl) as (e & Le & Ee).
  exists (padd c e). split; [rewrite padd_length; lia|]. intros x. rewrite peval_padd, Ec, Ee. reflexivity.
Qed.
Lemma pfun_mul k d d1 d2 f g : (forall i, (i < k)%nat -> (d1 i + d2 i <= d i)%nat) -> pfun k d1 f -> pfun k d2 g -> pfun k d (fun env => fmul (f env) (g env)).
Proof.
  intros Hd Hf Hg i env Hi Hl. destruct (Hf i env Hi Hl) as (c & Lc & Ec). destruct (Hg i env Hi Hl) as (e & Le & Ee). specialize (Hd i Hi).
  exists (if (length e =? 0)%nat then [] else pmul c e). split.
  - destruct (Nat.eqb_spec (length e) 0) as [_|N]; [cbn; lia|]. destruct (pmul_length c e) as [H|H]; [lia|subst; cbn in N; lia].
  - intros x. rewrite Ec, Ee. destruct (Nat.eqb_spec (length e) 0) as [H|_]; [|rewrite peval_pmul; reflexivity].
    destruct e; [|cbn in H; lia]. cbn. ring.
Qed.
Lemma pfun_scale k d (c : F) f : pfun k d f -> pfun k d (fun env => fmul c (f env)).
Proof. intros Hf. apply (pfun_mul k d (fun _ => 0%nat) d); [intros; lia|apply pfun_const|exact Hf]. Qed.
Lemma pfun_sub k d f g : pfun k d f -> pfun k d g -> pfun k d (fun env => fsub (f env) (g env)).
Proof.
  intros Hf Hg. apply (pfun_ext k d (fun env => fadd (f env) (fmul (fneg fone) (g env)))); [intros; ring|].
  apply pfun_add; [exact Hf|]. apply pfun_scale. exact Hg.
Qed.
Lemma pfun_neg k d f : pfun k d f -> pfun k d (fun env => fneg (f env)).
Proof. intros Hf. apply (pfun_ext k d (fun env => fmul (fneg fone) (f env))); [intros; ring|]. apply pfun_scale. exact Hf. Qed.
Lemma pfun_fsum {A} k d (f : A -> list F -> F) (l : list A) : (forall a, In a l -> pfun k d (f a)) -> pfun k d (fun env => fsum (map (fun a => f a env) l)).
Proof.
  induction l as [|a l IH]; intros H; [exact (pfun_const k d fzero)|]. cbn [map].
  apply (pfun_ext k d (fun env => fadd (f a env) (fsum (map (fun a => f a env) l)))); [intros; symmetry; apply fsum_cons|].
  apply pfun_add; [apply H; left; reflexivity|apply IH; intros b Hb; apply H; right; exact Hb].
Qed.

(* ---------- the bound ---------- *)
Fixpoint deg_sum (k : nat) (d : nat -> nat) : Z := match k with O => 0 | S k' => Z.of_nat (d 0%nat) + deg_sum k' (fun i => d (S i)) end.
Lemma deg_sum_nonneg k : forall d, 0 <= deg_sum k d.
Proof. induction k as [|k IH]; intros d; cbn [deg_sum]; [lia|]. specialize (IH (fun i => d (S i))). lia. Qed.

Theorem zeros_bound k : forall d f (a : list F) L, pfun k d f -> length a = k -> f a <> fzero ->
  NoDup L -> (forall l, In l L -> length l = k /\ f l = fzero) ->
  Z.of_nat (length L) * modulus K <= deg_sum k d * modulus K ^ Z.of_nat k.
Proof.
  pose proof (@modulus_gt1 K) as Hp. induction k as [|k IH]; intros d f a L Hf Ha Hne Hnd HL.
  - destruct L as [|l L]; [cbn; lia|]. exfalso. destruct (HL l (or_introl eq_refl)) as [H1 H2]. destruct a, l; try discriminate. contradiction.
  - destruct a as [|a0 a]; [discriminate|]. cbn [length] in Ha. injection Ha as Ha.
    destruct (Hf 0%nat (a0 :: a) ltac:(lia) ltac:(cbn; lia)) as (c & Lc & Ec).
    assert (Ec' : forall x, f (x :: a) = peval c x) by (intros x; rewrite <- Ec; reflexivity).
    set (bad := fun x => feqb (f (x :: a)) fzero).
    assert (HLl : forall l, In l L -> length l = S k) by (intros l Hl; apply HL; exact Hl).
    set (hs := heads L). set (tl_count := fun x => Z.of_nat (length (tails_at x L))).
    assert (Hcnt : Z.of_nat (length L) = zsum (map tl_count (filter bad hs)) + zsum (map tl_count (filter (fun x => negb (bad x)) hs))).
    { rewrite (length_by_heads hs (heads_nodup L) L (heads_in L)). apply zsum_filter. }
    assert (Hbad : Z.of_nat (length (filter bad hs)) <= Z.of_nat (d 0%nat)).
    { destruct (le_lt_dec (length c) (length (filter bad hs))) as [Hle|Hlt]; [|lia]. exfalso. apply Hne. rewrite Ec'.
      apply (roots_bound (filter bad hs)); [apply NoDup_filter, heads_nodup| |exact Hle].
      intros r Hr. apply filter_In in Hr. destruct Hr as [_ Hr]. apply feqb_spec in Hr. rewrite <- Ec'. exact Hr. }
    assert (B1 : zsum (map tl_count (filter bad hs)) <= Z.of_nat (d 0%nat) * modulus K ^ Z.of_nat k).
    { eapply Z.le_trans; [apply (zsum_bound _ _ (modulus K ^ Z.of_nat k))|].
      - intros x _. apply tuples_bound; [apply (tails_nodup k); assumption|]. intros l' Hl'. apply (tails_in k x L l' HLl Hl').
      - apply Z.mul_le_mono_nonneg_r; [apply Z.pow_nonneg; lia|exact Hbad]. }
    assert (B2 : zsum (map tl_count (filter (fun x => negb (bad x)) hs)) <= deg_sum k (fun i => d (S i)) * modulus K ^ Z.of_nat k).
    { assert (Hlen : Z.of_nat (length (filter (fun x => negb (bad x)) hs)) <= modulus K) by (apply scalars_bound, NoDup_filter, heads_nodup).
      destruct k as [|k'].
      - cbn [deg_sum]. (* a single value, not a zero: no tail *)
        replace (0 * modulus K ^ Z.of_nat 0) with (Z.of_nat (length (filter (fun x => negb (bad x)) hs)) * 0) by lia. apply zsum_bound. intros x Hx. apply filter_In in Hx. destruct Hx as [_ Hx].
        unfold tl_count. destruct (tails_at x L) as [|l' T] eqn:ET; [cbn; lia|]. exfalso.
        destruct (tails_in 0 x L l' HLl) as [Hin Hlen']; [rewrite ET; left; reflexivity|]. destruct l'; [|discriminate].
        destruct a; [|discriminate]. apply HL in Hin. destruct Hin as [_ Hz]. unfold bad in Hx. apply Bool.negb_true_iff in Hx.
        apply feqb_spec in Hz. congruence.
      - set (k := S k') in *. assert (Ek : Z.of_nat k = Z.succ (Z.of_nat k')) by (unfold k; lia). assert (HB : forall x, In x (filter (fun x => negb (bad x)) hs) -> tl_count x * modulus K <= deg_sum k (fun i => d (S i)) * modulus K ^ Z.of_nat k).
        { intros x Hx. apply filter_In in Hx. destruct Hx as [_ Hx]. unfold tl_count.
          apply (IH (fun i => d (S i)) (fun l => f (x :: l)) a).
          - intros i env Hi Hl. destruct (Hf (S i) (x :: env) ltac:(lia) ltac:(cbn; lia)) as (e & Le & Ee). exists e. split; [exact Le|].
            intros y. rewrite <- Ee, upd_cons. reflexivity.
          - exact Ha.
          - intros Hz. unfold bad in Hx. apply Bool.negb_true_iff in Hx. apply feqb_spec in Hz. congruence.
          - apply (tails_nodup k); assumption.
          - intros l' Hl'. destruct (tails_in k x L l' HLl Hl') as [Hin Hlen']. split; [exact Hlen'|]. apply HL. exact Hin. }
        assert (HB' : forall x, In x (filter (fun x => negb (bad x)) hs) -> tl_count x <= deg_sum k (fun i => d (S i)) * modulus K ^ Z.of_nat k').
        { intros x Hx. specialize (HB x Hx). rewrite Ek, Z.pow_succ_r in HB by lia.
          apply (Z.mul_le_mono_pos_r _ _ (modulus K)); [lia|]. lia. }
        eapply Z.le_trans; [apply (zsum_bound _ _ (deg_sum k (fun i => d (S i)) * modulus K ^ Z.of_nat k')); exact HB'|].
        pose proof (deg_sum_nonneg k (fun i => d (S i))). rewrite Ek, Z.pow_succ_r by lia.
        replace (deg_sum k (fun i => d (S i)) * (modulus K * modulus K ^ Z.of_nat k')) with (modulus K * (deg_sum k (fun i => d (S i)) * modulus K ^ Z.of_nat k')) by ring.
        apply Z.mul_le_mono_nonneg_r; [|exact Hlen]. apply Z.mul_nonneg_nonneg; [assumption|apply Z.pow_nonneg; lia]. }
    cbn [deg_sum]. rewrite Nat2Z.inj_succ, Z.pow_succ_r by lia.
    replace ((Z.of_nat (d 0%nat) + deg_sum k (fun i => d (S i))) * (modulus K * modulus K ^ Z.of_nat k))
      with ((Z.of_nat (d 0%nat) * modulus K ^ Z.of_nat k + deg_sum k (fun i => d (S i)) * modulus K ^ Z.of_nat k) * modulus K) by ring.
    apply Z.mul_le_mono_nonneg_r; [lia|]. lia.
Qed.
End SZ.
