(* BaseFacts.v -- lemmas about the outcome monad, indexing and machine integers *)
From Verif Require Import Base.

Lemma bind_Ok_inv {A B} (x : outcome A) (f : A -> outcome B) b :
  bind x f = Ok b -> exists a, x = Ok a /\ f a = Ok b.
Proof. destruct x; cbn; intros H; try discriminate. eauto. Qed.

Lemma idx_Ok_iff {A} (l : list A) i a : idx l i = Ok a <-> nth_error l i = Some a.
Proof. unfold idx; destruct (nth_error l i); split; intros H; congruence. Qed.

Lemma idx_lt {A} (l : list A) i : (i < length l)%nat -> exists a, idx l i = Ok a /\ nth_error l i = Some a.
Proof.
  intros H. unfold idx. destruct (nth_error l i) eqn:E; [eauto|].
  apply nth_error_None in E; lia.
Qed.

Lemma idx_ge {A} (l : list A) i : (length l <= i)%nat -> idx l i = Panic.
Proof. intros H. unfold idx. apply nth_error_None in H. rewrite H; reflexivity. Qed.

Lemma idx_nth_error {A} (l : list A) i a : nth_error l i = Some a -> idx l i = Ok a.
Proof. unfold idx; intros ->; reflexivity. Qed.

Lemma mapM_length {A B} (f : A -> outcome B) l bs : mapM f l = Ok bs -> length bs = length l.
Proof.
  revert bs; induction l as [|a l IH]; cbn; intros bs H.
  - injection H as <-; reflexivity.
  - destruct (f a); cbn in H; try discriminate.
    destruct (mapM f l); cbn in H; try discriminate.
    injection H as <-. cbn. f_equal. apply IH; reflexivity.
Qed.

Lemma mapM_Ok_iff {A B} (f : A -> outcome B) l bs :
  mapM f l = Ok bs <-> Forall2 (fun a b => f a = Ok b) l bs.
Proof.
  revert bs; induction l as [|a l IH]; cbn; intros bs; split; intros H.
  - injection H as <-; constructor.
  - inversion H; reflexivity.
  - destruct (f a) eqn:E; cbn in H; try discriminate.
    destruct (mapM f l) eqn:E'; cbn in H; try discriminate.
    injection H as <-. constructor; [exact E | apply IH; reflexivity].
  - inversion H as [|? b ? bs' Ha Hl]; subst. rewrite Ha; cbn.
    apply IH in Hl. rewrite Hl; reflexivity.
Qed.

Lemma mapM_ext {A B} (f g : A -> outcome B) l : (forall a, In a l -> f a = g a) -> mapM f l = mapM g l.
Proof.
  induction l as [|a l IH]; cbn; intros H; [reflexivity|].
  rewrite H by (left; reflexivity). rewrite IH by (intros; apply H; right; assumption). reflexivity.
Qed.

Lemma mapM_map_Ok {A B} (f : A -> B) l : mapM (fun a => Ok (f a)) l = Ok (map f l).
Proof. induction l as [|a l IH]; cbn; [reflexivity | rewrite IH; reflexivity]. Qed.

Lemma mapM_app {A B} (f : A -> outcome B) l1 l2 :
  mapM f (l1 ++ l2) = (x <- mapM f l1 ;; y <- mapM f l2 ;; Ok (x ++ y)).
Proof.
  induction l1 as [|a l1 IH]; cbn.
  - destruct (mapM f l2); reflexivity.
  - destruct (f a); cbn; [|reflexivity|reflexivity]. rewrite IH.
    destruct (mapM f l1); cbn; [|reflexivity|reflexivity].
    destruct (mapM f l2); reflexivity.
Qed.

(* loops indexed by 0..n *)
Lemma mapM_seq_intro {B} (f : nat -> outcome B) k n l :
  length l = n -> (forall i b, nth_error l i = Some b -> f (k + i)%nat = Ok b) ->
  mapM f (seq k n) = Ok l.
Proof.
  revert k l; induction n as [|n IH]; intros k l Hl H.
  - destruct l; [reflexivity | discriminate].
  - destruct l as [|b l]; [discriminate|]. cbn.
    rewrite <- (Nat.add_0_r k) at 1. rewrite (H 0%nat b) by reflexivity. cbn.
    rewrite (IH (S k) l); [reflexivity | cbn in Hl; lia |].
    intros i c Hi. replace (S k + i)%nat with (k + S i)%nat by lia. apply H; exact Hi.
Qed.

Lemma mapM_seq_elim {B} (f : nat -> outcome B) k n l :
  mapM f (seq k n) = Ok l ->
  length l = n /\ (forall i b, nth_error l i = Some b -> f (k + i)%nat = Ok b).
Proof.
  revert k l; induction n as [|n IH]; intros k l H; cbn in H.
  - injection H as <-. split; [reflexivity | intros [|i] b Hb; discriminate].
  - destruct (f k) eqn:E; cbn in H; try discriminate.
    destruct (mapM f (seq (S k) n)) eqn:E'; cbn in H; try discriminate.
    injection H as <-. apply IH in E'. destruct E' as [Hlen Hi]. split; [cbn; lia|].
    intros [|i] b Hb; cbn in Hb.
    + injection Hb as <-. rewrite Nat.add_0_r; exact E.
    + replace (k + S i)%nat with (S k + i)%nat by lia. apply Hi; exact Hb.
Qed.

(* the first failing index decides *)
Lemma mapM_seq_panic {B} (f : nat -> outcome B) k n j :
  (j < n)%nat -> (forall i, (i < j)%nat -> exists b, f (k + i)%nat = Ok b) -> f (k + j)%nat = Panic ->
  mapM f (seq k n) = Panic.
Proof.
  revert k n; induction j as [|j IH]; intros k n Hj Hok Hp; destruct n as [|n]; try lia; cbn.
  - rewrite Nat.add_0_r in Hp. rewrite Hp; reflexivity.
  - destruct (Hok 0%nat) as [b Hb]; [lia|]. rewrite Nat.add_0_r in Hb. rewrite Hb; cbn.
    rewrite (IH (S k) n); [reflexivity | lia | | replace (S k + j)%nat with (k + S j)%nat by lia; exact Hp].
    intros i Hi. replace (S k + i)%nat with (k + S i)%nat by lia. apply Hok; lia.
Qed.

(* element-wise combination of two vectors by index *)
Definition zip_with {A B C} (f : A -> B -> C) (l1 : list A) (l2 : list B) : list C :=
  map (fun '(a, b) => f a b) (combine l1 l2).

Lemma zip_with_length {A B C} (f : A -> B -> C) l1 l2 :
  length (zip_with f l1 l2) = Nat.min (length l1) (length l2).
Proof. unfold zip_with; rewrite map_length, combine_length; reflexivity. Qed.

Lemma zip_with_nth_error {A B C} (f : A -> B -> C) l1 l2 i c :
  nth_error (zip_with f l1 l2) i = Some c <->
  exists a b, nth_error l1 i = Some a /\ nth_error l2 i = Some b /\ c = f a b.
Proof.
  revert l2 i; induction l1 as [|a l1 IH]; intros l2 i.
  - cbn. split; [destruct i; discriminate | intros (a & b & Ha & _); destruct i; discriminate].
  - destruct l2 as [|b l2].
    + cbn. split; [destruct i; discriminate | intros (x & y & _ & Hy & _); destruct i; discriminate].
    + destruct i as [|i].
      * cbn. split.
        -- intros H; injection H as <-. eauto.
        -- intros (x & y & Hx & Hy & ->). injection Hx as <-; injection Hy as <-; reflexivity.
      * cbn. apply IH.
Qed.

Lemma mapM_zip {A B C} (f : A -> B -> C) (l1 : list A) (l2 : list B) :
  mapM (fun i => a <- idx l1 i ;; b <- idx l2 i ;; Ok (f a b)) (seq 0 (length l1)) =
  if (length l1 <=? length l2)%nat then Ok (zip_with f l1 l2) else Panic.
Proof.
  destruct (Nat.leb_spec (length l1) (length l2)) as [Hle|Hlt].
  - apply mapM_seq_intro.
    + rewrite zip_with_length; lia.
    + intros i c Hc. apply zip_with_nth_error in Hc. destruct Hc as (a & b & Ha & Hb & ->).
      cbn [Nat.add]. rewrite (idx_nth_error _ _ _ Ha), (idx_nth_error _ _ _ Hb). reflexivity.
  - apply (mapM_seq_panic _ 0 (length l1) (length l2)); [exact Hlt | |].
    + intros i Hi. cbn [Nat.add]. destruct (idx_lt l1 i) as (a & Ha & _); [lia|].
      destruct (idx_lt l2 i) as (b & Hb & _); [lia|]. rewrite Ha, Hb; cbn; eauto.
    + cbn [Nat.add]. destruct (idx_lt l1 (length l2)) as (a & Ha & _); [lia|].
      rewrite Ha; cbn. rewrite idx_ge by lia. reflexivity.
Qed.

Lemma mapM_idx_id {A} (l : list A) : mapM (fun i => idx l i) (seq 0 (length l)) = Ok l.
Proof. apply mapM_seq_intro; [reflexivity|]. intros i b Hb. apply idx_nth_error; exact Hb. Qed.

Lemma mapM_idx_tail {A} (a : A) (l : list A) : mapM (fun i => idx (a :: l) i) (seq 1 (length l)) = Ok l.
Proof. apply mapM_seq_intro; [reflexivity|]. intros i b Hb. apply idx_nth_error; exact Hb. Qed.

Lemma foldM_app {A S} (f : S -> A -> outcome S) l1 l2 s :
  foldM f (l1 ++ l2) s = (s' <- foldM f l1 s ;; foldM f l2 s').
Proof.
  revert s; induction l1 as [|a l1 IH]; cbn; intros s; [reflexivity|].
  destruct (f s a); cbn; auto.
Qed.

Lemma as_u8_small z : 0 <= z < 256 -> as_u8 z = z.
Proof. intros H; unfold as_u8; apply Z.mod_small; exact H. Qed.
Lemma as_u16_small z : 0 <= z < 65536 -> as_u16 z = z.
Proof. intros H; unfold as_u16; apply Z.mod_small; exact H. Qed.

Lemma nth_error_seq k n i : (i < n)%nat -> nth_error (seq k n) i = Some (k + i)%nat.
Proof.
  revert k i; induction n as [|n IH]; intros k i Hi; [lia|].
  destruct i as [|i]; cbn; [f_equal; lia|]. rewrite IH by lia. f_equal; lia.
Qed.

Lemma nth_error_ext_eq {A} (l1 l2 : list A) :
  length l1 = length l2 -> (forall i a b, nth_error l1 i = Some a -> nth_error l2 i = Some b -> a = b) -> l1 = l2.
Proof.
  revert l2; induction l1 as [|a l1 IH]; intros [|b l2] Hl H; try discriminate; [reflexivity|].
  f_equal.
  - apply (H 0%nat); reflexivity.
  - apply IH; [cbn in Hl; lia|]. intros i x y Hx Hy. apply (H (S i)); assumption.
Qed.

(* loops that cannot panic *)
Lemma mapM_no_panic {A B} (f : A -> outcome B) l :
  (forall a, In a l -> f a <> Panic) -> mapM f l <> Panic.
Proof.
  induction l as [|a l IH]; cbn; intros H; [discriminate|].
  pose proof (H a (or_introl eq_refl)) as Ha.
  destruct (f a); cbn; [|discriminate|congruence].
  assert (Hl : mapM f l <> Panic) by (apply IH; intros; apply H; right; assumption).
  destruct (mapM f l); cbn; [discriminate|discriminate|congruence].
Qed.

Lemma mapM_Err_inv {A B} (f : A -> outcome B) l e : mapM f l = Err e -> exists a, In a l /\ f a = Err e.
Proof.
  induction l as [|a l IH]; cbn; intros H; [discriminate|].
  destruct (f a) as [b|e'|] eqn:Ea; cbn in H; [|injection H as <-; exists a; auto|discriminate].
  destruct (mapM f l) as [bs|e'|] eqn:El; cbn in H; [discriminate| |discriminate].
  injection H as <-. destruct IH as (a' & Hin & Ha'); [reflexivity|]. exists a'; auto.
Qed.

Lemma mapM_Err_intro {A B} (f : A -> outcome B) l e a :
  In a l -> f a = Err e -> (forall a', In a' l -> (exists b, f a' = Ok b) \/ f a' = Err e) -> mapM f l = Err e.
Proof.
  induction l as [|x l IH]; cbn; intros Hin Ha Hall; [contradiction|].
  destruct (Hall x (or_introl eq_refl)) as [[b Hb]|Hb]; rewrite Hb; cbn; [|reflexivity].
  destruct Hin as [->|Hin]; [congruence|].
  rewrite IH; auto.
Qed.

Lemma nth_error_nth_lt {A} (l : list A) i d : (i < length l)%nat -> nth_error l i = Some (nth i l d).
Proof. apply nth_error_nth'. Qed.

Lemma idx_nth {A} (l : list A) i d : (i < length l)%nat -> idx l i = Ok (nth i l d).
Proof. intros H. apply idx_nth_error, nth_error_nth'; exact H. Qed.
