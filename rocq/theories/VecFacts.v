(* VecFacts.v -- lemmas about vectors: sums, scale, fdot, dot, columns *)
From Coq Require Import Permutation.
From Verif Require Import Base BaseFacts Algebra Spec.

Section VecFacts.
Context {K : prime_field} {G : group K}.
Add Ring Kr : (@scalar_ring_theory K).

Lemma fsum_cons (a : scalar K) l : fsum (a :: l) = fadd a (fsum l).
Proof. reflexivity. Qed.
Lemma gsum_cons (a : G) l : gsum (a :: l) = a [+] gsum l.
Proof. reflexivity. Qed.
Lemma gsum_nil : gsum (@nil G) = gzero.
Proof. reflexivity. Qed.

Lemma gsum_perm (l1 l2 : list G) : Permutation l1 l2 -> gsum l1 = gsum l2.
Proof.
  induction 1 as [|a l1 l2 _ IH|a b l|]; rewrite ?gsum_cons; [reflexivity | now rewrite IH | | congruence].
  rewrite !gadd_assoc, (gadd_comm a b). reflexivity.
Qed.
Lemma fsum_perm (l1 l2 : list (scalar K)) : Permutation l1 l2 -> fsum l1 = fsum l2.
Proof. induction 1; rewrite ?fsum_cons; [reflexivity | now rewrite IHPermutation | ring | congruence]. Qed.

Lemma gsum_map_smul (l : list (scalar K)) (x : G) : gsum (map (fun a => a [*] x) l) = fsum l [*] x.
Proof.
  induction l as [|a l IH]; [symmetry; apply smul_0_l|].
  cbn [map]. rewrite gsum_cons, fsum_cons, IH, smul_fadd. reflexivity.
Qed.
Lemma gsum_smul (a : scalar K) (l : list G) : gsum (map (fun x => a [*] x) l) = a [*] gsum l.
Proof.
  induction l as [|x l IH]; [symmetry; apply smul_0_r|].
  cbn [map]. rewrite !gsum_cons, IH, smul_gadd. reflexivity.
Qed.
Lemma gsum_map_add {A} (f g : A -> G) l : gsum (map (fun x => f x [+] g x) l) = gsum (map f l) [+] gsum (map g l).
Proof.
  induction l as [|a l IH]; [symmetry; apply gadd_0_l|]. cbn [map]. rewrite !gsum_cons, IH. glin.
Qed.
Lemma fsum_map_add {A} (f g : A -> scalar K) l : fsum (map (fun x => fadd (f x) (g x)) l) = fadd (fsum (map f l)) (fsum (map g l)).
Proof. induction l as [|a l IH]; [cbn; ring|]. cbn [map]. rewrite !fsum_cons, IH. ring. Qed.
Lemma fsum_map_mul {A} (c : scalar K) (f : A -> scalar K) l : fsum (map (fun x => fmul c (f x)) l) = fmul c (fsum (map f l)).
Proof. induction l as [|a l IH]; [cbn; ring|]. cbn [map]. rewrite !fsum_cons, IH. ring. Qed.
Lemma fsum_map_zero {A} (l : list A) : fsum (map (fun _ => @fzero K) l) = fzero.
Proof. induction l as [|a l IH]; [reflexivity|]. cbn [map]. rewrite fsum_cons, IH. ring. Qed.
Lemma gsum_map_zero {A} (l : list A) : gsum (map (fun _ => @gzero K G) l) = gzero.
Proof. induction l as [|a l IH]; [reflexivity|]. cbn [map]. rewrite gsum_cons, IH. apply gadd_0_l. Qed.

(* exchange of summation *)
Lemma fsum_swap {A B} (f : A -> B -> scalar K) (la : list A) (lb : list B) :
  fsum (map (fun a => fsum (map (fun b => f a b) lb)) la) = fsum (map (fun b => fsum (map (fun a => f a b) la)) lb).
Proof.
  induction la as [|a la IH].
  - cbn [map]. rewrite fsum_map_zero. reflexivity.
  - cbn [map]. rewrite fsum_cons, IH, <- fsum_map_add. reflexivity.
Qed.
Lemma gsum_swap {A B} (f : A -> B -> G) (la : list A) (lb : list B) :
  gsum (map (fun a => gsum (map (fun b => f a b) lb)) la) = gsum (map (fun b => gsum (map (fun a => f a b) la)) lb).
Proof.
  induction la as [|a la IH].
  - cbn [map]. rewrite gsum_map_zero. reflexivity.
  - cbn [map]. rewrite gsum_cons, IH, <- gsum_map_add. reflexivity.
Qed.

Lemma fold_left_gadd (l : list G) (x : G) : fold_left gadd l x = x [+] gsum l.
Proof.
  revert x; induction l as [|a l IH]; intros x; cbn [fold_left].
  - symmetry; apply gadd_0_r.
  - rewrite IH, gsum_cons. symmetry; apply gadd_assoc.
Qed.

(* scale *)
Lemma scale_length (t : list (scalar K)) (g : list G) : length (scale t g) = Nat.min (length t) (length g).
Proof. revert g; induction t as [|x t IH]; intros [|y g]; cbn; [reflexivity..|]. now rewrite IH. Qed.
Lemma scale_nth_error (t : list (scalar K)) (g : list G) i x y :
  nth_error t i = Some x -> nth_error g i = Some y -> nth_error (scale t g) i = Some (x [*] y).
Proof.
  revert g i; induction t as [|a t IH]; intros [|c g] [|i] Hx Hy; cbn in *; try discriminate.
  - injection Hx as <-; injection Hy as <-; reflexivity.
  - apply IH; assumption.
Qed.
Lemma scale_nth (t : list (scalar K)) (g : list G) i : nth i (scale t g) gzero = nth i t fzero [*] nth i g gzero.
Proof.
  revert g i; induction t as [|a t IH]; intros g i; cbn [scale].
  - destruct i; cbn [nth]; rewrite smul_0_l; reflexivity.
  - destruct g as [|c g]; [destruct i; cbn [nth]; rewrite smul_0_r; reflexivity|].
    destruct i; cbn [nth]; [reflexivity | apply IH].
Qed.

Lemma gsum_scale_dot (t : list (scalar K)) (g : list G) : gsum (scale t g) = dot t g.
Proof. revert g; induction t as [|a t IH]; intros [|c g]; cbn [scale dot]; try reflexivity. now rewrite gsum_cons, IH. Qed.

(* lists as functions of the index *)
Lemma list_as_map {A} (d : A) (l : list A) : l = map (fun i => nth i l d) (seq 0 (length l)).
Proof.
  apply nth_error_ext_eq; [now rewrite map_length, seq_length|].
  intros i a b Ha Hb. assert (Hi : (i < length l)%nat) by (apply nth_error_Some; congruence).
  rewrite nth_error_map, nth_error_seq in Hb by exact Hi. cbn in Hb. injection Hb as <-.
  rewrite (nth_error_nth' l d) in Ha by exact Hi. congruence.
Qed.
Lemma map_seq_nth_error {A} (f : nat -> A) n i : (i < n)%nat -> nth_error (map f (seq 0 n)) i = Some (f i).
Proof. intros Hi. rewrite nth_error_map, nth_error_seq by exact Hi. reflexivity. Qed.
Lemma map_seq_nth {A} (f : nat -> A) n i d : (i < n)%nat -> nth i (map f (seq 0 n)) d = f i.
Proof. intros Hi. apply nth_error_nth. apply map_seq_nth_error; exact Hi. Qed.
Lemma nth_map_default {A B} (f : A -> B) l i a b : f a = b -> nth i (map f l) b = f (nth i l a).
Proof. intros <-. apply map_nth. Qed.

Lemma map_eq_seq {A B} (f : A -> B) (d : A) l n : length l = n -> map f l = map (fun i => f (nth i l d)) (seq 0 n).
Proof. intros <-. rewrite (list_as_map d l) at 1. rewrite map_map. reflexivity. Qed.

Lemma scale_as_map (t : list (scalar K)) (g : list G) n : length t = n -> (n <= length g)%nat ->
  scale t g = map (fun i => nth i t fzero [*] nth i g gzero) (seq 0 n).
Proof.
  intros Ht Hg. rewrite (list_as_map gzero (scale t g)). rewrite scale_length.
  replace (Nat.min (length t) (length g)) with n by lia.
  apply map_ext. intros i. apply scale_nth.
Qed.

Lemma fdot_as_fsum (a b : list (scalar K)) n : length a = n ->
  fdot a b = fsum (map (fun i => fmul (nth i a fzero) (nth i b fzero)) (seq 0 n)).
Proof.
  intros <-. revert b; induction a as [|x a IH]; intros b; [reflexivity|].
  cbn [length seq map]. rewrite <- seq_shift, map_map, fsum_cons. cbn [nth].
  destruct b as [|y b]; cbn [fdot nth].
  - assert (H : fsum (map (fun x0 => fmul (nth x0 a fzero) fzero) (seq 0 (length a))) = fzero).
    { erewrite map_ext; [apply fsum_map_zero|]. intros i; cbn. ring. }
    rewrite H. ring.
  - rewrite IH. reflexivity.
Qed.

Lemma dot_as_gsum (c : list (scalar K)) (x : list G) n : length c = n ->
  dot c x = gsum (map (fun i => nth i c fzero [*] nth i x gzero) (seq 0 n)).
Proof.
  intros <-. revert x; induction c as [|a c IH]; intros x; [reflexivity|].
  cbn [length seq map]. rewrite <- seq_shift, map_map, gsum_cons. cbn [nth].
  destruct x as [|y x]; cbn [dot nth].
  - assert (H : gsum (map (fun i => nth i c fzero [*] @gzero K G) (seq 0 (length c))) = gzero).
    { erewrite map_ext; [apply gsum_map_zero|]. intros i; cbn. apply smul_0_r. }
    rewrite H, smul_0_r. symmetry; apply gadd_0_l.
  - rewrite IH. reflexivity.
Qed.

Lemma dot_smul_map (c s : list (scalar K)) (d : G) : dot c (map (fun a => a [*] d) s) = fdot c s [*] d.
Proof.
  revert s; induction c as [|a c IH]; intros [|b s]; cbn [dot map fdot]; rewrite ?smul_0_l; try reflexivity.
  rewrite IH, smul_fadd, smul_fmul. reflexivity.
Qed.
Lemma fdot_comm (a b : list (scalar K)) : fdot a b = fdot b a.
Proof. revert b; induction a as [|x a IH]; intros [|y b]; cbn [fdot]; try reflexivity. rewrite IH. ring. Qed.

(* column sums *)
Lemma col_sum_length n (vs : list (list G)) : length (col_sum n vs) = n.
Proof. unfold col_sum; now rewrite map_length, seq_length. Qed.
Lemma fcol_sum_length n (vs : list (list (scalar K))) : length (fcol_sum n vs) = n.
Proof. unfold fcol_sum; now rewrite map_length, seq_length. Qed.
Lemma col_sum_perm n (vs ws : list (list G)) : Permutation vs ws -> col_sum n vs = col_sum n ws.
Proof. intros H. unfold col_sum. apply map_ext. intros i. apply gsum_perm, Permutation_map, H. Qed.
Lemma col_sum_nth n (vs : list (list G)) i : (i < n)%nat ->
  nth i (col_sum n vs) gzero = gsum (map (fun v => nth i v gzero) vs).
Proof. intros Hi. exact (map_seq_nth (fun i => gsum (map (fun v => nth i v gzero) vs)) n i gzero Hi). Qed.
Lemma fcol_sum_nth n (vs : list (list (scalar K))) i : (i < n)%nat ->
  nth i (fcol_sum n vs) fzero = fsum (map (fun v => nth i v fzero) vs).
Proof. intros Hi. exact (map_seq_nth (fun i => fsum (map (fun v => nth i v fzero) vs)) n i fzero Hi). Qed.
Lemma col_sum_single (v : list G) : col_sum (length v) [v] = v.
Proof.
  transitivity (map (fun i => nth i v gzero) (seq 0 (length v))); [|symmetry; apply list_as_map].
  unfold col_sum. apply map_ext. intros i. cbn. apply gadd_0_r.
Qed.

Lemma zip_gadd_nth (l1 l2 : list G) i : length l1 = length l2 ->
  nth i (zip_with gadd l1 l2) gzero = nth i l1 gzero [+] nth i l2 gzero.
Proof.
  revert l2 i; induction l1 as [|a l1 IH]; intros [|b l2] i H; try discriminate.
  - destruct i; cbn; symmetry; apply gadd_0_l.
  - destruct i; cbn; [reflexivity|]. apply IH. cbn in H; lia.
Qed.
Lemma zip_gadd_nth_lt (l1 l2 : list G) i : (i < length l1)%nat -> (i < length l2)%nat ->
  nth i (zip_with gadd l1 l2) gzero = nth i l1 gzero [+] nth i l2 gzero.
Proof.
  revert l2 i; induction l1 as [|a l1 IH]; intros [|b l2] i H1 H2; cbn in H1, H2; try lia.
  destruct i; cbn; [reflexivity|]. apply IH; lia.
Qed.

(* folding vector addition, all vectors at least as long as the first *)
Lemma fold_zip_gadd (vs : list (list G)) (x : list G) :
  Forall (fun v => (length x <= length v)%nat) vs ->
  fold_left (zip_with gadd) vs x = col_sum (length x) (x :: vs).
Proof.
  revert x; induction vs as [|v vs IH]; intros x H; cbn [fold_left].
  - symmetry; apply col_sum_single.
  - inversion H as [|? ? Hv Hvs]; subst.
    assert (Hl : length (zip_with gadd x v) = length x) by (rewrite zip_with_length; lia).
    rewrite IH by (rewrite Hl; exact Hvs). rewrite Hl.
    unfold col_sum. apply map_ext_in. intros i Hi. apply in_seq in Hi.
    cbn [map]. rewrite !gsum_cons, zip_gadd_nth_lt by lia. symmetry; apply gadd_assoc.
Qed.

(* column sums of multiples *)
Lemma col_sum_smul n (ss : list (list (scalar K))) (d : G) :
  col_sum n (map (map (fun a => a [*] d)) ss) = map (fun a => a [*] d) (fcol_sum n ss).
Proof.
  unfold col_sum, fcol_sum. rewrite map_map. apply map_ext. intros i. rewrite map_map.
  rewrite <- gsum_map_smul, map_map. f_equal. apply map_ext. intros s.
  apply (nth_map_default (fun a => a [*] d) s i fzero gzero), smul_0_l.
Qed.
Lemma col_sum_scale n (ts : list (list (scalar K))) (g : list G) :
  (n <= length g)%nat ->
  col_sum n (map (fun t => scale t g) ts) = scale (fcol_sum n ts) g.
Proof.
  intros Hg. rewrite (scale_as_map _ _ n) by (apply fcol_sum_length || exact Hg).
  unfold col_sum. apply map_ext_in. intros i Hi. apply in_seq in Hi.
  rewrite map_map, fcol_sum_nth by lia. rewrite <- gsum_map_smul, map_map. f_equal. apply map_ext. intros t.
  apply scale_nth.
Qed.
End VecFacts.
