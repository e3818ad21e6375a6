(* PolyFacts.v -- interpolation and exact division over a prime field (for ArkGroth16.v) *)
From Coq Require Import Znumtheory.
From Verif Require Import Base BaseFacts Algebra VecFacts Primality Groth16 ArkGroth16.

Section PolyFacts.
Context {K : prime_field}.
Add Ring Kr : (@scalar_ring_theory K).
Implicit Types (a x y t c : scalar K) (p q : @poly K) (xs vs : list (scalar K)).

Lemma iter_op_fmul (n : positive) x : Pos.iter_op fmul n x = of_Z (sval x ^ Zpos n).
Proof.
  induction n as [|n IH] using Pos.peano_ind.
  - change (Pos.iter_op fmul 1 x) with x. rewrite Z.pow_1_r, of_Z_sval. reflexivity.
  - rewrite Pos.iter_op_succ by (intros; ring). rewrite IH, Pos2Z.inj_succ, Z.pow_succ_r, of_Z_mul, of_Z_sval by lia. reflexivity.
Qed.
Lemma finv_r a : a <> fzero -> fmul a (finv a) = fone.
Proof.
  intros Ha. unfold finv. rewrite iter_op_fmul. pose proof (@modulus_gt1 K).
  assert (Hd : ~ (modulus K | sval a)). { intros Hd. apply Ha. rewrite <- (of_Z_sval a). apply of_Z_zero_iff; exact Hd. }
  pose proof (fermat (modulus K) (sval a) (modulus_prime K) Hd) as F.
  destruct (Z.eq_dec (modulus K) 2) as [E|E].
  - rewrite E in *. change (Z.pos (Z.to_pos (2 - 2))) with 1. rewrite Z.pow_1_r, of_Z_sval.
    change (2 - 1) with 1 in F. rewrite Z.pow_1_r in F.
    rewrite <- (of_Z_sval a). rewrite <- of_Z_mul. unfold fone. apply of_Z_eq_iff. rewrite E. rewrite Z.mul_mod, F by lia. reflexivity.
  - rewrite Z2Pos.id by lia. rewrite <- (of_Z_sval a) at 1. rewrite <- of_Z_mul, <- Z.pow_succ_r by lia.
    replace (Z.succ (modulus K - 2)) with (modulus K - 1) by lia. unfold fone. apply of_Z_eq_iff. rewrite F. rewrite Z.mod_small; lia.
Qed.
Lemma finv_l a : a <> fzero -> fmul (finv a) a = fone.
Proof. intros H. rewrite <- (finv_r a H). ring. Qed.

(* ---------- evaluation ---------- *)
Lemma peval_padd p q t : peval (padd p q) t = fadd (peval p t) (peval q t).
Proof.
  revert q; induction p as [|a p IH]; intros [|b q]; cbn [padd peval fold_right]; try ring.
  fold (peval (padd p q) t) (peval p t) (peval q t). rewrite IH. ring.
Qed.
Lemma peval_pscale c p t : peval (pscale c p) t = fmul c (peval p t).
Proof.
  induction p as [|a p IH]; cbn [pscale map peval fold_right]; [ring|].
  fold (pscale c p). fold (peval (pscale c p) t) (peval p t). rewrite IH. ring.
Qed.
Lemma peval_cons c p t : peval (c :: p) t = fadd c (fmul t (peval p t)).
Proof. reflexivity. Qed.
Lemma peval_pmul p q t : peval (pmul p q) t = fmul (peval p t) (peval q t).
Proof.
  induction p as [|a p IH]; [cbn; ring|]. cbn [pmul]. rewrite peval_padd, peval_pscale, !peval_cons, IH. ring.
Qed.
Lemma peval_psub p q t : peval (psub p q) t = fsub (peval p t) (peval q t).
Proof. unfold psub. rewrite peval_padd, peval_pscale. ring. Qed.

Lemma pscale_length c p : length (pscale c p) = length p.
Proof. apply map_length. Qed.
Lemma padd_length p q : length (padd p q) = Nat.max (length p) (length q).
Proof. revert q; induction p as [|a p IH]; intros [|b q]; cbn; [reflexivity|reflexivity|reflexivity|rewrite IH; reflexivity]. Qed.
Lemma pmul_length p q : (length (pmul p q) <= length p + length q - 1)%nat \/ q = [].
Proof.
  destruct q as [|b q]; [right; reflexivity|left]. induction p as [|a p IH]; [cbn; lia|].
  cbn [pmul]. rewrite padd_length, pscale_length. cbn [length] in *. destruct p; cbn [pmul length] in *; lia.
Qed.

(* ---------- division ---------- *)
Lemma div_lin_spec x p t : peval p t = fadd (fmul (fsub t x) (peval (fst (div_lin x p)) t)) (snd (div_lin x p)).
Proof.
  induction p as [|c p IH]; [cbn; ring|]. destruct p as [|c' p]; [cbn; ring|].
  cbn [div_lin]. cbn [div_lin] in IH. rewrite peval_cons, IH. destruct (match p with [] => _ | _ => _ end) as [q r]. cbn [fst snd]. rewrite peval_cons. ring.
Qed.
Lemma div_lin_rem x p : snd (div_lin x p) = peval p x.
Proof. rewrite (div_lin_spec x p x). ring. Qed.
Lemma div_lin_length x p : length (fst (div_lin x p)) = (length p - 1)%nat.
Proof.
  induction p as [|c p IH]; [reflexivity|]. destruct p as [|c' p]; [reflexivity|].
  cbn [div_lin]. cbn [div_lin] in IH. destruct (match p with [] => _ | _ => _ end) as [q r]. cbn [fst length] in *. lia.
Qed.

Lemma div_vanishing_spec xs : forall p, NoDup xs -> (forall x, In x xs -> peval p x = fzero) ->
  forall t, peval p t = fmul (vanishing_at xs t) (peval (div_vanishing xs p) t).
Proof.
  induction xs as [|x xs IH]; intros p Hnd Hz t.
  { change (vanishing_at [] t) with (@fone K). change (div_vanishing [] p) with p. ring. }
  apply NoDup_cons_iff in Hnd. destruct Hnd as [Hx Hnd].
  cbn [vanishing_at fold_right div_vanishing fold_left]. fold (vanishing_at xs t) (div_vanishing xs (fst (div_lin x p))).
  pose proof (div_lin_spec x p) as D. rewrite (div_lin_rem x p), (Hz x (or_introl eq_refl)) in D.
  assert (Q : forall y, In y xs -> peval (fst (div_lin x p)) y = fzero).
  2:{ rewrite (D t), (IH (fst (div_lin x p)) Hnd Q t). ring. }
  intros y Hy. pose proof (Hz y (or_intror Hy)) as Y. rewrite D in Y.
  assert (Y' : fmul (fsub y x) (peval (fst (div_lin x p)) y) = fzero) by (rewrite <- Y; ring).
  apply fmul_integral in Y'. destruct Y' as [Y'|Y']; [|exact Y']. apply fsub_zero_eq in Y'. subst. contradiction.
Qed.
Lemma div_vanishing_length xs : forall p, length (div_vanishing xs p) = (length p - length xs)%nat.
Proof.
  induction xs as [|x xs IH]; intros p; cbn [div_vanishing fold_left length]; [lia|].
  fold (div_vanishing xs (fst (div_lin x p))). rewrite IH, div_lin_length. lia.
Qed.

(* ---------- Lagrange interpolation ---------- *)
Lemma vanishing_zero xs t : vanishing_at xs t = fzero <-> In t xs.
Proof.
  induction xs as [|x xs IH]; cbn [vanishing_at fold_right In]; [split; [intros H; exfalso; exact (fneq01 H)|tauto]|].
  fold (vanishing_at xs t). rewrite <- IH. split.
  - intros H. apply fmul_integral in H. destruct H as [H|H]; [left; symmetry; apply fsub_zero_eq; exact H|right; exact H].
  - intros [->|H]; [|rewrite H]; ring.
Qed.
Lemma prod_lin_eval xs t : peval (fold_right (fun x p => pmul [fneg x; fone] p) [fone] xs) t = vanishing_at xs t.
Proof.
  induction xs as [|x xs IH]; cbn [fold_right vanishing_at]; [cbn; ring|]. fold (vanishing_at xs t).
  rewrite peval_pmul, IH. cbn. ring.
Qed.
Lemma prod_lin_length xs : (length (fold_right (fun x p => pmul [fneg x; fone] p) [fone] xs) = S (length xs))%nat.
Proof.
  induction xs as [|x xs IH]; [reflexivity|]. cbn [fold_right].
  set (p := fold_right _ _ xs) in *. cbn [pmul]. rewrite padd_length, pscale_length. cbn [length]. rewrite padd_length, pscale_length. cbn [length]. lia.
Qed.
Lemma lagrange_eval xs i t : peval (lagrange xs i) t =
  fmul (finv (vanishing_at (others xs i) (nth i xs fzero))) (vanishing_at (others xs i) t).
Proof. unfold lagrange. rewrite peval_pscale, prod_lin_eval. reflexivity. Qed.
Lemma others_length xs i : (i < length xs)%nat -> length (others xs i) = (length xs - 1)%nat.
Proof. intros H. unfold others. rewrite app_length, firstn_length, skipn_length. lia. Qed.
Lemma lagrange_length xs i : (i < length xs)%nat -> length (lagrange xs i) = length xs.
Proof. intros H. unfold lagrange. rewrite pscale_length, prod_lin_length, others_length by exact H. lia. Qed.
Lemma split_at xs i : (i < length xs)%nat -> xs = firstn i xs ++ nth i xs fzero :: skipn (S i) xs.
Proof.
  revert i; induction xs as [|x xs IH]; intros [|i] H; cbn in H; try lia; [reflexivity|].
  cbn [firstn nth skipn app]. f_equal. apply IH. lia.
Qed.
Lemma others_not_in xs i : NoDup xs -> (i < length xs)%nat -> ~ In (nth i xs fzero) (others xs i).
Proof.
  intros Hnd Hi. unfold others. pose proof Hnd as N. rewrite (split_at xs i Hi) in N. apply NoDup_remove_2 in N. exact N.
Qed.
Lemma others_in xs i j : NoDup xs -> (i < length xs)%nat -> (j < length xs)%nat -> i <> j -> In (nth j xs fzero) (others xs i).
Proof.
  intros Hnd Hi Hj Hij. pose proof (nth_In xs fzero Hj) as H. rewrite (split_at xs i Hi) in H at 2.
  unfold others. apply in_app_or in H. apply in_or_app. destruct H as [H|[H|H]]; [left; exact H| |right; exact H].
  exfalso. apply Hij. exact (proj1 (NoDup_nth xs fzero) Hnd i j Hi Hj H).
Qed.
Lemma lagrange_at xs i j : NoDup xs -> (i < length xs)%nat -> (j < length xs)%nat ->
  peval (lagrange xs i) (nth j xs fzero) = if Nat.eqb i j then fone else fzero.
Proof.
  intros Hnd Hi Hj. rewrite lagrange_eval. destruct (Nat.eqb_spec i j) as [<-|Hij].
  - apply finv_l. intros H. apply vanishing_zero in H. exact (others_not_in xs i Hnd Hi H).
  - replace (vanishing_at (others xs i) (nth j xs fzero)) with (@fzero K); [ring|].
    symmetry. apply vanishing_zero. apply others_in; assumption.
Qed.

Lemma peval_fold ps t : peval (fold_right padd [] ps) t = fsum (map (fun p => peval p t) ps).
Proof. induction ps as [|p ps IH]; [reflexivity|]. cbn [fold_right map]. rewrite peval_padd, fsum_cons, IH. reflexivity. Qed.
Lemma interpolate_eval xs vs t : peval (interpolate xs vs) t =
  fsum (map (fun i => fmul (nth i vs fzero) (peval (lagrange xs i) t)) (seq 0 (length xs))).
Proof. unfold interpolate. rewrite peval_fold, map_map. f_equal. apply map_ext. intros i. apply peval_pscale. Qed.

Lemma fsum_delta (f : nat -> scalar K) n k j : (j < n)%nat ->
  fsum (map (fun i => fmul (f i) (if Nat.eqb i (k + j) then fone else fzero)) (seq k n)) = f (k + j)%nat.
Proof.
  revert k j; induction n as [|n IH]; intros k j Hj; [lia|]. cbn [seq map]. rewrite fsum_cons. destruct j as [|j].
  - rewrite Nat.add_0_r, Nat.eqb_refl. cbv iota.
    replace (fsum (map (fun i => fmul (f i) (if Nat.eqb i k then fone else fzero)) (seq (S k) n))) with (@fzero K); [ring|].
    symmetry. etransitivity; [|exact (fsum_map_zero (seq (S k) n))]. f_equal. apply map_ext_in. intros i Hi. apply in_seq in Hi.
    destruct (Nat.eqb_spec i k); [lia|]. cbv beta iota. ring.
  - destruct (Nat.eqb_spec k (k + S j)) as [H|_]; [lia|].
    replace (k + S j)%nat with (S k + j)%nat by lia. rewrite (IH (S k) j) by lia. ring.
Qed.
Lemma interpolate_at xs vs j : NoDup xs -> (j < length xs)%nat -> peval (interpolate xs vs) (nth j xs fzero) = nth j vs fzero.
Proof.
  intros Hnd Hj. rewrite interpolate_eval. etransitivity; [|exact (fsum_delta (fun i => nth i vs fzero) (length xs) 0 j Hj)]. f_equal.
  apply map_ext_in. intros i Hi. apply in_seq in Hi. rewrite lagrange_at by (try assumption; lia). reflexivity.
Qed.
Lemma interpolate_length xs vs : (length (interpolate xs vs) <= length xs)%nat.
Proof.
  unfold interpolate. assert (H : Forall (fun p => length p <= length xs)%nat (map (fun i => pscale (nth i vs fzero) (lagrange xs i)) (seq 0 (length xs)))).
  { rewrite Forall_map. apply Forall_forall. intros i Hi. apply in_seq in Hi. rewrite pscale_length, lagrange_length by lia. lia. }
  induction H as [|p ps Hp Hps IH]; cbn [fold_right]; [cbn; lia|]. rewrite padd_length. lia.
Qed.
End PolyFacts.
