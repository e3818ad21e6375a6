(* PrivacySpan.v -- observers that see fixed linear combinations of what another observer sees (for C66, C67) *)
From Verif Require Import Base BaseFacts Algebra VecFacts ArkGroth16 PolyFacts SoundSpec PrivacySpec.

Section Span.
Context {E : pairing}.
Notation K := (K_of E).
Notation F := (Fr E).
Add Ring Kr : (@scalar_ring_theory K).

Definition combos {G : group K} (rows : list (list F)) (Ps : list G) : list G := map (fun row => dot row Ps) rows.

Lemma dot_padd {G : group K} (a b : list F) (l : list G) : dot (padd a b) l = dot a l [+] dot b l.
Proof.
  revert b l; induction a as [|x a IH]; intros [|y b] [|P l]; cbn [padd dot]; try (rewrite ?gadd_0_l, ?gadd_0_r; reflexivity). rewrite IH. glin.
Qed.
Lemma dot_map_fmul {G : group K} (x : F) (b : list F) (l : list G) : dot (map (fmul x) b) l = x [*] dot b l.
Proof. revert l; induction b as [|y b IH]; intros [|P l]; cbn [map dot]; try (symmetry; apply smul_0_r). rewrite IH. glin. Qed.

(* matrices as lists of rows of any lengths *)
Fixpoint mat_add (q1 q2 : list (list F)) : list (list F) :=
  match q1, q2 with
  | [], _ => q2
  | _, [] => q1
  | r1 :: q1', r2 :: q2' => padd r1 r2 :: mat_add q1' q2'
  end.
Lemma pp_nil Ps (Qs : list (G2 E)) : pairing_product (@nil (list F)) Ps Qs = gzero.
Proof. destruct Ps; reflexivity. Qed.
Lemma pp_add q1 q2 (Ps : list (G1 E)) (Qs : list (G2 E)) : pairing_product (mat_add q1 q2) Ps Qs = pairing_product q1 Ps Qs [+] pairing_product q2 Ps Qs.
Proof.
  revert q2 Ps; induction q1 as [|r1 q1 IH]; intros [|r2 q2] [|P Ps]; cbn [mat_add pairing_product]; try (rewrite ?gadd_0_l, ?gadd_0_r; reflexivity).
  rewrite IH, dot_padd, pair_add_r. glin.
Qed.
Definition outer (a b : list F) : list (list F) := map (fun x => map (fmul x) b) a.
Lemma pp_outer a b (Ps : list (G1 E)) (Qs : list (G2 E)) : pairing_product (outer a b) Ps Qs = pair (dot a Ps) (prep (dot b Qs)).
Proof.
  revert Ps; induction a as [|x a IH]; intros [|P Ps]; cbn [outer map pairing_product dot]; try (symmetry; apply pair_zero_l).
  fold (outer a b). rewrite IH, dot_map_fmul, pair_smul_r, pair_add_l, pair_smul_l. reflexivity.
Qed.
Fixpoint row_mul (row : list F) (rows : list (list F)) : list F :=
  match row, rows with
  | c :: row', r :: rows' => padd (map (fmul c) r) (row_mul row' rows')
  | _, _ => []
  end.
Lemma dot_row_mul {G : group K} row rows (Ps : list G) : dot (row_mul row rows) Ps = dot row (combos rows Ps).
Proof.
  revert rows; induction row as [|c row IH]; intros [|r rows]; cbn [row_mul combos map dot]; try reflexivity; try (destruct Ps; reflexivity).
  rewrite dot_padd, dot_map_fmul, IH. reflexivity.
Qed.
Fixpoint pull_back (q rows1 rows2 : list (list F)) : list (list F) :=
  match q, rows1 with
  | row :: q', r :: rows1' => mat_add (outer r (row_mul row rows2)) (pull_back q' rows1' rows2)
  | _, _ => []
  end.
Lemma pp_pull_back q rows1 rows2 (Ps : list (G1 E)) (Qs : list (G2 E)) :
  pairing_product (pull_back q rows1 rows2) Ps Qs = pairing_product q (combos rows1 Ps) (combos rows2 Qs).
Proof.
  revert rows1; induction q as [|row q IH]; intros [|r rows1]; cbn [pull_back combos map]; rewrite ?pp_nil; try reflexivity.
  rewrite pp_add, pp_outer, IH, dot_row_mul. reflexivity.
Qed.
Fixpoint pull_observer (rows1 rows2 : list (list F)) (O : observer E) : observer E :=
  match O with
  | Guess g => Guess g
  | Ask q O1 O2 => Ask (pull_back q rows1 rows2) (pull_observer rows1 rows2 O1) (pull_observer rows1 rows2 O2)
  end.
Lemma pull_questions rows1 rows2 O : questions (pull_observer rows1 rows2 O) = questions O.
Proof. induction O as [g|q O1 IH1 O2 IH2]; cbn [pull_observer questions]; [reflexivity|]. rewrite IH1, IH2. reflexivity. Qed.
Lemma pull_observe rows1 rows2 O (Ps : list (G1 E)) (Qs : list (G2 E)) : observe (pull_observer rows1 rows2 O) Ps Qs = observe O (combos rows1 Ps) (combos rows2 Qs).
Proof. induction O as [g|q O1 IH1 O2 IH2]; cbn [pull_observer observe]; [reflexivity|]. rewrite pp_pull_back, IH1, IH2. reflexivity. Qed.

(* a family of lists of group elements given by fixed combinations of another family *)
Section Family.
Context {A : Type} (good : A -> Prop) {G : group K}.
Definition spanned (Ps Ls : A -> list G) : Prop := exists rows, forall a, good a -> Ls a = combos rows (Ps a).
Lemma sp_ext Ps L L' : (forall a, good a -> L a = L' a) -> spanned Ps L' -> spanned Ps L.
Proof. intros H (rows & HR). exists rows. intros a Ha. rewrite H, HR by exact Ha. reflexivity. Qed.
Lemma sp_nil Ps : spanned Ps (fun _ => []).
Proof. exists []. reflexivity. Qed.
Lemma sp_app Ps L1 L2 : spanned Ps L1 -> spanned Ps L2 -> spanned Ps (fun a => L1 a ++ L2 a).
Proof. intros (r1 & H1) (r2 & H2). exists (r1 ++ r2). intros a Ha. rewrite H1, H2 by exact Ha. unfold combos. symmetry. apply map_app. Qed.
Lemma sp_concat {B} Ps (Ls : B -> A -> list G) (bs : list B) : (forall b, In b bs -> spanned Ps (Ls b)) -> spanned Ps (fun a => concat (map (fun b => Ls b a) bs)).
Proof.
  induction bs as [|b bs IH]; intros H; cbn [map concat]; [apply sp_nil|]. apply sp_app; [apply H; left; reflexivity|apply IH; intros b' Hb; apply H; right; exact Hb].
Qed.
Lemma sp_trans Ps Qs L : spanned Ps Qs -> spanned Qs L -> spanned Ps L.
Proof.
  intros (r1 & H1) (r2 & H2). exists (map (fun row => row_mul row r1) r2). intros a Ha. rewrite H2, H1 by exact Ha. unfold combos at 1 3. rewrite map_map.
  apply map_ext. intros row. symmetry. apply dot_row_mul.
Qed.
Lemma sp_combos Ps rows : spanned Ps (fun a => combos rows (Ps a)).
Proof. exists rows. reflexivity. Qed.
Definition unit_row (i : nat) : list F := repeat fzero i ++ [fone].
Lemma dot_unit_row i (l : list G) : dot (unit_row i) l = nth i l gzero.
Proof.
  revert l; induction i as [|i IH]; intros [|P l]; unfold unit_row in *; cbn [repeat app dot nth]; try reflexivity.
  - rewrite smul_1_l. apply gadd_0_r.
  - rewrite IH, smul_0_l. apply gadd_0_l.
Qed.
(* a part of the list at a fixed place *)
Lemma sp_part (L1 L2 L3 : A -> list G) n1 n2 : (forall a, good a -> length (L1 a) = n1 /\ length (L2 a) = n2) -> spanned (fun a => L1 a ++ L2 a ++ L3 a) L2.
Proof.
  intros H. exists (map (fun i => unit_row (n1 + i)) (seq 0 n2)). intros a Ha. destruct (H a Ha) as [Ha1 Ha2]. unfold combos. rewrite map_map.
  rewrite (map_ext_in _ (fun i => nth i (L2 a) gzero)).
  - rewrite <- Ha2. symmetry. clear. induction (L2 a) as [|x l IH]; [reflexivity|]. cbn [length seq map nth]. f_equal. rewrite <- seq_shift, map_map. exact IH.
  - intros i Hi. apply in_seq in Hi. rewrite dot_unit_row, app_nth2 by lia. rewrite Ha1. replace (n1 + i - n1)%nat with i by lia. apply app_nth1. lia.
Qed.
Lemma sp_self Ps n : (forall a, good a -> length (Ps a) = n) -> spanned Ps Ps.
Proof. intros H. apply (sp_ext _ _ (fun a => Ps a)); [reflexivity|]. destruct (sp_part (fun _ => []) Ps (fun _ => []) 0 n) as (rows & HR); [intros a Ha; split; [reflexivity|apply H; exact Ha]|].
  exists rows. intros a Ha. rewrite (HR a Ha) at 1. cbn [app]. rewrite app_nil_r. reflexivity. Qed.

(* single elements *)
Definition spanned1 (Ps : A -> list G) (P : A -> G) : Prop := exists row, forall a, good a -> P a = dot row (Ps a).
Lemma sp1_list Ps P : spanned1 Ps P -> spanned Ps (fun a => [P a]).
Proof. intros (row & H). exists [row]. intros a Ha. rewrite (H a Ha). reflexivity. Qed.
Lemma sp1_ext Ps P P' : (forall a, good a -> P a = P' a) -> spanned1 Ps P' -> spanned1 Ps P.
Proof. intros H (row & HR). exists row. intros a Ha. rewrite H, HR by exact Ha. reflexivity. Qed.
Lemma sp1_add Ps P Q : spanned1 Ps P -> spanned1 Ps Q -> spanned1 Ps (fun a => P a [+] Q a).
Proof. intros (r1 & H1) (r2 & H2). exists (padd r1 r2). intros a Ha. rewrite H1, H2 by exact Ha. symmetry. apply dot_padd. Qed.
Lemma sp1_smul Ps c P : spanned1 Ps P -> spanned1 Ps (fun a => c [*] P a).
Proof. intros (r & H). exists (map (fmul c) r). intros a Ha. rewrite H by exact Ha. symmetry. apply dot_map_fmul. Qed.
Lemma sp1_zero Ps : spanned1 Ps (fun _ => gzero).
Proof. exists []. reflexivity. Qed.
Lemma sp1_nth Ps L i : spanned Ps L -> spanned1 Ps (fun a => nth i (L a) gzero).
Proof.
  intros (rows & H). exists (row_mul (unit_row i) rows). intros a Ha. rewrite dot_row_mul, <- (H a Ha). symmetry. apply dot_unit_row.
Qed.
Lemma sp1_dot Ps c L : spanned Ps L -> spanned1 Ps (fun a => dot c (L a)).
Proof. intros (rows & H). exists (row_mul c rows). intros a Ha. rewrite dot_row_mul, <- (H a Ha). reflexivity. Qed.
(* a list of fixed length, element by element *)
Lemma sp_seq Ps (P : nat -> A -> G) n : (forall i, (i < n)%nat -> spanned1 Ps (P i)) -> spanned Ps (fun a => map (fun i => P i a) (seq 0 n)).
Proof.
  intros H. assert (X : forall l, (forall i, In i l -> (i < n)%nat) -> spanned Ps (fun a => map (fun i => P i a) l)).
  { induction l as [|i l IH]; intros Hl; cbn [map]; [apply sp_nil|]. apply (sp_app Ps (fun a => [P i a]) (fun a => map (fun i => P i a) l)).
    - apply sp1_list, H, Hl. left. reflexivity.
    - apply IH. intros j Hj. apply Hl. right. exact Hj. }
  apply X. intros i Hi. apply in_seq in Hi. lia.
Qed.
End Family.

(* the observer of the second family can be replaced by one of the first *)
Lemma spanned_observer {A} (good : A -> Prop) (P P' : A -> list (G1 E)) (Q Q' : A -> list (G2 E)) : spanned good P P' -> spanned good Q Q' ->
  forall O, exists O', questions O' = questions O /\ forall a, good a -> observe O (P' a) (Q' a) = observe O' (P a) (Q a).
Proof.
  intros (r1 & H1) (r2 & H2) O. exists (pull_observer r1 r2 O). split; [apply pull_questions|]. intros a Ha. rewrite pull_observe, H1, H2 by exact Ha. reflexivity.
Qed.
End Span.
