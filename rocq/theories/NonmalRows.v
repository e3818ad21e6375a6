(* NonmalRows.v -- the table of a prover that has seen several honest ciphertexts, as combinations of the published elements and of one of
   the ciphertexts (for C73) *)
From Verif Require Import Base BaseFacts Algebra Utils UtilsFacts Setup Keygen Encryption Circuit CircuitFacts CircuitSat CommitmentFacts VecFacts KeySpec KeygenFacts
  EncryptFacts DecryptFacts Spec VerifyFacts Protocol ReencFacts DistFacts PropVerify Groth16 ArkGroth16 PolyFacts Groth16Spec ArkFacts Groth16Facts SchwartzZippel SoundCore SoundSpec
  SoundAlg SoundGame SoundLink SoundFacts SoundCount SoundHonest PropGroth16 PropSoundCases PropZK PrivacySpec PrivacyAlg PrivacyGame PrivacyLink PrivacyCount PrivacySpan PrivacyMany
  SoundDkgSpec SoundDkg SoundAdaptSpec.

Section Rows.
Context {E : pairing}.
Notation K := (K_of E).
Notation F := (Fr E).
Add Ring Kr : (@scalar_ring_theory K).
Notation "x +f y" := (fadd x y) (at level 50, left associativity).
Notation "x *f y" := (fmul x y) (at level 40, left associativity).
Variables (n Q1 Q2 : nat).

Definition blk (S0 : strategy E) : list (list F) := [sg_X_r S0] ++ sg_chunks S0 ++ [sg_commitment S0; sg_a S0; sg_c S0].
Definition col (j : nat) (rows : list (list F)) : list F := map (fun r => nth j r fzero) rows.
(* the shape of an honest strategy *)
Definition hon_ok (S0 : strategy E) : Prop := length (sg_chunks S0) = n /\ (forall row, In row (blk S0) -> length row = Q1) /\ (length (sg_b S0) <= Q2)%nat /\
  forall j, (j <= n)%nat -> col j (blk S0) = repeat fzero (S n) ++ [nth j (sg_commitment S0) fzero; fzero; fzero].
Lemma blk_length S0 : hon_ok S0 -> length (blk S0) = (n + 4)%nat.
Proof. intros (L & _). unfold blk. rewrite !app_length, L. cbn [length]. lia. Qed.

Definition units (q : nat) : list (list F) := map unit_row (seq 0 q).
Definition own_rows : list (list F) := map (fun t => unit_row (Q1 + t)) (seq 0 (n + 4)).
Definition rows0 (Ss : list (strategy E)) : list (list F) := units Q1 ++ concat (map blk Ss).
Definition rows0' (Ss : list (strategy E)) : list (list F) := units Q2 ++ map sg_b Ss.
Definition rows1 (Sb Sa : list (strategy E)) : list (list F) := units Q1 ++ concat (map blk Sb ++ own_rows :: map blk Sa).
Definition rows2 (Sb Sa : list (strategy E)) : list (list F) := units Q2 ++ map sg_b Sb ++ unit_row Q2 :: map sg_b Sa.

Lemma combos_app {G : group K} r1 r2 (l : list G) : combos (r1 ++ r2) l = combos r1 l ++ combos r2 l.
Proof. apply map_app. Qed.
Lemma combos_units {G : group K} q (l l' : list G) : length l = q -> combos (units q) (l ++ l') = l.
Proof.
  intros Hl. unfold combos, units. rewrite map_map. rewrite (map_ext_in _ (fun i => nth i l gzero)).
  - rewrite <- Hl. symmetry. apply list_as_map.
  - intros i Hi. apply in_seq in Hi. rewrite dot_unit_row, app_nth1 by lia. reflexivity.
Qed.
Lemma dot_short {G : group K} row (l l' : list G) : (length row <= length l)%nat -> dot row (l ++ l') = dot row l.
Proof.
  revert l; induction row as [|x row IH]; intros [|y l] Hl; cbn [app dot length] in *; try lia; [destruct l'; reflexivity|reflexivity|]. rewrite IH by lia. reflexivity.
Qed.
Lemma combos_blk (S0 : strategy E) gens pk ek dk l' : hon_ok S0 -> length (public_g1 gens pk ek) = Q1 ->
  combos (blk S0) (public_g1 gens pk ek ++ l') = pair_g1 (forged gens pk ek dk S0).
Proof.
  intros (_ & HL & _) L1.
  transitivity (combos (blk S0) (public_g1 gens pk ek)).
  - apply map_ext_in. intros row Hr. apply dot_short. rewrite (HL row Hr). lia.
  - unfold pair_g1, forged, forge_ciphertext, forge_proof, combos, blk. cbn [fst snd ct_X_r ct_enc_chunks ct_commitment pr_a pr_c]. rewrite !map_app. reflexivity.
Qed.
Lemma combos_blks Ss gens pk ek dk l' : Forall hon_ok Ss -> length (public_g1 gens pk ek) = Q1 ->
  combos (concat (map blk Ss)) (public_g1 gens pk ek ++ l') = concat (map pair_g1 (map (forged gens pk ek dk) Ss)).
Proof.
  intros Hh L1. induction Ss as [|S0 Ss IH]; [reflexivity|]. inversion Hh as [|? ? H1 H2]; subst. cbn [map concat]. rewrite combos_app, IH by exact H2. f_equal. apply combos_blk; [exact H1|exact L1].
Qed.
Lemma combos_bs Ss gens pk ek dk l' : Forall hon_ok Ss -> length (public_g2 gens pk ek dk) = Q2 ->
  combos (map sg_b Ss) (public_g2 gens pk ek dk ++ l') = map (fun cp => pr_b (snd cp)) (map (forged gens pk ek dk) Ss).
Proof.
  intros Hh L2. unfold combos. rewrite !map_map. apply map_ext_in. intros S0 Hin. rewrite Forall_forall in Hh. destruct (Hh S0 Hin) as (_ & _ & Lb & _).
  rewrite dot_short by lia. reflexivity.
Qed.
Lemma table0_g1 Ss gens pk ek dk : Forall hon_ok Ss -> length (public_g1 gens pk ek) = Q1 ->
  table_g1 gens pk ek (map (forged gens pk ek dk) Ss) = combos (rows0 Ss) (public_g1 gens pk ek).
Proof.
  intros Hh L1. unfold table_g1, rows0. rewrite combos_app.
  pose proof (combos_units Q1 (public_g1 gens pk ek) [] L1) as X. pose proof (combos_blks Ss gens pk ek dk [] Hh L1) as Y. rewrite app_nil_r in X, Y. rewrite X, Y. reflexivity.
Qed.
Lemma table0_g2 Ss gens pk ek dk : Forall hon_ok Ss -> length (public_g2 gens pk ek dk) = Q2 ->
  table_g2 gens pk ek dk (map (forged gens pk ek dk) Ss) = combos (rows0' Ss) (public_g2 gens pk ek dk).
Proof.
  intros Hh L1. unfold table_g2, rows0'. rewrite combos_app.
  pose proof (combos_units Q2 (public_g2 gens pk ek dk) [] L1) as X. pose proof (combos_bs Ss gens pk ek dk [] Hh L1) as Y. rewrite app_nil_r in X, Y. rewrite X, Y. reflexivity.
Qed.
Lemma table1_g1 Sb Sa gens pk ek dk cq : Forall hon_ok Sb -> Forall hon_ok Sa -> length (public_g1 gens pk ek) = Q1 -> length (ct_enc_chunks (fst cq)) = n ->
  table_g1 gens pk ek (map (forged gens pk ek dk) Sb ++ cq :: map (forged gens pk ek dk) Sa) = combos (rows1 Sb Sa) (public_g1 gens pk ek ++ pair_g1 cq).
Proof.
  intros Hb Ha L1 L2. unfold table_g1, rows1. rewrite map_app, !concat_app, !combos_app. cbn [map concat]. rewrite combos_app.
  rewrite combos_units by exact L1. rewrite (combos_blks Sb gens pk ek dk) by assumption. rewrite (combos_blks Sa gens pk ek dk) by assumption. f_equal. f_equal. f_equal.
  assert (Lp : length (pair_g1 cq) = (n + 4)%nat) by (unfold pair_g1; rewrite !app_length; cbn [length]; lia).
  symmetry. unfold combos, own_rows. rewrite map_map. rewrite (map_ext_in _ (fun i => nth i (pair_g1 cq) gzero)).
  - rewrite <- Lp. symmetry. apply list_as_map.
  - intros i Hi. apply in_seq in Hi. rewrite dot_unit_row, app_nth2 by lia. f_equal. lia.
Qed.
Lemma table1_g2 Sb Sa gens pk ek dk (cq : ciphertext E * proof E) : Forall hon_ok Sb -> Forall hon_ok Sa -> length (public_g2 gens pk ek dk) = Q2 ->
  table_g2 gens pk ek dk (map (forged gens pk ek dk) Sb ++ cq :: map (forged gens pk ek dk) Sa) = combos (rows2 Sb Sa) (public_g2 gens pk ek dk ++ [pr_b (snd cq)]).
Proof.
  intros Hb Ha L1. unfold table_g2, rows2. rewrite map_app, !combos_app. rewrite combos_units by exact L1. rewrite (combos_bs Sb gens pk ek dk) by assumption. f_equal. f_equal.
  cbn [map]. change (combos (unit_row Q2 :: map sg_b Sa) ?l) with (dot (unit_row Q2) l :: combos (map sg_b Sa) l). rewrite (combos_bs Sa gens pk ek dk) by assumption. f_equal.
  rewrite dot_unit_row, app_nth2 by lia. rewrite L1, Nat.sub_diag. reflexivity.
Qed.

(* ---------- columns ---------- *)
Lemma nth_unit_row i j : nth j (@unit_row E i) fzero = if Nat.eqb j i then fone else fzero.
Proof.
  unfold unit_row. revert j; induction i as [|i IH]; intros j; cbn [repeat app].
  - destruct j as [|[|j]]; reflexivity.
  - destruct j as [|j]; [reflexivity|]. cbn [nth Nat.eqb]. apply IH.
Qed.
Lemma col_units q j : col j (units q) = unit_vec q j.
Proof.
  unfold col, units, unit_vec. rewrite map_map. apply map_ext. intros i. rewrite nth_unit_row, Nat.eqb_sym. reflexivity.
Qed.
Fixpoint bsum (j : nat) (c : list F) (bl : list (list (list F))) : F :=
  match bl with [] => fzero | bk :: bl' => fdot c (col j bk) +f bsum j (skipn (n + 4) c) bl' end.
Lemma bsum_concat j bl : (forall bk, In bk bl -> length bk = (n + 4)%nat) -> forall c, fdot c (col j (concat bl)) = bsum j c bl.
Proof.
  induction bl as [|bk bl IH]; intros Hbl c; cbn [concat bsum]; [destruct c; reflexivity|]. unfold col. rewrite map_app. fold (col j bk). fold (col j (concat bl)).
  rewrite fdot_app_r. unfold col at 2. rewrite map_length, (Hbl bk (or_introl eq_refl)), IH by (intros b0 H0; apply Hbl; right; exact H0). reflexivity.
Qed.
Lemma nth_rows j c bl : (forall bk, In bk bl -> length bk = (n + 4)%nat) ->
  nth j (row_mul c (units Q1 ++ concat bl)) fzero = (if Nat.ltb j Q1 then nth j c fzero else fzero) +f bsum j (skipn Q1 c) bl.
Proof.
  intros Hbl. rewrite nth_row_mul, map_app. fold (col j (units Q1)) (col j (concat bl)). rewrite fdot_app_r, col_units, fdot_unit, unit_length, (bsum_concat j bl Hbl). reflexivity.
Qed.
Lemma bsum_app j bl1 bl2 : forall c, bsum j c (bl1 ++ bl2) = bsum j c bl1 +f bsum j (skipn (length bl1 * (n + 4)) c) bl2.
Proof.
  induction bl1 as [|bk bl1 IH]; intros c; cbn [app bsum length Nat.mul skipn]; [ring|]. rewrite IH, skipn_plus. ring.
Qed.
(* coefficients of the commitments of the ciphertexts *)
Fixpoint xsum (c : list F) (Ss : list (strategy E)) (v : strategy E -> F) : F :=
  match Ss with [] => fzero | S0 :: Ss' => nth (n + 1) c fzero *f v S0 +f xsum (skipn (n + 4) c) Ss' v end.
Lemma fdot_col_honest c S0 j : hon_ok S0 -> (j <= n)%nat -> fdot c (col j (blk S0)) = nth (n + 1) c fzero *f nth j (sg_commitment S0) fzero.
Proof.
  intros (_ & _ & _ & Hc) Hj. rewrite (Hc j Hj). rewrite fdot_app_r, fdot_zeros, repeat_length.
  replace (nth (n + 1) c fzero) with (nth 0 (skipn (S n) c) fzero) by (rewrite nth_skipn; f_equal; lia).
  destruct (skipn (S n) c) as [|x [|y [|z l]]]; cbn [fdot nth]; try ring. destruct l; cbn [fdot]; ring.
Qed.
Lemma bsum_low j Ss : Forall hon_ok Ss -> (j <= n)%nat -> forall c, bsum j c (map blk Ss) = xsum c Ss (fun S0 => nth j (sg_commitment S0) fzero).
Proof.
  intros Hh Hj. induction Hh as [|S0 Ss H0 Hh IH]; intros c; [reflexivity|]. cbn [map bsum xsum]. rewrite IH, fdot_col_honest by assumption. reflexivity.
Qed.
Lemma bsum_high j Ss : Forall hon_ok Ss -> (Q1 <= j)%nat -> forall c, bsum j c (map blk Ss) = fzero.
Proof.
  intros Hh Hj. induction Hh as [|S0 Ss H0 Hh IH]; intros c; [reflexivity|]. cbn [map bsum]. rewrite IH.
  assert (X : col j (blk S0) = repeat fzero (length (blk S0))).
  { destruct H0 as (_ & HL & _). unfold col. revert HL. generalize (blk S0). induction l as [|r l IHl]; intros HL; [reflexivity|]. cbn [map length repeat]. f_equal; [apply nth_overflow; rewrite (HL r (or_introl eq_refl)); lia|].
    apply IHl. intros r0 Hr. apply HL. right. exact Hr. }
  rewrite X, fdot_zeros. ring.
Qed.
Lemma own_length : length own_rows = (n + 4)%nat.
Proof. unfold own_rows. rewrite map_length. apply seq_length. Qed.
Lemma own_low j c : (j < Q1)%nat -> fdot c (col j own_rows) = fzero.
Proof.
  intros Hj. assert (X : col j own_rows = repeat fzero (n + 4)).
  { unfold col, own_rows. rewrite map_map. rewrite (map_ext _ (fun _ => @fzero K)).
    - generalize 0%nat as s, (n + 4)%nat as q. intros s q; revert s; induction q as [|q IH]; intros s; [reflexivity|]. cbn [seq map repeat]. f_equal. apply IH.
    - intros t. rewrite nth_unit_row. destruct (Nat.eqb_spec j (Q1 + t)); [lia|reflexivity]. }
  rewrite X. apply fdot_zeros.
Qed.
Lemma own_high t c : (t < n + 4)%nat -> fdot c (col (Q1 + t) own_rows) = nth t c fzero.
Proof.
  intros Ht. assert (X : col (Q1 + t) own_rows = unit_vec (n + 4) t).
  { unfold col, own_rows, unit_vec. rewrite map_map. apply map_ext. intros i. rewrite nth_unit_row. destruct (Nat.eqb_spec (Q1 + t) (Q1 + i)) as [X|X]; destruct (Nat.eqb_spec i t); try lia; reflexivity. }
  rewrite X, fdot_unit. destruct (Nat.ltb_spec t (n + 4)); [reflexivity|lia].
Qed.

(* ---------- the two views of one combination ---------- *)
Hypothesis HQ : (n < Q1)%nat.
Lemma low0 c Ss j : Forall hon_ok Ss -> (j <= n)%nat -> nth j (row_mul c (rows0 Ss)) fzero = nth j c fzero +f xsum (skipn Q1 c) Ss (fun S0 => nth j (sg_commitment S0) fzero).
Proof.
  intros Hh Hj. unfold rows0. rewrite nth_rows.
  - destruct (Nat.ltb_spec j Q1); [|lia]. rewrite bsum_low by assumption. reflexivity.
  - intros bk Hbk. apply in_map_iff in Hbk. destruct Hbk as (S0 & <- & Hin). apply blk_length. rewrite Forall_forall in Hh. apply Hh. exact Hin.
Qed.
Lemma blocks1 Sb Sa : Forall hon_ok Sb -> Forall hon_ok Sa -> forall bk, In bk (map blk Sb ++ own_rows :: map blk Sa) -> length bk = (n + 4)%nat.
Proof.
  intros Hb Ha bk Hbk. rewrite Forall_forall in Hb, Ha. apply in_app_or in Hbk. destruct Hbk as [Hbk|[<-|Hbk]]; [|apply own_length|];
    apply in_map_iff in Hbk; destruct Hbk as (S0 & <- & Hin); apply blk_length; [apply Hb|apply Ha]; exact Hin.
Qed.
Definition at_ (i t : nat) (c : list F) : F := nth (Q1 + (i * (n + 4) + t)) c fzero.
Lemma nth_at i t c : nth t (skipn (i * (n + 4)) (skipn Q1 c)) fzero = at_ i t c.
Proof. rewrite skipn_plus, nth_skipn. unfold at_. f_equal. lia. Qed.
Lemma high1 c Sb Sa t : Forall hon_ok Sb -> Forall hon_ok Sa -> (t < n + 4)%nat -> nth (Q1 + t) (row_mul c (rows1 Sb Sa)) fzero = at_ (length Sb) t c.
Proof.
  intros Hb Ha Ht. unfold rows1. rewrite nth_rows by (apply blocks1; assumption). destruct (Nat.ltb_spec (Q1 + t) Q1); [lia|].
  rewrite bsum_app, map_length. cbn [bsum]. rewrite !bsum_high by (assumption || lia). rewrite own_high by exact Ht. rewrite nth_at. ring.
Qed.
Lemma xsum_app c S1 S2 v : xsum c (S1 ++ S2) v = xsum c S1 v +f xsum (skipn (length S1 * (n + 4)) c) S2 v.
Proof. revert c; induction S1 as [|S0 S1 IH]; intros c; cbn [app xsum length Nat.mul skipn]; [ring|]. rewrite IH, skipn_plus. ring. Qed.
Lemma low1 c Sb S0 Sa j : Forall hon_ok Sb -> Forall hon_ok Sa -> (j <= n)%nat ->
  nth j (row_mul c (rows1 Sb Sa)) fzero +f at_ (length Sb) (n + 1) c *f nth j (sg_commitment S0) fzero =
  nth j c fzero +f xsum (skipn Q1 c) (Sb ++ S0 :: Sa) (fun S0 => nth j (sg_commitment S0) fzero).
Proof.
  intros Hb Ha Hj. unfold rows1. rewrite nth_rows by (apply blocks1; assumption). destruct (Nat.ltb_spec j Q1); [|lia].
  rewrite bsum_app, map_length, xsum_app. cbn [bsum xsum]. rewrite own_low by lia. rewrite !bsum_low by assumption. rewrite nth_at. ring.
Qed.
Lemma xsum_zero Ss v : forall c, (forall i, (i < length Ss)%nat -> nth (i * (n + 4) + (n + 1)) c fzero = fzero) -> xsum c Ss v = fzero.
Proof.
  induction Ss as [|S0 Ss IH]; intros c Hz; cbn [xsum]; [reflexivity|]. pose proof (Hz 0%nat ltac:(cbn; lia)) as Z0. cbn [Nat.mul Nat.add] in Z0. rewrite Z0, IH; [ring|].
  intros i Hi. rewrite nth_skipn. etransitivity; [|apply (Hz (S i)); cbn; lia]. f_equal. lia.
Qed.
Lemma xsum_one Sb S0 Sa v c : at_ (length Sb) (n + 1) c = fone -> (forall i, (i < length (Sb ++ S0 :: Sa))%nat -> i <> length Sb -> at_ i (n + 1) c = fzero) ->
  xsum (skipn Q1 c) (Sb ++ S0 :: Sa) v = v S0.
Proof.
  intros H1 H0. rewrite xsum_app. cbn [xsum]. rewrite nth_at, H1. rewrite app_length in H0. cbn [length] in H0. rewrite !xsum_zero; [ring| |].
  - intros i Hi. rewrite !nth_skipn. etransitivity; [|apply (H0 (length Sb + S i)%nat); lia]. unfold at_. f_equal. lia.
  - intros i Hi. rewrite nth_skipn. etransitivity; [|apply (H0 i); lia]. reflexivity.
Qed.
End Rows.
