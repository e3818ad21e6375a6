(* PropParallel.v -- C45: with the default feature `parallel` no result depends on the thread schedule. *)
From Coq Require Import Permutation.
From Verif Require Import Base BaseFacts Algebra Utils Setup Keygen Encryption KeygenFacts Spec KeySpec VecFacts Parallel Instance Examples.

Section ParFacts.
Context {A B : Type} (f : A -> B) (l : list A).

(* every written slot holds the closure's value on its own item *)
Definition slots_ok (s : list (slot B)) : Prop :=
  length s = length l /\ forall i b, nth_error s i = Some (Done b) -> exists x, nth_error l i = Some x /\ b = f x.

Lemma par_step_ok s s' : slots_ok s -> par_step f l s s' -> slots_ok s'.
Proof.
  intros [Hl Hs] H. destruct H as [pre post|pre post x Hx]; (split; [rewrite !app_length in *; cbn [length] in *; lia|]).
  - intros i b Hi. apply Hs. destruct (Nat.lt_trichotomy i (length pre)) as [H|[H|H]].
    + rewrite nth_error_app1 in * by lia. exact Hi.
    + subst i. rewrite nth_error_app2, Nat.sub_diag in Hi by lia. cbn in Hi. discriminate Hi.
    + rewrite nth_error_app2 in * by lia. replace (i - length pre)%nat with (S (i - length pre - 1))%nat in * by lia. exact Hi.
  - intros i b Hi. destruct (Nat.lt_trichotomy i (length pre)) as [H|[H|H]].
    + apply Hs. rewrite nth_error_app1 in * by lia. exact Hi.
    + subst i. rewrite nth_error_app2, Nat.sub_diag in Hi by lia. cbn in Hi. exists x. split; [exact Hx|congruence].
    + apply Hs. rewrite nth_error_app2 in * by lia. replace (i - length pre)%nat with (S (i - length pre - 1))%nat in * by lia. exact Hi.
Qed.
Lemma par_init_ok : slots_ok (par_init l).
Proof.
  unfold par_init. split; [apply map_length|]. intros i b H. rewrite nth_error_map in H. destruct (nth_error l i); cbn in H; discriminate H.
Qed.
Lemma par_steps_ok n s s' : slots_ok s -> par_steps f l n s s' -> slots_ok s'.
Proof. intros H Hn. induction Hn; [exact H|]. eapply par_step_ok; [apply IHHn; exact H|eassumption]. Qed.

(* steps still to do *)
Definition slot_left (x : slot B) : nat := match x with Todo => 2 | Busy => 1 | Done _ => 0 end.
Definition steps_left (s : list (slot B)) : nat := list_sum (map slot_left s).
Lemma left_app s1 s2 : steps_left (s1 ++ s2) = (steps_left s1 + steps_left s2)%nat.
Proof. unfold steps_left. rewrite map_app, list_sum_app. reflexivity. Qed.
Lemma par_step_left s s' : par_step f l s s' -> steps_left s = S (steps_left s').
Proof. intros H. destruct H; rewrite !left_app; unfold steps_left; cbn; lia. Qed.
Lemma par_steps_left n s s' : par_steps f l n s s' -> steps_left s = (n + steps_left s')%nat.
Proof. intros H. induction H; [lia|]. apply par_step_left in H0. lia. Qed.
Lemma left_init : steps_left (par_init l) = (2 * length l)%nat.
Proof.
  unfold steps_left, par_init. clear f. generalize l. intros k.
  induction k as [|x k IH]; [reflexivity|]. cbn [map list_sum fold_right length slot_left]. unfold list_sum in IH. rewrite IH. lia.
Qed.
Lemma left_done out : steps_left (map Done out) = 0%nat.
Proof. unfold steps_left. induction out as [|b out IH]; [reflexivity|]. exact IH. Qed.

Lemma left_zero s : steps_left s = 0%nat -> exists out, s = map Done out.
Proof.
  induction s as [|x s IH]; intros H; [exists []; reflexivity|]. unfold steps_left in H. cbn [map list_sum fold_right] in H.
  change (fold_right Nat.add 0%nat (map slot_left s)) with (steps_left s) in H.
  destruct IH as [out ->]; [lia|]. destruct x; cbn in H; try lia. exists (b :: out). reflexivity.
Qed.
Lemma left_pos s : steps_left s <> 0%nat -> exists pre x post, s = pre ++ x :: post /\ (x = Todo \/ x = Busy).
Proof.
  induction s as [|x s IH]; intros H; [unfold steps_left in H; cbn in H; lia|]. destruct x as [| |b].
  - exists [], Todo, s. auto.
  - exists [], Busy, s. auto.
  - destruct IH as (pre & y & post & -> & Hy); [unfold steps_left in *; cbn in H; exact H|]. exists (Done b :: pre), y, post. auto.
Qed.
End ParFacts.

(* ---- the schedule-independence of the two parallel constructs themselves ---- *)

(* every schedule of the parallel map returns the sequential map ... *)
Theorem C45_parallel_map_deterministic :
  forall (A B : Type) (f : A -> B) (l : list A) (out : list B), par_collect f l out <-> out = map f l.
Proof.
  intros A B f l out. split.
  - intros [n H]. pose proof (par_steps_ok f l n _ _ (par_init_ok f l) H) as [Hl Hs]. rewrite map_length in Hl.
    apply nth_error_ext_eq; [rewrite map_length; exact Hl|]. intros i x y Hi Hi'.
    destruct (Hs i x) as (z & Hz & ->); [rewrite nth_error_map, Hi; reflexivity|].
    rewrite nth_error_map, Hz in Hi'. cbn in Hi'. congruence.
  - intros ->. unfold par_collect, par_init. exists (2 * length l)%nat.
    assert (G : forall (post pre : list A), l = pre ++ post ->
              par_steps f l (2 * length pre) (map (fun _ => Todo) l) (map Done (map f pre) ++ map (fun _ => Todo) post)).
    { intros post pre; revert post. induction pre as [|x pre IH] using rev_ind; intros post Hl.
      - cbn in *. subst l. apply par_refl.
      - rewrite app_length. cbn [length]. replace (2 * (length pre + 1))%nat with (S (S (2 * length pre))) by lia.
        specialize (IH (x :: post)). rewrite <- app_assoc in Hl. specialize (IH Hl). cbn [map] in IH.
        eapply par_trans; [eapply par_trans; [exact IH|apply par_start]|].
        rewrite !map_app. cbn [map]. rewrite <- app_assoc. cbn [app]. apply par_finish.
        rewrite !map_length, Hl, nth_error_app2, Nat.sub_diag by lia. reflexivity. }
    specialize (G [] l). rewrite app_nil_r in G. cbn [map] in G. rewrite app_nil_r in G. apply G. reflexivity.
Qed.
(* ... no schedule gets stuck, and none runs longer than two steps per item *)
Theorem C45_parallel_map_terminates :
  forall (A B : Type) (f : A -> B) (l : list A) n s, par_steps f l n (par_init l) s ->
  (n <= 2 * length l)%nat /\
  (s = map Done (map f l) \/ exists s', par_step f l s s').
Proof.
  intros A B f l n s H. pose proof (par_steps_left f l _ _ _ H) as Hn. rewrite left_init in Hn. split; [lia|].
  destruct (Nat.eq_dec (steps_left s) 0) as [Hz|Hz].
  - left. apply left_zero in Hz. destruct Hz as [out ->]. f_equal. apply C45_parallel_map_deterministic. exists n. exact H.
  - right. apply left_pos in Hz. destruct Hz as (pre & x & post & -> & [->| ->]); [eexists; apply par_start|].
    pose proof (par_steps_ok f l n _ _ (par_init_ok f l) H) as [Hl _]. rewrite app_length in Hl. cbn [length] in Hl.
    destruct (nth_error l (length pre)) as [y|] eqn:Hy; [eexists; apply par_finish; exact Hy|].
    apply nth_error_None in Hy. lia.
Qed.
(* any order of combining partial sums gives the sum *)
Theorem C45_parallel_sum_deterministic :
  forall (K : prime_field) (G : group K) (l : list G) (out : G), par_reduce l out <-> out = gsum l.
Proof.
  intros K G l out. split.
  - intros H. induction H as [|x|x y l l' out Hp Hr IH]; [reflexivity|cbn; symmetry; apply gadd_0_r|].
    rewrite IH, (gsum_perm _ _ Hp), !gsum_cons. symmetry; apply gadd_assoc.
  - intros ->. remember (length l) as n eqn:Hn. revert l Hn. induction n as [|n IH]; intros [|x [|y l]] Hn; try discriminate Hn.
    + apply reduce_none.
    + cbn [length] in Hn. rewrite gsum_cons, gsum_nil, gadd_0_r. apply reduce_one.
    + eapply reduce_two; [apply Permutation_refl|]. rewrite !gsum_cons, gadd_assoc, <- gsum_cons. apply IH. cbn [length] in *. lia.
Qed.

(* ---- hence every function of the crate that uses them has exactly one result, the sequential one ---- *)
Theorem C45_prepared_keys_schedule_independent :
  forall (E : pairing) (ek : encryption_key E) (dk : decryption_key E) pek pdk,
  (prepare_ek_par ek pek <-> pek = prepare_ek ek) /\ (prepare_dk_par dk pdk <-> pdk = prepare_dk dk).
Proof.
  intros E ek dk pek pdk. split; split.
  - intros (zs & H & ->). apply C45_parallel_map_deterministic in H. subst zs. reflexivity.
  - intros ->. eexists. split; [apply C45_parallel_map_deterministic; reflexivity|reflexivity].
  - intros (v1 & v2 & H1 & H2 & ->). apply C45_parallel_map_deterministic in H1, H2. subst v1 v2. reflexivity.
  - intros ->. do 2 eexists. split; [apply C45_parallel_map_deterministic; reflexivity|].
    split; [apply C45_parallel_map_deterministic; reflexivity|reflexivity].
Qed.

Lemma idx_map {A B} (f : A -> B) (l : list A) i : idx (map f l) i = (x <- idx l i ;; Ok (f x)).
Proof. unfold idx. rewrite nth_error_map. destruct (nth_error l i); reflexivity. Qed.
Lemma make_Y_repr_eq {E} n (g_i : list (G1 E)) (t : list (Fr E)) : make_Y_repr n g_i (map into_bigint t) = make_Y n g_i t.
Proof.
  unfold make_Y_repr, make_Y. apply mapM_ext. intros i _. destruct (idx g_i i); cbn [bind]; try reflexivity.
  rewrite idx_map. destruct (idx t (i + 1)); reflexivity.
Qed.

Theorem C45_keygen_schedule_independent :
  forall (E : pairing) (R : rng_impl E) b gens g_i delta gamma st outP out,
  (FkeygenPartial_par R b gens g_i delta gamma st outP <-> outP = FkeygenPartial R b gens g_i delta gamma st) /\
  (keygen_par R b gens g_i delta gamma st out <-> out = keygen R b gens g_i delta gamma st).
Proof.
  intros E R b gens g_i delta gamma st outP out. unfold FkeygenPartial_par, keygen_par, FkeygenPartial, keygen.
  destruct (chunks_count (K_of E) b) as [cnt|e|]; cbn [bind]; [|split; reflexivity|split; reflexivity].
  cbv zeta. destruct (length g_i <? Z.to_nat cnt)%nat; [split; reflexivity|]. split.
  - destruct (rand_scalars R (Z.to_nat cnt) st) as [s st1]. destruct (rand_scalars R (Z.to_nat cnt + 1) st1) as [t st2]. split.
    + intros (tr & H & ->). apply C45_parallel_map_deterministic in H. subst tr. rewrite make_Y_repr_eq. reflexivity.
    + intros ->. eexists. split; [apply C45_parallel_map_deterministic; reflexivity|]. rewrite make_Y_repr_eq. reflexivity.
  - destruct (rand_scalar R st) as [rho st0]. destruct (rand_scalars R (Z.to_nat cnt) st0) as [s st1].
    destruct (rand_scalars R (Z.to_nat cnt + 1) st1) as [t st2]. destruct (rand_scalars R (Z.to_nat cnt) st2) as [v st3]. split.
    + intros (tr & H & ->). apply C45_parallel_map_deterministic in H. subst tr. rewrite make_Y_repr_eq. reflexivity.
    + intros ->. eexists. split; [apply C45_parallel_map_deterministic; reflexivity|]. rewrite make_Y_repr_eq. reflexivity.
Qed.

Lemma bigint_from_u16_id (m : list Z) : map bigint_from_u16 m = m.
Proof. apply map_id. Qed.

Theorem C45_encryption_schedule_independent :
  forall (E : pairing) (R : rng_impl E) m (ek : encryption_key E) g_i st out,
  encrypt_decomposed_message_par R m ek g_i st out <-> out = encrypt_decomposed_message R m ek g_i st.
Proof.
  intros E R m ek g_i st out. unfold encrypt_decomposed_message_par, encrypt_decomposed_message.
  destruct (ek_supported_chunks_count ek) as [cnt|e|]; cbn [bind]; [|reflexivity|reflexivity].
  cbv zeta. destruct (negb (length m =? Z.to_nat cnt)%nat); [reflexivity|]. destruct (length g_i <? length m)%nat; [reflexivity|].
  destruct (rand_scalar R st) as [r st1]. split.
  - intros (m' & psi & Hm & Hp & ->). apply C45_parallel_map_deterministic in Hm. apply C45_parallel_sum_deterministic in Hp.
    rewrite bigint_from_u16_id in Hm. subst m' psi. reflexivity.
  - intros ->. exists m. eexists. split; [apply C45_parallel_map_deterministic; symmetry; apply bigint_from_u16_id|].
    split; [apply C45_parallel_sum_deterministic; reflexivity|reflexivity].
Qed.

Theorem C45_batch_verification_schedule_independent :
  forall (E : pairing) (cts : list (ciphertext E)) rs pek pgens out,
  verify_commitments_in_batch_par cts rs pek pgens out <-> out = verify_commitments_in_batch cts rs pek pgens.
Proof.
  intros E cts rs pek pgens out. unfold verify_commitments_in_batch_par, verify_commitments_in_batch. split.
  - intros (rr & H & ->). apply C45_parallel_map_deterministic in H. subst rr. reflexivity.
  - intros ->. eexists. split; [apply C45_parallel_map_deterministic; reflexivity|reflexivity].
Qed.

(* concrete case: two different schedules of three items really exist (one finishes in reverse order, with all three
   items in flight at once) *)
Example ex_out_of_order_schedule : par_steps Z.succ [10; 20; 30] 6 (par_init [10; 20; 30]) [Done 11; Done 21; Done 31].
Proof.
  unfold par_init; cbn [map].
  eapply par_trans; [eapply par_trans; [eapply par_trans; [eapply par_trans; [eapply par_trans; [eapply par_trans; [apply par_refl|]|]|]|]|]|].
  - apply (par_start Z.succ [10; 20; 30] [Todo; Todo] []).
  - apply (par_start Z.succ [10; 20; 30] [] [Todo; Busy]).
  - apply (par_start Z.succ [10; 20; 30] [Busy] [Busy]).
  - apply (par_finish Z.succ [10; 20; 30] [Busy; Busy] [] 30 eq_refl).
  - apply (par_finish Z.succ [10; 20; 30] [Busy] [Done (Z.succ 30)] 20 eq_refl).
  - apply (par_finish Z.succ [10; 20; 30] [] [Done (Z.succ 20); Done (Z.succ 30)] 10 eq_refl).
Qed.
Example ex_par_keygen : exists out, keygen_par (replay_rng E61) 4 x_gens x_gi x_delta x_gamma
    (x_rho :: x_s ++ (x_t0 :: x_t) ++ x_v ++ []) (Ok out) /\ fst out = (x_rho, x_ek, x_dk).
Proof.
  destruct x_lengths as (L1 & L2 & L3 & L4).
  pose proof (KeygenFacts.keygen_replay 4 x_gens x_gi x_delta x_gamma 16 x_rho x_s x_t0 x_t x_v [] x_count) as H.
  assert (Hk : keygen (replay_rng E61) 4 x_gens x_gi x_delta x_gamma (x_rho :: x_s ++ (x_t0 :: x_t) ++ x_v ++ []) = Ok (x_rho, x_ek, x_dk, [])).
  { apply H; try assumption. lia. }
  eexists. split; [|apply (f_equal fst (eq_refl (x_rho, x_ek, x_dk, @nil (Fr E61))))].
  apply (proj2 (C45_keygen_schedule_independent E61 (replay_rng E61) 4 x_gens x_gi x_delta x_gamma _ (Ok (SecretKeyST [] [], FEncryptionKeyPartial gzero [] [] [] gzero, [])) _)).
  symmetry. exact Hk.
Qed.
