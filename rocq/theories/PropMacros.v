(* PropMacros.v -- C65: the exported macro join! *)
From Verif Require Import Base Macros.

Section J.
Context {V : Type}.
Implicit Types (e : option V) (es : list (option V)) (r : running V).

(* the tasks of a running join in argument order, and its shape *)
Fixpoint tasks (r : running V) : list (task V) := match r with Single t => [t] | Both t r' => t :: tasks r' end.
Lemma tasks_inner e es : tasks (join_inner e es) = map Busy (e :: es).
Proof. revert e; induction es as [|e' es IH]; intros e; cbn; [reflexivity|]. f_equal. apply IH. Qed.
(* a task belongs to its expression *)
Definition of_expr (e : option V) (t : task V) : Prop := t = Busy e \/ match e with Some v => t = Done v | None => t = Panicked end.
Lemma task_step_of e t t' : task_step t t' -> of_expr e t -> of_expr e t'.
Proof. intros H [->|D]; inversion H; subst; unfold of_expr; auto; destruct e; discriminate. Qed.
Lemma step_of r r' : run_step r r' -> forall es, Forall2 of_expr es (tasks r) -> Forall2 of_expr es (tasks r').
Proof.
  induction 1 as [t t' H|t t' r H|t r r' H IH]; intros es HF; cbn [tasks] in *; inversion HF; subst; constructor; eauto using task_step_of.
Qed.
Lemma steps_of n r r' : run_steps n r r' -> forall es, Forall2 of_expr es (tasks r) -> Forall2 of_expr es (tasks r').
Proof. induction 1; eauto using step_of. Qed.
Fixpoint to_list (n : nested V) : list V := match n with Last v => [v] | Nest v n' => v :: to_list n' end.
Lemma finished_value r o : finished r = Some o -> forall es, Forall2 of_expr es (tasks r) ->
  option_map to_list o = fold_right (fun x acc => match x, acc with Some v, Some l => Some (v :: l) | _, _ => None end) (Some []) es.
Proof.
  revert o; induction r as [t|t r IH]; intros o Ho es HF; cbn [tasks] in HF; inversion HF as [|e t0 es' l He HF' Z1 Z2]; subst; cbn [finished] in Ho.
  - inversion HF'; subst. cbn [fold_right]. destruct He as [->|D]; [discriminate|]. destruct e; subst t; injection Ho as <-; reflexivity.
  - cbn [fold_right]. destruct He as [->|D]; [discriminate|]. destruct e as [v|]; subst t.
    + destruct (finished r) as [[n|]|] eqn:Hr; try discriminate; injection Ho as <-; rewrite <- (IH _ eq_refl _ HF'); reflexivity.
    + destruct (finished r); [|discriminate]. injection Ho as <-. reflexivity.
Qed.
Lemma unnest_value k n l : unnest_tuple k n = Some l -> l = to_list n.
Proof.
  intros H. unfold unnest_tuple in H.
  repeat match type of H with context [match ?x with _ => _ end] => is_var x; destruct x; try discriminate end; injection H as <-; reflexivity.
Qed.
Lemma unnest_ok n : (length (to_list n) <= 6)%nat -> unnest_tuple (length (to_list n)) n = Some (to_list n).
Proof. intros H. do 6 (destruct n as [?|? n]; [reflexivity|]; cbn in H). destruct n; cbn in H; lia. Qed.
Lemma unnest_big n : (6 < length (to_list n))%nat -> unnest_tuple (length (to_list n)) n = None.
Proof. intros H. do 6 (destruct n as [?|? n]; [cbn in H; lia|]). destruct n; reflexivity. Qed.

(* every schedule gets there: one step per expression *)
Definition busy_count (r : running V) : nat := length (filter (fun t => match t with Busy _ => true | _ => false end) (tasks r)).
Lemma step_counts r r' : run_step r r' -> busy_count r = S (busy_count r').
Proof.
  unfold busy_count. induction 1 as [t t' H|t t' r H|t r r' H IH]; cbn [tasks filter]; [inversion H; reflexivity|inversion H; reflexivity|]. destruct t; cbn [length]; lia.
Qed.
Lemma progress (r : running V) : finished r = None -> exists r', run_step r r'.
Proof.
  assert (T : forall e, exists t' : task V, task_step (Busy e) t') by (intros [v|]; eexists; constructor).
  induction r as [t|t r IH]; intros H; cbn in H.
  - destruct t as [e| |]; try discriminate. destruct (T e) as (t' & Ht). exists (Single t'). constructor. exact Ht.
  - destruct t as [e| |]; [destruct (T e) as (t' & Ht); exists (Both t' r); constructor; exact Ht| |];
    (destruct (finished r) as [[?|]|]; try discriminate; destruct (IH eq_refl) as (r' & Hr); eexists; apply step_right; exact Hr).
Qed.
Lemma runs_to_end k r : busy_count r = k -> exists r', run_steps k r r' /\ finished r' <> None.
Proof.
  revert r; induction k as [|k IH]; intros r Hk.
  - exists r. split; [constructor|]. intros Z. destruct (progress _ Z) as (r' & Hr). apply step_counts in Hr. lia.
  - destruct (finished r) eqn:Hf.
    + exfalso. revert o Hf. assert (Hb : busy_count r <> 0%nat) by lia. clear -Hb. unfold busy_count in Hb.
      induction r as [t|t r IH']; cbn in *; intros o Hf; [destruct t; try discriminate; contradiction|].
      destruct t; [discriminate| |]; (destruct (finished r); [|discriminate]; exact (IH' Hb _ eq_refl)).
    + destruct (progress _ Hf) as (r1 & Hr). pose proof (step_counts _ _ Hr). destruct (IH r1) as (r' & H1 & H2); [lia|]. exists r'. split; [econstructor; eassumption|exact H2].
Qed.
Lemma busy_inner e es : busy_count (join_inner e es) = S (length es).
Proof. unfold busy_count. rewrite tasks_inner. cbn. f_equal. induction es as [|x es IH]; cbn; [reflexivity|]. rewrite IH. reflexivity. Qed.

Lemma all_ok_length (l : list (option V)) m : fold_right (fun x acc => match x, acc with Some v, Some l => Some (v :: l) | _, _ => None end) (Some []) l = Some m -> length m = length l.
Proof.
  revert m; induction l as [|x l IH]; intros m H; cbn in H; [injection H as <-; reflexivity|]. destruct x as [v|]; [|discriminate].
  destruct (fold_right _ _ l) as [m'|]; [|discriminate]. injection H as <-. cbn. f_equal. apply IH. reflexivity.
Qed.

(* C65.  With the feature parallel, join! of one to six expressions returns under every schedule what the sequential macro returns: the
   tuple of the values in argument order, or a panic if some expression panics. *)
Theorem C65_join_is_schedule_independent e es out : (length es < 6)%nat -> join_par e es out <-> out = join_seq e es.
Proof.
  intros Hl. assert (H0 : Forall2 of_expr (e :: es) (tasks (join_inner e es))).
  { rewrite tasks_inner. clear Hl. generalize (e :: es). intros l. induction l; constructor; auto. left. reflexivity. }
  split.
  - intros (n & r & o & Hr & Hf & Ho). pose proof (finished_value _ _ Hf _ (steps_of _ _ _ Hr _ H0)) as Hv. unfold join_seq. rewrite <- Hv. destruct o as [t|].
    + destruct Ho as (l & Hu & ->). cbn. rewrite (unnest_value _ _ _ Hu). reflexivity.
    + exact Ho.
  - intros ->. destruct (runs_to_end _ _ (busy_inner e es)) as (r & Hr & Hf). destruct (finished r) as [o|] eqn:Ho; [|contradiction]. exists (S (length es)), r, o. split; [exact Hr|]. split; [exact Ho|].
    pose proof (finished_value _ _ Ho _ (steps_of _ _ _ Hr _ H0)) as Hv. fold (join_seq e es) in Hv. destruct o as [t|]; [|cbn in Hv; symmetry; exact Hv].
    cbn in Hv. exists (to_list t). split; [|symmetry; exact Hv].
    assert (L : length (to_list t) = S (length es)).
    { change (S (length es)) with (length (e :: es)). apply all_ok_length. symmetry. exact Hv. }
    rewrite <- L. apply unnest_ok. lia.
Qed.
(* With more than six expressions the parallel macro is rejected by the compiler (there is no such arm), unlike the sequential one. *)
Theorem C65_join_of_seven_does_not_compile e es l : (6 <= length es)%nat -> ~ join_par e es (Some l).
Proof.
  intros Hl (n & r & o & Hr & Hf & Ho). destruct o as [t|]; [|discriminate]. destruct Ho as (l' & Hu & _). pose proof (unnest_value _ _ _ Hu) as ->.
  assert (H0 : Forall2 of_expr (e :: es) (tasks (join_inner e es))).
  { rewrite tasks_inner. clear. generalize (e :: es). intros l. induction l; constructor; auto. left. reflexivity. }
  pose proof (finished_value _ _ Hf _ (steps_of _ _ _ Hr _ H0)) as Hv. cbn [option_map] in Hv.
  assert (L : length (to_list t) = S (length es)).
  { change (S (length es)) with (length (e :: es)). apply all_ok_length. symmetry. exact Hv. }
  rewrite <- L, unnest_big in Hu by lia. discriminate.
Qed.
End J.
Example C65_case : join_par (Some 1) [Some 2; Some 3] (Some [1; 2; 3]) /\ ~ join_par (Some 1) [None; Some 3] (Some [1; 3]) /\ join_par (Some 1) [None; Some 3] None.
Proof. repeat split; [|intros H|]; try (apply C65_join_is_schedule_independent in H; [discriminate|cbn; lia]); apply C65_join_is_schedule_independent; try reflexivity; cbn; lia. Qed.
