(* PrivacyGame.v -- the answer to one question of an observer as a polynomial function of all coins (for C64) *)
From Verif Require Import Base BaseFacts Algebra Utils UtilsFacts Setup Keygen Encryption Circuit CircuitFacts CircuitSat CommitmentFacts VecFacts KeySpec KeygenFacts
  EncryptFacts DecryptFacts Spec VerifyFacts Protocol ReencFacts DistFacts Groth16 ArkGroth16 PolyFacts Groth16Spec ArkFacts Groth16Facts SchwartzZippel SoundCore SoundSpec
  SoundAlg SoundGame SoundLink SoundFacts SoundCount PrivacySpec PrivacyAlg.

Section PGame.
Context {E : pairing}.
Notation K := (K_of E).
Notation F := (Fr E).
Add Ring Kr : (@scalar_ring_theory K).
Notation "x +f y" := (fadd x y) (at level 50, left associativity).
Notation "x *f y" := (fmul x y) (at level 40, left associativity).
Notation "x -f y" := (fsub x y) (at level 50, left associativity).
Notation e i env := (nth i env fzero).

Variables (n : nat) (cs : csys K) (xs : list F).
Let ni := cs_num_inst cs.
Let nw := cs_num_wit cs.
Let N := length xs.
Let M := (ni + nw)%nat.
(* the coins: those of the setup, then r, rr, ss of encrypt_with_proof *)
Let k := (3 * n + 10)%nat.
Notation pf T x f := (@pfun (K_of E) k (dg T x) f).

Definition e_r (env : list F) : F := e (3 * n + 7) env.
Definition e_rr (env : list F) : F := e (3 * n + 8) env.
Definition e_ss (env : list F) : F := e (3 * n + 9) env.
(* exponents of the first two proof elements, for the assignment z of the circuit *)
Definition a_of (z env : list F) : F := e 0 env +f fdot z (map (colA cs xs (e 4 env)) (seq 0 M)) +f e_rr env *f e 3 env.
Definition b_of (z env : list F) : F := e 1 env +f fdot z (map (colB cs xs (e 4 env)) (seq 0 M)) +f e_ss env *f e 3 env.
Definition u_of (m : nat -> F) (z env : list F) : list F :=
  seen1 n cs xs m (e 0 env) (e 1 env) (e 2 env) (e 3 env) (e 4 env) (e_s env) (e_t n env) (e_r env) (a_of z env) (b_of z env).
Definition v_of (z env : list F) : list F :=
  seen2 n cs xs (e 1 env) (e 2 env) (e 3 env) (e 4 env) (e 5 env) (e_s env) (e_t n env) (e_v n env) (b_of z env).
Definition f_ans (q : list (list F)) (m : nat -> F) (z env : list F) : F := mdot q (u_of m z env) (v_of z env).
Lemma f_ans_eq q m z env : f_ans q m z env =
  answer n cs xs q m (e 0 env) (e 1 env) (e 2 env) (e 3 env) (e 4 env) (e 5 env) (e_s env) (e_t n env) (e_v n env) (e_r env) (a_of z env) (b_of z env).
Proof. reflexivity. Qed.

Lemma pf_dot_cols (z : list F) (f : F -> nat -> F) : (forall j, pf N 0 (fun env => f (e 4 env) j)) -> pf N 0 (fun env => fdot z (map (f (e 4 env)) (seq 0 M))).
Proof.
  intros H. apply (pfun_ext k _ (fun env => fsum (map (fun j => nth j z fzero *f f (e 4 env) j) (seq 0 M)))).
  - intros env _. rewrite (fdot_nth_sum z _ M) by (rewrite map_length, seq_length; reflexivity). f_equal. apply map_ext_in. intros j Hj. apply in_seq in Hj.
    rewrite (map_seq_nth _ M j fzero) by lia. reflexivity.
  - apply (pfun_fsum k _ (fun j env => nth j z fzero *f f (e 4 env) j)). intros j _. apply pfun_scale, H.
Qed.
Lemma pv T x i : i <> 4%nat -> pf T (S x) (fun env => e i env).
Proof. exact (pf_var cs xs k T x i). Qed.
Lemma pm T1 x1 T2 x2 T x (f g : list F -> F) : (T1 + T2 <= T)%nat -> (x1 + x2 <= x)%nat -> pf T1 x1 f -> pf T2 x2 g -> pf T x (fun env => f env *f g env).
Proof. exact (pf_mul cs xs k T1 x1 T2 x2 T x f g). Qed.
Lemma pf_a z : pf N 2 (a_of z).
Proof.
  unfold a_of. apply pfun_add; [apply pfun_add|].
  - apply pv. lia.
  - apply (pf_weak k N 0); [lia|lia|]. apply (pf_dot_cols z (colA cs xs)). intros j. apply pf_colA.
  - unfold e_rr. apply (pm 0 1 0 1); [lia|lia|apply pv; lia|apply pv; lia].
Qed.
Lemma pf_b z : pf N 2 (b_of z).
Proof.
  unfold b_of. apply pfun_add; [apply pfun_add|].
  - apply pv. lia.
  - apply (pf_weak k N 0); [lia|lia|]. apply (pf_dot_cols z (colB cs xs)). intros j. apply pf_colB.
  - unfold e_ss. apply (pm 0 1 0 1); [lia|lia|apply pv; lia|apply pv; lia].
Qed.
Lemma pf_mdot q T1 x1 m1 T2 x2 m2 U V : vec k (dg T1 x1) m1 U -> vec k (dg T2 x2) m2 V -> pf (T1 + T2) (x1 + x2) (fun env => mdot q (U env) (V env)).
Proof.
  intros [LU PU] [LV PV].
  apply (pfun_ext k _ (fun env => fsum (map (fun i => fdot (unit_vec m1 i) (U env) *f fdot (nth i q []) (V env)) (seq 0 m1)))).
  - intros env _. symmetry. pose proof (list_as_map fzero (U env)) as EU. rewrite LU in EU.
    transitivity (mdot q (map (fun i => nth i (U env) fzero) (seq 0 m1)) (V env)); [f_equal; exact EU|]. rewrite (mdot_map q (fun i => nth i (U env) fzero) m1). symmetry. f_equal. apply map_ext_in. intros i Hi. apply in_seq in Hi. f_equal.
    rewrite fdot_comm. rewrite (fdot_nth_sum _ (unit_vec m1 i) m1) by apply unit_length. pose proof (fsum_delta (fun j => nth j (U env) fzero) m1 0 i ltac:(lia)) as D. cbn [Nat.add] in D.
    rewrite <- D. f_equal. apply map_ext_in. intros j Hj. apply in_seq in Hj. unfold unit_vec. rewrite (map_seq_nth _ m1 j fzero) by lia. reflexivity.
  - apply (pfun_fsum k _ (fun i env => fdot (unit_vec m1 i) (U env) *f fdot (nth i q []) (V env))). intros i _. apply (pm T1 x1 T2 x2); [lia|lia|apply PU|apply PV].
Qed.
Lemma vec_scale_var d d' m i (U : list F -> list F) : vec k d m U -> (forall f : list F -> F, pfun k d f -> pfun k d' (fun env => e i env *f f env)) -> vec k d' m (fun env => map (fmul (e i env)) (U env)).
Proof.
  intros [LU PU] H. split; [intros env; rewrite map_length; apply LU|]. intros c. apply (pfun_ext k _ (fun env => e i env *f fdot c (U env))); [|apply H, PU].
  intros env _. generalize (U env) as l. intros l. clear. revert l; induction c as [|c0 c IH]; intros [|x l]; cbn [map fdot]; try ring. rewrite <- IH. ring.
Qed.
Lemma pf_sumn T x (f : list F -> nat -> F) : (forall j, pf T x (fun env => f env j)) -> pf T x (fun env => sum_n n (f env)).
Proof. apply pf_sum. Qed.
Lemma pf_de T x f : pf T x f -> pf T (S x) (fun env => e 3 env *f f env).
Proof. intros H. apply (pm 0 1 T x); [lia|lia|apply pv; lia|exact H]. Qed.
Lemma pf_ga T x f : pf T x f -> pf T (S x) (fun env => e 2 env *f f env).
Proof. intros H. apply (pm 0 1 T x); [lia|lia|apply pv; lia|exact H]. Qed.
Lemma pf_er T x f : pf T x f -> pf T (S x) (fun env => e_r env *f f env).
Proof. intros H. unfold e_r. apply (pm 0 1 T x); [lia|lia|apply pv; lia|exact H]. Qed.
Lemma pf_gdr T x f : pf T x f -> pf T (2 + x) (fun env => e 2 env *f e 3 env *f f env).
Proof. exact (pf_gdx cs xs k f T x). Qed.
Lemma pf_mqq (m : nat -> F) j : pf N 2 (fun env => m j *f (e 3 env *f qq cs xs (e 0 env) (e 1 env) (e 4 env) (S j))).
Proof. apply pfun_scale. apply (pf_de N 1), pf_qq. Qed.
Lemma pf_es j : pf 0 1 (fun env => e_s env j).
Proof. unfold e_s. apply pv. lia. Qed.
Lemma pf_et j : pf 0 1 (fun env => e_t n env j).
Proof. unfold e_t. apply pv. lia. Qed.

Lemma vec_u m z : exists l, vec k (dg (2 * N) 7) l (u_of m z).
Proof.
  destruct (vec_g1 n cs xs k) as (l1 & H1). fold N in H1.
  eexists. unfold u_of, seen1. apply vec_app.
  { eapply (vec_scale_var (dg (2 * N) 5) _ _ 3); [exact H1|]. intros f Hf. apply (pf_weak k (2 * N) 6); [lia|lia|]. apply pf_de. exact Hf. }
  apply vec_app.
  { apply vec_cons; [|apply vec_nil]. apply (pf_weak k 0 5); [lia|lia|]. apply (pf_de 0 4), (pf_gdr 0 2), (pf_er 0 1). apply pv. lia. }
  apply vec_app.
  { apply (vec_map k _ (fun j env => e 3 env *f (e 2 env *f e 3 env *f (e_r env *f (e 3 env *f e_s env j)) +f m j *f (e 3 env *f qq cs xs (e 0 env) (e 1 env) (e 4 env) (S j))))).
    intros j _. apply (pf_weak k N 6); [lia|lia|]. apply (pf_de N 5). apply pfun_add.
    - apply (pf_weak k 0 5); [lia|lia|]. apply (pf_gdr 0 3), (pf_er 0 2), (pf_de 0 1), pf_es.
    - apply (pf_weak k N 2); [lia|lia|apply pf_mqq]. }
  apply vec_app.
  { apply vec_cons; [|apply vec_nil]. apply (pf_weak k N 7); [lia|lia|]. apply (pf_de N 6). apply pfun_add.
    - apply (pf_weak k 0 6); [lia|lia|]. apply (pf_gdr 0 4), (pf_er 0 3), (pf_de 0 2). apply pfun_add; [apply (pf_weak k 0 1); [lia|lia|apply pf_et]|].
      apply (pf_sum n k 0 2 (fun env j => e_s env j *f e_t n env (S j))). intros j. apply (pm 0 1 0 1); [lia|lia|apply pf_es|apply pf_et].
    - apply (pf_sum n k N 6 (fun env j => m j *f (e_t n env (S j) *f (e 3 env *f qq cs xs (e 0 env) (e 1 env) (e 4 env) (S j))))). intros j. apply pfun_scale.
      apply (pm 0 1 N 2); [lia|lia|apply pf_et|]. apply (pf_de N 1), pf_qq. }
  apply vec_app.
  { apply vec_cons; [|apply vec_nil]. apply (pf_weak k N 5); [lia|lia|]. apply (pf_de N 4), (pf_gdr N 2), pf_a. }
  apply vec_cons; [|apply vec_nil]. apply pfun_sub.
  - apply (pf_weak k (2 * N) 6); [lia|lia|]. apply (pf_gdr (2 * N) 4). apply pfun_sub.
    + apply (pm N 2 N 2); [lia|lia|apply pf_a|apply pf_b].
    + apply (pf_weak k 0 2); [lia|lia|]. apply (pm 0 1 0 1); [lia|lia|apply pv; lia|apply pv; lia].
  - apply (pf_weak k N 7); [lia|lia|]. apply (pf_ga N 6). apply pfun_add; [apply pfun_add|].
    + apply (pf_weak k N 2); [lia|lia|]. apply (pf_de N 1), pf_qq.
    + apply (pf_weak k 0 5); [lia|lia|]. apply (pf_gdr 0 3), (pf_er 0 2), (pf_de 0 1). apply pfun_add; [apply pfun_const|].
      apply (pf_sum n k 0 1 (fun env j => e_s env j)). intros j. apply pf_es.
    + apply (pf_sum n k N 6 (fun env j => m j *f (e 3 env *f qq cs xs (e 0 env) (e 1 env) (e 4 env) (S j)))). intros j. apply (pf_weak k N 2); [lia|lia|apply pf_mqq].
Qed.
Lemma vec_v z : exists l, vec k (dg N 2) l (v_of z).
Proof.
  destruct (vec_g2 n cs xs k) as (l2 & H2). fold N in H2. eexists. unfold v_of, seen2. apply vec_app; [exact H2|]. apply vec_cons; [apply pf_b|apply vec_nil].
Qed.
Lemma pf_ans q m z : pf (3 * N) 9 (f_ans q m z).
Proof.
  destruct (vec_u m z) as (l1 & H1). destruct (vec_v z) as (l2 & H2). apply (pf_weak k (2 * N + N) (7 + 2)); [lia|lia|]. apply (pf_mdot q (2 * N) 7 l1 N 2 l2); assumption.
Qed.
Lemma small_ans q m z env : length env = k -> f_ans q m z env <> fzero -> small_zeros k (3 * Z.of_nat N + 9 * (3 * Z.of_nat n + 9)) (f_ans q m z).
Proof.
  intros Hl Hn. exists (dg (3 * N) 9), env. split; [apply pf_ans|]. split; [exact Hl|]. split; [exact Hn|].
  unfold k. replace (3 * n + 10)%nat with (5 + (3 * n + 5))%nat by lia. rewrite deg_sum_dg. lia.
Qed.

(* ---------- identically zero ---------- *)
Variable b0 : Z.
Hypothesis Hb0 : 0 < b0 <= modulus_bit_size K.
Hypothesis Hn0 : (0 < n)%nat.
Hypothesis Hcs : generate_constraints (BitsizeCheckCircuit b0 (Z.of_nat n) None true) (@cs_new K Circuit.Setup) = Ok cs.
Lemma seen1_ext m al be ga de ta s t s' t' r a b : (forall j, (j < n)%nat -> s j = s' j) -> (forall j, (j < S n)%nat -> t j = t' j) ->
  seen1 n cs xs m al be ga de ta s t r a b = seen1 n cs xs m al be ga de ta s' t' r a b.
Proof.
  intros Hs Ht. unfold seen1. rewrite (g1b_ext n cs xs b0 Hb0 Hn0 Hcs al be ga de ta s t s' t' Hs Ht).
  rewrite (sum_n_ext n cs xs b0 Hb0 Hn0 Hcs s s' Hs). rewrite (sum_n_ext n cs xs b0 Hb0 Hn0 Hcs (fun j => s j *f t (S j)) (fun j => s' j *f t' (S j))) by (intros j Hj; rewrite Hs, Ht by lia; reflexivity).
  rewrite (sum_n_ext n cs xs b0 Hb0 Hn0 Hcs (fun j => m j *f (t (S j) *f (de *f qq cs xs al be ta (S j)))) (fun j => m j *f (t' (S j) *f (de *f qq cs xs al be ta (S j))))) by (intros j Hj; rewrite Ht by lia; reflexivity).
  rewrite (Ht 0%nat) by lia. do 2 f_equal. f_equal. apply map_ext_in. intros j Hj. apply in_seq in Hj. rewrite Hs by lia. reflexivity.
Qed.
Lemma tape_nth al be ga de ta rh s t v (tl : list F) i : (i < 3 * n + 7)%nat -> e i (tape_of n al be ga de ta rh s t v ++ tl) = e i (tape_of n al be ga de ta rh s t v).
Proof. intros H. apply app_nth1. rewrite (tape_of_length n cs xs b0 Hb0 Hn0 Hcs). exact H. Qed.
Theorem ans_everywhere q m z : (forall env, length env = k -> e 2 env <> fzero -> e 3 env <> fzero -> f_ans q m z env = fzero) ->
  forall al be ga de ta rh s t v r a b, ga <> fzero -> de <> fzero -> answer n cs xs q m al be ga de ta rh s t v r a b = fzero.
Proof.
  intros H al be ga de ta rh s t v r a b Hg Hd.
  set (A := al +f fdot z (map (colA cs xs ta) (seq 0 M))). set (B := be +f fdot z (map (colB cs xs ta) (seq 0 M))).
  set (T := tape_of n al be ga de ta rh s t v). set (rr := (a -f A) *f finv de). set (ss := (b -f B) *f finv de).
  assert (LT : length T = (3 * n + 7)%nat) by apply (tape_of_length n cs xs b0 Hb0 Hn0 Hcs).
  assert (S0 : forall j, (j < n)%nat -> e_s (T ++ [r; rr; ss]) j = s j) by (intros j Hj; unfold e_s, T; rewrite tape_nth by lia; exact (tape_of_s n al be ga de ta rh s t v j Hj)).
  assert (T0 : forall j, (j < S n)%nat -> e_t n (T ++ [r; rr; ss]) j = t j) by (intros j Hj; unfold e_t, T; rewrite tape_nth by lia; exact (tape_of_t n cs xs b0 Hb0 Hn0 Hcs al be ga de ta rh s t v j Hj)).
  assert (V0 : forall j, (j < n)%nat -> e_v n (T ++ [r; rr; ss]) j = v j) by (intros j Hj; unfold e_v, T; rewrite tape_nth by lia; exact (tape_of_v n cs xs b0 Hb0 Hn0 Hcs al be ga de ta rh s t v j Hj)).
  assert (R0 : forall i, e (3 * n + 7 + i) (T ++ [r; rr; ss]) = e i [r; rr; ss]) by (intros i; rewrite app_nth2 by lia; rewrite LT; f_equal; lia).
  pose proof (H (T ++ [r; rr; ss])) as Z. rewrite f_ans_eq in Z.
  assert (Hr : e_r (T ++ [r; rr; ss]) = r) by (unfold e_r; rewrite <- (Nat.add_0_r (3 * n + 7)), R0; reflexivity).
  assert (Ha : a_of z (T ++ [r; rr; ss]) = a).
  { unfold a_of, e_rr. replace (3 * n + 8)%nat with (3 * n + 7 + 1)%nat by lia. rewrite R0. cbn [nth T tape_of app]. fold A. unfold rr.
    transitivity (A +f (a -f A) *f (finv de *f de)); [ring|]. rewrite finv_l by exact Hd. ring. }
  assert (Hb : b_of z (T ++ [r; rr; ss]) = b).
  { unfold b_of, e_ss. replace (3 * n + 9)%nat with (3 * n + 7 + 2)%nat by lia. rewrite R0. cbn [nth T tape_of app]. fold B. unfold ss.
    transitivity (B +f (b -f B) *f (finv de *f de)); [ring|]. rewrite finv_l by exact Hd. ring. }
  rewrite Hr, Ha, Hb in Z. unfold answer in Z |- *.
  rewrite (seen1_ext m _ _ _ _ _ _ _ s t r a b S0 T0) in Z.
  unfold seen2 in Z |- *. rewrite (g2b_ext n cs xs b0 Hb0 Hn0 Hcs _ _ _ _ _ _ _ _ s t v S0 T0 V0) in Z.
  apply Z; [rewrite app_length, LT; unfold k; cbn [length]; lia|exact Hg|exact Hd].
Qed.
Theorem ans_independent q m z m' z' : 8 < modulus K -> (forall env, length env = k -> e 2 env <> fzero -> e 3 env <> fzero -> f_ans q m z env = fzero) ->
  forall env, e 2 env <> fzero -> e 3 env <> fzero -> f_ans q m' z' env = fzero.
Proof.
  intros big H env Hg Hd. rewrite f_ans_eq. apply (answer_independent n cs xs q big m (ans_everywhere q m z H)); assumption.
Qed.

(* whether a function is zero on all coins is decidable *)
Lemma all_or_some (j : nat) : forall (P : list F -> Prop), (forall env, {P env} + {~ P env}) -> (forall env, length env = j -> P env) \/ exists env, length env = j /\ ~ P env.
Proof.
  induction j as [|j IH]; intros P D.
  - destruct (D []) as [H|H]; [left; intros [|x env] Hl; [exact H|discriminate Hl]|right; exists []; split; [reflexivity|exact H]].
  - assert (H : forall l : list F, (forall x, In x l -> forall env, length env = j -> P (x :: env)) \/ exists x env, length env = j /\ ~ P (x :: env)).
    { induction l as [|x l IHl]; [left; intros x []|]. destruct IHl as [Hl|Hr]; [|right; exact Hr].
      destruct (IH (fun env => P (x :: env)) (fun env => D (x :: env))) as [Hx|(env & H1 & H2)]; [left|right; exists x, env; split; assumption].
      intros y [->|Hy]; [exact Hx|apply Hl; exact Hy]. }
    destruct (H all_scalars) as [Ha|(x & env & H1 & H2)]; [left|right; exists (x :: env); split; [cbn; lia|exact H2]].
    intros [|x env] Hl; [discriminate Hl|]. apply Ha; [apply all_scalars_in|cbn in Hl; lia].
Qed.
Lemma zero_or_small q m z : (forall env, length env = k -> e 2 env <> fzero -> e 3 env <> fzero -> f_ans q m z env = fzero) \/
  small_zeros k (3 * Z.of_nat N + 9 * (3 * Z.of_nat n + 9)) (f_ans q m z) .
Proof.
  destruct (all_or_some k (fun env => f_ans q m z env = fzero) (fun env => feq_dec _ _)) as [H|(env & H1 & H2)].
  - left. intros env Hl _ _. apply H. exact Hl.
  - right. exact (small_ans q m z env H1 H2).
Qed.
End PGame.
