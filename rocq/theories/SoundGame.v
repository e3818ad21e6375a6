(* SoundGame.v -- the two verification equations as polynomial functions of the random tape of a SAVER setup, and the
   counting argument (for C59-C60) *)
From Verif Require Import Base BaseFacts Algebra Utils Setup Keygen Encryption Circuit CircuitFacts CircuitSat CommitmentFacts VecFacts KeySpec KeygenFacts
  EncryptFacts Spec VerifyFacts Protocol ReencFacts Groth16 ArkGroth16 PolyFacts Groth16Spec ArkFacts Groth16Facts SchwartzZippel SoundCore SoundSpec SoundAlg.

Section Game.
Context {E : pairing}.
Notation K := (K_of E).
Notation F := (Fr E).
Add Ring Kr : (@scalar_ring_theory K).
Notation "x +f y" := (fadd x y) (at level 50, left associativity).
Notation "x *f y" := (fmul x y) (at level 40, left associativity).
Notation "x -f y" := (fsub x y) (at level 50, left associativity).

Variables (n : nat) (cs : csys K) (xs : list F).
Let ni := cs_num_inst cs.
Let nw := cs_num_wit cs.
Let nc := length (cs_cons cs).
Let N := length xs.
Let M := (ni + nw)%nat.
Variable k : nat. (* number of variables: 3n+7 for a setup, more when encryptions follow on the same tape *)

(* the tape: alpha beta gamma delta tau rho s_1..s_n t_0..t_n v_1..v_n *)
Definition e_s (env : list F) (j : nat) : F := nth (6 + j) env fzero.
Definition e_t (env : list F) (j : nat) : F := nth (6 + n + j) env fzero.
Definition e_v (env : list F) (j : nat) : F := nth (7 + 2 * n + j) env fzero.
Notation e i env := (nth i env fzero).

(* ---------- degrees ---------- *)
Definition dg (T x : nat) : nat -> nat := fun i => if Nat.eqb i 4 then T else x.
Notation pf T x f := (@pfun (K_of E) k (dg T x) f).
Lemma pf_weak T x T' x' (f : list F -> F) : (T <= T')%nat -> (x <= x')%nat -> pf T x f -> pf T' x' f.
Proof. intros HT Hx. apply pfun_weaken. intros i _. unfold dg. destruct (Nat.eqb i 4); assumption. Qed.
Lemma pf_mul T1 x1 T2 x2 T x (f g : list F -> F) : (T1 + T2 <= T)%nat -> (x1 + x2 <= x)%nat -> pf T1 x1 f -> pf T2 x2 g -> pf T x (fun env => f env *f g env).
Proof. intros HT Hx. apply pfun_mul. intros i _. unfold dg. destruct (Nat.eqb i 4); lia. Qed.
Lemma pf_var T x i : i <> 4%nat -> pf T (S x) (fun env => e i env).
Proof.
  intros Hi. apply (pfun_ext k _ (fun env => peval [fzero; fone] (e i env))); [intros env _; cbn; ring|]. apply pfun_peval.
  unfold dg. destruct (Nat.eqb_spec i 4); [contradiction|]. cbn. lia.
Qed.
Lemma pf_tau T x (p : @poly K) : (length p <= S T)%nat -> pf T x (fun env => peval p (e 4 env)).
Proof. intros H. apply pfun_peval. exact H. Qed.
Lemma combine_map_snd {A B C} (f : B -> C) (l : list A) (m : list B) : combine l (map f m) = map (fun ab => (fst ab, f (snd ab))) (combine l m).
Proof. revert m; induction l as [|a l IH]; intros [|b m]; try reflexivity. cbn [map combine fst snd]. rewrite IH. reflexivity. Qed.
Lemma pf_column rows j : pf N 0 (fun env => column ni rows (lags xs (e 4 env)) j).
Proof.
  apply (pfun_ext k _ (fun env => fsum (map (fun li => peval (lagrange xs (snd li)) (e 4 env) *f row_coeff ni (fst li) j) (combine rows (seq 0 N))))).
  - intros env _. unfold column, lags. rewrite combine_map_snd, map_map. reflexivity.
  - apply (pfun_fsum k _ (fun li env => peval (lagrange xs (snd li)) (e 4 env) *f row_coeff ni (fst li) j)). intros [l i] Hin.
    apply in_combine_r in Hin. apply in_seq in Hin. cbn [fst snd]. apply (pf_mul N 0 0 0); [lia|lia| |apply pfun_const].
    apply pf_tau. rewrite lagrange_length; fold N; lia.
Qed.
Lemma pf_colA j : pf N 0 (fun env => colA cs xs (e 4 env) j).
Proof.
  unfold colA. apply pfun_add; [|apply pf_column]. fold ni nc. destruct (j <? ni)%nat; [|apply pfun_const].
  destruct (le_lt_dec N (nc + j)) as [H|H].
  - apply (pfun_ext k _ (fun _ => fzero)); [|apply pfun_const]. intros env _. symmetry. apply nth_overflow. unfold lags. rewrite map_length, seq_length. exact H.
  - apply (pfun_ext k _ (fun env => peval (lagrange xs (nc + j)) (e 4 env))).
    + intros env _. unfold lags. rewrite (map_seq_nth _ (length xs) (nc + j) fzero) by exact H. reflexivity.
    + apply pf_tau. rewrite lagrange_length by exact H. fold N. lia.
Qed.
Lemma pf_colB j : pf N 0 (fun env => colB cs xs (e 4 env) j).
Proof. apply pf_column. Qed.
Lemma pf_colC j : pf N 0 (fun env => colC cs xs (e 4 env) j).
Proof. apply pf_column. Qed.
Lemma pf_qq j : pf N 1 (fun env => qq cs xs (e 0 env) (e 1 env) (e 4 env) j).
Proof.
  unfold qq. apply pfun_add; [apply pfun_add|].
  - apply (pf_mul 0 1 N 0); [lia|lia|apply pf_var; lia|apply pf_colA].
  - apply (pf_mul 0 1 N 0); [lia|lia|apply pf_var; lia|apply pf_colB].
  - apply (pf_weak N 0); [lia|lia|apply pf_colC].
Qed.
Lemma pf_h i : (i < N - 1)%nat -> pf (2 * N) 0 (fun env => vanishing_at xs (e 4 env) *f fpow (e 4 env) i).
Proof.
  intros Hi. apply (pf_mul N 0 N 0); [lia|lia| |].
  - apply (pfun_ext k _ (fun env => peval (fold_right (fun x p => pmul [fneg x; fone] p) [fone] xs) (e 4 env))); [intros; apply prod_lin_eval|].
    apply pf_tau. rewrite prod_lin_length. fold N. lia.
  - apply (pfun_ext k _ (fun env => peval (repeat fzero i ++ [fone]) (e 4 env))).
    + intros env _. clear Hi. induction i as [|i IH]; [cbn; ring|]. rewrite fpow_S, <- IH. cbn [repeat app]. rewrite peval_cons. ring.
    + apply pf_tau. rewrite app_length, repeat_length. cbn. lia.
Qed.

(* vectors of polynomial functions *)
Definition vec (d : nat -> nat) (m : nat) (X : list F -> list F) : Prop :=
  (forall env, length (X env) = m) /\ forall c, pfun k d (fun env => fdot c (X env)).
Lemma vec_app d m1 m2 X Y : vec d m1 X -> vec d m2 Y -> vec d (m1 + m2) (fun env => X env ++ Y env).
Proof.
  intros [LX PX] [LY PY]. split; [intros env; rewrite app_length, LX, LY; reflexivity|]. intros c.
  apply (pfun_ext k d (fun env => fdot c (X env) +f fdot (skipn m1 c) (Y env))); [intros env _; rewrite fdot_app_r, LX; reflexivity|].
  apply pfun_add; [apply PX|apply PY].
Qed.
Lemma vec_cons d m f X : pfun k d f -> vec d m X -> vec d (S m) (fun env => f env :: X env).
Proof.
  intros Hf [LX PX]. split; [intros env; cbn; rewrite LX; reflexivity|]. intros [|c0 c]; [exact (pfun_const k d fzero)|]. cbn [fdot].
  apply pfun_add; [apply pfun_scale; exact Hf|apply PX].
Qed.
Lemma vec_nil d : vec d 0 (fun _ => []).
Proof. split; [reflexivity|]. intros c. apply (pfun_ext k d (fun _ => fzero)); [intros; destruct c; reflexivity|apply pfun_const]. Qed.
Lemma vec_map d (f : nat -> list F -> F) l : (forall j, In j l -> pfun k d (f j)) -> vec d (length l) (fun env => map (fun j => f j env) l).
Proof.
  induction l as [|j l IH]; intros H; [apply vec_nil|]. cbn [map length]. apply vec_cons; [apply H; left; reflexivity|].
  apply IH. intros i Hi. apply H. right; exact Hi.
Qed.

Definition g1e (env : list F) : list F := g1b n cs xs (e 0 env) (e 1 env) (e 2 env) (e 3 env) (e 4 env) (e_s env) (e_t env).
Definition g2e (env : list F) : list F := g2b n cs xs (e 1 env) (e 2 env) (e 3 env) (e 4 env) (e 5 env) (e_s env) (e_t env) (e_v env).

Lemma pf_gd : pf 0 2 (fun env => e 2 env *f e 3 env).
Proof. apply (pf_mul 0 1 0 1); [lia|lia|apply pf_var; lia|apply pf_var; lia]. Qed.
Lemma pf_gdx f T x : pf T x f -> pf T (2 + x) (fun env => e 2 env *f e 3 env *f f env).
Proof. intros H. apply (pf_mul 0 2 T x); [lia|lia|apply pf_gd|exact H]. Qed.
Lemma pf_s j T x : pf T (S x) (fun env => e_s env j).
Proof. unfold e_s. apply pf_var. lia. Qed.
Lemma pf_t j T x : pf T (S x) (fun env => e_t env j).
Proof. unfold e_t. apply pf_var. lia. Qed.
Lemma pf_v j T x : pf T (S x) (fun env => e_v env j).
Proof. unfold e_v. apply pf_var. lia. Qed.
Lemma pf_sum T x (f : list F -> nat -> F) : (forall j, pf T x (fun env => f env j)) -> pf T x (fun env => sum_n n (f env)).
Proof. intros H. unfold sum_n. apply (pfun_fsum k _ (fun j env => f env j)). intros j _. apply H. Qed.

Lemma vec_g1 : exists m, vec (dg (2 * N) 5) m g1e.
Proof.
  eexists. unfold g1e, g1b, tpart, rest. fold ni nw M N.
  apply vec_app; [apply vec_app|].
  - apply (vec_map _ (fun j env => e_t env (S j) *f (e 3 env *f qq cs xs (e 0 env) (e 1 env) (e 4 env) (S j)))). intros j _.
    apply (pf_mul 0 1 N 2); [lia|lia|apply pf_t|]. apply (pf_mul 0 1 N 1); [lia|lia|apply pf_var; lia|apply pf_qq].
  - apply vec_cons; [|apply vec_nil]. apply (pf_weak 0 5); [lia|lia|]. apply (pf_gdx _ 0 3). apply (pf_mul 0 1 0 2); [lia|lia|apply pf_var; lia|].
    apply pfun_add; [apply pf_t|]. apply (pf_sum 0 2 (fun env j => e_s env j *f e_t env (S j))). intros j. apply (pf_mul 0 1 0 1); [lia|lia|apply pf_s|apply pf_t].
  - apply vec_app.
    { apply vec_cons; [apply (pf_weak 0 2); [lia|lia|apply pf_gd]|].
      apply vec_cons; [apply (pf_weak 0 3); [lia|lia|apply (pf_gdx _ 0 1), pf_var; lia]|].
      apply vec_cons; [apply (pf_weak 0 3); [lia|lia|apply (pf_gdx _ 0 1), pf_var; lia]|].
      apply vec_cons; [apply (pf_weak 0 3); [lia|lia|apply (pf_gdx _ 0 1), pf_var; lia]|].
      apply vec_cons; [apply (pf_weak 0 3); [lia|lia|apply pfun_neg, (pf_gdx _ 0 1), pf_var; lia]|]. apply vec_nil. }
    apply vec_app.
    { apply (vec_map _ (fun j env => e 2 env *f e 3 env *f colA cs xs (e 4 env) j)). intros j _. apply (pf_weak N 2); [lia|lia|]. apply (pf_gdx _ N 0), pf_colA. }
    apply vec_app.
    { apply (vec_map _ (fun j env => e 2 env *f e 3 env *f colB cs xs (e 4 env) j)). intros j _. apply (pf_weak N 2); [lia|lia|]. apply (pf_gdx _ N 0), pf_colB. }
    apply vec_app.
    { apply (vec_map _ (fun i env => e 2 env *f (vanishing_at xs (e 4 env) *f fpow (e 4 env) i))). intros i Hi. apply in_seq in Hi.
      apply (pf_mul 0 1 (2 * N) 0); [lia|lia|apply pf_var; lia|apply pf_h; lia]. }
    apply vec_app.
    { apply (vec_map _ (fun j env => e 2 env *f qq cs xs (e 0 env) (e 1 env) (e 4 env) (ni + j))). intros j _. apply (pf_mul 0 1 N 1); [lia|lia|apply pf_var; lia|apply pf_qq]. }
    apply vec_app.
    { apply (vec_map _ (fun j env => e 3 env *f qq cs xs (e 0 env) (e 1 env) (e 4 env) j)). intros j _. apply (pf_mul 0 1 N 1); [lia|lia|apply pf_var; lia|apply pf_qq]. }
    apply vec_app.
    { apply vec_cons; [|apply vec_nil]. apply (pf_weak 0 3); [lia|lia|apply (pf_gdx _ 0 1), pf_var; lia]. }
    apply vec_app.
    { apply (vec_map _ (fun j env => e 2 env *f e 3 env *f (e 3 env *f e_s env j))). intros j _. apply (pf_weak 0 4); [lia|lia|]. apply (pf_gdx _ 0 2).
      apply (pf_mul 0 1 0 1); [lia|lia|apply pf_var; lia|apply pf_s]. }
    apply vec_cons; [|apply vec_nil]. apply (pf_weak 0 4); [lia|lia|]. apply pfun_neg. apply (pf_gdx _ 0 2). apply (pf_mul 0 1 0 1); [lia|lia|apply pf_var; lia|].
    apply pfun_add; [apply pfun_const|]. apply (pf_sum 0 1 (fun env j => e_s env j)). intros j. apply pf_s.
Qed.
Lemma pf_g1 c : pf (2 * N) 5 (fun env => fdot c (g1e env)).
Proof. destruct vec_g1 as (m & _ & H). apply H. Qed.
Lemma vec_g2 : exists m, vec (dg N 2) m g2e.
Proof.
  eexists. unfold g2e, g2b. fold ni nw M N.
  apply vec_app.
  { apply vec_cons; [apply pfun_const|]. do 3 (apply vec_cons; [apply pf_var; lia|]). apply vec_nil. }
  apply vec_app.
  { apply (vec_map _ (fun j env => colB cs xs (e 4 env) j)). intros j _. apply (pf_weak N 0); [lia|lia|apply pf_colB]. }
  apply vec_app.
  { apply (vec_map _ (fun j env => e_t env j)). intros j _. apply pf_t. }
  apply vec_app.
  { apply vec_cons; [apply pf_var; lia|apply vec_nil]. }
  apply vec_app.
  { apply (vec_map _ (fun j env => e_s env j *f e_v env j)). intros j _. apply (pf_mul 0 1 0 1); [lia|lia|apply pf_s|apply pf_v]. }
  apply (vec_map _ (fun j env => e_v env j *f e 5 env)). intros j _. apply (pf_mul 0 1 0 1); [lia|lia|apply pf_v|apply pf_var; lia].
Qed.
Lemma pf_g2 c : pf N 2 (fun env => fdot c (g2e env)).
Proof. destruct vec_g2 as (m & _ & H). apply H. Qed.

Variable S0 : strategy E.
Definition f_com (env : list F) : F := eq_com n cs xs S0 (e 0 env) (e 1 env) (e 2 env) (e 3 env) (e 4 env) (e_s env) (e_t env).
Definition f_qap (env : list F) : F :=
  eq_qap n cs xs S0 (e 0 env) (e 1 env) (e 2 env) (e 3 env) (e 4 env) (e 5 env) (e_s env) (e_t env) (e_v env).
Lemma pf_com : pf (3 * N) 7 f_com.
Proof.
  unfold f_com, eq_com. apply pfun_sub; [|apply (pf_weak (2 * N) 5); [lia|lia|apply pf_g1]].
  set (l := sg_X_r S0 :: sg_chunks S0).
  apply (pfun_ext k _ (fun env => fsum (map (fun j => fdot (nth j l []) (g1e env) *f e_t env j) (seq 0 (S n))))).
  - intros env _. rewrite (fdot_nth_sum _ (map (e_t env) (seq 0 (S n))) (S n)) by (rewrite map_length, seq_length; reflexivity). f_equal.
    apply map_ext_in. intros j Hj. apply in_seq in Hj. rewrite (map_seq_nth _ (S n) j fzero) by lia. f_equal. symmetry.
    apply (map_nth (fun c => fdot c (g1e env)) l []).
  - apply (pfun_fsum k _ (fun j env => fdot (nth j l []) (g1e env) *f e_t env j)). intros j _. apply (pf_mul (2 * N) 5 0 1); [lia|lia|apply pf_g1|apply pf_t].
Qed.
Lemma pf_qap : pf (3 * N) 7 f_qap.
Proof.
  unfold f_qap, eq_qap. fold (g1b n cs xs). apply pfun_sub; [apply pfun_sub; [apply pfun_sub|]|].
  - apply (pf_mul (2 * N) 5 N 2); [lia|lia|apply pf_g1|apply pf_g2].
  - apply (pf_weak 0 4); [lia|lia|]. apply (pf_mul 0 3 0 1); [lia|lia| |apply pf_var; lia]. apply (pf_mul 0 2 0 1); [lia|lia| |apply pf_var; lia].
    apply (pf_mul 0 1 0 1); [lia|lia|apply pf_var; lia|apply pf_var; lia].
  - apply (pf_mul 0 1 (2 * N) 5); [lia|lia|apply pf_var; lia|]. apply pfun_add.
    + apply (pfun_fsum k _ (fun c env => fdot c (g1e env))). intros c _. apply pf_g1.
    + apply (pf_mul 0 1 N 1); [lia|lia|apply pf_var; lia|apply pf_qq].
  - apply (pf_mul 0 1 (2 * N) 5); [lia|lia|apply pf_var; lia|apply pf_g1].
Qed.
End Game.
