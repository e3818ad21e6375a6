(* SoundLink.v -- a setup on a given tape publishes the elements of SoundAlg.v, and acceptance is the vanishing of the two
   polynomials of SoundGame.v on the tape (for C59-C60) *)
From Verif Require Import Base BaseFacts Algebra Utils Setup Keygen Encryption Circuit CircuitFacts CircuitSat CommitmentFacts VecFacts KeySpec KeygenFacts
  EncryptFacts Spec VerifyFacts Protocol ReencFacts Groth16 ArkGroth16 PolyFacts Groth16Spec ArkFacts Groth16Facts SchwartzZippel SoundCore SoundSpec SoundAlg SoundGame.

Section Link.
Context {E : pairing}.
Notation K := (K_of E).
Notation F := (Fr E).
Add Ring Kr : (@scalar_ring_theory K).
Notation "x +f y" := (fadd x y) (at level 50, left associativity).
Notation "x *f y" := (fmul x y) (at level 40, left associativity).
Notation "x -f y" := (fsub x y) (at level 50, left associativity).
Notation e i env := (nth i env fzero).

Lemma tape_split_rest n (env : list F) : (3 * n + 7 <= length env)%nat ->
  env = e 0 env :: e 1 env :: e 2 env :: e 3 env :: e 4 env :: e 5 env ::
        map (e_s env) (seq 0 n) ++ (e_t n env 0 :: map (fun j => e_t n env (S j)) (seq 0 n)) ++ map (e_v n env) (seq 0 n) ++ skipn (3 * n + 7) env.
Proof.
  intros H. rewrite <- (firstn_skipn (3 * n + 7) env) at 1.
  assert (Q : firstn (3 * n + 7) env = map (fun i => nth i env fzero) (seq 0 (3 * n + 7))).
  { rewrite (list_as_map fzero (firstn (3 * n + 7) env)). rewrite firstn_length. replace (Nat.min (3 * n + 7) (length env)) with (3 * n + 7)%nat by lia.
    apply map_ext_in. intros i Hi. apply in_seq in Hi. rewrite <- (firstn_skipn (3 * n + 7) env) at 2. rewrite app_nth1; [reflexivity|]. rewrite firstn_length. lia. }
  rewrite Q. generalize (skipn (3 * n + 7) env) as tl. intros tl. clear H Q. replace (3 * n + 7)%nat with (6 + (n + (S n + n)))%nat by lia.
  rewrite !seq_app, !map_app. cbn [seq map app Nat.add]. do 6 f_equal. rewrite <- !app_assoc. f_equal; [|cbn [app]; rewrite <- ?app_assoc; apply (f_equal2 (@cons _)); [|f_equal; [|f_equal]]].
  - symmetry. apply (map_seq_add (fun i => nth i env fzero) 6 n).
  - unfold e_t. f_equal. lia.
  - rewrite <- (map_seq_add (fun i => nth i env fzero) _ n). apply map_ext. intros j. unfold e_t. f_equal. lia.
  - rewrite <- (map_seq_add (fun i => nth i env fzero) _ n). apply map_ext. intros j. unfold e_v. f_equal. lia.
Qed.
Lemma tape_split n (env : list F) : length env = (3 * n + 7)%nat ->
  env = e 0 env :: e 1 env :: e 2 env :: e 3 env :: e 4 env :: e 5 env ::
        map (e_s env) (seq 0 n) ++ (e_t n env 0 :: map (fun j => e_t n env (S j)) (seq 0 n)) ++ map (e_v n env) (seq 0 n) ++ [].
Proof. intros H. rewrite (tape_split_rest n env) at 1 by lia. rewrite (skipn_all2 env) by lia. reflexivity. Qed.

Variables (n : nat) (cs : csys K) (xs : list F).
Let ni := cs_num_inst cs.
Let nw := cs_num_wit cs.
Let nc := length (cs_cons cs).
Let N := length xs.
Let M := (ni + nw)%nat.

Lemma ark_generate_tape domain fuel circ al be ga de G H ta rest pk st' :
  circ (cs_new Circuit.Setup) = Ok cs -> domain (nc + ni)%nat = Some xs -> vanishing_at xs ta <> fzero ->
  ark_generate domain fuel (replay_rng E) circ al be ga de G H (ta :: rest) = Ok (pk, st') ->
  ga <> fzero /\ de <> fzero /\ st' = rest /\
  pk = Groth16ProvingKey
      (VerifyingKey (al [*] G) (be [*] H) (ga [*] H) (de [*] H) (map (fun j => (qq cs xs al be ta j *f finv ga) [*] G) (seq 0 ni)))
      (be [*] G) (de [*] G) (map (fun j => colA cs xs ta j [*] G) (seq 0 M)) (map (fun j => colB cs xs ta j [*] G) (seq 0 M))
      (map (fun j => colB cs xs ta j [*] H) (seq 0 M))
      (map (fun i => (vanishing_at xs ta *f finv de *f fpow ta i) [*] G) (seq 0 (N - 1)))
      (map (fun j => (qq cs xs al be ta (ni + j) *f finv de) [*] G) (seq 0 nw)).
Proof.
  intros Hc Hd Hv Hg. unfold ark_generate in Hg. rewrite Hc in Hg. cbn [bind] in Hg. fold nc ni nw in Hg. rewrite Hd in Hg. cbn [domain_or_err bind] in Hg.
  destruct fuel as [|fuel]; [discriminate|]. cbn [sample_outside] in Hg. change (rand_scalar (replay_rng E) (ta :: rest)) with (ta, rest) in Hg. cbv beta iota in Hg.
  destruct (feqb (vanishing_at xs ta) fzero) eqn:Ef; [apply feqb_spec in Ef; contradiction|]. cbn [bind] in Hg.
  unfold instance_map in Hg. fold nc ni nw in Hg. cbv zeta in Hg. unfold inverse_or_err in Hg.
  destruct (feqb ga fzero) eqn:Eg; [discriminate|]. cbn [bind] in Hg. destruct (feqb de fzero) eqn:Ed; [discriminate|]. cbn [bind] in Hg.
  split; [intros Hz; apply feqb_spec in Hz; congruence|]. split; [intros Hz; apply feqb_spec in Hz; congruence|].
  injection Hg as <- <-. split; [reflexivity|].
  match goal with |- context [firstn ni ?l] => assert (Q : l = map (qq cs xs al be ta) (seq 0 M)) end.
  { unfold M. apply map_ext_in. intros j Hj. apply in_seq in Hj. rewrite !(map_seq_nth _ (ni + nw) j fzero) by lia. reflexivity. }
  rewrite Q. clear Q. unfold M.
  assert (Q1 : firstn ni (map (qq cs xs al be ta) (seq 0 (ni + nw))) = map (qq cs xs al be ta) (seq 0 ni)).
  { rewrite seq_app, map_app, firstn_app, map_length, seq_length, Nat.sub_diag. rewrite firstn_all2 by (rewrite map_length, seq_length; lia). cbn. apply app_nil_r. }
  assert (Q2 : skipn ni (map (qq cs xs al be ta) (seq 0 (ni + nw))) = map (fun j => qq cs xs al be ta (ni + j)) (seq 0 nw)).
  { rewrite seq_app, map_app, skipn_app, map_length, seq_length, Nat.sub_diag. rewrite skipn_all2 by (rewrite map_length, seq_length; lia). cbn. symmetry. apply map_seq_add. }
  rewrite Q1, Q2, !map_map. reflexivity.
Qed.

Variables (pf : profile) (domain : nat -> option (list F)) (fuel : nat) (b : Z) (gens : encryption_gens E).
Notation G := (eg_G gens).
Notation H := (eg_H gens).
Hypothesis Hcount : chunks_count K b = Ok (Z.of_nat n).
Hypothesis Hcs : generate_constraints (BitsizeCheckCircuit b (Z.of_nat n) None true) (@cs_new K Circuit.Setup) = Ok cs.
Hypothesis Hdomain : domain (nc + ni)%nat = Some xs.
Hypothesis Hni : ni = S n.

Definition gis (env : list F) : list (G1 E) := map (fun j => (qq cs xs (e 0 env) (e 1 env) (e 4 env) (S j) *f finv (e 2 env)) [*] G) (seq 0 n).
Theorem setup_tape_rest env pk sk ek dk st' : (3 * n + 7 <= length env)%nat -> vanishing_at xs (e 4 env) <> fzero ->
  setup_for_groth16 (ark_backend pf domain fuel) (replay_rng E) b gens env = Ok (pk, sk, ek, dk, st') ->
  e 2 env <> fzero /\ e 3 env <> fzero /\ get_gs_for_encryption (gpk_vk (pk_pk pk)) = Ok (gis env) /\ sk = e 5 env /\
  ek = ek_formula gens (gis env) (e 3 env [*] G) (fneg (e 2 env) [*] G) (map (e_s env) (seq 0 n)) (e_t n env 0) (map (fun j => e_t n env (S j)) (seq 0 n)) /\
  dk = dk_formula gens (e 5 env) (map (e_s env) (seq 0 n)) (map (e_v n env) (seq 0 n)) /\
  gpk_delta_g1 (pk_pk pk) = e 3 env [*] G /\ pk_gamma_g1 pk = fneg (e 2 env) [*] G /\
  gpk_vk (pk_pk pk) = VerifyingKey (e 0 env [*] G) (e 1 env [*] H) (e 2 env [*] H) (e 3 env [*] H)
    (map (fun j => (qq cs xs (e 0 env) (e 1 env) (e 4 env) j *f finv (e 2 env)) [*] G) (seq 0 ni)) /\
  public_g1 gens pk ek = map (fun x => (finv (e 2 env *f e 3 env) *f x) [*] G) (g1e n cs xs env) /\
  public_g2 gens pk ek dk = map (fun x => x [*] H) (g2e n cs xs env) /\
  gpk_a_query (pk_pk pk) = map (fun j => colA cs xs (e 4 env) j [*] G) (seq 0 M) /\ gpk_b_g2_query (pk_pk pk) = map (fun j => colB cs xs (e 4 env) j [*] H) (seq 0 M) /\
  st' = skipn (3 * n + 7) env.
Proof.
  intros Hl Hv Hs. pose proof (tape_split_rest n env Hl) as T. set (tl := skipn (3 * n + 7) env) in *.
  unfold setup_for_groth16 in Hs. unfold circuit_new in Hs. rewrite Hcount in Hs. cbn [bind] in Hs.
  unfold g1e, g2e, gis. set (al := e 0 env) in *. set (be := e 1 env) in *. set (ga := e 2 env) in *. set (de := e 3 env) in *. set (ta := e 4 env) in *. set (rh := e 5 env) in *.
  set (s := e_s env) in *. set (t := e_t n env) in *. set (v := e_v n env) in *. clearbody al be ga de ta rh s t v tl. subst env.
  unfold generate_srs in Hs. cbn [rand_scalar replay_rng] in Hs. cbv beta iota in Hs.
  apply bind_Ok_inv in Hs. destruct Hs as ([pk0 st1] & Hsrs & Hs). apply bind_Ok_inv in Hsrs. destruct Hsrs as ([gpk st2] & Hg & Hp). injection Hp as <- <-.
  cbn [generate_parameters_with_qap ark_backend] in Hg. apply (ark_generate_tape _ _ _ _ _ _ _ _ _ _ _ _ _ Hcs Hdomain Hv) in Hg.
  destruct Hg as (Hga & Hde & -> & ->). cbn [pk_pk gpk_vk vk_gamma_abc_g1 gpk_delta_g1 pk_gamma_g1] in *.
  assert (Hgs : get_gs_for_encryption (VerifyingKey (al [*] G) (be [*] H) (ga [*] H) (de [*] H) (map (fun j => (qq cs xs al be ta j *f finv ga) [*] G) (seq 0 ni)))
    = Ok (map (fun j => (qq cs xs al be ta (S j) *f finv ga) [*] G) (seq 0 n))).
  { unfold get_gs_for_encryption. cbn [vk_gamma_abc_g1]. rewrite Hni. unfold slice_from. cbn [seq map length Nat.leb skipn]. rewrite <- seq_shift, map_map. reflexivity. }
  pose proof Hgs as Hgs2. rewrite Hgs in Hs. cbn [bind] in Hs.
  set (gs := map (fun j => (qq cs xs al be ta (S j) *f finv ga) [*] G) (seq 0 n)) in *.
  change (mul_bigint G (- sval ga mod modulus K)) with (fneg ga [*] G) in *.
  rewrite (keygen_replay b gens gs (de [*] G) (fneg ga [*] G) n rh (map s (seq 0 n)) (t 0%nat) (map (fun j => t (S j)) (seq 0 n)) (map v (seq 0 n)) tl Hcount) in Hs
    by (unfold gs; rewrite !map_length, seq_length; lia).
  cbn [bind] in Hs. injection Hs as <- <- <- <- <-. cbn [pk_pk gpk_vk vk_gamma_abc_g1 gpk_delta_g1 pk_gamma_g1].
  split; [exact Hga|]. split; [exact Hde|]. split; [exact Hgs2|]. split; [reflexivity|]. split; [reflexivity|]. split; [reflexivity|]. split; [reflexivity|]. split; [reflexivity|]. split; [reflexivity|].
  set (w := finv (ga *f de)).
  assert (Hgd : ga *f de <> fzero) by (intros Z; apply fmul_integral in Z; destruct Z; contradiction).
  assert (W1 : forall x, w *f (ga *f de *f x) = x).
  { intros x. transitivity ((ga *f de *f w) *f x); [ring|]. unfold w. rewrite finv_r by exact Hgd. ring. }
  assert (W2 : forall x, w *f (ga *f x) = finv de *f x).
  { intros x. transitivity (w *f (ga *f de *f (finv de *f x))); [|apply W1]. transitivity (w *f ga *f (de *f finv de) *f x); [rewrite finv_r by exact Hde; ring|ring]. }
  assert (W3 : forall x, w *f (de *f x) = finv ga *f x).
  { intros x. transitivity (w *f (ga *f de *f (finv ga *f x))); [|apply W1]. transitivity (w *f de *f (ga *f finv ga) *f x); [rewrite finv_r by exact Hga; ring|ring]. }
  split; [|split; [|split; [reflexivity|split; reflexivity]]].
  - unfold public_g1, g1b, tpart, rest. cbn [pk_pk gpk_vk vk_alpha_g1 gpk_beta_g1 gpk_delta_g1 pk_gamma_g1 gpk_a_query gpk_b_g1_query gpk_h_query gpk_l_query vk_gamma_abc_g1].
    cbn [ek_Y ek_P_1 ek_X_0 ek_X ek_P_2 ek_formula]. fold ni nw M N. rewrite !map_app, !map_map. cbn [map].
    f_equal; [f_equal|f_equal; [|f_equal; [|f_equal; [|f_equal; [|f_equal; [|f_equal; [|f_equal; [|f_equal]]]]]]]].
    + rewrite (scale_as_map _ _ n) by (try (rewrite map_length, seq_length; reflexivity); unfold gs; rewrite map_length, seq_length; lia).
      apply map_ext_in. intros j Hj. apply in_seq in Hj. unfold gs. rewrite !(map_seq_nth _ n j) by lia. rewrite <- smul_fmul. f_equal.
      transitivity (t (S j) *f (w *f (de *f qq cs xs al be ta (S j)))); [rewrite W3; ring|ring].
    + rewrite W1, <- smul_fmul. f_equal. f_equal.
      rewrite (fdot_as_fsum _ _ n) by (rewrite map_length, seq_length; reflexivity). unfold sum_n.
      transitivity (de *f (t 0%nat +f fsum (map (fun j => s j *f t (S j)) (seq 0 n)))); [|reflexivity].
      match goal with |- ?a *f de = _ => transitivity (de *f a); [ring|] end. do 2 f_equal. f_equal. apply map_ext_in. intros j Hj. apply in_seq in Hj.
      rewrite !(map_seq_nth _ n j fzero) by lia. reflexivity.
    + repeat (apply (f_equal2 (@cons _))).
      * replace (w *f (ga *f de)) with (@fone K); [symmetry; apply smul_1_l|]. rewrite <- (W1 fone). ring.
      * rewrite W1. reflexivity.
      * rewrite W1. reflexivity.
      * rewrite W1. reflexivity.
      * f_equal. transitivity (fneg (w *f (ga *f de *f ga))); [rewrite W1; reflexivity|ring].
      * reflexivity.
    + apply map_ext. intros j. rewrite W1. reflexivity.
    + apply map_ext. intros j. rewrite W1. reflexivity.
    + apply map_ext. intros i. f_equal. rewrite W2. ring.
    + apply map_ext. intros j. f_equal. rewrite W2. ring.
    + apply map_ext. intros j. f_equal. rewrite W3. ring.
    + rewrite W1. reflexivity.
    + apply map_ext. intros j. rewrite W1. rewrite <- smul_fmul. f_equal. ring.
    + rewrite <- smul_fmul. do 2 f_equal. unfold sum_n. transitivity (fneg (w *f (ga *f de *f (ga *f (fone +f fsum (map s (seq 0 n))))))); [rewrite W1; ring|ring].
  - unfold public_g2, g2b. cbn [pk_pk gpk_vk vk_beta_g2 vk_gamma_g2 vk_delta_g2 gpk_b_g2_query]. cbn [ek_Z ek_formula dk_V_0 dk_V_1 dk_V_2 dk_formula]. fold ni nw M.
    rewrite !map_app, !map_map. cbn [map seq]. rewrite smul_1_l.
    apply (f_equal2 (@app _)); [reflexivity|]. apply (f_equal2 (@app _)); [reflexivity|]. apply (f_equal2 (@app _)); [|apply (f_equal2 (@app _)); [reflexivity|apply (f_equal2 (@app _)); [|reflexivity]]].
    + f_equal. rewrite <- seq_shift, !map_map. reflexivity.
    + rewrite <- (map_map (fun j => (s j, v j)) (fun '(a, b0) => fmul a b0 [*] H)). f_equal. clear. generalize (seq 0 n) as l. induction l as [|j l IH]; [reflexivity|]. cbn. rewrite IH. reflexivity.
Qed.
Theorem setup_tape env pk sk ek dk st' : length env = (3 * n + 7)%nat -> vanishing_at xs (e 4 env) <> fzero ->
  setup_for_groth16 (ark_backend pf domain fuel) (replay_rng E) b gens env = Ok (pk, sk, ek, dk, st') ->
  e 2 env <> fzero /\ e 3 env <> fzero /\ get_gs_for_encryption (gpk_vk (pk_pk pk)) = Ok (gis env) /\ sk = e 5 env /\
  ek = ek_formula gens (gis env) (e 3 env [*] G) (fneg (e 2 env) [*] G) (map (e_s env) (seq 0 n)) (e_t n env 0) (map (fun j => e_t n env (S j)) (seq 0 n)) /\
  dk = dk_formula gens (e 5 env) (map (e_s env) (seq 0 n)) (map (e_v n env) (seq 0 n)) /\
  gpk_delta_g1 (pk_pk pk) = e 3 env [*] G /\ pk_gamma_g1 pk = fneg (e 2 env) [*] G /\
  gpk_vk (pk_pk pk) = VerifyingKey (e 0 env [*] G) (e 1 env [*] H) (e 2 env [*] H) (e 3 env [*] H)
    (map (fun j => (qq cs xs (e 0 env) (e 1 env) (e 4 env) j *f finv (e 2 env)) [*] G) (seq 0 ni)) /\
  public_g1 gens pk ek = map (fun x => (finv (e 2 env *f e 3 env) *f x) [*] G) (g1e n cs xs env) /\
  public_g2 gens pk ek dk = map (fun x => x [*] H) (g2e n cs xs env).
Proof.
  intros Hl Hv Hs. pose proof (setup_tape_rest env pk sk ek dk st' ltac:(lia) Hv Hs) as (A1 & A2 & A3 & A4 & A5 & A6 & A7 & A8 & A9 & A10 & A11 & _). repeat split; assumption.
Qed.
End Link.
