(* SoundHonest.v -- the honest prover is one of the strategies of SoundSpec.v, and a prover who knows the setup randomness can
   cheat that one setup (the two sides of C59-C61: accepting strategies exist, and the bad setups are not always empty) *)
From Verif Require Import Base BaseFacts Algebra Utils UtilsFacts Setup Keygen Encryption Circuit CircuitFacts CircuitSat CommitmentFacts VecFacts KeySpec KeygenFacts
  EncryptFacts DecryptFacts Spec VerifyFacts Protocol ReencFacts DistFacts Groth16 ArkGroth16 PolyFacts Groth16Spec ArkFacts Groth16Facts SchwartzZippel SoundCore SoundSpec
  SoundAlg SoundGame SoundLink SoundFacts.

Section D.
Context {K : prime_field} {T : group K}.
Notation F := (scalar K).
Add Ring Kr : (@scalar_ring_theory K).
Lemma dot_app_eq (a b : list F) (l m : list T) : length a = length l -> dot (a ++ b) (l ++ m) = dot a l [+] dot b m.
Proof.
  revert l; induction a as [|x a IH]; intros [|y l] Hl; try discriminate; cbn [app dot]; [symmetry; apply gadd_0_l|].
  cbn [length] in Hl. rewrite IH by lia. apply gadd_assoc.
Qed.
Lemma dot_zeros (l : list T) k : dot (repeat fzero k) l = gzero.
Proof. revert l; induction k as [|k IH]; intros [|y l]; cbn [repeat dot]; try reflexivity. rewrite IH, smul_0_l. apply gadd_0_l. Qed.
Lemma dot_scaled (c : F) (a : list F) (l : list T) : dot (map (fmul c) a) l = c [*] dot a l.
Proof. revert l; induction a as [|x a IH]; intros [|y l]; cbn [map dot]; try (symmetry; apply smul_0_r). rewrite IH. glin. Qed.
Definition padz (n : nat) (c : list F) : list F := map (fun j => nth j c fzero) (seq 0 n).
Lemma padz_length n c : length (padz n c) = n.
Proof. unfold padz. rewrite map_length, seq_length. reflexivity. Qed.
Lemma padz_dot c (l : list T) n : length l = n -> dot (padz n c) l = dot c l.
Proof.
  revert c n; induction l as [|y l IH]; intros c n Hn; subst n; unfold padz; [destruct c; reflexivity|]. cbn [length seq map dot]. rewrite <- seq_shift, map_map.
  destruct c as [|x c]; cbn [nth dot].
  - rewrite smul_0_l, gadd_0_l. specialize (IH [] _ eq_refl). unfold padz in IH. rewrite (map_ext _ (fun j => nth j [] fzero)) by (intros j; destruct j; reflexivity). rewrite IH. reflexivity.
  - f_equal. apply (IH c). reflexivity.
Qed.
(* v at position i of n *)
Definition unit_at (n i : nat) (v : F) : list F := repeat fzero i ++ v :: repeat fzero (n - S i).
Lemma unit_at_length n i v : (i < n)%nat -> length (unit_at n i v) = n.
Proof. intros H. unfold unit_at. rewrite app_length. cbn [length]. rewrite !repeat_length. lia. Qed.
Lemma dot_unit n i v (l : list T) : dot (unit_at n i v) l = v [*] nth i l gzero.
Proof.
  unfold unit_at. generalize (n - S i)%nat as m. intros m. revert l; induction i as [|i IH]; intros [|y l]; cbn [repeat app dot nth]; try (symmetry; apply smul_0_r).
  - rewrite dot_zeros. apply gadd_0_r.
  - rewrite IH, smul_0_l. apply gadd_0_l.
Qed.
End D.

Section Honest.
Context {E : pairing}.
Notation K := (K_of E).
Notation F := (Fr E).
Add Ring Kr2 : (@scalar_ring_theory K).
Notation "x +f y" := (fadd x y) (at level 50, left associativity).
Notation "x *f y" := (fmul x y) (at level 40, left associativity).
Notation "x -f y" := (fsub x y) (at level 50, left associativity).
Notation e i env := (nth i env fzero).
Lemma msm_scalars {T : group K} (xs : list T) (ms : list F) : msm_bigint xs (map into_bigint ms) = dot ms xs.
Proof.
  revert ms; induction xs as [|x xs IH]; intros [|m ms]; try reflexivity. cbn [map dot]. rewrite msm_cons, IH. reflexivity.
Qed.

(* coefficients, one per published element of G1 *)
Definition g1_coeffs (y : list F) (p1 g al be de ga : F) (a b h l abc : list F) (x0 : F) (x : list F) (p2 : F) : list F :=
  (y ++ [p1]) ++ [g; al; be; de; ga] ++ a ++ b ++ h ++ l ++ abc ++ [x0] ++ x ++ [p2].

Variables (n : nat) (cs : csys K) (xs : list F) (pf : profile) (domain : nat -> option (list F)) (fuel : nat) (b : Z) (gens : encryption_gens E).
Let ni := cs_num_inst cs.
Let nw := cs_num_wit cs.
Let nc := length (cs_cons cs).
Let N := length xs.
Let M := (ni + nw)%nat.
Notation G := (eg_G gens).
Notation H := (eg_H gens).
Hypothesis Hdom_ok : domain_ok domain.
Hypothesis Hb : 0 < b <= modulus_bit_size K.
Hypothesis Hcount : chunks_count K b = Ok (Z.of_nat n).
Hypothesis Hn0 : (0 < n)%nat.
Hypothesis Hcs : generate_constraints (BitsizeCheckCircuit b (Z.of_nat n) None true) (@cs_new K Circuit.Setup) = Ok cs.
Hypothesis Hdomain : domain (nc + ni)%nat = Some xs.
Let Hni : ni = S n := proj1 (cs_shape n cs xs b Hb Hn0 Hcs).

(* the shape of the published key *)
Definition key_shape (pk : proving_key E) (ek : encryption_key E) : Prop :=
  length (ek_Y ek) = n /\ length (ek_X ek) = n /\ length (gpk_a_query (pk_pk pk)) = M /\ length (gpk_b_g1_query (pk_pk pk)) = M /\ length (gpk_b_g2_query (pk_pk pk)) = M /\
  length (gpk_h_query (pk_pk pk)) = (N - 1)%nat /\ length (gpk_l_query (pk_pk pk)) = nw /\ length (vk_gamma_abc_g1 (gpk_vk (pk_pk pk))) = ni.
Lemma dot_g1_coeffs pk ek y p1 g al be de ga a b1 h l abc x0 x p2 : key_shape pk ek ->
  length y = n -> length x = n -> length a = M -> length b1 = M -> length h = (N - 1)%nat -> length l = nw -> length abc = ni ->
  dot (g1_coeffs y p1 g al be de ga a b1 h l abc x0 x p2) (public_g1 gens pk ek) =
    dot y (ek_Y ek) [+] (p1 [*] ek_P_1 ek) [+] (g [*] G) [+] (al [*] vk_alpha_g1 (gpk_vk (pk_pk pk))) [+] (be [*] gpk_beta_g1 (pk_pk pk)) [+] (de [*] gpk_delta_g1 (pk_pk pk))
    [+] (ga [*] pk_gamma_g1 pk) [+] dot a (gpk_a_query (pk_pk pk)) [+] dot b1 (gpk_b_g1_query (pk_pk pk)) [+] dot h (gpk_h_query (pk_pk pk)) [+] dot l (gpk_l_query (pk_pk pk))
    [+] dot abc (vk_gamma_abc_g1 (gpk_vk (pk_pk pk))) [+] (x0 [*] ek_X_0 ek) [+] dot x (ek_X ek) [+] (p2 [*] ek_P_2 ek).
Proof.
  intros (S1 & S2 & S3 & S4 & S5 & S6 & S7 & S8) L1 L2 L3 L4 L5 L6 L7. unfold g1_coeffs, public_g1. cbv zeta.
  rewrite !dot_app_eq by (rewrite ?app_length; cbn [length]; congruence). cbn [dot]. glin.
Qed.

(* on every tape without a rejected evaluation point the key has this shape, and the Groth16 part belongs to it *)
Lemma setup_exists_rest env : (3 * n + 7 <= length env)%nat -> e 2 env <> fzero -> e 3 env <> fzero -> vanishing_at xs (e 4 env) <> fzero -> (0 < fuel)%nat ->
  exists pk sk ek dk, setup_for_groth16 (ark_backend pf domain fuel) (replay_rng E) b gens env = Ok (pk, sk, ek, dk, skipn (3 * n + 7) env).
Proof.
  intros Hl Hga Hde Hv Hf. pose proof (tape_split_rest n env Hl) as T. set (tl := skipn (3 * n + 7) env) in *.
  unfold setup_for_groth16, circuit_new. rewrite Hcount. cbn [bind].
  set (al := e 0 env) in *. set (be := e 1 env) in *. set (ga := e 2 env) in *. set (de := e 3 env) in *. set (ta := e 4 env) in *. set (rh := e 5 env) in *.
  set (s := e_s env) in *. set (t := e_t n env) in *. set (v := e_v n env) in *. clearbody al be ga de ta rh s t v tl. subst env.
  unfold generate_srs. cbn [rand_scalar replay_rng]. cbv beta iota. cbn [generate_parameters_with_qap ark_backend].
  unfold ark_generate. rewrite Hcs. cbn [bind]. fold nc ni nw. rewrite Hdomain. cbn [domain_or_err bind].
  destruct fuel as [|fuel']; [lia|]. cbn [sample_outside].
  match goal with |- context [rand_scalar (replay_rng E) (ta :: ?r)] => change (rand_scalar (replay_rng E) (ta :: r)) with (ta, r) end. cbv beta iota.
  destruct (feqb (vanishing_at xs ta) fzero) eqn:Ef; [apply feqb_spec in Ef; contradiction|]. cbn [bind].
  unfold instance_map. cbv zeta. unfold inverse_or_err.
  destruct (feqb ga fzero) eqn:Eg; [apply feqb_spec in Eg; contradiction|]. cbn [bind].
  destruct (feqb de fzero) eqn:Ed; [apply feqb_spec in Ed; contradiction|]. cbn [bind pk_pk gpk_vk].
  match goal with |- context [get_gs_for_encryption ?vk] => assert (Hgs : exists g_i, get_gs_for_encryption vk = Ok g_i /\ length g_i = n) end.
  { unfold get_gs_for_encryption. cbn [vk_gamma_abc_g1]. unfold slice_from. rewrite !map_length, firstn_length, map_length, seq_length. fold ni nw. rewrite Hni.
    destruct (Nat.leb_spec 1 (Nat.min (S n) (S n + nw))) as [_|X]; [|lia]. eexists. split; [reflexivity|].
    rewrite skipn_length, !map_length, firstn_length, map_length, seq_length. lia. }
  destruct Hgs as (g_i & -> & Lg). cbn [bind].
  match goal with |- context [keygen _ _ _ _ ?d ?g _] => rewrite (keygen_replay b gens g_i d g n rh (map s (seq 0 n)) (t 0%nat) (map (fun j => t (S j)) (seq 0 n)) (map v (seq 0 n)) tl Hcount) end;
    try (rewrite map_length, seq_length; reflexivity); [|lia].
  cbn [bind]. repeat eexists.
Qed.
Lemma setup_exists env : length env = (3 * n + 7)%nat -> e 2 env <> fzero -> e 3 env <> fzero -> vanishing_at xs (e 4 env) <> fzero -> (0 < fuel)%nat ->
  exists pk sk ek dk, setup_for_groth16 (ark_backend pf domain fuel) (replay_rng E) b gens env = Ok (pk, sk, ek, dk, []).
Proof.
  intros Hl H2 H3 H4 H5. destruct (setup_exists_rest env ltac:(lia) H2 H3 H4 H5) as (pk & sk & ek & dk & X). rewrite skipn_all2 in X by lia. exists pk, sk, ek, dk. exact X.
Qed.
Lemma setup_shape env pk sk ek dk st' : length env = (3 * n + 7)%nat -> vanishing_at xs (e 4 env) <> fzero ->
  setup_for_groth16 (ark_backend pf domain fuel) (replay_rng E) b gens env = Ok (pk, sk, ek, dk, st') -> key_shape pk ek.
Proof.
  intros Hl Hv Hs. pose proof (setup_tape n cs xs pf domain fuel b gens Hcount Hcs Hdomain Hni env pk sk ek dk st' Hl Hv Hs) as (_ & _ & _ & _ & Hek & _ & _ & _ & Hvk & _).
  pose proof (tape_split n env Hl) as T. unfold setup_for_groth16, circuit_new in Hs. rewrite Hcount in Hs. cbn [bind] in Hs.
  rewrite T in Hs. unfold generate_srs in Hs. cbn [rand_scalar replay_rng] in Hs. cbv beta iota in Hs.
  apply bind_Ok_inv in Hs. destruct Hs as ([pk0 st1] & Hsrs & Hs). apply bind_Ok_inv in Hsrs. destruct Hsrs as ([gpk st2] & Hg & Hp). injection Hp as <- <-.
  cbn [generate_parameters_with_qap ark_backend] in Hg. eapply ark_generate_tape in Hg; [|exact Hcs|exact Hdomain|exact Hv].
  destruct Hg as (_ & _ & _ & Hgpk). apply bind_Ok_inv in Hs. destruct Hs as (g_i & _ & Hs). apply bind_Ok_inv in Hs. destruct Hs as ([[[sk0 ek0] dk0] st0] & _ & Hs).
  injection Hs as <- _ _ _ _. cbn [pk_pk] in *. unfold key_shape. cbn [pk_pk]. rewrite Hvk. rewrite Hgpk.
  cbn [gpk_a_query gpk_b_g1_query gpk_b_g2_query gpk_h_query gpk_l_query vk_gamma_abc_g1]. rewrite !map_length, !seq_length.
  assert (Lg : length (gis n cs xs gens env) = n) by (unfold gis; rewrite map_length, seq_length; reflexivity).
  destruct (ek_formula_lengths gens (gis n cs xs gens env) (e 3 env [*] G) (fneg (e 2 env) [*] G) (map (e_s env) (seq 0 n)) (e_t n env 0) (map (fun j => e_t n env (S j)) (seq 0 n)) n
    ltac:(rewrite map_length, seq_length; reflexivity) ltac:(rewrite map_length, seq_length; reflexivity) ltac:(lia)) as (LX & LY & _).
  rewrite Hek. repeat split; assumption.
Qed.

(* the honest prover's coefficients: sp is the synthesized circuit with its assignment, ds the chunks, r the encryption randomness,
   rr and ss the two scalars of the Groth16 prover *)
Definition zs (k : nat) : list F := repeat fzero k.
Definition honest_strategy (sp : csys K) (ds : list Z) (r rr ss : F) : strategy E :=
  let full := padz M (cs_inst sp ++ cs_wit sp) in
  Strategy
    (g1_coeffs (zs n) fzero fzero fone fzero rr fzero full (zs M) (zs (N - 1)) (zs nw) (zs ni) fzero (zs n) fzero)
    ([fzero; fone; fzero; ss] ++ full)
    (g1_coeffs (zs n) fzero fzero ss rr (rr *f ss) fzero (map (fmul ss) full) (map (fmul rr) full) (padz (N - 1) (witness_map xs sp)) (padz nw (cs_wit sp)) (zs ni) fzero (zs n) r)
    (g1_coeffs (zs n) fzero fzero fzero fzero fzero fzero (zs M) (zs M) (zs (N - 1)) (zs nw) (zs ni) r (zs n) fzero)
    (map (fun i => g1_coeffs (zs n) fzero fzero fzero fzero fzero fzero (zs M) (zs M) (zs (N - 1)) (zs nw) (unit_at ni (S i) (of_Z (nth i ds 0))) fzero (unit_at n i r) fzero) (seq 0 n))
    (g1_coeffs (map of_Z ds) r fzero fzero fzero fzero fzero (zs M) (zs M) (zs (N - 1)) (zs nw) (zs ni) fzero (zs n) fzero).
Lemma zs_length k : length (zs k) = k.
Proof. apply repeat_length. Qed.
Lemma dot_zs {T : group K} (l : list T) k : dot (zs k) l = gzero.
Proof. apply dot_zeros. Qed.

Lemma coeff_dot {T : group K} (init : T) (q : list T) (par x : T) inst wit : (exists vs, inst = fone :: vs) -> length q = M ->
  calculate_coeff init q par (tl inst ++ wit) = Ok x -> x = init [+] dot (padz M (inst ++ wit)) q [+] par.
Proof.
  intros (vs & ->) Lq Hx. unfold calculate_coeff in Hx. destruct q as [|q0 q]; [discriminate Hx|]. cbn [idx nth_error bind] in Hx.
  unfold slice_from in Hx. cbn [length Nat.leb bind skipn tl] in Hx. rewrite msm_scalars in Hx. injection Hx as <-. rewrite padz_dot by exact Lq.
  cbn [app dot]. rewrite smul_1_l. glin.
Qed.
Theorem honest_proof_is_forged pk ek dk circ sp ds r rr ss p st : key_shape pk ek ->
  length (ek_Z ek) = (n + 1)%nat -> 
  circ (cs_new Prove) = Ok sp -> cs_cons sp = cs_cons cs -> cs_num_inst sp = ni -> (exists vs, cs_inst sp = fone :: vs) ->
  create_proof (ark_backend pf domain fuel) (replay_rng E) circ r pk ek [rr; ss] = Ok (p, st) ->
  p = forge_proof (honest_strategy sp ds r rr ss) gens pk ek dk /\ st = [].
Proof.
  intros Hsh HZ Hsp Hc Hi Hinst Hp. pose proof Hsh as (S1 & S2 & S3 & S4 & S5 & S6 & S7 & S8).
  unfold create_proof in Hp. change (rand_scalar (replay_rng E) [rr; ss]) with (rr, [ss]) in Hp. cbv beta iota in Hp. change (rand_scalar (replay_rng E) [ss]) with (ss, @nil F) in Hp. cbv beta iota in Hp.
  apply bind_Ok_inv in Hp. destruct Hp as (p0 & Hp0 & Hp). injection Hp as <- <-. split; [|reflexivity].
  cbn [create_proof_with_reduction ark_backend] in Hp0. unfold ark_prove in Hp0. rewrite Hsp in Hp0. cbn [bind] in Hp0.
  apply bind_Ok_inv in Hp0. destruct Hp0 as (u & _ & Hp0). rewrite Hc, Hi in Hp0. fold nc in Hp0. rewrite Hdomain in Hp0. cbn [domain_or_err bind] in Hp0.
  destruct Hinst as (vs & Hinst). assert (Hsl : slice_from (cs_inst sp) 1 = Ok (tl (cs_inst sp))) by (rewrite Hinst; reflexivity).
  rewrite Hsl in Hp0. cbn [bind] in Hp0. rewrite !msm_scalars in Hp0.
  apply bind_Ok_inv in Hp0. destruct Hp0 as (ga & Ha & Hp0). apply bind_Ok_inv in Hp0. destruct Hp0 as (gb1 & Hb1 & Hp0). apply bind_Ok_inv in Hp0. destruct Hp0 as (gb2 & Hb2 & Hp0). injection Hp0 as <-.
  apply coeff_dot in Ha; [|exists vs; exact Hinst|exact S3]. apply coeff_dot in Hb2; [|exists vs; exact Hinst|exact S5].
  set (full := padz M (cs_inst sp ++ cs_wit sp)) in *. assert (Lf : length full = M) by apply padz_length.
  assert (Eb1 : rr [*] gb1 = rr [*] ((ss [*] gpk_delta_g1 (pk_pk pk)) [+] dot full (gpk_b_g1_query (pk_pk pk)) [+] gpk_beta_g1 (pk_pk pk))).
  { destruct (feqb rr fzero) eqn:Er; [apply feqb_spec in Er; rewrite Er, !smul_0_l; reflexivity|]. apply coeff_dot in Hb1; [|exists vs; exact Hinst|exact S4]. rewrite Hb1. reflexivity. }
  unfold forge_proof, honest_strategy. cbn [sg_a sg_b sg_c pr_a pr_b pr_c]. fold full.
  rewrite !dot_g1_coeffs by (try exact Hsh; rewrite ?zs_length, ?map_length, ?padz_length; first [exact Lf|reflexivity]).
  rewrite !dot_zs, !dot_scaled, !padz_dot by assumption. f_equal.
  - rewrite Ha. glin.
  - rewrite Hb2. unfold public_g2. cbv zeta.
    transitivity (dot [fzero; fone; fzero; ss] [H; vk_beta_g2 (gpk_vk (pk_pk pk)); vk_gamma_g2 (gpk_vk (pk_pk pk)); vk_delta_g2 (gpk_vk (pk_pk pk))] [+] dot full (gpk_b_g2_query (pk_pk pk))).
    + cbn [dot]. glin.
    + rewrite dot_app_eq by reflexivity. apply (f_equal2 gadd); [reflexivity|].
      match goal with |- _ = dot full (_ ++ ?l) => transitivity (dot (full ++ []) (gpk_b_g2_query (pk_pk pk) ++ l)); [|rewrite app_nil_r; reflexivity] end.
      rewrite dot_app_eq by congruence. cbn [dot]. symmetry. apply gadd_0_r.
  - change (mul_bigint (ek_P_2 ek) (into_bigint r)) with (r [*] ek_P_2 ek). rewrite Eb1, Ha. glin.
Qed.
Theorem honest_ciphertext_is_forged pk ek g_i sp ds r rr ss : key_shape pk ek -> length ds = n -> get_gs_for_encryption (gpk_vk (pk_pk pk)) = Ok g_i ->
  ct_formula ek g_i ds r = forge_ciphertext (honest_strategy sp ds r rr ss) gens pk ek.
Proof.
  intros Hsh Ld Hg. pose proof Hsh as (S1 & S2 & S3 & S4 & S5 & S6 & S7 & S8).
  assert (Hgi : forall i, nth i g_i gzero = nth (S i) (vk_gamma_abc_g1 (gpk_vk (pk_pk pk))) gzero).
  { intros i. unfold get_gs_for_encryption, slice_from in Hg. destruct (vk_gamma_abc_g1 (gpk_vk (pk_pk pk))) as [|g0 gs]; [discriminate Hg|]. cbn [length Nat.leb skipn] in Hg. injection Hg as <-. reflexivity. }
  unfold forge_ciphertext, honest_strategy, ct_formula. cbn [sg_X_r sg_chunks sg_commitment]. f_equal.
  - rewrite dot_g1_coeffs by (try exact Hsh; rewrite ?zs_length; reflexivity). rewrite !dot_zs. glin.
  - unfold body_formula. rewrite Ld, map_map. apply map_ext_in. intros i Hi. apply in_seq in Hi.
    rewrite dot_g1_coeffs by (try exact Hsh; rewrite ?zs_length, ?unit_at_length; try reflexivity; lia). rewrite !dot_zs, !dot_unit, Hgi. glin.
  - rewrite dot_g1_coeffs by (try exact Hsh; rewrite ?zs_length, ?map_length; first [reflexivity|exact Ld]). rewrite !dot_zs. unfold psi_formula. glin.
Qed.
Lemma honest_extracts sp ds r rr ss : length ds = n -> Forall (fun z => 0 <= z < modulus K) ds ->
  extracted_chunks n (honest_strategy sp ds r rr ss) = ds /\ extracted_r n (honest_strategy sp ds r rr ss) = r.
Proof.
  intros Ld Hr. unfold extracted_chunks, extracted_r, honest_strategy, g1_coeffs. cbn [sg_commitment]. split.
  - transitivity (map (fun i => nth i ds 0) (seq 0 n)); [|rewrite <- Ld; symmetry; apply list_as_map]. apply map_ext_in. intros j Hj. apply in_seq in Hj.
    rewrite app_nth1 by (rewrite app_length, map_length; cbn [length]; lia). rewrite app_nth1 by (rewrite map_length; lia).
    rewrite (nth_indep _ fzero (of_Z 0)) by (rewrite map_length; lia). rewrite map_nth. unfold into_bigint. apply of_Z_small.
    rewrite Forall_forall in Hr. apply Hr. apply nth_In. lia.
  - rewrite app_nth1 by (rewrite app_length, map_length; cbn [length]; lia). rewrite app_nth2 by (rewrite map_length; lia). rewrite map_length, Ld, Nat.sub_diag. reflexivity.
Qed.
End Honest.
