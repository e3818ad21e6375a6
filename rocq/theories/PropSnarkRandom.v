(* PropSnarkRandom.v -- C57 continued: the randomness used by the functions that involve the SNARK *)
From Verif Require Import Base BaseFacts Algebra Utils UtilsFacts Setup Keygen KeygenFacts Encryption EncryptFacts DecryptFacts RoundTrip
  Spec KeySpec VecFacts Circuit CircuitFacts Groth16 ArkGroth16 PolyFacts ArkFacts PropRandom Instance Examples PropGroth16Cases.

Section Proofs.
Context {E : pairing}.
(* A proof takes two scalars, an encryption with proof three, whatever the implementation of Groth16 (its prover is deterministic given both). *)
Theorem C57_proof_randomness : forall (pf : profile) (B : groth16_backend E) (R : rng_impl E) circ r pk ek msg b (st : rng_st R),
  create_proof B R circ r pk ek st = with_state (create_proof B (replay_rng E) circ r pk ek (draws R 2 st)) (after R 2 st) /\
  encrypt_with_proof pf B R msg ek pk b st = with_state (encrypt_with_proof pf B (replay_rng E) msg ek pk b (draws R 3 st)) (after R 3 st).
Proof.
  intros pf B R circ r pk ek msg b st.
  assert (X : forall circ r st l, create_proof B R circ r pk ek st = with_state (create_proof B (replay_rng E) circ r pk ek (draws R 2 st ++ l)) (after R 2 st)).
  { clear. intros circ r st l. unfold create_proof. cbn [draws after app].
    match goal with |- context [rand_scalar (replay_rng E) (?x :: ?y)] => change (rand_scalar (replay_rng E) (x :: y)) with (x, y); cbv beta iota end.
    match goal with |- context [rand_scalar (replay_rng E) (?x :: ?y)] => change (rand_scalar (replay_rng E) (x :: y)) with (x, y); cbv beta iota end.
    destruct (rand_scalar R st) as [t st1]. cbn [fst snd]. destruct (rand_scalar R st1) as [s st2]. cbn [fst snd].
    destruct (create_proof_with_reduction B circ (pk_pk pk) t s); reflexivity. }
  split; [rewrite (X circ r st []), app_nil_r; reflexivity|].
  unfold encrypt_with_proof. destruct (get_gs_for_encryption (gpk_vk (pk_pk pk))) as [g_i|e|]; cbn [bind]; [|reflexivity..].
  destruct (C57_encryption_randomness pf E R ek g_i b msg [] st) as [_ A].
  destruct (C57_encryption_randomness pf E (replay_rng E) ek g_i b msg [] (draws R 3 st)) as [_ A'].
  rewrite A, A'. clear A A'. change (draws R 3 st) with (fst (rand_scalar R st) :: draws R 2 (snd (rand_scalar R st))). change (after R 3 st) with (after R 2 (snd (rand_scalar R st))).
  change (draws (replay_rng E) 1 (fst (rand_scalar R st) :: draws R 2 (snd (rand_scalar R st)))) with (draws R 1 st).
  change (after (replay_rng E) 1 (fst (rand_scalar R st) :: draws R 2 (snd (rand_scalar R st)))) with (draws R 2 (snd (rand_scalar R st))).
  change (after R 1 st) with (snd (rand_scalar R st)).
  destruct (encrypt pf (replay_rng E) msg ek g_i b (draws R 1 st)) as [[[ct r0] st0]|e|]; cbn [bind with_state]; [|reflexivity..].
  destruct (decompose pf msg b) as [d|e|]; cbn [bind]; [|reflexivity..]. destruct (circuit_new b None _ true) as [ci|e|]; cbn [bind]; [|reflexivity..].
  rewrite (X (generate_constraints ci) r0 (snd (rand_scalar R st)) []), app_nil_r.
  destruct (create_proof B (replay_rng E) (generate_constraints ci) r0 pk ek (draws R 2 (snd (rand_scalar R st)))) as [[p st2]|e|]; reflexivity.
Qed.

(* the evaluation point: scalars of the evaluation domain are drawn again *)
Lemma sample_outside_exact (R : rng_impl E) xs fuel : forall j st, (forall x, In x (draws R j st) -> In x xs) -> ~ In (fst (rand_scalar R (after R j st))) xs -> (j < fuel)%nat ->
  sample_outside R fuel xs st = Ok (rand_scalar R (after R j st)).
Proof.
  induction fuel as [|f IH]; intros j st Hin Hout Hj; [lia|]. cbn [sample_outside]. destruct (rand_scalar R st) as [t st1] eqn:Hr.
  destruct (feqb (vanishing_at xs t) fzero) eqn:Ef.
  - apply feqb_spec, vanishing_zero in Ef. destruct j as [|j]; [cbn [after] in Hout; rewrite Hr in Hout; destruct (Hout Ef)|].
    cbn [after draws] in *. rewrite Hr in *. cbn [fst snd] in *. apply (IH j st1); [intros x Hx; apply Hin; right; exact Hx|exact Hout|lia].
  - destruct j as [|j]; [cbn [after]; rewrite Hr; reflexivity|]. exfalso. cbn [draws] in Hin. rewrite Hr in Hin. cbn [fst snd] in Hin.
    specialize (Hin t (or_introl eq_refl)). apply vanishing_zero, feqb_spec in Hin. congruence.
Qed.
Lemma draws_tape (R : rng_impl E) j st l : draws (replay_rng E) j (draws R j st ++ l) = draws R j st /\ after (replay_rng E) j (draws R j st ++ l) = l.
Proof. pose proof (draws_replay (draws R j st) l) as H. rewrite draws_length in H. exact H. Qed.
Lemma sample_outside_replay (R : rng_impl E) xs fuel j st l : (forall x, In x (draws R j st) -> In x xs) -> ~ In (fst (rand_scalar R (after R j st))) xs -> (j < fuel)%nat ->
  sample_outside (replay_rng E) fuel xs (draws R (S j) st ++ l) = Ok (fst (rand_scalar R (after R j st)), l).
Proof.
  intros Hin Hout Hj. replace (S j) with (j + 1)%nat by lia. rewrite draws_add, <- app_assoc. destruct (draws_tape R j st (draws R 1 (after R j st) ++ l)) as [D A].
  rewrite (sample_outside_exact (replay_rng E) xs fuel j); rewrite ?D, ?A; [reflexivity|exact Hin|exact Hout|exact Hj].
Qed.
(* The setup with ark-groth16: four scalars, then scalars up to the first one outside of the evaluation domain (of the size asked for), then
   those of the key generation.  `j` is the number of scalars drawn in vain; the loop of the library has no bound, the one of the model is `fuel`. *)
Theorem C57_setup_randomness : forall (pf : profile) domain fuel (R : rng_impl E) gens circ s xs j (st : rng_st R),
  circ (cs_new Circuit.Setup) = Ok s -> domain (length (cs_cons s) + cs_num_inst s)%nat = Some xs ->
  (forall x, In x (draws R j (after R 4 st)) -> In x xs) -> ~ In (fst (rand_scalar R (after R (4 + j) st))) xs -> (j < fuel)%nat ->
  let B := ark_backend pf domain fuel in
  generate_srs B R circ gens st = with_state (generate_srs B (replay_rng E) circ gens (draws R (5 + j) st)) (after R (5 + j) st) /\
  (forall b n ci, circuit_new b None None true = Ok ci -> generate_constraints ci = circ -> chunks_count (K_of E) b = Ok n ->
     let k := (5 + j + (3 * Z.to_nat n + 2))%nat in
     setup_for_groth16 B R b gens st = with_state (setup_for_groth16 B (replay_rng E) b gens (draws R k st)) (after R k st)).
Proof.
  intros pf domain fuel R gens circ s xs j st Hs Hxs Hin Hout Hj B.
  rewrite (after_add R 4 j) in Hout.
  assert (X : forall l, exists o : outcome (proving_key E), generate_srs B R circ gens st = bind o (fun pk => Ok (pk, after R (5 + j) st)) /\
      generate_srs B (replay_rng E) circ gens (draws R (5 + j) st ++ l) = bind o (fun pk => Ok (pk, l))).
  { intros l. replace (5 + j)%nat with (4 + S j)%nat by lia. rewrite (draws_add R 4), (after_add R 4), <- app_assoc.
    set (st4 := after R 4 st) in *. replace (S j) with (j + 1)%nat by lia. rewrite (after_add R j 1). replace (j + 1)%nat with (S j) by lia.
    pose proof (sample_outside_replay R xs fuel j st4 l Hin Hout Hj) as SR. set (tape := draws R (S j) st4 ++ l) in *. clearbody tape.
    unfold generate_srs. cbn [draws app].
    do 4 match goal with |- context [rand_scalar (replay_rng E) (?x :: ?y)] => change (rand_scalar (replay_rng E) (x :: y)) with (x, y); cbv beta iota end.
    assert (H4 : st4 = snd (rand_scalar R (snd (rand_scalar R (snd (rand_scalar R (snd (rand_scalar R st)))))))) by reflexivity. clearbody st4.
    destruct (rand_scalar R st) as [alpha st1]. cbn [fst snd] in *. destruct (rand_scalar R st1) as [beta st2]. cbn [fst snd] in *.
    destruct (rand_scalar R st2) as [gamma st3]. cbn [fst snd] in *. destruct (rand_scalar R st3) as [delta st5]. cbn [fst snd] in *. subst st5.
    cbn [B ark_backend generate_parameters_with_qap]. unfold ark_generate. rewrite Hs. cbn [bind]. rewrite Hxs. cbn [domain_or_err bind].
    rewrite (sample_outside_exact R xs fuel j st4 Hin Hout Hj), SR. cbn [after].
    destruct (rand_scalar R (after R j st4)) as [t st6]. cbn [bind fst snd].
    destruct (instance_map s _) as [[a b] c]. destruct (inverse_or_err gamma) as [gi|e|]; cbn [bind]; [|exists (Err e); split; reflexivity|exists Panic; split; reflexivity].
    destruct (inverse_or_err delta) as [di|e|]; cbn [bind]; [|exists (Err e); split; reflexivity|exists Panic; split; reflexivity].
    eexists (Ok _). cbn [bind]. split; reflexivity. }
  split.
  - destruct (X []) as (o & A & A'). rewrite app_nil_r in A'. rewrite A, A'. destruct o; reflexivity.
  - intros b n ci Hci Hcirc Hn k. unfold setup_for_groth16. rewrite Hci. cbn [bind]. rewrite Hcirc. unfold k. rewrite (draws_add R (5 + j)), (after_add R (5 + j)). clear k.
    set (kk := (3 * Z.to_nat n + 2)%nat). destruct (X (draws R kk (after R (5 + j) st))) as (o & A & A'). rewrite A, A'.
    destruct o as [pk|e|]; cbn [bind]; [|reflexivity..]. destruct (get_gs_for_encryption _) as [g_i|e|]; cbn [bind]; [|reflexivity..].
    rewrite (C57_keygen_randomness E R b gens g_i _ _ (after R (5 + j) st) n Hn). fold kk.
    destruct (keygen (replay_rng E) b gens g_i _ _ (draws R kk (after R (5 + j) st))) as [[[[sk ek] dk] st2]|e|]; reflexivity.
Qed.

Add Ring Kr : (@scalar_ring_theory (K_of E)).
(* what parameter generation makes of the evaluation point it drew *)
Lemma ark_generate_point domain fuel (R : rng_impl E) circ al be ga de G H st pk st' s xs t st1 :
  circ (cs_new Circuit.Setup) = Ok s -> domain (length (cs_cons s) + cs_num_inst s)%nat = Some xs -> sample_outside R fuel xs st = Ok (t, st1) ->
  ark_generate domain fuel R circ al be ga de G H st = Ok (pk, st') ->
  st' = st1 /\ ga <> fzero /\ de <> fzero /\ vk_alpha_g1 (gpk_vk pk) = al [*] G /\ vk_beta_g2 (gpk_vk pk) = be [*] H /\ vk_gamma_g2 (gpk_vk pk) = ga [*] H /\ vk_delta_g2 (gpk_vk pk) = de [*] H /\
  gpk_delta_g1 pk = de [*] G /\ gpk_h_query pk = map (fun i => fmul (fmul (vanishing_at xs t) (finv de)) (fpow t i) [*] G) (seq 0 (length xs - 1)).
Proof.
  intros Hs Hx Ht Hg. unfold ark_generate in Hg. rewrite Hs in Hg. cbn [bind] in Hg. rewrite Hx in Hg. cbn [domain_or_err bind] in Hg. rewrite Ht in Hg. cbn [bind] in Hg.
  destruct (instance_map s _) as [[a b] c]. unfold inverse_or_err in Hg. destruct (feqb ga fzero) eqn:Eg; [discriminate|]. cbn [bind] in Hg. destruct (feqb de fzero) eqn:Ed; [discriminate|]. cbn [bind] in Hg.
  pose proof (f_equal (fun o => match o with Ok (x, _) => x | _ => pk end) Hg) as E1. pose proof (f_equal (fun o => match o with Ok (_, x) => x | _ => st' end) Hg) as E2. cbv beta iota zeta in E1, E2.
  split; [symmetry; exact E2|]. split; [intros Hz; apply feqb_spec in Hz; congruence|]. split; [intros Hz; apply feqb_spec in Hz; congruence|].
  rewrite <- E1. cbn [gpk_vk vk_alpha_g1 vk_beta_g2 vk_gamma_g2 vk_delta_g2 gpk_delta_g1 gpk_h_query]. rewrite map_map. repeat split.
Qed.
Lemma point_ratio (z w t t' : Fr E) (G : G1 E) : G <> gzero -> z <> fzero -> fmul z (fpow t 0) [*] G = fmul w (fpow t' 0) [*] G -> fmul z (fpow t 1) [*] G = fmul w (fpow t' 1) [*] G -> t = t'.
Proof.
  intros HG Hz H0 H1. apply smul_inj_scalar in H0; [|exact HG]. apply smul_inj_scalar in H1; [|exact HG]. change (fpow t 0) with (@fone (K_of E)) in H0. change (fpow t' 0) with (@fone (K_of E)) in H0. change (fpow t 1) with (fmul t fone) in H1. change (fpow t' 1) with (fmul t' fone) in H1.
  assert (Ew : z = w) by (transitivity (fmul z fone); [ring|rewrite H0; ring]). subst w.
  assert (Z : fmul z (fsub t t') = fzero) by (transitivity (fsub (fmul z (fmul t fone)) (fmul z (fmul t' fone))); [ring|rewrite H1; ring]).
  apply fmul_integral in Z. destruct Z as [Z|Z]; [destruct (Hz Z)|apply fsub_zero_eq; exact Z].
Qed.
Lemma finv_nonzero (a : Fr E) : a <> fzero -> finv a <> fzero.
Proof. intros Ha H. pose proof (finv_l a Ha) as X. rewrite H in X. apply (@fneq01 (K_of E)). rewrite <- X. ring. Qed.
Lemma srs_exact pf domain fuel (R : rng_impl E) gens circ s xs j (st : rng_st R) pk stx :
  circ (cs_new Circuit.Setup) = Ok s -> domain (length (cs_cons s) + cs_num_inst s)%nat = Some xs ->
  (forall x, In x (draws R j (after R 4 st)) -> In x xs) -> ~ In (fst (rand_scalar R (after R (4 + j) st))) xs -> (j < fuel)%nat ->
  generate_srs (ark_backend pf domain fuel) R circ gens st = Ok (pk, stx) ->
  exists al be ga de, draws R 4 st = [al; be; ga; de] /\ stx = after R (5 + j) st /\ de <> fzero /\
  vk_alpha_g1 (gpk_vk (pk_pk pk)) = al [*] eg_G gens /\ vk_beta_g2 (gpk_vk (pk_pk pk)) = be [*] eg_H gens /\ vk_gamma_g2 (gpk_vk (pk_pk pk)) = ga [*] eg_H gens /\ vk_delta_g2 (gpk_vk (pk_pk pk)) = de [*] eg_H gens /\
  gpk_delta_g1 (pk_pk pk) = de [*] eg_G gens /\
  gpk_h_query (pk_pk pk) = map (fun i => fmul (fmul (vanishing_at xs (fst (rand_scalar R (after R (4 + j) st)))) (finv de)) (fpow (fst (rand_scalar R (after R (4 + j) st))) i) [*] eg_G gens) (seq 0 (length xs - 1)).
Proof.
  intros Hs Hx Hin Hout Hj Hg. replace (5 + j)%nat with ((4 + j) + 1)%nat by lia. rewrite (after_add R (4 + j) 1). rewrite (after_add R 4 j) in *.
  assert (H4 : after R 4 st = snd (rand_scalar R (snd (rand_scalar R (snd (rand_scalar R (snd (rand_scalar R st)))))))) by reflexivity. set (st4 := after R 4 st) in *. clearbody st4.
  pose proof (sample_outside_exact R xs fuel j st4 Hin Hout Hj) as SO. cbn [draws after].
  unfold generate_srs in Hg. destruct (rand_scalar R st) as [al st1]. cbn [fst snd] in *. destruct (rand_scalar R st1) as [be st2]. cbn [fst snd] in *.
  destruct (rand_scalar R st2) as [ga st3]. cbn [fst snd] in *. destruct (rand_scalar R st3) as [de st5]. cbn [fst snd] in *. subst st5.
  cbv zeta in Hg. apply bind_Ok_inv in Hg. destruct Hg as ([pk0 sty] & Hg & Hpk). cbn [ark_backend generate_parameters_with_qap] in Hg.
  destruct (rand_scalar R (after R j st4)) as [t st6]. cbn [fst snd] in *.
  destruct (ark_generate_point domain fuel R circ al be ga de (eg_G gens) (eg_H gens) st4 pk0 sty s xs t st6 Hs Hx SO Hg) as (E1 & _ & Hde & F).
  pose proof (f_equal (fun o => match o with Ok (x, _) => pk_pk x | _ => pk_pk pk end) Hpk) as E2. pose proof (f_equal (fun o => match o with Ok (_, x) => x | _ => stx end) Hpk) as E3. cbn [pk_pk] in E2.
  rewrite <- E2. exists al, be, ga, de. split; [reflexivity|]. split; [congruence|]. split; [exact Hde|]. exact F.
Qed.
(* a setup is parameter generation followed by key generation *)
Lemma setup_parts B (R : rng_impl E) b gens ci st pk sk ek dk stf : circuit_new b None None true = Ok ci -> setup_for_groth16 B R b gens st = Ok (pk, sk, ek, dk, stf) ->
  exists g_i stx, generate_srs B R (generate_constraints ci) gens st = Ok (pk, stx) /\ get_gs_for_encryption (gpk_vk (pk_pk pk)) = Ok g_i /\
  keygen R b gens g_i (gpk_delta_g1 (pk_pk pk)) (pk_gamma_g1 pk) stx = Ok (sk, ek, dk, stf).
Proof.
  intros Hci H. unfold setup_for_groth16 in H. rewrite Hci in H. cbn [bind] in H. apply bind_Ok_inv in H. destruct H as ([pk0 stx] & Hs & H). apply bind_Ok_inv in H. destruct H as (g_i & Hg & H).
  apply bind_Ok_inv in H. destruct H as ([[[sk0 ek0] dk0] st2] & Hk & H).
  assert (E1 : pk0 = pk) by congruence. assert (E2 : sk0 = sk) by congruence. assert (E3 : ek0 = ek) by congruence. assert (E4 : dk0 = dk) by congruence. assert (E5 : st2 = stf) by congruence.
  subst. exists g_i, stx. split; [exact Hs|]. split; [exact Hg|exact Hk].
Qed.
Lemma gadd_cancel_r {G : group (K_of E)} (x y z : G) : x [+] z = y [+] z -> x = y.
Proof. rewrite !(gadd_comm _ z). apply gadd_cancel_l. Qed.
Lemma prover_masks pf domain circ (pk : groth16_proving_key E) t s t' s' p p' : gpk_delta_g1 pk <> gzero -> vk_delta_g2 (gpk_vk pk) <> gzero ->
  ark_prove pf domain circ pk t s = Ok p -> ark_prove pf domain circ pk t' s' = Ok p' -> pr_a p = pr_a p' -> pr_b p = pr_b p' -> t = t' /\ s = s'.
Proof.
  intros H1 H2 Hp Hp' Ea Eb. unfold ark_prove in Hp, Hp'. destruct (circ (cs_new Prove)) as [cs|e|]; cbn [bind] in Hp, Hp'; try discriminate Hp.
  destruct (match pf with Debug => _ | Release => _ end); cbn [bind] in Hp, Hp'; try discriminate Hp. destruct (domain_or_err _) as [xs|e|]; cbn [bind] in Hp, Hp'; try discriminate Hp.
  cbv zeta in Hp, Hp'. destruct (slice_from (cs_inst cs) 1) as [inp|e|]; cbn [bind] in Hp, Hp'; try discriminate Hp.
  unfold calculate_coeff in Hp, Hp'. destruct (idx (gpk_a_query pk) 0) as [a0|e|]; cbn [bind] in Hp, Hp'; try discriminate Hp. destruct (slice_from (gpk_a_query pk) 1) as [al|e|]; cbn [bind] in Hp, Hp'; try discriminate Hp.
  apply bind_Ok_inv in Hp. destruct Hp as (b1 & _ & Hp). apply bind_Ok_inv in Hp'. destruct Hp' as (b1' & _ & Hp').
  destruct (idx (gpk_b_g2_query pk) 0) as [b0|e|]; cbn [bind] in Hp, Hp'; try discriminate Hp. destruct (slice_from (gpk_b_g2_query pk) 1) as [bl|e|]; cbn [bind] in Hp, Hp'; try discriminate Hp.
  pose proof (f_equal (fun o => match o with Ok x => pr_a x | _ => gzero end) Hp) as A. pose proof (f_equal (fun o => match o with Ok x => pr_a x | _ => gzero end) Hp') as A'.
  pose proof (f_equal (fun o => match o with Ok x => pr_b x | _ => gzero end) Hp) as B. pose proof (f_equal (fun o => match o with Ok x => pr_b x | _ => gzero end) Hp') as B'. cbn [pr_a pr_b] in A, A', B, B'.
  rewrite <- A, <- A' in Ea. rewrite <- B, <- B' in Eb. apply gadd_cancel_r, gadd_cancel_r, gadd_cancel_r in Ea. apply gadd_cancel_r, gadd_cancel_r, gadd_cancel_r in Eb.
  split; [exact (smul_inj_scalar _ _ _ H1 Ea)|exact (smul_inj_scalar _ _ _ H2 Eb)].
Qed.
(* Every scalar is used: the published keys determine the four secrets of the SRS, the evaluation point and the 3n+2 scalars of the key
   generation; only the scalars drawn in vain are not determined.  A proof determines both of its masks. *)
Theorem C57_every_snark_scalar_matters : forall (pf : profile) domain fuel (R R' : rng_impl E) gens b n (ci : circuit (K_of E)) (s : csys (K_of E)) (xs : list (Fr E)) j j' (st : rng_st R) (st' : rng_st R') pk sk sk' ek dk stf stf',
  eg_G gens <> gzero -> eg_H gens <> gzero -> chunks_count (K_of E) b = Ok (Z.of_nat n) ->
  circuit_new b None None true = Ok ci -> generate_constraints ci (cs_new Circuit.Setup) = Ok s -> domain (length (cs_cons s) + cs_num_inst s)%nat = Some xs -> (3 <= length xs)%nat ->
  (forall x, In x (draws R j (after R 4 st)) -> In x xs) -> ~ In (fst (rand_scalar R (after R (4 + j) st))) xs -> (j < fuel)%nat ->
  (forall x, In x (draws R' j' (after R' 4 st')) -> In x xs) -> ~ In (fst (rand_scalar R' (after R' (4 + j') st'))) xs -> (j' < fuel)%nat ->
  let B := ark_backend pf domain fuel in
  setup_for_groth16 B R b gens st = Ok (pk, sk, ek, dk, stf) -> setup_for_groth16 B R' b gens st' = Ok (pk, sk', ek, dk, stf') -> sk <> fzero ->
  (draws R 4 st = draws R' 4 st' /\ fst (rand_scalar R (after R (4 + j) st)) = fst (rand_scalar R' (after R' (4 + j') st')) /\
   draws R (3 * n + 2) (after R (5 + j) st) = draws R' (3 * n + 2) (after R' (5 + j') st')) /\
  (forall circ r r' t s t' s' p p' rest rest', create_proof B (replay_rng E) circ r pk ek [t; s] = Ok (p, rest) -> create_proof B (replay_rng E) circ r' pk ek [t'; s'] = Ok (p', rest') ->
     pr_a p = pr_a p' -> pr_b p = pr_b p' -> t = t' /\ s = s').
Proof.
  intros pf domain fuel R R' gens b n ci s xs j j' st st' pk sk sk' ek dk stf stf' HG HH Hn Hci Hs Hx Hlen Hin Hout Hj Hin' Hout' Hj' B Hset Hset' Hsk.
  destruct (setup_parts B R b gens ci st pk sk ek dk stf Hci Hset) as (g_i & stx & Hsrs & Hgi & Hk). destruct (setup_parts B R' b gens ci st' pk sk' ek dk stf' Hci Hset') as (g_i' & stx' & Hsrs' & Hgi' & Hk').
  assert (g_i' = g_i) by congruence. subst g_i'. clear Hgi'.
  destruct (srs_exact pf domain fuel R gens _ s xs j st pk stx Hs Hx Hin Hout Hj Hsrs) as (al & be & ga & de & D & -> & Hde & Eal & Ebe & Ega & Ede & Ed1 & Eh).
  destruct (srs_exact pf domain fuel R' gens _ s xs j' st' pk stx' Hs Hx Hin' Hout' Hj' Hsrs') as (al' & be' & ga' & de' & D' & -> & Hde' & Eal' & Ebe' & Ega' & Ede' & Ed1' & Eh').
  assert (Hd1 : gpk_delta_g1 (pk_pk pk) <> gzero). { rewrite Ed1. intros Z. apply smul_eq_zero in Z. tauto. }
  assert (Hd2 : vk_delta_g2 (gpk_vk (pk_pk pk)) <> gzero). { rewrite Ede. intros Z. apply smul_eq_zero in Z. tauto. }
  split; [split; [|split]|].
  - rewrite D, D'. rewrite Eal in Eal'. rewrite Ebe in Ebe'. rewrite Ega in Ega'. rewrite Ede in Ede'. apply smul_inj_scalar in Eal', Ebe', Ega', Ede'; try assumption. congruence.
  - set (t := fst (rand_scalar R (after R (4 + j) st))) in *. set (t' := fst (rand_scalar R' (after R' (4 + j') st'))) in *. rewrite Eh in Eh'.
    destruct (length xs - 1)%nat as [|[|k]] eqn:EL; [lia|lia|]. cbn [seq map] in Eh'.
    assert (H0 := f_equal (fun l => nth 0 l gzero) Eh'). assert (H1 := f_equal (fun l => nth 1 l gzero) Eh'). cbn [nth] in H0, H1.
    apply (point_ratio _ _ t t' (eg_G gens) HG) in H1; [exact H1| |exact H0]. intros Z. apply fmul_integral in Z. destruct Z as [Z|Z]; [apply vanishing_zero in Z; exact (Hout Z)|exact (finv_nonzero de Hde Z)].
  - set (k := (3 * n + 2)%nat).
    rewrite (C57_keygen_randomness E R b gens g_i _ _ _ (Z.of_nat n) Hn) in Hk. rewrite (C57_keygen_randomness E R' b gens g_i _ _ _ (Z.of_nat n) Hn) in Hk'. rewrite Nat2Z.id in Hk, Hk'. fold k in Hk, Hk'.
    destruct (keygen (replay_rng E) b gens g_i (gpk_delta_g1 (pk_pk pk)) (pk_gamma_g1 pk) (draws R k (after R (5 + j) st))) as [[[[sk0 ek0] dk0] sta]|e|] eqn:K1; cbn [with_state] in Hk; try discriminate Hk.
    destruct (keygen (replay_rng E) b gens g_i (gpk_delta_g1 (pk_pk pk)) (pk_gamma_g1 pk) (draws R' k (after R' (5 + j') st'))) as [[[[sk1 ek1] dk1] stb]|e|] eqn:K2; cbn [with_state] in Hk'; try discriminate Hk'.
    assert (ek0 = ek1) by congruence. assert (dk0 = dk1) by congruence. assert (sk0 = sk) by congruence. subst ek1 dk1 sk0.
    assert (Hle : (n <= length g_i)%nat). { clear -K1 Hn. unfold keygen in K1. rewrite Hn in K1. cbn [bind] in K1. rewrite Nat2Z.id in K1. destruct (Nat.ltb_spec (length g_i) n); [discriminate|assumption]. }
    destruct (C57_every_scalar_matters R pf b gens g_i (gpk_delta_g1 (pk_pk pk)) (pk_gamma_g1 pk) n Hn Hle Hd1 HH HG) as (_ & _ & _ & M & _).
    apply (M _ _ _ _ _ _ _ _ ltac:(apply draws_length) ltac:(apply draws_length) K1 K2 Hsk).
  - intros circ r r' t s0 t' s0' p p' rest rest' Hp Hp' Ea Eb. unfold create_proof in Hp, Hp'. cbn [B ark_backend create_proof_with_reduction] in Hp, Hp'.
    do 2 match type of Hp with context [rand_scalar (replay_rng E) (?x :: ?y)] => change (rand_scalar (replay_rng E) (x :: y)) with (x, y) in Hp; cbv beta iota in Hp end.
    do 2 match type of Hp' with context [rand_scalar (replay_rng E) (?x :: ?y)] => change (rand_scalar (replay_rng E) (x :: y)) with (x, y) in Hp'; cbv beta iota in Hp' end.
    apply bind_Ok_inv in Hp. destruct Hp as (q & Hq & Hp). apply bind_Ok_inv in Hp'. destruct Hp' as (q' & Hq' & Hp').
    pose proof (f_equal (fun o => match o with Ok (x, _) => pr_a x | _ => gzero end) Hp) as A. pose proof (f_equal (fun o => match o with Ok (x, _) => pr_a x | _ => gzero end) Hp') as A'.
    pose proof (f_equal (fun o => match o with Ok (x, _) => pr_b x | _ => gzero end) Hp) as C. pose proof (f_equal (fun o => match o with Ok (x, _) => pr_b x | _ => gzero end) Hp') as C'. cbn [pr_a pr_b] in A, A', C, C'.
    apply (prover_masks pf domain circ (pk_pk pk) t s0 t' s0' q q' Hd1 Hd2 Hq Hq'); congruence.
Qed.
End Proofs.

(* the hypotheses are met by the run of PropGroth16Cases.v, whose first two draws for the evaluation point are in the domain *)
Example C57_case_snark : forall pf, exists s pk sk ek dk st',
  eg_G x_gens <> gzero /\ eg_H x_gens <> gzero /\ chunks_count (K_of E61) 16 = Ok (Z.of_nat 4) /\
  circuit_new 16 None None true = Ok (@BitsizeCheckCircuit (K_of E61) 16 4 None true) /\ y_circ (cs_new Circuit.Setup) = Ok s /\
  y_domain (length (cs_cons s) + cs_num_inst s)%nat = Some y_xs /\ (3 <= length y_xs)%nat /\
  (forall x, In x (draws (replay_rng E61) 2 (after (replay_rng E61) 4 y_tape)) -> In x y_xs) /\ ~ In (fst (rand_scalar (replay_rng E61) (after (replay_rng E61) (4 + 2) y_tape))) y_xs /\ (2 < 3)%nat /\
  setup_for_groth16 (y_backend pf) (replay_rng E61) 16 x_gens y_tape = Ok (pk, sk, ek, dk, st') /\ sk <> fzero.
Proof.
  intros pf. destruct y_setup_cs as (s & Hs & Hi & Hc). destruct (y_setup pf) as (pk & ek & g_i & Hset & _). exists s, pk, y_rho, ek, y_dk, []. repeat split.
  - intros H. apply (f_equal sval) in H. vm_compute in H. discriminate.
  - exact x_H.
  - exact Hs.
  - rewrite Hc, y_cons_length, Hi. reflexivity.
  - rewrite y_xs_length. unfold y_N. lia.
  - intros x Hx. change (In x [nz61 17; nz61 400]) in Hx. destruct Hx as [<- |[<- |[]]]; unfold y_xs, y_points; rewrite in_map_iff; [exists 17%nat|exists 400%nat]; (split; [reflexivity|apply in_seq; unfold y_N; lia]).
  - change (~ In y_x y_xs). unfold y_xs, y_points. rewrite in_map_iff. intros (i & Hi' & Hin). apply in_seq in Hin. unfold y_N in Hin.
    apply (f_equal sval) in Hi'. unfold y_x, nz61 in Hi'. rewrite !sval_of_Z in Hi'. change (modulus (K_of E61)) with (2 ^ 61 - 1) in Hi'. rewrite !Z.mod_small in Hi'; lia.
  - lia.
  - exact Hset.
  - intros H. apply (f_equal sval) in H. vm_compute in H. discriminate.
Qed.
