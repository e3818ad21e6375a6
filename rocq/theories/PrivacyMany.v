(* PrivacyMany.v -- several ciphertexts under one setup: all but one of them are fixed combinations of the published elements (for C66) *)
From Verif Require Import Base BaseFacts Algebra Utils UtilsFacts Setup Keygen Encryption Circuit CircuitFacts CircuitSat CommitmentFacts VecFacts KeySpec KeygenFacts
  EncryptFacts DecryptFacts Spec VerifyFacts Protocol ReencFacts DistFacts PropVerify Groth16 ArkGroth16 PolyFacts Groth16Spec ArkFacts Groth16Facts SchwartzZippel SoundCore SoundSpec
  SoundAlg SoundGame SoundLink SoundFacts SoundCount SoundHonest PropGroth16 PropSoundCases PropZK PrivacySpec PrivacyAlg PrivacyGame PrivacyLink PrivacyCount PrivacySpan.

Section Many.
Context {E : pairing}.
Notation K := (K_of E).
Notation F := (Fr E).
Add Ring Kr : (@scalar_ring_theory K).
Notation e i env := (nth i env fzero).
Notation p := (modulus K).

(* encryption takes its three scalars from the front of the tape *)
Lemma encrypt_with_proof_rest pf B (msg : F) ek pk b r rr ss rest ct r' q st : 
  encrypt_with_proof pf B (replay_rng E) msg ek pk b [r; rr; ss] = Ok (ct, r', q, st) ->
  encrypt_with_proof pf B (replay_rng E) msg ek pk b (r :: rr :: ss :: rest) = Ok (ct, r', q, rest).
Proof.
  intros H. unfold encrypt_with_proof in *. apply bind_Ok_inv in H. destruct H as (g_i & Hg & H). rewrite Hg. cbn [bind].
  apply bind_Ok_inv in H. destruct H as ([[ct0 r0] st1] & He & H). apply bind_Ok_inv in H. destruct H as (ds & Hd & H). apply bind_Ok_inv in H. destruct H as (circ & Hc & H).
  apply bind_Ok_inv in H. destruct H as ([q0 st2] & Hq & H). injection H as -> -> -> _.
  assert (He' : encrypt pf (replay_rng E) msg ek g_i b (r :: rr :: ss :: rest) = Ok (ct, r', rr :: ss :: rest) /\ st1 = [rr; ss]).
  { unfold encrypt in *. rewrite Hd in *. cbn [bind] in *. unfold encrypt_decomposed_message in *. destruct (ek_supported_chunks_count ek) as [cnt| |]; try discriminate He. cbn [bind] in *.
    destruct (negb _); [discriminate He|]. destruct (_ <? _)%nat; [discriminate He|].
    change (rand_scalar (replay_rng E) [r; rr; ss]) with (r, [rr; ss]) in He. change (rand_scalar (replay_rng E) (r :: rr :: ss :: rest)) with (r, rr :: ss :: rest). cbv beta iota zeta in He |- *.
    destruct (mapM _ _) as [cs'| |]; try discriminate He. cbn [bind] in *. destruct (ct_of_vec _) as [c| |]; try discriminate He. cbn [bind] in *. injection He as -> -> <-. split; reflexivity. }
  destruct He' as [He' ->]. rewrite He'. cbn [bind]. rewrite Hd. cbn [bind]. rewrite Hc. cbn [bind].
  unfold create_proof in *. change (rand_scalar (replay_rng E) [rr; ss]) with (rr, [ss]) in Hq. change (rand_scalar (replay_rng E) (rr :: ss :: rest)) with (rr, ss :: rest). cbv beta iota in Hq |- *.
  change (rand_scalar (replay_rng E) [ss]) with (ss, @nil F) in Hq. change (rand_scalar (replay_rng E) (ss :: rest)) with (ss, rest). cbv beta iota in Hq |- *.
  destruct (create_proof_with_reduction B _ _ _ _) as [q1| |]; try discriminate Hq. cbn [bind] in *. injection Hq as <- _. reflexivity.
Qed.
Lemma encrypt_all_app pf B (R : rng_impl E) ms ms' ek pk b st cps st1 : encrypt_all pf B R ms ek pk b st = Ok (cps, st1) ->
  encrypt_all pf B R (ms ++ ms') ek pk b st = ('(cps', st2) <- encrypt_all pf B R ms' ek pk b st1 ;; Ok (cps ++ cps', st2)).
Proof.
  revert st cps; induction ms as [|m ms IH]; intros st cps H; cbn [encrypt_all app] in *.
  - injection H as <- <-. destruct (encrypt_all pf B R ms' ek pk b st) as [[c s]| |]; reflexivity.
  - apply bind_Ok_inv in H. destruct H as ([[[ct r] q] s1] & H1 & H). rewrite H1. cbn [bind]. apply bind_Ok_inv in H. destruct H as ([cps1 s2] & H2 & H). injection H as <- <-.
    rewrite (IH _ _ H2). destruct (encrypt_all pf B R ms' ek pk b s2) as [[c s]| |]; reflexivity.
Qed.

Variables (n : nat) (cs : csys K) (xs : list F) (pf : profile) (domain : nat -> option (list F)) (fuel : nat) (b : Z) (gens : encryption_gens E).
Let ni := cs_num_inst cs.
Let nw := cs_num_wit cs.
Let nc := length (cs_cons cs).
Let N := length xs.
Notation G := (eg_G gens).
Notation H := (eg_H gens).
Notation B := (ark_backend pf domain fuel).
Hypothesis HG : G <> gzero.
Hypothesis HH : H <> gzero.
Hypothesis Hdom_ok : domain_ok domain.
Hypothesis Hb : supported b.
Hypothesis HbM : 2 ^ b <= modulus K.
Hypothesis Hcomp : chunk_compatible K b.
Hypothesis Hcount : chunks_count K b = Ok (Z.of_nat n).
Hypothesis Hn0 : (0 < n)%nat.
Hypothesis Hcs : generate_constraints (BitsizeCheckCircuit b (Z.of_nat n) None true) (@cs_new K Circuit.Setup) = Ok cs.
Hypothesis Hdomain : domain (nc + ni)%nat = Some xs.
Let D1 := 3 * Z.of_nat N + 9 * (3 * Z.of_nat n + 9).

(* the setup depends on its own coins only *)
Lemma setup_local c0 : length c0 = (3 * n + 7)%nat -> vanishing_at xs (e 4 c0) <> fzero ->
  (exists pk sk ek dk, forall x, setup_for_groth16 B (replay_rng E) b gens (c0 ++ x) = Ok (pk, sk, ek, dk, x)) \/
  (forall x r, setup_for_groth16 B (replay_rng E) b gens (c0 ++ x) <> Ok r).
Proof.
  intros Hl Hv.
  pose proof (proj1 (cs_shape n cs xs b (bits_of _ b Hb HbM) Hn0 Hcs)) as Hni. fold ni in Hni.
  assert (Hnth : forall x i, (i < 3 * n + 7)%nat -> e i (c0 ++ x) = e i c0) by (intros x i Hi; apply app_nth1; lia).
  destruct (feq_dec (e 2 c0) fzero) as [Z2|Z2]; [right|destruct (feq_dec (e 3 c0) fzero) as [Z3|Z3]; [right|destruct fuel as [|fuel'] eqn:Hfuel; [right|left]]].
  - intros x [[[[pk sk] ek] dk] st] Hs. pose proof (setup_tape_rest n cs xs pf domain fuel b gens Hcount Hcs Hdomain Hni (c0 ++ x) pk sk ek dk st) as T.
    destruct T as (T & _); [rewrite app_length; lia|rewrite Hnth by lia; exact Hv|exact Hs|]. rewrite Hnth in T by lia. contradiction.
  - intros x [[[[pk sk] ek] dk] st] Hs. pose proof (setup_tape_rest n cs xs pf domain fuel b gens Hcount Hcs Hdomain Hni (c0 ++ x) pk sk ek dk st) as T.
    destruct T as (_ & T & _); [rewrite app_length; lia|rewrite Hnth by lia; exact Hv|exact Hs|]. rewrite Hnth in T by lia. contradiction.
  - intros x r Hs. unfold setup_for_groth16, circuit_new in Hs. rewrite Hcount in Hs. cbn [bind] in Hs. unfold generate_srs in Hs.
    destruct (rand_scalar _ _) as [al s1] in Hs. destruct (rand_scalar _ _) as [be s2] in Hs. destruct (rand_scalar _ _) as [ga s3] in Hs. destruct (rand_scalar _ _) as [de s4] in Hs.
    cbv zeta in Hs. cbn [generate_parameters_with_qap ark_backend] in Hs. unfold ark_generate in Hs. rewrite Hcs in Hs. cbn [bind] in Hs. fold nc ni in Hs. rewrite Hdomain in Hs. cbn [domain_or_err bind sample_outside] in Hs.
    discriminate Hs.
  - pose proof (tape_split n c0 Hl) as T.
    set (al := e 0 c0) in *. set (be := e 1 c0) in *. set (ga := e 2 c0) in *. set (de := e 3 c0) in *. set (ta := e 4 c0) in *. set (rh := e 5 c0) in *.
    set (s := e_s c0) in *. set (t := e_t n c0) in *. set (v := e_v n c0) in *. clearbody al be ga de ta rh s t v. clear Hnth. subst c0. rewrite app_nil_r.
    do 4 eexists. intros x. repeat (rewrite <- !app_comm_cons || rewrite <- !app_assoc).
    unfold setup_for_groth16, circuit_new. rewrite Hcount. cbn [bind].
    unfold generate_srs. cbn [rand_scalar replay_rng]. cbv beta iota. cbn [generate_parameters_with_qap ark_backend].
    unfold ark_generate. rewrite Hcs. cbn [bind]. fold nc ni nw. rewrite Hdomain. cbn [domain_or_err bind]. cbn [sample_outside].
    match goal with |- context [rand_scalar (replay_rng E) (ta :: ?r)] => change (rand_scalar (replay_rng E) (ta :: r)) with (ta, r) end. cbv beta iota.
    destruct (feqb (vanishing_at xs ta) fzero) eqn:Ef; [apply feqb_spec in Ef; contradiction|]. cbn [bind].
    unfold instance_map. cbv zeta. unfold inverse_or_err.
    destruct (feqb ga fzero) eqn:Eg; [apply feqb_spec in Eg; contradiction|]. cbn [bind].
    destruct (feqb de fzero) eqn:Ed; [apply feqb_spec in Ed; contradiction|]. cbn [bind pk_pk gpk_vk].
    unfold get_gs_for_encryption. cbn [vk_gamma_abc_g1]. unfold slice_from. 
    match goal with |- context [(1 <=? length ?l)%nat] => assert (Lg : length l = S n); [|destruct (Nat.leb_spec 1 (length l)) as [_|X]; [|lia]] end.
    { rewrite !map_length, firstn_length, map_length, seq_length. fold ni nw. rewrite Hni. lia. }
    cbn [bind].
    match goal with |- context [keygen _ _ _ ?g_i ?d ?g ?tape] => change tape with (rh :: map s (seq 0 n) ++ (t 0%nat :: map (fun j => t (S j)) (seq 0 n)) ++ map v (seq 0 n) ++ x); rewrite (keygen_replay b gens g_i d g n rh (map s (seq 0 n)) (t 0%nat) (map (fun j => t (S j)) (seq 0 n)) (map v (seq 0 n)) x Hcount) end;
      try (rewrite map_length, seq_length; reflexivity); [|rewrite skipn_length, Lg; lia].
    cbn [bind]. reflexivity.
Qed.

(* on fixed coins an encryption is a fixed combination of what is published *)
Definition good_setup pk ek dk : Prop := exists c0 sk, length c0 = (3 * n + 7)%nat /\ vanishing_at xs (e 4 c0) <> fzero /\
  setup_for_groth16 B (replay_rng E) b gens c0 = Ok (pk, sk, ek, dk, []).
Definition forged gens pk ek dk (S : strategy E) : ciphertext E * proof E := (forge_ciphertext S gens pk ek, forge_proof S gens pk ek dk).
Lemma enc_forged msg r rr ss : exists S, forall pk ek dk rest, good_setup pk ek dk ->
  encrypt_with_proof pf B (replay_rng E) msg ek pk b (r :: rr :: ss :: rest) = Ok (forge_ciphertext S gens pk ek, r, forge_proof S gens pk ek dk, rest).
Proof.
  destruct (C59_honest_prover_is_a_strategy gens pf domain fuel n b cs xs msg r rr ss Hdom_ok Hb HbM (proj1 Hcomp) (proj2 Hcomp) Hcount Hcs Hdomain) as (S & ds & _ & _ & _ & HS).
  exists S. intros pk ek dk rest (c0 & sk & Hl & Hv & Hset). destruct (HS c0 pk sk ek dk [] Hl) as [HR _]; [rewrite <- vanishing_zero; exact Hv|exact Hset|].
  exact (encrypt_with_proof_rest _ _ _ _ _ _ _ _ _ rest _ _ _ _ HR).
Qed.
Lemma enc_all_forged msgs coins : length coins = (3 * length msgs)%nat -> exists Ss, length Ss = length msgs /\ forall pk ek dk rest, good_setup pk ek dk ->
  encrypt_all pf B (replay_rng E) msgs ek pk b (coins ++ rest) = Ok (map (forged gens pk ek dk) Ss, rest).
Proof.
  revert coins; induction msgs as [|m msgs IH]; intros coins Hl; cbn [length] in Hl.
  - destruct coins; [|discriminate]. exists []. split; [reflexivity|]. reflexivity.
  - destruct coins as [|r [|rr [|ss coins]]]; try (cbn in Hl; lia). destruct (IH coins ltac:(cbn in Hl; lia)) as (Ss & L & HSs). destruct (enc_forged m r rr ss) as (S & HS).
    exists (S :: Ss). split; [cbn; congruence|]. intros pk ek dk rest Hg. cbn [encrypt_all app]. rewrite (HS _ _ _ _ Hg). cbn [bind]. rewrite (HSs _ _ _ _ Hg). reflexivity.
Qed.

(* what one run shows *)
Definition run := (proving_key E * encryption_key E * decryption_key E * (ciphertext E * proof E))%type.
Definition PL1 := length (g1b n cs xs fzero fzero fzero fzero fzero (fun _ => fzero) (fun _ => fzero)).
Definition PL2 := length (g2b n cs xs fzero fzero fzero fzero fzero (fun _ => fzero) (fun _ => fzero) (fun _ => fzero)).
Definition good_run (a : run) : Prop := let '(pk, ek, dk, (ct, q)) := a in
  length (public_g1 gens pk ek) = PL1 /\ length (public_g2 gens pk ek dk) = PL2 /\ length (ct_enc_chunks ct) = n.
Definition run_g1 (a : run) := let '(pk, ek, dk, (ct, q)) := a in seen_g1 gens pk ek ct q.
Definition run_g2 (a : run) := let '(pk, ek, dk, (ct, q)) := a in seen_g2 gens pk ek dk q.
Definition pub_g1 (a : run) := let '(pk, ek, dk, (ct, q)) := a in public_g1 gens pk ek.
Definition pub_g2 (a : run) := let '(pk, ek, dk, (ct, q)) := a in public_g2 gens pk ek dk.
Definition tab_g1 Ss Ss' (a : run) := let '(pk, ek, dk, cq) := a in table_g1 gens pk ek (map (forged gens pk ek dk) Ss ++ cq :: map (forged gens pk ek dk) Ss').
Definition tab_g2 Ss Ss' (a : run) := let '(pk, ek, dk, cq) := a in table_g2 gens pk ek dk (map (forged gens pk ek dk) Ss ++ cq :: map (forged gens pk ek dk) Ss').
Lemma pub1_spanned : spanned good_run run_g1 pub_g1.
Proof.
  apply (sp_ext _ _ _ pub_g1); [reflexivity|]. destruct (sp_part good_run (fun _ => []) pub_g1 (fun a => pair_g1 (snd a)) 0 PL1) as (rows & HR).
  - intros [[[pk ek] dk] [ct q]] (H1 & _ & _). split; [reflexivity|exact H1].
  - exists rows. intros [[[pk ek] dk] [ct q]] Ha. rewrite (HR _ Ha) at 1. reflexivity.
Qed.
Lemma pair_spanned : spanned good_run run_g1 (fun a => pair_g1 (snd a)).
Proof.
  destruct (sp_part good_run pub_g1 (fun a => pair_g1 (snd a)) (fun _ => []) PL1 (n + 4)) as (rows & HR).
  - intros [[[pk ek] dk] [ct q]] (H1 & _ & H3). split; [exact H1|]. unfold pair_g1. cbn [snd fst]. rewrite !app_length. cbn [length]. lia.
  - exists rows. intros [[[pk ek] dk] [ct q]] Ha. rewrite (HR _ Ha) at 1. rewrite app_nil_r. reflexivity.
Qed.
Lemma forged_spanned S : spanned good_run run_g1 (fun a => let '(pk, ek, dk, _) := a in pair_g1 (forged gens pk ek dk S)).
Proof.
  apply (sp_trans _ _ _ _ pub1_spanned). exists ([sg_X_r S] ++ sg_chunks S ++ [sg_commitment S; sg_a S; sg_c S]).
  intros [[[pk ek] dk] [ct q]] _. unfold pair_g1, forged, forge_ciphertext, forge_proof, combos. cbn [fst snd ct_X_r ct_enc_chunks ct_commitment pr_a pr_c]. rewrite !map_app. reflexivity.
Qed.
Lemma tab1_spanned Ss Ss' : spanned good_run run_g1 (tab_g1 Ss Ss').
Proof.
  apply (sp_ext _ _ _ (fun a => pub_g1 a ++ concat (map (fun S => let '(pk, ek, dk, _) := a in pair_g1 (forged gens pk ek dk S)) Ss) ++ pair_g1 (snd a) ++
     concat (map (fun S => let '(pk, ek, dk, _) := a in pair_g1 (forged gens pk ek dk S)) Ss'))).
  - intros [[[pk ek] dk] [ct q]] _. unfold tab_g1, table_g1, pub_g1. rewrite map_app, concat_app. cbn [map concat snd]. rewrite !map_map. reflexivity.
  - apply sp_app; [apply pub1_spanned|]. apply sp_app; [apply sp_concat; intros S _; apply forged_spanned|]. apply sp_app; [apply pair_spanned|apply sp_concat; intros S _; apply forged_spanned].
Qed.
Lemma pub2_spanned : spanned good_run run_g2 pub_g2.
Proof.
  destruct (sp_part good_run (fun _ => []) pub_g2 (fun a => [pr_b (snd (snd a))]) 0 PL2) as (rows & HR).
  - intros [[[pk ek] dk] [ct q]] (_ & H1 & _). split; [reflexivity|exact H1].
  - exists rows. intros [[[pk ek] dk] [ct q]] Ha. rewrite (HR _ Ha) at 1. reflexivity.
Qed.
Lemma b_spanned : spanned good_run run_g2 (fun a => [pr_b (snd (snd a))]).
Proof.
  destruct (sp_part good_run pub_g2 (fun a => [pr_b (snd (snd a))]) (fun _ => []) PL2 1) as (rows & HR).
  - intros [[[pk ek] dk] [ct q]] (_ & H1 & _). split; [exact H1|reflexivity].
  - exists rows. intros [[[pk ek] dk] [ct q]] Ha. rewrite (HR _ Ha) at 1. reflexivity.
Qed.
Lemma tab2_spanned Ss Ss' : spanned good_run run_g2 (tab_g2 Ss Ss').
Proof.
  assert (X : forall Sl : list (strategy E), spanned good_run run_g2 (fun a => combos (map sg_b Sl) (pub_g2 a))).
  { intros Sl. apply (sp_trans _ _ _ _ pub2_spanned). apply sp_combos. }
  apply (sp_ext _ _ _ (fun a => pub_g2 a ++ combos (map sg_b Ss) (pub_g2 a) ++ [pr_b (snd (snd a))] ++ combos (map sg_b Ss') (pub_g2 a))).
  - intros [[[pk ek] dk] [ct q]] _. unfold tab_g2, table_g2, pub_g2, combos. rewrite map_app. cbn [map snd app]. rewrite !map_map. reflexivity.
  - apply sp_app; [apply pub2_spanned|]. apply sp_app; [apply X|]. apply sp_app; [apply b_spanned|apply X].
Qed.

Lemma good_run_holds c0 c3 pk sk ek dk m ct r q st : length c0 = (3 * n + 7)%nat -> length c3 = 3%nat -> vanishing_at xs (e 4 c0) <> fzero ->
  setup_for_groth16 B (replay_rng E) b gens (c0 ++ c3) = Ok (pk, sk, ek, dk, c3) ->
  encrypt_with_proof pf B (replay_rng E) m ek pk b c3 = Ok (ct, r, q, st) -> good_run (pk, ek, dk, (ct, q)).
Proof.
  intros L0 L3 Hv Hset Hrun. pose proof (proj1 (cs_shape n cs xs b (bits_of _ b Hb HbM) Hn0 Hcs)) as Hni. fold ni in Hni.
  assert (Ll : length (c0 ++ c3) = (3 * n + 10)%nat) by (rewrite app_length; lia).
  assert (Hv' : vanishing_at xs (e 4 (c0 ++ c3)) <> fzero) by (rewrite app_nth1 by lia; exact Hv).
  pose proof (setup_tape_rest n cs xs pf domain fuel b gens Hcount Hcs Hdomain Hni (c0 ++ c3) pk sk ek dk c3 ltac:(lia) Hv' Hset)
    as (Hga & Hde & Hgs & _ & Hek & Hdk & Hdelta & Hgamma & Hvk & P1 & P2 & QA & QB & Hst).
  destruct (message_assignment n pf b m Hb HbM) as (ds & sp & Hds & Hsp).
  destruct (run_seen n cs xs pf domain fuel b gens HH Hdom_ok Hb HbM Hcomp Hcount Hn0 Hcs Hdomain (c0 ++ c3) pk sk ek dk c3 m ds sp ct r q st Ll Hv' Hds Hsp Hset Hrun) as (_ & _ & S1 & _).
  unfold good_run. rewrite P1, P2, !map_length. unfold PL1, PL2. unfold g1e, g2e. rewrite !g1b_length, !g2b_length. split; [reflexivity|]. split; [reflexivity|].
  apply (f_equal (@length _)) in S1. unfold seen_g1 in S1. rewrite P1, !app_length, !map_length in S1. unfold g1e in S1. unfold u_of, seen1 in S1.
  rewrite !app_length, !map_length, seq_length, !g1b_length in S1. cbn [length] in S1. lia.
Qed.

(* fixing every coin but those of the setup and of one encryption, the whole table is seen by an observer of that one encryption *)
Lemma many_single before after cb ca O : length cb = (3 * length before)%nat -> length ca = (3 * length after)%nat ->
  exists O', questions O' = questions O /\ forall c0 c3 m, length c0 = (3 * n + 7)%nat -> length c3 = 3%nat -> vanishing_at xs (e 4 c0) <> fzero ->
    experiment_many pf B gens b O (before ++ m :: after) (c0 ++ cb ++ c3 ++ ca) = experiment pf B gens b O' m (c0 ++ c3).
Proof.
  intros Lb La. destruct (enc_all_forged before cb Lb) as (Ss & LS & HS). destruct (enc_all_forged after ca La) as (Ss' & LS' & HS').
  destruct (spanned_observer good_run run_g1 (tab_g1 Ss Ss') run_g2 (tab_g2 Ss Ss') (tab1_spanned Ss Ss') (tab2_spanned Ss Ss') O) as (O' & Q & HO).
  exists O'. split; [exact Q|]. intros c0 c3 m L0 L3 Hv. unfold experiment_many, experiment.
  destruct (setup_local c0 L0 Hv) as [(pk & sk & ek & dk & Hset)|Hfail].
  - rewrite !Hset. assert (Hg : good_setup pk ek dk).
    { exists c0, sk. split; [exact L0|]. split; [exact Hv|]. rewrite <- (Hset []), app_nil_r. reflexivity. }
    destruct (run_ok pf domain fuel b gens Hdom_ok Hb HbM Hcomp m (c0 ++ c3) pk sk ek dk c3 (Hset c3)) as (ct & r & q & st2 & Hrun). rewrite Hrun.
    rewrite (encrypt_all_app _ _ _ _ _ _ _ _ _ _ _ (HS pk ek dk (c3 ++ ca) Hg)). cbn [encrypt_all].
    pose proof Hrun as Hrun'. destruct c3 as [|x [|y [|z [|? ?]]]]; try discriminate L3.
    cbn [app]. rewrite (encrypt_with_proof_rest _ _ _ _ _ _ _ _ _ ca _ _ _ _ Hrun'). cbn [bind].
    pose proof (HS' pk ek dk [] Hg) as X. rewrite app_nil_r in X. rewrite X. cbn [bind].
    pose proof (good_run_holds c0 [x; y; z] pk sk ek dk m ct r q st2 L0 L3 Hv (Hset _) Hrun) as Hgr. exact (HO (pk, ek, dk, (ct, q)) Hgr).
  - destruct (setup_for_groth16 B (replay_rng E) b gens (c0 ++ cb ++ c3 ++ ca)) as [r| |] eqn:E1; [destruct (Hfail _ _ E1)| |];
    (destruct (setup_for_groth16 B (replay_rng E) b gens (c0 ++ c3)) as [r| |] eqn:E2; [destruct (Hfail _ _ E2)|reflexivity|reflexivity]).
Qed.

(* counting: the coins on which one changed message changes the guess *)
Definition others (i : nat) (c : list F) : list F * list F := (firstn (3 * i) (skipn (3 * n + 7) c), skipn (3 * i + 3) (skipn (3 * n + 7) c)).
Definition own (i : nat) (c : list F) : list F := firstn (3 * n + 7) c ++ firstn 3 (skipn (3 * i) (skipn (3 * n + 7) c)).
Lemma app_eq_parts {A} (x x' y y' : list A) : length x = length x' -> x ++ y = x' ++ y' -> x = x' /\ y = y'.
Proof.
  revert x'; induction x as [|a x IH]; intros [|a' x'] Hl Z; try discriminate; [split; [reflexivity|exact Z]|]. cbn [app] in Z. injection Z as -> Z.
  destruct (IH x') as [-> ->]; [cbn in Hl; lia|exact Z|split; reflexivity].
Qed.
Lemma skipn_plus {A} a k (l : list A) : skipn a (skipn k l) = skipn (k + a) l.
Proof. revert l; induction k as [|k IH]; intros [|x l]; cbn [skipn Nat.add]; try reflexivity; [apply skipn_nil|apply IH]. Qed.
Lemma coins_split i l c : length c = (3 * n + 7 + 3 * (i + S l))%nat -> exists c0 cb c3 ca, c = c0 ++ cb ++ c3 ++ ca /\
  length c0 = (3 * n + 7)%nat /\ length cb = (3 * i)%nat /\ length c3 = 3%nat /\ length ca = (3 * l)%nat /\ others i c = (cb, ca) /\ own i c = c0 ++ c3.
Proof.
  intros L. exists (firstn (3 * n + 7) c), (firstn (3 * i) (skipn (3 * n + 7) c)), (firstn 3 (skipn (3 * i) (skipn (3 * n + 7) c))), (skipn (3 * i + 3) (skipn (3 * n + 7) c)).
  split.
  - rewrite <- (firstn_skipn (3 * n + 7) c) at 1. f_equal. rewrite <- (firstn_skipn (3 * i) (skipn (3 * n + 7) c)) at 1. f_equal.
    rewrite <- (firstn_skipn 3 (skipn (3 * i) _)) at 1. f_equal. rewrite skipn_plus. reflexivity.
  - repeat split; rewrite ?firstn_length, ?skipn_length; lia.
Qed.
Lemma position_bound before m m' after O (L : list (list F)) : NoDup L ->
  (forall c, In c L -> length c = (3 * n + 7 + 3 * (length before + S (length after)))%nat /\ vanishing_at xs (e 4 c) <> fzero /\
     experiment_many pf B gens b O (before ++ m :: after) c <> experiment_many pf B gens b O (before ++ m' :: after) c) ->
  Z.of_nat (length L) * p <= (2 * Z.of_nat (questions O) * D1) * p ^ Z.of_nat (3 * n + 7 + 3 * (length before + S (length after))).
Proof.
  intros Hnd HL. set (i := length before) in *. set (l := length after) in *. pose proof (@modulus_gt1 K) as Hp.
  destruct (@all_tuples_exist K (3 * i)) as (Tb & Tb1 & Tb2). destruct (@all_tuples_exist K (3 * l)) as (Ta & Ta1 & Ta2).
  pose proof (all_tuples_count _ Tb Tb1 Tb2) as Cb. pose proof (all_tuples_count _ Ta Ta1 Ta2) as Ca.
  assert (dec : forall x y : list F * list F, {x = y} + {x <> y}) by (decide equality; apply (list_eq_dec feq_dec)).
  pose proof (fiber_bound dec (others i) (list_prod Tb Ta) L p ((2 * Z.of_nat (questions O) * D1) * p ^ Z.of_nat (3 * n + 10)) ltac:(lia)) as FB.
  eapply Z.le_trans; [apply FB|].
  - intros c Hc. destruct (HL c Hc) as [Lc _]. destruct (coins_split i l c Lc) as (c0 & cb & c3 & ca & Ec & L0 & Lb & L3 & La & Eo & _). rewrite Eo. apply in_prod_iff.
    split; [apply Tb2; exact Lb|apply Ta2; exact La].
  - intros [cb ca] Hy. apply in_prod_iff in Hy. destruct Hy as [Yb Ya]. apply Tb2 in Yb. apply Ta2 in Ya.
    destruct (many_single before after cb ca O Yb Ya) as (O' & Q & HO). rewrite <- Q.
    set (L1 := filter _ L). rewrite <- (map_length (own i) L1).
    assert (In1 : forall c, In c L1 -> In c L /\ others i c = (cb, ca)).
    { intros c Hc. apply filter_In in Hc. destruct Hc as [Hc Hd]. split; [exact Hc|]. destruct (dec (others i c) (cb, ca)); [assumption|discriminate]. }
    assert (Nd : NoDup L1) by (apply NoDup_filter; exact Hnd).
    apply (distinguish_bound_good n cs xs pf domain fuel b gens HG HH Hdom_ok Hb HbM Hcomp Hcount Hn0 Hcs Hdomain O' m m').
    + clear FB. clearbody L1. induction L1 as [|c L1 IH]; cbn [map]; [constructor|]. inversion Nd as [|? ? Nc Nd']; subst. constructor.
      * intros Z. apply in_map_iff in Z. destruct Z as (d & Ed & Hd). apply Nc. replace c with d; [exact Hd|].
        destruct (In1 c (or_introl eq_refl)) as [Ic Oc]. destruct (In1 d (or_intror Hd)) as [Id Od].
        destruct (coins_split i l c (proj1 (HL c Ic))) as (c0 & cb' & c3 & ca' & Ec & L0 & Lb & L3 & La & Eo & Ew).
        destruct (coins_split i l d (proj1 (HL d Id))) as (d0 & db & d3 & da & Edd & M0 & Mb & M3 & Ma & Fo & Fw).
        rewrite Eo in Oc. rewrite Fo in Od. injection Oc as -> ->. injection Od as -> ->. rewrite Ew, Fw in Ed.
        assert (X : d0 = c0 /\ d3 = c3).
        { apply app_eq_parts; [lia|exact Ed]. }
        destruct X as [-> ->]. rewrite Ec, Edd. reflexivity.
      * apply IH; [|exact Nd']. intros d Hd. apply In1. right. exact Hd.
    + intros w Hw. apply in_map_iff in Hw. destruct Hw as (c & <- & Hc). destruct (In1 c Hc) as [Ic Oc]. destruct (HL c Ic) as (Lc & Hv & Hne).
      destruct (coins_split i l c Lc) as (c0 & cb' & c3 & ca' & Ec & L0 & Lb & L3 & La & Eo & Ew). rewrite Eo in Oc. injection Oc as -> ->. rewrite Ew.
      split; [rewrite app_length; lia|]. assert (Hv0 : vanishing_at xs (e 4 c0) <> fzero) by (rewrite Ec, app_nth1 in Hv by lia; exact Hv).
      split; [rewrite app_nth1 by lia; exact Hv0|]. rewrite <- !(HO c0 c3 _ L0 L3 Hv0). rewrite <- Ec. exact Hne.
  - rewrite prod_length, Nat2Z.inj_mul, Cb, Ca. apply Z.eq_le_incl.
    replace (Z.of_nat (3 * n + 7 + 3 * (i + S l))) with (Z.of_nat (3 * i) + Z.of_nat (3 * l) + Z.of_nat (3 * n + 10)) by lia. rewrite !Z.pow_add_r by lia. ring.
Qed.

(* one message after the other *)
Lemma hybrid_bound before msgs msgs' after O (L : list (list F)) : length msgs = length msgs' -> NoDup L ->
  (forall c, In c L -> length c = (3 * n + 7 + 3 * (length before + (length msgs + length after)))%nat /\ vanishing_at xs (e 4 c) <> fzero /\
     experiment_many pf B gens b O (before ++ msgs ++ after) c <> experiment_many pf B gens b O (before ++ msgs' ++ after) c) ->
  Z.of_nat (length L) * p <= Z.of_nat (length msgs) * ((2 * Z.of_nat (questions O) * D1) * p ^ Z.of_nat (3 * n + 7 + 3 * (length before + (length msgs + length after)))).
Proof.
  revert before msgs' L; induction msgs as [|m msgs IH]; intros before [|m' msgs'] L Hl Hnd HL; try discriminate Hl.
  - destruct L as [|c L]; [cbn; lia|]. destruct (HL c (or_introl eq_refl)) as (_ & _ & Hne). contradiction.
  - set (f := experiment_many pf B gens b O (before ++ (m :: msgs) ++ after)) in *. set (h := experiment_many pf B gens b O (before ++ m' :: (msgs ++ after))).
    set (g := experiment_many pf B gens b O (before ++ (m' :: msgs') ++ after)) in *. pose proof (@modulus_gt1 K) as Hp.
    set (L1 := filter (fun c => negb (Bool.eqb (f c) (h c))) L). set (L2 := filter (fun c => negb (Bool.eqb (h c) (g c))) L).
    assert (Len : (length L <= length L1 + length L2)%nat).
    { subst L1 L2. clear -HL. induction L as [|c L IHL]; cbn [filter length]; [lia|]. assert (Hne : f c <> g c) by (apply HL; left; reflexivity).
      specialize (IHL ltac:(intros d Hd; apply HL; right; exact Hd)). destruct (f c), (h c), (g c); cbn [negb Bool.eqb length]; try lia; contradiction. }
    pose proof (position_bound before m m' (msgs ++ after) O L1) as A1. pose proof (IH (before ++ [m']) msgs' L2 ltac:(cbn in Hl; lia)) as A2.
    rewrite !app_length in A1, A2. cbn [length] in A1, A2. cbn [length].
    replace (length before + S (length msgs + length after))%nat with (length before + (S (length msgs) + length after))%nat in A1 by lia.
    replace (length before + 1 + (length msgs + length after))%nat with (length before + (S (length msgs) + length after))%nat in A2 by lia.
    set (T := p ^ _) in *. set (D := 2 * Z.of_nat (questions O) * D1) in *.
    assert (A1' : Z.of_nat (length L1) * p <= D * T).
    { apply A1; [apply NoDup_filter; exact Hnd|]. intros c Hc. apply filter_In in Hc. destruct Hc as [Hc Hd]. split; [apply HL; exact Hc|]. split; [apply HL; exact Hc|].
      intros Z. fold h in Z. change (before ++ m :: msgs ++ after) with (before ++ (m :: msgs) ++ after) in Z. fold f in Z. rewrite Z, Bool.eqb_reflx in Hd. discriminate Hd. }
    assert (A2' : Z.of_nat (length L2) * p <= Z.of_nat (length msgs) * (D * T)).
    { apply A2; [apply NoDup_filter; exact Hnd|]. intros c Hc. apply filter_In in Hc. destruct Hc as [Hc Hd]. split; [apply HL; exact Hc|]. split; [apply HL; exact Hc|].
      rewrite <- !app_assoc. cbn [app]. intros Z. fold h in Z. change (before ++ m' :: msgs' ++ after) with (before ++ (m' :: msgs') ++ after) in Z. fold g in Z.
      rewrite Z, Bool.eqb_reflx in Hd. discriminate Hd. }
    nia.
Qed.
Lemma many_bound_good msgs msgs' O (L : list (list F)) : length msgs = length msgs' -> NoDup L ->
  (forall c, In c L -> length c = (3 * n + 7 + 3 * length msgs)%nat /\ vanishing_at xs (e 4 c) <> fzero /\
     experiment_many pf B gens b O msgs c <> experiment_many pf B gens b O msgs' c) ->
  Z.of_nat (length L) * p <= (2 * Z.of_nat (questions O) * Z.of_nat (length msgs) * D1) * p ^ Z.of_nat (3 * n + 7 + 3 * length msgs).
Proof.
  intros Hl Hnd HL. pose proof (hybrid_bound [] msgs msgs' [] O L Hl Hnd) as HB. cbn [app length] in HB. rewrite !app_nil_r, Nat.add_0_r in HB. cbn [Nat.add] in HB.
  eapply Z.le_trans; [apply HB; exact HL|]. apply Z.eq_le_incl. ring.
Qed.
Lemma many_bound msgs msgs' O (L : list (list F)) : length msgs = length msgs' -> NoDup L ->
  (forall c, In c L -> length c = (3 * n + 7 + 3 * length msgs)%nat /\ experiment_many pf B gens b O msgs c <> experiment_many pf B gens b O msgs' c) ->
  Z.of_nat (length L) * p <= (Z.of_nat N + 2 * Z.of_nat (questions O) * Z.of_nat (length msgs) * D1) * p ^ Z.of_nat (3 * n + 7 + 3 * length msgs).
Proof.
  intros Hl Hnd HL. apply (split_tau n cs xs b HbM Hn0); [lia|exact Hnd|intros c Hc; apply HL; exact Hc|]. intros L' Hnd' HL'. apply (many_bound_good msgs msgs'); [exact Hl|exact Hnd'|].
  intros c Hc. destruct (HL' c Hc) as [Hi Hv]. destruct (HL c Hi) as [Lc Hne]. split; [exact Lc|]. split; assumption.
Qed.
End Many.
