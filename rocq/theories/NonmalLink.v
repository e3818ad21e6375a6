(* NonmalLink.v -- one run: what acceptance means for a prover that sees the published elements, one honest ciphertext and its proof (for C73) *)
From Verif Require Import Base BaseFacts Algebra Utils UtilsFacts Setup Keygen Encryption Circuit CircuitFacts CircuitSat CommitmentFacts VecFacts KeySpec KeygenFacts
  EncryptFacts DecryptFacts Spec VerifyFacts Protocol ReencFacts DistFacts PropVerify Groth16 ArkGroth16 PolyFacts Groth16Spec ArkFacts Groth16Facts SchwartzZippel SoundCore SoundSpec
  SoundAlg SoundGame SoundLink SoundFacts SoundCount SoundHonest PropGroth16 PropSoundCases PropZK PrivacySpec PrivacyAlg PrivacyGame PrivacyLink PrivacyCount PrivacySpan PrivacyMany
  SoundDkgSpec SoundDkg SoundAdaptSpec NonmalCore NonmalAlg NonmalSpec NonmalGame.

Section NLink.
Context {E : pairing}.
Notation K := (K_of E).
Notation F := (Fr E).
Add Ring Kr : (@scalar_ring_theory K).
Notation "x +f y" := (fadd x y) (at level 50, left associativity).
Notation "x *f y" := (fmul x y) (at level 40, left associativity).
Notation "x -f y" := (fsub x y) (at level 50, left associativity).
Notation e i env := (nth i env fzero).
Notation p := (modulus K).

Variables (n : nat) (cs : csys K) (xs : list F) (pf : profile) (domain : nat -> option (list F)) (fuel : nat) (b : Z) (gens : encryption_gens E).
Let ni := cs_num_inst cs.
Let nw := cs_num_wit cs.
Let nc := length (cs_cons cs).
Let N := length xs.
Let M := (ni + nw)%nat.
Notation G := (eg_G gens).
Notation H := (eg_H gens).
Notation B := (ark_backend pf domain fuel).
Hypothesis HG : G <> gzero.
Hypothesis HH : H <> gzero.
Hypothesis Hdom_ok : domain_ok domain.
Hypothesis Hb : supported b.
Hypothesis HbM : 2 ^ b <= modulus K.
Hypothesis Hcomp : chunk_compatible K b.
Hypothesis Hcount : chunks_count K b = Ok (Z.of_nat n).
Hypothesis Hn0 : (0 < n)%nat.
Hypothesis Hcs : generate_constraints (BitsizeCheckCircuit b (Z.of_nat n) None true) (@cs_new K Circuit.Setup) = Ok cs.
Hypothesis Hdomain : domain (nc + ni)%nat = Some xs.
Let Hni : ni = S n := proj1 (cs_shape n cs xs b (bits_of _ b Hb HbM) Hn0 Hcs).

Section Run.
Variables (coins : list F) (pk : proving_key E) (sk : F) (ek : encryption_key E) (dk : decryption_key E) (st : list F) (T1 : list (G1 E)) (T2 : list (G2 E)) (m : nat -> F) (z : list F).
Hypothesis Hl : length coins = (3 * n + 10)%nat.
Hypothesis Hv : vanishing_at xs (e 4 coins) <> fzero.
Hypothesis Hs : setup_for_groth16 B (replay_rng E) b gens coins = Ok (pk, sk, ek, dk, st).
Let ST := setup_tape_rest n cs xs pf domain fuel b gens Hcount Hcs Hdomain Hni coins pk sk ek dk st ltac:(lia) Hv Hs.
Let w := finv (e 3 coins *f (e 2 coins *f e 3 coins)).
Hypothesis HT1 : T1 = map (fun x => (w *f x) [*] G) (u_of n cs xs m z coins).
Hypothesis HT2 : T2 = map (fun x => x [*] H) (v_of n cs xs z coins).
Lemma run_u : e 3 coins *f (e 2 coins *f e 3 coins) <> fzero.
Proof. destruct ST as (Hga & Hde & _). intros Z; apply fmul_integral in Z; destruct Z as [Z|Z]; [contradiction|]. apply fmul_integral in Z; destruct Z; contradiction. Qed.
Lemma run_w : (e 3 coins *f (e 2 coins *f e 3 coins)) *f w = fone.
Proof. apply finv_r, run_u. Qed.
Lemma run_w0 : w <> fzero.
Proof. intros Z. pose proof run_w as X. rewrite Z in X. apply (@fneq01 K). rewrite <- X. ring. Qed.
Lemma run_g1 c : dot c T1 = (w *f fdot c (u_of n cs xs m z coins)) [*] G.
Proof.
  rewrite HT1. rewrite <- (map_map (fun x => w *f x) (fun a => a [*] G)), dot_smul_map. f_equal.
  rewrite (fdot_map_r c (fun x => x) (u_of n cs xs m z coins) w), map_id. reflexivity.
Qed.
Lemma run_g2 c : dot c T2 = fdot c (v_of n cs xs z coins) [*] H.
Proof. rewrite HT2. apply dot_smul_map. Qed.
Let E1 := fun c => fdot c (u_of n cs xs m z coins).

Lemma accept_com1 S0 : verify_commitment (ciphertext_from S0 T1) (prepare_ek ek) (prepare_gens gens) = Ok tt <->
  length (sg_chunks S0) = n /\ f_com1 n cs xs m z S0 coins = fzero.
Proof.
  destruct ST as (_ & _ & _ & _ & Hek & _). rewrite Hek.
  rewrite (verify_exact _ _ _ _ _ _ _ n); [|exact HH|rewrite map_length, seq_length; reflexivity|rewrite map_length, seq_length; reflexivity|unfold gis; rewrite map_length, seq_length; lia|pose proof (chunks_count_range _ _ _ Hcount); lia].
  cbn [ciphertext_from ct_commitment ct_X_r ct_enc_chunks]. rewrite map_length.
  assert (T : e_t n coins 0 :: map (fun j => e_t n coins (S j)) (seq 0 n) = map (e_t n coins) (seq 0 (S n))).
  { cbn [seq map]. f_equal. rewrite <- seq_shift, map_map. reflexivity. }
  change (e_t n coins 0 [*] dot (sg_X_r S0) T1 [+] dot (map (fun j => e_t n coins (S j)) (seq 0 n)) (map (fun c => dot c T1) (sg_chunks S0)))
    with (dot (e_t n coins 0 :: map (fun j => e_t n coins (S j)) (seq 0 n)) (map (fun c => dot c T1) (sg_X_r S0 :: sg_chunks S0))).
  rewrite T, run_g1. rewrite (map_ext _ (fun c => (w *f E1 c) [*] G) (fun c => run_g1 c)).
  rewrite <- (map_map (fun c => w *f E1 c) (fun a => a [*] G)), dot_smul_map, fdot_map_r. rewrite (exp_iff G w _ _ _ HG run_w).
  unfold f_com1, eq_com1. fold (u_of n cs xs m z coins). rewrite (fdot_comm (map (fun c => fdot c (u_of n cs xs m z coins)) (sg_X_r S0 :: sg_chunks S0))). reflexivity.
Qed.
Lemma accept_qap1 S0 : verify_proof (prepare_verifying_key (gpk_vk (pk_pk pk))) (proof_from S0 T1 T2) (ciphertext_from S0 T1) = Ok tt ->
  f_qap1 n cs xs m z S0 coins = fzero.
Proof.
  destruct ST as (Hga & Hde & _ & _ & _ & _ & _ & _ & Hvk & _). rewrite Hvk. replace (cs_num_inst cs) with (S n) by (symmetry; exact Hni). cbn [seq map].
  erewrite verify_proof_unfold by reflexivity. cbn [vk_delta_g2 vk_gamma_g2 vk_alpha_g1 vk_beta_g2 proof_from ciphertext_from pr_a pr_b pr_c ct_X_r ct_enc_chunks].
  assert (Gs : dot (sg_X_r S0) T1 [+] gsum (map (fun c => dot c T1) (sg_chunks S0)) = (w *f fsum (map E1 (sg_X_r S0 :: sg_chunks S0))) [*] G).
  { change (dot (sg_X_r S0) T1 [+] gsum (map (fun c => dot c T1) (sg_chunks S0)))
      with (gsum (map (fun c => dot c T1) (sg_X_r S0 :: sg_chunks S0))).
    rewrite (map_ext _ (fun c => (w *f E1 c) [*] G) (fun c => run_g1 c)). rewrite <- (map_map (fun c => w *f E1 c) (fun a => a [*] G)), gsum_map_smul, fsum_map_mul. reflexivity. }
  rewrite Gs, !run_g1, run_g2. rewrite !pair_neg_r, <- smul_fadd. rewrite !pair_smul_r, !pair_smul_l, <- ?smul_fmul.
  fold (E1 (sg_a S0)) (E1 (sg_c S0)).
  set (Bv := fdot (sg_b S0) (v_of n cs xs z coins)) in *. set (X := fsum (map E1 (sg_X_r S0 :: sg_chunks S0))) in *.
  assert (Hp : pair G (prep H) <> gzero) by (intros Z; apply pair_nondeg in Z; destruct Z; contradiction).
  match goal with |- (if geqb ?x ?y then _ else _) = _ -> _ => destruct (geqb x y) eqn:Z; [apply geqb_spec in Z|discriminate]; intros _ end.
  rewrite <- !smul_fneg, <- !smul_fadd in Z. apply (smul_inj_scalar _ _ _ Hp) in Z.
  set (q0 := qq cs xs (e 0 coins) (e 1 coins) (e 4 coins) 0) in *. pose proof run_w as Hw. set (u := e 3 coins *f (e 2 coins *f e 3 coins)) in *.
  assert (Q : f_qap1 n cs xs m z S0 coins = Bv *f E1 (sg_a S0) -f e 3 coins *f E1 (sg_c S0) -f e 2 coins *f (X +f e 3 coins *f e 3 coins *f q0) -f u *f (e 0 coins *f e 1 coins)).
  { unfold f_qap1, eq_qap1. fold (u_of n cs xs m z coins) (v_of n cs xs z coins). fold Bv. unfold X, E1, u, q0. ring. }
  rewrite Q. clear Q.
  assert (Y : u *f (e 1 coins *f e 0 coins) = Bv *f E1 (sg_a S0) -f e 3 coins *f E1 (sg_c S0) -f e 2 coins *f (X +f e 3 coins *f e 3 coins *f q0)).
  { rewrite <- Z.
    transitivity ((u *f w) *f (Bv *f E1 (sg_a S0)) -f (u *f w) *f (e 3 coins *f E1 (sg_c S0)) -f e 2 coins *f ((u *f w) *f X +f u *f (q0 *f finv (e 2 coins)))); [ring|].
    rewrite Hw. unfold u.
    transitivity (Bv *f E1 (sg_a S0) -f e 3 coins *f E1 (sg_c S0) -f e 2 coins *f (X +f e 3 coins *f e 3 coins *f q0 *f (e 2 coins *f finv (e 2 coins)))); [ring|].
    rewrite finv_r by exact Hga. ring. }
  rewrite <- Y. ring.
Qed.
Lemma accept1 S0 : verify_commitment_and_proof (ciphertext_from S0 T1) (proof_from S0 T1 T2) (prepare_verifying_key (gpk_vk (pk_pk pk))) (prepare_ek ek) (prepare_gens gens) = Ok tt ->
  length (sg_chunks S0) = n /\ f_com1 n cs xs m z S0 coins = fzero /\ f_qap1 n cs xs m z S0 coins = fzero.
Proof.
  intros Z. unfold verify_commitment_and_proof in Z. destruct (verify_commitment _ _ _) as [[]|err|] eqn:Z1; try discriminate Z. cbn [bind] in Z.
  apply accept_com1 in Z1. destruct Z1 as [Z1 Z2]. apply accept_qap1 in Z. repeat split; assumption.
Qed.
Lemma play_play1 rows1 rows2 P : play P (combos rows1 T1) (combos rows2 T2) = play1 n cs xs m z rows1 rows2 P coins.
Proof.
  induction P as [St|q P1 IH1 P2 IH2]; cbn [play play1]; [reflexivity|]. rewrite IH1, IH2. rewrite <- pp_pull_back.
  assert (X : geqb (pairing_product (pull_back q rows1 rows2) T1 T2) gzero = feqb (f_ans n cs xs (pull_back q rows1 rows2) m z coins) fzero); [|rewrite X; reflexivity].
  rewrite HT1, HT2, pairing_product_exp. fold (f_ans n cs xs (pull_back q rows1 rows2) m z coins).
  apply eq_true_iff_eq. rewrite geqb_spec, feqb_spec. split.
  - intros Z. apply smul_eq_zero in Z. destruct Z as [Z|Z]; [apply fmul_integral in Z; destruct Z as [Z|Z]; [destruct (run_w0 Z)|exact Z]|].
    apply pair_nondeg in Z. destruct Z; contradiction.
  - intros ->. replace (w *f fzero) with (@fzero K) by ring. apply smul_0_l.
Qed.
Lemma dot_T1_eq c c' : dot c T1 = dot c' T1 <-> fdot c (u_of n cs xs m z coins) = fdot c' (u_of n cs xs m z coins).
Proof.
  rewrite !run_g1. rewrite (exp_iff G w _ _ _ HG run_w). split; intros Z; [symmetry; apply fsub_zero_eq; exact Z|rewrite Z; ring].
Qed.
Lemma fdot_unit_row c i (l : list F) : fdot (map (fmul c) (unit_row i)) l = c *f nth i l fzero.
Proof.
  revert l; induction i as [|i IH]; intros [|x l]; unfold unit_row in *; cbn [repeat app map fdot nth]; try ring. rewrite IH. ring.
Qed.
Lemma nth_u_a : nth (P1 n cs xs + (2 + n)) (u_of n cs xs m z coins) fzero = e 3 coins *f (e 2 coins *f e 3 coins *f a_of n cs xs z coins).
Proof.
  unfold u_of, seen1. set (l1 := map (fmul _) (g1b _ _ _ _ _ _ _ _ _ _)). assert (L1 : length l1 = P1 n cs xs) by (unfold l1; rewrite map_length; apply g1b_length).
  rewrite app_nth2 by lia. rewrite L1. replace (P1 n cs xs + (2 + n) - P1 n cs xs)%nat with (S (S n)) by lia. cbn [app nth].
  set (l2 := map _ (seq 0 n)). assert (L2 : length l2 = n) by (unfold l2; rewrite map_length; apply seq_length).
  rewrite app_nth2 by lia. rewrite L2. replace (S n - n)%nat with 1%nat by lia. reflexivity.
Qed.
Lemma A_fine_dot S0 : A_fine n cs xs m z S0 coins <-> dot (sg_a S0) T1 = ha n cs xs (sg_a S0) [*] nth (P1 n cs xs + (2 + n)) T1 gzero.
Proof.
  rewrite <- dot_unit_row, <- dot_map_fmul, dot_T1_eq, fdot_unit_row, nth_u_a. reflexivity.
Qed.
End Run.

(* ---------- the honest strategies, as functions of the message ---------- *)
Definition ds_of (msg : F) : list Z := match decompose pf msg b with Ok ds => ds | _ => [] end.
Definition sp_of (msg : F) : csys K := match generate_constraints (BitsizeCheckCircuit b (Z.of_nat n) (Some (map (fun m => of_Z m) (ds_of msg))) true) (@cs_new K Prove) with Ok sp => sp | _ => cs end.
Definition hs (msg r rr ss : F) : strategy E := honest_strategy n cs xs (sp_of msg) (ds_of msg) r rr ss.
Fixpoint hons (msgs coins : list F) : list (strategy E) :=
  match msgs, coins with
  | msg :: msgs', r :: rr :: ss :: coins' => hs msg r rr ss :: hons msgs' coins'
  | _, _ => []
  end.
Lemma hs_run msg : length (ds_of msg) = n /\ decompose pf msg b = Ok (ds_of msg) /\
  generate_constraints (BitsizeCheckCircuit b (Z.of_nat n) (Some (map (fun m => of_Z m) (ds_of msg))) true) (@cs_new K Prove) = Ok (sp_of msg) /\
  (forall r rr ss, extracted_chunks n (hs msg r rr ss) = ds_of msg) /\
  forall r rr ss pk ek dk rest, good_setup n xs pf domain fuel b gens pk ek dk ->
  encrypt_with_proof pf B (replay_rng E) msg ek pk b (r :: rr :: ss :: rest) = Ok (forge_ciphertext (hs msg r rr ss) gens pk ek, r, forge_proof (hs msg r rr ss) gens pk ek dk, rest).
Proof.
  assert (X : forall r rr ss, exists sp ds, sp_of msg = sp /\ ds_of msg = ds /\ let S := honest_strategy n cs xs sp ds r rr ss in length ds = n /\
    generate_constraints (BitsizeCheckCircuit b (Z.of_nat n) (Some (map (fun m => of_Z m) ds)) true) (@cs_new K Prove) = Ok sp /\ decompose pf msg b = Ok ds /\ extracted_chunks n S = ds /\
    forall tape pk sk ek dk st', length tape = (3 * n + 7)%nat -> ~ In (nth 4 tape fzero) xs -> setup_for_groth16 B (replay_rng E) b gens tape = Ok (pk, sk, ek, dk, st') ->
    encrypt_with_proof pf B (replay_rng E) msg ek pk b [r; rr; ss] = Ok (forge_ciphertext S gens pk ek, r, forge_proof S gens pk ek dk, [])).
  { intros r rr ss. destruct (honest_strategy_run gens pf domain fuel n b cs xs msg r rr ss Hdom_ok Hb HbM (proj1 Hcomp) (proj2 Hcomp) Hcount Hcs Hdomain) as (sp & ds & Ld & Hsp & Hd & Hx & _ & HS).
    exists sp, ds. assert (D : ds_of msg = ds) by (unfold ds_of; rewrite Hd; reflexivity). split; [unfold sp_of; rewrite D, Hsp; reflexivity|]. split; [exact D|].
    cbv zeta. split; [exact Ld|]. split; [exact Hsp|]. split; [exact Hd|]. split; [exact Hx|]. intros tape pk sk ek dk st' A1 A2 A3. exact (proj1 (HS tape pk sk ek dk st' A1 A2 A3)). }
  destruct (X fzero fzero fzero) as (sp & ds & E1 & E2 & Y). cbv zeta in Y. destruct Y as (Ld & Hsp & Hd & _). rewrite E1, E2.
  split; [exact Ld|]. split; [exact Hd|]. split; [exact Hsp|]. split.
  - intros r rr ss. destruct (X r rr ss) as (sp' & ds' & E1' & E2' & Y). cbv zeta in Y. destruct Y as (_ & _ & _ & Hx & _). unfold hs. rewrite E1', E2', Hx. congruence.
  - intros r rr ss pk ek dk rest (c0 & sk & Hl & Hv & Hset). destruct (X r rr ss) as (sp' & ds' & E1' & E2' & Y). cbv zeta in Y. destruct Y as (_ & _ & _ & _ & HS). unfold hs. rewrite E1', E2'.
    apply (encrypt_with_proof_rest _ _ _ _ _ _ _ _ _ rest _ _ _ []). apply (HS c0 pk sk ek dk []); [exact Hl|rewrite <- vanishing_zero; exact Hv|exact Hset].
Qed.
Lemma hons_length msgs coins : length coins = (3 * length msgs)%nat -> length (hons msgs coins) = length msgs.
Proof.
  revert coins; induction msgs as [|msg msgs IH]; intros coins Hl; [reflexivity|]. destruct coins as [|r [|rr [|ss coins]]]; cbn [length] in Hl; try lia. cbn [hons length]. rewrite IH by lia. reflexivity.
Qed.
Lemma hons_run msgs coins : length coins = (3 * length msgs)%nat -> forall pk ek dk rest, good_setup n xs pf domain fuel b gens pk ek dk ->
  encrypt_all pf B (replay_rng E) msgs ek pk b (coins ++ rest) = Ok (map (forged gens pk ek dk) (hons msgs coins), rest).
Proof.
  revert coins; induction msgs as [|msg msgs IH]; intros coins Hl pk ek dk rest Hg.
  - destruct coins; [|discriminate]. reflexivity.
  - destruct coins as [|r [|rr [|ss coins]]]; cbn [length] in Hl; try lia. cbn [hons encrypt_all app map]. destruct (hs_run msg) as (_ & _ & _ & _ & HR). rewrite (HR _ _ _ _ _ _ _ Hg). cbn [bind].
    rewrite (IH coins ltac:(lia) _ _ _ _ Hg). reflexivity.
Qed.
Lemma hons_app msgs msgs' coins coins' : length coins = (3 * length msgs)%nat -> hons (msgs ++ msgs') (coins ++ coins') = hons msgs coins ++ hons msgs' coins'.
Proof.
  revert coins; induction msgs as [|msg msgs IH]; intros coins Hl.
  - destruct coins; [|discriminate]. reflexivity.
  - destruct coins as [|r [|rr [|ss coins]]]; cbn [length] in Hl; try lia. cbn [hons app]. rewrite IH by lia. reflexivity.
Qed.
Lemma hons_in msgs coins S0 : In S0 (hons msgs coins) -> exists msg r rr ss, In msg msgs /\ S0 = hs msg r rr ss.
Proof.
  revert coins; induction msgs as [|msg msgs IH]; intros coins Hin; [destruct coins; destruct Hin|]. destruct coins as [|r [|rr [|ss coins]]]; cbn [hons] in Hin; try (destruct Hin; fail).
  destruct Hin as [<-|Hin]; [exists msg, r, rr, ss; split; [left; reflexivity|reflexivity]|]. destruct (IH _ Hin) as (a & r' & rr' & ss' & A1 & A2). exists a, r', rr', ss'. split; [right; exact A1|exact A2].
Qed.
End NLink.
