(* PropGroth16Cases.v -- a concrete run of setup_for_groth16 (transcribed ark-groth16 backend over the integers 0,1,2,... as
   evaluation domain, chunk size 16, field 2^61-1, a replayed random tape), to which the theorems of PropGroth16.v apply. *)
From Verif Require Import Base BaseFacts Algebra Utils UtilsFacts Setup Commitment CommitmentFacts Keygen KeygenFacts Encryption EncryptFacts
  DecryptFacts RoundTrip VerifyFacts Spec KeySpec VecFacts Protocol ReencFacts DistFacts PropVerify Circuit CircuitFacts CircuitSat
  Groth16 ArkGroth16 PolyFacts Groth16Spec ArkFacts Groth16Facts Instance Examples PropGroth16.

Notation K61 := (K_of E61).
Add Ring K61r : (@scalar_ring_theory K61).

(* the evaluation domain 0, 1, ..., k-1 *)
Definition y_points (k : nat) : list (Fr E61) := map (fun i => of_Z (Z.of_nat i)) (seq 0 k).
Definition y_domain (k : nat) : option (list (Fr E61)) := if Z.of_nat k <? 2 ^ 60 then Some (y_points k) else None.
Lemma NoDup_map_in {A B} (f : A -> B) l : (forall x y, In x l -> In y l -> f x = f y -> x = y) -> NoDup l -> NoDup (map f l).
Proof.
  intros Hf H. induction H as [|x l Hx Hl IH]; cbn [map]; [constructor|]. constructor.
  - rewrite in_map_iff. intros (y & Hy & Hin). apply Hx. rewrite (Hf x y); [exact Hin|left; reflexivity|right; exact Hin|symmetry; exact Hy].
  - apply IH. intros a b Ha Hb. apply Hf; right; assumption.
Qed.
Lemma y_domain_ok : domain_ok y_domain.
Proof.
  intros n xs H. unfold y_domain in H. destruct (Z.ltb_spec (Z.of_nat n) (2 ^ 60)) as [Hn|]; [|discriminate]. injection H as <-.
  unfold y_points. rewrite map_length, seq_length. split; [|lia].
  apply NoDup_map_in; [|apply seq_NoDup]. intros i j Hi Hj H. apply in_seq in Hi. apply in_seq in Hj.
  apply (f_equal sval) in H. rewrite !sval_of_Z in H. change (modulus K61) with (2 ^ 61 - 1) in H. rewrite !Z.mod_small in H; lia.
Qed.

Definition y_backend (pf : profile) : groth16_backend E61 := ark_backend pf y_domain 3.
Definition y_alpha := nz61 1234567.
Definition y_beta := nz61 7654321.
Definition y_gamma := nz61 31415926.
Definition y_delta := nz61 27182818.
Definition y_x := nz61 1000003.
Definition y_s := range61 5000 4.
Definition y_t0 := nz61 88.
Definition y_t := range61 6000 4.
Definition y_v := range61 7000 4.
Definition y_rho := nz61 4321.
(* the first two draws for the evaluation point fall into the domain and are rejected *)
Definition y_tape : list (Fr E61) :=
  [y_alpha; y_beta; y_gamma; y_delta; nz61 17; nz61 400; y_x] ++ (y_rho :: y_s ++ (y_t0 :: y_t) ++ y_v ++ []).
Definition y_circ : synthesizer E61 := generate_constraints (BitsizeCheckCircuit 16 4 None true).

Definition y_N : nat := 433.
Definition y_xs := y_points y_N.
Definition y_u (i : nat) : Fr E61 :=
  fmul (finv (vanishing_at (others y_xs i) (nth i y_xs fzero))) (vanishing_at (others y_xs i) y_x).

Definition y_cons : list (constraint K61) := @all_cons K61 16 (circuit_vars true 4) 0.
(* row of the packing constraint of chunk k *)
Definition y_row (k : nat) : nat := (k * 107 + 61)%nat.

(* ---------- columns with at most one non-zero entry ---------- *)
Lemma fsum_all_zero {A} (f : A -> Fr E61) l : (forall x, In x l -> f x = fzero) -> fsum (map f l) = fzero.
Proof. induction l as [|a l IH]; intros H; cbn [map fsum fold_right]; [reflexivity|]. rewrite (H a) by (left; reflexivity). fold (fsum (map f l)). rewrite IH by (intros; apply H; right; assumption). ring. Qed.
Lemma column_zero ni rows u j : forallb (fun l => feqb (row_coeff ni l j) (@fzero K61)) rows = true -> @column E61 ni rows u j = fzero.
Proof.
  intros H. unfold column. apply fsum_all_zero. intros [l ui] Hin. apply in_combine_l in Hin. rewrite forallb_forall in H. specialize (H l Hin).
  apply feqb_spec in H. rewrite H. ring.
Qed.
Fixpoint one_entry (ni j : nat) (rows : list (lincomb K61)) (p : nat) (c : Fr E61) : bool :=
  match rows, p with
  | [], _ => false
  | l :: rows', O => feqb (row_coeff ni l j) c && forallb (fun l => feqb (row_coeff ni l j) fzero) rows'
  | l :: rows', S p' => feqb (row_coeff ni l j) fzero && one_entry ni j rows' p' c
  end.
Lemma column_one ni j rows : forall p c u, one_entry ni j rows p c = true -> (length rows <= length u)%nat ->
  @column E61 ni rows u j = fmul (nth p u fzero) c.
Proof.
  induction rows as [|l rows IH]; intros p c u H Hl; [discriminate|]. destruct u as [|u0 u]; [cbn [length] in Hl; lia|].
  assert (S1 : @column E61 ni (l :: rows) (u0 :: u) j = fadd (fmul u0 (row_coeff ni l j)) (@column E61 ni rows u j)) by reflexivity. rewrite S1.
  destruct p as [|p]; cbn [one_entry] in H; apply Bool.andb_true_iff in H; destruct H as [H1 H2]; apply feqb_spec in H1; rewrite H1; cbn [nth].
  - rewrite (column_zero ni rows u j H2). ring.
  - rewrite (IH p c u H2) by (cbn [length] in Hl; lia). ring.
Qed.

(* ---------- the run ---------- *)
Definition y_uvec : list (Fr E61) := map (fun i => peval (lagrange y_xs i) y_x) (seq 0 (length y_xs)).
Lemma y_xs_length : length y_xs = y_N.
Proof. unfold y_xs, y_points. rewrite map_length, seq_length. reflexivity. Qed.
Lemma y_uvec_nth i : (i < y_N)%nat -> nth i y_uvec fzero = y_u i.
Proof.
  intros Hi. unfold y_uvec. rewrite y_xs_length. rewrite (nth_indep _ fzero (peval (lagrange y_xs 0) y_x)) by (rewrite map_length, seq_length; exact Hi).
  rewrite (map_nth (fun i => peval (lagrange y_xs i) y_x)), seq_nth by exact Hi. rewrite lagrange_eval. reflexivity.
Qed.

Lemma y_setup_cs : exists s, y_circ (cs_new Circuit.Setup) = Ok s /\ cs_num_inst s = 5%nat /\ cs_cons s = y_cons.
Proof.
  destruct (@generate_setup K61 16 4 true ltac:(vm_compute; split; discriminate)) as (s & Hs & Hi & _ & Hc). exists s. split; [exact Hs|]. split; [exact Hi|exact Hc].
Qed.

Definition y_w (k : nat) : Fr E61 := fsub (fmul y_beta (y_u (428 + S k))) (y_u (y_row k)).
Lemma y_w_nonzero : forallb (fun k => negb (feqb (y_w k) fzero)) (seq 0 4) = true.
Proof. vm_compute. reflexivity. Qed.
Lemma y_columns : forallb (fun k => forallb (fun l => feqb (row_coeff 5 l (S k)) (@fzero K61)) (map c_a y_cons) &&
   forallb (fun l => feqb (row_coeff 5 l (S k)) (@fzero K61)) (map c_b y_cons) && one_entry 5 (S k) (map c_c y_cons) (y_row k) (fneg fone)) (seq 0 4) = true.
Proof. vm_compute. reflexivity. Qed.
Lemma y_cons_length : length y_cons = 428%nat.
Proof. vm_compute. reflexivity. Qed.

Lemma nth_map_seq {A} (f : nat -> A) n i d : (i < n)%nat -> nth i (map f (seq 0 n)) d = f i.
Proof. intros H. rewrite (nth_indep _ d (f 0%nat)) by (rewrite map_length, seq_length; exact H). rewrite map_nth, seq_nth by exact H. reflexivity. Qed.
Lemma gs_of {A B C} (g : B -> C) (h : A -> B) (f : nat -> A) nw :
  skipn 1 (map g (map h (firstn 5 (map f (seq 0 (5 + nw)))))) = map (fun k => g (h (f (S k)))) (seq 0 4).
Proof. reflexivity. Qed.

Lemma y_generate pf st : exists gpk,
  generate_parameters_with_qap (y_backend pf) (replay_rng E61) y_circ y_alpha y_beta y_gamma y_delta (eg_G x_gens) (eg_H x_gens)
    (nz61 17 :: nz61 400 :: y_x :: st) = Ok (gpk, st) /\
  skipn 1 (vk_gamma_abc_g1 (gpk_vk gpk)) = map (fun k => fmul (y_w k) (finv y_gamma) [*] eg_G x_gens) (seq 0 4).
Proof.
  destruct y_setup_cs as (s & Hs & Hi & Hc). unfold y_backend. cbn [generate_parameters_with_qap ark_backend]. unfold ark_generate. rewrite Hs. cbn [bind].
  rewrite Hc, y_cons_length, Hi. change (y_domain (428 + 5)) with (Some y_xs). cbn [domain_or_err bind].
  assert (In1 : vanishing_at y_xs (nz61 17) = fzero).
  { apply vanishing_zero. unfold y_xs, y_points. rewrite in_map_iff. exists 17%nat. split; [reflexivity|]. apply in_seq. unfold y_N. lia. }
  assert (In2 : vanishing_at y_xs (nz61 400) = fzero).
  { apply vanishing_zero. unfold y_xs, y_points. rewrite in_map_iff. exists 400%nat. split; [reflexivity|]. apply in_seq. unfold y_N. lia. }
  assert (Out : vanishing_at y_xs y_x <> fzero).
  { rewrite vanishing_zero. unfold y_xs, y_points. rewrite in_map_iff. intros (i & Hi' & Hin). apply in_seq in Hin. unfold y_N in Hin.
    apply (f_equal sval) in Hi'. unfold y_x, nz61 in Hi'. rewrite !sval_of_Z in Hi'. change (modulus K61) with (2 ^ 61 - 1) in Hi'. rewrite !Z.mod_small in Hi'; lia. }
  cbn [sample_outside]. change (rand_scalar (replay_rng E61) (nz61 17 :: nz61 400 :: y_x :: st)) with (nz61 17, nz61 400 :: y_x :: st). cbv iota beta.
  rewrite (proj2 (feqb_spec _ _) In1). change (rand_scalar (replay_rng E61) (nz61 400 :: y_x :: st)) with (nz61 400, y_x :: st). cbv iota beta.
  rewrite (proj2 (feqb_spec _ _) In2). change (rand_scalar (replay_rng E61) (y_x :: st)) with (y_x, st). cbv iota beta.
  destruct (feqb (vanishing_at y_xs y_x) fzero) eqn:Ev; [apply feqb_spec in Ev; contradiction|]. cbn [bind]. fold y_uvec.
  unfold instance_map. rewrite Hi, Hc. unfold inverse_or_err.
  assert (Hg : feqb y_gamma fzero = false) by (vm_compute; reflexivity). assert (Hd : feqb y_delta fzero = false) by (vm_compute; reflexivity).
  rewrite Hg, Hd. cbn [bind]. eexists. split; [reflexivity|]. cbn [gpk_vk vk_gamma_abc_g1].
  set (nw := cs_num_wit s).
  rewrite (gs_of (fun x : Fr E61 => x [*] eg_G x_gens) (fun x => fmul x (finv y_gamma))). apply map_ext_in. intros k Hk.
  pose proof y_columns as HC. rewrite forallb_forall in HC. specialize (HC k Hk). apply Bool.andb_true_iff in HC. destruct HC as [HC H3].
  apply Bool.andb_true_iff in HC. destruct HC as [H1 H2]. apply in_seq in Hk.
  rewrite !nth_map_seq by lia. rewrite (column_zero _ _ _ _ H1), (column_zero _ _ _ _ H2), (column_one _ _ _ _ _ _ H3)
    by (rewrite map_length, y_cons_length; unfold y_uvec; rewrite map_length, seq_length, y_xs_length; unfold y_N; lia).
  replace (S k <? 5)%nat with true by (symmetry; apply Nat.ltb_lt; lia).
  rewrite y_cons_length, !y_uvec_nth by (unfold y_row, y_N; lia). unfold y_w. f_equal. f_equal. ring.
Qed.

Opaque y_w y_u y_xs.
Lemma y_count : chunks_count K61 16 = Ok (Z.of_nat 4).
Proof. vm_compute. reflexivity. Qed.
Definition y_dk : decryption_key E61 := dk_formula x_gens y_rho y_s y_v.
Lemma y_gs_nonzero : Forall (fun g => g <> gzero) (map (fun k => fmul (y_w k) (finv y_gamma) [*] eg_G x_gens) (seq 0 4)).
Proof.
  rewrite Forall_map. apply Forall_forall. intros k Hk Hz. pose proof y_w_nonzero as HW. rewrite forallb_forall in HW. specialize (HW k Hk).
  apply smul_eq_zero in Hz. destruct Hz as [Hz|Hz]; [|apply (f_equal sval) in Hz; vm_compute in Hz; discriminate].
  assert (Hy : y_w k = fzero).
  { transitivity (fmul (fmul (y_w k) (finv y_gamma)) y_gamma).
    - transitivity (fmul (y_w k) (fmul (finv y_gamma) y_gamma)); [|ring]. rewrite finv_l; [ring|]. intros H. apply (f_equal sval) in H. vm_compute in H. discriminate.
    - rewrite Hz. ring. }
  rewrite Hy in HW. assert (T : feqb (@fzero K61) fzero = true) by (apply feqb_spec; reflexivity). rewrite T in HW. discriminate.
Qed.

(* the run of setup_for_groth16 *)
Theorem y_setup (pf : profile) : exists pk ek g_i,
  setup_for_groth16 (y_backend pf) (replay_rng E61) 16 x_gens y_tape = Ok (pk, y_rho, ek, y_dk, []) /\
  get_gs_for_encryption (gpk_vk (pk_pk pk)) = Ok g_i /\ length g_i = 4%nat /\
  ek = ek_formula x_gens g_i (gpk_delta_g1 (pk_pk pk)) (pk_gamma_g1 pk) y_s y_t0 y_t /\
  from_srs (y_backend pf) y_circ x_gens pk /\
  nondegenerate y_dk (skipn 1 (vk_gamma_abc_g1 (gpk_vk (pk_pk pk)))) (length (dk_V_2 y_dk)).
Proof.
  destruct (y_generate pf (y_rho :: y_s ++ (y_t0 :: y_t) ++ y_v ++ [])) as (gpk & Hg & Hgs).
  set (pk := ProvingKey gpk (mul_bigint (eg_G x_gens) (into_bigint (fneg y_gamma)))).
  assert (Hsrs : generate_srs (y_backend pf) (replay_rng E61) y_circ x_gens y_tape = Ok (pk, y_rho :: y_s ++ (y_t0 :: y_t) ++ y_v ++ [])).
  { unfold generate_srs.
    change (rand_scalar (replay_rng E61) y_tape) with (y_alpha, tl y_tape). cbv iota beta.
    change (rand_scalar (replay_rng E61) (tl y_tape)) with (y_beta, tl (tl y_tape)). cbv iota beta.
    change (rand_scalar (replay_rng E61) (tl (tl y_tape))) with (y_gamma, tl (tl (tl y_tape))). cbv iota beta.
    change (rand_scalar (replay_rng E61) (tl (tl (tl y_tape)))) with (y_delta, tl (tl (tl (tl y_tape)))). cbv iota beta.
    change (tl (tl (tl (tl y_tape)))) with (nz61 17 :: nz61 400 :: y_x :: y_rho :: y_s ++ (y_t0 :: y_t) ++ y_v ++ []).
    rewrite Hg. reflexivity. }
  set (g_i := map (fun k => fmul (y_w k) (finv y_gamma) [*] eg_G x_gens) (seq 0 4)) in *.
  assert (Hgi : get_gs_for_encryption (gpk_vk gpk) = Ok g_i).
  { unfold get_gs_for_encryption, slice_from. rewrite Hgs. destruct (Nat.leb_spec 1 (length (vk_gamma_abc_g1 (gpk_vk gpk)))) as [|Hlt]; [reflexivity|].
    apply (f_equal (@length _)) in Hgs. rewrite skipn_length in Hgs. unfold g_i in Hgs. rewrite map_length, seq_length in Hgs. lia. }
  assert (Lg : length g_i = 4%nat) by (unfold g_i; rewrite map_length; apply seq_length).
  exists pk, (ek_formula x_gens g_i (gpk_delta_g1 (pk_pk pk)) (pk_gamma_g1 pk) y_s y_t0 y_t), g_i.
  split; [|split; [exact Hgi|split; [exact Lg|split; [reflexivity|split]]]].
  - unfold setup_for_groth16, circuit_new. rewrite y_count. cbn [bind]. change (generate_constraints _) with y_circ. rewrite Hsrs. cbn [bind].
    pose proof (keygen_replay 16 x_gens g_i (gpk_delta_g1 (pk_pk pk)) (pk_gamma_g1 pk) 4 y_rho y_s y_t0 y_t y_v [] y_count ltac:(lia) eq_refl eq_refl eq_refl) as HK.
    change (gpk_vk (pk_pk pk)) with (gpk_vk gpk). rewrite Hgi. cbn [bind]. rewrite HK. reflexivity.
  - exists (replay_rng E61), y_tape, (y_rho :: y_s ++ (y_t0 :: y_t) ++ y_v ++ []). exact Hsrs.
  - unfold pk. cbn [pk_pk]. rewrite Hgs. split; [apply nonzero61_spec; vm_compute; reflexivity|].
    replace (length (dk_V_2 y_dk)) with (length g_i) by (rewrite Lg; reflexivity). rewrite firstn_all. exact y_gs_nonzero.
Qed.

Lemma y_conditions : supported 16 /\ 2 ^ 16 <= modulus K61 /\ 64 * Z.of_nat (limbs K61) - 16 < modulus_bit_size K61 /\ 64 * Z.of_nat (limbs K61) < 256 * 16.
Proof. split; [right; right; reflexivity|]. vm_compute. repeat split; discriminate || reflexivity. Qed.

(* all hypotheses of C39 hold together, so every message can be encrypted with a proof that verifies *)
Example C39_case (pf pf' : profile) (msg : Fr E61) (st : list (Fr E61)) : exists pk ek ct r p st',
  setup_for_groth16 (y_backend pf) (replay_rng E61) 16 x_gens y_tape = Ok (pk, y_rho, ek, y_dk, []) /\
  encrypt_with_proof pf (y_backend pf) (replay_rng E61) msg ek pk 16 st = Ok (ct, r, p, st') /\
  verify_commitment_and_proof ct p (prepare_verifying_key (gpk_vk (pk_pk pk))) (prepare_ek ek) (prepare_gens x_gens) = Ok tt /\
  exists nu, ct_decrypt_given_groth16_vk pf' ct y_rho (prepare_dk y_dk) (gpk_vk (pk_pk pk)) 16 = Ok (msg, nu).
Proof.
  destruct (y_setup pf) as (pk & ek & g_i & Hset & _ & _ & _ & _ & Hnd). destruct y_conditions as (C1 & C2 & C3 & C4).
  destruct (C39_end_to_end_ark_groth16 pf pf' E61 y_domain 3 (replay_rng E61) (replay_rng E61) 16 x_gens y_tape pk y_rho ek y_dk [] msg st y_domain_ok C1 C2 C3 C4 Hset Hnd)
    as (ct & r & p & st' & H1 & H2 & H3). exists pk, ek, ct, r, p, st'. repeat (split; [assumption|]). exact H3.
Qed.

(* refutation: verify_proof does not bind the ciphertext.  On an honest run (any message), the ciphertext with one unit
   moved from the second chunk to the first passes verify_proof with the honest proof, but not the combined check. *)
Theorem C35_proof_alone_binds_ciphertext_refuted :
  exists (E : pairing) (B : groth16_backend E) gens (R : rng_impl E) st0 pk sk ek dk st0' (msg : Fr E) st ct r p st' ct',
    backend_correct B /\ setup_for_groth16 B R 16 gens st0 = Ok (pk, sk, ek, dk, st0') /\
    encrypt_with_proof Debug B R msg ek pk 16 st = Ok (ct, r, p, st') /\
    ct' <> ct /\ verify_proof (prepare_verifying_key (gpk_vk (pk_pk pk))) p ct' = Ok tt /\
    verify_commitment_and_proof ct' p (prepare_verifying_key (gpk_vk (pk_pk pk))) (prepare_ek ek) (prepare_gens gens) = Err InvalidCommitment.
Proof.
  set (msg := nz61 123456789). destruct (y_setup Debug) as (pk & ek & g_i & Hset & Hg & Hl & Hek & Hsrs & Hnd). destruct y_conditions as (C1 & C2 & C3 & C4).
  assert (HB : backend_correct (y_backend Debug)) by (apply ark_backend_correct; exact y_domain_ok).
  assert (Hk : honest_key 16 x_gens g_i (gpk_delta_g1 (pk_pk pk)) (pk_gamma_g1 pk) ek).
  { left. exists y_rho, y_dk. exists (replay_rng E61), (y_rho :: y_s ++ (y_t0 :: y_t) ++ y_v ++ []), []. rewrite Hek.
    apply (keygen_replay 16 x_gens g_i _ _ 4); [exact y_count|lia| | |]; vm_compute; reflexivity. }
  destruct (with_proof_any_key Debug E61 (y_backend Debug) (replay_rng E61) 16 (BitsizeCheckCircuit 16 4 None true) x_gens pk g_i ek msg [nz61 55; nz61 66; nz61 77]
    HB C1 C2 (conj C3 C4)) as (ct & r & p & st1 & st2 & Hwp & Henc & Hv); [unfold circuit_new; rewrite y_count; reflexivity|exact Hsrs|exact Hg|exact Hk|].
  assert (Lc : length (ct_enc_chunks ct) = 4%nat).
  { apply C36_combined_check_is_conjunction in Hv. destruct Hv as [Hv _].
    destruct (C20_verification_exact E61 16 x_gens g_i _ _ ek Hk x_H) as (t0' & t' & _ & _ & Y). apply Y in Hv. destruct Hv as [Hv _]. rewrite Hv, Hek. reflexivity. }
  destruct ct as [c_0 c psi]. cbn [ct_enc_chunks] in Lc.
  destruct c as [|x [|y post]]; [discriminate Lc|discriminate Lc|].
  set (d := fone : G1 E61).
  pose proof (C35_redistribution_detected_exactly E61 16 x_gens g_i _ _ ek (gpk_vk (pk_pk pk)) p c_0 x y d psi [] [] post Hk x_H Hv) as X. cbv zeta in X.
  destruct X as (P & I & O). cbn [app] in P, I, O.
  assert (Hd : d <> gzero) by (intros H; apply (f_equal sval) in H; vm_compute in H; discriminate).
  exists E61, (y_backend Debug), x_gens, (replay_rng E61), y_tape, pk, y_rho, ek, y_dk, [], msg, [nz61 55; nz61 66; nz61 77].
  exists (Ciphertext c_0 (x :: y :: post) psi), r, p, st2, (Ciphertext c_0 ((x [+] d) :: (y [+] [-] d) :: post) psi).
  split; [exact HB|]. split; [exact Hset|]. split; [exact Hwp|]. split.
  { intros H. injection H as H _. apply Hd. apply (gadd_cancel_l x). rewrite gadd_0_r. exact H. }
  split; [exact P|]. destruct O as [O|O]; [|exact O]. exfalso. apply I in O. destruct O as [O|O]; [contradiction|].
  rewrite Hek in O. apply (f_equal sval) in O. vm_compute in O. discriminate.
Qed.

(* the distributed case: three parties on that SRS *)
Definition y_party gens (g_i : list (G1 E61)) delta gamma (a : Z) : secret_key_st E61 * ek_partial E61 :=
  (SecretKeyST (range61 a 4) (nz61 (a + 500) :: range61 (a + 600) 4),
   ekp_formula gens g_i delta gamma (range61 a 4) (nz61 (a + 500)) (range61 (a + 600) 4)).
Example C34_case (pf : profile) (msg : Fr E61) (st : list (Fr E61)) : exists pk g_i parties ek ct r p st',
  from_srs (y_backend pf) y_circ x_gens pk /\ get_gs_for_encryption (gpk_vk (pk_pk pk)) = Ok g_i /\ length parties = 3%nat /\
  from_dkg 16 x_gens g_i (gpk_delta_g1 (pk_pk pk)) (pk_gamma_g1 pk) parties ek /\
  encrypt_with_proof pf (y_backend pf) (replay_rng E61) msg ek pk 16 st = Ok (ct, r, p, st') /\
  verify_commitment_and_proof ct p (prepare_verifying_key (gpk_vk (pk_pk pk))) (prepare_ek ek) (prepare_gens x_gens) = Ok tt.
Proof.
  destruct (y_setup pf) as (pk & ek0 & g_i & _ & Hg & Hl & _ & Hsrs & _). destruct y_conditions as (C1 & C2 & C3 & C4).
  set (parties := map (y_party x_gens g_i (gpk_delta_g1 (pk_pk pk)) (pk_gamma_g1 pk)) [10; 20; 30]).
  assert (Hp : Forall (from_partial 16 x_gens g_i (gpk_delta_g1 (pk_pk pk)) (pk_gamma_g1 pk)) parties).
  { unfold parties. rewrite Forall_map. apply Forall_forall. intros a _. exists (replay_rng E61), (range61 a 4 ++ (nz61 (a + 500) :: range61 (a + 600) 4) ++ []), [].
    apply (partial_replay 16 x_gens g_i _ _ 4); [exact y_count|lia|apply range61_length|apply range61_length]. }
  assert (Hne : parties <> []) by discriminate.
  pose proof (dkg_formula 16 x_gens g_i _ _ parties 4 y_count Hne Hp) as Hd. 
  assert (Hc : circuit_new 16 None None true = Ok (@BitsizeCheckCircuit K61 16 4 None true)) by (unfold circuit_new; rewrite y_count; reflexivity).
  destruct (C34_distributed_end_to_end pf E61 (y_backend pf) (replay_rng E61) 16 _ x_gens pk g_i parties _ msg st
    (ark_backend_correct pf y_domain 3 y_domain_ok) C1 C2 C3 C4 Hc Hsrs Hg (conj Hne (conj Hp Hd))) as (ct & r & p & st' & H1 & H2).
  exists pk, g_i, parties. eexists. exists ct, r, p, st'. split; [exact Hsrs|]. split; [exact Hg|]. split; [reflexivity|]. split; [exact (conj Hne (conj Hp Hd))|]. split; [exact H1|exact H2].
Qed.
