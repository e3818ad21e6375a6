(* CcaCount.v -- counting the coins on which an attacker with a decryption service learns something (for C77) *)
From Verif Require Import Base BaseFacts Algebra Utils UtilsFacts Setup Keygen Encryption Circuit CircuitFacts CircuitSat CommitmentFacts VecFacts KeySpec KeygenFacts
  EncryptFacts DecryptFacts Spec VerifyFacts Protocol ReencFacts DistFacts PropVerify Groth16 ArkGroth16 PolyFacts Groth16Spec ArkFacts Groth16Facts SchwartzZippel SoundCore SoundSpec
  SoundAlg SoundGame SoundLink SoundFacts SoundCount SoundHonest PropGroth16 PropSound PropSoundCases PropZK PrivacySpec PrivacyAlg PrivacyGame PrivacyLink PrivacyCount PrivacySpan PrivacyMany
  SoundDkgSpec SoundDkg SoundAdaptSpec SoundAdapt PropSoundAdapt NonmalCore NonmalAlg NonmalSpec NonmalGame NonmalRows NonmalLink NonmalCount PropNonmal CcaSpec Cca.

Section CCount.
Context {E : pairing}.
Notation K := (K_of E).
Notation F := (Fr E).
Add Ring Kr : (@scalar_ring_theory K).
Notation e i env := (nth i env fzero).
Notation p := (modulus K).

Variables (n : nat) (cs : csys K) (xs : list F) (pf : profile) (domain : nat -> option (list F)) (fuel : nat) (b : Z) (gens : encryption_gens E).
Let ni := cs_num_inst cs.
Let nw := cs_num_wit cs.
Let nc := length (cs_cons cs).
Let N := length xs.
Let M := (ni + nw)%nat.
Notation B := (ark_backend pf domain fuel).
Hypothesis HG : eg_G gens <> gzero.
Hypothesis HH : eg_H gens <> gzero.
Hypothesis Hdom_ok : domain_ok domain.
Hypothesis Hb : supported b.
Hypothesis HbM : 2 ^ b <= modulus K.
Hypothesis Hcomp : chunk_compatible K b.
Hypothesis Hcount : chunks_count K b = Ok (Z.of_nat n).
Hypothesis Hn0 : (0 < n)%nat.
Hypothesis Hcs : generate_constraints (BitsizeCheckCircuit b (Z.of_nat n) None true) (@cs_new K Circuit.Setup) = Ok cs.
Hypothesis Hdomain : domain (nc + ni)%nat = Some xs.
Let Hni : ni = S n := proj1 (cs_shape n cs xs b (bits_of _ b Hb HbM) Hn0 Hcs).
Notation hons := (hons n cs xs pf b).
Notation hs := (hs n cs xs pf b).

Definition iz : nat := (4 + M)%nat.
Definition ia : nat := (n + 6 + (M + (M + ((N - 1) + nw))))%nat.
Notation qc := (q_com iz).
Notation qq := (q_qap ia n).

(* ---------- where things are on the table ---------- *)
Lemma table_positions c0 pk sk ek dk cps : length c0 = (3 * n + 7)%nat -> vanishing_at xs (e 4 c0) <> fzero -> setup_for_groth16 B (replay_rng E) b gens c0 = Ok (pk, sk, ek, dk, []) ->
  forall St, let T1 := table_g1 gens pk ek cps in let T2 := table_g2 gens pk ek dk cps in
  (verify_commitment_and_proof (ciphertext_from St T1) (proof_from St T1 T2) (prepare_verifying_key (gpk_vk (pk_pk pk))) (prepare_ek ek) (prepare_gens gens) = Ok tt <->
   length (sg_chunks St) = n /\ pairing_product (qc St) T1 T2 = gzero /\ pairing_product (qq St) T1 T2 = gzero).
Proof.
  intros L0 Hv Hset St. cbv zeta.
  pose proof (setup_shape n cs xs pf domain fuel b gens (bits_of _ b Hb HbM) Hcount Hn0 Hcs Hdomain c0 pk sk ek dk [] L0 Hv Hset) as (S1 & S2 & S3 & S4 & S5 & S6 & S7 & S8).
  pose proof (setup_tape n cs xs pf domain fuel b gens Hcount Hcs Hdomain Hni c0 pk sk ek dk [] L0 Hv Hset) as (_ & _ & _ & _ & Hek & _).
  assert (Hwf : wf_key n ek).
  { rewrite Hek. apply formula_wf; try (rewrite map_length, seq_length; reflexivity); [unfold gis; rewrite map_length, seq_length; lia|exact (n256 n cs xs b Hcount Hn0)]. }
  destruct (vk_gamma_abc_g1 (gpk_vk (pk_pk pk))) as [|g0 gs] eqn:Hg; [cbn [length] in S8; fold ni in S8; lia|].
  set (rest2 := [dk_V_0 dk] ++ dk_V_1 dk ++ dk_V_2 dk ++ map (fun cp => pr_b (snd cp)) cps).
  apply (accept_products iz ia n gens pk ek g0 gs _ _ St rest2 Hwf Hg).
  - unfold table_g1, public_g1, ia. rewrite Hg. fold ni nw in S3, S4, S7. fold M in S3, S4. fold N in S6. fold nw in S7.
    rewrite <- !app_assoc. rewrite (app_assoc (ek_Y ek)). rewrite app_nth2 by (rewrite app_length; cbn [length]; lia). rewrite app_length. cbn [length].
    rewrite app_nth2 by (cbn [length]; lia). cbn [length]. rewrite app_nth2 by lia. rewrite app_nth2 by lia. rewrite app_nth2 by lia. rewrite app_nth2 by lia.
    match goal with |- nth ?k _ _ = _ => replace k with 0%nat by lia end. reflexivity.
  - unfold table_g1, public_g1. rewrite <- !app_assoc. rewrite (app_assoc (ek_Y ek)). rewrite app_nth2 by (rewrite app_length; cbn [length]; lia). rewrite app_length. cbn [length].
    match goal with |- nth ?k _ _ = _ => replace k with 1%nat by lia end. reflexivity.
  - reflexivity.
  - reflexivity.
  - reflexivity.
  - reflexivity.
  - unfold table_g2, public_g2, iz, rest2. rewrite <- !app_assoc. cbn [app skipn Nat.add]. fold ni nw in S5. fold M in S5. rewrite skipn_app, skipn_all2 by lia. rewrite S5, Nat.sub_diag. reflexivity.
Qed.

(* ---------- the prediction ---------- *)
Variable protected : list F.
Definition pred (k : nat) (St : strategy E) : reply :=
  if forallb (fun i => feqb (xi n cs xs i St) fzero) (seq 0 k) then reply_for pf b protected (extracted_chunks n St) else Protected.
Lemma pred_cases k St : (fresh_kind n cs xs k St /\ pred k St = reply_for pf b protected (extracted_chunks n St)) \/ (copy_kind n cs xs k St /\ pred k St = Protected).
Proof.
  unfold pred. destruct (forallb (fun i => feqb (xi n cs xs i St) fzero) (seq 0 k)) eqn:Z.
  - left. split; [|reflexivity]. intros i Hi. rewrite forallb_forall in Z. apply feqb_spec, Z, in_seq. lia.
  - right. split; [|reflexivity]. destruct (search (fun i => xi n cs xs i St <> fzero) (fun i => not_dec _ (feq_dec (xi n cs xs i St) fzero)) k) as [Y|Y]; [exact Y|exfalso].
    assert (X : forallb (fun i => feqb (xi n cs xs i St) fzero) (seq 0 k) = true); [|congruence]. apply forallb_forall. intros i Hi. apply in_seq in Hi. apply feqb_spec.
    destruct (feq_dec (xi n cs xs i St) fzero) as [W|W]; [exact W|destruct (Y i ltac:(lia) W)].
Qed.
Definition healthy (c0 : list F) : Prop := ~ Exists (fun Df => snd Df c0 = fzero) (degenerate_polys n cs xs).
Lemma b_small : b <= 16 /\ max_chunk b < modulus K /\ (forall z, z < 2 ^ b -> z <= max_chunk b) /\ 1 <= b <= 31.
Proof. assert (b <= 16 /\ 1 <= b) by (destruct Hb as [-> | [-> | ->]]; lia). unfold max_chunk. rewrite Z.min_l by lia. split; [lia|]. split; [lia|]. split; [intros z Hz; lia|lia]. Qed.
Lemma decrypts c0 pk sk ek dk g_i ds ct r : length c0 = (3 * n + 7)%nat -> vanishing_at xs (e 4 c0) <> fzero -> setup_for_groth16 B (replay_rng E) b gens c0 = Ok (pk, sk, ek, dk, []) -> healthy c0 ->
  get_gs_for_encryption (gpk_vk (pk_pk pk)) = Ok g_i -> digits_ok b ds -> encrypts ek g_i ds (ct_vec ct) r ->
  decrypt_to_chunks pf (ct_X_r ct) (ct_enc_chunks ct) sk (prepare_dk dk) g_i b = Ok (ds, sk [*] ct_X_r ct).
Proof.
  intros L0 Hv Hset Hh Hg Hd He. apply encrypts_inv in He. destruct He as (n' & (_ & LX & _) & Ln & _ & Hc).
  pose proof (setup_tape n cs xs pf domain fuel b gens Hcount Hcs Hdomain Hni c0 pk sk ek dk [] L0 Hv Hset) as (Hga & _ & Hgs & -> & Hek & Hdk & _).
  assert (Eg : g_i = gis n cs xs gens c0) by (rewrite Hgs in Hg; exact (f_equal (fun o => match o with Ok x => x | _ => g_i end) (eq_sym Hg))). subst g_i.
  assert (Ec : ct = ct_formula ek (gis n cs xs gens c0) ds r).
  { apply (f_equal (@ct_of_vec E)) in Hc. rewrite !ct_of_vec_ct_vec in Hc. exact (f_equal (fun o => match o with Ok x => x | _ => ct end) Hc). }
  destruct b_small as (B1 & B2 & B3 & B4).
  assert (Ls : length (map (e_s c0) (seq 0 n)) = n) by (rewrite map_length, seq_length; reflexivity).
  assert (Ld : length ds = n). { rewrite Hek in LX. destruct (ek_formula_lengths gens (gis n cs xs gens c0) (e 3 c0 [*] eg_G gens) (fneg (e 2 c0) [*] eg_G gens) (map (e_s c0) (seq 0 n)) (e_t n c0 0) (map (fun j => e_t n c0 (S j)) (seq 0 n)) n) as (Y & _);
    try (rewrite map_length, seq_length; reflexivity); [unfold gis; rewrite map_length, seq_length; lia|]. lia. }
  rewrite Ec, Hdk. apply decrypt_exact; try assumption.
  - rewrite !map_length. reflexivity.
  - rewrite Ls. exact (n256 n cs xs b Hcount Hn0).
  - rewrite Ls. unfold gis. rewrite map_length, seq_length. lia.
  - rewrite Ls. apply (degenerate_tape n cs xs gens HG HH Hn0); [exact Hh|exact Hga].
  - split; [|split; [|reflexivity]].
    + rewrite Hek. apply honest_body_opens; [rewrite Ls; exact Ld|]. eapply Forall_impl; [|exact Hd]. intros z Hz. cbv beta in Hz. lia.
    + eapply Forall_impl; [|exact Hd]. intros z Hz. cbv beta in Hz. apply B3. lia.
Qed.
Lemma reply_protected m ds : In m protected -> decompose pf m b = Ok ds -> reply_for pf b protected ds = Protected.
Proof.
  intros Hin Hd. unfold reply_for. assert (X : is_protected pf b protected ds = true); [|rewrite X; reflexivity]. apply existsb_exists. exists m. split; [exact Hin|]. rewrite Hd.
  destruct (list_eq_dec Z.eq_dec ds ds) as [_|Z]; [reflexivity|destruct (Z eq_refl)].
Qed.

(* one submission: what the service says is what was predicted, or the submission is neither fresh nor a copy *)
Lemma submission_predicted msgs ck c0 pk sk ek dk St : length c0 = (3 * n + 7)%nat -> vanishing_at xs (e 4 c0) <> fzero -> setup_for_groth16 B (replay_rng E) b gens c0 = Ok (pk, sk, ek, dk, []) -> healthy c0 ->
  incl msgs protected -> length ck = (3 * length msgs)%nat ->
  let cps := map (forged gens pk ek dk) (hons msgs ck) in let T1 := table_g1 gens pk ek cps in let T2 := table_g2 gens pk ek dk cps in
  service pf b gens pk sk ek dk protected (ciphertext_from St T1) (proof_from St T1 T2) <> ideal_reply n qc qq (pred (length msgs)) St T1 T2 ->
  verify_commitment_and_proof (ciphertext_from St T1) (proof_from St T1 T2) (prepare_verifying_key (gpk_vk (pk_pk pk))) (prepare_ek ek) (prepare_gens gens) = Ok tt /\
  ~ (fresh_kind n cs xs (length msgs) St /\ is_fresh n b St pk ek T1) /\ ~ (copy_kind n cs xs (length msgs) St /\ is_copy n St ek T1 T2 cps).
Proof.
  intros L0 Hv Hset Hh Hincl Lk. cbv zeta. set (cps := map _ _). set (T1 := table_g1 gens pk ek cps). set (T2 := table_g2 gens pk ek dk cps). intros Hne.
  pose proof (table_positions c0 pk sk ek dk cps L0 Hv Hset St) as HP. cbv zeta in HP. fold T1 T2 in HP.
  pose proof (setup_tape n cs xs pf domain fuel b gens Hcount Hcs Hdomain Hni c0 pk sk ek dk [] L0 Hv Hset) as (_ & _ & Hgs & _ & Hek & _).
  set (V := verify_commitment_and_proof _ _ _ _ _) in *.
  assert (HV : V = Ok tt).
  { destruct V as [[]|err|] eqn:Z; [reflexivity| |]; exfalso; apply Hne; unfold service; fold V; rewrite Z; unfold ideal_reply.
    all: destruct (Nat.eqb_spec (length (sg_chunks St)) n) as [Y1|Y1]; [|reflexivity]; destruct (geqb (pairing_product (qc St) T1 T2) gzero) eqn:Y2; [|reflexivity]; destruct (geqb (pairing_product (qq St) T1 T2) gzero) eqn:Y3; [|reflexivity].
    all: apply geqb_spec in Y2, Y3; discriminate (proj2 HP (conj Y1 (conj Y2 Y3))). }
  split; [exact HV|]. destruct (proj1 HP HV) as (Y1 & Y2 & Y3).
  assert (HI : ideal_reply n qc qq (pred (length msgs)) St T1 T2 = pred (length msgs) St).
  { unfold ideal_reply. rewrite Y1, Nat.eqb_refl. apply geqb_spec in Y2, Y3. rewrite Y2, Y3. reflexivity. }
  rewrite HI in Hne. unfold service in Hne. fold V in Hne. rewrite HV, Hgs in Hne.
  assert (NB : forall k, fresh_kind n cs xs k St -> copy_kind n cs xs k St -> False) by (intros k X1 (i & Hi & X2); exact (X2 (X1 i Hi))).
  split.
  - intros [Hk (Hdig & g_i & Hg & Henc)]. destruct (pred_cases (length msgs) St) as [[_ Hp]|[Hk' _]]; [|exact (NB _ Hk Hk')]. apply Hne. rewrite Hp.
    rewrite Hgs in Hg. apply (f_equal (fun o => match o with Ok x => x | _ => g_i end)) in Hg. rewrite <- Hg in Henc.
    rewrite (decrypts c0 pk sk ek dk (gis n cs xs gens c0) _ _ _ L0 Hv Hset Hh Hgs Hdig Henc). reflexivity.
  - intros [Hk (ct0 & q0 & Hin & Hct & _)]. destruct (pred_cases (length msgs) St) as [[Hk' _]|[_ Hp]]; [exact (NB _ Hk' Hk)|]. apply Hne. rewrite Hp.
    apply in_map_iff in Hin. destruct Hin as (S1 & ES & Hin). apply hons_in in Hin. destruct Hin as (msg & r & rr & ss & Hmsg & ->).
    destruct (hs_run n cs xs pf domain fuel b gens Hdom_ok Hb HbM Hcomp Hcount Hcs Hdomain msg) as (Ld & Hd & _).
    assert (Ect : ct0 = ct_formula ek (gis n cs xs gens c0) (ds_of pf b msg) r).
    { transitivity (forge_ciphertext (hs msg r rr ss) gens pk ek); [exact (f_equal fst (eq_sym ES))|]. symmetry.
      apply (honest_ciphertext_is_forged n cs xs b gens (bits_of _ b Hb HbM) Hn0 Hcs pk ek _ _ _ r rr ss); [|exact Ld|exact Hgs].
      exact (setup_shape n cs xs pf domain fuel b gens (bits_of _ b Hb HbM) Hcount Hn0 Hcs Hdomain c0 pk sk ek dk [] L0 Hv Hset). }
    assert (Hdig : digits_ok b (ds_of pf b msg)).
    { destruct (decompose_spec pf K msg b Hb) as (ds & Hds & Y & _). rewrite Hd in Hds. apply (f_equal (fun o => match o with Ok x => x | _ => [] end)) in Hds. rewrite Hds. exact Y. }
    assert (Henc : encrypts ek (gis n cs xs gens c0) (ds_of pf b msg) (ct_vec ct0) r).
    { rewrite Ect. exists (replay_rng E), [r], []. apply (encrypts_intro n); [|exact Ld|unfold gis; rewrite map_length, seq_length; lia].
      rewrite Hek. apply formula_wf; try (rewrite map_length, seq_length; reflexivity); [unfold gis; rewrite map_length, seq_length; lia|exact (n256 n cs xs b Hcount Hn0)]. }
    apply (C73_copies_encrypt_the_copied_message ek _ _ _ _ (extracted_r n St)) in Henc. rewrite <- Hct in Henc.
    rewrite (decrypts c0 pk sk ek dk (gis n cs xs gens c0) _ _ _ L0 Hv Hset Hh Hgs Hdig Henc). apply (reply_protected msg); [apply Hincl; exact Hmsg|exact Hd].
Qed.

(* ---------- counting ---------- *)
Lemma prefix_bound (m r : nat) (P : list F -> Prop) (D : Z) (L : list (list F)) :
  (forall L0, NoDup L0 -> (forall c, In c L0 -> length c = m /\ P c) -> Z.of_nat (length L0) * p <= D * p ^ Z.of_nat m) ->
  NoDup L -> (forall c, In c L -> length c = (m + r)%nat /\ P (firstn m c)) -> Z.of_nat (length L) * p <= D * p ^ Z.of_nat (m + r).
Proof.
  intros HD Hnd HL. pose proof (@modulus_gt1 K) as Hp. destruct (@all_tuples_exist K r) as (Tk & Tk1 & Tk2). pose proof (all_tuples_count _ Tk Tk1 Tk2) as Ck.
  eapply Z.le_trans; [apply (fiber_bound (list_eq_dec feq_dec) (skipn m) Tk L p (D * p ^ Z.of_nat m) ltac:(lia))|].
  - intros c Hc. destruct (HL c Hc) as [Lc _]. apply Tk2. rewrite skipn_length. lia.
  - intros ck Hy. apply Tk2 in Hy. set (L1 := filter _ L). rewrite <- (map_length (firstn m) L1).
    assert (In1 : forall c, In c L1 -> In c L /\ skipn m c = ck).
    { intros c Hc. apply filter_In in Hc. destruct Hc as [Hc Hd]. split; [exact Hc|]. destruct (list_eq_dec feq_dec (skipn m c) ck); [assumption|discriminate]. }
    assert (Nd : NoDup L1) by (apply NoDup_filter; exact Hnd). apply HD.
    + clearbody L1. induction L1 as [|c L1 IH]; cbn [map]; [constructor|]. inversion Nd as [|? ? Nc Nd']; subst. constructor.
      * intros Z. apply in_map_iff in Z. destruct Z as (d & Ed & Hd). apply Nc. replace c with d; [exact Hd|].
        destruct (In1 c (or_introl eq_refl)) as [Ic Oc]. destruct (In1 d (or_intror Hd)) as [Id Od]. rewrite <- (firstn_skipn m c), <- (firstn_skipn m d), Ed, Oc, Od. reflexivity.
      * apply IH; [|exact Nd']. intros d Hd. apply In1. right. exact Hd.
    + intros w Hw. apply in_map_iff in Hw. destruct Hw as (c & <- & Hc). destruct (In1 c Hc) as [Ic Oc]. destruct (HL c Ic) as [Lc HP]. split; [rewrite firstn_length; lia|exact HP].
  - rewrite Ck. apply Z.eq_le_incl. rewrite Nat2Z.inj_add, Z.pow_add_r by lia. ring.
Qed.
Definition D0 : Z := 1 + Z.of_nat n + Z.of_nat n * (Z.of_nat N + 2).
Lemma healthy_dec c0 : {healthy c0} + {~ healthy c0}.
Proof. apply not_dec. apply Exists_dec. intros Df. apply feq_dec. Qed.
Lemma unhealthy_bound r (L : list (list F)) : NoDup L -> (forall c, In c L -> length c = (3 * n + 7 + r)%nat /\ ~ healthy (firstn (3 * n + 7) c)) ->
  Z.of_nat (length L) * p <= D0 * p ^ Z.of_nat (3 * n + 7 + r).
Proof.
  intros Hnd HL. apply (prefix_bound (3 * n + 7) r (fun c => ~ healthy c)); [|exact Hnd|exact HL].
  intros L0 Hnd0 HL0. unfold D0, N. rewrite <- (degenerate_sum n cs xs Hn0). apply union_bound; [exact (degenerate_small n cs xs domain b Hdom_ok (bits_of _ b Hb HbM) Hn0 Hcs Hdomain)|exact Hnd0|].
  intros c Hc. destruct (HL0 c Hc) as [Lc Hh]. split; [exact Lc|]. destruct (Exists_dec (fun Df => snd Df c = fzero) (degenerate_polys n cs xs) (fun Df => feq_dec (snd Df c) fzero)) as [X|X]; [exact X|destruct (Hh X)].
Qed.

Definition odd_run (msgs : list F) (P : prover E) (c : list F) : Prop := exists pk sk ek dk rest cps st,
  setup_for_groth16 B (replay_rng E) b gens c = Ok (pk, sk, ek, dk, rest) /\ encrypt_all pf B (replay_rng E) msgs ek pk b rest = Ok (cps, st) /\
  let T1 := table_g1 gens pk ek cps in let T2 := table_g2 gens pk ek dk cps in let St := play P T1 T2 in
  verify_commitment_and_proof (ciphertext_from St T1) (proof_from St T1 T2) (prepare_verifying_key (gpk_vk (pk_pk pk))) (prepare_ek ek) (prepare_gens gens) = Ok tt /\
  ~ (fresh_kind n cs xs (length msgs) St /\ is_fresh n b St pk ek T1) /\ ~ (copy_kind n cs xs (length msgs) St /\ is_copy n St ek T1 T2 cps).
Lemma run_cases {R} (A : attacker E R) t q msgs c : within t q A -> length c = (3 * n + 7 + 3 * length msgs)%nat -> vanishing_at xs (e 4 c) <> fzero -> incl msgs protected -> healthy (firstn (3 * n + 7) c) ->
  (forall pk sk ek dk rest, setup_for_groth16 B (replay_rng E) b gens c = Ok (pk, sk, ek, dk, rest) -> exists cps st, encrypt_all pf B (replay_rng E) msgs ek pk b rest = Ok (cps, st) /\
     let T1 := table_g1 gens pk ek cps in let T2 := table_g2 gens pk ek dk cps in attack (service pf b gens pk sk ek dk protected) A T1 T2 = ideal R n qc qq (pred (length msgs)) A T1 T2) \/
  exists i, (i < q)%nat /\ odd_run msgs (nth_submission R n qc qq (pred (length msgs)) i A) c.
Proof.
  intros W Lc Hv Hincl Hh. set (c0 := firstn (3 * n + 7) c) in *. set (ck := skipn (3 * n + 7) c).
  assert (L0 : length c0 = (3 * n + 7)%nat) by (unfold c0; rewrite firstn_length; lia). assert (Lk : length ck = (3 * length msgs)%nat) by (unfold ck; rewrite skipn_length; lia).
  assert (Ec : c = c0 ++ ck) by (symmetry; apply firstn_skipn). assert (Hv0 : vanishing_at xs (e 4 c0) <> fzero) by (rewrite Ec, app_nth1 in Hv by lia; exact Hv).
  destruct (setup_local n cs xs pf domain fuel b gens Hb HbM Hcount Hn0 Hcs Hdomain c0 L0 Hv0) as [(pk & sk & ek & dk & Hx)|Hx].
  2:{ left. intros pk sk ek dk rest Hset. rewrite Ec in Hset. destruct (Hx _ _ Hset). }
  pose proof (Hx []) as Hset0. rewrite app_nil_r in Hset0.
  assert (Hg : good_setup n xs pf domain fuel b gens pk ek dk). { exists c0, sk. split; [exact L0|]. split; [exact Hv0|exact Hset0]. }
  pose proof (hons_run n cs xs pf domain fuel b gens Hdom_ok Hb HbM Hcomp Hcount Hn0 Hcs Hdomain msgs ck Lk pk ek dk [] Hg) as HR. rewrite app_nil_r in HR.
  set (cps := map _ _) in HR.
  destruct (first_difference R n qc qq (pred (length msgs)) (service pf b gens pk sk ek dk protected) A t q (table_g1 gens pk ek cps) (table_g2 gens pk ek dk cps) W) as [Y|(i & Hi & Y)].
  - left. intros pk' sk' ek' dk' rest Hset. rewrite Ec, Hx in Hset. apply ok_pair5 in Hset. destruct Hset as (<- & <- & <- & <- & <-). exists cps, []. split; [exact HR|exact Y].
  - right. exists i. split; [exact Hi|]. exists pk, sk, ek, dk, ck, cps, []. split; [rewrite Ec; apply Hx|]. split; [exact HR|]. cbv zeta in Y. cbv zeta.
    exact (submission_predicted msgs ck c0 pk sk ek dk _ L0 Hv0 Hset0 Hh Hincl Lk Y).
Qed.

Let D1 := 3 * Z.of_nat N + 9 * (3 * Z.of_nat n + 9).
Let D7 := 3 * Z.of_nat N + 7 * (3 * Z.of_nat n + 6).
Let D4 := 4 * Z.of_nat N + 7 * (3 * Z.of_nat n + 6).
Definition NM (t k : Z) : Z := (t * D7 + D4) + k * (t + k) * D1.
Lemma NM_mono t t' k : 0 <= t <= t' -> 0 <= k -> 0 <= NM t k <= NM t' k.
Proof.
  intros Ht Hk. unfold NM. assert (0 <= D1) by (unfold D1; lia). assert (0 <= D7) by (unfold D7; lia). assert (0 <= D4) by (unfold D4; lia).
  assert (t * D7 <= t' * D7) by (apply Z.mul_le_mono_nonneg_r; lia). assert (0 <= t * D7) by nia.
  assert (k * (t + k) * D1 <= k * (t' + k) * D1) by (apply Z.mul_le_mono_nonneg_r; [lia|]; apply Z.mul_le_mono_nonneg_l; lia). assert (0 <= k * (t + k) * D1) by (apply Z.mul_nonneg_nonneg; [apply Z.mul_nonneg_nonneg; lia|lia]). lia.
Qed.
Lemma odd_bound msgs P Q (L : list (list F)) : (tests P <= Q)%nat -> NoDup L -> (forall c, In c L -> length c = (3 * n + 7 + 3 * length msgs)%nat /\ vanishing_at xs (e 4 c) <> fzero /\ odd_run msgs P c) ->
  Z.of_nat (length L) * p <= NM (Z.of_nat Q) (Z.of_nat (length msgs)) * p ^ Z.of_nat (3 * n + 7 + 3 * length msgs).
Proof.
  intros HQ Hnd HL. pose proof (@modulus_gt1 K) as Hp.
  eapply Z.le_trans; [exact (nonmal_kind_bound n cs xs pf domain fuel b gens HG HH Hdom_ok Hb HbM Hcomp Hcount Hn0 Hcs Hdomain msgs P L Hnd HL)|].
  apply Z.mul_le_mono_nonneg_r; [apply Z.pow_nonneg; lia|]. apply (NM_mono (Z.of_nat (tests P)) (Z.of_nat Q)); lia.
Qed.
(* the coins on which some answer of the service is not the predicted one *)
Lemma unpredicted_bound {R} (A : attacker E R) t q msgs (L : list (list F)) : within t q A -> NoDup L ->
  (forall c, In c L -> length c = (3 * n + 7 + 3 * length msgs)%nat /\ vanishing_at xs (e 4 c) <> fzero /\ exists i, (i < q)%nat /\ odd_run msgs (nth_submission R n qc qq (pred (length msgs)) i A) c) ->
  Z.of_nat (length L) * p <= Z.of_nat q * (NM (Z.of_nat (t + 2 * q)) (Z.of_nat (length msgs)) * p ^ Z.of_nat (3 * n + 7 + 3 * length msgs)).
Proof.
  intros W Hnd HL. pose proof (@modulus_gt1 K) as Hp.
  apply (cover_many (fun i c => odd_run msgs (nth_submission R n qc qq (pred (length msgs)) i A) c) _ p q L); [lia| | |exact Hnd|intros c Hc; apply HL; exact Hc].
  - apply Z.mul_nonneg_nonneg; [|apply Z.pow_nonneg; lia]. apply (NM_mono (Z.of_nat (t + 2 * q)) (Z.of_nat (t + 2 * q)) (Z.of_nat (length msgs))); lia.
  - intros i L' Hi Hnd' HL'. apply (odd_bound msgs (nth_submission R n qc qq (pred (length msgs)) i A)); [apply nth_submission_tests; exact W|exact Hnd'|].
    intros c Hc. destruct (HL' c Hc) as [Hin Hodd]. destruct (HL c Hin) as (Y1 & Y2 & _). split; [exact Y1|]. split; [exact Y2|exact Hodd].
Qed.

Definition sim_observer (k : nat) (A : attacker E bool) : observer E := tree bool n qc qq (pred k) Guess Ask A.
Lemma sim_observe k A Ps Qs : observe (sim_observer k A) Ps Qs = ideal bool n qc qq (pred k) A Ps Qs.
Proof. apply (tree_ideal bool n qc qq (pred k) Guess Ask observe); reflexivity. Qed.
Lemma sim_questions k A t q : within t q A -> (questions (sim_observer k A) <= t + 2 * q)%nat.
Proof. apply (tree_size bool n qc qq (pred k) Guess Ask questions); reflexivity. Qed.
Definition sim_prover (k : nat) (A : attacker E (strategy E)) : prover E := tree (strategy E) n qc qq (pred k) Output Test A.
Lemma sim_play k A Ps Qs : play (sim_prover k A) Ps Qs = ideal (strategy E) n qc qq (pred k) A Ps Qs.
Proof. apply (tree_ideal (strategy E) n qc qq (pred k) Output Test play); reflexivity. Qed.
Lemma sim_tests k A t q : within t q A -> (tests (sim_prover k A) <= t + 2 * q)%nat.
Proof. apply (tree_size (strategy E) n qc qq (pred k) Output Test tests); reflexivity. Qed.

(* C77: guesses *)
Theorem cca_bound msgs msgs' (A : attacker E bool) t q (L : list (list F)) : within t q A -> length msgs = length msgs' -> incl msgs protected -> incl msgs' protected -> NoDup L ->
  (forall c, In c L -> length c = (3 * n + 7 + 3 * length msgs)%nat /\ experiment_cca pf B gens b A protected msgs c <> experiment_cca pf B gens b A protected msgs' c) ->
  Z.of_nat (length L) * p <= (Z.of_nat N + (D0 + 2 * Z.of_nat (t + 2 * q) * Z.of_nat (length msgs) * D1 + 2 * Z.of_nat q * NM (Z.of_nat (t + 2 * q)) (Z.of_nat (length msgs)))) * p ^ Z.of_nat (3 * n + 7 + 3 * length msgs).
Proof.
  intros W Hlen Hi1 Hi2 Hnd HL. pose proof (@modulus_gt1 K) as Hp. apply (split_tau n cs xs b HbM Hn0); [lia|exact Hnd|intros c Hc; apply HL; exact Hc|]. clear Hnd. intros L1 Hnd HL1.
  set (k := length msgs) in *. set (T := p ^ Z.of_nat (3 * n + 7 + 3 * k)). assert (HT : 0 < T) by (apply Z.pow_pos_nonneg; lia).
  set (U1 := fun c : list F => ~ healthy (firstn (3 * n + 7) c)).
  set (U2 := fun c => exists i, (i < q)%nat /\ odd_run msgs (nth_submission bool n qc qq (pred k) i A) c).
  set (U3 := fun c => exists i, (i < q)%nat /\ odd_run msgs' (nth_submission bool n qc qq (pred k) i A) c).
  set (U4 := fun c => experiment_many pf B gens b (sim_observer k A) msgs c <> experiment_many pf B gens b (sim_observer k A) msgs' c).
  assert (Cov : forall c, In c L1 -> U1 c \/ (U2 c \/ (U3 c \/ U4 c))).
  { intros c Hc. destruct (HL1 c Hc) as [Hin Hv]. destruct (HL c Hin) as [Lc Hne]. destruct (healthy_dec (firstn (3 * n + 7) c)) as [Hh|Hh]; [right|left; exact Hh].
    destruct (run_cases A t q msgs c W Lc Hv Hi1 Hh) as [R1|R1]; [right|left; exact R1]. destruct (run_cases A t q msgs' c W) as [R2|R2]; try assumption; [rewrite <- Hlen; exact Lc|right|left; rewrite <- Hlen in R2; exact R2].
    intros Heq. apply Hne. unfold experiment_cca, experiment_many in *. destruct (setup_for_groth16 B (replay_rng E) b gens c) as [[[[[pk sk] ek] dk] rest]|err|] eqn:Hset; [|reflexivity|reflexivity].
    destruct (R1 _ _ _ _ _ eq_refl) as (cps & st & X1 & Y1). destruct (R2 _ _ _ _ _ eq_refl) as (cps' & st' & X2 & Y2). cbv zeta in Y1, Y2. rewrite X1, X2 in Heq. rewrite X1, X2. f_equal.
    rewrite Y1, Y2. rewrite <- Hlen. fold k. rewrite <- !sim_observe. exact Heq. }
  destruct (cover2 U1 _ L1 Hnd Cov) as (A1 & A2 & N1 & N2 & Len & I1 & I2).
  destruct (cover2 U2 (fun c => U3 c \/ U4 c) A2 N2 (fun c Hc => proj2 (I2 c Hc))) as (A3 & A4 & N3 & N4 & Len2 & I3 & I4).
  destruct (cover2 U3 U4 A4 N4 (fun c Hc => proj2 (I4 c Hc))) as (A5 & A6 & N5 & N6 & Len3 & I5 & I6).
  assert (Base : forall c, In c L1 -> length c = (3 * n + 7 + 3 * k)%nat /\ vanishing_at xs (e 4 c) <> fzero) by (intros c Hc; destruct (HL1 c Hc) as [Hin Hv]; split; [apply HL; exact Hin|exact Hv]).
  assert (B1 : Z.of_nat (length A1) * p <= D0 * T).
  { apply unhealthy_bound; [exact N1|]. intros c Hc. destruct (I1 c Hc) as [Hin Hu]. split; [apply Base; exact Hin|exact Hu]. }
  assert (B3 : Z.of_nat (length A3) * p <= Z.of_nat q * (NM (Z.of_nat (t + 2 * q)) (Z.of_nat k) * T)).
  { apply (unpredicted_bound A t q msgs A3 W N3). intros c Hc. destruct (I3 c Hc) as [Hin Hu]. destruct (Base c (proj1 (I2 c Hin))) as [Y1 Y2]. split; [exact Y1|]. split; [exact Y2|exact Hu]. }
  assert (B5 : Z.of_nat (length A5) * p <= Z.of_nat q * (NM (Z.of_nat (t + 2 * q)) (Z.of_nat k) * T)).
  { unfold T. rewrite Hlen. apply (unpredicted_bound A t q msgs' A5 W N5). intros c Hc. destruct (I5 c Hc) as [Hin Hu]. destruct (Base c (proj1 (I2 c (proj1 (I4 c Hin))))) as [Y1 Y2].
    rewrite <- Hlen. split; [exact Y1|]. split; [exact Y2|exact Hu]. }
  assert (B6 : Z.of_nat (length A6) * p <= (2 * Z.of_nat (t + 2 * q) * Z.of_nat k * D1) * T).
  { eapply Z.le_trans; [apply (many_bound_good n cs xs pf domain fuel b gens HG HH Hdom_ok Hb HbM Hcomp Hcount Hn0 Hcs Hdomain msgs msgs' (sim_observer k A) A6 Hlen N6)|].
    - intros c Hc. destruct (I6 c Hc) as [Hin Hu]. destruct (Base c (proj1 (I2 c (proj1 (I4 c Hin))))) as [Y1 Y2]. split; [exact Y1|]. split; [exact Y2|exact Hu].
    - apply Z.mul_le_mono_nonneg_r; [unfold T in HT; fold k; lia|]. apply Z.mul_le_mono_nonneg_r; [unfold D1; lia|]. apply Z.mul_le_mono_nonneg_r; [lia|]. pose proof (sim_questions k A t q W). lia. }
  set (Q := Z.of_nat (t + 2 * q)) in *. clearbody Q. rewrite Len, Len2, Len3, !Nat2Z.inj_add, !Z.mul_add_distr_r.
  eapply Z.le_trans; [apply Z.add_le_mono; [exact B1|apply Z.add_le_mono; [exact B3|apply Z.add_le_mono; [exact B5|exact B6]]]|]. apply Z.eq_le_incl. ring.
Qed.

(* C77: forgeries *)
Theorem cca_forgery_bound msgs (A : attacker E (strategy E)) t q (L : list (list F)) : within t q A -> incl msgs protected -> NoDup L ->
  (forall c, In c L -> length c = (3 * n + 7 + 3 * length msgs)%nat /\ exists pk sk ek dk rest cps st St,
     setup_for_groth16 B (replay_rng E) b gens c = Ok (pk, sk, ek, dk, rest) /\ encrypt_all pf B (replay_rng E) msgs ek pk b rest = Ok (cps, st) /\
     experiment_cca pf B gens b A protected msgs c = Some St /\
     let T1 := table_g1 gens pk ek cps in let T2 := table_g2 gens pk ek dk cps in
     verify_commitment_and_proof (ciphertext_from St T1) (proof_from St T1 T2) (prepare_verifying_key (gpk_vk (pk_pk pk))) (prepare_ek ek) (prepare_gens gens) = Ok tt /\
     ~ is_fresh n b St pk ek T1 /\ ~ is_copy n St ek T1 T2 cps) ->
  Z.of_nat (length L) * p <= (Z.of_nat N + (D0 + (Z.of_nat q + 1) * NM (Z.of_nat (t + 2 * q)) (Z.of_nat (length msgs)))) * p ^ Z.of_nat (3 * n + 7 + 3 * length msgs).
Proof.
  intros W Hi1 Hnd HL. pose proof (@modulus_gt1 K) as Hp. apply (split_tau n cs xs b HbM Hn0); [lia|exact Hnd|intros c Hc; apply HL; exact Hc|]. clear Hnd. intros L1 Hnd HL1.
  set (k := length msgs) in *. set (T := p ^ Z.of_nat (3 * n + 7 + 3 * k)). assert (HT : 0 < T) by (apply Z.pow_pos_nonneg; lia).
  set (U1 := fun c : list F => ~ healthy (firstn (3 * n + 7) c)).
  set (U2 := fun c => exists i, (i < q)%nat /\ odd_run msgs (nth_submission (strategy E) n qc qq (pred k) i A) c).
  set (U3 := fun c => odd_run msgs (sim_prover k A) c).
  assert (Cov : forall c, In c L1 -> U1 c \/ (U2 c \/ U3 c)).
  { intros c Hc. destruct (HL1 c Hc) as [Hin Hv]. destruct (HL c Hin) as [Lc (pk & sk & ek & dk & rest & cps & st & St & Hset & Henc & Hexp & Hrun)]. cbv zeta in Hrun.
    destruct (healthy_dec (firstn (3 * n + 7) c)) as [Hh|Hh]; [right|left; exact Hh]. destruct (run_cases A t q msgs c W Lc Hv Hi1 Hh) as [R1|R1]; [right|left; exact R1].
    destruct (R1 _ _ _ _ _ Hset) as (cps' & st' & X1 & Y1). rewrite Henc in X1. apply (f_equal (fun o => match o with Ok (x, _) => x | _ => cps end)) in X1. subst cps'. cbv zeta in Y1. fold k in Y1.
    unfold experiment_cca in Hexp. rewrite Hset, Henc, Y1, <- sim_play in Hexp. apply (f_equal (fun o => match o with Some x => x | None => St end)) in Hexp.
    exists pk, sk, ek, dk, rest, cps, st. split; [exact Hset|]. split; [exact Henc|]. cbv zeta. rewrite Hexp. destruct Hrun as (Z1 & Z2 & Z3). split; [exact Z1|]. split; [intros [_ Y]; exact (Z2 Y)|intros [_ Y]; exact (Z3 Y)]. }
  destruct (cover2 U1 _ L1 Hnd Cov) as (A1 & A2 & N1 & N2 & Len & I1 & I2).
  destruct (cover2 U2 U3 A2 N2 (fun c Hc => proj2 (I2 c Hc))) as (A3 & A4 & N3 & N4 & Len2 & I3 & I4).
  assert (Base : forall c, In c L1 -> length c = (3 * n + 7 + 3 * k)%nat /\ vanishing_at xs (e 4 c) <> fzero) by (intros c Hc; destruct (HL1 c Hc) as [Hin Hv]; split; [apply HL; exact Hin|exact Hv]).
  assert (B1 : Z.of_nat (length A1) * p <= D0 * T).
  { apply unhealthy_bound; [exact N1|]. intros c Hc. destruct (I1 c Hc) as [Hin Hu]. split; [apply Base; exact Hin|exact Hu]. }
  assert (B3 : Z.of_nat (length A3) * p <= Z.of_nat q * (NM (Z.of_nat (t + 2 * q)) (Z.of_nat k) * T)).
  { apply (unpredicted_bound A t q msgs A3 W N3). intros c Hc. destruct (I3 c Hc) as [Hin Hu]. destruct (Base c (proj1 (I2 c Hin))) as [Y1 Y2]. split; [exact Y1|]. split; [exact Y2|exact Hu]. }
  assert (B4 : Z.of_nat (length A4) * p <= NM (Z.of_nat (t + 2 * q)) (Z.of_nat k) * T).
  { apply (odd_bound msgs (sim_prover k A)); [apply sim_tests; exact W|exact N4|]. intros c Hc. destruct (I4 c Hc) as [Hin Hu]. destruct (Base c (proj1 (I2 c Hin))) as [Y1 Y2]. split; [exact Y1|]. split; [exact Y2|exact Hu]. }
  set (Q := Z.of_nat (t + 2 * q)) in *. clearbody Q. rewrite Len, Len2, !Nat2Z.inj_add, !Z.mul_add_distr_r.
  eapply Z.le_trans; [apply Z.add_le_mono; [exact B1|apply Z.add_le_mono; [exact B3|exact B4]]|]. apply Z.eq_le_incl. ring.
Qed.
End CCount.
