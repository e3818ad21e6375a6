(* PrivacyDkg.v -- what a distributed key generation shows is a fixed combination of what a central one shows (for C67) *)
From Verif Require Import Base BaseFacts Algebra Utils UtilsFacts Setup Keygen Encryption Circuit CircuitFacts CircuitSat CommitmentFacts VecFacts KeySpec KeygenFacts
  EncryptFacts DecryptFacts Spec VerifyFacts Protocol ReencFacts DistFacts PropVerify Groth16 ArkGroth16 PolyFacts Groth16Spec ArkFacts Groth16Facts SchwartzZippel SoundCore SoundSpec
  SoundAlg SoundGame SoundLink SoundFacts SoundCount SoundHonest PropGroth16 PropSoundCases PropZK PrivacySpec PrivacyAlg PrivacyGame PrivacyLink PrivacyCount PrivacySpan PrivacyMany
  PrivacyDkgSpec.

Section Shift.
Context {E : pairing}.
Notation K := (K_of E).
Notation F := (Fr E).
Add Ring Kr : (@scalar_ring_theory K).

Fixpoint vadd (a c : list F) : list F := match a, c with x :: a', y :: c' => fadd x y :: vadd a' c' | _, _ => [] end.
Lemma vadd_length a c n : length a = n -> length c = n -> length (vadd a c) = n.
Proof. revert c n; induction a as [|x a IH]; intros [|y c] [|n] Ha Hc; try discriminate; [reflexivity|]. cbn in *. f_equal. apply IH; lia. Qed.
Lemma vadd_inj a a' c n : length a = n -> length a' = n -> length c = n -> vadd a c = vadd a' c -> a = a'.
Proof.
  revert a' c n; induction a as [|x a IH]; intros [|x' a'] [|y c] [|n] Ha Ha' Hc Hv; try discriminate; [reflexivity|]. cbn [vadd] in Hv. pose proof (f_equal (hd fzero) Hv) as H1. pose proof (f_equal (@tl F) Hv) as H2. cbn [hd tl] in H1, H2. f_equal.
  - replace x with (fsub (fadd x y) y) by ring. rewrite H1. ring.
  - apply (IH a' c n); cbn in *; try lia. exact H2.
Qed.

Lemma fsum_vadd (s c : list F) : length s = length c -> fsum (vadd s c) = fadd (fsum s) (fsum c).
Proof. revert c; induction s as [|x s IH]; intros [|y c] L; try discriminate; cbn [vadd]; rewrite ?fsum_cons; [cbn; ring|]. rewrite IH by (cbn in L; lia). ring. Qed.
Lemma vadd_nth (s c : list F) i : length s = length c -> nth i (vadd s c) fzero = fadd (nth i s fzero) (nth i c fzero).
Proof. revert c i; induction s as [|x s IH]; intros [|y c] [|i] L; try discriminate; cbn [vadd nth]; [ring|ring|reflexivity|apply IH; cbn in L; lia]. Qed.
Lemma fdot_vadd (s t c : list F) : length t = length c -> fdot s (vadd t c) = fadd (fdot s t) (fdot c s).
Proof. revert t c; induction s as [|x s IH]; intros [|y t] [|z c] L; try discriminate; cbn [vadd fdot]; try ring. rewrite IH by (cbn in L; lia). ring. Qed.
(* encrypting the same way under a key whose t-part is shifted *)
Definition shift_ct (t0k : F) (tk : list F) (ct : ciphertext E) : ciphertext E :=
  Ciphertext (ct_X_r ct) (ct_enc_chunks ct) (ct_commitment ct [+] ((t0k [*] ct_X_r ct) [+] dot tk (ct_enc_chunks ct))).
Lemma body_cons (x : G1 E) X g gs m ms r : body_formula (x :: X) (g :: gs) (m :: ms) r = ((r [*] x) [+] (of_Z m [*] g)) :: body_formula X gs ms r.
Proof. unfold body_formula. cbn [length seq map nth]. f_equal. rewrite <- seq_shift, map_map. reflexivity. Qed.
Lemma psi_shift_dot n (d : G1 E) g s t tk m r : length g = n -> length s = n -> length t = n -> length tk = n -> length m = n ->
  dot (map of_Z m) (scale (vadd t tk) g) [+] (fmul r (fdot s (vadd t tk)) [*] d) =
  dot (map of_Z m) (scale t g) [+] (fmul r (fdot s t) [*] d) [+] dot tk (body_formula (map (fun x => x [*] d) s) g m r).
Proof.
  revert g s t tk m; induction n as [|n IH]; intros [|g0 g] [|s0 s] [|t0 t] [|k0 tk] [|m0 m] Lg Ls Lt Lk Lm; try discriminate.
  - cbn. glin.
  - cbn [map]. rewrite body_cons. cbn [vadd scale dot fdot map]. specialize (IH g s t tk m ltac:(cbn in *; lia) ltac:(cbn in *; lia) ltac:(cbn in *; lia) ltac:(cbn in *; lia) ltac:(cbn in *; lia)).
    set (A := dot (map of_Z m) (scale (vadd t tk) g)) in *. set (A' := dot (map of_Z m) (scale t g)) in *. set (f := fdot s (vadd t tk)) in *. set (f' := fdot s t) in *.
    set (D := dot tk _) in *. clearbody A A' f f' D.
    transitivity ((A [+] (fmul r f [*] d)) [+] ((of_Z m0 [*] (fadd t0 k0 [*] g0)) [+] (fmul r (fmul s0 (fadd t0 k0)) [*] d))); [glin|]. rewrite IH. glin.
Qed.
Lemma psi_shift n gens g_i (d gam : G1 E) s t0 t t0k tk m r : length g_i = n -> length s = n -> length t = n -> length tk = n -> length m = n ->
  ct_formula (ek_formula gens g_i d gam s (fadd t0 t0k) (vadd t tk)) g_i m r = shift_ct t0k tk (ct_formula (ek_formula gens g_i d gam s t0 t) g_i m r).
Proof.
  intros Lg Ls Lt Lk Lm. unfold shift_ct, ct_formula, psi_formula. cbn [ek_formula ek_X_0 ek_X ek_Y ek_P_1 ct_X_r ct_enc_chunks ct_commitment]. f_equal.
  pose proof (psi_shift_dot n d g_i s t tk m r Lg Ls Lt Lk Lm) as Hd.
  set (A := dot (map of_Z m) (scale (vadd t tk) g_i)) in *. set (A' := dot (map of_Z m) (scale t g_i)) in *. set (f := fdot s (vadd t tk)) in *. set (f' := fdot s t) in *.
  set (D := dot tk _) in *. clearbody A A' f f' D.
  transitivity ((A [+] (fmul r f [*] d)) [+] (fmul r (fadd t0 t0k) [*] d)); [glin|]. rewrite Hd. glin.
Qed.
Lemma ct_of_vec_formula (ek : encryption_key E) g_i m r : ct_of_vec (ct_vec (ct_formula ek g_i m r)) = Ok (ct_formula ek g_i m r).
Proof. apply ct_of_vec_ct_vec. Qed.

Lemma encrypt_shift pf B n gens g_i (d gam : G1 E) s t0 t t0k tk msg pk b st ct r q st' :
  length g_i = n -> length s = n -> length t = n -> length tk = n -> (n < 256)%nat -> get_gs_for_encryption (gpk_vk (pk_pk pk)) = Ok g_i ->
  encrypt_with_proof pf B (replay_rng E) msg (ek_formula gens g_i d gam s t0 t) pk b st = Ok (ct, r, q, st') ->
  encrypt_with_proof pf B (replay_rng E) msg (ek_formula gens g_i d gam s (fadd t0 t0k) (vadd t tk)) pk b st = Ok (shift_ct t0k tk ct, r, q, st').
Proof.
  intros Lg Ls Lt Lk H256 Hgs H. assert (Lv : length (vadd t tk) = n) by (apply vadd_length; assumption).
  destruct (ek_formula_lengths gens g_i d gam s t0 t n Ls Lt ltac:(lia)) as (A1 & A2 & A3). destruct (ek_formula_lengths gens g_i d gam s (fadd t0 t0k) (vadd t tk) n Ls Lv ltac:(lia)) as (B1 & B2 & B3).
  unfold encrypt_with_proof in *. rewrite Hgs in *. cbn [bind] in *. unfold encrypt in *. destruct (decompose pf msg b) as [ds| |]; try discriminate H. cbn [bind] in *.
  assert (Ld : length ds = n).
  { destruct (Nat.eq_dec (length ds) n) as [Z|Z]; [exact Z|exfalso]. unfold encrypt_decomposed_message, ek_supported_chunks_count in H. rewrite A1, A2, A3, enc_supported_ok in H by exact H256.
    cbn [bind] in H. rewrite Nat2Z.id in H. destruct (Nat.eqb_spec (length ds) n); [contradiction|]. discriminate H. }
  rewrite encrypt_chunks_ok in H by lia. rewrite encrypt_chunks_ok by lia. cbn [bind] in *. rewrite ct_of_vec_formula in *. cbn [bind] in *.
  rewrite (psi_shift n) by assumption. destruct (circuit_new _ _ _ _) as [circ| |]; try discriminate H. cbn [bind] in *.
  unfold create_proof in *. destruct (rand_scalar (replay_rng E) (snd (rand_scalar (replay_rng E) st))) as [x sx]. destruct (rand_scalar (replay_rng E) sx) as [y sy].
  destruct (create_proof_with_reduction B _ _ _ _) as [q1| |]; try discriminate H. cbn [bind] in *. cbn [ek_formula ek_P_2] in *. injection H as <- <- <- <-. reflexivity.
Qed.
Definition shift_pair t0k tk (cp : ciphertext E * proof E) := (shift_ct t0k tk (fst cp), snd cp).
Lemma encrypt_all_shift pf B n gens g_i (d gam : G1 E) s t0 t t0k tk msgs pk b st cps st' :
  length g_i = n -> length s = n -> length t = n -> length tk = n -> (n < 256)%nat -> get_gs_for_encryption (gpk_vk (pk_pk pk)) = Ok g_i ->
  encrypt_all pf B (replay_rng E) msgs (ek_formula gens g_i d gam s t0 t) pk b st = Ok (cps, st') ->
  encrypt_all pf B (replay_rng E) msgs (ek_formula gens g_i d gam s (fadd t0 t0k) (vadd t tk)) pk b st = Ok (map (shift_pair t0k tk) cps, st').
Proof.
  intros Lg Ls Lt Lk H256 Hgs. revert st cps; induction msgs as [|m msgs IH]; intros st cps H; cbn [encrypt_all] in *.
  - injection H as <- <-. reflexivity.
  - apply bind_Ok_inv in H. destruct H as ([[[ct r] q] s1] & H1 & H). apply bind_Ok_inv in H. destruct H as ([cps1 s2] & H2 & H). injection H as <- <-.
    rewrite (encrypt_shift pf B n gens g_i d gam s t0 t t0k tk m pk b st ct r q s1) by assumption. cbn [bind]. rewrite (IH _ _ H2). reflexivity.
Qed.
End Shift.

Section SpanMore.
Context {E : pairing}.
Notation K := (K_of E).
Notation F := (Fr E).
Context {A : Type} (good : A -> Prop) {G : group K}.
Lemma sp_sub (Ps L1 L2 L3 : A -> list G) n1 n2 : (forall a, good a -> Ps a = L1 a ++ L2 a ++ L3 a /\ length (L1 a) = n1 /\ length (L2 a) = n2) -> spanned good Ps L2.
Proof.
  intros H. destruct (sp_part good L1 L2 L3 n1 n2) as (rows & HR); [intros a Ha; apply H; exact Ha|]. exists rows. intros a Ha. rewrite (HR a Ha) at 1. rewrite (proj1 (H a Ha)). reflexivity.
Qed.
Lemma sp_list {B} (Ps : A -> list G) (P : B -> A -> G) (l : list B) : (forall x, In x l -> spanned1 good Ps (P x)) -> spanned good Ps (fun a => map (fun x => P x a) l).
Proof.
  intros H. induction l as [|x l IH]; cbn [map]; [apply sp_nil|]. apply (sp_app good Ps (fun a => [P x a]) (fun a => map (fun x => P x a) l)).
  - apply sp1_list, H. left. reflexivity.
  - apply IH. intros y Hy. apply H. right. exact Hy.
Qed.
End SpanMore.

Section DkgView.
Context {E : pairing}.
Notation K := (K_of E).
Notation F := (Fr E).
Add Ring Kr : (@scalar_ring_theory K).
Variables (n kk Mq M2 : nat) (gens : encryption_gens E) (ks : list F) (k0 : F) (kt : list F) (before after : list (list F)).
Notation H := (eg_H gens).

(* the secrets on the tape of a party *)
Definition ts_s (tape : list F) : list F := firstn n tape.
Definition ts_t0 (tape : list F) : F := nth n tape fzero.
Definition ts_t (tape : list F) : list F := skipn (n + 1) tape.
Hypothesis Lks : length ks = n.
Hypothesis Lkt : length kt = n.
Definition full (tape : list F) : Prop := length tape = (2 * n + 1)%nat.
Hypothesis Hbef : Forall full before.
Hypothesis Haft : Forall full after.

Record dview := DView { v_pk : proving_key E; v_sh : list F; v_t0 : F; v_t : list F; v_dk : decryption_key E; v_cps : list (ciphertext E * proof E) }.
Definition v_gabc (a : dview) := vk_gamma_abc_g1 (gpk_vk (pk_pk (v_pk a))).
Definition v_g (a : dview) := skipn 1 (v_gabc a).
Definition v_d (a : dview) := gpk_delta_g1 (pk_pk (v_pk a)).
Definition v_c (a : dview) := pk_gamma_g1 (v_pk a).
Definition v_ek (a : dview) := ek_formula gens (v_g a) (v_d a) (v_c a) (vadd (v_sh a) ks) (v_t0 a) (v_t a).
Definition v_ek' (a : dview) := ek_formula gens (v_g a) (v_d a) (v_c a) (vadd (v_sh a) ks) (fadd (v_t0 a) k0) (vadd (v_t a) kt).
Definition cen1 (a : dview) := table_g1 gens (v_pk a) (v_ek a) (v_cps a).
Definition cen2 (a : dview) := table_g2 gens (v_pk a) (v_ek a) (v_dk a) (v_cps a).
Definition v_part (a : dview) (tape : list F) := ekp_formula gens (v_g a) (v_d a) (v_c a) (ts_s tape) (ts_t0 tape) (ts_t tape).
Definition v_hpart (a : dview) := ekp_formula gens (v_g a) (v_d a) (v_c a) (v_sh a) (v_t0 a) (v_t a).
Definition v_share (a : dview) (tape : list F) : G1 E := (ts_t0 tape [*] v_d a) [+] dot (ts_t tape) (ek_X (v_ek a)).
Definition v_run (a : dview) : dkg_run E :=
  DkgRun (v_pk a) (map (v_part a) before ++ v_hpart a :: map (v_part a) after)
    (map (fun x => P1share (v_share a x)) before ++ P1share ((v_t0 a [*] v_d a) [+] dot (v_t a) (ek_X (v_ek a))) :: map (fun x => P1share (v_share a x)) after)
    (v_ek' a) (map (shift_pair k0 kt) (v_cps a)).
Definition v_queries (a : dview) := let gpk := pk_pk (v_pk a) in gpk_a_query gpk ++ gpk_b_g1_query gpk ++ gpk_h_query gpk ++ gpk_l_query gpk.
Definition vgood (a : dview) : Prop :=
  length (v_sh a) = n /\ length (v_t a) = n /\ length (v_gabc a) = S n /\ length (v_cps a) = kk /\ Forall (fun cp => length (ct_enc_chunks (fst cp)) = n) (v_cps a) /\
  length (v_queries a) = Mq /\ length (gpk_b_g2_query (pk_pk (v_pk a))) = M2 /\ length (dk_V_1 (v_dk a)) = n /\ length (dk_V_2 (v_dk a)) = n.
Notation sp1 := (spanned1 vgood cen1).
Notation sp := (spanned vgood cen1).

Definition v_five (a : dview) : list (G1 E) := [eg_G gens; vk_alpha_g1 (gpk_vk (pk_pk (v_pk a))); gpk_beta_g1 (pk_pk (v_pk a)); v_d a; v_c a].
Lemma pub_shape a : public_g1 gens (v_pk a) (v_ek a) = (ek_Y (v_ek a) ++ [ek_P_1 (v_ek a)]) ++ v_five a ++ v_queries a ++ v_gabc a ++ [v_d a] ++ ek_X (v_ek a) ++ [ek_P_2 (v_ek a)].
Proof. unfold public_g1, v_five, v_queries. rewrite <- !app_assoc. reflexivity. Qed.
Lemma pub_shape' a : public_g1 gens (v_pk a) (v_ek' a) = (ek_Y (v_ek' a) ++ [ek_P_1 (v_ek' a)]) ++ v_five a ++ v_queries a ++ v_gabc a ++ [v_d a] ++ ek_X (v_ek a) ++ [ek_P_2 (v_ek a)].
Proof. unfold public_g1, v_five, v_queries. rewrite <- !app_assoc. reflexivity. Qed.
Lemma vlen a : vgood a -> length (v_g a) = n /\ length (vadd (v_sh a) ks) = n /\ length (ek_X (v_ek a)) = n /\ length (ek_Y (v_ek a)) = n /\ length (ek_Z (v_ek a)) = S n.
Proof.
  intros (L1 & L2 & L3 & _). assert (A1 : length (v_g a) = n) by (unfold v_g; rewrite skipn_length; lia). assert (A2 : length (vadd (v_sh a) ks) = n) by (apply vadd_length; assumption).
  destruct (ek_formula_lengths gens (v_g a) (v_d a) (v_c a) (vadd (v_sh a) ks) (v_t0 a) (v_t a) n A2 L2 ltac:(lia)) as (B1 & B2 & B3). unfold v_ek. repeat split; try assumption. lia.
Qed.
Ltac lens Ha := let L := fresh "L" in pose proof (vlen _ Ha) as L; destruct Ha as (?G & ?G & ?G & ?G & ?G & ?G & ?G & ?G & ?G); destruct L as (?G & ?G & ?G & ?G & ?G).
Lemma s_Y : sp (fun a => ek_Y (v_ek a)).
Proof. apply (sp_sub vgood _ (fun _ => []) _ (fun a => [ek_P_1 (v_ek a)] ++ v_five a ++ v_queries a ++ v_gabc a ++ [v_d a] ++ ek_X (v_ek a) ++ [ek_P_2 (v_ek a)] ++ concat (map pair_g1 (v_cps a))) 0 n).
  intros a Ha. split; [unfold cen1, table_g1; rewrite pub_shape, <- !app_assoc; reflexivity|]. lens Ha. split; [reflexivity|assumption]. Qed.
Lemma s_rest : sp (fun a => v_five a ++ v_queries a ++ v_gabc a ++ [v_d a] ++ ek_X (v_ek a) ++ [ek_P_2 (v_ek a)]).
Proof. apply (sp_sub vgood _ (fun a => ek_Y (v_ek a) ++ [ek_P_1 (v_ek a)]) _ (fun a => concat (map pair_g1 (v_cps a))) (n + 1) (5 + Mq + S n + 1 + n + 1)).
  intros a Ha. split; [unfold cen1, table_g1; rewrite pub_shape, <- !app_assoc; reflexivity|]. lens Ha. unfold v_five. rewrite !app_length. cbn [length]. lia. Qed.
Lemma s_P1 : sp1 (fun a => ek_P_1 (v_ek a)).
Proof. assert (X : sp (fun a => [ek_P_1 (v_ek a)])).
  { apply (sp_sub vgood _ (fun a => ek_Y (v_ek a)) _ (fun a => v_five a ++ v_queries a ++ v_gabc a ++ [v_d a] ++ ek_X (v_ek a) ++ [ek_P_2 (v_ek a)] ++ concat (map pair_g1 (v_cps a))) n 1).
    intros a Ha. split; [unfold cen1, table_g1; rewrite pub_shape, <- !app_assoc; reflexivity|]. lens Ha. split; [assumption|reflexivity]. }
  exact (sp1_nth vgood _ _ 0 X). Qed.
Lemma s_five : sp v_five.
Proof. eapply sp_trans; [exact s_rest|]. apply (sp_sub vgood _ (fun _ => []) _ (fun a => v_queries a ++ v_gabc a ++ [v_d a] ++ ek_X (v_ek a) ++ [ek_P_2 (v_ek a)]) 0 5). intros a Ha. repeat split. Qed.
Lemma s_d : sp1 v_d. Proof. exact (sp1_nth vgood _ _ 3 s_five). Qed.
Lemma s_c : sp1 v_c. Proof. exact (sp1_nth vgood _ _ 4 s_five). Qed.
Lemma s_gabc : sp v_gabc.
Proof. eapply sp_trans; [exact s_rest|]. apply (sp_sub vgood _ (fun a => v_five a ++ v_queries a) _ (fun a => [v_d a] ++ ek_X (v_ek a) ++ [ek_P_2 (v_ek a)]) (5 + Mq) (S n)).
  intros a Ha. split; [rewrite <- !app_assoc; reflexivity|]. lens Ha. unfold v_five. rewrite !app_length. cbn [length]. lia. Qed.
Lemma s_g i : sp1 (fun a => nth i (v_g a) gzero).
Proof. apply (sp1_ext vgood _ _ (fun a => nth (S i) (v_gabc a) gzero)); [intros a _; unfold v_g; destruct (v_gabc a) as [|x l]; [destruct i; reflexivity|reflexivity]|]. apply sp1_nth, s_gabc. Qed.
Lemma s_X : sp (fun a => ek_X (v_ek a)).
Proof. eapply sp_trans; [exact s_rest|]. apply (sp_sub vgood _ (fun a => v_five a ++ v_queries a ++ v_gabc a ++ [v_d a]) _ (fun a => [ek_P_2 (v_ek a)]) (5 + Mq + S n + 1) n).
  intros a Ha. split; [rewrite <- !app_assoc; reflexivity|]. lens Ha. unfold v_five. rewrite !app_length. cbn [length]. lia. Qed.
Lemma s_P2 : sp1 (fun a => ek_P_2 (v_ek a)).
Proof. assert (X : sp (fun a => [ek_P_2 (v_ek a)])).
  { eapply sp_trans; [exact s_rest|]. apply (sp_sub vgood _ (fun a => v_five a ++ v_queries a ++ v_gabc a ++ [v_d a] ++ ek_X (v_ek a)) _ (fun a => []) (5 + Mq + S n + 1 + n) 1).
    intros a Ha. split; [rewrite <- !app_assoc; reflexivity|]. lens Ha. unfold v_five. rewrite !app_length. cbn [length]. lia. }
  exact (sp1_nth vgood _ _ 0 X). Qed.
Lemma s_pairs : sp (fun a => concat (map pair_g1 (v_cps a))).
Proof.
  apply (sp_sub vgood _ (fun a => public_g1 gens (v_pk a) (v_ek a)) _ (fun _ => []) (n + 1 + (5 + Mq + S n + 1 + n + 1)) (kk * (n + 4))). intros a Ha. split; [rewrite app_nil_r; reflexivity|].
  lens Ha. rewrite pub_shape. unfold v_five. split; [rewrite !app_length; cbn [length]; lia|].
  match goal with X : length (v_cps a) = kk |- _ => rewrite <- X end. match goal with X : Forall _ (v_cps a) |- _ => revert X end. generalize (v_cps a) as l. clear. induction l as [|[ct q] l IH]; intros Hf; [reflexivity|]. inversion Hf as [|? ? H1 H2]; subst. 
  cbn [map concat length]. rewrite app_length, (IH H2). unfold pair_g1. cbn [fst snd app length] in *. rewrite app_length. cbn [length]. lia.
Qed.
Lemma concat_cut {B C} (f : B -> list C) (d : B) i l : (i < length l)%nat -> concat (map f l) = concat (map f (firstn i l)) ++ f (nth i l d) ++ concat (map f (skipn (S i) l)).
Proof.
  revert l; induction i as [|i IH]; intros [|x l] Hi; cbn [length] in Hi; try lia; [reflexivity|]. cbn [firstn skipn map concat nth]. rewrite (IH l) by lia. rewrite <- app_assoc. reflexivity.
Qed.
Definition cp0 : ciphertext E * proof E := (Ciphertext gzero [] gzero, Proof gzero gzero gzero).
Lemma s_pair i : (i < kk)%nat -> sp (fun a => pair_g1 (nth i (v_cps a) cp0)).
Proof.
  intros Hi. eapply sp_trans; [exact s_pairs|].
  apply (sp_sub vgood _ (fun a => concat (map pair_g1 (firstn i (v_cps a)))) _ (fun a => concat (map pair_g1 (skipn (S i) (v_cps a)))) (i * (n + 4)) (n + 4)).
  intros a Ha. lens Ha. split; [apply concat_cut; lia|].
  assert (X : forall l : list (ciphertext E * proof E), Forall (fun cp => length (ct_enc_chunks (fst cp)) = n) l -> length (concat (map pair_g1 l)) = (length l * (n + 4))%nat).
  { clear. induction l as [|[ct q] l IH]; intros Hf; [reflexivity|]. inversion Hf as [|? ? H1 H2]; subst. cbn [map concat length]. rewrite app_length, (IH H2). unfold pair_g1. cbn [fst snd app length] in *. rewrite app_length. cbn [length]. lia. }
  match goal with X : Forall _ (v_cps a) |- _ => rename X into Hf end. split.
  - rewrite X; [rewrite firstn_length; f_equal; lia|]. rewrite <- (firstn_skipn i (v_cps a)) in Hf. apply Forall_app in Hf. exact (proj1 Hf).
  - assert (L : length (ct_enc_chunks (fst (nth i (v_cps a) cp0))) = n) by (apply (Forall_nth (fun cp => length (ct_enc_chunks (fst cp)) = n) (v_cps a)); [exact Hf|lia]).
    unfold pair_g1. rewrite !app_length, L. cbn [length]. lia.
Qed.
Lemma s_pair' i : (i < kk)%nat -> sp (fun a => pair_g1 (shift_pair k0 kt (nth i (v_cps a) cp0))).
Proof.
  intros Hi. eapply sp_trans; [exact (s_pair i Hi)|]. set (Ps := fun a => pair_g1 (nth i (v_cps a) cp0)).
  assert (Lc : forall a, vgood a -> length (ct_enc_chunks (fst (nth i (v_cps a) cp0))) = n).
  { intros a (_ & _ & _ & Lk & Hf & _). apply (Forall_nth (fun cp => length (ct_enc_chunks (fst cp)) = n) (v_cps a)); [exact Hf|lia]. }
  assert (S1 : spanned vgood Ps (fun a => [ct_X_r (fst (nth i (v_cps a) cp0))])).
  { apply (sp_sub vgood _ (fun _ => []) _ (fun a => let cp := nth i (v_cps a) cp0 in ct_enc_chunks (fst cp) ++ [ct_commitment (fst cp); pr_a (snd cp); pr_c (snd cp)]) 0 1).
    intros a Ha. repeat split. }
  assert (S2 : spanned vgood Ps (fun a => ct_enc_chunks (fst (nth i (v_cps a) cp0)))).
  { apply (sp_sub vgood _ (fun a => [ct_X_r (fst (nth i (v_cps a) cp0))]) _ (fun a => let cp := nth i (v_cps a) cp0 in [ct_commitment (fst cp); pr_a (snd cp); pr_c (snd cp)]) 1 n).
    intros a Ha. split; [reflexivity|]. split; [reflexivity|apply Lc; exact Ha]. }
  assert (S3 : spanned vgood Ps (fun a => let cp := nth i (v_cps a) cp0 in [ct_commitment (fst cp); pr_a (snd cp); pr_c (snd cp)])).
  { apply (sp_sub vgood _ (fun a => ct_X_r (fst (nth i (v_cps a) cp0)) :: ct_enc_chunks (fst (nth i (v_cps a) cp0))) _ (fun _ => []) (S n) 3).
    intros a Ha. split; [reflexivity|]. split; [cbn [length]; rewrite Lc by exact Ha; reflexivity|reflexivity]. }
  assert (E0 : spanned1 vgood Ps (fun a => ct_X_r (fst (nth i (v_cps a) cp0)))) by exact (sp1_nth vgood _ _ 0 S1).
  assert (E1 : spanned1 vgood Ps (fun a => ct_commitment (fst (nth i (v_cps a) cp0)))) by exact (sp1_nth vgood _ _ 0 S3).
  assert (E2 : spanned1 vgood Ps (fun a => pr_a (snd (nth i (v_cps a) cp0)))) by exact (sp1_nth vgood _ _ 1 S3).
  assert (E3 : spanned1 vgood Ps (fun a => pr_c (snd (nth i (v_cps a) cp0)))) by exact (sp1_nth vgood _ _ 2 S3).
  apply (sp_app vgood Ps (fun a => [ct_X_r (fst (nth i (v_cps a) cp0))])); [exact S1|]. apply sp_app; [exact S2|].
  apply (sp_app vgood Ps (fun a => [ct_commitment (fst (nth i (v_cps a) cp0)) [+] ((k0 [*] ct_X_r (fst (nth i (v_cps a) cp0))) [+] dot kt (ct_enc_chunks (fst (nth i (v_cps a) cp0))))])).
  - apply sp1_list, sp1_add; [exact E1|]. apply sp1_add; [apply sp1_smul; exact E0|apply sp1_dot; exact S2].
  - apply (sp_app vgood Ps (fun a => [pr_a (snd (nth i (v_cps a) cp0))])); apply sp1_list; assumption.
Qed.

(* the contributions *)
Lemma s_part tape : full tape -> sp (fun a => part_g1 (v_part a tape)).
Proof.
  intros Hf. unfold part_g1, v_part. cbn [ekp_formula ekp_X_0 ekp_X ekp_Y ekp_P_2].
  apply (sp_app vgood cen1 (fun a => [v_d a])); [apply sp1_list, s_d|]. apply sp_app; [apply (sp_list vgood cen1 (fun x a => x [*] v_d a)); intros x _; apply sp1_smul, s_d|].
  apply sp_app; [|apply sp1_list, sp1_smul, s_c].
  apply (sp_ext vgood _ _ (fun a => map (fun i => nth i (ts_t tape) fzero [*] nth i (v_g a) gzero) (seq 0 n))).
  - intros a Ha. lens Ha. apply scale_as_map; [unfold ts_t; rewrite skipn_length; unfold full in Hf; lia|lia].
  - apply (sp_seq vgood cen1 (fun i a => nth i (ts_t tape) fzero [*] nth i (v_g a) gzero)). intros i _. apply sp1_smul, s_g.
Qed.
Lemma s_hpart : sp (fun a => part_g1 (v_hpart a)).
Proof.
  unfold part_g1, v_hpart. cbn [ekp_formula ekp_X_0 ekp_X ekp_Y ekp_P_2].
  apply (sp_app vgood cen1 (fun a => [v_d a])); [apply sp1_list, s_d|]. apply sp_app; [|apply sp_app; [exact s_Y|]].
  - apply (sp_ext vgood _ _ (fun a => map (fun i => nth i (ek_X (v_ek a)) gzero [+] (fneg (nth i ks fzero) [*] v_d a)) (seq 0 n))).
    + intros a Ha. lens Ha. rewrite (list_as_map gzero (map _ (v_sh a))). rewrite map_length. replace (length (v_sh a)) with n. apply map_ext_in. intros i Hi. apply in_seq in Hi.
      unfold v_ek. cbn [ek_formula ek_X]. rewrite !(nth_map_default (fun x => x [*] v_d a) _ i fzero gzero) by apply smul_0_l. rewrite vadd_nth by congruence. glin.
    + apply (sp_seq vgood cen1 (fun i a => nth i (ek_X (v_ek a)) gzero [+] (fneg (nth i ks fzero) [*] v_d a))). intros i _. apply sp1_add; [apply sp1_nth, s_X|apply sp1_smul, s_d].
  - apply sp1_list. apply (sp1_ext vgood _ _ (fun a => ek_P_2 (v_ek a) [+] (fneg (fadd fone (fsum ks)) [*] v_c a))).
    + intros a Ha. lens Ha. unfold v_ek. cbn [ek_formula ek_P_2]. rewrite fsum_vadd by congruence. glin.
    + apply sp1_add; [exact s_P2|apply sp1_smul, s_c].
Qed.
Lemma s_share tape : sp1 (fun a => v_share a tape).
Proof. unfold v_share. apply sp1_add; [apply sp1_smul, s_d|apply sp1_dot, s_X]. Qed.
Lemma s_hshare : sp1 (fun a => (v_t0 a [*] v_d a) [+] dot (v_t a) (ek_X (v_ek a))).
Proof.
  apply (sp1_ext vgood _ _ (fun a => ek_P_1 (v_ek a))); [|exact s_P1]. intros a Ha. unfold v_ek. cbn [ek_formula ek_X ek_P_1]. rewrite dot_smul_map, fdot_comm. glin.
Qed.
Lemma dkg1_spanned : sp (fun a => dkg_g1 gens (v_run a)).
Proof.
  unfold dkg_g1, v_run. cbn [dr_pk dr_parts dr_shares dr_ek dr_cps].
  apply sp_app; [|apply sp_app].
  - apply (sp_ext vgood _ _ (fun a => concat (map (fun x => part_g1 (v_part a x)) before) ++ part_g1 (v_hpart a) ++ concat (map (fun x => part_g1 (v_part a x)) after))).
    { intros a _. rewrite map_app, concat_app. cbn [map concat]. rewrite !map_map. reflexivity. }
    rewrite Forall_forall in Hbef, Haft.
    apply sp_app; [apply (sp_concat vgood cen1 (fun x a => part_g1 (v_part a x))); intros x Hx; apply s_part; apply Hbef; exact Hx|]. apply sp_app; [apply s_hpart|].
    apply (sp_concat vgood cen1 (fun x a => part_g1 (v_part a x))); intros x Hx; apply s_part; apply Haft; exact Hx.
  - apply (sp_ext vgood _ _ (fun a => map (fun x => v_share a x) before ++ [(v_t0 a [*] v_d a) [+] dot (v_t a) (ek_X (v_ek a))] ++ map (fun x => v_share a x) after)).
    { intros a _. rewrite map_app. cbn [map app]. rewrite !map_map. reflexivity. }
    apply sp_app; [apply (sp_list vgood cen1 (fun x a => v_share a x)); intros x _; apply s_share|]. apply sp_app; [apply sp1_list, s_hshare|].
    apply (sp_list vgood cen1 (fun x a => v_share a x)); intros x _; apply s_share.
  - unfold table_g1. apply sp_app.
    + apply (sp_ext vgood _ _ (fun a => (ek_Y (v_ek' a) ++ [ek_P_1 (v_ek' a)]) ++ v_five a ++ v_queries a ++ v_gabc a ++ [v_d a] ++ ek_X (v_ek a) ++ [ek_P_2 (v_ek a)])); [intros a _; apply pub_shape'|].
      apply sp_app; [apply sp_app|exact s_rest].
      * apply (sp_ext vgood _ _ (fun a => map (fun i => nth i (ek_Y (v_ek a)) gzero [+] (nth i kt fzero [*] nth i (v_g a) gzero)) (seq 0 n))).
        -- intros a Ha. lens Ha. unfold v_ek', v_ek. cbn [ek_formula ek_Y]. rewrite (scale_as_map _ _ n) by (try apply vadd_length; try assumption; lia). apply map_ext. intros i.
           rewrite scale_nth, vadd_nth by congruence. glin.
        -- apply (sp_seq vgood cen1 (fun i a => nth i (ek_Y (v_ek a)) gzero [+] (nth i kt fzero [*] nth i (v_g a) gzero))). intros i _. apply sp1_add; [apply sp1_nth, s_Y|apply sp1_smul, s_g].
      * apply sp1_list. apply (sp1_ext vgood _ _ (fun a => ek_P_1 (v_ek a) [+] ((k0 [*] v_d a) [+] dot kt (ek_X (v_ek a))))).
        -- intros a Ha. lens Ha. unfold v_ek', v_ek. cbn [ek_formula ek_P_1 ek_X]. rewrite fdot_vadd by congruence. rewrite dot_smul_map. glin.
        -- apply sp1_add; [exact s_P1|]. apply sp1_add; [apply sp1_smul, s_d|apply sp1_dot, s_X].
    + apply (sp_ext vgood _ _ (fun a => concat (map (fun i => pair_g1 (shift_pair k0 kt (nth i (v_cps a) cp0))) (seq 0 kk)))).
      * intros a (_ & _ & _ & <- & _). f_equal. rewrite map_map. rewrite (list_as_map cp0 (v_cps a)) at 1. rewrite map_map. reflexivity.
      * apply (sp_concat vgood cen1 (fun i a => pair_g1 (shift_pair k0 kt (nth i (v_cps a) cp0)))). intros i Hi. apply in_seq in Hi. apply s_pair'. lia.
Qed.

(* the elements of G2 *)
Notation sq := (spanned vgood cen2).
Definition v_four (a : dview) : list (G2 E) := let vk := gpk_vk (pk_pk (v_pk a)) in [H; vk_beta_g2 vk; vk_gamma_g2 vk; vk_delta_g2 vk].
Lemma cen2_shape a : cen2 a = (v_four a ++ gpk_b_g2_query (pk_pk (v_pk a))) ++ ek_Z (v_ek a) ++ ([dk_V_0 (v_dk a)] ++ dk_V_1 (v_dk a) ++ dk_V_2 (v_dk a)) ++ map (fun cp => pr_b (snd cp)) (v_cps a).
Proof. unfold cen2, table_g2, public_g2, v_four. rewrite <- !app_assoc. reflexivity. Qed.
Lemma q_front : sq (fun a => v_four a ++ gpk_b_g2_query (pk_pk (v_pk a))).
Proof. eapply (sp_sub vgood _ (fun _ => []) _ (fun a => ek_Z (v_ek a) ++ ([dk_V_0 (v_dk a)] ++ dk_V_1 (v_dk a) ++ dk_V_2 (v_dk a)) ++ map (fun cp => pr_b (snd cp)) (v_cps a)) 0 (4 + M2)).
  intros a Ha. split; [apply cen2_shape|]. lens Ha. split; [reflexivity|]. rewrite app_length. unfold v_four. cbn [length]. lia. Qed.
Lemma q_H : spanned1 vgood cen2 (fun _ => H).
Proof. exact (sp1_nth vgood _ _ 0 q_front). Qed.
Lemma q_Z : sq (fun a => ek_Z (v_ek a)).
Proof. eapply (sp_sub vgood _ (fun a => v_four a ++ gpk_b_g2_query (pk_pk (v_pk a))) _ (fun a => ([dk_V_0 (v_dk a)] ++ dk_V_1 (v_dk a) ++ dk_V_2 (v_dk a)) ++ map (fun cp => pr_b (snd cp)) (v_cps a)) (4 + M2) (S n)).
  intros a Ha. split; [apply cen2_shape|]. lens Ha. split; [|assumption]. rewrite app_length. unfold v_four. cbn [length]. lia. Qed.
Lemma q_b : sq (fun a => map (fun cp => pr_b (snd cp)) (v_cps a)).
Proof. eapply (sp_sub vgood _ (fun a => (v_four a ++ gpk_b_g2_query (pk_pk (v_pk a))) ++ ek_Z (v_ek a) ++ ([dk_V_0 (v_dk a)] ++ dk_V_1 (v_dk a) ++ dk_V_2 (v_dk a))) _ (fun _ => []) (4 + M2 + S n + 1 + n + n) kk).
  intros a Ha. split; [rewrite cen2_shape, <- !app_assoc, app_nil_r; reflexivity|]. lens Ha. rewrite map_length. split; [|assumption]. rewrite !app_length. unfold v_four. cbn [length]. lia. Qed.
Lemma dkg2_spanned : sq (fun a => dkg_g2 gens (v_run a)).
Proof.
  unfold dkg_g2, v_run. cbn [dr_pk dr_parts dr_shares dr_ek dr_cps]. apply sp_app.
  - apply (sp_ext vgood _ _ (fun a => concat (map (fun x => map (fun y => y [*] H) (ts_t0 x :: ts_t x)) before) ++ ek_Z (v_ek a) ++ concat (map (fun x => map (fun y => y [*] H) (ts_t0 x :: ts_t x)) after))).
    { intros a _. rewrite map_app, concat_app. cbn [map concat]. rewrite !map_map. reflexivity. }
    assert (X : forall l : list (list F), sq (fun _ => concat (map (fun x => map (fun y => y [*] H) (ts_t0 x :: ts_t x)) l))).
    { intros l. apply (sp_concat vgood cen2 (fun x _ => map (fun y => y [*] H) (ts_t0 x :: ts_t x))). intros x _. apply (sp_list vgood cen2 (fun y _ => y [*] H)). intros y _. apply sp1_smul, q_H. }
    apply sp_app; [apply X|]. apply sp_app; [exact q_Z|apply X].
  - apply (sp_ext vgood _ _ (fun a => (v_four a ++ gpk_b_g2_query (pk_pk (v_pk a))) ++ map (fun i => nth i (ek_Z (v_ek a)) gzero [+] (nth i (k0 :: kt) fzero [*] H)) (seq 0 (S n)) ++ map (fun cp => pr_b (snd cp)) (v_cps a))).
    + intros a Ha. lens Ha. unfold v_four. rewrite <- !app_assoc. rewrite !map_map. cbn [snd shift_pair]. do 2 f_equal. f_equal.
      unfold v_ek', v_ek. cbn [ek_formula ek_Z]. change (fadd (v_t0 a) k0 :: vadd (v_t a) kt) with (vadd (v_t0 a :: v_t a) (k0 :: kt)).
      rewrite (list_as_map gzero (map (fun x => x [*] H) (vadd _ _))), map_length. rewrite (vadd_length _ _ (S n)) by (cbn [length]; lia). apply map_ext. intros i.
      rewrite !(nth_map_default (fun x => x [*] H) _ i fzero gzero) by apply smul_0_l. rewrite vadd_nth by (cbn [length]; congruence). glin.
    + apply sp_app; [exact q_front|]. apply sp_app; [|exact q_b].
      apply (sp_seq vgood cen2 (fun i a => nth i (ek_Z (v_ek a)) gzero [+] (nth i (k0 :: kt) fzero [*] H))). intros i _. apply sp1_add; [apply sp1_nth, q_Z|apply sp1_smul, q_H].
Qed.
Lemma dkg_observer O : exists O', questions O' = questions O /\ forall a, vgood a -> observe O (dkg_g1 gens (v_run a)) (dkg_g2 gens (v_run a)) = observe O' (cen1 a) (cen2 a).
Proof. exact (spanned_observer vgood cen1 (fun a => dkg_g1 gens (v_run a)) cen2 (fun a => dkg_g2 gens (v_run a)) dkg1_spanned dkg2_spanned O). Qed.
End DkgView.

Section DkgLink.
Context {E : pairing}.
Notation K := (K_of E).
Notation F := (Fr E).
Add Ring Kr : (@scalar_ring_theory K).
Notation e i env := (nth i env fzero).
Notation p := (modulus K).
Variables (n : nat) (cs : csys K) (xs : list F) (pf : profile) (domain : nat -> option (list F)) (fuel : nat) (b : Z) (gens : encryption_gens E).
Let ni := cs_num_inst cs.
Let nw := cs_num_wit cs.
Let nc := length (cs_cons cs).
Let N := length xs.
Notation G := (eg_G gens).
Notation H := (eg_H gens).
Notation B := (ark_backend pf domain fuel).
Hypothesis HG : G <> gzero.
Hypothesis HH : H <> gzero.
Hypothesis Hdom_ok : domain_ok domain.
Hypothesis Hb : supported b.
Hypothesis HbM : 2 ^ b <= modulus K.
Hypothesis Hcomp : chunk_compatible K b.
Hypothesis Hcount : chunks_count K b = Ok (Z.of_nat n).
Hypothesis Hn0 : (0 < n)%nat.
Hypothesis Hcs : generate_constraints (BitsizeCheckCircuit b (Z.of_nat n) None true) (@cs_new K Circuit.Setup) = Ok cs.
Hypothesis Hdomain : domain (nc + ni)%nat = Some xs.
Let D1 := 3 * Z.of_nat N + 9 * (3 * Z.of_nat n + 9).
Variables (before after : list (list F)).
Hypothesis Hbef : Forall (full n) before.
Hypothesis Haft : Forall (full n) after.

(* the SRS depends on five coins only *)
Lemma srs_local al be ga de ta : vanishing_at xs ta <> fzero ->
  (exists pk, length (vk_gamma_abc_g1 (gpk_vk (pk_pk pk))) = S n /\ forall x, generate_srs B (replay_rng E) (generate_constraints (BitsizeCheckCircuit b (Z.of_nat n) None true)) gens (al :: be :: ga :: de :: ta :: x) = Ok (pk, x)) \/
  (forall x r, generate_srs B (replay_rng E) (generate_constraints (BitsizeCheckCircuit b (Z.of_nat n) None true)) gens (al :: be :: ga :: de :: ta :: x) <> Ok r).
Proof.
  intros Hv. pose proof (proj1 (cs_shape n cs xs b (bits_of _ b Hb HbM) Hn0 Hcs)) as Hni. fold ni in Hni.
  assert (U : forall x, generate_srs B (replay_rng E) (generate_constraints (BitsizeCheckCircuit b (Z.of_nat n) None true)) gens (al :: be :: ga :: de :: ta :: x) =
    ('(pk, st5) <- ark_generate domain fuel (replay_rng E) (generate_constraints (BitsizeCheckCircuit b (Z.of_nat n) None true)) al be ga de G H (ta :: x) ;; Ok (ProvingKey pk (mul_bigint G (into_bigint (fneg ga))), st5))) by reflexivity.
  destruct (feq_dec ga fzero) as [Z2|Z2]; [right|destruct (feq_dec de fzero) as [Z3|Z3]; [right|destruct fuel as [|fuel'] eqn:Hfuel; [right|left]]].
  - intros x [pk st] Hs. rewrite U in Hs. apply bind_Ok_inv in Hs. destruct Hs as ([gpk s1] & Hg & _). apply (ark_generate_tape cs xs domain fuel _ _ _ _ _ _ _ _ _ _ _ Hcs Hdomain Hv) in Hg. destruct Hg as [Hg _]. contradiction.
  - intros x [pk st] Hs. rewrite U in Hs. apply bind_Ok_inv in Hs. destruct Hs as ([gpk s1] & Hg & _). apply (ark_generate_tape cs xs domain fuel _ _ _ _ _ _ _ _ _ _ _ Hcs Hdomain Hv) in Hg. destruct Hg as (_ & Hg & _). contradiction.
  - intros x r Hs. rewrite U in Hs. unfold ark_generate in Hs. rewrite Hcs in Hs. cbn [bind] in Hs. fold nc ni in Hs. rewrite Hdomain in Hs. discriminate Hs.
  - eexists. split; [|intros x; rewrite U; unfold ark_generate; rewrite Hcs; cbn [bind]; fold nc ni nw; rewrite Hdomain; cbn [domain_or_err bind sample_outside];
      change (rand_scalar (replay_rng E) (ta :: x)) with (ta, x); cbv beta iota;
      destruct (feqb (vanishing_at xs ta) fzero) eqn:Ef; [apply feqb_spec in Ef; contradiction|]; cbn [bind];
      unfold instance_map; cbv zeta; unfold inverse_or_err;
      destruct (feqb ga fzero) eqn:Eg; [apply feqb_spec in Eg; contradiction|]; cbn [bind];
      destruct (feqb de fzero) eqn:Ed; [apply feqb_spec in Ed; contradiction|]; cbn [bind]; reflexivity].
    cbn [pk_pk gpk_vk vk_gamma_abc_g1]. rewrite !map_length, firstn_length, map_length, seq_length. fold ni nw. rewrite Hni. lia.
Qed.

(* the central setup from an SRS *)
Lemma setup_from_srs al be ga de ta pk rho s t0 t v rest :
  (forall x, generate_srs B (replay_rng E) (generate_constraints (BitsizeCheckCircuit b (Z.of_nat n) None true)) gens (al :: be :: ga :: de :: ta :: x) = Ok (pk, x)) ->
  length (vk_gamma_abc_g1 (gpk_vk (pk_pk pk))) = S n -> length s = n -> length t = n -> length v = n ->
  setup_for_groth16 B (replay_rng E) b gens (al :: be :: ga :: de :: ta :: rho :: s ++ (t0 :: t) ++ v ++ rest) =
    Ok (pk, rho, ek_formula gens (skipn 1 (vk_gamma_abc_g1 (gpk_vk (pk_pk pk)))) (gpk_delta_g1 (pk_pk pk)) (pk_gamma_g1 pk) s t0 t, dk_formula gens rho s v, rest).
Proof.
  intros Hsrs Lg Ls Lt Lv. unfold setup_for_groth16, circuit_new. rewrite Hcount. cbn [bind]. rewrite Hsrs. cbn [bind].
  unfold get_gs_for_encryption, slice_from. rewrite Lg. cbn [Nat.leb bind]. rewrite (keygen_replay b gens _ _ _ n) by (try assumption; rewrite skipn_length; lia). reflexivity.
Qed.

Lemma chunk_length msg g_i d gam s t0 t pk st ct r q st' : length g_i = n -> length s = n -> length t = n -> get_gs_for_encryption (gpk_vk (pk_pk pk)) = Ok g_i ->
  encrypt_with_proof pf B (replay_rng E) msg (ek_formula gens g_i d gam s t0 t) pk b st = Ok (ct, r, q, st') -> length (ct_enc_chunks ct) = n.
Proof.
  intros Lg Ls Lt Hgs He. pose proof (n256 n cs xs b Hcount Hn0) as H256.
  destruct (ek_formula_lengths gens g_i d gam s t0 t n Ls Lt ltac:(lia)) as (A1 & A2 & A3). unfold encrypt_with_proof, encrypt in He. rewrite Hgs in He. cbn [bind] in He.
  destruct (decompose pf msg b) as [ds| |]; try discriminate He. cbn [bind] in He.
  assert (Ld : length ds = n).
  { destruct (Nat.eq_dec (length ds) n) as [Z|Z]; [exact Z|exfalso]. unfold encrypt_decomposed_message, ek_supported_chunks_count in He. rewrite A1, A2, A3, enc_supported_ok in He by exact H256.
    cbn [bind] in He. rewrite Nat2Z.id in He. destruct (Nat.eqb_spec (length ds) n); [contradiction|]. discriminate He. }
  rewrite encrypt_chunks_ok in He by lia. cbn [bind] in He. rewrite ct_of_vec_formula in He. cbn [bind] in He.
  apply bind_Ok_inv in He. destruct He as (circ & _ & He). apply bind_Ok_inv in He. destruct He as ([q0 s0] & _ & He). injection He as <- _ _ _.
  unfold ct_formula. cbn [ct_enc_chunks]. unfold body_formula. rewrite map_length, seq_length. exact Ld.
Qed.
Lemma chunks_length msgs g_i d gam s t0 t pk st cps st' : length g_i = n -> length s = n -> length t = n -> get_gs_for_encryption (gpk_vk (pk_pk pk)) = Ok g_i ->
  encrypt_all pf B (replay_rng E) msgs (ek_formula gens g_i d gam s t0 t) pk b st = Ok (cps, st') -> length cps = length msgs /\ Forall (fun cp => length (ct_enc_chunks (fst cp)) = n) cps.
Proof.
  intros Lg Ls Lt Hgs. revert st cps; induction msgs as [|m msgs IH]; intros st cps He; cbn [encrypt_all] in He.
  - injection He as <- _. split; [reflexivity|constructor].
  - apply bind_Ok_inv in He. destruct He as ([[[ct r] q] s1] & H1 & He). apply bind_Ok_inv in He. destruct He as ([cps1 s2] & H2 & He). injection He as <- <-.
    destruct (IH _ _ H2) as [I1 I2]. split; [cbn; congruence|]. constructor; [cbn [fst]; eapply chunk_length; [| | | |exact H1]; assumption|exact I2].
Qed.

(* the contributions of the corrupted parties *)
Definition party (g_i : list (G1 E)) (d gam : G1 E) (tape : list F) : secret_key_st E * ek_partial E :=
  (SecretKeyST (ts_s n tape) (ts_t0 n tape :: ts_t n tape), ekp_formula gens g_i d gam (ts_s n tape) (ts_t0 n tape) (ts_t n tape)).
Lemma tape_cut (tape : list F) : full n tape -> tape = ts_s n tape ++ (ts_t0 n tape :: ts_t n tape) ++ [] /\ length (ts_s n tape) = n /\ length (ts_t n tape) = n.
Proof.
  unfold full, ts_s, ts_t0, ts_t. intros Hf. rewrite app_nil_r, firstn_length, skipn_length. split; [|lia].
  rewrite <- (firstn_skipn n tape) at 1. f_equal. assert (X : (n < length tape)%nat) by lia. clear -X. revert n X; induction tape as [|x l IH]; intros [|n] X; cbn [length] in X; try lia; [reflexivity|].
  cbn [skipn nth Nat.add]. apply IH. lia.
Qed.
Lemma contributions_ok g_i d gam tapes : length g_i = n -> Forall (full n) tapes -> contributions b gens g_i d gam tapes = Ok (map (party g_i d gam) tapes).
Proof.
  intros Lg Hf. unfold contributions. rewrite <- mapM_map_Ok. apply mapM_ext. intros tape Hin. rewrite Forall_forall in Hf. destruct (tape_cut tape (Hf tape Hin)) as (Et & L1 & L2).
  rewrite Et at 1. rewrite (partial_replay b gens g_i d gam n) by (try assumption; lia). reflexivity.
Qed.
Definition ks := fcol_sum n (map (ts_s n) (before ++ after)).
Definition k0 := fsum (map (ts_t0 n) (before ++ after)).
Definition kt := fcol_sum n (map (ts_t n) (before ++ after)).
Lemma fcol_mid (l1 l2 : list (list F)) h : length h = n -> fcol_sum n (l1 ++ h :: l2) = vadd h (fcol_sum n (l1 ++ l2)).
Proof.
  intros Lh. rewrite (list_as_map fzero (vadd h _)). rewrite (vadd_length _ _ n Lh (fcol_sum_length _ _)). unfold fcol_sum at 1. apply map_ext_in. intros i Hi. apply in_seq in Hi.
  rewrite vadd_nth by (rewrite fcol_sum_length; exact Lh). rewrite fcol_sum_nth by lia. rewrite !map_app, !fsum_app. cbn [map]. rewrite fsum_cons. ring.
Qed.
Lemma fsum_mid (l1 l2 : list F) h : fsum (l1 ++ h :: l2) = fadd h (fsum (l1 ++ l2)).
Proof. rewrite !fsum_app, fsum_cons. ring. Qed.

(* one execution *)
Lemma dkg_run_ok msgs pk al be ga de ta sh t0 t rest cps st' :
  (forall x, generate_srs B (replay_rng E) (generate_constraints (BitsizeCheckCircuit b (Z.of_nat n) None true)) gens (al :: be :: ga :: de :: ta :: x) = Ok (pk, x)) ->
  length (vk_gamma_abc_g1 (gpk_vk (pk_pk pk))) = S n -> length sh = n -> length t = n ->
  let a dk := DView pk sh t0 t dk cps in
  encrypt_all pf B (replay_rng E) msgs (ek_formula gens (skipn 1 (vk_gamma_abc_g1 (gpk_vk (pk_pk pk)))) (gpk_delta_g1 (pk_pk pk)) (pk_gamma_g1 pk) (vadd sh ks) t0 t) pk b rest = Ok (cps, st') ->
  forall dk, dkg_execution pf B gens b before after msgs (al :: be :: ga :: de :: ta :: sh ++ (t0 :: t) ++ rest) = Ok (v_run n gens ks k0 kt before after (a dk)).
Proof.
  intros Hsrs Lg Ls Lt a Henc dk. unfold dkg_execution, circuit_new. rewrite Hcount. cbn [bind]. rewrite Hsrs. cbn [bind].
  unfold get_gs_for_encryption at 1, slice_from at 1. rewrite Lg. cbn [Nat.leb bind]. set (g_i := skipn 1 (vk_gamma_abc_g1 (gpk_vk (pk_pk pk)))) in *.
  set (d := gpk_delta_g1 (pk_pk pk)) in *. set (c := pk_gamma_g1 pk) in *. assert (Lgi : length g_i = n) by (unfold g_i; rewrite skipn_length; lia).
  assert (Hgs : get_gs_for_encryption (gpk_vk (pk_pk pk)) = Ok g_i) by (unfold get_gs_for_encryption, slice_from; rewrite Lg; reflexivity).
  cbv zeta. rewrite (contributions_ok g_i d c before Lgi Hbef). cbn [bind]. rewrite (partial_replay b gens g_i d c n sh t0 t rest Hcount) by (try assumption; lia). cbn [bind].
  rewrite (contributions_ok g_i d c after Lgi Haft). cbn [bind].
  set (hon := (SecretKeyST sh (t0 :: t), ekp_formula gens g_i d c sh t0 t)). set (parties := map (party g_i d c) before ++ hon :: map (party g_i d c) after).
  assert (Fp : Forall (from_partial b gens g_i d c) parties).
  { assert (X : forall l, Forall (full n) l -> Forall (from_partial b gens g_i d c) (map (party g_i d c) l)).
    { intros l Hl. rewrite Forall_forall in Hl |- *. intros q Hq. apply in_map_iff in Hq. destruct Hq as (tape & <- & Hin). destruct (tape_cut tape (Hl tape Hin)) as (Et & L1 & L2).
      exists (replay_rng E), tape, []. rewrite Et at 1. rewrite (partial_replay b gens g_i d c n) by (try assumption; lia). reflexivity. }
    apply Forall_app. split; [apply X; exact Hbef|]. constructor; [|apply X; exact Haft].
    exists (replay_rng E), (sh ++ (t0 :: t) ++ []), []. rewrite (partial_replay b gens g_i d c n) by (try assumption; lia). reflexivity. }
  assert (Hne : parties <> []) by (unfold parties; destruct before; discriminate).
  pose proof (dkg_formula b gens g_i d c parties n Hcount Hne Fp) as Hdkg.
  assert (E1 : fcol_sum n (map party_s parties) = vadd sh ks).
  { unfold parties. rewrite map_app. cbn [map]. rewrite !map_map. unfold party_s at 2. cbn [hon fst st_s]. rewrite (fcol_mid _ _ sh Ls). unfold ks. rewrite map_app. reflexivity. }
  assert (E2 : fsum (map party_t0 parties) = fadd t0 k0).
  { unfold parties. rewrite map_app. cbn [map]. rewrite !map_map. unfold party_t0 at 2. cbn [hon fst st_t nth]. rewrite fsum_mid. unfold k0. rewrite map_app. reflexivity. }
  assert (E3 : fcol_sum n (map party_t parties) = vadd t kt).
  { unfold parties. rewrite map_app. cbn [map]. rewrite !map_map. unfold party_t at 2. cbn [hon fst st_t tl]. rewrite (fcol_mid _ _ t Lt). unfold kt. rewrite map_app. reflexivity. }
  rewrite E1, E2, E3 in Hdkg. unfold dkg in Hdkg. apply bind_Ok_inv in Hdkg. destruct Hdkg as (com & Hcom & Hdkg). rewrite Hcom. cbn [bind].
  apply bind_Ok_inv in Hdkg. destruct Hdkg as (shares & Hsh & Hdkg). rewrite Hsh. cbn [bind]. apply bind_Ok_inv in Hdkg. destruct Hdkg as (p1 & Hp1 & Hdkg). rewrite Hp1. cbn [bind].
  assert (Hfin : keygenFinal com p1 = ek_formula gens g_i d c (vadd sh ks) (fadd t0 k0) (vadd t kt)) by congruence. rewrite Hfin.
  pose proof (n256 n cs xs b Hcount Hn0) as H256. assert (Lks : length ks = n) by apply fcol_sum_length. assert (Lkt : length kt = n) by apply fcol_sum_length. 
  rewrite (encrypt_all_shift pf B n gens g_i d c (vadd sh ks) t0 t k0 kt msgs pk b rest cps st' Lgi (vadd_length _ _ _ Ls Lks) Lt Lkt H256 Hgs Henc). cbn [bind].
  assert (X0 : ekp_X_0 com = d) by (apply (f_equal ek_X_0) in Hfin; exact Hfin).
  assert (XX : ekp_X com = map (fun x => x [*] d) (vadd sh ks)) by (apply (f_equal ek_X) in Hfin; exact Hfin).
  assert (Hshares : mapM (fun party => genP1share com (fst party)) parties =
    Ok (map (fun x => P1share (v_share n gens ks (a dk) x)) before ++ P1share ((t0 [*] d) [+] dot t (ek_X (v_ek gens ks (a dk)))) :: map (fun x => P1share (v_share n gens ks (a dk) x)) after)).
  { assert (Y : forall l, Forall (full n) l -> mapM (fun party => genP1share com (fst party)) (map (party g_i d c) l) = Ok (map (fun x => P1share (v_share n gens ks (a dk) x)) l)).
    { intros l Hl. rewrite Forall_forall in Hl. induction l as [|tape l IH]; [reflexivity|]. cbn [map mapM]. destruct (tape_cut tape (Hl tape (or_introl eq_refl))) as (_ & L1 & L2).
      rewrite (genP1share_ok com _ (ts_t0 n tape) (ts_t n tape)) by (try reflexivity; rewrite XX, map_length, (vadd_length _ _ n Ls Lks); lia). cbn [bind].
      rewrite IH by (intros x Hx; apply Hl; right; exact Hx). cbn [bind]. rewrite X0, XX. reflexivity. }
    unfold parties. rewrite mapM_app, (Y before Hbef). cbn [bind mapM]. rewrite (genP1share_ok com (fst hon) t0 t) by (try reflexivity; rewrite XX, map_length, (vadd_length _ _ n Ls Lks); lia). cbn [bind].
    rewrite (Y after Haft). cbn [bind]. rewrite X0, XX. reflexivity. }
  rewrite Hsh in Hshares. injection Hshares as ->. unfold v_run. f_equal. f_equal. unfold parties. rewrite map_app. cbn [map]. rewrite !map_map. reflexivity.
Qed.

(* the observer of a distributed key generation is an observer of a central one *)
Lemma dkg_single k O : exists O', questions O' = questions O /\ forall al be ga de ta rho sh t0 t v rest msgs, length msgs = k -> vanishing_at xs ta <> fzero ->
    length sh = n -> length t = n -> length v = n -> length rest = (3 * k)%nat ->
    experiment_dkg pf B gens b before after O msgs (al :: be :: ga :: de :: ta :: sh ++ (t0 :: t) ++ rest) =
    experiment_many pf B gens b O' msgs (al :: be :: ga :: de :: ta :: rho :: vadd sh ks ++ (t0 :: t) ++ v ++ rest).
Proof.
  assert (Lks : length ks = n) by apply fcol_sum_length. assert (Lkt : length kt = n) by apply fcol_sum_length. 
  destruct (dkg_observer n k (ni + nw + (ni + nw) + (N - 1) + nw) (ni + nw) gens ks k0 kt before after Lks Lkt Hbef Haft O) as (O' & Q & HO). exists O'. split; [exact Q|].
  intros al be ga de ta rho sh t0 t v rest msgs Lm Hv Ls Lt Lv Lr. unfold experiment_many.
  pose proof (vadd_length sh ks n Ls Lks) as Lsk. pose proof (proj1 (cs_shape n cs xs b (bits_of _ b Hb HbM) Hn0 Hcs)) as Hni. fold ni in Hni.
  destruct (srs_local al be ga de ta Hv) as [(pk & Lg & Hsrs)|Hfail].
  - rewrite (setup_from_srs al be ga de ta pk rho (vadd sh ks) t0 t v rest Hsrs Lg Lsk Lt Lv). set (g_i := skipn 1 (vk_gamma_abc_g1 (gpk_vk (pk_pk pk)))).
    assert (Lgi : length g_i = n) by (unfold g_i; rewrite skipn_length; lia).
    assert (Hgs : get_gs_for_encryption (gpk_vk (pk_pk pk)) = Ok g_i) by (unfold get_gs_for_encryption, slice_from; rewrite Lg; reflexivity).
    set (ek := ek_formula gens g_i (gpk_delta_g1 (pk_pk pk)) (pk_gamma_g1 pk) (vadd sh ks) t0 t). set (dk := dk_formula gens rho (vadd sh ks) v).
    pose proof (setup_from_srs al be ga de ta pk rho (vadd sh ks) t0 t v [] Hsrs Lg Lsk Lt Lv) as Hset. fold g_i ek dk in Hset.
    assert (Lc0 : length (al :: be :: ga :: de :: ta :: rho :: vadd sh ks ++ (t0 :: t) ++ v ++ []) = (3 * n + 7)%nat) by (cbn [length]; rewrite ?app_length; cbn [length]; rewrite ?app_length; cbn [length]; lia).
    assert (Hg : good_setup n xs pf domain fuel b gens pk ek dk) by (exists (al :: be :: ga :: de :: ta :: rho :: vadd sh ks ++ (t0 :: t) ++ v ++ []), rho; split; [exact Lc0|]; split; [exact Hv|exact Hset]).
    destruct (enc_all_forged n cs xs pf domain fuel b gens Hdom_ok Hb HbM Hcomp Hcount Hn0 Hcs Hdomain msgs rest ltac:(lia)) as (Ss & _ & HS).
    pose proof (HS pk ek dk [] Hg) as Henc. rewrite app_nil_r in Henc. rewrite Henc.
    set (cps := map (forged gens pk ek dk) Ss) in *.
    unfold experiment_dkg. rewrite (dkg_run_ok msgs pk al be ga de ta sh t0 t rest cps [] Hsrs Lg Ls Lt Henc dk).
    destruct (chunks_length msgs g_i (gpk_delta_g1 (pk_pk pk)) (pk_gamma_g1 pk) (vadd sh ks) t0 t pk rest cps [] Lgi Lsk Lt Hgs Henc) as [C1 C2].
    pose proof (setup_shape n cs xs pf domain fuel b gens (bits_of _ b Hb HbM) Hcount Hn0 Hcs Hdomain _ pk rho ek dk [] Lc0 Hv Hset) as (_ & _ & S3 & S4 & S5 & S6 & S7 & _).
    rewrite (HO (DView pk sh t0 t dk cps)); [reflexivity|]. unfold vgood. cbn [v_sh v_t v_cps v_pk v_dk]. unfold v_gabc, v_queries. cbn [v_pk].
    fold ni nw N in S3, S4, S5, S6, S7. repeat split; try assumption; try congruence.
    + rewrite !app_length, S3, S4, S6, S7. lia.
    + unfold dk, dk_formula. cbn [dk_V_1]. rewrite map_length, combine_length. lia.
    + unfold dk, dk_formula. cbn [dk_V_2]. rewrite map_length. exact Lv.
  - unfold experiment_dkg, dkg_execution, setup_for_groth16, circuit_new. rewrite Hcount. cbn [bind].
    pose proof (Hfail (sh ++ (t0 :: t) ++ rest)) as F1. pose proof (Hfail (rho :: vadd sh ks ++ (t0 :: t) ++ v ++ rest)) as F2. clear Hfail.
    destruct (generate_srs _ _ _ _ _) as [r1| |] in F1 |- *; [destruct (F1 _ eq_refl)| |];
    (destruct (generate_srs _ _ _ _ _) as [r2| |] in F2 |- *; [destruct (F2 _ eq_refl)|reflexivity|reflexivity]).
Qed.

(* counting *)
Lemma parts_eq {A} (x x' y y' : list A) : length x = length x' -> x ++ y = x' ++ y' -> x = x' /\ y = y'.
Proof.
  revert x'; induction x as [|a x IH]; intros [|a' x'] Hl Z; try discriminate; [split; [reflexivity|exact Z]|]. cbn [app] in Z. injection Z as -> Z.
  destruct (IH x') as [-> ->]; [cbn in Hl; congruence|exact Z|split; reflexivity].
Qed.
Definition central (d w : list F) : list F :=
  firstn 5 d ++ e 0 w :: vadd (firstn n (skipn 5 d)) ks ++ firstn (S n) (skipn (5 + n) d) ++ tl w ++ skipn (2 * n + 6) d.
Lemma nodup_map_in {X Y} (f : X -> Y) (l : list X) : (forall x y, In x l -> In y l -> f x = f y -> x = y) -> NoDup l -> NoDup (map f l).
Proof.
  intros Hi Hn. induction Hn as [|x l Hx Hn IH]; cbn [map]; constructor.
  - intros Z. apply in_map_iff in Z. destruct Z as (y & Ey & Hy). apply Hx. rewrite <- (Hi y x (or_intror Hy) (or_introl eq_refl) Ey). exact Hy.
  - apply IH. intros a c Ha Hc. apply Hi; right; assumption.
Qed.
Lemma central_split k d w : length d = (2 * n + 6 + 3 * k)%nat -> length w = S n -> exists al be ga de ta sh t0 t rest rho v,
  d = al :: be :: ga :: de :: ta :: sh ++ (t0 :: t) ++ rest /\ w = rho :: v /\ length sh = n /\ length t = n /\ length v = n /\ length rest = (3 * k)%nat /\
  central d w = al :: be :: ga :: de :: ta :: rho :: vadd sh ks ++ (t0 :: t) ++ v ++ rest.
Proof.
  intros Ld Lw. destruct w as [|rho v]; [discriminate|]. destruct d as [|al [|be [|ga [|de [|ta d]]]]]; cbn [length] in Ld; try lia.
  assert (Lx : length (skipn n d) = (S n + 3 * k)%nat) by (rewrite skipn_length; lia).
  destruct (skipn n d) as [|t0 d'] eqn:E1; [discriminate|]. cbn [length] in Lx.
  exists al, be, ga, de, ta, (firstn n d), t0, (firstn n d'), (skipn n d'), rho, v.
  assert (Ed : d = firstn n d ++ (t0 :: firstn n d') ++ skipn n d').
  { rewrite <- (firstn_skipn n d) at 1. f_equal. rewrite E1. cbn [app]. f_equal. symmetry. apply firstn_skipn. }
  split; [do 5 f_equal; exact Ed|]. split; [reflexivity|]. split; [rewrite firstn_length; lia|]. split; [rewrite firstn_length; lia|]. split; [cbn in Lw; lia|]. split; [rewrite skipn_length; lia|].
  unfold central. change (firstn 5 (al :: be :: ga :: de :: ta :: d)) with [al; be; ga; de; ta]. change (skipn 5 (al :: be :: ga :: de :: ta :: d)) with d.
  change (skipn (5 + n) (al :: be :: ga :: de :: ta :: d)) with (skipn n d). rewrite E1. cbn [firstn nth tl app].
  replace (skipn (2 * n + 6) (al :: be :: ga :: de :: ta :: d)) with (skipn n d'); [reflexivity|].
  replace (2 * n + 6)%nat with (5 + (n + S n))%nat by lia. change (skipn (5 + (n + S n)) (al :: be :: ga :: de :: ta :: d)) with (skipn (n + S n) d). rewrite <- skipn_plus, E1. reflexivity.
Qed.
Lemma central_inj k d d' w w' : length d = (2 * n + 6 + 3 * k)%nat -> length d' = (2 * n + 6 + 3 * k)%nat -> length w = S n -> length w' = S n -> central d w = central d' w' -> (d, w) = (d', w').
Proof.
  intros Ld Ld' Lw Lw' Hc. assert (Lks : length ks = n) by apply fcol_sum_length.
  destruct (central_split k d w Ld Lw) as (al & be & ga & de & ta & sh & t0 & t & rest & rho & v & Ed & Ew & L1 & L2 & L3 & L4 & Ec).
  destruct (central_split k d' w' Ld' Lw') as (al' & be' & ga' & de' & ta' & sh' & t0' & t' & rest' & rho' & v' & Ed' & Ew' & L1' & L2' & L3' & L4' & Ec').
  rewrite Ec, Ec' in Hc. clear Ec Ec'.
  change ([al; be; ga; de; ta; rho] ++ vadd sh ks ++ (t0 :: t) ++ v ++ rest = [al'; be'; ga'; de'; ta'; rho'] ++ vadd sh' ks ++ (t0' :: t') ++ v' ++ rest') in Hc.
  apply parts_eq in Hc; [|reflexivity]. destruct Hc as [H1 Hc]. apply parts_eq in Hc; [|rewrite !(vadd_length _ _ n) by assumption; reflexivity]. destruct Hc as [H2 Hc].
  apply parts_eq in Hc; [|cbn [length]; congruence]. destruct Hc as [H3 Hc]. apply parts_eq in Hc; [|congruence]. destruct Hc as [-> ->].
  apply (vadd_inj _ _ _ n L1 L1' Lks) in H2.
  assert (X : [al; be; ga; de; ta] = [al'; be'; ga'; de'; ta'] /\ [rho] = [rho']) by (apply parts_eq; [reflexivity|exact H1]).
  destruct X as [X1 X2]. assert (R : rho = rho') by congruence.
  rewrite Ed, Ed', Ew, Ew', R, H2. f_equal. change ([al; be; ga; de; ta] ++ sh' ++ (t0 :: t) ++ rest' = [al'; be'; ga'; de'; ta'] ++ sh' ++ (t0' :: t') ++ rest'). rewrite X1, H3. reflexivity.
Qed.

(* two executions that an observer of the central setup can imitate differ rarely *)
Lemma central_bound k msgs msgs' O' (X X' : list F -> bool) (L : list (list F)) : length msgs = k -> length msgs' = k -> NoDup L ->
  (forall al be ga de ta rho sh t0 t v rest, vanishing_at xs ta <> fzero -> length sh = n -> length t = n -> length v = n -> length rest = (3 * k)%nat ->
     X (al :: be :: ga :: de :: ta :: sh ++ (t0 :: t) ++ rest) = experiment_many pf B gens b O' msgs (al :: be :: ga :: de :: ta :: rho :: vadd sh ks ++ (t0 :: t) ++ v ++ rest)) ->
  (forall al be ga de ta rho sh t0 t v rest, vanishing_at xs ta <> fzero -> length sh = n -> length t = n -> length v = n -> length rest = (3 * k)%nat ->
     X' (al :: be :: ga :: de :: ta :: sh ++ (t0 :: t) ++ rest) = experiment_many pf B gens b O' msgs' (al :: be :: ga :: de :: ta :: rho :: vadd sh ks ++ (t0 :: t) ++ v ++ rest)) ->
  (forall d, In d L -> length d = (2 * n + 6 + 3 * k)%nat /\ vanishing_at xs (e 4 d) <> fzero /\ X d <> X' d) ->
  Z.of_nat (length L) * p <= (2 * Z.of_nat (questions O') * Z.of_nat k * D1) * p ^ Z.of_nat (2 * n + 6 + 3 * k).
Proof.
  intros Lm Lm' Hnd HX HX' HL. pose proof (@modulus_gt1 K) as Hp. destruct (@all_tuples_exist K (S n)) as (T & T1 & T2). pose proof (all_tuples_count _ T T1 T2) as CT.
  pose proof (many_bound_good n cs xs pf domain fuel b gens HG HH Hdom_ok Hb HbM Hcomp Hcount Hn0 Hcs Hdomain msgs msgs' O' (map (fun dw => central (fst dw) (snd dw)) (list_prod L T)) ltac:(congruence)) as MB.
  rewrite map_length, prod_length, Nat2Z.inj_mul, CT, Lm in MB.
  assert (Pn : 0 < p ^ Z.of_nat (S n)) by (apply Z.pow_pos_nonneg; lia).
  apply (Z.mul_le_mono_pos_r _ _ _ Pn).
  replace ((2 * Z.of_nat (questions O') * Z.of_nat k * D1) * p ^ Z.of_nat (2 * n + 6 + 3 * k) * p ^ Z.of_nat (S n)) with ((2 * Z.of_nat (questions O') * Z.of_nat k * D1) * p ^ Z.of_nat (3 * n + 7 + 3 * k)).
  2: { replace (Z.of_nat (3 * n + 7 + 3 * k)) with (Z.of_nat (2 * n + 6 + 3 * k) + Z.of_nat (S n)) by lia. rewrite Z.pow_add_r by lia. ring. }
  replace (Z.of_nat (length L) * p * p ^ Z.of_nat (S n)) with (Z.of_nat (length L) * p ^ Z.of_nat (S n) * p) by ring.
  apply MB.
  - apply nodup_map_in; [|apply nodup_prod; assumption]. intros [d w] [d' w'] H1 H2. apply in_prod_iff in H1, H2. destruct H1 as [H1 W1], H2 as [H2 W2]. cbn [fst snd].
    apply (central_inj k); [apply HL; exact H1|apply HL; exact H2|apply T2; exact W1|apply T2; exact W2].
  - intros c Hc. apply in_map_iff in Hc. destruct Hc as ([d w] & <- & Hc). apply in_prod_iff in Hc. destruct Hc as [Hd Hw]. cbn [fst snd]. apply T2 in Hw. destruct (HL d Hd) as (Ld & Hv & Hne).
    destruct (central_split k d w Ld Hw) as (al & be & ga & de & ta & sh & t0 & t & rest & rho & v & Ed & Ew & L1 & L2 & L3 & L4 & Ec). rewrite Ec.
    assert (Hv' : vanishing_at xs ta <> fzero) by (rewrite Ed in Hv; exact Hv). assert (Lks : length ks = n) by apply fcol_sum_length.
    split; [cbn [length]; rewrite !app_length, (vadd_length _ _ n L1 Lks); cbn [length]; rewrite ?app_length; lia|]. split; [exact Hv'|].
    rewrite <- (HX al be ga de ta rho sh t0 t v rest Hv' L1 L2 L3 L4), <- (HX' al be ga de ta rho sh t0 t v rest Hv' L1 L2 L3 L4). rewrite <- Ed. exact Hne.
Qed.
Lemma dkg_bound_good k msgs msgs' O (L : list (list F)) : length msgs = k -> length msgs' = k -> NoDup L ->
  (forall d, In d L -> length d = (2 * n + 6 + 3 * k)%nat /\ vanishing_at xs (e 4 d) <> fzero /\
     experiment_dkg pf B gens b before after O msgs d <> experiment_dkg pf B gens b before after O msgs' d) ->
  Z.of_nat (length L) * p <= (2 * Z.of_nat (questions O) * Z.of_nat k * D1) * p ^ Z.of_nat (2 * n + 6 + 3 * k).
Proof.
  intros Lm Lm' Hnd HL. destruct (dkg_single k O) as (O' & Q & HO). rewrite <- Q.
  apply (central_bound k msgs msgs' O' (experiment_dkg pf B gens b before after O msgs) (experiment_dkg pf B gens b before after O msgs') L Lm Lm' Hnd); [| |exact HL];
    intros al be ga de ta rho sh t0 t v rest Hv L1 L2 L3 L4; apply HO; assumption.
Qed.
Lemma dkg_bound k msgs msgs' O (L : list (list F)) : length msgs = k -> length msgs' = k -> NoDup L ->
  (forall d, In d L -> length d = (2 * n + 6 + 3 * k)%nat /\ experiment_dkg pf B gens b before after O msgs d <> experiment_dkg pf B gens b before after O msgs' d) ->
  Z.of_nat (length L) * p <= (Z.of_nat N + 2 * Z.of_nat (questions O) * Z.of_nat k * D1) * p ^ Z.of_nat (2 * n + 6 + 3 * k).
Proof.
  intros Lm Lm' Hnd HL. apply (split_tau n cs xs b HbM Hn0); [lia|exact Hnd|intros c Hc; apply HL; exact Hc|]. intros L' Hnd' HL'. apply (dkg_bound_good k msgs msgs'); [exact Lm|exact Lm'|exact Hnd'|].
  intros c Hc. destruct (HL' c Hc) as [Hi Hv]. destruct (HL c Hi) as [Lc Hne]. split; [exact Lc|]. split; assumption.
Qed.
End DkgLink.
