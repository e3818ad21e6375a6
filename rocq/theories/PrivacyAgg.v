(* PrivacyAgg.v -- re-encryption shares of sums of ciphertexts are fixed combinations of what is public anyway (for C72) *)
From Verif Require Import Base BaseFacts Algebra Utils UtilsFacts Setup Keygen Encryption Circuit CircuitFacts CircuitSat CommitmentFacts VecFacts KeySpec KeygenFacts
  EncryptFacts DecryptFacts Spec VerifyFacts Protocol ReencFacts DistFacts PropVerify Groth16 ArkGroth16 PolyFacts Groth16Spec ArkFacts Groth16Facts SchwartzZippel SoundCore SoundSpec
  SoundAlg SoundGame SoundLink SoundFacts SoundCount SoundHonest PropGroth16 PropSoundCases PropZK PrivacySpec PrivacyAlg PrivacyGame PrivacyLink PrivacyCount PrivacySpan PrivacyMany
  PrivacyDkgSpec PrivacyDkg PrivacyAggSpec.

Section SpanOne.
Context {E : pairing}.
Notation K := (K_of E).
Notation F := (Fr E).
Context {A : Type} {G : group K}.
Lemma sp_weaken (good good' : A -> Prop) (Ps L : A -> list G) : (forall a, good' a -> good a) -> spanned good Ps L -> spanned good' Ps L.
Proof. intros H (rows & HR). exists rows. intros a Ha. apply HR, H, Ha. Qed.
Lemma sp1_weaken (good good' : A -> Prop) (Ps : A -> list G) (L : A -> G) : (forall a, good' a -> good a) -> spanned1 good Ps L -> spanned1 good' Ps L.
Proof. intros H (rows & HR). exists rows. intros a Ha. apply HR, H, Ha. Qed.
Lemma sp1_gsum {B} (good : A -> Prop) (Ps : A -> list G) (P : B -> A -> G) (l : list B) : (forall x, In x l -> spanned1 good Ps (P x)) -> spanned1 good Ps (fun a => gsum (map (fun x => P x a) l)).
Proof.
  intros H. induction l as [|x l IH]; cbn [map]; [apply sp1_zero|]. apply (sp1_ext good Ps _ (fun a => P x a [+] gsum (map (fun x => P x a) l))); [intros a _; apply gsum_cons|].
  apply sp1_add; [apply H; left; reflexivity|]. apply IH. intros y Hy. apply H. right. exact Hy.
Qed.
End SpanOne.

Section AggView.
Context {E : pairing}.
Notation K := (K_of E).
Notation F := (Fr E).
Add Ring Kr : (@scalar_ring_theory K).
Variables (n kk Mq M2 : nat) (gens : encryption_gens E) (ks : list F) (k0 : F) (kt : list F) (before after : list (list F)).
Notation H := (eg_H gens).
Hypothesis Lks : length ks = n.
Hypothesis Lkt : length kt = n.
Hypothesis Hbef : Forall (full n) before.
Hypothesis Haft : Forall (full n) after.
Hypothesis Hn : (n < 256)%nat.
Variables (sels : list nat -> Prop) (sum : list nat -> list Z).
Hypothesis Hsels : forall sel, sels sel -> Forall (fun i => (i < kk)%nat) sel.

Definition mr0 : list Z * F := ([], fzero).
Definition agood (a : dview) : Prop := vgood n kk Mq M2 a /\ exists mrs : list (list Z * F),
  length mrs = kk /\ Forall (fun mr => length (fst mr) = n) mrs /\
  map fst (map (shift_pair k0 kt) (v_cps a)) = map (fun mr => ct_formula (v_ek' gens ks k0 kt a) (v_g a) (fst mr) (snd mr)) mrs /\
  forall sel, sels sel -> chunk_sum n (map (fun i => fst (nth i mrs mr0)) sel) = sum sel.
Notation run a := (v_run n gens ks k0 kt before after a).
Notation cen := (cen1 gens ks).
Notation sp1 := (spanned1 agood cen).
Notation sp := (spanned agood cen).
Lemma agood_vgood a : agood a -> vgood n kk Mq M2 a. Proof. intros [Ha _]. exact Ha. Qed.

(* parties by tape, the honest one by None *)
Definition who : list (option (list F)) := map Some before ++ None :: map Some after.
Definition sk_of (a : dview) (x : option (list F)) : secret_key_st E :=
  match x with Some tape => SecretKeyST (ts_s n tape) (ts_t0 n tape :: ts_t n tape) | None => SecretKeyST (v_sh a) (v_t0 a :: v_t a) end.
Definition a_c0 (sel : list nat) (a : dview) : G1 E := gsum (map (fun i => ct_X_r (fst (nth i (v_cps a) cp0))) sel).
Definition a_c (sel : list nat) (j : nat) (a : dview) : G1 E := gsum (map (fun i => nth j (ct_enc_chunks (fst (nth i (v_cps a) cp0))) gzero) sel).
(* minus the party's secret times c_0 *)
Definition a_open (sel : list nat) (x : option (list F)) (j : nat) (a : dview) : G1 E :=
  match x with
  | Some tape => fneg (nth j (ts_s n tape) fzero) [*] a_c0 sel a
  | None => ((nth j ks fzero [*] a_c0 sel a) [+] (of_Z (nth j (sum sel) 0) [*] nth j (v_g a) gzero)) [+] (fneg fone [*] a_c sel j a)
  end.
Definition a_new (V : dview -> list (G1 E)) (rq : request E) (a : dview) : list (G1 E) :=
  dot (rq_dest rq) (V a) :: concat (map (fun xr => map (fun j => a_open (rq_select rq) (fst xr) j a [+] (snd xr [*] dot (rq_dest rq) (V a))) (seq 0 n) ++ [snd xr [*] eg_G gens])
    (combine who (rq_rhos rq))).

Lemma s_ctX i : (i < kk)%nat -> sp1 (fun a => ct_X_r (fst (nth i (v_cps a) cp0))).
Proof. intros Hi. apply (sp1_weaken _ _ _ _ agood_vgood). exact (sp1_nth _ _ _ 0 (s_pair n kk Mq M2 gens ks kt Lks Lkt i Hi)). Qed.
Lemma s_ctc i j : (i < kk)%nat -> (j < n)%nat -> sp1 (fun a => nth j (ct_enc_chunks (fst (nth i (v_cps a) cp0))) gzero).
Proof.
  intros Hi Hj. apply (sp1_weaken _ _ _ _ agood_vgood). apply (sp1_ext _ _ _ (fun a => nth (S j) (pair_g1 (nth i (v_cps a) cp0)) gzero)).
  - intros a (_ & _ & _ & L4 & L5 & _). unfold pair_g1. cbn [app nth]. symmetry. apply app_nth1. rewrite Forall_forall in L5. rewrite (L5 (nth i (v_cps a) cp0)) by (apply nth_In; lia). exact Hj.
  - apply sp1_nth, (s_pair n kk Mq M2 gens ks kt Lks Lkt i Hi).
Qed.
Lemma s_c0 sel : sels sel -> sp1 (a_c0 sel).
Proof. intros Hs. pose proof (Hsels sel Hs) as Hi. rewrite Forall_forall in Hi. apply (sp1_gsum agood cen (fun i a => ct_X_r (fst (nth i (v_cps a) cp0)))). intros i Hin. apply s_ctX, Hi, Hin. Qed.
Lemma s_cj sel j : sels sel -> (j < n)%nat -> sp1 (a_c sel j).
Proof. intros Hs Hj. pose proof (Hsels sel Hs) as Hi. rewrite Forall_forall in Hi. apply (sp1_gsum agood cen (fun i a => nth j (ct_enc_chunks (fst (nth i (v_cps a) cp0))) gzero)). intros i Hin. apply s_ctc; [apply Hi, Hin|exact Hj]. Qed.
Lemma s_open sel x j : sels sel -> (j < n)%nat -> sp1 (a_open sel x j).
Proof.
  intros Hs Hj. destruct x as [tape|]; cbn [a_open].
  - apply sp1_smul, s_c0, Hs.
  - apply sp1_add; [apply sp1_add|]; [apply sp1_smul, s_c0, Hs| |apply sp1_smul, s_cj; assumption].
    apply sp1_smul, (sp1_weaken _ _ _ _ agood_vgood), (s_g n kk Mq M2 gens ks kt Lks Lkt).
Qed.
Lemma s_new V rq : sels (rq_select rq) -> sp V -> sp (a_new V rq).
Proof.
  intros Hs HV. unfold a_new. assert (Hd : sp1 (fun a => dot (rq_dest rq) (V a))) by (apply sp1_dot; exact HV).
  apply (sp_app agood cen (fun a => [dot (rq_dest rq) (V a)])); [apply sp1_list; exact Hd|].
  apply (sp_concat agood cen (fun xr a => map (fun j => a_open (rq_select rq) (fst xr) j a [+] (snd xr [*] dot (rq_dest rq) (V a))) (seq 0 n) ++ [snd xr [*] eg_G gens])).
  intros [x rho] _. cbn [fst snd]. apply sp_app.
  - apply (sp_seq agood cen (fun j a => a_open (rq_select rq) x j a [+] (rho [*] dot (rq_dest rq) (V a)))). intros j Hj. apply sp1_add; [apply s_open; assumption|apply sp1_smul; exact Hd].
  - apply sp1_list, sp1_smul, (sp1_weaken _ _ _ _ agood_vgood). exact (sp1_nth _ _ _ 0 (s_five n kk Mq M2 gens ks kt Lks Lkt)).
Qed.

(* one share *)
Lemma share_replay (c_0 : G1 E) c pkd sk rho : (length c <= length (st_s sk))%nat ->
  re_encrypt_share (replay_rng E) gens c_0 c (FEncryptionKeyDest pkd) sk [rho] =
  Ok (map (fun i => (fneg (nth i (st_s sk) fzero) [*] c_0) [+] (rho [*] pkd)) (seq 0 (length c)), rho [*] eg_G gens, []).
Proof.
  intros Hl. unfold re_encrypt_share. change (rand_scalar (replay_rng E) [rho]) with (rho, @nil F). cbv zeta beta iota. cbn [ekd_pk].
  rewrite (mapM_ext _ (fun i => Ok ((fneg (nth i (st_s sk) fzero) [*] c_0) [+] (rho [*] pkd)))).
  - rewrite mapM_map_Ok. reflexivity.
  - intros i Hi. apply in_seq in Hi. rewrite (idx_nth (st_s sk) i fzero) by lia. reflexivity.
Qed.
Lemma mapM_map_pre {A B C} (g : A -> B) (f : B -> outcome C) l : mapM f (map g l) = mapM (fun x => f (g x)) l.
Proof. induction l as [|x l IH]; cbn [map mapM]; [reflexivity|]. rewrite IH. reflexivity. Qed.
Lemma mapM_idx_nth {A} (l : list A) d sel : Forall (fun i => (i < length l)%nat) sel -> mapM (idx l) sel = Ok (map (fun i => nth i l d) sel).
Proof. intros Hs. rewrite Forall_forall in Hs. rewrite <- mapM_map_Ok. apply mapM_ext. intros i Hi. apply idx_nth, Hs, Hi. Qed.

Lemma serve_ok a V rq : agood a -> sels (rq_select rq) -> rq_select rq <> [] ->
  serve gens (map (sk_of a) who) (dr_cps (run a)) (V a) rq = Ok (a_new V rq a).
Proof.
  intros (Hv & mrs & Lm & Fm & Hcts & Hsum) Hs Hne. set (sel := rq_select rq) in *. pose proof (Hsels sel Hs) as Hi. pose proof (Hsum sel Hs) as Hsm.
  pose proof (vlen n kk Mq M2 gens ks kt Lks Lkt a Hv) as (Lg & Lsk & LX & LY & LZ). pose proof Hv as (Lsh & Lt & Lga & Lk & Lch & _).
  set (ek := v_ek' gens ks k0 kt a) in *. set (g := v_g a) in *. set (cps' := map (shift_pair k0 kt) (v_cps a)) in *.
  assert (Lk' : length cps' = kk) by (unfold cps'; rewrite map_length; exact Lk).
  assert (Lvt : length (vadd (v_t a) kt) = n) by (apply vadd_length; assumption).
  destruct (ek_formula_lengths gens g (v_d a) (v_c a) (vadd (v_sh a) ks) (fadd (v_t0 a) k0) (vadd (v_t a) kt) n Lsk Lvt ltac:(lia)) as (B1 & B2 & B3).
  assert (Hwf : wf_key n ek) by (unfold wf_key, ek, v_ek'; repeat split; try assumption; lia).
  (* the chosen ciphertexts *)
  assert (Hnth : forall i, (i < kk)%nat -> fst (nth i cps' cp0) = ct_formula ek g (fst (nth i mrs mr0)) (snd (nth i mrs mr0))).
  { intros i Hik. rewrite (nth_indep cps' cp0 (nth i cps' cp0)) by lia. rewrite <- (map_nth fst).
    transitivity (nth i (map fst cps') (Ciphertext gzero [] gzero)); [apply nth_indep; rewrite map_length; lia|]. rewrite Hcts.
    rewrite (nth_indep _ _ (ct_formula ek g (fst mr0) (snd mr0))) by (rewrite map_length; lia). apply (map_nth (fun mr => ct_formula ek g (fst mr) (snd mr))). }
  unfold serve. fold sel. cbn [v_run dr_cps]. fold cps'.
  rewrite (mapM_idx_nth cps' cp0 sel) by (rewrite Lk'; exact Hi). cbn [bind]. rewrite map_map.
  set (ms := map (fun i => fst (nth i mrs mr0)) sel) in *. set (rs := map (fun i => snd (nth i mrs mr0)) sel).
  destruct (sum_is_encryption_of_sum ek g n (map (fun i => ct_vec (fst (nth i cps' cp0))) sel) ms rs) as (v & Hvs & Henc).
  { destruct sel; [contradiction|discriminate]. }
  { exact B1. }
  { unfold ms, rs. assert (X : forall l, Forall (fun i => (i < kk)%nat) l -> Forall2 (fun mr ct => encrypts ek g (fst mr) ct (snd mr))
      (combine (map (fun i => fst (nth i mrs mr0)) l) (map (fun i => snd (nth i mrs mr0)) l)) (map (fun i => ct_vec (fst (nth i cps' cp0))) l)).
    { induction l as [|i l IH]; intros Hl; [constructor|]. pose proof (Forall_inv Hl) as Hi0; pose proof (Forall_inv_tail Hl) as Hl'; cbv beta in Hi0. cbn [map combine]. constructor; [|apply IH; exact Hl']. cbn [fst snd]. rewrite (Hnth i Hi0).
      eexists (replay_rng E), [_], []. apply (encrypts_intro n); [exact Hwf|rewrite Forall_forall in Fm; apply Fm, nth_In; lia|lia]. }
    apply X. exact Hi. }
  { unfold ms, rs. rewrite !map_length. reflexivity. }
  unfold ct_vec in Hvs at 1. rewrite Hvs. cbn [bind].
  assert (Fms : Forall (fun m => length m = n) ms).
  { unfold ms. rewrite Forall_forall in Fm, Hi |- *. intros m Hm. apply in_map_iff in Hm. destruct Hm as (i & <- & Hin). apply Fm, nth_In. rewrite Lm. apply Hi, Hin. }
  rewrite (encrypts_intro n ek g _ _ Hwf (chunk_sum_length n ms Fms) ltac:(lia)) in Henc. rewrite Hsm in Henc. assert (Ev : v = ct_vec (ct_formula ek g (sum sel) (fsum rs))) by congruence. clear Henc.
  rewrite Ev, ct_of_vec_ct_vec. cbn [bind ct_formula ct_X_r ct_enc_chunks]. cbv zeta. cbn [ekd_pk].
  assert (Lsum : length (sum sel) = n) by (rewrite <- Hsm; apply chunk_sum_length, Fms).
  assert (Lbody : length (body_formula (ek_X ek) g (sum sel) (fsum rs)) = n) by (rewrite body_formula_length; exact Lsum).
  (* the first element and the chunks of the sum, two ways *)
  assert (X0 : ek_X_0 ek = v_d a) by reflexivity.
  assert (C0 : fsum rs [*] ek_X_0 ek = a_c0 sel a).
  { rewrite X0. unfold a_c0, rs. rewrite <- gsum_map_smul. rewrite map_map. f_equal. apply map_ext_in. intros i Hin. rewrite Forall_forall in Hi.
    pose proof (f_equal ct_X_r (Hnth i (Hi i Hin))) as Z. cbn [ct_formula ct_X_r] in Z. rewrite X0 in Z. rewrite <- Z. unfold cps'.
    rewrite (nth_indep _ cp0 (shift_pair k0 kt cp0)) by (rewrite map_length, Lk; apply Hi, Hin). rewrite map_nth. reflexivity. }
  assert (XX : forall j, nth j (ek_X ek) gzero = fadd (nth j (v_sh a) fzero) (nth j ks fzero) [*] v_d a).
  { intros j. unfold ek, v_ek'. cbn [ek_formula ek_X]. rewrite (nth_map_default (fun x => x [*] v_d a) _ j fzero gzero) by apply smul_0_l. rewrite vadd_nth by congruence. reflexivity. }
  assert (CJ : forall j, (j < n)%nat -> a_c sel j a = (fsum rs [*] nth j (ek_X ek) gzero) [+] (of_Z (nth j (sum sel) 0) [*] nth j g gzero)).
  { intros j Hj. rewrite <- Hsm. rewrite (chunk_sum_nth n ms j Fms). unfold a_c, rs, ms. clear -Hi Hnth Lk Hj Fm Lm. revert Hi. induction sel as [|i l IH]; intros Hl.
    - cbn [map fold_right]. rewrite gsum_nil. change (fsum (@nil F)) with (@fzero K). change (of_Z 0) with (@fzero K). rewrite !smul_0_l, gadd_0_l. reflexivity.
    - pose proof (Forall_inv Hl) as Hi0; pose proof (Forall_inv_tail Hl) as Hl'; cbv beta in Hi0. cbn [map]. rewrite gsum_cons, fsum_cons, (IH Hl').
      pose proof (f_equal (fun ct => nth j (ct_enc_chunks ct) gzero) (Hnth i Hi0)) as Z. cbn [ct_formula ct_enc_chunks] in Z.
      unfold cps' in Z. rewrite (nth_indep _ cp0 (shift_pair k0 kt cp0)) in Z by (rewrite map_length, Lk; exact Hi0). rewrite map_nth in Z. unfold shift_pair at 1, shift_ct in Z. cbn [fst ct_enc_chunks] in Z. rewrite Z.
      rewrite body_formula_nth by (rewrite Forall_forall in Fm; rewrite (Fm (nth i mrs mr0)) by (apply nth_In; lia); exact Hj). 
      cbn [fold_right]. rewrite of_Z_add. glin. }
  rewrite C0.
  (* the shares *)
  assert (Hcomb : combine (map (sk_of a) who) (rq_rhos rq) = map (fun xr => (sk_of a (fst xr), snd xr)) (combine who (rq_rhos rq))).
  { generalize who (rq_rhos rq). clear. induction l as [|x l IH]; intros [|r rr]; cbn [map combine]; try reflexivity. f_equal. apply IH. }
  rewrite Hcomb, mapM_map_pre.
  rewrite (mapM_ext _ (fun xr => Ok (map (fun j => a_open sel (fst xr) j a [+] (snd xr [*] dot (rq_dest rq) (V a))) (seq 0 n) ++ [snd xr [*] eg_G gens]))).
  - rewrite mapM_map_Ok. reflexivity.
  - intros [x rho] Hin. cbn [fst snd]. assert (Hx : In x who) by (apply in_combine_l in Hin; exact Hin).
    assert (Ls : length (st_s (sk_of a x)) = n).
    { unfold who in Hx. apply in_app_iff in Hx. rewrite Forall_forall in Hbef, Haft. destruct Hx as [Hx|[<-|Hx]]; [|exact Lsh|];
        apply in_map_iff in Hx; destruct Hx as (tape & <- & Ht); cbn [sk_of st_s]; unfold ts_s; rewrite firstn_length; [pose proof (Hbef tape Ht) as Hf|pose proof (Haft tape Ht) as Hf]; unfold full in Hf; lia. }
    rewrite share_replay by lia. cbn [bind]. rewrite Lbody. do 2 f_equal. apply map_ext_in. intros j Hj. apply in_seq in Hj. f_equal.
    destruct x as [tape|]; cbn [a_open sk_of st_s]; [reflexivity|]. rewrite (CJ j ltac:(lia)), (XX j), <- C0, X0. fold g. glin.
Qed.

Lemma mapM_idx_range {A} (l : list A) sel r : mapM (idx l) sel = Ok r -> Forall (fun i => (i < length l)%nat) sel.
Proof.
  revert r; induction sel as [|i sel IH]; intros r Hr; [constructor|]. cbn [mapM] in Hr. apply bind_Ok_inv in Hr. destruct Hr as (x & Hx & Hr). apply bind_Ok_inv in Hr. destruct Hr as (r' & Hr' & _).
  constructor; [|exact (IH _ Hr')]. unfold idx in Hx. destruct (nth_error l i) eqn:Z; [|discriminate]. apply nth_error_Some. congruence.
Qed.
(* an observer that asks so many useless questions *)
Fixpoint Answer0 (q : nat) : observer E := match q with O => Guess false | S q' => Ask [] (Answer0 q') (Answer0 q') end.
Lemma answer0_questions q : questions (Answer0 q) = q.
Proof. induction q as [|q IH]; cbn [Answer0 questions]; [reflexivity|]. rewrite IH, Nat.max_id. reflexivity. Qed.
Lemma answer0_observe q Ps Qs : observe (Answer0 q) Ps Qs = false.
Proof. induction q as [|q IH]; cbn [Answer0 observe]; [reflexivity|]. rewrite IH. destruct (geqb _ _); reflexivity. Qed.

(* the client as an observer *)
Lemma client_observer (C : client E) : (forall rq, In rq (requests C) -> Forall (fun i => (i < kk)%nat) (rq_select rq) -> sels (rq_select rq)) -> forall V, sp V -> exists O, questions O = tests C /\
  forall a, agood a -> interact gens (map (sk_of a) who) (dr_cps (run a)) C (V a) (dkg_g2 gens (run a)) = observe O (cen a) (cen2 gens ks a).
Proof.
  destruct (sp_weaken _ _ _ _ agood_vgood (dkg2_spanned n kk Mq M2 gens ks k0 kt before after Lks Lkt)) as (rows2 & H2).
  induction C as [g|q C1 IH1 C2 IH2|rq C IH]; intros HC V HV; cbn [requests] in HC.
  - exists (Guess g). split; reflexivity.
  - destruct (IH1 ltac:(intros rq Hr; apply HC, in_app_iff; left; exact Hr) V HV) as (O1 & Q1 & HO1). destruct (IH2 ltac:(intros rq Hr; apply HC, in_app_iff; right; exact Hr) V HV) as (O2 & Q2 & HO2).
    destruct HV as (rows & HR). exists (Ask (pull_back q rows rows2) O1 O2). split; [cbn [questions tests]; congruence|]. intros a Ha. cbn [interact observe].
    rewrite pp_pull_back, <- (HR a Ha), <- (H2 a Ha), (HO1 a Ha), (HO2 a Ha). reflexivity.
  - assert (Hbad : (forall a, agood a -> forall r, serve gens (map (sk_of a) who) (dr_cps (run a)) (V a) rq <> Ok r) -> exists O, questions O = tests (Submit rq C) /\
      forall a, agood a -> interact gens (map (sk_of a) who) (dr_cps (run a)) (Submit rq C) (V a) (dkg_g2 gens (run a)) = observe O (cen a) (cen2 gens ks a)).
    { intros Hf. exists (Answer0 (tests C)). split; [apply answer0_questions|]. intros a Ha. rewrite answer0_observe. cbn [interact]. specialize (Hf a Ha). destruct (serve _ _ _ _ _) as [new| |]; [destruct (Hf new eq_refl)|reflexivity|reflexivity]. }
    destruct (Forall_dec _ (fun i => lt_dec i kk) (rq_select rq)) as [Hr|Hr].
    2: { apply Hbad. intros a Ha r Z. unfold serve in Z. apply bind_Ok_inv in Z. destruct Z as (l & Z & _). apply Hr. apply mapM_idx_range in Z.
         cbn [v_run dr_cps] in Z. rewrite map_length in Z. destruct Ha as ((_ & _ & _ & Lk & _) & _). rewrite Lk in Z. exact Z. }
    destruct (rq_select rq) as [|i0 sel0] eqn:Hsel.
    + apply Hbad. intros a _ r. unfold serve. rewrite Hsel. discriminate.
    + assert (Hs : sels (rq_select rq)) by (apply HC; [left; reflexivity|rewrite Hsel; exact Hr]).
      destruct (IH ltac:(intros rq' Hr'; apply HC; right; exact Hr') (fun a => V a ++ a_new V rq a)) as (O & Q & HO); [apply sp_app; [exact HV|apply s_new; assumption]|].
      exists O. split; [exact Q|]. intros a Ha. cbn [interact]. rewrite (serve_ok a V rq Ha Hs) by (rewrite Hsel; discriminate). apply HO. exact Ha.
Qed.
End AggView.

Section AggLink.
Context {E : pairing}.
Notation K := (K_of E).
Notation F := (Fr E).
Add Ring Kr2 : (@scalar_ring_theory K).
Notation e i env := (nth i env fzero).
Notation p := (modulus K).
Variables (n : nat) (cs : csys K) (xs : list F) (pf : profile) (domain : nat -> option (list F)) (fuel : nat) (b : Z) (gens : encryption_gens E).
Let ni := cs_num_inst cs.
Let nw := cs_num_wit cs.
Let nc := length (cs_cons cs).
Let N := length xs.
Notation G := (eg_G gens).
Notation H := (eg_H gens).
Notation B := (ark_backend pf domain fuel).
Hypothesis HG : G <> gzero.
Hypothesis HH : H <> gzero.
Hypothesis Hdom_ok : domain_ok domain.
Hypothesis Hb : supported b.
Hypothesis HbM : 2 ^ b <= modulus K.
Hypothesis Hcomp : chunk_compatible K b.
Hypothesis Hcount : chunks_count K b = Ok (Z.of_nat n).
Hypothesis Hn0 : (0 < n)%nat.
Hypothesis Hcs : generate_constraints (BitsizeCheckCircuit b (Z.of_nat n) None true) (@cs_new K Circuit.Setup) = Ok cs.
Hypothesis Hdomain : domain (nc + ni)%nat = Some xs.
Let D1 := 3 * Z.of_nat N + 9 * (3 * Z.of_nat n + 9).
Variables (before after : list (list F)).
Hypothesis Hbef : Forall (full n) before.
Hypothesis Haft : Forall (full n) after.
Notation ks := (ks n before after).
Notation k0 := (k0 n before after).
Notation kt := (kt n before after).

(* what was encrypted *)
Lemma enc_mr msg g_i d gam s t0 t pk st ct r q st' : length g_i = n -> length s = n -> length t = n -> get_gs_for_encryption (gpk_vk (pk_pk pk)) = Ok g_i ->
  encrypt_with_proof pf B (replay_rng E) msg (ek_formula gens g_i d gam s t0 t) pk b st = Ok (ct, r, q, st') ->
  exists m, decompose pf msg b = Ok m /\ length m = n /\ ct = ct_formula (ek_formula gens g_i d gam s t0 t) g_i m r.
Proof.
  intros Lg Ls Lt Hgs He. pose proof (n256 n cs xs b Hcount Hn0) as H256.
  destruct (ek_formula_lengths gens g_i d gam s t0 t n Ls Lt ltac:(lia)) as (A1 & A2 & A3). unfold encrypt_with_proof, encrypt in He. rewrite Hgs in He. cbn [bind] in He.
  destruct (decompose pf msg b) as [ds| |]; try discriminate He. cbn [bind] in He. exists ds. split; [reflexivity|].
  assert (Ld : length ds = n).
  { destruct (Nat.eq_dec (length ds) n) as [Z|Z]; [exact Z|exfalso]. unfold encrypt_decomposed_message, ek_supported_chunks_count in He. rewrite A1, A2, A3, enc_supported_ok in He by exact H256.
    cbn [bind] in He. rewrite Nat2Z.id in He. destruct (Nat.eqb_spec (length ds) n); [contradiction|]. discriminate He. }
  split; [exact Ld|]. rewrite encrypt_chunks_ok in He by lia. cbn [bind] in He. rewrite ct_of_vec_formula in He. cbn [bind] in He.
  apply bind_Ok_inv in He. destruct He as (circ & _ & He). apply bind_Ok_inv in He. destruct He as ([q0 s0] & _ & He). injection He as <- <- _ _. reflexivity.
Qed.
Lemma enc_mrs msgs g_i d gam s t0 t pk st cps st' : length g_i = n -> length s = n -> length t = n -> get_gs_for_encryption (gpk_vk (pk_pk pk)) = Ok g_i ->
  encrypt_all pf B (replay_rng E) msgs (ek_formula gens g_i d gam s t0 t) pk b st = Ok (cps, st') ->
  exists mrs, length mrs = length msgs /\ Forall (fun mr => length (fst mr) = n) mrs /\ map fst cps = map (fun mr => ct_formula (ek_formula gens g_i d gam s t0 t) g_i (fst mr) (snd mr)) mrs /\
    map (fun m => decompose pf m b) msgs = map (fun mr => Ok (fst mr)) mrs.
Proof.
  intros Lg Ls Lt Hgs. revert st cps; induction msgs as [|m msgs IH]; intros st cps He; cbn [encrypt_all] in He.
  - injection He as <- _. exists []. repeat split; constructor.
  - apply bind_Ok_inv in He. destruct He as ([[[ct r] q] s1] & H1 & He). apply bind_Ok_inv in He. destruct He as ([cps1 s2] & H2 & He). injection He as <- <-.
    destruct (IH _ _ H2) as (mrs & I1 & I2 & I3 & I4). destruct (enc_mr _ _ _ _ _ _ _ _ _ _ _ _ _ Lg Ls Lt Hgs H1) as (ds & J1 & J2 & J3).
    exists ((ds, r) :: mrs). cbn [length map fst snd]. split; [congruence|]. split; [constructor; assumption|]. split; [rewrite I3, J3; reflexivity|]. rewrite I4, J1. reflexivity.
Qed.
Lemma selected_sum_mrs (msgs : list F) mrs sel : length mrs = length msgs -> map (fun m => decompose pf m b) msgs = map (fun mr : list Z * F => Ok (fst mr)) mrs -> Forall (fun i => (i < length msgs)%nat) sel ->
  selected_sum pf b n msgs sel = Ok (chunk_sum n (map (fun i => fst (nth i mrs mr0)) sel)).
Proof.
  intros Lm Hd Hs. unfold selected_sum. rewrite (mapM_ext _ (fun i => Ok (fst (nth i mrs mr0)))); [rewrite mapM_map_Ok; reflexivity|].
  intros i Hi. rewrite Forall_forall in Hs. pose proof (Hs i Hi) as Hl. rewrite (idx_nth msgs i fzero) by exact Hl. cbn [bind].
  pose proof (f_equal (fun l => nth i l (Ok [])) Hd) as HZ. cbv beta in HZ.
  rewrite (nth_indep _ _ (decompose pf (@fzero K) b)) in HZ by (rewrite map_length; exact Hl). rewrite (map_nth (fun m => decompose pf m b)) in HZ. rewrite HZ.
  rewrite (nth_indep _ _ (Ok (fst (@mr0 E)))) by (rewrite map_length; lia). apply (map_nth (fun mr : list Z * F => Ok (fst mr))).
Qed.

(* one execution *)
Lemma agg_run_ok msgs pk al be ga de ta sh t0 t rest cps st' :
  (forall x, generate_srs B (replay_rng E) (generate_constraints (BitsizeCheckCircuit b (Z.of_nat n) None true)) gens (al :: be :: ga :: de :: ta :: x) = Ok (pk, x)) ->
  length (vk_gamma_abc_g1 (gpk_vk (pk_pk pk))) = S n -> length sh = n -> length t = n ->
  let a dk := DView pk sh t0 t dk cps in
  encrypt_all pf B (replay_rng E) msgs (ek_formula gens (skipn 1 (vk_gamma_abc_g1 (gpk_vk (pk_pk pk)))) (gpk_delta_g1 (pk_pk pk)) (pk_gamma_g1 pk) (vadd sh ks) t0 t) pk b rest = Ok (cps, st') ->
  forall dk, agg_execution pf B gens b before after msgs (al :: be :: ga :: de :: ta :: sh ++ (t0 :: t) ++ rest) = Ok (v_run n gens ks k0 kt before after (a dk), map (sk_of n (a dk)) (who before after)).
Proof.
  intros Hsrs Lg Ls Lt a Henc dk. pose proof (dkg_run_ok n cs xs pf domain fuel b gens Hcount Hn0 before after Hbef Haft msgs pk al be ga de ta sh t0 t rest cps st' Hsrs Lg Ls Lt Henc dk) as Hr. fold a in Hr.
  unfold dkg_execution, circuit_new in Hr. unfold agg_execution, circuit_new. rewrite Hcount in *. cbn [bind] in *. rewrite Hsrs in *. cbn [bind] in *.
  set (g_i := skipn 1 (vk_gamma_abc_g1 (gpk_vk (pk_pk pk)))) in *.
  assert (Lgi : length g_i = n) by (unfold g_i; rewrite skipn_length; lia).
  assert (Hgs : get_gs_for_encryption (gpk_vk (pk_pk pk)) = Ok g_i) by (unfold get_gs_for_encryption, slice_from; rewrite Lg; reflexivity).
  rewrite Hgs in *. cbn [bind] in *. cbv zeta in Hr |- *.
  rewrite (contributions_ok n cs xs b gens Hcount Hn0 g_i _ _ before Lgi Hbef) in *. cbn [bind] in *.
  rewrite (partial_replay b gens g_i _ _ n sh t0 t rest Hcount) in * by (try assumption; lia). cbn [bind] in *.
  rewrite (contributions_ok n cs xs b gens Hcount Hn0 g_i _ _ after Lgi Haft) in *. cbn [bind] in *.
  destruct (combineEKs _ _) as [com| |]; try discriminate Hr. cbn [bind] in *. destruct (mapM _ _) as [shares| |]; try discriminate Hr. cbn [bind] in *.
  destruct (combineP1share _) as [p1| |]; try discriminate Hr. cbn [bind] in *. apply bind_Ok_inv in Hr. destruct Hr as ([cps' st2] & He & Hr).
  match goal with |- bind ?x _ = _ => replace x with (Ok (cps', st2)) by (symmetry; exact He) end. cbn [bind] in *.
  assert (OI : forall x y : dkg_run E, Ok x = Ok y -> x = y) by (intros x y Hxy; congruence). apply OI in Hr. rewrite Hr. clear Hr.
  f_equal. f_equal. unfold who. rewrite !map_app. cbn [map]. rewrite !map_map. reflexivity.
Qed.

(* the client of the distributed run is an observer of a central one *)
Lemma agg_single k C (msgs0 : list F) : exists O', questions O' = tests C /\ forall al be ga de ta rho sh t0 t v rest msgs, length msgs = k -> vanishing_at xs ta <> fzero ->
    length sh = n -> length t = n -> length v = n -> length rest = (3 * k)%nat -> (forall rq, In rq (requests C) -> selected_sum pf b n msgs (rq_select rq) = selected_sum pf b n msgs0 (rq_select rq)) ->
    experiment_agg pf B gens b before after C msgs (al :: be :: ga :: de :: ta :: sh ++ (t0 :: t) ++ rest) =
    experiment_many pf B gens b O' msgs (al :: be :: ga :: de :: ta :: rho :: vadd sh ks ++ (t0 :: t) ++ v ++ rest).
Proof.
  assert (Lks : length ks = n) by apply fcol_sum_length. assert (Lkt : length kt = n) by apply fcol_sum_length. pose proof (n256 n cs xs b Hcount Hn0) as H256.
  set (sels := fun sel => In sel (map rq_select (requests C)) /\ Forall (fun i => (i < k)%nat) sel).
  set (sum := fun sel => match selected_sum pf b n msgs0 sel with Ok M => M | _ => [] end).
  assert (Hsels : forall sel, sels sel -> Forall (fun i => (i < k)%nat) sel) by (intros sel [_ Hs]; exact Hs).
  assert (HC : forall rq, In rq (requests C) -> Forall (fun i => (i < k)%nat) (rq_select rq) -> sels (rq_select rq)) by (intros rq Hin Hf; split; [apply in_map; exact Hin|exact Hf]).
  destruct (client_observer n k (ni + nw + (ni + nw) + (N - 1) + nw) (ni + nw) gens ks k0 kt before after Lks Lkt Hbef Haft H256 sels sum Hsels C HC (fun a => dkg_g1 gens (v_run n gens ks k0 kt before after a))) as (O' & Q & HO).
  { apply (sp_weaken _ _ _ _ (agood_vgood n k (ni + nw + (ni + nw) + (N - 1) + nw) (ni + nw) gens ks k0 kt sels sum)). apply dkg1_spanned; assumption. }
  exists O'. split; [exact Q|].
  intros al be ga de ta rho sh t0 t v rest msgs Lm Hv Ls Lt Lv Lr Hsum. unfold experiment_many.
  pose proof (vadd_length sh ks n Ls Lks) as Lsk. pose proof (proj1 (cs_shape n cs xs b (bits_of _ b Hb HbM) Hn0 Hcs)) as Hni. fold ni in Hni.
  destruct (srs_local n cs xs pf domain fuel b gens Hb HbM Hn0 Hcs Hdomain al be ga de ta Hv) as [(pk & Lg & Hsrs)|Hfail].
  - rewrite (setup_from_srs n cs xs pf domain fuel b gens Hcount Hn0 al be ga de ta pk rho (vadd sh ks) t0 t v rest Hsrs Lg Lsk Lt Lv). set (g_i := skipn 1 (vk_gamma_abc_g1 (gpk_vk (pk_pk pk)))).
    assert (Lgi : length g_i = n) by (unfold g_i; rewrite skipn_length; lia).
    assert (Hgs : get_gs_for_encryption (gpk_vk (pk_pk pk)) = Ok g_i) by (unfold get_gs_for_encryption, slice_from; rewrite Lg; reflexivity).
    set (ek := ek_formula gens g_i (gpk_delta_g1 (pk_pk pk)) (pk_gamma_g1 pk) (vadd sh ks) t0 t). set (dk := dk_formula gens rho (vadd sh ks) v).
    pose proof (setup_from_srs n cs xs pf domain fuel b gens Hcount Hn0 al be ga de ta pk rho (vadd sh ks) t0 t v [] Hsrs Lg Lsk Lt Lv) as Hset. fold g_i ek dk in Hset.
    assert (Lc0 : length (al :: be :: ga :: de :: ta :: rho :: vadd sh ks ++ (t0 :: t) ++ v ++ []) = (3 * n + 7)%nat) by (cbn [length]; rewrite ?app_length; cbn [length]; rewrite ?app_length; cbn [length]; lia).
    assert (Hg : good_setup n xs pf domain fuel b gens pk ek dk) by (exists (al :: be :: ga :: de :: ta :: rho :: vadd sh ks ++ (t0 :: t) ++ v ++ []), rho; split; [exact Lc0|]; split; [exact Hv|exact Hset]).
    destruct (enc_all_forged n cs xs pf domain fuel b gens Hdom_ok Hb HbM Hcomp Hcount Hn0 Hcs Hdomain msgs rest ltac:(lia)) as (Ss & _ & HS).
    pose proof (HS pk ek dk [] Hg) as Henc. rewrite app_nil_r in Henc. rewrite Henc.
    set (cps := map (forged gens pk ek dk) Ss) in *.
    unfold experiment_agg. rewrite (agg_run_ok msgs pk al be ga de ta sh t0 t rest cps [] Hsrs Lg Ls Lt Henc dk).
    destruct (chunks_length n cs xs pf domain fuel b gens Hcount Hn0 msgs g_i (gpk_delta_g1 (pk_pk pk)) (pk_gamma_g1 pk) (vadd sh ks) t0 t pk rest cps [] Lgi Lsk Lt Hgs Henc) as [C1 C2].
    pose proof (setup_shape n cs xs pf domain fuel b gens (bits_of _ b Hb HbM) Hcount Hn0 Hcs Hdomain _ pk rho ek dk [] Lc0 Hv Hset) as (_ & _ & S3 & S4 & S5 & S6 & S7 & _).
    rewrite (HO (DView pk sh t0 t dk cps)); [reflexivity|]. split.
    + unfold vgood. cbn [v_sh v_t v_cps v_pk v_dk]. unfold v_gabc, v_queries. cbn [v_pk].
      fold ni nw N in S3, S4, S5, S6, S7. repeat split; try assumption; try congruence.
      * rewrite !app_length, S3, S4, S6, S7. lia.
      * unfold dk, dk_formula. cbn [dk_V_1]. rewrite map_length, combine_length. lia.
      * unfold dk, dk_formula. cbn [dk_V_2]. rewrite map_length. exact Lv.
    + pose proof (encrypt_all_shift pf B n gens g_i (gpk_delta_g1 (pk_pk pk)) (pk_gamma_g1 pk) (vadd sh ks) t0 t k0 kt msgs pk b rest cps [] Lgi Lsk Lt Lkt H256 Hgs Henc) as Hsh.
      destruct (enc_mrs msgs g_i _ _ _ _ _ pk rest _ [] Lgi Lsk (vadd_length _ _ _ Lt Lkt) Hgs Hsh) as (mrs & M1 & M2 & M3 & M4).
      exists mrs. split; [congruence|]. split; [exact M2|]. split; [exact M3|]. intros sel [Hin Hf]. apply in_map_iff in Hin. destruct Hin as (rq & <- & Hin).
      pose proof (selected_sum_mrs msgs mrs (rq_select rq) M1 M4 ltac:(rewrite Lm; exact Hf)) as Z. rewrite (Hsum rq Hin) in Z. unfold sum. rewrite Z. reflexivity.
  - unfold experiment_agg, agg_execution, setup_for_groth16, circuit_new. rewrite Hcount. cbn [bind].
    pose proof (Hfail (sh ++ (t0 :: t) ++ rest)) as F1. pose proof (Hfail (rho :: vadd sh ks ++ (t0 :: t) ++ v ++ rest)) as F2. clear Hfail.
    destruct (generate_srs _ _ _ _ _) as [r1| |] in F1 |- *; [destruct (F1 _ eq_refl)| |];
    (destruct (generate_srs _ _ _ _ _) as [r2| |] in F2 |- *; [destruct (F2 _ eq_refl)|reflexivity|reflexivity]).
Qed.

Lemma agg_bound k msgs msgs' C (L : list (list F)) : length msgs = k -> length msgs' = k -> NoDup L ->
  (forall rq, In rq (requests C) -> selected_sum pf b n msgs (rq_select rq) = selected_sum pf b n msgs' (rq_select rq)) ->
  (forall d, In d L -> length d = (2 * n + 6 + 3 * k)%nat /\ experiment_agg pf B gens b before after C msgs d <> experiment_agg pf B gens b before after C msgs' d) ->
  Z.of_nat (length L) * p <= (Z.of_nat N + 2 * Z.of_nat (tests C) * Z.of_nat k * D1) * p ^ Z.of_nat (2 * n + 6 + 3 * k).
Proof.
  intros Lm Lm' Hnd Hsum HL. apply (split_tau n cs xs b HbM Hn0); [lia|exact Hnd|intros c Hc; apply HL; exact Hc|]. intros L' Hnd' HL'.
  destruct (agg_single k C msgs) as (O' & Q & HO). rewrite <- Q.
  apply (central_bound n cs xs pf domain fuel b gens HG HH Hdom_ok Hb HbM Hcomp Hcount Hn0 Hcs Hdomain before after k msgs msgs' O'
    (experiment_agg pf B gens b before after C msgs) (experiment_agg pf B gens b before after C msgs') L' Lm Lm' Hnd').
  - intros al be ga de ta rho sh t0 t v rest Hv L1 L2 L3 L4. apply HO; try assumption. reflexivity.
  - intros al be ga de ta rho sh t0 t v rest Hv L1 L2 L3 L4. apply HO; try assumption. intros rq Hr. symmetry. apply Hsum. exact Hr.
  - intros c Hc. destruct (HL' c Hc) as [Hi Hv]. destruct (HL c Hi) as [Lc Hne]. split; [exact Lc|]. split; assumption.
Qed.
End AggLink.
