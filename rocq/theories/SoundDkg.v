(* SoundDkg.v -- a coalition in the distributed key generation is a prover of the central one (for C69) *)
From Verif Require Import Base BaseFacts Algebra Utils UtilsFacts Setup Keygen Encryption Circuit CircuitFacts CircuitSat CommitmentFacts VecFacts KeySpec KeygenFacts
  EncryptFacts DecryptFacts Spec VerifyFacts Protocol ReencFacts DistFacts PropVerify Groth16 ArkGroth16 PolyFacts Groth16Spec ArkFacts Groth16Facts SchwartzZippel SoundCore SoundSpec
  SoundAlg SoundGame SoundLink SoundFacts SoundCount SoundHonest PropGroth16 PropSoundCases PropZK PrivacySpec PrivacyAlg PrivacyGame PrivacyLink PrivacyCount PrivacySpan PrivacyMany
  PrivacyDkgSpec PrivacyDkg SoundAdaptSpec SoundAdapt SoundDkgSpec.

(* provers that see fixed combinations of what other provers see *)
Section Pull.
Context {E : pairing}.
Notation K := (K_of E).
Notation F := (Fr E).
Add Ring Kr : (@scalar_ring_theory K).
Definition pull_strategy (rows1 rows2 : list (list F)) (S0 : strategy E) : strategy E :=
  Strategy (row_mul (sg_a S0) rows1) (row_mul (sg_b S0) rows2) (row_mul (sg_c S0) rows1) (row_mul (sg_X_r S0) rows1)
    (map (fun c => row_mul c rows1) (sg_chunks S0)) (row_mul (sg_commitment S0) rows1).
Fixpoint pull_prover (rows1 rows2 : list (list F)) (P : prover E) : prover E :=
  match P with
  | Output S0 => Output (pull_strategy rows1 rows2 S0)
  | Test q P1 P2 => Test (pull_back q rows1 rows2) (pull_prover rows1 rows2 P1) (pull_prover rows1 rows2 P2)
  end.
Lemma pull_tests rows1 rows2 P : tests (pull_prover rows1 rows2 P) = tests P.
Proof. induction P as [S0|q P1 IH1 P2 IH2]; cbn [pull_prover tests]; [reflexivity|]. rewrite IH1, IH2. reflexivity. Qed.
Lemma pull_play rows1 rows2 P (Ps : list (G1 E)) (Qs : list (G2 E)) :
  play (pull_prover rows1 rows2 P) Ps Qs = pull_strategy rows1 rows2 (play P (combos rows1 Ps) (combos rows2 Qs)).
Proof.
  induction P as [S0|q P1 IH1 P2 IH2]; cbn [pull_prover play]; [reflexivity|]. rewrite pp_pull_back, IH1, IH2.
  destruct (geqb (pairing_product q (combos rows1 Ps) (combos rows2 Qs)) gzero); reflexivity.
Qed.
Lemma pull_ciphertext rows1 rows2 S0 (Ps : list (G1 E)) : ciphertext_from (pull_strategy rows1 rows2 S0) Ps = ciphertext_from S0 (combos rows1 Ps).
Proof.
  unfold ciphertext_from, pull_strategy. cbn [sg_X_r sg_chunks sg_commitment]. rewrite !dot_row_mul, map_map. f_equal. apply map_ext. intros c. apply dot_row_mul.
Qed.
Lemma pull_proof rows1 rows2 S0 (Ps : list (G1 E)) (Qs : list (G2 E)) : proof_from (pull_strategy rows1 rows2 S0) Ps Qs = proof_from S0 (combos rows1 Ps) (combos rows2 Qs).
Proof. unfold proof_from, pull_strategy. cbn [sg_a sg_b sg_c]. rewrite !dot_row_mul. reflexivity. Qed.

Lemma nth_padd (a c : list F) j : nth j (padd a c) fzero = fadd (nth j a fzero) (nth j c fzero).
Proof. revert c j; induction a as [|x a IH]; intros [|y c] [|j]; cbn [padd nth]; try ring. apply IH. Qed.
Lemma nth_row_mul (c : list F) (rows : list (list F)) j : nth j (row_mul c rows) fzero = fdot c (map (fun r => nth j r fzero) rows).
Proof.
  revert rows; induction c as [|x c IH]; intros [|r rows]; cbn [row_mul map fdot]; try (destruct j; reflexivity).
  rewrite nth_padd, IH. f_equal. apply (nth_map_default (fmul x)). ring.
Qed.
Lemma fdot_zeros (c : list F) k : fdot c (repeat fzero k) = fzero.
Proof. revert k; induction c as [|x c IH]; intros [|k]; cbn [repeat fdot]; try reflexivity. rewrite IH. ring. Qed.
Lemma fdot_unit (c : list F) m j : fdot c (unit_vec m j) = if Nat.ltb j m then nth j c fzero else fzero.
Proof.
  rewrite (fdot_nth_sum c (unit_vec m j) m) by apply unit_length. destruct (Nat.ltb_spec j m) as [Hj|Hj].
  - pose proof (fsum_delta (fun i => nth i c fzero) m 0 j ltac:(lia)) as D. cbn [Nat.add] in D. rewrite <- D. f_equal. apply map_ext_in. intros i Hi. apply in_seq in Hi.
    unfold unit_vec. rewrite (map_seq_nth _ m i fzero) by lia. reflexivity.
  - rewrite (map_ext_in _ (fun _ => @fzero K)).
    + generalize (seq 0 m). induction l as [|i l IH]; [reflexivity|]. cbn [map]. rewrite fsum_cons, IH. ring.
    + intros i Hi. apply in_seq in Hi. unfold unit_vec. rewrite (map_seq_nth _ m i fzero) by lia. destruct (Nat.eqb_spec i j); [lia|]. ring.
Qed.
End Pull.

Lemma concat_length_const {A B} (f : A -> list B) l m : (forall x, In x l -> length (f x) = m) -> length (concat (map f l)) = (length l * m)%nat.
Proof. induction l as [|x l IH]; intros Hl; [reflexivity|]. cbn [map concat length]. rewrite app_length, IH by (intros y Hy; apply Hl; right; exact Hy). rewrite Hl by (left; reflexivity). lia. Qed.

(* what the coalition sees, in terms of the central key with the same secrets *)
Section View.
Context {E : pairing}.
Notation K := (K_of E).
Notation F := (Fr E).
Add Ring Kr2 : (@scalar_ring_theory K).
Variables (n Mq M2 : nat) (gens : encryption_gens E) (ks : list F) (k0 : F) (kt : list F) (before after : list (list F)).
Notation H := (eg_H gens).
Hypothesis Lks : length ks = n.
Hypothesis Lkt : length kt = n.
Hypothesis Hbef : Forall (full n) before.
Hypothesis Haft : Forall (full n) after.
Notation good := (@vgood E n 0 Mq M2).
Notation vek := (@v_ek E gens ks).
Notation vek' := (@v_ek' E gens ks k0 kt).
Notation run := (@v_run E n gens ks k0 kt before after).
Definition sA (a : dview) : list (G1 E) := ek_Y (vek' a) ++ [ek_P_1 (vek' a)].
Definition sR (a : dview) : list (G1 E) := v_five gens a ++ v_queries a ++ v_gabc a ++ [v_d a] ++ ek_X (vek a) ++ [ek_P_2 (vek a)].
Lemma sAR a : public_g1 gens (v_pk a) (vek' a) = sA a ++ sR a.
Proof. apply pub_shape'. Qed.
Lemma vl a : good a -> length (v_g a) = n /\ length (vadd (v_sh a) ks) = n /\ length (ek_X (vek a)) = n /\ length (ek_Y (vek a)) = n /\ length (ek_Z (vek a)) = S n.
Proof. apply (vlen n 0 Mq M2 gens ks kt Lks Lkt). Qed.
Ltac lens Ha := let L := fresh "L" in pose proof (vl _ Ha) as L; destruct Ha as (?G & ?G & ?G & ?G & ?G & ?G & ?G & ?G & ?G); destruct L as (?G & ?G & ?G & ?G & ?G).
Lemma sA_length a : good a -> length (sA a) = S n.
Proof.
  intros Ha. lens Ha. unfold sA. rewrite app_length. unfold v_ek'. cbn [ek_formula ek_Y length]. unfold v_g in *. 
  destruct (ek_formula_lengths gens (v_g a) (v_d a) (v_c a) (vadd (v_sh a) ks) (fadd (v_t0 a) k0) (vadd (v_t a) kt) n) as (B1 & B2 & B3); [assumption|apply vadd_length; assumption|unfold v_g; lia|].
  cbn [ek_formula ek_Y] in B2. unfold v_g in B2. lia.
Qed.
Lemma sR_length a : good a -> length (sR a) = (5 + Mq + S n + 1 + n + 1)%nat.
Proof. intros Ha. lens Ha. unfold sR, v_five. rewrite !app_length. cbn [length]. lia. Qed.

(* spans of the part R *)
Notation rp := (spanned good sR).
Notation rp1 := (spanned1 good sR).
Lemma r_all : rp sR. Proof. apply (sp_self good sR (5 + Mq + S n + 1 + n + 1)). exact sR_length. Qed.
Lemma r_five : rp (v_five gens).
Proof. apply (sp_sub good _ (fun _ => []) _ (fun a => v_queries a ++ v_gabc a ++ [v_d a] ++ ek_X (vek a) ++ [ek_P_2 (vek a)]) 0 5). intros a Ha. repeat split. Qed.
Lemma r_d : rp1 v_d. Proof. exact (sp1_nth good _ _ 3 r_five). Qed.
Lemma r_c : rp1 v_c. Proof. exact (sp1_nth good _ _ 4 r_five). Qed.
Lemma r_gabc : rp v_gabc.
Proof. apply (sp_sub good _ (fun a => v_five gens a ++ v_queries a) _ (fun a => [v_d a] ++ ek_X (vek a) ++ [ek_P_2 (vek a)]) (5 + Mq) (S n)).
  intros a Ha. split; [unfold sR; rewrite <- !app_assoc; reflexivity|]. lens Ha. unfold v_five. rewrite !app_length. cbn [length]. lia. Qed.
Lemma r_g i : rp1 (fun a => nth i (v_g a) gzero).
Proof. apply (sp1_ext good _ _ (fun a => nth (S i) (v_gabc a) gzero)); [intros a _; unfold v_g; destruct (v_gabc a) as [|x l]; [destruct i; reflexivity|reflexivity]|]. apply sp1_nth, r_gabc. Qed.
Lemma r_X : rp (fun a => ek_X (vek a)).
Proof. apply (sp_sub good _ (fun a => v_five gens a ++ v_queries a ++ v_gabc a ++ [v_d a]) _ (fun a => [ek_P_2 (vek a)]) (5 + Mq + S n + 1) n).
  intros a Ha. split; [unfold sR; rewrite <- !app_assoc; reflexivity|]. lens Ha. unfold v_five. rewrite !app_length. cbn [length]. lia. Qed.
Lemma r_P2 : rp1 (fun a => ek_P_2 (vek a)).
Proof. assert (X : rp (fun a => [ek_P_2 (vek a)])).
  { apply (sp_sub good _ (fun a => v_five gens a ++ v_queries a ++ v_gabc a ++ [v_d a] ++ ek_X (vek a)) _ (fun a => []) (5 + Mq + S n + 1 + n) 1).
    intros a Ha. split; [unfold sR; rewrite <- !app_assoc; reflexivity|]. lens Ha. unfold v_five. rewrite !app_length. cbn [length]. lia. }
  exact (sp1_nth good _ _ 0 X). Qed.
Lemma r_part tape : full n tape -> rp (fun a => part_g1 (v_part n gens a tape)).
Proof.
  intros Hf. unfold part_g1, v_part. cbn [ekp_formula ekp_X_0 ekp_X ekp_Y ekp_P_2].
  apply (sp_app good sR (fun a => [v_d a])); [apply sp1_list, r_d|]. apply sp_app; [apply (sp_list good sR (fun x a => x [*] v_d a)); intros x _; apply sp1_smul, r_d|].
  apply sp_app; [|apply sp1_list, sp1_smul, r_c].
  apply (sp_ext good _ _ (fun a => map (fun i => nth i (ts_t n tape) fzero [*] nth i (v_g a) gzero) (seq 0 n))).
  - intros a Ha. lens Ha. apply scale_as_map; [unfold ts_t; rewrite skipn_length; unfold full in Hf; lia|lia].
  - apply (sp_seq good sR (fun i a => nth i (ts_t n tape) fzero [*] nth i (v_g a) gzero)). intros i _. apply sp1_smul, r_g.
Qed.
Lemma r_share tape : rp1 (fun a => v_share n gens ks a tape).
Proof. unfold v_share. apply sp1_add; [apply sp1_smul, r_d|apply sp1_dot, r_X]. Qed.

(* spans of the whole with known coefficients of the first n+1 elements *)
Definition zs1 : list F := repeat fzero (S n).
Definition tspan (L : dview -> list (G1 E)) (U : list (list F)) : Prop :=
  exists rows, map (firstn (S n)) rows = U /\ forall a, good a -> L a = combos rows (sA a ++ sR a).
Lemma t_app L1 U1 L2 U2 : tspan L1 U1 -> tspan L2 U2 -> tspan (fun a => L1 a ++ L2 a) (U1 ++ U2).
Proof. intros (r1 & A1 & B1) (r2 & A2 & B2). exists (r1 ++ r2). split; [rewrite map_app; congruence|]. intros a Ha. rewrite B1, B2 by exact Ha. unfold combos. symmetry. apply map_app. Qed.
Lemma t_ext L L' U : (forall a, good a -> L a = L' a) -> tspan L' U -> tspan L U.
Proof. intros Hx (r & A & B). exists r. split; [exact A|]. intros a Ha. rewrite Hx by exact Ha. apply B. exact Ha. Qed.
Lemma t_one (P Q : dview -> G1 E) u : length u = S n -> rp1 Q -> (forall a, good a -> P a = dot u (sA a) [+] Q a) -> tspan (fun a => [P a]) [u].
Proof.
  intros Lu (row & HQ) HP. exists [u ++ row]. split.
  - cbn [map]. rewrite firstn_app, Lu, Nat.sub_diag, firstn_O, app_nil_r, firstn_all2 by lia. reflexivity.
  - intros a Ha. cbn [combos map]. rewrite dot_app_eq by (rewrite sA_length by exact Ha; exact Lu). rewrite HP, HQ by exact Ha. reflexivity.
Qed.
Lemma t_seq (P : nat -> dview -> G1 E) (u : nat -> list F) l : (forall i, In i l -> tspan (fun a => [P i a]) [u i]) -> tspan (fun a => map (fun i => P i a) l) (map u l).
Proof.
  induction l as [|i l IH]; intros Hl; cbn [map].
  - exists []. split; reflexivity.
  - apply (t_app (fun a => [P i a]) [u i]); [apply Hl; left; reflexivity|apply IH; intros j Hj; apply Hl; right; exact Hj].
Qed.
Lemma dot_zs1 (l : list (G1 E)) : dot zs1 l = gzero.
Proof. unfold zs1. revert l. generalize (S n). intros m; induction m as [|m IH]; intros [|P l]; cbn [repeat dot]; try reflexivity. rewrite IH, smul_0_l. apply gadd_0_l. Qed.
Lemma t_plain L m : (forall a, good a -> length (L a) = m) -> rp L -> tspan L (repeat zs1 m).
Proof.
  intros Hm HL. apply (t_ext _ (fun a => map (fun i => nth i (L a) gzero) (seq 0 m))); [intros a Ha; rewrite <- (Hm a Ha); apply list_as_map|].
  assert (R : repeat zs1 m = map (fun _ => zs1) (seq 0 m)). { generalize 0%nat. clear. induction m as [|m IH]; intros q; [reflexivity|]. cbn [repeat seq map]. f_equal. apply IH. }
  rewrite R. apply t_seq. intros i _. apply (t_one _ (fun a => nth i (L a) gzero)); [apply repeat_length|apply sp1_nth; exact HL|]. intros a _. rewrite dot_zs1. symmetry. apply gadd_0_l.
Qed.
Lemma dot_unit_seq m u : forall q (l : list (G1 E)), dot (map (fun j => if Nat.eqb j u then @fone K else fzero) (seq q m)) l = if (Nat.leb q u && Nat.ltb u (q + m))%bool then nth (u - q) l gzero else gzero.
Proof.
  induction m as [|m IH]; intros q l.
  - cbn [seq map dot]. destruct (Nat.leb_spec q u); cbn [andb]; [|reflexivity]. destruct (Nat.ltb_spec u (q + 0)); [lia|reflexivity].
  - cbn [seq map dot]. destruct l as [|P l]; [destruct (Nat.leb q u && Nat.ltb u (q + S m))%bool; [destruct (u - q)%nat; reflexivity|reflexivity]|]. rewrite IH.
    destruct (Nat.eqb_spec q u) as [->|Hq].
    + rewrite smul_1_l. destruct (Nat.leb_spec (S u) u); [lia|]. cbn [andb]. destruct (Nat.leb_spec u u); [|lia]. destruct (Nat.ltb_spec u (u + S m)); [|lia]. cbn [andb]. rewrite Nat.sub_diag. apply gadd_0_r.
    + rewrite smul_0_l, gadd_0_l. replace (S q + m)%nat with (q + S m)%nat by lia. destruct (Nat.leb_spec (S q) u); destruct (Nat.leb_spec q u); try lia; cbn [andb]; [|reflexivity].
      destruct (Nat.ltb u (q + S m)); [|reflexivity]. replace (u - q)%nat with (S (u - S q)) by lia. reflexivity.
Qed.
Lemma dot_unit_sA u (l : list (G1 E)) : (u < S n)%nat -> dot (unit_vec (S n) u) l = nth u l gzero.
Proof. intros Hu. unfold unit_vec. rewrite dot_unit_seq. cbn [Nat.leb andb Nat.add]. destruct (Nat.ltb_spec u (S n)); [|lia]. rewrite Nat.sub_0_r. reflexivity. Qed.
Lemma nth_sA_Y i a : good a -> (i < n)%nat -> nth i (sA a) gzero = nth i (ek_Y (vek a)) gzero [+] (nth i kt fzero [*] nth i (v_g a) gzero).
Proof.
  intros Ha Hi. pose proof (sA_length a Ha) as LA. unfold sA in *. rewrite app_length in LA. cbn [length] in LA. rewrite app_nth1 by lia. lens Ha.
  unfold v_ek', v_ek. cbn [ek_formula ek_Y]. rewrite !scale_nth, vadd_nth by congruence. glin.
Qed.
Lemma nth_sA_P a : good a -> nth n (sA a) gzero = ek_P_1 (vek a) [+] ((k0 [*] v_d a) [+] dot kt (ek_X (vek a))).
Proof.
  intros Ha. pose proof (sA_length a Ha) as LA. unfold sA in *. rewrite app_length in LA. cbn [length] in LA. rewrite app_nth2 by lia. replace (n - _)%nat with 0%nat by lia. cbn [nth]. lens Ha.
  unfold v_ek', v_ek. cbn [ek_formula ek_P_1 ek_X]. rewrite fdot_vadd by congruence. rewrite dot_smul_map. glin.
Qed.
Lemma part_length a tape : good a -> full n tape -> length (part_g1 (v_part n gens a tape)) = (2 * n + 2)%nat.
Proof.
  intros Ha Hf. lens Ha. unfold part_g1, v_part. cbn [ekp_formula ekp_X_0 ekp_X ekp_Y ekp_P_2]. rewrite !app_length, map_length. cbn [length].
  assert (Lt : length (ts_t n tape) = n) by (unfold ts_t; rewrite skipn_length; unfold full in Hf; lia).
  rewrite (scale_as_map (ts_t n tape) (v_g a) n Lt) by lia. rewrite map_length, seq_length.
  unfold ts_s. rewrite firstn_length. unfold full in Hf. lia.
Qed.
Notation un := (unit_vec (S n)).
Definition U_all : list (list F) :=
  (repeat zs1 (length before * (2 * n + 2)) ++ (repeat zs1 (S n) ++ map un (seq 0 n) ++ [zs1]) ++ repeat zs1 (length after * (2 * n + 2))) ++
  (repeat zs1 (length before) ++ [un n] ++ repeat zs1 (length after)) ++ map un (seq 0 (S n)) ++ repeat zs1 (5 + Mq + S n + 1 + n + 1).
Lemma t_run : tspan (fun a => dkg_g1 gens (run a)) U_all.
Proof.
  apply (t_ext _ (fun a => (concat (map (fun x => part_g1 (v_part n gens a x)) before) ++ part_g1 (v_hpart gens a) ++ concat (map (fun x => part_g1 (v_part n gens a x)) after)) ++
    (map (fun x => v_share n gens ks a x) before ++ [(v_t0 a [*] v_d a) [+] dot (v_t a) (ek_X (vek a))] ++ map (fun x => v_share n gens ks a x) after) ++ sA a ++ sR a)).
  { intros a Ha. destruct Ha as (_ & _ & _ & L0 & _). destruct (v_cps a) eqn:Ec; [|discriminate]. unfold dkg_g1, v_run. cbn [dr_pk dr_parts dr_shares dr_ek dr_cps]. rewrite Ec. unfold table_g1. cbn [map concat]. rewrite app_nil_r, sAR.
    rewrite !map_app, concat_app. cbn [map concat]. rewrite !map_map. cbn [p1_P_1]. rewrite <- !app_assoc. reflexivity. }
  rewrite Forall_forall in Hbef, Haft. unfold U_all.
  apply t_app; [apply t_app; [|apply t_app]|apply t_app; [apply t_app; [|apply t_app]|apply t_app]].
  - apply t_plain; [intros a Ha; apply concat_length_const; intros x Hx; apply part_length; [exact Ha|apply Hbef; exact Hx]|].
    apply (sp_concat good sR (fun x a => part_g1 (v_part n gens a x))). intros x Hx. apply r_part. apply Hbef. exact Hx.
  - apply (t_ext _ (fun a => (v_d a :: map (fun i => nth i (ek_X (vek a)) gzero [+] (fneg (nth i ks fzero) [*] v_d a)) (seq 0 n)) ++
      map (fun i => nth i (ek_Y (vek a)) gzero) (seq 0 n) ++ [ek_P_2 (vek a) [+] (fneg (fadd fone (fsum ks)) [*] v_c a)])).
    { intros a Ha. pose proof Ha as Ha'. lens Ha. unfold part_g1, v_hpart. cbn [ekp_formula ekp_X_0 ekp_X ekp_Y ekp_P_2]. cbn [app]. f_equal. f_equal; [|f_equal; [|f_equal]].
      - rewrite (list_as_map gzero (map _ (v_sh a))). rewrite map_length. replace (length (v_sh a)) with n. apply map_ext_in. intros i Hi. apply in_seq in Hi.
        unfold v_ek. cbn [ek_formula ek_X]. rewrite !(nth_map_default (fun x => x [*] v_d a) _ i fzero gzero) by apply smul_0_l. rewrite vadd_nth by congruence. glin.
      - change (scale (v_t a) (v_g a)) with (ek_Y (vek a)). rewrite (list_as_map gzero (ek_Y (vek a))) at 1. destruct (vl a Ha') as (_ & _ & _ & -> & _). reflexivity.
      - unfold v_ek. cbn [ek_formula ek_P_2]. rewrite fsum_vadd by congruence. glin. }
    apply t_app; [|apply t_app].
    + apply t_plain; [intros a _; cbn [length]; rewrite map_length, seq_length; reflexivity|].
      apply (sp_app good sR (fun a => [v_d a])); [apply sp1_list, r_d|]. apply (sp_seq good sR (fun i a => nth i (ek_X (vek a)) gzero [+] (fneg (nth i ks fzero) [*] v_d a))).
      intros i _. apply sp1_add; [apply sp1_nth, r_X|apply sp1_smul, r_d].
    + apply (t_seq (fun i a => nth i (ek_Y (vek a)) gzero) un). intros i Hi. apply in_seq in Hi. apply (t_one _ (fun a => fneg (nth i kt fzero) [*] nth i (v_g a) gzero)); [apply unit_length|apply sp1_smul, r_g|].
      intros a Ha. rewrite dot_unit_sA by lia. rewrite (nth_sA_Y i a Ha) by lia. glin.
    + apply (t_one _ (fun a => ek_P_2 (vek a) [+] (fneg (fadd fone (fsum ks)) [*] v_c a))); [apply repeat_length|apply sp1_add; [exact r_P2|apply sp1_smul, r_c]|]. intros a _. rewrite dot_zs1. symmetry. apply gadd_0_l.
  - apply t_plain; [intros a Ha; apply concat_length_const; intros x Hx; apply part_length; [exact Ha|apply Haft; exact Hx]|].
    apply (sp_concat good sR (fun x a => part_g1 (v_part n gens a x))). intros x Hx. apply r_part. apply Haft. exact Hx.
  - apply t_plain; [intros a _; apply map_length|]. apply (sp_list good sR (fun x a => v_share n gens ks a x)). intros x _. apply r_share.
  - apply (t_one _ (fun a => fneg k0 [*] v_d a [+] (fneg fone [*] dot kt (ek_X (vek a))))); [apply unit_length|apply sp1_add; [apply sp1_smul, r_d|apply sp1_smul, sp1_dot, r_X]|].
    intros a Ha. rewrite dot_unit_sA by lia. rewrite (nth_sA_P a Ha). unfold v_ek. cbn [ek_formula ek_X ek_P_1]. rewrite !dot_smul_map, (fdot_comm (v_t a)). glin.
  - apply t_plain; [intros a _; apply map_length|]. apply (sp_list good sR (fun x a => v_share n gens ks a x)). intros x _. apply r_share.
  - apply (t_ext _ (fun a => map (fun i => nth i (sA a) gzero) (seq 0 (S n)))); [intros a Ha; rewrite <- (sA_length a Ha); apply list_as_map|].
    apply (t_seq (fun i a => nth i (sA a) gzero) un). intros i Hi. apply in_seq in Hi. apply (t_one _ (fun _ => gzero)); [apply unit_length|apply sp1_zero|]. intros a Ha. rewrite dot_unit_sA by lia. symmetry. apply gadd_0_r.
  - apply t_plain; [exact sR_length|exact r_all].
Qed.

(* the coefficients the extractor reads *)
Notation nb := (length before).
Notation mm := (length before + 1 + length after)%nat.
Lemma col_zs j k : map (fun u => nth j u fzero) (repeat zs1 k) = repeat fzero k.
Proof. induction k as [|k IH]; [reflexivity|]. cbn [repeat map]. rewrite IH. f_equal. unfold zs1. generalize (S n). clear. intros m. revert j. induction m as [|m IH]; intros [|j]; cbn; try reflexivity. apply IH. Qed.
Lemma col_units j k : (j < S n)%nat -> (k <= S n)%nat -> map (fun u => nth j u (@fzero K)) (map un (seq 0 k)) = unit_vec k j.
Proof.
  intros Hj Hk. rewrite map_map. unfold unit_vec at 2. apply map_ext_in. intros i Hi. apply in_seq in Hi. unfold unit_vec. rewrite (map_seq_nth _ (S n) j fzero) by lia.
  rewrite Nat.eqb_sym. reflexivity.
Qed.
Lemma nth_skipn_F (l : list F) k i : nth i (skipn k l) fzero = nth (k + i) l fzero.
Proof. revert k; induction l as [|x l IH]; intros [|k]; cbn [skipn nth Nat.add]; try reflexivity; [destruct i; reflexivity|]. apply IH. Qed.
Lemma U_coeff (c : list F) j : (j < S n)%nat -> fdot c (map (fun u => nth j u fzero) U_all) =
  fadd (nth (mm * (2 * n + 3) + j) c fzero) (if Nat.ltb j n then nth (nb * (2 * n + 2) + (1 + n + j)) c fzero else nth (mm * (2 * n + 2) + nb) c fzero).
Proof.
  intros Hj. unfold U_all. rewrite !map_app, !col_zs. rewrite (col_units j n) by lia. rewrite (col_units j (S n)) by lia. cbn [map]. rewrite <- !app_assoc.
  rewrite !fdot_app_r, !fdot_zeros, !fdot_unit, !repeat_length, !unit_length. destruct (Nat.ltb_spec j (S n)); [|lia]. rewrite !skipn_plus. cbn [length].
  assert (Z : forall d (x : F), fdot d [x] = fmul (nth 0 d fzero) x) by (intros [|y [|y2 d]] x; cbn [fdot nth]; ring). rewrite !Z, !nth_skipn_F.
  assert (Ez : nth j zs1 fzero = fzero). { unfold zs1. apply nth_repeat. } rewrite Ez.
  assert (Eu : nth j (un n) (@fzero K) = if Nat.eqb j n then fone else fzero) by (unfold unit_vec; rewrite (map_seq_nth _ (S n) j fzero) by lia; reflexivity). rewrite Eu.
  destruct (Nat.ltb_spec j n); destruct (Nat.eqb_spec j n); try lia.
  - match goal with |- context [nth (?x + j) c fzero] => replace (x + j)%nat with (nb * (2 * n + 2) + (1 + n + j))%nat by lia end.
    match goal with |- context [fadd (nth (?x + j) c fzero) fzero] => replace (x + j)%nat with (mm * (2 * n + 3) + j)%nat by lia end. ring.
  - match goal with |- context [fmul (nth ?x c fzero) fone] => replace x with (mm * (2 * n + 2) + nb)%nat by lia end.
    match goal with |- context [fadd (nth (?x + j) c fzero) fzero] => replace (x + j)%nat with (mm * (2 * n + 3) + j)%nat by lia end. ring.
Qed.

(* the elements of G2 *)
Definition cen2' (a : dview) : list (G2 E) := public_g2 gens (v_pk a) (vek' a) (v_dk a).
Lemma g2_spanned : spanned good cen2' (fun a => dkg_g2 gens (run a)).
Proof.
  eapply sp_trans; [|apply (dkg2_spanned n 0 Mq M2 gens ks k0 kt before after Lks Lkt)].
  assert (LZ : forall a, good a -> length (ek_Z (vek' a)) = S n).
  { intros a Ha. lens Ha. unfold v_ek'. cbn [ek_formula ek_Z]. rewrite map_length. cbn [length]. rewrite (vadd_length _ _ n) by assumption. reflexivity. }
  assert (Sh : forall a, cen2' a = (v_four gens a ++ gpk_b_g2_query (pk_pk (v_pk a))) ++ ek_Z (vek' a) ++ ([dk_V_0 (v_dk a)] ++ dk_V_1 (v_dk a) ++ dk_V_2 (v_dk a))).
  { intros a. unfold cen2', public_g2, v_four. rewrite <- !app_assoc. reflexivity. }
  assert (S1 : spanned good cen2' (fun a => v_four gens a ++ gpk_b_g2_query (pk_pk (v_pk a)))).
  { apply (sp_sub good _ (fun _ => []) _ (fun a => ek_Z (vek' a) ++ ([dk_V_0 (v_dk a)] ++ dk_V_1 (v_dk a) ++ dk_V_2 (v_dk a))) 0 (4 + M2)).
    intros a Ha. split; [apply Sh|]. lens Ha. split; [reflexivity|]. rewrite app_length. unfold v_four. cbn [length]. lia. }
  assert (S2 : spanned good cen2' (fun a => ek_Z (vek' a))).
  { apply (sp_sub good _ (fun a => v_four gens a ++ gpk_b_g2_query (pk_pk (v_pk a))) _ (fun a => ([dk_V_0 (v_dk a)] ++ dk_V_1 (v_dk a) ++ dk_V_2 (v_dk a))) (4 + M2) (S n)).
    intros a Ha. split; [apply Sh|]. split; [|apply LZ; exact Ha]. lens Ha. rewrite app_length. unfold v_four. cbn [length]. lia. }
  assert (S3 : spanned good cen2' (fun a => [dk_V_0 (v_dk a)] ++ dk_V_1 (v_dk a) ++ dk_V_2 (v_dk a))).
  { apply (sp_sub good _ (fun a => (v_four gens a ++ gpk_b_g2_query (pk_pk (v_pk a))) ++ ek_Z (vek' a)) _ (fun _ => []) (4 + M2 + S n) (1 + n + n)).
    intros a Ha. split; [rewrite Sh, app_nil_r, <- !app_assoc; reflexivity|]. pose proof (LZ a Ha). lens Ha. rewrite !app_length. unfold v_four. cbn [length]. lia. }
  apply (sp_ext good _ _ (fun a => (v_four gens a ++ gpk_b_g2_query (pk_pk (v_pk a))) ++ map (fun i => nth i (ek_Z (vek' a)) gzero [+] (fneg (nth i (k0 :: kt) fzero) [*] H)) (seq 0 (S n)) ++
    ([dk_V_0 (v_dk a)] ++ dk_V_1 (v_dk a) ++ dk_V_2 (v_dk a)))).
  - intros a Ha. pose proof (LZ a Ha) as LZa. rewrite cen2_shape. assert (Ec : v_cps a = []) by (destruct Ha as (_ & _ & _ & L0 & _); destruct (v_cps a); [reflexivity|discriminate]). rewrite Ec. cbn [map]. rewrite app_nil_r.
    f_equal. f_equal. lens Ha. rewrite (list_as_map gzero (ek_Z (vek a))) at 1. match goal with X : length (ek_Z _) = S n |- context [length (ek_Z (v_ek _ _ _))] => idtac end.
    destruct (vl a) as (_ & _ & _ & _ & ->); [repeat split; try assumption|]. apply map_ext. intros i.
    unfold v_ek', v_ek. cbn [ek_formula ek_Z]. change (fadd (v_t0 a) k0 :: vadd (v_t a) kt) with (vadd (v_t0 a :: v_t a) (k0 :: kt)).
    rewrite !(nth_map_default (fun x => x [*] H) _ i fzero gzero) by apply smul_0_l. rewrite vadd_nth by (cbn [length]; congruence). glin.
  - apply sp_app; [exact S1|]. apply sp_app; [|exact S3]. apply (sp_seq good cen2' (fun i a => nth i (ek_Z (vek' a)) gzero [+] (fneg (nth i (k0 :: kt) fzero) [*] H))).
    intros i _. apply sp1_add; [apply sp1_nth; exact S2|apply sp1_smul]. exact (sp1_nth good _ _ 0 S1).
Qed.
Lemma view_rows : exists rows1 rows2,
  (forall a, good a -> dkg_g1 gens (run a) = combos rows1 (public_g1 gens (v_pk a) (vek' a)) /\ dkg_g2 gens (run a) = combos rows2 (public_g2 gens (v_pk a) (vek' a) (v_dk a))) /\
  (forall S0, extracted_chunks n (pull_strategy rows1 rows2 S0) = dkg_extracted_chunks n nb mm S0 /\ extracted_r n (pull_strategy rows1 rows2 S0) = dkg_extracted_r n nb mm S0).
Proof.
  destruct t_run as (rows1 & HU & H1). destruct g2_spanned as (rows2 & H2). exists rows1, rows2. split.
  - intros a Ha. split; [rewrite sAR; apply H1; exact Ha|apply (H2 a Ha)].
  - intros S0. assert (X : forall j, (j < S n)%nat -> nth j (row_mul (sg_commitment S0) rows1) fzero = fdot (sg_commitment S0) (map (fun u => nth j u fzero) U_all)).
    { intros j Hj. rewrite nth_row_mul, <- HU, map_map. f_equal. apply map_ext. intros r. clear -Hj. revert r j Hj. generalize (S n). intros m. induction m as [|m IH]; intros [|x r] [|j] Hj; cbn [firstn nth]; try lia; try reflexivity. apply IH. lia. }
    unfold extracted_chunks, extracted_r, dkg_extracted_chunks, dkg_extracted_r, pull_strategy. cbn [sg_commitment]. split.
    + apply map_ext_in. intros j Hj. apply in_seq in Hj. rewrite X, U_coeff by lia. destruct (Nat.ltb_spec j n); [reflexivity|lia].
    + rewrite X, U_coeff by lia. rewrite Nat.ltb_irrefl. reflexivity.
Qed.
End View.

(* a coalition prover is a prover against the central setup *)
Section Link.
Context {E : pairing}.
Notation K := (K_of E).
Notation F := (Fr E).
Notation e i env := (nth i env fzero).
Notation p := (modulus K).
Variables (n : nat) (cs : csys K) (xs : list F) (pf : profile) (domain : nat -> option (list F)) (fuel : nat) (b : Z) (gens : encryption_gens E).
Notation B := (ark_backend pf domain fuel).
Let ni := cs_num_inst cs.
Let nw := cs_num_wit cs.
Let nc := length (cs_cons cs).
Let N := length xs.
Hypothesis HG : eg_G gens <> gzero.
Hypothesis HH : eg_H gens <> gzero.
Hypothesis Hb : supported b.
Hypothesis HbM : 2 ^ b <= modulus K.
Hypothesis Hcount : chunks_count K b = Ok (Z.of_nat n).
Hypothesis Hn0 : (0 < n)%nat.
Hypothesis Hcs : generate_constraints (BitsizeCheckCircuit b (Z.of_nat n) None true) (@cs_new K Circuit.Setup) = Ok cs.
Hypothesis Hdomain : domain (nc + ni)%nat = Some xs.
Variables (before after : list (list F)).
Hypothesis Hbef : Forall (full n) before.
Hypothesis Haft : Forall (full n) after.
Notation KS := (ks n before after).
Notation K0 := (k0 n before after).
Notation KT := (kt n before after).
Let nb := length before.
Let mm := (length before + 1 + length after)%nat.
Let D7 := 3 * Z.of_nat N + 7 * (3 * Z.of_nat n + 6).

Definition shiftd (d : list F) : list F := firstn (5 + n) d ++ vadd (skipn (5 + n) d) (K0 :: KT).
Lemma shiftd_length d : length d = (2 * n + 6)%nat -> length (shiftd d) = (2 * n + 6)%nat.
Proof.
  intros Ld. unfold shiftd. rewrite app_length, firstn_length, (vadd_length _ _ (S n)); [lia|rewrite skipn_length; lia|].
  cbn [length]. f_equal. apply fcol_sum_length.
Qed.
Lemma shiftd_inj d d' : length d = (2 * n + 6)%nat -> length d' = (2 * n + 6)%nat -> shiftd d = shiftd d' -> d = d'.
Proof.
  intros L1 L2 Z. unfold shiftd in Z. apply parts_eq in Z; [|rewrite !firstn_length; lia]. destruct Z as [Z1 Z2].
  assert (Lk : length (K0 :: KT) = S n) by (cbn [length]; f_equal; apply fcol_sum_length).
  apply (vadd_inj _ _ _ (S n)) in Z2; [|rewrite skipn_length; lia|rewrite skipn_length; lia|exact Lk].
  rewrite <- (firstn_skipn (5 + n) d), <- (firstn_skipn (5 + n) d'), Z1, Z2. reflexivity.
Qed.
Lemma shiftd_split d w : length d = (2 * n + 6)%nat -> length w = S n -> exists al be ga de ta sh t0 t rho v,
  d = al :: be :: ga :: de :: ta :: sh ++ (t0 :: t) ++ [] /\ w = rho :: v /\ length sh = n /\ length t = n /\ length v = n /\
  central n before after (shiftd d) w = al :: be :: ga :: de :: ta :: rho :: vadd sh KS ++ (fadd t0 K0 :: vadd t KT) ++ v ++ [].
Proof.
  intros Ld Lw. destruct (central_split n cs xs b Hn0 before after 0 d w ltac:(lia) Lw) as (al & be & ga & de & ta & sh & t0 & t & rest & rho & v & Ed & Ew & L1 & L2 & L3 & L4 & _).
  destruct rest; [|discriminate]. exists al, be, ga, de, ta, sh, t0, t, rho, v. split; [exact Ed|]. split; [exact Ew|]. split; [exact L1|]. split; [exact L2|]. split; [exact L3|].
  pose proof (shiftd_length d Ld) as Ls.
  assert (Es : shiftd d = al :: be :: ga :: de :: ta :: sh ++ (fadd t0 K0 :: vadd t KT) ++ []).
  { unfold shiftd. rewrite Ed. change (5 + n)%nat with (S (S (S (S (S n))))). cbn [firstn skipn app]. rewrite !app_nil_r. do 5 f_equal.
    rewrite firstn_app, skipn_app, L1, Nat.sub_diag, firstn_O, app_nil_r, firstn_all2, skipn_all2 by lia. reflexivity. }
  destruct (central_split n cs xs b Hn0 before after 0 (shiftd d) w ltac:(lia) Lw) as (al' & be' & ga' & de' & ta' & sh' & t0' & t' & rest' & rho' & v' & Ed' & Ew' & L1' & L2' & L3' & L4' & Ec).
  destruct rest'; [|discriminate]. rewrite Ec. rewrite Es in Ed'. rewrite Ew in Ew'.
  change ([al; be; ga; de; ta] ++ sh ++ (fadd t0 K0 :: vadd t KT) ++ [] = [al'; be'; ga'; de'; ta'] ++ sh' ++ (t0' :: t') ++ []) in Ed'.
  apply parts_eq in Ed'; [|reflexivity]. destruct Ed' as [Z1 Z]. apply parts_eq in Z; [|congruence]. destruct Z as [Z2 Z3]. rewrite !app_nil_r in Z3.
  assert (Z4 : t0' = fadd t0 K0 /\ t' = vadd t KT) by (split; congruence). destruct Z4 as [-> ->].
  assert (Z5 : rho' = rho /\ v' = v) by (split; congruence). destruct Z5 as [-> ->].
  change ([al'; be'; ga'; de'; ta'] ++ rho :: vadd sh' KS ++ (fadd t0 K0 :: vadd t KT) ++ v ++ [] = [al; be; ga; de; ta] ++ rho :: vadd sh KS ++ (fadd t0 K0 :: vadd t KT) ++ v ++ []).
  rewrite <- Z1, Z2. reflexivity.
Qed.

(* If every strategy against the central setup is bad on few setups only, so is every coalition prover. *)
Lemma dkg_adaptive_bound (bad : list Z -> F -> ciphertext E -> proof E -> proving_key E -> encryption_key E -> Prop) (D : Z) (P : prover E) (L : list (list F)) :
  (forall St L0, NoDup L0 -> (forall l, In l L0 -> length l = (3 * n + 7)%nat /\ (vanishing_at xs (e 4 l) <> fzero -> exists pk sk ek dk st',
     setup_for_groth16 B (replay_rng E) b gens l = Ok (pk, sk, ek, dk, st') /\
     bad (extracted_chunks n St) (extracted_r n St) (forge_ciphertext St gens pk ek) (forge_proof St gens pk ek dk) pk ek)) ->
   Z.of_nat (length L0) * p <= D * p ^ Z.of_nat (3 * n + 7)) ->
  NoDup L ->
  (forall d, In d L -> length d = (2 * n + 6)%nat /\ exists run, dkg_execution pf B gens b before after [] d = Ok run /\
     let S0 := play P (dkg_g1 gens run) (dkg_g2 gens run) in
     bad (dkg_extracted_chunks n nb mm S0) (dkg_extracted_r n nb mm S0) (ciphertext_from S0 (dkg_g1 gens run)) (proof_from S0 (dkg_g1 gens run) (dkg_g2 gens run)) (dr_pk run) (dr_ek run)) ->
  Z.of_nat (length L) * p <= (Z.of_nat (tests P) * D7 + D) * p ^ Z.of_nat (2 * n + 6).
Proof.
  intros Hfix Hnd HL. pose proof (@modulus_gt1 K) as Hp. destruct (@all_tuples_exist K (S n)) as (T & T1 & T2). pose proof (all_tuples_count _ T T1 T2) as CT.
  assert (Lks : length KS = n) by apply fcol_sum_length. assert (Lkt : length KT = n) by apply fcol_sum_length.
  destruct (view_rows n (ni + nw + (ni + nw) + (N - 1) + nw) (ni + nw) gens KS K0 KT before after Lks Lkt Hbef Haft) as (rows1 & rows2 & HV & HX). fold nb mm in HX.
  pose proof (adaptive_bound n cs xs pf domain fuel b gens HG HH (bits_of _ b Hb HbM) Hcount Hn0 Hcs Hdomain
    (fun St l => exists pk sk ek dk st', setup_for_groth16 B (replay_rng E) b gens l = Ok (pk, sk, ek, dk, st') /\
       bad (extracted_chunks n St) (extracted_r n St) (forge_ciphertext St gens pk ek) (forge_proof St gens pk ek dk) pk ek) D (pull_prover rows1 rows2 P) Hfix
    (map (fun dw => central n before after (shiftd (fst dw)) (snd dw)) (list_prod L T))) as AB.
  rewrite map_length, prod_length, Nat2Z.inj_mul, CT, pull_tests in AB. fold N D7 in AB.
  assert (Pn : 0 < p ^ Z.of_nat (S n)) by (apply Z.pow_pos_nonneg; lia).
  apply (Z.mul_le_mono_pos_r _ _ _ Pn).
  replace ((Z.of_nat (tests P) * D7 + D) * p ^ Z.of_nat (2 * n + 6) * p ^ Z.of_nat (S n)) with ((Z.of_nat (tests P) * D7 + D) * p ^ Z.of_nat (3 * n + 7)).
  2: { replace (Z.of_nat (3 * n + 7)) with (Z.of_nat (2 * n + 6) + Z.of_nat (S n)) by lia. rewrite Z.pow_add_r by lia. ring. }
  replace (Z.of_nat (length L) * p * p ^ Z.of_nat (S n)) with (Z.of_nat (length L) * p ^ Z.of_nat (S n) * p) by ring.
  apply AB.
  - apply nodup_map_in; [|apply nodup_prod; assumption]. intros [d w] [d' w'] H1 H2 Z. apply in_prod_iff in H1, H2. destruct H1 as [H1 W1], H2 as [H2 W2]. cbn [fst snd] in Z.
    apply HL in H1, H2. destruct H1 as [H1 _], H2 as [H2 _]. apply (central_inj n cs xs b Hn0 before after 0) in Z; [|rewrite shiftd_length; lia|rewrite shiftd_length; lia|apply T2; exact W1|apply T2; exact W2].
    injection Z as Z ->. f_equal. apply shiftd_inj; assumption.
  - intros c Hc. apply in_map_iff in Hc. destruct Hc as ([d w] & <- & Hc). apply in_prod_iff in Hc. destruct Hc as [Hd Hw]. cbn [fst snd]. apply T2 in Hw. destruct (HL d Hd) as (Ld & run & Hrun & Hbad).
    destruct (shiftd_split d w Ld Hw) as (al & be & ga & de & ta & sh & t0 & t & rho & v & Ed & Ew & L1 & L2 & L3 & Ec). rewrite Ec.
    set (c := al :: be :: ga :: de :: ta :: rho :: vadd sh KS ++ (fadd t0 K0 :: vadd t KT) ++ v ++ []).
    assert (Lc : length c = (3 * n + 7)%nat) by (unfold c; cbn [length]; rewrite !app_length, (vadd_length _ _ n L1 Lks); cbn [length]; rewrite ?app_length, (vadd_length _ _ n L2 Lkt); cbn [length]; lia).
    split; [exact Lc|]. intros Hv. change (vanishing_at xs ta <> fzero) in Hv.
    destruct (srs_local n cs xs pf domain fuel b gens Hb HbM Hn0 Hcs Hdomain al be ga de ta Hv) as [(pk & Lg & Hsrs)|No].
    2: { exfalso. unfold dkg_execution, circuit_new in Hrun. rewrite Hcount in Hrun. cbn [bind] in Hrun. rewrite Ed in Hrun. apply bind_Ok_inv in Hrun. destruct Hrun as (r & Hr & _). exact (No _ _ Hr). }
    pose proof (setup_from_srs n cs xs pf domain fuel b gens Hcount Hn0 al be ga de ta pk rho (vadd sh KS) (fadd t0 K0) (vadd t KT) v [] Hsrs Lg (vadd_length _ _ n L1 Lks) (vadd_length _ _ n L2 Lkt) L3) as Hset.
    fold c in Hset. set (dk := dk_formula gens rho (vadd sh KS) v) in Hset.
    pose proof (dkg_run_ok n cs xs pf domain fuel b gens Hcount Hn0 before after Hbef Haft [] pk al be ga de ta sh t0 t [] [] [] Hsrs Lg L1 L2) as HR. cbv zeta in HR.
    specialize (HR eq_refl dk). rewrite <- Ed in HR. rewrite HR in Hrun. set (a := DView pk sh t0 t dk []) in *.
    assert (Er : v_run n gens KS K0 KT before after a = run) by congruence. clear Hrun HR. rewrite <- Er in Hbad. clear Er run.
    pose proof (setup_shape n cs xs pf domain fuel b gens (bits_of _ b Hb HbM) Hcount Hn0 Hcs Hdomain c pk rho _ dk [] Lc Hv Hset) as (_ & _ & S3 & S4 & S5 & S6 & S7 & _).
    assert (Ha : vgood n 0 (ni + nw + (ni + nw) + (N - 1) + nw) (ni + nw) a).
    { unfold vgood, a. cbn [v_sh v_t v_cps v_pk v_dk]. unfold v_gabc, v_queries. cbn [v_pk]. fold ni nw N in S3, S4, S5, S6, S7. repeat split; try assumption; try constructor.
      - rewrite !app_length, S3, S4, S6, S7. lia.
      - unfold dk, dk_formula. cbn [dk_V_1]. rewrite map_length, combine_length, (vadd_length _ _ n L1 Lks). lia.
      - unfold dk, dk_formula. cbn [dk_V_2]. rewrite map_length. exact L3. }
    destruct (HV a Ha) as [V1 V2]. cbv zeta in Hbad. rewrite V1, V2 in Hbad.
    change (dr_pk (v_run n gens KS K0 KT before after a)) with pk in Hbad. change (dr_ek (v_run n gens KS K0 KT before after a)) with (v_ek' gens KS K0 KT a) in Hbad.
    change (v_pk a) with pk in Hbad. change (v_dk a) with dk in Hbad. 
    exists pk, rho, (v_ek' gens KS K0 KT a), dk, []. split; [exact Hset|]. exists pk, rho, (v_ek' gens KS K0 KT a), dk, []. split; [exact Hset|].
    rewrite pull_play. set (S0 := play P _ _) in *. destruct (HX S0) as [-> ->].
    change (forge_ciphertext (pull_strategy rows1 rows2 S0) gens pk (v_ek' gens KS K0 KT a)) with (ciphertext_from (pull_strategy rows1 rows2 S0) (public_g1 gens pk (v_ek' gens KS K0 KT a))).
    change (forge_proof (pull_strategy rows1 rows2 S0) gens pk (v_ek' gens KS K0 KT a) dk) with
      (proof_from (pull_strategy rows1 rows2 S0) (public_g1 gens pk (v_ek' gens KS K0 KT a)) (public_g2 gens pk (v_ek' gens KS K0 KT a) dk)).
    rewrite pull_ciphertext, pull_proof. exact Hbad.
Qed.

(* every execution makes the keys of a central setup; the elements of the contributions come first *)
Lemma dkg_central d run : length d = (2 * n + 6)%nat -> vanishing_at xs (e 4 d) <> fzero -> dkg_execution pf B gens b before after [] d = Ok run ->
  exists c rho dk, length c = (3 * n + 7)%nat /\ e 4 c = e 4 d /\ setup_for_groth16 B (replay_rng E) b gens c = Ok (dr_pk run, rho, dr_ek run, dk, []) /\
  (exists P1, length P1 = (mm * (2 * n + 3))%nat /\ dkg_g1 gens run = P1 ++ public_g1 gens (dr_pk run) (dr_ek run)) /\
  (exists Q1 Q2, length Q1 = (mm * (n + 1))%nat /\ dkg_g2 gens run = Q1 ++ eg_H gens :: Q2).
Proof.
  intros Ld Hv Hrun. assert (Lks : length KS = n) by apply fcol_sum_length. assert (Lkt : length KT = n) by apply fcol_sum_length.
  destruct (shiftd_split d (repeat fzero (S n)) Ld ltac:(apply repeat_length)) as (al & be & ga & de & ta & sh & t0 & t & rho & v & Ed & Ew & L1 & L2 & L3 & Ec).
  set (c := al :: be :: ga :: de :: ta :: rho :: vadd sh KS ++ (fadd t0 K0 :: vadd t KT) ++ v ++ []) in Ec.
  assert (Lc : length c = (3 * n + 7)%nat) by (unfold c; cbn [length]; rewrite !app_length, (vadd_length _ _ n L1 Lks); cbn [length]; rewrite ?app_length, (vadd_length _ _ n L2 Lkt); cbn [length]; lia).
  assert (E4 : e 4 c = e 4 d) by (rewrite Ed; reflexivity).
  assert (Hv' : vanishing_at xs ta <> fzero) by (rewrite Ed in Hv; exact Hv).
  destruct (srs_local n cs xs pf domain fuel b gens Hb HbM Hn0 Hcs Hdomain al be ga de ta Hv') as [(pk & Lg & Hsrs)|No].
  2: { exfalso. unfold dkg_execution, circuit_new in Hrun. rewrite Hcount in Hrun. cbn [bind] in Hrun. rewrite Ed in Hrun. apply bind_Ok_inv in Hrun. destruct Hrun as (r & Hr & _). exact (No _ _ Hr). }
  pose proof (setup_from_srs n cs xs pf domain fuel b gens Hcount Hn0 al be ga de ta pk rho (vadd sh KS) (fadd t0 K0) (vadd t KT) v [] Hsrs Lg (vadd_length _ _ n L1 Lks) (vadd_length _ _ n L2 Lkt) L3) as Hset.
  fold c in Hset. set (dk := dk_formula gens rho (vadd sh KS) v) in Hset.
  pose proof (dkg_run_ok n cs xs pf domain fuel b gens Hcount Hn0 before after Hbef Haft [] pk al be ga de ta sh t0 t [] [] [] Hsrs Lg L1 L2) as HR. cbv zeta in HR.
  specialize (HR eq_refl dk). rewrite <- Ed in HR. rewrite HR in Hrun. set (a := DView pk sh t0 t dk []) in *.
  assert (Er : v_run n gens KS K0 KT before after a = run) by congruence. clear Hrun HR. rewrite <- Er.
  change (dr_pk (v_run n gens KS K0 KT before after a)) with pk. change (dr_ek (v_run n gens KS K0 KT before after a)) with (v_ek' gens KS K0 KT a).
  exists c, rho, dk. split; [exact Lc|]. split; [exact E4|]. split; [exact Hset|].
  assert (Lgi : length (v_g a) = n) by (unfold v_g, v_gabc, a; cbn [v_pk]; rewrite skipn_length; lia).
  assert (Lpf : forall s x t' d' c', length s = n -> length t' = n -> length (part_g1 (ekp_formula gens (v_g a) d' c' s x t')) = (2 * n + 2)%nat /\ length (ekp_Z (ekp_formula gens (v_g a) d' c' s x t')) = (n + 1)%nat).
  { intros s x t' d' c' Ls Lt. unfold part_g1. cbn [ekp_formula ekp_X_0 ekp_X ekp_Y ekp_P_2 ekp_Z]. rewrite !app_length, !map_length. cbn [length]. rewrite (scale_as_map t' (v_g a) n Lt) by lia. rewrite map_length, seq_length. lia. }
  assert (Lts : forall tape : list F, full n tape -> length (ts_s n tape) = n /\ length (ts_t n tape) = n) by (intros tape Hf; unfold ts_s, ts_t; rewrite firstn_length, skipn_length; unfold full in Hf; lia).
  assert (Lpart : forall q, In q (dr_parts (v_run n gens KS K0 KT before after a)) -> length (part_g1 q) = (2 * n + 2)%nat /\ length (ekp_Z q) = (n + 1)%nat).
  { intros q Hq. unfold v_run in Hq. cbn [dr_parts] in Hq. apply in_app_or in Hq. rewrite Forall_forall in Hbef, Haft. destruct Hq as [Hq|[<-|Hq]].
    - apply in_map_iff in Hq. destruct Hq as (tape & <- & Hi). destruct (Lts tape (Hbef _ Hi)). apply Lpf; assumption.
    - apply Lpf; assumption.
    - apply in_map_iff in Hq. destruct Hq as (tape & <- & Hi). destruct (Lts tape (Haft _ Hi)). apply Lpf; assumption. }
  assert (Np : length (dr_parts (v_run n gens KS K0 KT before after a)) = mm) by (unfold v_run; cbn [dr_parts]; rewrite app_length; cbn [length]; rewrite !map_length; unfold mm; lia).
  assert (Ns : length (dr_shares (v_run n gens KS K0 KT before after a)) = mm) by (unfold v_run; cbn [dr_shares]; rewrite app_length; cbn [length]; rewrite !map_length; unfold mm; lia).
  set (run' := v_run n gens KS K0 KT before after a) in *. split.
  - exists (concat (map part_g1 (dr_parts run')) ++ map p1_P_1 (dr_shares run')). split.
    + rewrite app_length, map_length, Ns, (concat_length_const part_g1 _ (2 * n + 2)) by (intros q Hq; apply Lpart; exact Hq). rewrite Np. lia.
    + unfold dkg_g1, table_g1. change (dr_cps run') with (@nil (ciphertext E * proof E)). cbn [map concat]. rewrite app_nil_r, <- app_assoc. reflexivity.
  - eexists (concat (map ekp_Z (dr_parts run'))), _. split.
    + rewrite (concat_length_const ekp_Z _ (n + 1)) by (intros q Hq; apply Lpart; exact Hq). rewrite Np. reflexivity.
    + unfold dkg_g2. cbn [app]. reflexivity.
Qed.
End Link.
