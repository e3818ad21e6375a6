(* Ballot.v -- the election of C88, seen as an attack of C80: the honest party's share of the sum of all ballots is a combination of what was on the
   table before, which depends on the sum of the clients' messages only *)
From Verif Require Import Base BaseFacts Algebra Utils UtilsFacts Setup Keygen Encryption Circuit CircuitFacts CircuitSat CommitmentFacts VecFacts KeySpec KeygenFacts
  EncryptFacts DecryptFacts Spec VerifyFacts Protocol ReencFacts DistFacts PropUtils PropEnc PropProto PropVerify Groth16 ArkGroth16 PolyFacts Groth16Spec ArkFacts Groth16Facts SchwartzZippel SoundCore SoundSpec
  SoundAlg SoundGame SoundLink SoundFacts SoundCount SoundHonest PropGroth16 PropSound PropSoundCases PropZK PrivacySpec PrivacyAlg PrivacyGame PrivacyLink PrivacyCount PrivacySpan PrivacyMany
  PrivacyDkgSpec PrivacyDkg SoundAdaptSpec SoundAdapt SoundDkgSpec SoundDkg NonmalCore NonmalAlg NonmalSpec NonmalGame NonmalRows NonmalLink NonmalCount PropNonmal NonmalDkg
  CcaSpec Cca CcaCount PropMalleable PropCca PropReencExact RccaSpec RccaTest RccaCount RccaDkgSpec RccaDkg PropRccaDkg RushSpec InsiderSpec Insider PropInsider LateSpec TallySpec PropTally BallotSpec.

(* ---------- sums of rows ---------- *)
Section Rows.
Context {E : pairing}.
Notation K := (K_of E).
Notation F := (Fr E).
Add Ring Kro : (@scalar_ring_theory K).
Definition sumrow (l : list (list F)) : list F := fold_right padd [] l.
Lemma dot_nil_l {V : group K} (l : list V) : dot (@nil F) l = gzero.
Proof. destruct l; reflexivity. Qed.
Lemma dot_sumrow {V : group K} (l : list (list F)) (v : list V) : dot (sumrow l) v = gsum (map (fun r => dot r v) l).
Proof. induction l as [|r l IH]; [apply dot_nil_l|]. cbn [sumrow fold_right map]. rewrite dot_padd. rewrite gsum_cons. f_equal. exact IH. Qed.
Lemma nth_back {A} (d : A) (q w p : list A) i : (i < length w)%nat -> nth (length (q ++ w ++ p) - length p - length w + i) (q ++ w ++ p) d = nth i w d.
Proof.
  intros Hi. rewrite !app_length. replace (length q + (length w + length p) - length p - length w + i)%nat with (length q + i)%nat by lia.
  rewrite app_nth2 by lia. replace (length q + i - length q)%nat with i by lia. apply app_nth1. exact Hi.
Qed.
End Rows.

Section Total.
Context {E : pairing}.
Notation K := (K_of E).
Notation F := (Fr E).
Add Ring Krt : (@scalar_ring_theory K).
Variables (n nb mm : nat) (ks : list F) (len1 len2 : nat -> nat).
(* the share of the sum: M the sum of the clients' messages, r the sum of the coalition's random numbers *)
Definition total_row (j : nat) (rows : list (list F)) (M : list Z) (r rho : F) (dest : list F) (i : nat) : list F :=
  padd (sumrow (map (fun l => padd (map (fmul (nth i ks fzero)) (unit_row (len1 j - j * (n + 4) + (l * (n + 4) + 0)))) (map (fmul (fneg fone)) (unit_row (len1 j - j * (n + 4) + (l * (n + 4) + (1 + i)))))) (seq 0 j)))
    (padd (map (fmul (of_Z (nth i M 0))) (unit_row (len1 j - j * (n + 4) - (2 * n + 2) + i)))
      (padd (map (fmul (fneg r)) (unit_row (nb * (2 * n + 2) + (1 + i)))) (map (fmul rho) (row_mul dest (I1 len1 j rows))))).
Definition total_rows (j : nat) (rows : list (list F)) (M : list Z) (r rho : F) (dest : list F) : list (list F) :=
  map (total_row j rows M r rho dest) (seq 0 n) ++ [map (fmul rho) (unit_row (mm * (2 * n + 3) + (n + 1)))].

Variables (gens : encryption_gens E) (b : Z) (keys : dkg_keys E) (honest : secret_key_st E) (part : ek_partial E) (g_i : list (G1 E)) (delta gamma : G1 E).
Hypothesis Hcount : chunks_count K b = Ok (Z.of_nat n).
Hypothesis Hg : get_gs_for_encryption (gpk_vk (pk_pk (kg_pk keys))) = Ok g_i.
Hypothesis Lg : length g_i = n.
Hypothesis Hd : from_dkg b gens g_i delta gamma (kg_parties keys) (kg_ek keys).
Hypothesis Hnth : nth_error (kg_parties keys) nb = Some (honest, part).
Hypothesis Lps : length (kg_parties keys) = mm.
Hypothesis Lsh : length (kg_shares keys) = mm.
Hypothesis Hks : forall i, (i < n)%nat -> nth i (ek_X (kg_ek keys)) gzero = fadd (nth i (st_s honest) fzero) (nth i ks fzero) [*] delta.
Notation T1 cps := (dkg_g1 gens (public_run keys cps)).

Lemma honest_facts : ekp_X part = map (fun x => x [*] delta) (st_s honest) /\ length (st_s honest) = n /\ ek_X_0 (kg_ek keys) = delta /\ length (ek_Y (kg_ek keys)) = n /\ length (ek_X (kg_ek keys)) = n.
Proof. eapply honest_secrets; eassumption. Qed.
Lemma gs_shape : exists x, vk_gamma_abc_g1 (gpk_vk (pk_pk (kg_pk keys))) = x :: g_i.
Proof.
  pose proof Hg as H. unfold get_gs_for_encryption, slice_from in H. destruct (vk_gamma_abc_g1 (gpk_vk (pk_pk (kg_pk keys)))) as [|x l]; cbn [length Nat.leb] in H; [discriminate H|].
  exists x. f_equal. assert (I : forall A (u w : A), Ok u = Ok w -> u = w) by congruence. apply I in H. exact H.
Qed.
Lemma table_shape cps : exists q, T1 cps = q ++ (g_i ++ [ek_X_0 (kg_ek keys)] ++ ek_X (kg_ek keys) ++ [ek_P_2 (kg_ek keys)]) ++ concat (map pair_g1 cps).
Proof.
  destruct gs_shape as (x & Hx). unfold dkg_g1, table_g1, public_g1. cbn [public_run dr_parts dr_shares dr_pk dr_ek dr_cps]. cbv zeta. rewrite Hx.
  eexists. rewrite !app_assoc. change (x :: g_i) with ([x] ++ g_i). rewrite !app_assoc. reflexivity.
Qed.
Definition well (cps : list (ciphertext E * proof E)) : Prop := Forall (fun cp => length (ct_enc_chunks (fst cp)) = n) cps.
Lemma pairs_blocks cps : well cps -> Forall (fun x : list (G1 E) => length x = (n + 4)%nat) (map pair_g1 cps).
Proof. intros W. apply Forall_map. eapply Forall_impl; [|exact W]. intros cp H. cbv beta in H. unfold pair_g1. rewrite !app_length. cbn [length]. lia. Qed.
Lemma pairs_length cps : well cps -> length (concat (map pair_g1 cps)) = (length cps * (n + 4))%nat.
Proof. intros W. rewrite (concat_blocks_length _ _ (pairs_blocks _ W)), map_length. reflexivity. Qed.
Lemma at_pair cps j l i : well cps -> length cps = j -> length (T1 cps) = len1 j -> (l < j)%nat -> (i < n + 4)%nat ->
  nth (len1 j - j * (n + 4) + (l * (n + 4) + i)) (T1 cps) gzero = nth i (pair_g1 (nth l cps cp0)) gzero.
Proof.
  intros W Lj L1 Hl Hi. destruct (table_shape cps) as (q & Hq). pose proof (pairs_length cps W) as PL. rewrite Lj in PL. rewrite app_assoc in Hq. rewrite <- L1. rewrite Hq. rewrite app_length, PL.
  set (qq := q ++ _) in *. replace (length qq + j * (n + 4) - j * (n + 4) + (l * (n + 4) + i))%nat with (length qq + (l * (n + 4) + i))%nat by lia.
  rewrite app_nth2 by lia. replace (length qq + (l * (n + 4) + i) - length qq)%nat with (l * (n + 4) + i)%nat by lia.
  rewrite (nth_concat_blocks _ gzero i _ l (pairs_blocks _ W)) by (rewrite ?map_length; lia). rewrite (nth_indep _ [] (pair_g1 cp0)) by (rewrite map_length; lia). rewrite map_nth. reflexivity.
Qed.
Lemma at_gi cps j i : well cps -> length cps = j -> length (T1 cps) = len1 j -> (i < n)%nat -> nth (len1 j - j * (n + 4) - (2 * n + 2) + i) (T1 cps) gzero = nth i g_i gzero.
Proof.
  intros W Lj L1 Hi. destruct (table_shape cps) as (q & Hq). pose proof (pairs_length cps W) as PL. rewrite Lj in PL. destruct honest_facts as (_ & _ & _ & _ & LX). rewrite <- L1, Hq, <- PL.
  set (w := g_i ++ _) in *. assert (Lw : length w = (2 * n + 2)%nat) by (unfold w; rewrite !app_length, LX, Lg; cbn [length]; lia). rewrite <- Lw, nth_back by lia. unfold w. apply app_nth1. lia.
Qed.

Definition enc (mr : list Z * F) (cp : ciphertext E * proof E) : Prop := encrypts (kg_ek keys) g_i (fst mr) (ct_vec (fst cp)) (snd mr).
Lemma enc_inv mr cp : enc mr cp -> length (fst mr) = n /\ length (ct_enc_chunks (fst cp)) = n /\ ct_X_r (fst cp) = snd mr [*] delta /\
  forall i, (i < n)%nat -> nth i (ct_enc_chunks (fst cp)) gzero = (snd mr [*] (fadd (nth i (st_s honest) fzero) (nth i ks fzero) [*] delta)) [+] (of_Z (nth i (fst mr) 0) [*] nth i g_i gzero).
Proof.
  intros H. apply encrypts_inv in H. destruct H as (n' & HW & Lm & _ & Hct). destruct honest_facts as (_ & _ & X0 & _ & LX). assert (En : n' = n) by (unfold wf_key in HW; lia). rewrite En in *. clear En n'.
  assert (Ect : fst cp = ct_formula (kg_ek keys) g_i (fst mr) (snd mr)).
  { pose proof (ct_of_vec_ct_vec (fst cp)) as Z1. pose proof (ct_of_vec_ct_vec (ct_formula (kg_ek keys) g_i (fst mr) (snd mr))) as Z2. rewrite Hct in Z1. rewrite Z2 in Z1. congruence. }
  rewrite Ect. cbn [ct_formula ct_X_r ct_enc_chunks]. rewrite body_formula_length. split; [exact Lm|]. split; [exact Lm|]. split; [rewrite X0; reflexivity|].
  intros i Hi. rewrite body_formula_nth by lia. rewrite Hks by exact Hi. reflexivity.
Qed.
Lemma pair_0 (cp : ciphertext E * proof E) : nth 0 (pair_g1 cp) gzero = ct_X_r (fst cp). Proof. reflexivity. Qed.
Lemma pair_S (cp : ciphertext E * proof E) i : (i < length (ct_enc_chunks (fst cp)))%nat -> nth (1 + i) (pair_g1 cp) gzero = nth i (ct_enc_chunks (fst cp)) gzero.
Proof. intros Hi. unfold pair_g1. cbn [app Nat.add nth]. apply app_nth1. exact Hi. Qed.

Lemma clients_part hs cps i : Forall2 enc hs cps -> (i < n)%nat ->
  gsum (map (fun cp : ciphertext E * proof E => (nth i ks fzero [*] ct_X_r (fst cp)) [+] (fneg fone [*] nth i (ct_enc_chunks (fst cp)) gzero)) cps) [+] (of_Z (fold_right (fun m acc => nth i m 0 + acc) 0 (map fst hs)) [*] nth i g_i gzero) =
  fneg (nth i (st_s honest) fzero) [*] (fsum (map snd hs) [*] delta).
Proof.
  intros H Hi. induction H as [|mr cp hs cps He _ IH].
  - cbn [map fold_right]. rewrite gsum_nil. change (of_Z 0) with (@fzero K). change (fsum (@nil F)) with (@fzero K). glin.
  - cbn [map fold_right]. rewrite gsum_cons, fsum_cons, of_Z_add. destruct (enc_inv _ _ He) as (_ & _ & X & C). rewrite X, (C i Hi).
    transitivity (((fneg (nth i (st_s honest) fzero) [*] (snd mr [*] delta))) [+] (fneg (nth i (st_s honest) fzero) [*] (fsum (map snd hs) [*] delta))); [|glin].
    rewrite <- IH. set (s := gsum _). glin.
Qed.

Theorem total_simulated (H : rng_impl E) sh cps mine hs os rows dest : Forall2 enc hs cps -> Forall2 enc os mine -> cps ++ mine <> [] -> length (T1 cps) = len1 (length cps) ->
  tally_share H gens honest (cps ++ mine) (dot dest (T1 cps ++ combos rows (T1 cps))) sh =
  Ok (combos (total_rows (length cps) rows (chunk_sum n (map fst hs)) (fsum (map snd os)) (fst (rand_scalar H sh)) dest) (T1 cps)).
Proof.
  intros Hh Ho Hne L1. destruct honest_facts as (_ & Ls & X0 & _ & LX). set (all := hs ++ os).
  assert (Hall : Forall2 enc all (cps ++ mine)) by (apply Forall2_app; assumption).
  assert (Hc : Forall2 (fun mr ct => encrypts (kg_ek keys) g_i (fst mr) ct (snd mr)) (combine (map fst all) (map snd all)) (map (fun cp : ciphertext E * proof E => ct_vec (fst cp)) (cps ++ mine))).
  { clear - Hall. induction Hall as [|mr cp l l' He _ IH]; cbn [map combine]; constructor; [exact He|exact IH]. }
  assert (Hl : length (map fst all) = length (map snd all)) by (rewrite !map_length; reflexivity).
  assert (Hne' : map (fun cp : ciphertext E * proof E => ct_vec (fst cp)) (cps ++ mine) <> []) by (destruct (cps ++ mine); [contradiction|discriminate]).
  destruct (sum_exists _ _ _ _ _ Hne' Hl Hc) as (c_0 & c & psi & Hs & Hlc & Hlm). rewrite LX in Hlc, Hlm.
  pose proof (sum_encrypts _ _ _ _ _ _ Hne' Hl Hc Hs) as He. apply encrypts_inv in He. destruct He as (n' & _ & _ & _ & He).
  assert (E0 : c_0 = fsum (map snd all) [*] delta) by (rewrite <- X0; exact (f_equal (hd gzero) He)). clear He.
  unfold tally_share. fold (@ct_vec E). change (fun ballot : ciphertext E * proof E => ct_X_r (fst ballot) :: ct_enc_chunks (fst ballot) ++ [ct_commitment (fst ballot)]) with (fun cp : ciphertext E * proof E => ct_vec (fst cp)).
  rewrite Hs. cbn [bind]. change (c_0 :: c ++ [psi]) with (ct_vec (Ciphertext c_0 c psi)). rewrite ct_of_vec_ct_vec. cbn [bind ct_X_r ct_enc_chunks].
  set (ekd := FEncryptionKeyDest _). destruct (C79_share_exact E H gens c_0 c ekd honest sh) as [X _]. cbv zeta in X. destruct (X ltac:(lia)) as (w & Hw & Lw & Hwi). clear X. set (rho := fst (rand_scalar H sh)) in *.
  rewrite Hw. cbn [bind]. f_equal. unfold total_rows. rewrite combos_app. cbn [combos map]. f_equal.
  2:{ rewrite dot_map_fmul, dot_unit_row. f_equal. f_equal. symmetry. eapply at_G; eassumption. }
  assert (W : well cps).
  { clear - Hh Hks Hcount Hnth Hg Hd Lg Lps Lsh. unfold well. induction Hh as [|mr cp l l' He _ IH]; constructor; [|exact IH]. apply (enc_inv _ _ He). }
  unfold combos. rewrite map_map. apply (nth_ext _ _ gzero gzero); [rewrite map_length, seq_length; lia|]. intros i Hi. rewrite Hwi by lia. rewrite Lw, Hlc in Hi.
  set (f := fun i0 => dot _ _). rewrite (nth_indep _ gzero (f 0%nat)) by (rewrite map_length, seq_length; lia). rewrite (map_nth f), seq_nth by lia. unfold f. cbn [Nat.add]. clear f.
  unfold total_row. rewrite !dot_padd, dot_sumrow, map_map, !dot_map_fmul, !dot_unit_row, dot_row_mul.
  rewrite I1_combos by exact L1. rewrite (at_gi cps _ i W eq_refl L1 Hi).
  assert (As : nth (nb * (2 * n + 2) + (1 + i)) (T1 cps) gzero = nth i (st_s honest) fzero [*] delta) by (eapply at_share; eassumption). rewrite As.
  unfold ekd. cbn [ekd_pk]. set (D := dot dest _). rewrite E0. unfold all. rewrite map_app.
  assert (Fs : fsum (map snd hs ++ map snd os) = fadd (fsum (map snd hs)) (fsum (map snd os))) by apply fsum_app. rewrite Fs.
  assert (Lv : Forall (fun m : list Z => length m = n) (map fst hs)) by (unfold all in Hlm; rewrite map_app in Hlm; apply Forall_app in Hlm; apply Hlm).
  rewrite (chunk_sum_nth n (map fst hs) i Lv).
  assert (Cp : gsum (map (fun l => dot (padd (map (fmul (nth i ks fzero)) (unit_row (len1 (length cps) - length cps * (n + 4) + (l * (n + 4) + 0)))) (map (fmul (fneg fone)) (unit_row (len1 (length cps) - length cps * (n + 4) + (l * (n + 4) + (1 + i)))))) (T1 cps)) (seq 0 (length cps))) =
    gsum (map (fun cp : ciphertext E * proof E => (nth i ks fzero [*] ct_X_r (fst cp)) [+] (fneg fone [*] nth i (ct_enc_chunks (fst cp)) gzero)) cps)).
  { f_equal. apply (nth_ext _ _ gzero gzero); [rewrite !map_length, seq_length; reflexivity|]. intros l Hl'. rewrite map_length, seq_length in Hl'.
    set (f := fun l0 => dot _ _). rewrite (nth_indep _ gzero (f 0%nat)) by (rewrite map_length, seq_length; exact Hl'). rewrite (map_nth f), seq_nth by exact Hl'. unfold f. cbn [Nat.add].
    rewrite dot_padd, !dot_map_fmul, !dot_unit_row. change (S i) with (1 + i)%nat. rewrite !(at_pair cps _ l) by (try assumption; try reflexivity; lia).
    set (h := fun cp : ciphertext E * proof E => _). rewrite (nth_indep (map h cps) gzero (h cp0)) by (rewrite map_length; exact Hl'). rewrite (map_nth h). unfold h. rewrite pair_0. f_equal. f_equal. apply pair_S.
    unfold well in W. rewrite Forall_forall in W. rewrite (W (nth l cps cp0)) by (apply nth_In; exact Hl'). exact Hi. }
  rewrite Cp. pose proof (clients_part hs cps i Hh Hi) as CP.
  set (D' := D) in *. clearbody D'. clear Cp. set (mg := of_Z _ [*] nth i g_i gzero) in CP.
  transitivity ((fneg (nth i (st_s honest) fzero) [*] (fsum (map snd hs) [*] delta)) [+] ((fneg (fsum (map snd os)) [*] (nth i (st_s honest) fzero [*] delta)) [+] (rho [*] D'))).
  { set (o := fsum (map snd os)). set (h0 := fsum (map snd hs)). set (s := nth i (st_s honest) fzero). glin. }
  rewrite <- CP. unfold mg. set (g0 := gsum _). set (mg' := of_Z _ [*] _). set (oo := fneg _ [*] _). glin.
Qed.
End Total.
