(* Cca.v -- attackers with a decryption service: the service's answers can be predicted (for C77) *)
From Verif Require Import Base BaseFacts Algebra Utils UtilsFacts Setup Keygen Encryption Circuit CircuitFacts CircuitSat CommitmentFacts VecFacts KeySpec KeygenFacts
  EncryptFacts DecryptFacts Spec VerifyFacts Protocol ReencFacts DistFacts PropVerify Groth16 ArkGroth16 PolyFacts Groth16Spec ArkFacts Groth16Facts SchwartzZippel SoundCore SoundSpec
  SoundAlg SoundGame SoundLink SoundFacts SoundCount SoundHonest PropGroth16 PropSound PropSoundCases PropZK PrivacySpec PrivacyAlg PrivacyGame PrivacyLink PrivacyCount PrivacySpan PrivacyMany
  SoundDkgSpec SoundDkg SoundAdaptSpec SoundAdapt PropSoundAdapt NonmalCore NonmalAlg NonmalSpec NonmalGame NonmalRows NonmalLink NonmalCount CcaSpec.

Section Products.
Context {E : pairing}.
Notation K := (K_of E).
Notation F := (Fr E).
Add Ring Kr : (@scalar_ring_theory K).

(* ---------- the two verification equations as products of pairings of elements of the table ---------- *)
Fixpoint q_pdot (rows : list (list F)) (i : nat) : list (list F) :=
  match rows with [] => [] | row :: rows' => mat_add (outer row (unit_row i)) (q_pdot rows' (S i)) end.
Lemma pp_q_pdot (Ps : list (G1 E)) (Qs : list (G2 E)) rows : forall i, (i + length rows <= length Qs)%nat -> pairing_product (q_pdot rows i) Ps Qs = pdot (map (fun r => dot r Ps) rows) (skipn i Qs).
Proof.
  induction rows as [|row rows IH]; intros i Hi; cbn [q_pdot map]; [rewrite pp_nil; reflexivity|]. cbn [length] in Hi. rewrite pp_add, pp_outer, dot_unit_row, IH by lia.
  assert (Hs : skipn i Qs = nth i Qs gzero :: skipn (S i) Qs).
  { clear IH. revert i Hi; induction Qs as [|Q Qs IHQ]; intros i Hi; [cbn [length] in Hi; lia|]. destruct i as [|i]; [reflexivity|]. cbn [skipn nth]. apply IHQ. cbn [length] in Hi. lia. }
  rewrite Hs. reflexivity.
Qed.
Lemma pdot_app (ps : list (G1 E)) (qs qs' : list (G2 E)) : length ps = length qs -> pdot ps (qs ++ qs') = pdot ps qs.
Proof. revert qs; induction ps as [|P ps IH]; intros [|Q qs] Hl; cbn [length] in Hl; try lia; [destruct qs'; reflexivity|]. cbn [app pdot]. rewrite IH by lia. reflexivity. Qed.
Definition neg (a : list F) : list F := map (fmul (fneg fone)) a.
Lemma dot_neg {G : group K} a (l : list G) : dot (neg a) l = [-] dot a l.
Proof. unfold neg. rewrite dot_map_fmul. glin. Qed.
Definition sum_rows (rows : list (list F)) : list F := fold_right padd [] rows.
Lemma dot_sum_rows {G : group K} rows (l : list G) : dot (sum_rows rows) l = gsum (map (fun r => dot r l) rows).
Proof. induction rows as [|r rows IH]; cbn [sum_rows fold_right map]; [destruct l; reflexivity|]. fold (sum_rows rows). rewrite dot_padd, IH. reflexivity. Qed.

Section Eqs.
Variables (iz ia : nat).   (* positions of Z_0 in G2 and of the constant term of the verifying key in G1 *)
Variable n : nat.
Definition q_com (St : strategy E) : list (list F) := mat_add (q_pdot (sg_X_r St :: sg_chunks St) iz) (outer (neg (sg_commitment St)) (unit_row 0)).
Definition q_qap (St : strategy E) : list (list F) :=
  mat_add (outer (sg_a St) (sg_b St)) (mat_add (outer (neg (sg_c St)) (unit_row 3))
    (mat_add (outer (neg (sum_rows (sg_X_r St :: sg_chunks St))) (unit_row 2)) (mat_add (outer (neg (unit_row ia)) (unit_row 2)) (outer (neg (unit_row (n + 2))) (unit_row 1))))).
Lemma accept_products gens (pk : proving_key E) ek g0 gs (T1 : list (G1 E)) (T2 : list (G2 E)) (St : strategy E) rest2 : wf_key n ek ->
  vk_gamma_abc_g1 (gpk_vk (pk_pk pk)) = g0 :: gs -> nth ia T1 gzero = g0 -> nth (n + 2) T1 gzero = vk_alpha_g1 (gpk_vk (pk_pk pk)) ->
  nth 0 T2 gzero = eg_H gens -> nth 1 T2 gzero = vk_beta_g2 (gpk_vk (pk_pk pk)) -> nth 2 T2 gzero = vk_gamma_g2 (gpk_vk (pk_pk pk)) -> nth 3 T2 gzero = vk_delta_g2 (gpk_vk (pk_pk pk)) ->
  skipn iz T2 = ek_Z ek ++ rest2 ->
  (verify_commitment_and_proof (ciphertext_from St T1) (proof_from St T1 T2) (prepare_verifying_key (gpk_vk (pk_pk pk))) (prepare_ek ek) (prepare_gens gens) = Ok tt <->
   length (sg_chunks St) = n /\ pairing_product (q_com St) T1 T2 = gzero /\ pairing_product (q_qap St) T1 T2 = gzero).
Proof.
  intros Hwf Hg Ha Hal H0 H1 H2 H3 Hz. unfold verify_commitment_and_proof.
  assert (C : verify_commitment (ciphertext_from St T1) (prepare_ek ek) (prepare_gens gens) = Ok tt <-> length (sg_chunks St) = n /\ pairing_product (q_com St) T1 T2 = gzero).
  { rewrite (verify_accept n) by exact Hwf. cbn [ciphertext_from ct_enc_chunks]. rewrite map_length. destruct Hwf as (_ & _ & _ & LZ).
    assert (X : length (sg_chunks St) = n -> pairing_product (q_com St) T1 T2 = defect ek gens (ciphertext_from St T1)).
    { intros Hl. unfold q_com. rewrite pp_add, pp_outer, dot_unit_row, dot_neg, H0, pp_q_pdot, Hz.
      - unfold defect. cbn [ciphertext_from ct_X_r ct_enc_chunks ct_commitment]. cbn [map]. rewrite pdot_app by (cbn [length]; rewrite map_length; lia). rewrite pair_neg_l. reflexivity.
      - cbn [length]. assert (length (skipn iz T2) = length (ek_Z ek ++ rest2)) by (rewrite Hz; reflexivity). rewrite skipn_length, app_length in H. lia. }
    split; intros [Y1 Y2]; (split; [exact Y1|]); [rewrite X by exact Y1; exact Y2|rewrite <- X by exact Y1; exact Y2]. }
  assert (Q : verify_proof (prepare_verifying_key (gpk_vk (pk_pk pk))) (proof_from St T1 T2) (ciphertext_from St T1) = Ok tt <-> pairing_product (q_qap St) T1 T2 = gzero).
  { rewrite (verify_proof_unfold _ _ _ g0 gs Hg). unfold q_qap. rewrite !pp_add, !pp_outer, !dot_neg, !dot_unit_row, dot_sum_rows, Ha, Hal, H1, H2, H3.
    cbn [proof_from ciphertext_from pr_a pr_b pr_c ct_X_r ct_enc_chunks map]. rewrite gsum_cons. rewrite !pair_neg_r, !pair_neg_l, pair_add_l.
    set (x1 := pair (dot (sg_a St) T1) _). set (x2 := pair (dot (sg_c St) T1) _). set (x3 := pair (dot (sg_X_r St) T1 [+] _) _). set (x4 := pair g0 _). set (x5 := pair (vk_alpha_g1 _) _). clearbody x1 x2 x3 x4 x5.
    destruct (geqb (x1 [+] [-] x2 [+] [-] (x3 [+] x4)) x5) eqn:Z; [apply geqb_spec in Z|].
    - split; [intros _|reflexivity]. rewrite <- Z. glin.
    - split; [discriminate|]. intros Y. exfalso. assert (Z' : geqb (x1 [+] [-] x2 [+] [-] (x3 [+] x4)) x5 = true); [|congruence]. apply geqb_spec.
      apply gsub_zero_eq. rewrite <- Y. glin. }
  split.
  - intros V. destruct (verify_commitment _ _ _) as [[]|err|] eqn:Z1; try discriminate V. cbn [bind] in V. destruct (proj1 C eq_refl). split; [assumption|]. split; [assumption|apply Q; exact V].
  - intros (Y1 & Y2 & Y3). rewrite (proj2 C (conj Y1 Y2)). cbn [bind]. apply Q. exact Y3.
Qed.
End Eqs.

(* ---------- attackers whose submissions are answered by a prediction ---------- *)
Section Ideal.
Variables (R : Type) (n : nat) (qc qq : strategy E -> list (list F)) (pred : strategy E -> reply).
Definition ideal_reply (St : strategy E) (Ps : list (G1 E)) (Qs : list (G2 E)) : reply :=
  if Nat.eqb (length (sg_chunks St)) n then if geqb (pairing_product (qc St) Ps Qs) gzero then if geqb (pairing_product (qq St) Ps Qs) gzero then pred St else Refused else Refused else Refused.
Fixpoint ideal (A : attacker E R) (Ps : list (G1 E)) (Qs : list (G2 E)) : R :=
  match A with
  | Done r => r
  | Check q A1 A2 => if geqb (pairing_product q Ps Qs) gzero then ideal A1 Ps Qs else ideal A2 Ps Qs
  | Submit St next => ideal (next (ideal_reply St Ps Qs)) Ps Qs
  end.
Section Fold.
Context {X : Type}.
Variables (leaf : R -> X) (node : list (list F) -> X -> X -> X) (ev : X -> list (G1 E) -> list (G2 E) -> R).
Fixpoint tree (A : attacker E R) : X :=
  match A with
  | Done r => leaf r
  | Check q A1 A2 => node q (tree A1) (tree A2)
  | Submit St next => if Nat.eqb (length (sg_chunks St)) n then node (qc St) (node (qq St) (tree (next (pred St))) (tree (next Refused))) (tree (next Refused)) else tree (next Refused)
  end.
Lemma tree_ideal A Ps Qs : (forall r, ev (leaf r) Ps Qs = r) -> (forall q x y, ev (node q x y) Ps Qs = if geqb (pairing_product q Ps Qs) gzero then ev x Ps Qs else ev y Ps Qs) -> ev (tree A) Ps Qs = ideal A Ps Qs.
Proof.
  intros Hl Hn. induction A as [r|q A1 IH1 A2 IH2|St next IH]; cbn [tree ideal]; [apply Hl|rewrite Hn, IH1, IH2; reflexivity|]. unfold ideal_reply.
  destruct (Nat.eqb _ _); [|apply IH]. rewrite !Hn, !IH. destruct (geqb _ _); [|reflexivity]. destruct (geqb _ _); reflexivity.
Qed.
Lemma tree_size (size : X -> nat) A t q : (forall r, size (leaf r) = 0%nat) -> (forall q x y, size (node q x y) = S (Nat.max (size x) (size y))) -> within t q A -> (size (tree A) <= t + 2 * q)%nat.
Proof.
  intros Hl Hn W. induction W as [t q r|t q m A1 A2 W1 IH1 W2 IH2|t q St next W IH]; cbn [tree]; [rewrite Hl; lia|rewrite Hn; lia|].
  pose proof (IH (pred St)). pose proof (IH Refused). destruct (Nat.eqb _ _); [|lia]. rewrite !Hn. lia.
Qed.
End Fold.
(* the prover that outputs the i-th submission of the attacker with predicted answers *)
Fixpoint nth_submission (i : nat) (A : attacker E R) : prover E :=
  match A with
  | Done r => Output dS
  | Check q A1 A2 => Test q (nth_submission i A1) (nth_submission i A2)
  | Submit St next =>
    match i with
    | O => Output St
    | S j => if Nat.eqb (length (sg_chunks St)) n then Test (qc St) (Test (qq St) (nth_submission j (next (pred St))) (nth_submission j (next Refused))) (nth_submission j (next Refused)) else nth_submission j (next Refused)
    end
  end.
Lemma nth_submission_tests A t q : within t q A -> forall i, (tests (nth_submission i A) <= t + 2 * q)%nat.
Proof.
  intros W. induction W as [t q r|t q m A1 A2 W1 IH1 W2 IH2|t q St next W IH]; intros i; cbn [nth_submission tests]; [lia|specialize (IH1 i); specialize (IH2 i); lia|].
  destruct i as [|j]; [cbn [tests]; lia|]. pose proof (IH (pred St) j). pose proof (IH Refused j). destruct (Nat.eqb _ _); cbn [tests]; lia.
Qed.
Lemma reply_dec (x y : reply) : {x = y} + {x <> y}.
Proof. decide equality. apply (list_eq_dec Z.eq_dec). Qed.
Lemma first_difference serve A t q Ps Qs : within t q A -> attack serve A Ps Qs = ideal A Ps Qs \/
  exists i, (i < q)%nat /\ let St := play (nth_submission i A) Ps Qs in serve (ciphertext_from St Ps) (proof_from St Ps Qs) <> ideal_reply St Ps Qs.
Proof.
  intros W. induction W as [t q r|t q m A1 A2 W1 IH1 W2 IH2|t q St next W IH]; cbn [attack ideal]; [left; reflexivity| |].
  - cbn [nth_submission play]. destruct (geqb (pairing_product m Ps Qs) gzero); [exact IH1|exact IH2].
  - destruct (reply_dec (serve (ciphertext_from St Ps) (proof_from St Ps Qs)) (ideal_reply St Ps Qs)) as [Z|Z]; [rewrite Z|right; exists 0%nat; split; [lia|exact Z]].
    destruct (IH (ideal_reply St Ps Qs)) as [Y|(i & Hi & Y)]; [left; exact Y|right]. exists (S i). split; [lia|]. cbv zeta in Y. cbv zeta. cbn [nth_submission].
    unfold ideal_reply in Y at 1 2 4. revert Y. unfold ideal_reply at 1. destruct (Nat.eqb (length (sg_chunks St)) n); [|intros Y; exact Y]. cbn [play].
    destruct (geqb (pairing_product (qc St) Ps Qs) gzero); [|intros Y; exact Y]. destruct (geqb (pairing_product (qq St) Ps Qs) gzero); intros Y; exact Y.
Qed.
End Ideal.
End Products.
