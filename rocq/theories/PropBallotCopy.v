(* PropBallotCopy.v -- C88, the other side: a coalition that copies a ballot learns the votes *)
From Verif Require Import Base BaseFacts Algebra Utils UtilsFacts Setup Keygen Encryption Circuit CircuitFacts CircuitSat CommitmentFacts VecFacts KeySpec KeygenFacts
  EncryptFacts DecryptFacts Spec VerifyFacts Protocol ReencFacts DistFacts PropVerify PropCircuit Groth16 ArkGroth16 PolyFacts Groth16Spec ArkFacts Groth16Facts SchwartzZippel SoundCore SoundSpec
  SoundAlg SoundGame SoundLink SoundFacts SoundCount SoundHonest PropUtils PropEnc PropProto PropGroth16 PropGroth16More PropGroth16Cases PropSound PropSoundCases PropZK PrivacySpec PrivacyAlg PrivacyGame PrivacyLink PrivacyCount
  PrivacySpan PrivacyMany PropPrivacy PrivacyDkgSpec PrivacyDkg PropPrivacyDkg SoundDkgSpec SoundDkg SoundAdaptSpec SoundAdapt PropSoundDkg PropSoundAdapt NonmalCore NonmalAlg NonmalSpec NonmalGame NonmalRows NonmalLink NonmalCount PropNonmal
  NonmalDkg PropNonmalDkg RoundTrip PropRobust CcaSpec Cca CcaCount PropCca PropReencExact RccaSpec RccaTest RccaCount RccaDkgSpec RccaDkg PropRccaDkg RushSpec Rush PropRush InsiderSpec Insider PropInsider
  LateSpec PropLate TallySpec PropTally BallotSpec Ballot BallotCount PropBallot Instance Examples.

(* ---------- sparse combinations ---------- *)
Section Sparse.
Context {E : pairing}.
Notation K := (K_of E).
Notation F := (Fr E).
Definition sparse (l : list (F * nat)) : list F := sumrow (map (fun x => map (fmul (fst x)) (unit_row (snd x))) l).
Lemma dot_sparse {V : group K} (l : list (F * nat)) (v : list V) : dot (sparse l) v = gsum (map (fun x => fst x [*] nth (snd x) v gzero) l).
Proof. unfold sparse. rewrite dot_sumrow, map_map. f_equal. apply map_ext. intros x. rewrite dot_map_fmul, dot_unit_row. reflexivity. Qed.
End Sparse.

Section Copied.
Context {E : pairing}.
Notation K := (K_of E).
Notation F := (Fr E).
Add Ring Krcp : (@scalar_ring_theory K).
Variables (n nb mm : nat) (ks : list F) (len1 : nat -> nat).
Variables (gens : encryption_gens E) (b : Z) (keys : dkg_keys E) (honest : secret_key_st E) (part : ek_partial E) (g_i : list (G1 E)) (delta gamma : G1 E).
Hypothesis Hcount : chunks_count K b = Ok (Z.of_nat n).
Hypothesis Hg : get_gs_for_encryption (gpk_vk (pk_pk (kg_pk keys))) = Ok g_i.
Hypothesis Lg : length g_i = n.
Hypothesis Hd : from_dkg b gens g_i delta gamma (kg_parties keys) (kg_ek keys).
Hypothesis Hnth : nth_error (kg_parties keys) nb = Some (honest, part).
Hypothesis Lps : length (kg_parties keys) = mm.
Hypothesis Lsh : length (kg_shares keys) = mm.
Hypothesis Hks : forall i, (i < n)%nat -> nth i (ek_X (kg_ek keys)) gzero = fadd (nth i (st_s honest) fzero) (nth i ks fzero) [*] delta.
Notation T1 cps := (dkg_g1 gens (public_run keys cps)).
Notation enc' := (enc keys g_i).

(* G2: the generator is after the Z of the parties *)
Lemma zs_shape : Forall (fun x => length x = (n + 1)%nat) (map ekp_Z (map snd (kg_parties keys))).
Proof.
  destruct Hd as (_ & Hall & _). rewrite map_map. apply Forall_map. eapply Forall_impl; [|exact Hall]. intros x Hx. cbv beta. apply from_partial_inv in Hx.
  destruct Hx as (n' & s & t0 & t & Hn' & Hgl & _ & Hs & Ht & ->). rewrite Hcount in Hn'. assert (n' = n) by (apply (f_equal (fun o => match o with Ok z => z | _ => 0 end)) in Hn'; lia). subst n'.
  cbn [snd]. unfold ekp_formula. cbn [ekp_Z]. cbn [length]. rewrite ?app_length, ?map_length. cbn [length]. rewrite ?map_length. lia.
Qed.
Lemma at_H cps : nth (mm * (n + 1)) (dkg_g2 gens (public_run keys cps)) gzero = eg_H gens.
Proof.
  unfold dkg_g2. cbn [public_run dr_parts]. assert (L : length (concat (map ekp_Z (map snd (kg_parties keys)))) = (mm * (n + 1))%nat) by (rewrite (concat_blocks_length _ _ zs_shape), !map_length, Lps; reflexivity).
  rewrite app_nth2 by lia. rewrite L, Nat.sub_diag. reflexivity.
Qed.
(* the elements of the key *)
Lemma at_key cps j i : well n cps -> length cps = j -> length (T1 cps) = len1 j -> (i < 2 * n + 2)%nat ->
  nth (len1 j - j * (n + 4) - (2 * n + 2) + i) (T1 cps) gzero = nth i (g_i ++ [ek_X_0 (kg_ek keys)] ++ ek_X (kg_ek keys) ++ [ek_P_2 (kg_ek keys)]) gzero.
Proof.
  intros W Lj L1 Hi. destruct (table_shape gens keys g_i Hg cps) as (q & Hq). pose proof (pairs_length n mm keys g_i Lg Lps Lsh cps W) as PL. rewrite Lj in PL.
  destruct (honest_facts n nb mm gens b keys honest part g_i delta gamma Hcount Hd Hnth Lps Lsh) as (_ & _ & _ & _ & LX). rewrite <- L1, Hq, <- PL.
  set (w := g_i ++ _) in *. assert (Lw : length w = (2 * n + 2)%nat) by (unfold w; rewrite !app_length, LX, Lg; cbn [length]; lia). rewrite <- Lw, nth_back by lia. reflexivity.
Qed.
Lemma at_X0 cps j : well n cps -> length cps = j -> length (T1 cps) = len1 j -> nth (len1 j - j * (n + 4) - (2 * n + 2) + n) (T1 cps) gzero = delta.
Proof.
  intros W Lj L1. rewrite (at_key cps j n W Lj L1) by lia. destruct (honest_facts n nb mm gens b keys honest part g_i delta gamma Hcount Hd Hnth Lps Lsh) as (_ & _ & X0 & _ & _).
  rewrite app_nth2 by lia. rewrite Lg, Nat.sub_diag. exact X0.
Qed.
Lemma at_X cps j i : well n cps -> length cps = j -> length (T1 cps) = len1 j -> (i < n)%nat ->
  nth (len1 j - j * (n + 4) - (2 * n + 2) + (n + 1 + i)) (T1 cps) gzero = fadd (nth i (st_s honest) fzero) (nth i ks fzero) [*] delta.
Proof.
  intros W Lj L1 Hi. rewrite (at_key cps j (n + 1 + i) W Lj L1) by lia. destruct (honest_facts n nb mm gens b keys honest part g_i delta gamma Hcount Hd Hnth Lps Lsh) as (_ & _ & _ & _ & LX).
  rewrite app_nth2 by lia. rewrite Lg. replace (n + 1 + i - n)%nat with (S i) by lia. cbn [app nth]. rewrite app_nth1 by lia. apply Hks. exact Hi.
Qed.
Lemma table_long cps j : well n cps -> length cps = j -> length (T1 cps) = len1 j -> (j * (n + 4) + (2 * n + 2) <= len1 j)%nat.
Proof.
  intros W Lj L1. destruct (table_shape gens keys g_i Hg cps) as (q & Hq). pose proof (pairs_length n mm keys g_i Lg Lps Lsh cps W) as PL. rewrite Lj in PL.
  destruct (honest_facts n nb mm gens b keys honest part g_i delta gamma Hcount Hd Hnth Lps Lsh) as (_ & _ & _ & _ & LX). rewrite <- L1, Hq, !app_length, PL, LX, Lg. cbn [length]. lia.
Qed.

(* two ciphertexts, the first one copied, the share of the sum for the base point: is chunk i of the sum z? *)
Definition question (rho : F) (i : nat) (z : Z) : list F :=
  let base := (len1 2 - 2 * (n + 4))%nat in let key := (base - (2 * n + 2))%nat in let k := nth i ks fzero in
  sparse [(fadd fone fone, (base + (0 * (n + 4) + (1 + i)))%nat); (fone, (base + (1 * (n + 4) + (1 + i)))%nat); (rho, (key + (n + 1 + i))%nat);
    (fneg (fmul k (fadd fone fone)), (base + (0 * (n + 4) + 0))%nat); (fneg k, (base + (1 * (n + 4) + 0))%nat); (fneg (fmul k rho), (key + n)%nat);
    (fone, (len1 2 + i)%nat); (fneg fone, (len1 2 + n)%nat); (fneg (of_Z z), (key + i)%nat)].
Lemma question_answer (H : rng_impl E) sh v0 r0 v1 r1 cp0 cp1 cp2 rho i z : enc' (v0, r0) cp0 -> enc' (v1, r1) cp1 -> fst cp2 = rerandomized (kg_ek keys) rho (fst cp0) -> length (T1 [cp0; cp1]) = len1 2 -> (i < n)%nat ->
  exists share, tally_share H gens honest ([cp0; cp1] ++ [cp2]) (eg_G gens) sh = Ok share /\
    dot (question rho i z) (T1 [cp0; cp1] ++ share) = fsub (of_Z (2 * nth i v0 0 + nth i v1 0)) (of_Z z) [*] nth i g_i gzero.
Proof.
  intros H0 H1 Hc L1 Hi. destruct (honest_facts n nb mm gens b keys honest part g_i delta gamma Hcount Hd Hnth Lps Lsh) as (_ & Ls & X0 & _ & LX).
  destruct (enc_inv n nb mm ks gens b keys honest part g_i delta gamma Hcount Lg Hd Hnth Lps Lsh Hks (v0, r0) cp0 H0) as (Lv0 & Lc0 & EX0 & EC0).
  destruct (enc_inv n nb mm ks gens b keys honest part g_i delta gamma Hcount Lg Hd Hnth Lps Lsh Hks (v1, r1) cp1 H1) as (Lv1 & Lc1 & EX1 & EC1). cbn [fst snd] in Lv0, Lc0, EX0, EC0, Lv1, Lc1, EX1, EC1.
  assert (H2 : enc' (v0, fadd rho r0) cp2).
  { unfold enc in *. cbn [fst snd] in *. rewrite Hc. exact (C73_copies_encrypt_the_copied_message _ _ _ _ _ rho H0). }
  assert (HF : Forall2 (fun mr ct => encrypts (kg_ek keys) g_i (fst mr) ct (snd mr)) (combine [v0; v1; v0] [r0; r1; fadd rho r0]) (map (fun cp : ciphertext E * proof E => ct_vec (fst cp)) ([cp0; cp1] ++ [cp2]))).
  { cbn [app map combine]. repeat constructor; [exact H0|exact H1|exact H2]. }
  assert (Hne : map (fun cp : ciphertext E * proof E => ct_vec (fst cp)) ([cp0; cp1] ++ [cp2]) <> []) by discriminate.
  destruct (sum_exists _ _ _ [v0; v1; v0] [r0; r1; fadd rho r0] Hne eq_refl HF) as (c_0 & c & psi & Hs & Hlc & _). rewrite LX in Hlc.
  pose proof (sum_encrypts _ _ _ [v0; v1; v0] [r0; r1; fadd rho r0] _ Hne eq_refl HF Hs) as He. apply encrypts_inv in He. destruct He as (n' & _ & _ & _ & He).
  assert (E0 : c_0 = fsum [r0; r1; fadd rho r0] [*] delta) by (rewrite <- X0; exact (f_equal (hd gzero) He)). clear He.
  unfold tally_share. change (fun ballot : ciphertext E * proof E => ct_X_r (fst ballot) :: ct_enc_chunks (fst ballot) ++ [ct_commitment (fst ballot)]) with (fun cp : ciphertext E * proof E => ct_vec (fst cp)).
  rewrite Hs. cbn [bind]. change (c_0 :: c ++ [psi]) with (ct_vec (Ciphertext c_0 c psi)). rewrite ct_of_vec_ct_vec. cbn [bind ct_X_r ct_enc_chunks].
  destruct (C79_share_exact E H gens c_0 c (FEncryptionKeyDest (eg_G gens)) honest sh) as [X _]. cbv zeta in X. destruct (X ltac:(lia)) as (w & Hw & Lw & Hwi). clear X. set (x := fst (rand_scalar H sh)) in *.
  rewrite Hw. cbn [bind]. exists (w ++ [x [*] eg_G gens]). split; [reflexivity|].
  assert (W : well n [cp0; cp1]) by (repeat constructor; assumption).
  pose proof (table_long [cp0; cp1] 2 W eq_refl L1) as Lt. set (T := T1 [cp0; cp1]) in *.
  unfold question. cbv zeta. rewrite dot_sparse. cbn [map fst snd].
  rewrite !(app_nth1 T) by lia. rewrite !(app_nth2 T) by lia. rewrite !(app_nth1 T) by lia. rewrite L1. replace (len1 2%nat + i - len1 2%nat)%nat with i by lia. replace (len1 2%nat + n - len1 2%nat)%nat with n by lia.
  rewrite (app_nth1 w) by lia. rewrite (app_nth2 w) by lia. rewrite Lw, Hlc, Nat.sub_diag. cbn [nth]. rewrite Hwi by lia. cbn [ekd_pk].
  unfold T. rewrite !(at_pair n mm len1 gens keys g_i Hg Lg Lps Lsh [cp0; cp1] 2) by (assumption || reflexivity || lia). rewrite (at_X [cp0; cp1] 2 i W eq_refl L1 Hi), (at_X0 [cp0; cp1] 2 W eq_refl L1), (at_gi n nb mm len1 gens b keys honest part g_i delta gamma Hcount Hg Lg Hd Hnth Lps Lsh [cp0; cp1] 2 i W eq_refl L1 Hi).
  rewrite !pair_0. cbn [nth]. rewrite !pair_S by lia. rewrite EX0, EX1, EC0, EC1 by exact Hi. rewrite E0. rewrite !gsum_cons, gsum_nil, !fsum_cons. change (fsum (@nil F)) with (@fzero K). rewrite of_Z_add, of_Z_mul.
  assert (E2 : @of_Z K 2 = fadd fone fone) by (change 2 with (1 + 1); rewrite of_Z_add; reflexivity). rewrite E2.
  set (s := nth i (st_s honest) fzero). set (k := nth i ks fzero). set (a := of_Z (nth i v0 0)). set (a' := of_Z (nth i v1 0)). set (zz := of_Z z). set (g := nth i g_i gzero). glin.
Qed.
End Copied.

(* ---------- the copy, by a strategy that does not depend on the messages ---------- *)
Section Copy.
Context {E : pairing}.
Notation K := (K_of E).
Notation F := (Fr E).
Add Ring Kcp : (@scalar_ring_theory K).
Notation e i env := (nth i env fzero).
Variables (n : nat) (cs : csys K) (xs : list F) (pf : profile) (domain : nat -> option (list F)) (fuel : nat) (b : Z) (gens : encryption_gens E).
Notation B := (ark_backend pf domain fuel).
Hypothesis Hdom_ok : domain_ok domain.
Hypothesis Hb : supported b.
Hypothesis HbM : 2 ^ b <= modulus K.
Hypothesis Hcomp : chunk_compatible K b.
Hypothesis Hcount : chunks_count K b = Ok (Z.of_nat n).
Hypothesis Hn0 : (0 < n)%nat.
Hypothesis Hcs : generate_constraints (BitsizeCheckCircuit b (Z.of_nat n) None true) (@cs_new K Circuit.Setup) = Ok cs.
Hypothesis Hdomain : domain (length (cs_cons cs) + cs_num_inst cs)%nat = Some xs.
Variables (before after : list (list F)).
Hypothesis Hbef : Forall (fun tape => length tape = (2 * n + 1)%nat) before.
Hypothesis Haft : Forall (fun tape => length tape = (2 * n + 1)%nat) after.
Let m := (length before + 1 + length after)%nat.

Definition copy_ballot (rho : F) : strategy E :=
  padded n before after (copying n cs xs 0 rho) (repeat fzero (m * (n + 1) + (1 + (3 + (cs_num_inst cs + cs_num_wit cs) + (n + 1)))) ++ @unit_row E 0).
Lemma copy_ballot_works (msgs : list F) (rho : F) coins run : (0 < length msgs)%nat -> length coins = (2 * n + 6 + 3 * length msgs)%nat -> ~ In (nth 4 coins fzero) xs ->
  dkg_execution pf B gens b before after msgs coins = Ok run ->
  let ct := ciphertext_from (copy_ballot rho) (dkg_g1 gens run) in let q := proof_from (copy_ballot rho) (dkg_g1 gens run) (dkg_g2 gens run) in
  exists ct0 q0, nth_error (dr_cps run) 0 = Some (ct0, q0) /\ ct = rerandomized (dr_ek run) rho ct0 /\
    verify_commitment_and_proof ct q (prepare_verifying_key (gpk_vk (pk_pk (dr_pk run)))) (prepare_ek (dr_ek run)) (prepare_gens gens) = Ok tt.
Proof.
  intros Hi Lc Hin Hrun. cbv zeta. destruct (copying_works n cs xs pf domain fuel b gens Hdom_ok Hb HbM Hcomp Hcount Hn0 Hcs Hdomain msgs 0 rho Hi) as (_ & _ & HS). set (S0 := copying n cs xs 0 rho) in *.
  destruct (dkg_as_central n cs xs pf domain fuel b gens Hb HbM Hcount Hn0 Hcs Hdomain before after Hbef Haft) as (rows1 & rows2 & _ & HC).
  unfold copy_ballot. fold S0. set (sb := repeat fzero _ ++ _). assert (Hv : vanishing_at xs (e 4 coins) <> fzero) by (rewrite vanishing_zero; exact Hin).
  destruct (HC msgs coins (repeat fzero (S n)) run Lc ltac:(apply repeat_length) Hv Hrun) as (Lk & E4 & Lcps & sk & dk & st' & Hset & Henc & _ & _ & (U1 & LU1 & EU1) & (U2 & W2 & LU2 & LW2 & EU2)).
  destruct (HS _ (dr_pk run) sk (dr_ek run) dk _ (dr_cps run) st' Lk ltac:(rewrite E4; exact Hin) Hset Henc) as (ct0 & q0 & Z1 & Z2 & Z3 & Z4 & _).
  assert (Ect : ciphertext_from (padded n before after S0 sb) (dkg_g1 gens run) = ciphertext_from S0 (table_g1 gens (dr_pk run) (dr_ek run) (dr_cps run))) by (rewrite EU1; apply padded_ciphertext; exact LU1).
  assert (Eb : dot sb (dkg_g2 gens run) = pr_b q0).
  { assert (Es : dkg_g2 gens run = (U2 ++ eg_H gens :: W2) ++ map (fun cp => pr_b (snd cp)) (dr_cps run)) by (rewrite EU2, <- app_assoc; reflexivity).
    rewrite Es. unfold sb. rewrite dot_skip_unit by (rewrite app_length; cbn [length]; unfold m; lia). erewrite nth_error_nth; [reflexivity|]. rewrite nth_error_map, Z1. reflexivity. }
  assert (Eq : proof_from (padded n before after S0 sb) (dkg_g1 gens run) (dkg_g2 gens run) = proof_from S0 (table_g1 gens (dr_pk run) (dr_ek run) (dr_cps run)) (table_g2 gens (dr_pk run) (dr_ek run) dk (dr_cps run))).
  { rewrite Z3. pose proof (f_equal pr_a Z3) as A1. pose proof (f_equal pr_c Z3) as A2. unfold proof_from in A1, A2. cbn [pr_a pr_c] in A1, A2.
    unfold proof_from, padded. cbv zeta. cbn [sg_a sg_b sg_c]. rewrite Eb. rewrite EU1. rewrite !dot_skip by exact LU1. rewrite A1, A2. reflexivity. }
  rewrite Ect, Eq. exists ct0, q0. split; [exact Z1|]. split; [exact Z2|exact Z4].
Qed.
End Copy.

(* Without the condition on copies C88 is false.  Two clients vote, for m and m' or the other way round; the coalition re-randomizes the ballot of the
   first one and casts it, and lets the sum be opened.  One test then tells it who voted for what, on all coins on which the key generation works (all but
   few: C80_key_generations_usually_work). *)
Theorem C88_copied_ballots_reveal_the_votes (E : pairing) (gens : encryption_gens E) (pf : profile)
    (domain : nat -> option (list (Fr E))) (fuel n : nat) (b : Z) (cs : csys (K_of E)) (xs : list (Fr E)) (before after : list (list (Fr E))) (m m' rho : Fr E) :
  eg_G gens <> gzero -> eg_H gens <> gzero -> domain_ok domain ->
  supported b -> 2 ^ b <= modulus (K_of E) ->
  64 * Z.of_nat (limbs (K_of E)) - b < modulus_bit_size (K_of E) -> 64 * Z.of_nat (limbs (K_of E)) < 256 * b ->
  chunks_count (K_of E) b = Ok (Z.of_nat n) -> (0 < n)%nat -> (0 < fuel)%nat ->
  generate_constraints (BitsizeCheckCircuit b (Z.of_nat n) None true) (cs_new Circuit.Setup) = Ok cs ->
  domain (length (cs_cons cs) + cs_num_inst cs)%nat = Some xs ->
  Forall (fun tape => length tape = (2 * n + 1)%nat) before -> Forall (fun tape => length tape = (2 * n + 1)%nat) after ->
  m <> m' ->
  exists C : campaign E bool, let A := IOffer m m' (IOffer m' m (IStop C)) in ilimited 0 0 2 A /\ ends (fair pf n b 1 1) [] A /\
  forall (G H H' : rng_impl E) (st : rng_st G) (sh : rng_st H) (sh' : rng_st H') coins, length coins = (2 * n + 6 + 3 * 2)%nat -> dkg_working xs pf domain fuel b gens before after coins ->
  forall second, exists keys ct0 q0 ct1 q1 q2,
    election pf (ark_backend pf domain fuel) G H H' gens b before after second A st sh sh' coins =
    Some (keys, [(ct0, q0); (ct1, q1)], [(rerandomized (kg_ek keys) rho ct0, q2)], second).
Proof.
  intros HG HH Hd Hb HM C1 C2 Hc Hn Hf Hcs Hxs Hbef Haft Hmm.
  destruct (C02_decompose_is_radix_representation pf (K_of E) m b Hb) as (ds & Hdm & Hdig & Hval & Hlen & _). destruct (C02_decompose_is_radix_representation pf (K_of E) m' b Hb) as (ds' & Hdm' & Hdig' & Hval' & Hlen' & _).
  assert (Ln : length ds = n /\ length ds' = n) by (split; [pose proof (proj1 (compatible_count pf b m ds Hb (conj C1 C2) Hdm)) as X|pose proof (proj1 (compatible_count pf b m' ds' Hb (conj C1 C2) Hdm')) as X]; rewrite Hc in X; assert (I : forall a c : Z, Ok a = Ok c -> a = c) by congruence; apply I in X; lia). destruct Ln as [Ln Ln'].
  assert (Hi : exists i, (i < n)%nat /\ nth i ds 0 <> nth i ds' 0).
  { assert (Hne : ds <> ds') by (intros Z; apply Hmm; apply scalar_eq; unfold into_bigint in Hval, Hval'; congruence). clear - Ln Ln' Hne. subst n. revert ds' Ln' Hne. induction ds as [|d ds IH]; intros [|d' ds'] L Hne; try discriminate L; [contradiction|].
    destruct (Z.eq_dec d d') as [->|Hd]; [|exists 0%nat; split; [cbn [length]; lia|exact Hd]]. destruct (IH ds') as (i & Hi & Hx); [cbn [length] in L; lia|congruence|]. exists (S i). split; [cbn [length]; lia|exact Hx]. }
  destruct Hi as (i & Hi & Hdi). set (z := 2 * nth i ds' 0 + nth i ds 0).
  destruct (lengths n cs xs pf domain fuel b gens Hb HM Hc Hn Hcs Hxs before after Hbef Haft) as (l1 & l2 & HL).
  set (mm := (length before + 1 + length after)%nat). set (ks := PrivacyDkg.ks n before after).
  set (C := Campaign [copy_ballot n cs xs before after rho] (unit_row (mm * (2 * n + 3) + (n + 1))) (Look (outer (question n ks l1 rho i z) (unit_row (mm * (n + 1)))) (Settle true) (Settle false))).
  exists C. cbv zeta. set (A := IOffer m m' (IOffer m' m (IStop C))). assert (W : ilimited 0 0 2 A) by (apply ilimited_offer, ilimited_offer, ilimited_stop). split; [exact W|]. split.
  { apply ends_offer, ends_offer, ends_stop. cbn [app]. split; [cbn [C ca_ballots length]; lia|]. split; [cbn [C ca_inquiry looks]; lia|]. exact (swapped_votes_are_balanced pf n b m m' Hb (conj C1 C2) Hc). }
  intros G H H' st sh sh' coins Lc (Hin & H2 & H3 & keys & rest & g_i & Hset & Hg & Hnz) second.
  destruct (C85_game_ends E _ gens pf domain fuel n b cs xs before after G H st sh 0 0 2 second A coins HG HH Hd Hb HM C1 C2 Hc Hn Hf Hcs Hxs Hbef Haft W Lc H2 H3 Hin)
    as (keys0 & rest0 & honest & part & r & cps & seen & msgs & st' & op & Hset0 & Hh & _ & Hrun & _).
  assert (keys0 = keys /\ rest0 = rest) as [-> ->] by (split; congruence). clear Hset0.
  pose proof Hrun as Hrun'. unfold insider_run in Hrun'. rewrite Hset, Hh in Hrun'. unfold A in Hrun'. cbn [insider_duel] in Hrun'. set (a := if second then m' else m) in *. set (a' := if second then m else m') in *.
  destruct (encrypt_with_proof pf _ _ a _ _ _ _) as [[[[ct0 r0] q0] coins']|err|] eqn:He0 in Hrun'; [|discriminate Hrun'|discriminate Hrun'].
  destruct (encrypt_with_proof pf _ _ a' _ _ _ _) as [[[[ct1 r1] q1] coins'']|err|] eqn:He1 in Hrun'; [|discriminate Hrun'|discriminate Hrun'].
  cbn [option_map app] in Hrun'. assert (EQ : r = C /\ cps = [(ct0, q0); (ct1, q1)] /\ seen = []) by (repeat split; congruence). destruct EQ as (-> & -> & ->). clear Hrun'.
  assert (Henc : encrypt_all pf (ark_backend pf domain fuel) (replay_rng E) [a; a'] (kg_ek keys) (kg_pk keys) b rest = Ok ([(ct0, q0); (ct1, q1)], coins'')) by (cbn [encrypt_all]; rewrite He0; cbn [bind]; rewrite He1; reflexivity).
  assert (Hv : vanishing_at xs (nth 4 coins fzero) <> fzero) by (rewrite vanishing_zero; exact Hin).
  destruct (HL _ coins keys rest Lc Hv Hset _ _ _ Henc) as (_ & L1 & _). cbn [length] in L1.
  pose proof (execution_from_setup _ _ _ _ _ _ _ _ _ _ _ _ Hset Henc) as Hex.
  destruct (copy_ballot_works n cs xs pf domain fuel b gens Hd Hb HM (conj C1 C2) Hc Hn Hcs Hxs before after Hbef Haft [a; a'] rho coins _ ltac:(cbn [length]; lia) Lc Hin Hex) as (ct0' & q0' & Hn0 & Hct & Hver).
  cbn [public_run dr_cps dr_ek dr_pk nth_error] in Hn0, Hct, Hver. assert (ct0' = ct0 /\ q0' = q0) as [-> ->] by (split; congruence). clear Hn0.
  destruct (setup_parties _ _ _ _ _ _ _ _ _ Hset Hg) as [Hfd Lps]. fold mm in Lps.
  assert (Lsh : length (kg_shares keys) = mm) by (rewrite (setup_shares pf domain fuel b gens before after coins keys rest Hset); exact Lps).
  destruct (setup_ks n cs xs pf domain fuel b gens Hb HM Hc Hn Hcs Hxs before after Hbef Haft _ coins keys rest honest part g_i Lc Hv Hset Hh Hg) as [Lg Hks]. fold ks in Hks.
  destruct (honest_facts n (length before) mm gens b keys honest part g_i _ _ Hc Hfd Hh Lps Lsh) as (_ & _ & X0 & _). rewrite X0 in Hks.
  set (T := dkg_g1 gens (public_run keys [(ct0, q0); (ct1, q1)])) in *. set (T' := dkg_g2 gens (public_run keys [(ct0, q0); (ct1, q1)])) in *.
  set (v0 := if second then ds' else ds). set (v1 := if second then ds else ds').
  assert (E0 : enc keys g_i (v0, r0) (ct0, q0)).
  { unfold enc. cbn [fst snd]. eapply with_proof_encrypts; [exact Hg| |exact He0]. unfold a, v0. destruct second; assumption. }
  assert (E1 : enc keys g_i (v1, r1) (ct1, q1)).
  { unfold enc. cbn [fst snd]. eapply with_proof_encrypts; [exact Hg| |exact He1]. unfold a', v1. destruct second; assumption. }
  set (q2 := proof_from (copy_ballot n cs xs before after rho) T T') in *.
  destruct (question_answer n (length before) mm ks l1 gens b keys honest part g_i _ _ Hc Hg Lg Hfd Hh Lps Lsh Hks H' sh' v0 r0 v1 r1 (ct0, q0) (ct1, q1) (rerandomized (kg_ek keys) rho ct0, q2) rho i z E0 E1 eq_refl L1 Hi) as (share & Hshare & Hdot).
  exists keys, ct0, q0, ct1, q1, q2. unfold election. rewrite Hrun. cbv zeta. rewrite Hh. fold T T'. rewrite app_nil_r. cbn [C ca_ballots ca_dest ca_inquiry]. unfold cast. cbn [map].
  rewrite Hct. fold q2. cbn [filter]. assert (Hval2 : valid gens keys (rerandomized (kg_ek keys) rho ct0, q2) = true) by (unfold valid; cbn [fst snd]; rewrite <- Hct; rewrite Hver; reflexivity). rewrite Hval2.
  rewrite dot_unit_row. unfold T. rewrite (at_G n (length before) mm gens b keys honest part g_i _ _ Hc Hfd Hh Lps Lsh). fold T. rewrite Hshare. do 2 f_equal. cbn [settle].
  rewrite pp_outer, dot_unit_row. unfold T'. rewrite (at_H n mm gens b keys g_i _ _ Hc Lg Hfd Lps Lsh). fold T in Hdot. rewrite Hdot.
  assert (Hgi : nth i g_i gzero <> gzero) by (rewrite Forall_forall in Hnz; apply Hnz, nth_In; lia).
  unfold v0, v1, z. clear - Hdi Hi Ln Ln' Hdig Hdig' Hgi HH HM. destruct second.
  - rewrite fsub_diag, smul_0_l, pair_zero_l. rewrite (proj2 (geqb_spec gzero gzero) eq_refl). reflexivity.
  - assert (Hz : geqb (pair (fsub (of_Z (2 * nth i ds 0 + nth i ds' 0)) (of_Z (2 * nth i ds' 0 + nth i ds 0)) [*] nth i g_i gzero) (prep (eg_H gens))) gzero = false); [|rewrite Hz; reflexivity].
    apply geqb_false. intros Z. apply pair_nondeg in Z. destruct Z as [Z|Z]; [|exact (HH Z)]. apply smul_eq_zero in Z. destruct Z as [Z|Z]; [|exact (Hgi Z)].
    rewrite <- of_Z_sub in Z. change (@fzero (K_of E)) with (@of_Z (K_of E) 0) in Z. apply of_Z_eq_iff in Z.
    unfold digits_ok in *. rewrite Forall_forall in Hdig, Hdig'. pose proof (Hdig (nth i ds 0) ltac:(apply nth_In; lia)) as D1. pose proof (Hdig' (nth i ds' 0) ltac:(apply nth_In; lia)) as D2.
    pose proof (@modulus_gt1 (K_of E)) as Hp. assert (Z' : (nth i ds 0 - nth i ds' 0) mod modulus (K_of E) = 0) by (rewrite Z.mod_0_l in Z by lia; etransitivity; [|exact Z]; apply (f_equal (fun u => u mod modulus (K_of E))); ring).
    apply Z.mod_divide in Z'; [|lia]. destruct Z' as (k & Hk). assert (k = 0 \/ 1 <= k \/ k <= -1) as [->|[Hk'|Hk']] by lia; nia.
Qed.

(* So the coalition is right about who voted for what on almost all coins, in both worlds. *)
Theorem C88_copying_coalitions_are_almost_always_right (E : pairing) (gens : encryption_gens E) (pf : profile)
    (domain : nat -> option (list (Fr E))) (fuel n : nat) (b : Z) (cs : csys (K_of E)) (xs : list (Fr E)) (before after : list (list (Fr E))) (m m' : Fr E) :
  eg_G gens <> gzero -> eg_H gens <> gzero -> domain_ok domain ->
  supported b -> 2 ^ b <= modulus (K_of E) ->
  64 * Z.of_nat (limbs (K_of E)) - b < modulus_bit_size (K_of E) -> 64 * Z.of_nat (limbs (K_of E)) < 256 * b ->
  chunks_count (K_of E) b = Ok (Z.of_nat n) -> (0 < n)%nat -> (0 < fuel)%nat ->
  generate_constraints (BitsizeCheckCircuit b (Z.of_nat n) None true) (cs_new Circuit.Setup) = Ok cs ->
  domain (length (cs_cons cs) + cs_num_inst cs)%nat = Some xs ->
  Forall (fun tape => length tape = (2 * n + 1)%nat) before -> Forall (fun tape => length tape = (2 * n + 1)%nat) after ->
  m <> m' ->
  exists C : campaign E bool, let A := IOffer m m' (IOffer m' m (IStop C)) in ilimited 0 0 2 A /\ ends (fair pf n b 1 1) [] A /\
  forall (G H H' : rng_impl E) (st : rng_st G) (sh : rng_st H) (sh' : rng_st H') (L : list (list (Fr E))), NoDup L ->
  (forall coins, In coins L -> length coins = (2 * n + 6 + 3 * 2)%nat /\ exists second,
     last_word (election pf (ark_backend pf domain fuel) G H H' gens b before after second A st sh sh' coins) <> Some second) ->
  let N := Z.of_nat (length xs) in
  Z.of_nat (length L) * modulus (K_of E) <= (N + (2 + (1 + Z.of_nat n + Z.of_nat n * (N + 2)))) * modulus (K_of E) ^ Z.of_nat (2 * n + 6 + 3 * 2).
Proof.
  intros HG HH Hd Hb HM C1 C2 Hc Hn Hf Hcs Hxs Hbef Haft Hmm.
  destruct (C88_copied_ballots_reveal_the_votes E gens pf domain fuel n b cs xs before after m m' fzero HG HH Hd Hb HM C1 C2 Hc Hn Hf Hcs Hxs Hbef Haft Hmm) as (C & W & HE & T).
  exists C. split; [exact W|]. split; [exact HE|]. intros G H H' st sh sh' L Hnd HL. cbv zeta.
  refine (C80_key_generations_usually_work (E := E) n cs xs pf domain fuel b gens HG HH Hd Hb HM (conj C1 C2) Hc Hn Hf Hcs Hxs before after Hbef Haft (3 * 2) L Hnd _).
  intros coins Hin. destruct (HL coins Hin) as (Lc & second & Hne). split; [exact Lc|]. intros HW. apply Hne.
  destruct (T G H H' st sh sh' coins Lc HW second) as (keys & ct0 & q0 & ct1 & q1 & q2 & He). cbv zeta. rewrite He. reflexivity.
Qed.

(* On the 61-bit group of the examples: for any two different messages there are a coalition and coins on which it says the truth in both worlds. *)
Example C88_copying_case (pf : profile) (G H H' : rng_impl E61) (st : rng_st G) (sh : rng_st H) (sh' : rng_st H') (m m' rho : Fr E61) (before after : list (list (Fr E61))) :
  Forall (fun tape => length tape = 33%nat) before -> Forall (fun tape => length tape = 33%nat) after -> m <> m' ->
  exists (C : campaign E61 bool) coins, length coins = 44%nat /\ forall second, exists keys ct0 q0 ct1 q1 q2,
    election pf (ark_backend pf y_domain 3) G H H' x_gens 4 before after second (IOffer m m' (IOffer m' m (IStop C))) st sh sh' coins =
    Some (keys, [(ct0, q0); (ct1, q1)], [(rerandomized (kg_ek keys) rho ct0, q2)], second).
Proof.
  intros Hbef Haft Hmm.
  assert (HG : eg_G x_gens <> gzero) by (intros Z; apply (f_equal sval) in Z; vm_compute in Z; discriminate Z).
  assert (Hbits : 0 < 4 < modulus_bit_size K61) by (vm_compute; split; reflexivity).
  assert (Hc : chunks_count K61 4 = Ok (Z.of_nat 16)) by (vm_compute; reflexivity).
  assert (Hb : supported 4) by (left; reflexivity). assert (HM : 2 ^ 4 <= modulus K61) by (vm_compute; discriminate).
  assert (C1 : 64 * Z.of_nat (limbs K61) - 4 < modulus_bit_size K61) by (vm_compute; reflexivity). assert (C2 : 64 * Z.of_nat (limbs K61) < 256 * 4) by (vm_compute; reflexivity).
  assert (H16 : (0 < 16)%nat) by lia. assert (H3 : (0 < 3)%nat) by lia.
  destruct (C38_circuit_shape K61 4 (Z.of_nat 16) Hbits Hc) as (c & cs & Hcn & Hcs & Hi & Hcc).
  unfold circuit_new in Hcn. rewrite Hc in Hcn. cbn [bind] in Hcn. assert (c = BitsizeCheckCircuit 4 (Z.of_nat 16) None true) by congruence. subst c. clear Hcn.
  assert (Hsz : (length (cs_cons cs) + cs_num_inst cs)%nat = 1921%nat).
  { assert (Em : modulus_bit_size K61 = 61) by (vm_compute; reflexivity). rewrite Em in Hcc. lia. }
  set (xs := y_points 1921). assert (Hd : y_domain (length (cs_cons cs) + cs_num_inst cs)%nat = Some xs).
  { rewrite Hsz. unfold y_domain. assert (Hlt : Z.of_nat 1921 <? 2 ^ 60 = true) by (vm_compute; reflexivity). rewrite Hlt. reflexivity. }
  assert (Hl : length xs = 1921%nat) by (unfold xs, y_points; rewrite map_length, seq_length; reflexivity). clearbody xs.
  destruct (C88_copied_ballots_reveal_the_votes E61 x_gens pf y_domain 3 16 4 cs xs before after m m' rho HG x_H y_domain_ok Hb HM C1 C2 Hc H16 H3 Hcs Hd Hbef Haft Hmm) as (C & _ & _ & T).
  destruct (dkg_working_exists 16 cs xs pf y_domain 3 4 x_gens HG x_H y_domain_ok Hb HM (conj C1 C2) Hc H16 H3 Hcs Hd before after Hbef Haft (3 * 2)) as (coins & Lc & HW).
  { rewrite Hl. vm_compute. reflexivity. }
  exists C, coins. split; [exact Lc|]. exact (T G H H' st sh sh' coins Lc HW).
Qed.
