(* Insider.v -- the coalition of C85, seen as a coalition of C80: the share of the honest party on an accepted ciphertext is a combination of what
   was on the table before *)
From Verif Require Import Base BaseFacts Algebra Utils UtilsFacts Setup Keygen Encryption Circuit CircuitFacts CircuitSat CommitmentFacts VecFacts KeySpec KeygenFacts
  EncryptFacts DecryptFacts Spec VerifyFacts Protocol ReencFacts DistFacts PropUtils PropEnc PropVerify Groth16 ArkGroth16 PolyFacts Groth16Spec ArkFacts Groth16Facts SchwartzZippel SoundCore SoundSpec
  SoundAlg SoundGame SoundLink SoundFacts SoundCount SoundHonest PropGroth16 PropSound PropSoundCases PropZK PrivacySpec PrivacyAlg PrivacyGame PrivacyLink PrivacyCount PrivacySpan PrivacyMany
  PrivacyDkgSpec PrivacyDkg SoundAdaptSpec SoundAdapt SoundDkgSpec SoundDkg NonmalCore NonmalAlg NonmalSpec NonmalGame NonmalRows NonmalLink NonmalCount PropNonmal NonmalDkg
  CcaSpec Cca CcaCount PropMalleable PropCca PropReencExact RccaSpec RccaTest RccaCount RccaDkgSpec RccaDkg PropRccaDkg InsiderSpec.

(* ---------- the first submissions of an attacker ---------- *)
Section Cut.
Context {E : pairing}.
Definition nothing : strategy E := Strategy [] [] [] [] [] [].
(* stop at the i-th submission and hand out what is submitted *)
Fixpoint cut {R} (i : nat) (A : adversary E R) : adversary E (strategy E) :=
  match A with
  | Stop _ => Stop nothing
  | Try q A1 A2 => Try q (cut i A1) (cut i A2)
  | Offer m m' next => Offer m m' (cut i next)
  | Ship St next => match i with O => Stop St | S i' => Ship St (fun r => cut i' (next r)) end
  end.
Lemma cut_limited {R} (A : adversary E R) t q k : limited t q k A -> forall i, limited t q k (cut i A).
Proof. intros W. induction W; intros i; cbn [cut]; try (constructor; auto). destruct i as [|i]; constructor. auto. Qed.
End Cut.

(* ---------- lists of blocks ---------- *)
Lemma concat_blocks_length {A} m (l : list (list A)) : Forall (fun x => length x = m) l -> length (concat l) = (length l * m)%nat.
Proof. intros H. induction H as [|x l Hx _ IH]; [reflexivity|]. cbn [concat length]. rewrite app_length, Hx, IH. lia. Qed.
Lemma nth_concat_blocks {A} m (d : A) i : forall (l : list (list A)) k, Forall (fun x => length x = m) l -> (k < length l)%nat -> (i < m)%nat -> nth (k * m + i) (concat l) d = nth i (nth k l []) d.
Proof.
  induction l as [|x l IH]; intros k H Hk Hi; cbn [length] in Hk; [lia|]. inversion H as [|? ? Hx Hl]; subst. destruct k as [|k]; cbn [concat nth].
  - rewrite app_nth1 by lia. reflexivity.
  - rewrite app_nth2 by lia. replace (S k * length x + i - length x)%nat with (k * length x + i)%nat by lia. apply IH; [exact Hl|lia|exact Hi].
Qed.
Lemma mapM_outcome_length {A C} (f : A -> outcome C) l : forall out, mapM f l = Ok out -> length out = length l.
Proof.
  induction l as [|x l IH]; intros out H; cbn [mapM] in H; [assert (out = []) by congruence; subst; reflexivity|].
  apply bind_Ok_inv in H. destruct H as (y & _ & H). apply bind_Ok_inv in H. destruct H as (ys & Hys & H). assert (out = y :: ys) by congruence. subst. cbn [length]. rewrite (IH ys Hys). reflexivity.
Qed.

Section Sim.
Context {E : pairing}.
Notation K := (K_of E).
Notation F := (Fr E).
Add Ring Kri : (@scalar_ring_theory K).
Variables (n nb mm : nat) (H : rng_impl E) (len1 len2 : nat -> nat).
(* the combinations that make up the insider's table *)
Definition I1 (j : nat) (rows : list (list F)) : list (list F) := @units E (len1 j) ++ rows.
Definition I2 (j : nat) : list (list F) := @units E (len2 j).
(* the share, when the submitted ciphertext is r times the key plus the chunks *)
Definition share_rows (j : nat) (rows : list (list F)) (r rho : F) (dest : list F) : list (list F) :=
  map (fun i => firstn (len1 j) (padd (map (fmul (fneg r)) (unit_row (nb * (2 * n + 2) + (1 + i)))) (map (fmul rho) (row_mul dest (I1 j rows))))) (seq 0 n)
  ++ [firstn (len1 j) (map (fmul rho) (unit_row (mm * (2 * n + 3) + (n + 1))))].
Fixpoint trans {R R'} (fin : nat -> list (list F) -> R -> R') (j : nat) (rows : list (list F)) (sh : rng_st H) (A : insider E R) : adversary E R' :=
  match A with
  | IStop r => Stop (fin j rows r)
  | ITry q A1 A2 => Try (pull_back q (I1 j rows) (I2 j)) (trans fin j rows sh A1) (trans fin j rows sh A2)
  | IOffer m m' next => Offer m m' (trans fin (S j) rows sh next)
  | IShip St dest next =>
    Ship (pull_strategy (I1 j rows) (I2 j) St) (fun answer =>
      match answer with
      | Opened _ => trans fin j (rows ++ share_rows j rows (dkg_extracted_r n nb mm (pull_strategy (I1 j rows) (I2 j) St)) (fst (rand_scalar H sh)) dest) (snd (rand_scalar H sh)) (next answer)
      | _ => trans fin j rows sh (next answer)
      end)
  end.
Lemma trans_limited {R R'} (fin : nat -> list (list F) -> R -> R') (A : insider E R) t q k : ilimited t q k A -> forall j rows sh, limited t q k (trans fin j rows sh A).
Proof. intros W. induction W; intros j rows sh; cbn [trans]; constructor; auto. intros r. destruct r; auto. Qed.

Variables (pf : profile) (B : groth16_backend E) (G : rng_impl E) (gens : encryption_gens E) (b : Z) (keys : dkg_keys E) (rest : list F) (honest : secret_key_st E) (part : ek_partial E)
  (g_i : list (G1 E)) (delta gamma : G1 E).
Hypothesis Hb : supported b.
Hypothesis HM : 2 ^ b <= modulus K.
Hypothesis Hcount : chunks_count K b = Ok (Z.of_nat n).
Hypothesis Hg : get_gs_for_encryption (gpk_vk (pk_pk (kg_pk keys))) = Ok g_i.
Hypothesis Hd : from_dkg b gens g_i delta gamma (kg_parties keys) (kg_ek keys).
Hypothesis Hnth : nth_error (kg_parties keys) nb = Some (honest, part).
Hypothesis Lps : length (kg_parties keys) = mm.
Hypothesis Lsh : length (kg_shares keys) = mm.
Hypothesis Hnz : Forall (fun x => x <> gzero) g_i.
Hypothesis HL : forall ms cps st, encrypt_all pf B (replay_rng E) ms (kg_ek keys) (kg_pk keys) b rest = Ok (cps, st) ->
  length (dkg_g1 gens (public_run keys cps)) = len1 (length ms) /\ length (dkg_g2 gens (public_run keys cps)) = len2 (length ms).
Notation T1 cps := (dkg_g1 gens (public_run keys cps)).
Notation T2 cps := (dkg_g2 gens (public_run keys cps)).

Lemma honest_secrets : ekp_X part = map (fun x => x [*] delta) (st_s honest) /\ length (st_s honest) = n /\ ek_X_0 (kg_ek keys) = delta /\ length (ek_Y (kg_ek keys)) = n /\ length (ek_X (kg_ek keys)) = n.
Proof.
  destruct Hd as (Hne & Hall & Hdk). pose proof Hall as Hall'. rewrite Forall_forall in Hall'. specialize (Hall' _ (nth_error_In _ _ Hnth)). apply from_partial_inv in Hall'.
  destruct Hall' as (n' & s & t0 & t & Hn' & Hgl & _ & Hs & Ht & EQ). rewrite Hcount in Hn'. assert (n' = n) by (apply (f_equal (fun o => match o with Ok z => z | _ => 0 end)) in Hn'; lia). subst n'.
  assert (EX : honest = SecretKeyST s (t0 :: t)) by exact (f_equal fst EQ). assert (EP : part = ekp_formula gens g_i delta gamma s t0 t) by exact (f_equal snd EQ). rewrite EX, EP.
  split; [reflexivity|]. split; [cbn [st_s]; lia|]. rewrite (dkg_formula b gens g_i delta gamma _ n Hcount Hne Hall) in Hdk. assert (I : forall A (x y : A), Ok x = Ok y -> x = y) by congruence. apply I in Hdk. rewrite <- Hdk.
  cbn [ek_formula ek_X_0 ek_X ek_Y]. split; [reflexivity|]. rewrite map_length, scale_length, !fcol_sum_length. split; lia.
Qed.
Lemma parts_shape : Forall (fun x => length x = (2 * n + 2)%nat) (map part_g1 (map snd (kg_parties keys))).
Proof.
  destruct Hd as (_ & Hall & _). rewrite map_map. apply Forall_map. eapply Forall_impl; [|exact Hall]. intros x Hx. cbv beta. apply from_partial_inv in Hx.
  destruct Hx as (n' & s & t0 & t & Hn' & Hgl & _ & Hs & Ht & ->). rewrite Hcount in Hn'. assert (n' = n) by (apply (f_equal (fun o => match o with Ok z => z | _ => 0 end)) in Hn'; lia). subst n'.
  cbn [snd]. unfold part_g1, ekp_formula. cbn [ekp_X_0 ekp_X ekp_Y ekp_P_2]. rewrite !app_length, map_length, scale_length. cbn [length]. lia.
Qed.
Lemma parts_length : length (concat (map part_g1 (map snd (kg_parties keys)))) = (mm * (2 * n + 2))%nat.
Proof. rewrite (concat_blocks_length _ _ parts_shape), !map_length, Lps. reflexivity. Qed.
Lemma at_share i cps : (i < n)%nat -> nth (nb * (2 * n + 2) + (1 + i)) (T1 cps) gzero = nth i (st_s honest) fzero [*] delta.
Proof.
  intros Hi. unfold dkg_g1. cbn [public_run dr_parts]. assert (Hlt : (nb < length (kg_parties keys))%nat) by (apply nth_error_Some; rewrite Hnth; discriminate).
  destruct honest_secrets as (EX & Ls & _). assert (LXX : length (ekp_X part) = n) by (rewrite EX, map_length; exact Ls).
  rewrite app_nth1 by (rewrite parts_length; nia). rewrite (nth_concat_blocks _ gzero (1 + i) _ nb parts_shape) by (rewrite ?map_length; lia).
  rewrite map_map. rewrite (nth_indep _ [] (part_g1 (snd (honest, part)))) by (rewrite map_length; exact Hlt). rewrite (map_nth (fun x => part_g1 (snd x))), (nth_error_nth _ _ _ Hnth). cbn [snd].
  unfold part_g1. cbn [app Nat.add nth]. rewrite app_nth1 by lia. rewrite EX.
  rewrite (nth_indep _ gzero (fzero [*] delta)) by (rewrite map_length; lia). apply (map_nth (fun x => x [*] delta)).
Qed.
Lemma at_G cps : nth (mm * (2 * n + 3) + (n + 1)) (T1 cps) gzero = eg_G gens.
Proof.
  unfold dkg_g1. cbn [public_run dr_parts dr_shares dr_pk dr_ek dr_cps]. rewrite app_nth2 by (rewrite parts_length; nia). rewrite parts_length. rewrite app_nth2 by (rewrite map_length, Lsh; nia). rewrite map_length, Lsh.
  replace (mm * (2 * n + 3) + (n + 1) - mm * (2 * n + 2) - mm)%nat with (n + 1)%nat by nia. unfold table_g1, public_g1. destruct honest_secrets as (_ & _ & _ & LY & _).
  rewrite <- app_assoc, <- app_assoc. rewrite app_nth2 by lia. rewrite LY. replace (n + 1 - n)%nat with 1%nat by lia. reflexivity.
Qed.
Lemma table_grows cps cp : exists more, T1 (cps ++ [cp]) = T1 cps ++ more.
Proof.
  unfold dkg_g1, table_g1. cbn [public_run dr_parts dr_shares dr_pk dr_ek dr_cps]. rewrite map_app, concat_app. exists (concat (map pair_g1 [cp])). rewrite !app_assoc. reflexivity.
Qed.

Definition short (j : nat) (rows : list (list F)) : Prop := Forall (fun row => (length row <= len1 j)%nat) rows.
Lemma dot_short {V : group K} row (l l' : list V) : (length row <= length l)%nat -> dot row (l ++ l') = dot row l.
Proof. intros Hl. rewrite <- (firstn_all2 (n := length l) row) at 1 by exact Hl. apply dot_front. reflexivity. Qed.
Lemma combos_short rows (l l' : list (G1 E)) : Forall (fun row => (length row <= length l)%nat) rows -> combos rows (l ++ l') = combos rows l.
Proof. intros Hr. apply map_ext_in. intros row Hin. rewrite Forall_forall in Hr. apply dot_short. apply Hr. exact Hin. Qed.
Lemma share_rows_short j rows r rho dest : short j (share_rows j rows r rho dest).
Proof.
  unfold share_rows, short. apply Forall_app. split; [|constructor; [rewrite firstn_length; lia|constructor]]. apply Forall_map. apply Forall_forall. intros i _. cbv beta. rewrite firstn_length. lia.
Qed.
Lemma I1_combos j rows (l : list (G1 E)) : length l = len1 j -> combos (I1 j rows) l = l ++ combos rows l.
Proof. intros Hl. unfold I1. rewrite combos_app. f_equal. rewrite <- (app_nil_r l) at 1. apply combos_units. exact Hl. Qed.
Lemma I2_combos j (l : list (G2 E)) : length l = len2 j -> combos (I2 j) l = l.
Proof. intros Hl. unfold I2. rewrite <- (app_nil_r l) at 1. apply combos_units. exact Hl. Qed.

(* the share of the honest party is a combination of what was there before *)
Lemma share_simulated cps j rows ds r (ct : ciphertext E) dest sh : length (T1 cps) = len1 j -> length (ct_enc_chunks ct) = n -> encrypts (kg_ek keys) g_i ds (ct_vec ct) r ->
  exists w, re_encrypt_share H gens (ct_X_r ct) (ct_enc_chunks ct) (FEncryptionKeyDest (dot dest (T1 cps ++ combos rows (T1 cps)))) honest sh = Ok (w, fst (rand_scalar H sh) [*] eg_G gens, snd (rand_scalar H sh)) /\
    w ++ [fst (rand_scalar H sh) [*] eg_G gens] = combos (share_rows j rows r (fst (rand_scalar H sh)) dest) (T1 cps).
Proof.
  intros L1 Lc He. destruct honest_secrets as (_ & Ls & EX0 & _). set (ekd := FEncryptionKeyDest _).
  destruct (C79_share_exact E H gens (ct_X_r ct) (ct_enc_chunks ct) ekd honest sh) as [X _]. cbv zeta in X. destruct (X ltac:(lia)) as (w & Hw & Lw & Hwi). clear X. set (rho := fst (rand_scalar H sh)) in *.
  exists w. split; [exact Hw|]. unfold share_rows. rewrite combos_app. cbn [combos map].
  assert (FF : forall c, dot (firstn (len1 j) c) (T1 cps) = dot c (T1 cps)) by (intros c; rewrite <- (app_nil_r (T1 cps)) at 1; apply dot_front; exact L1). f_equal.
  2:{ rewrite FF, dot_map_fmul, dot_unit_row, at_G. reflexivity. }
  apply encrypts_inv in He. destruct He as (n' & _ & _ & _ & Hct). assert (E0 : ct_X_r ct = r [*] delta) by (rewrite <- EX0; exact (f_equal (fun l => hd gzero l) Hct)).
  unfold combos. rewrite map_map. apply (nth_ext _ _ gzero gzero); [rewrite map_length, seq_length; lia|]. intros i Hi. rewrite Hwi by lia.
  set (f := fun i0 => dot _ _). rewrite (nth_indep _ gzero (f 0%nat)) by (rewrite map_length, seq_length; lia). rewrite (map_nth f), seq_nth by lia. unfold f. cbn [Nat.add].
  rewrite FF, dot_padd, !dot_map_fmul, dot_unit_row, dot_row_mul, I1_combos by exact L1. change (S i) with (1 + i)%nat. rewrite at_share by lia. rewrite E0. unfold ekd. cbn [ekd_pk]. glin.
Qed.
Lemma all_encrypted ms : forall st cps st', encrypt_all pf B (replay_rng E) ms (kg_ek keys) (kg_pk keys) b st = Ok (cps, st') ->
  forall ct q, In (ct, q) cps -> exists m ds r, In m ms /\ decompose pf m b = Ok ds /\ digits_ok b ds /\ encrypts (kg_ek keys) g_i ds (ct_vec ct) r.
Proof.
  induction ms as [|m ms IH]; intros st cps st' He ct q Hin; cbn [encrypt_all] in He.
  - assert (cps = []) by congruence. subst cps. destruct Hin.
  - apply bind_Ok_inv in He. destruct He as ([[[ct1 r1] q1] st1] & H1 & He). apply bind_Ok_inv in He. destruct He as ([cps2 st2] & H2 & He). assert (cps = (ct1, q1) :: cps2) by congruence. subst cps. destruct Hin as [Hin|Hin].
    + assert (ct1 = ct) by congruence. subst ct1. destruct (C02_decompose_is_radix_representation pf K m b Hb) as (ds & Hdm & Hdig & _). exists m, ds, r1. split; [left; reflexivity|]. split; [exact Hdm|]. split; [exact Hdig|].
      exact (with_proof_encrypts pf B (replay_rng E) m (kg_ek keys) (kg_pk keys) b st ct r1 q1 st1 g_i ds Hg Hdm H1).
    + destruct (IH st1 cps2 st2 H2 ct q Hin) as (m' & ds & r & Y1 & Y). exists m', ds, r. split; [right; exact Y1|exact Y].
Qed.
(* a copy of a ciphertext on the table is not opened *)
Lemma copies_protected ms cps st0 offered ct ct0 q q0 rho st : encrypt_all pf B (replay_rng E) ms (kg_ek keys) (kg_pk keys) b rest = Ok (cps, st0) -> incl ms offered -> In (ct0, q0) cps ->
  verify_commitment_and_proof ct q (prepare_verifying_key (gpk_vk (pk_pk (kg_pk keys)))) (prepare_ek (kg_ek keys)) (prepare_gens gens) = Ok tt ->
  ct = rerandomized (kg_ek keys) rho ct0 -> fst (service_by_parties pf G b gens keys offered ct q st) = Protected.
Proof.
  intros Henc Hincl Hin HV ->. destruct (all_encrypted ms rest cps st0 Henc ct0 q0 Hin) as (m & ds & r & Hm & Hdm & Hdig & He). apply (C73_copies_encrypt_the_copied_message _ _ _ _ _ rho) in He.
  apply (proj1 (C80_parties_open_what_they_may pf G b gens g_i delta gamma keys offered _ q ds (fadd rho r) st Hb HM Hg Hd ltac:(rewrite <- (firstn_skipn (length ds) g_i) in Hnz; apply Forall_app in Hnz; apply Hnz) HV Hdig He)).
  exists m. split; [apply Hincl; exact Hm|exact Hdm].
Qed.

(* the i-th submission is accepted although it is neither an encryption of chunks that can be read off nor a copy *)
Definition odd_at {R} (second : bool) (i : nat) (A : adversary E R) offered cps0 coins (st : rng_st G) : Prop := exists St cps,
  dkg_duel pf B G gens b keys second (cut i A) offered cps0 coins st = Some (St, cps) /\
  verify_commitment_and_proof (ciphertext_from St (T1 cps)) (proof_from St (T1 cps) (T2 cps)) (prepare_verifying_key (gpk_vk (pk_pk (kg_pk keys)))) (prepare_ek (kg_ek keys)) (prepare_gens gens) = Ok tt /\
  ~ (digits_ok b (dkg_extracted_chunks n nb mm St) /\ exists g_i, get_gs_for_encryption (gpk_vk (pk_pk (kg_pk keys))) = Ok g_i /\
     encrypts (kg_ek keys) g_i (dkg_extracted_chunks n nb mm St) (ct_vec (ciphertext_from St (T1 cps))) (dkg_extracted_r n nb mm St)) /\
  ~ (exists ct0 q0, In (ct0, q0) cps /\ ciphertext_from St (T1 cps) = rerandomized (kg_ek keys) (dkg_extracted_r n nb mm St) ct0 /\
     exists kappa, kappa <> fzero /\ pr_a (proof_from St (T1 cps) (T2 cps)) = kappa [*] pr_a q0).
Lemma service_opened offered ct q st ms st' : service_by_parties pf G b gens keys offered ct q st = (Opened ms, st') ->
  verify_commitment_and_proof ct q (prepare_verifying_key (gpk_vk (pk_pk (kg_pk keys)))) (prepare_ek (kg_ek keys)) (prepare_gens gens) = Ok tt.
Proof. unfold service_by_parties. destruct (verify_commitment_and_proof _ _ _ _ _) as [[]|err|]; [reflexivity|discriminate|discriminate]. Qed.
Lemma simulated {R R'} (fin : nat -> list (list F) -> R -> R') (second : bool) (A : insider E R) t q k : ilimited t q k A ->
  forall offered ms cps rows coins st sh, encrypt_all pf B (replay_rng E) ms (kg_ek keys) (kg_pk keys) b rest = Ok (cps, coins) -> incl ms offered -> short (length ms) rows ->
  (match insider_duel pf B G H gens b keys honest second A offered cps (combos rows (T1 cps)) coins st sh with
   | Some (r, cps', seen') => exists ms' coins' rows', dkg_duel pf B G gens b keys second (trans fin (length ms) rows sh A) offered cps coins st = Some (fin (length ms') rows' r, cps') /\
       encrypt_all pf B (replay_rng E) ms' (kg_ek keys) (kg_pk keys) b rest = Ok (cps', coins') /\ seen' = combos rows' (T1 cps')
   | None => dkg_duel pf B G gens b keys second (trans fin (length ms) rows sh A) offered cps coins st = None
   end) \/ exists i, (i < q)%nat /\ odd_at second i (trans fin (length ms) rows sh A) offered cps coins st.
Proof.
  intros W. induction W as [t q k r|t q k m A1 A2 W1 IH1 W2 IH2|t q k m m' next W IH|t q k St dest next W IH]; intros offered ms cps rows coins st sh Henc Hinc Hsh; destruct (HL ms cps coins Henc) as [L1 L2].
  - left. cbn [insider_duel trans dkg_duel]. exists ms, coins, rows. split; [reflexivity|]. split; [exact Henc|reflexivity].
  - cbn [insider_duel trans dkg_duel]. unfold odd_at. cbn [cut dkg_duel]. rewrite pp_pull_back, I1_combos, I2_combos by assumption. destruct (geqb _ _); [eapply IH1|eapply IH2]; eassumption.
  - cbn [insider_duel trans dkg_duel]. unfold odd_at. cbn [cut dkg_duel]. destruct (encrypt_with_proof pf B (replay_rng E) (if second then m' else m) (kg_ek keys) (kg_pk keys) b coins) as [[[[ct r1] q1] coins1]|err|] eqn:He; [|left; reflexivity|left; reflexivity].
    assert (Henc' : encrypt_all pf B (replay_rng E) (ms ++ [if second then m' else m]) (kg_ek keys) (kg_pk keys) b rest = Ok (cps ++ [(ct, q1)], coins1)).
    { rewrite (encrypt_all_app _ _ _ _ _ _ _ _ _ _ _ Henc). cbn [encrypt_all]. rewrite He. reflexivity. }
    destruct (table_grows cps (ct, q1)) as (more & Hmore). assert (Hc : combos rows (T1 cps) = combos rows (T1 (cps ++ [(ct, q1)]))) by (rewrite Hmore; symmetry; apply combos_short; rewrite L1; exact Hsh). rewrite Hc.
    specialize (IH (m :: m' :: offered) (ms ++ [if second then m' else m]) (cps ++ [(ct, q1)]) rows coins1 st sh Henc'). rewrite app_length in IH. cbn [length] in IH. rewrite Nat.add_1_r in IH. apply IH.
    + intros x Hx. apply in_app_iff in Hx. destruct Hx as [Hx|[Hx|[]]]; [right; right; exact (Hinc x Hx)|]. subst x. destruct second; [right; left; reflexivity|left; reflexivity].
    + destruct (HL _ _ _ Henc') as [L1' _]. rewrite app_length in L1'. cbn [length] in L1'. rewrite Nat.add_1_r in L1'. rewrite Hmore, app_length, L1 in L1'. eapply Forall_impl; [|exact Hsh]. intros row Hr. cbv beta in *. lia.
  - cbn [insider_duel trans dkg_duel]. cbv zeta. set (St' := pull_strategy (I1 (length ms) rows) (I2 (length ms)) St).
    assert (Ect : ciphertext_from St' (T1 cps) = ciphertext_from St (T1 cps ++ combos rows (T1 cps))) by (unfold St'; rewrite pull_ciphertext, I1_combos by exact L1; reflexivity).
    assert (Epf : proof_from St' (T1 cps) (T2 cps) = proof_from St (T1 cps ++ combos rows (T1 cps)) (T2 cps)) by (unfold St'; rewrite pull_proof, I1_combos, I2_combos by assumption; reflexivity).
    assert (OS : forall (f : reply -> adversary E R'), (exists i, (i < q)%nat /\ odd_at second i (f (fst (service_by_parties pf G b gens keys offered (ciphertext_from St' (T1 cps)) (proof_from St' (T1 cps) (T2 cps)) st))) offered cps coins
              (snd (service_by_parties pf G b gens keys offered (ciphertext_from St' (T1 cps)) (proof_from St' (T1 cps) (T2 cps)) st))) -> exists i, (i < S q)%nat /\ odd_at second i (Ship St' f) offered cps coins st).
    { intros f (i & Hi & Hodd). exists (S i). split; [lia|]. unfold odd_at in *. cbn [cut dkg_duel]. destruct (service_by_parties _ _ _ _ _ _ _ _ _) as [a s]. exact Hodd. }
    rewrite <- Ect, <- Epf. destruct (service_by_parties pf G b gens keys offered (ciphertext_from St' (T1 cps)) (proof_from St' (T1 cps) (T2 cps)) st) as [answer st1] eqn:Hans. cbn [fst snd] in OS.
    destruct answer as [| |chunks].
    + destruct (IH Refused offered ms cps rows coins st1 sh Henc Hinc Hsh) as [Y|Y]; [left; exact Y|right; apply OS; exact Y].
    + destruct (IH Protected offered ms cps rows coins st1 sh Henc Hinc Hsh) as [Y|Y]; [left; exact Y|right; apply OS; exact Y].
    + pose proof (service_opened _ _ _ _ _ _ Hans) as HV.
      assert (Lc : length (ct_enc_chunks (ciphertext_from St' (T1 cps))) = n).
      { assert (HW : verify_commitment (ciphertext_from St' (T1 cps)) (prepare_ek (kg_ek keys)) (prepare_gens gens) = Ok tt) by (unfold verify_commitment_and_proof in HV; apply bind_Ok_inv in HV; destruct HV as ([] & Z & _); exact Z).
        apply accept_wf in HW. destruct HW as (_ & LX & _). destruct honest_secrets as (_ & _ & _ & _ & L). lia. }
      set (r := dkg_extracted_r n nb mm St') in *. set (D := dot dest (T1 cps ++ combos rows (T1 cps))).
      destruct (C79_share_exact E H gens (ct_X_r (ciphertext_from St' (T1 cps))) (ct_enc_chunks (ciphertext_from St' (T1 cps))) (FEncryptionKeyDest D) honest sh) as [X _]. cbv zeta in X.
      destruct (X ltac:(destruct honest_secrets as (_ & L & _); lia)) as (w & Hw & _). clear X. rewrite Hw. set (rho := fst (rand_scalar H sh)) in *.
      destruct (list_eq_dec (@geq_dec K (G1 E)) (w ++ [rho [*] eg_G gens]) (combos (share_rows (length ms) rows r rho dest) (T1 cps))) as [EQ|NE].
      * rewrite EQ, <- combos_app.
        destruct (IH (Opened chunks) offered ms cps (rows ++ share_rows (length ms) rows r rho dest) coins st1 (snd (rand_scalar H sh)) Henc Hinc) as [Y|Y].
        { apply Forall_app. split; [exact Hsh|apply share_rows_short]. }
        { left. exact Y. }
        { right. apply (OS _ Y). }
      * right. exists 0%nat. split; [lia|]. unfold odd_at. cbn [cut dkg_duel]. exists St', cps. split; [reflexivity|]. split; [exact HV|]. split.
        -- intros (_ & g' & Hg' & He). apply NE. destruct (share_simulated cps (length ms) rows _ r _ dest sh L1 Lc ltac:(assert (g' = g_i) by congruence; subst g'; exact He)) as (w' & Hw' & EQ). unfold D in Hw. rewrite Hw in Hw'. assert (w' = w) by congruence. subst w'. exact EQ.
        -- intros (ct0 & q0 & Hin & Hct & _). pose proof (copies_protected ms cps coins offered _ ct0 _ q0 r st Henc Hinc Hin HV Hct) as Z. rewrite Hans in Z. discriminate Z.
Qed.
End Sim.

(* ---------- counting ---------- *)
Lemma rare_upto {K : prime_field} m D (P : nat -> list (scalar K) -> Prop) q : (forall i, rare m D (P i)) -> rare m (Z.of_nat q * D) (fun c => exists i, (i < q)%nat /\ P i c).
Proof.
  intros HR. induction q as [|q IH]; [apply rare_never; [lia|]; intros c _ (i & Hi & _); lia|].
  apply (rare_le _ (Z.of_nat q * D + D)); [lia|]. refine (rare_imp _ _ _ _ _ (rare_or _ _ _ _ _ IH (HR q))).
  intros c _ (i & Hi & Y). destruct (Nat.eq_dec i q) as [->|Ne]; [right; exact Y|left; exists i; split; [lia|exact Y]].
Qed.
Section ICount.
Context {E : pairing}.
Notation K := (K_of E).
Notation F := (Fr E).
Notation e i env := (nth i env fzero).
Variables (n : nat) (cs : csys K) (xs : list F) (pf : profile) (domain : nat -> option (list F)) (fuel : nat) (b : Z) (gens : encryption_gens E).
Notation B := (ark_backend pf domain fuel).
Hypothesis HG : eg_G gens <> gzero.
Hypothesis HH : eg_H gens <> gzero.
Hypothesis Hdom_ok : domain_ok domain.
Hypothesis Hb : supported b.
Hypothesis HbM : 2 ^ b <= modulus K.
Hypothesis Hcomp : chunk_compatible K b.
Hypothesis Hcount : chunks_count K b = Ok (Z.of_nat n).
Hypothesis Hn0 : (0 < n)%nat.
Hypothesis Hcs : generate_constraints (BitsizeCheckCircuit b (Z.of_nat n) None true) (@cs_new K Circuit.Setup) = Ok cs.
Hypothesis Hdomain : domain (length (cs_cons cs) + cs_num_inst cs)%nat = Some xs.
Variables (before after : list (list F)).
Hypothesis Hbef : Forall (full n) before.
Hypothesis Haft : Forall (full n) after.
Let nb := length before.
Let mm := (length before + 1 + length after)%nat.
Let N := length xs.
Notation centralk := (centralk n before after).
Notation tau_ok := (tau_ok xs).
Notation T1 keys cps := (dkg_g1 gens (public_run keys cps)).
Notation T2 keys cps := (dkg_g2 gens (public_run keys cps)).

(* coins for which some g_i is zero, or nothing is known *)
Definition weak_coins (d : list F) : Prop := ~ tau_ok d \/ exists keys rest g_i, dkg_setup B gens b before after d = Ok (keys, rest) /\ get_gs_for_encryption (gpk_vk (pk_pk (kg_pk keys))) = Ok g_i /\ ~ Forall (fun x => x <> gzero) g_i.
Lemma weak_rare r : rare (2 * n + 6 + r) (Z.of_nat N + D0 n xs) weak_coins.
Proof.
  refine (rare_dkg n cs xs b Hn0 before after r _ (fun c => ~ tau_ok c \/ ~ healthy n cs xs (firstn (3 * n + 7) c)) _ _ _).
  - apply (rare_split n cs xs b HbM Hn0); [lia|]. refine (rare_imp _ _ _ _ _ (rare_unhealthy n cs xs domain b Hdom_ok Hb HbM Hn0 Hcs Hdomain r)). intros c _ [Tc [X|X]]; [destruct (X Tc)|exact X].
  - intros d w Ld Lw HW. pose proof (central_tau n cs xs b Hn0 before after _ d w Ld Lw) as E4. unfold RccaTest.tau_ok. rewrite E4. destruct (feq_dec (vanishing_at xs (e 4 d)) fzero) as [Hv|Hv]; [left; intros Z; exact (Z Hv)|right].
    intros Hh. destruct HW as [HW|(keys & rest & g_i & Hset & Hg & HW)]; [exact (HW Hv)|]. apply HW. clear HW.
    destruct (dkg_as_central_r n cs xs pf domain fuel b gens Hb HbM Hcount Hn0 Hcs Hdomain before after Hbef Haft) as (rows1 & rows2 & _ & HC).
    destruct (HC [] r d w _ Ld Lw Hv (execution_from_setup pf B gens b before after [] d keys rest [] rest Hset eq_refl)) as (Lc & _ & _ & sk & dk & s1 & Hcen & _). cbn [public_run dr_pk dr_ek] in Hcen.
    set (c := centralk d w) in *. assert (Hv' : vanishing_at xs (e 4 c) <> fzero) by (rewrite E4; exact Hv).
    pose proof (setup_tape_rest n cs xs pf domain fuel b gens Hcount Hcs Hdomain (proj1 (cs_shape n cs xs b (bits_of _ b Hb HbM) Hn0 Hcs)) c _ sk _ dk _ ltac:(lia) Hv' Hcen) as (Hga & _ & Hgs & _).
    assert (EG : g_i = gis n cs xs gens c) by congruence. rewrite EG.
    assert (Hh' : healthy n cs xs c) by (apply (healthy_prefix n cs xs 1 b Hn0 ltac:(lia)); exact Hh).
    destruct (degenerate_tape n cs xs gens HG HH Hn0 c Hh' Hga) as [_ X]. rewrite firstn_all2 in X; [exact X|]. unfold gis. rewrite map_length, seq_length. lia.
Qed.
Lemma setup_shares d keys rest : dkg_setup B gens b before after d = Ok (keys, rest) -> length (kg_shares keys) = length (kg_parties keys).
Proof.
  unfold dkg_setup. intros H. apply bind_Ok_inv in H. destruct H as (circ & _ & H). apply bind_Ok_inv in H. destruct H as ([pk st1] & _ & H). apply bind_Ok_inv in H. destruct H as (g_i & _ & H). cbv zeta in H.
  apply bind_Ok_inv in H. destruct H as (ps1 & _ & H). apply bind_Ok_inv in H. destruct H as ([[sk part] st2] & _ & H).
  apply bind_Ok_inv in H. destruct H as (ps2 & _ & H). apply bind_Ok_inv in H. destruct H as (com & _ & H).
  apply bind_Ok_inv in H. destruct H as (shares & Hs & H). apply bind_Ok_inv in H. destruct H as (p1 & _ & H).
  assert (Ek : keys = DkgKeys pk (ps1 ++ (sk, part) :: ps2) shares (keygenFinal com p1)) by congruence. subst keys. cbn [kg_shares kg_parties]. exact (mapM_outcome_length _ _ _ Hs).
Qed.
Lemma setup_gs d keys rest : dkg_setup B gens b before after d = Ok (keys, rest) -> exists g_i, get_gs_for_encryption (gpk_vk (pk_pk (kg_pk keys))) = Ok g_i.
Proof.
  unfold dkg_setup. intros H. apply bind_Ok_inv in H. destruct H as (circ & _ & H). apply bind_Ok_inv in H. destruct H as ([pk st1] & _ & H). apply bind_Ok_inv in H. destruct H as (g_i & Hg & H). cbv zeta in H.
  apply bind_Ok_inv in H. destruct H as (ps1 & _ & H). apply bind_Ok_inv in H. destruct H as ([[sk part] st2] & _ & H).
  apply bind_Ok_inv in H. destruct H as (ps2 & _ & H). apply bind_Ok_inv in H. destruct H as (com & _ & H).
  apply bind_Ok_inv in H. destruct H as (shares & _ & H). apply bind_Ok_inv in H. destruct H as (p1 & _ & H).
  assert (Ek : keys = DkgKeys pk (ps1 ++ (sk, part) :: ps2) shares (keygenFinal com p1)) by congruence. subst keys. exists g_i. exact Hg.
Qed.

(* what the simulation gives *)
Definition agrees {R R'} (G H : rng_impl E) (fin : nat -> list (list F) -> R -> R') (second : bool) (A : insider E R) (A' : adversary E R') (st : rng_st G) (sh : rng_st H) (l1 l2 : nat -> nat) (d : list F) : Prop :=
  match insider_run pf B G H gens b before after second A st sh d with
  | Some (keys, (r, cps, seen)) => exists rest rows, dkg_setup B gens b before after d = Ok (keys, rest) /\
      dkg_duel pf B G gens b keys second A' [] [] rest st = Some (fin (length cps) rows r, cps) /\ seen = combos rows (T1 keys cps) /\ length (T1 keys cps) = l1 (length cps) /\ length (T2 keys cps) = l2 (length cps)
  | None => experiment_rcca_dkg pf B G gens b before after second A' st d = None
  end.
Lemma lengths : exists l1 l2 : nat -> nat, forall r d keys rest, length d = (2 * n + 6 + r)%nat -> tau_ok d -> dkg_setup B gens b before after d = Ok (keys, rest) ->
  forall ms cps st, encrypt_all pf B (replay_rng E) ms (kg_ek keys) (kg_pk keys) b rest = Ok (cps, st) -> length cps = length ms /\ length (T1 keys cps) = l1 (length ms) /\ length (T2 keys cps) = l2 (length ms).
Proof.
  destruct (dkg_as_central_r n cs xs pf domain fuel b gens Hb HbM Hcount Hn0 Hcs Hdomain before after Hbef Haft) as (rows1 & rows2 & _ & HC).
  exists (fun j => length (extend_rows (P1 n cs xs) (j * (n + 4)) rows1)), (fun j => length (extend_rows (P2 n cs) j rows2)). intros r d keys rest Ld Hv Hset ms cps st Henc.
  destruct (HC ms r d (repeat fzero (S n)) _ Ld ltac:(apply repeat_length) Hv (execution_from_setup pf B gens b before after ms d keys rest cps st Hset Henc)) as (_ & _ & Lcps & sk & dk & s1 & _ & _ & G1 & G2 & _).
  cbn [public_run dr_cps] in Lcps. split; [exact Lcps|]. rewrite G1, G2. unfold combos. rewrite !map_length. split; reflexivity.
Qed.
Lemma simulation : exists l1 l2 : nat -> nat, forall (R R' : Type) (fin : nat -> list (list F) -> R -> R') (A : insider E R) (G H : rng_impl E) (st : rng_st G) (sh : rng_st H) t q k, ilimited t q k A ->
  let A' := trans n nb mm H l1 l2 fin 0 [] sh A in limited t q k A' /\ forall second,
  rare (2 * n + 6 + 3 * k) (Z.of_nat N + D0 n xs + Z.of_nat q * (Z.of_nat N + (D0 n xs + (cost n xs second t q k + NM n xs 0 (Z.of_nat k))))) (fun d => ~ agrees G H fin second A A' st sh l1 l2 d).
Proof.
  destruct lengths as (l1 & l2 & HL). exists l1, l2. intros R R' fin A G H st sh t q k W A'. pose proof (trans_limited n nb mm H l1 l2 fin A t q k W 0%nat [] sh) as W'. fold A' in W'. split; [exact W'|]. intros second.
  pose proof (rare_upto (2 * n + 6 + 3 * k) _ (fun i d => odd_dkg_duel n pf domain fuel b gens before after G st (cut i A') second d) q
    (fun i => rcca_dkg_forgery n cs xs pf domain fuel b gens HG HH Hdom_ok Hb HbM Hcomp Hcount Hn0 Hcs Hdomain before after Hbef Haft (cut i A') G st t q k second (cut_limited A' t q k W' i))) as RO.
  refine (rare_imp _ _ _ _ _ (rare_or _ _ _ _ _ (weak_rare (3 * k)) RO)). intros d Ld Hno.
  destruct (feq_dec (vanishing_at xs (e 4 d)) fzero) as [Hv|Hv]; [left; left; intros Z; exact (Z Hv)|].
  unfold agrees, insider_run, experiment_rcca_dkg in Hno. destruct (dkg_setup B gens b before after d) as [[keys rest]|err|] eqn:Hset; [|destruct (Hno eq_refl)|destruct (Hno eq_refl)].
  destruct (setup_gs d keys rest Hset) as (g_i & Hg). destruct (setup_parties B gens b before after d keys rest g_i Hset Hg) as [Hd Lps].
  destruct (Forall_dec (fun x : G1 E => x <> gzero)) with (l := g_i) as [Hnz|Hnz].
  { intros x. destruct (geq_dec x gzero) as [Z|Z]; [right|left; exact Z]. intros Y. exact (Y Z). }
  2:{ left. right. exists keys, rest, g_i. split; [exact Hset|]. split; [exact Hg|exact Hnz]. }
  right. destruct (nth_error (kg_parties keys) nb) as [[honest part]|] eqn:Hnth.
  2:{ apply nth_error_None in Hnth. unfold nb in Hnth. lia. }
  fold nb in Hno. rewrite Hnth in Hno.
  pose proof (HL _ d keys rest Ld Hv Hset) as HL'.
  destruct (simulated n nb mm H l1 l2 pf B G gens b keys rest honest part g_i _ _ Hb HbM Hcount Hg Hd Hnth Lps ltac:(rewrite (setup_shares d keys rest Hset); exact Lps) Hnz (fun ms cps st Z => proj2 (HL' ms cps st Z))
    fin second A t q k W [] [] [] [] rest st sh eq_refl (fun x Hx => match Hx with end) (Forall_nil _)) as [Y|(i & Hi & Y)].
  - exfalso. apply Hno. clear Hno. cbn [combos map length] in Y. fold A' in Y. destruct (insider_duel pf B G H gens b keys honest second A [] [] [] rest st sh) as [[[r cps] seen]|]; cbn [option_map].
    + destruct Y as (ms' & coins' & rows' & Y1 & Y2 & Y3). destruct (HL' ms' cps coins' Y2) as (X1 & X2 & X3). rewrite <- X1 in Y1, X2, X3. exists rest, rows'. split; [reflexivity|]. split; [exact Y1|]. split; [exact Y3|]. split; assumption.
    + rewrite Y. reflexivity.
  - exists i. split; [exact Hi|]. destruct Y as (St & cps & Y). exists keys, rest, St, cps. split; [exact Hset|exact Y].
Qed.

(* C85: the result *)
Theorem insider_bound {R} (A : insider E R) (G H : rng_impl E) (st : rng_st G) (sh : rng_st H) t q k : ilimited t q k A -> exists A' : adversary E R, limited t q k A' /\ forall second,
  rare (2 * n + 6 + 3 * k) (Z.of_nat N + D0 n xs + Z.of_nat q * (Z.of_nat N + (D0 n xs + (cost n xs second t q k + NM n xs 0 (Z.of_nat k)))))
    (fun d => insider_experiment pf B G H gens b before after second A st sh d <> experiment_rcca_dkg pf B G gens b before after second A' st d).
Proof.
  intros W. destruct simulation as (l1 & l2 & HS). destruct (HS R R (fun _ _ r => r) A G H st sh t q k W) as [W' HR]. eexists. split; [exact W'|]. intros second.
  refine (rare_imp _ _ _ _ _ (HR second)). intros d _ Hne Hag. apply Hne. unfold agrees in Hag. unfold insider_experiment.
  destruct (insider_run pf B G H gens b before after second A st sh d) as [[keys [[r cps] seen]]|]; cbn [option_map fst snd].
  - destruct Hag as (rest & rows & Z1 & Z2 & _). unfold experiment_rcca_dkg. rewrite Z1, Z2. reflexivity.
  - symmetry. exact Hag.
Qed.
(* C85: what is submitted in the end *)
Definition imitates (G H : rng_impl E) (second : bool) (A : insider E (strategy E)) (A' : adversary E (strategy E)) (st : rng_st G) (sh : rng_st H) (d : list F) : Prop :=
  forall keys St cps seen, insider_run pf B G H gens b before after second A st sh d = Some (keys, (St, cps, seen)) ->
  exists rest St', dkg_setup B gens b before after d = Ok (keys, rest) /\ dkg_duel pf B G gens b keys second A' [] [] rest st = Some (St', cps) /\
    ciphertext_from St' (T1 keys cps) = ciphertext_from St (T1 keys cps ++ seen) /\ proof_from St' (T1 keys cps) (T2 keys cps) = proof_from St (T1 keys cps ++ seen) (T2 keys cps).
Theorem insider_imitated (A : insider E (strategy E)) (G H : rng_impl E) (st : rng_st G) (sh : rng_st H) t q k : ilimited t q k A -> exists A' : adversary E (strategy E), limited t q k A' /\ forall second,
  rare (2 * n + 6 + 3 * k) (Z.of_nat N + D0 n xs + Z.of_nat q * (Z.of_nat N + (D0 n xs + (cost n xs second t q k + NM n xs 0 (Z.of_nat k)))))
    (fun d => ~ imitates G H second A A' st sh d).
Proof.
  intros W. destruct simulation as (l1 & l2 & HS). destruct (HS _ _ (fun j rows St => pull_strategy (I1 l1 j rows) (I2 l2 j) St) A G H st sh t q k W) as [W' HR]. eexists. split; [exact W'|]. intros second.
  refine (rare_imp _ _ _ _ _ (HR second)). intros d _ Hne Hag. apply Hne. clear Hne. intros keys St cps seen Hrun. unfold agrees in Hag. rewrite Hrun in Hag. destruct Hag as (rest & rows & Z1 & Z2 & Z3 & Z4 & Z5).
  exists rest. eexists. split; [exact Z1|]. split; [exact Z2|]. rewrite pull_ciphertext, pull_proof. rewrite I1_combos by exact Z4. rewrite I2_combos by exact Z5. rewrite <- Z3. split; reflexivity.
Qed.
End ICount.
