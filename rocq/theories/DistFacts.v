(* DistFacts.v -- the distributed protocol end to end (C10, C17, C26-C32, C42) *)
From Coq Require Import Permutation.
From Verif Require Import Base BaseFacts Algebra Utils UtilsFacts CommitmentFacts Setup Keygen KeygenFacts Encryption
  EncryptFacts DecryptFacts RoundTrip VerifyFacts Spec KeySpec VecFacts Protocol ReencFacts.

Section DistFacts.
Context {E : pairing}.
Add Ring Kr : (@scalar_ring_theory (K_of E)).

Lemma nil_cons' {A} (x : A) l : x :: l <> [].
Proof. discriminate. Qed.

(* ---------- C10: order of contributions ---------- *)
Definition same_shape (nX nY nZ : nat) (x0 : G1 E) (ek : ek_partial E) : Prop :=
  length (ekp_X ek) = nX /\ length (ekp_Y ek) = nY /\ length (ekp_Z ek) = nZ /\ ekp_X_0 ek = x0.

Theorem combineEKs_perm gamma (eks eks' : list (ek_partial E)) nX nY nZ x0 :
  Forall (same_shape nX nY nZ x0) eks -> Permutation eks eks' -> combineEKs gamma eks = combineEKs gamma eks'.
Proof.
  intros H Hp. destruct eks as [|e0 rest].
  { apply Permutation_nil in Hp. subst. reflexivity. }
  destruct eks' as [|e0' rest']; [apply Permutation_sym, Permutation_nil in Hp; discriminate|].
  assert (H' : Forall (same_shape nX nY nZ x0) (e0' :: rest')) by (eapply Permutation_Forall; [exact Hp|exact H]).
  assert (Hge : forall a l, Forall (same_shape nX nY nZ x0) (a :: l) -> Forall (ekp_ge a) l).
  { intros a l Ha. inversion Ha as [|? ? (A1 & A2 & A3 & _) Hl]; subst. eapply Forall_impl; [|exact Hl].
    intros e (B1 & B2 & B3 & _). unfold ekp_ge. lia. }
  rewrite !combineEKs_ok by (apply Hge; assumption).
  apply Forall_inv in H. apply Forall_inv in H'. destruct H as (A1 & A2 & A3 & A4). destruct H' as (B1 & B2 & B3 & B4).
  rewrite A1, A2, A3, A4, B1, B2, B3, B4. f_equal. f_equal.
  - apply col_sum_perm, Permutation_map; exact Hp.
  - apply col_sum_perm, Permutation_map; exact Hp.
  - apply col_sum_perm, Permutation_map; exact Hp.
  - f_equal. apply gsum_perm, Permutation_map; exact Hp.
Qed.

Theorem combineP1share_perm (ps ps' : list (p1share E)) : Permutation ps ps' -> combineP1share ps = combineP1share ps'.
Proof.
  intros Hp. destruct ps as [|p ps].
  { apply Permutation_nil in Hp. subst. reflexivity. }
  destruct ps' as [|p' ps']; [apply Permutation_sym, Permutation_nil in Hp; discriminate|].
  rewrite !combineP1share_ok. do 2 f_equal. apply gsum_perm, Permutation_map; exact Hp.
Qed.

Lemma partial_shape b gens g_i delta gamma (p : secret_key_st E * ek_partial E) : from_partial b gens g_i delta gamma p ->
  exists n, chunks_count (K_of E) b = Ok (Z.of_nat n) /\ same_shape n n (S n) delta (snd p) /\ length (st_s (fst p)) = n /\ length (st_t (fst p)) = S n.
Proof.
  intros H. apply from_partial_inv in H. destruct H as (n & s & t0 & t & Hn & Hg & _ & Hs & Ht & ->). exists n. split; [exact Hn|].
  unfold same_shape. cbn [snd fst ekp_formula ekp_X ekp_Y ekp_Z ekp_X_0 st_s st_t map length]. rewrite !map_length, scale_length. repeat split; lia.
Qed.

Lemma partial_shapes b gens g_i delta gamma (ps : list (secret_key_st E * ek_partial E)) n : chunks_count (K_of E) b = Ok (Z.of_nat n) ->
  Forall (from_partial b gens g_i delta gamma) ps ->
  Forall (fun p => same_shape n n (S n) delta (snd p) /\ length (st_s (fst p)) = n /\ length (st_t (fst p)) = S n) ps.
Proof.
  intros Hn H. eapply Forall_impl; [|exact H]. intros p Hp. apply partial_shape in Hp. destruct Hp as (n' & Hn' & Hp).
  assert (n' = n) by (rewrite Hn in Hn'; injection Hn' as Hn'; lia). subst n'. exact Hp.
Qed.

(* the whole key generation is independent of the order of the parties *)
Theorem dkg_perm b gens g_i delta gamma (ps ps' : list (secret_key_st E * ek_partial E)) :
  Forall (from_partial b gens g_i delta gamma) ps -> Permutation ps ps' -> dkg gamma ps = dkg gamma ps'.
Proof.
  intros H Hp. destruct ps as [|p0 ps].
  { apply Permutation_nil in Hp. subst. reflexivity. }
  pose proof (Forall_inv H) as H0. apply partial_shape in H0. destruct H0 as (n & Hn & _).
  assert (Hne' : ps' <> []) by (intros ->; apply Permutation_sym, Permutation_nil in Hp; discriminate).
  assert (H' : Forall (from_partial b gens g_i delta gamma) ps') by (eapply Permutation_Forall; [exact Hp|exact H]).
  rewrite (dkg_formula b gens g_i delta gamma _ n Hn (nil_cons' _ _) H).
  rewrite (dkg_formula b gens g_i delta gamma _ n Hn Hne' H').
  f_equal. f_equal.
  - unfold fcol_sum. apply map_ext. intros i. apply fsum_perm, Permutation_map, Permutation_map. exact Hp.
  - apply fsum_perm, Permutation_map; exact Hp.
  - unfold fcol_sum. apply map_ext. intros i. apply fsum_perm, Permutation_map, Permutation_map. exact Hp.
Qed.

(* ---------- C17: the commitment to the randomness ---------- *)
Lemma decrypt_chunks_nu pf (c_0 : G1 E) c sk dk g_i b ms nu :
  decrypt_to_chunks pf c_0 c sk dk g_i b = Ok (ms, nu) -> nu = sk [*] c_0.
Proof.
  rewrite decrypt_to_chunks_unfold. intros H. apply bind_Ok_inv in H. destruct H as (cnt & _ & H).
  destruct (negb _); [discriminate|]. destruct (_ <? _)%nat; [discriminate|].
  apply bind_Ok_inv in H. destruct H as (o & _ & H). apply bind_Ok_inv in H. destruct H as (l & _ & H).
  assert (Hn : nu = [-] mul_bigint c_0 (into_bigint (fneg sk))) by congruence. rewrite Hn.
  change (mul_bigint c_0 (into_bigint (fneg sk))) with (fneg sk [*] c_0). rewrite smul_fneg. apply gneg_neg.
Qed.
Lemma decrypt_nu pf (c_0 : G1 E) c sk dk g_i b m nu : decrypt pf c_0 c sk dk g_i b = Ok (m, nu) -> nu = sk [*] c_0.
Proof.
  unfold decrypt. intros H. apply bind_Ok_inv in H. destruct H as ([ms nu'] & Hd & H).
  apply bind_Ok_inv in H. destruct H as (m' & _ & H). apply decrypt_chunks_nu in Hd. congruence.
Qed.

Theorem nu_verifies b gens g_i delta gamma sk ek dk (c_0 x : G1 E) : from_keygen b gens g_i delta gamma sk ek dk ->
  (x = sk [*] c_0 -> pair x (prep (eg_H gens)) = pair c_0 (prep (dk_V_0 dk))) /\
  (eg_H gens <> gzero -> pair x (prep (eg_H gens)) = pair c_0 (prep (dk_V_0 dk)) -> x = sk [*] c_0).
Proof.
  intros H. apply from_keygen_inv in H. destruct H as (n & s & t0 & t & v & _ & _ & _ & _ & _ & _ & _ & ->).
  cbn [dk_formula dk_V_0]. rewrite pair_smul_r, <- pair_smul_l. split.
  - intros ->. reflexivity.
  - intros HH Hp. apply gsub_zero_eq.
    assert (Hz : pair (x [+] [-] (sk [*] c_0)) (prep (eg_H gens)) = gzero).
    { rewrite pair_add_l, pair_neg_l, Hp. apply gadd_neg_r. }
    apply pair_nondeg in Hz. destruct Hz; [assumption|contradiction].
Qed.

(* ---------- openings under the joint secret ---------- *)
Lemma flat_ct_inv (c_0 c_0' psi psi' : G1 E) c c' : c_0 :: c ++ [psi] = c_0' :: c' ++ [psi'] -> c_0 = c_0' /\ c = c' /\ psi = psi'.
Proof.
  intros H. injection H as H0 H. apply app_inj_tail in H. destruct H as [H1 H2]. auto.
Qed.

Lemma ct_vec_eq (ct : ciphertext E) c_0 c psi : c_0 :: c ++ [psi] = ct_vec ct -> c_0 = ct_X_r ct /\ c = ct_enc_chunks ct /\ psi = ct_commitment ct.
Proof. unfold ct_vec. apply flat_ct_inv. Qed.

Theorem dkg_opens b gens g_i delta gamma parties ek m c_0 c psi (r : Fr E) :
  from_dkg b gens g_i delta gamma parties ek -> encrypts ek g_i m (c_0 :: c ++ [psi]) r -> Forall (fun z => 0 <= z) m ->
  length c = length m /\ (length c <= length g_i)%nat /\
  Forall (fun sk => length (st_s sk) = length c) (map fst parties) /\
  opens_to (fcol_sum (length c) (map st_s (map fst parties))) g_i c_0 c m.
Proof.
  intros (Hne & Hp & Hd) He Hm. destruct parties as [|p0 ps]; [contradiction|].
  pose proof (Forall_inv Hp) as H0. apply partial_shape in H0. destruct H0 as (n & Hn & _).
  pose proof (partial_shapes _ _ _ _ _ _ n Hn Hp) as Hsh.
  rewrite (dkg_formula b gens g_i delta gamma _ n Hn Hne Hp) in Hd. injection Hd as <-.
  set (s := fcol_sum n _) in *. apply encrypts_inv in He. destruct He as (n' & Hwf & Hlm & Hg & Hct).
  assert (Hn' : n' = n).
  { destruct Hwf as (_ & HX & _). cbn [ek_formula ek_X] in HX. rewrite map_length in HX. unfold s in HX. rewrite fcol_sum_length in HX. lia. }
  rewrite Hn' in *; clear Hn' n'. apply ct_vec_eq in Hct. destruct Hct as (-> & -> & _).
  match goal with |- length (ct_enc_chunks ?ct) = _ /\ _ => assert (Hlen : length (ct_enc_chunks ct) = n) end.
  { cbn [ct_formula ct_enc_chunks]. rewrite body_formula_length. exact Hlm. }
  split; [lia|]. split; [lia|]. rewrite Hlen. split.
  - apply Forall_map. eapply Forall_impl; [|exact Hsh]. cbn. intros p (_ & Hs & _). exact Hs.
  - rewrite map_map. apply honest_body_opens; [|exact Hm]. change (length m = length s). unfold s. rewrite fcol_sum_length. lia.
Qed.

(* ---------- C28 ---------- *)
Lemma firstn_all_c (c : list (G1 E)) (m : list Z) : length c = length m -> length c = length m.
Proof. auto. Qed.

Theorem reencryption_delivers pf b gens g_i delta gamma parties ek m c_0 c psi (r : Fr E) skd ekd shares b' :
  from_dkg b gens g_i delta gamma parties ek -> encrypts ek g_i m (c_0 :: c ++ [psi]) r ->
  from_dest gens skd ekd -> Forall2 (share_of gens c_0 c ekd) (map fst parties) shares ->
  Forall (fun x => x <> gzero) (firstn (length m) g_i) ->
  1 <= b' <= 31 -> max_chunk b' < modulus (K_of E) -> Forall (fun z => 0 <= z <= max_chunk b') m ->
  exists g_r cs, reencrypt c shares = Ok (g_r :: cs) /\ decrypt_to_chunks_after_re_encryption pf g_r cs skd g_i b' = Ok m.
Proof.
  intros Hd He Hdest Hsh Hg Hb HM Hm.
  assert (Hpos : Forall (fun z => 0 <= z) m) by (eapply Forall_impl; [|exact Hm]; cbn; lia).
  destruct (dkg_opens _ _ _ _ _ _ _ _ _ _ _ _ Hd He Hpos) as (Hl & Hlg & _ & Hop).
  destruct (reencrypt_opens gens c_0 c ekd skd (map fst parties) shares g_i m Hdest) as (g_r & cs & Hr & Hlc & Hop').
  - destruct Hd as (Hne & _). destruct parties; [contradiction|discriminate].
  - exact Hsh.
  - exact Hop.
  - exists g_r, cs. split; [exact Hr|]. apply reenc_decrypt_exact; try assumption; try lia.
    + rewrite Hlc, Hl. exact Hg.
    + split; [exact Hop'|]. eapply Forall_impl; [|exact Hm]; cbn; lia.
Qed.

Theorem reencryption_out_of_range pf b gens g_i delta gamma parties ek m c_0 c psi (r : Fr E) skd ekd shares b' :
  from_dkg b gens g_i delta gamma parties ek -> encrypts ek g_i m (c_0 :: c ++ [psi]) r ->
  from_dest gens skd ekd -> Forall2 (share_of gens c_0 c ekd) (map fst parties) shares ->
  Forall (fun x => x <> gzero) (firstn (length m) g_i) ->
  1 <= b' <= 31 -> max_chunk b' < modulus (K_of E) -> Forall (fun z => 0 <= z < modulus (K_of E)) m -> ~ Forall (fun z => z <= max_chunk b') m ->
  exists g_r cs, reencrypt c shares = Ok (g_r :: cs) /\
    decrypt_to_chunks_after_re_encryption pf g_r cs skd g_i b' = Err CouldNotFindDiscreteLog.
Proof.
  intros Hd He Hdest Hsh Hg Hb HM Hm Hout.
  assert (Hpos : Forall (fun z => 0 <= z) m) by (eapply Forall_impl; [|exact Hm]; cbn; lia).
  destruct (dkg_opens _ _ _ _ _ _ _ _ _ _ _ _ Hd He Hpos) as (Hl & Hlg & _ & Hop).
  destruct (reencrypt_opens gens c_0 c ekd skd (map fst parties) shares g_i m Hdest) as (g_r & cs & Hr & Hlc & Hop').
  - destruct Hd as (Hne & _). destruct parties; [contradiction|discriminate].
  - exact Hsh.
  - exact Hop.
  - exists g_r, cs. split; [exact Hr|]. apply (reenc_decrypt_out_of_range _ _ _ _ _ _ m); try assumption; try lia.
    + rewrite Hlc, Hl. exact Hg.
    + eapply Forall_impl; [|exact Hm]; cbn; lia.
Qed.

(* ---------- C42 / C26: sums ---------- *)
Lemma sum_encrypts ek g_i (cts : list (list (G1 E))) msgs rs c : cts <> [] ->
  length msgs = length rs -> Forall2 (fun mr ct => encrypts ek g_i (fst mr) ct (snd mr)) (combine msgs rs) cts ->
  sum_cts cts = Ok c -> encrypts ek g_i (chunk_sum (length (ek_X ek)) msgs) c (fsum rs).
Proof.
  intros Hne Hl Hall Hs.
  destruct (sum_is_encryption_of_sum ek g_i (length (ek_X ek)) cts msgs rs Hne eq_refl Hall Hl) as (c' & Hc & He).
  rewrite Hs in Hc. injection Hc as <-. exists (replay_rng E), [fsum rs], []. exact He.
Qed.

Lemma sum_exists ek g_i (cts : list (list (G1 E))) msgs rs : cts <> [] ->
  length msgs = length rs -> Forall2 (fun mr ct => encrypts ek g_i (fst mr) ct (snd mr)) (combine msgs rs) cts ->
  exists c_0 c psi, sum_cts cts = Ok (c_0 :: c ++ [psi]) /\ length c = length (ek_X ek) /\
    Forall (fun m => length m = length (ek_X ek)) msgs.
Proof.
  intros Hne Hl Hall.
  destruct (sum_is_encryption_of_sum ek g_i (length (ek_X ek)) cts msgs rs Hne eq_refl Hall Hl) as (c' & Hc & He).
  assert (He' : encrypts ek g_i (chunk_sum (length (ek_X ek)) msgs) c' (fsum rs)) by (exists (replay_rng E), [fsum rs], []; exact He).
  apply encrypts_inv in He'. destruct He' as (n & Hwf & Hm & Hg & ->). pose proof Hwf as (_ & HX & _).
  eexists _, _, _. split; [exact Hc|]. split.
  - cbn [ct_formula ct_enc_chunks]. rewrite body_formula_length, Hm. symmetry; exact HX.
  - clear -Hall Hl. revert rs cts Hl Hall. induction msgs as [|m msgs IH]; intros rs cts Hl Hall; [constructor|].
    destruct rs as [|r rs]; cbn [length] in Hl; [lia|]. cbn [combine] in Hall. inversion Hall as [|? ? ? ? H0 Hrest]; subst. constructor.
    + cbn [fst snd] in H0. apply encrypts_inv in H0. destruct H0 as (n & (_ & HX & _) & Hm & _). congruence.
    + eapply IH; [|exact Hrest]. lia.
Qed.

Theorem aggregation_pipeline pf b gens g_i delta gamma parties ek msgs rs (cts : list (list (G1 E))) c_0 c psi skd ekd shares b' :
  from_dkg b gens g_i delta gamma parties ek -> cts <> [] -> length msgs = length rs ->
  Forall2 (fun mr ct => encrypts ek g_i (fst mr) ct (snd mr)) (combine msgs rs) cts ->
  sum_cts cts = Ok (c_0 :: c ++ [psi]) ->
  from_dest gens skd ekd -> Forall2 (share_of gens c_0 c ekd) (map fst parties) shares ->
  Forall (fun x => x <> gzero) (firstn (length c) g_i) ->
  1 <= b' <= 31 -> max_chunk b' < modulus (K_of E) ->
  Forall (fun z => 0 <= z <= max_chunk b') (chunk_sum (length c) msgs) ->
  exists g_r cs, reencrypt c shares = Ok (g_r :: cs) /\
    decrypt_to_chunks_after_re_encryption pf g_r cs skd g_i b' = Ok (chunk_sum (length c) msgs).
Proof.
  intros Hd Hne Hl Hall Hs Hdest Hsh Hg Hb HM Hm.
  pose proof (sum_encrypts _ _ _ _ _ _ Hne Hl Hall Hs) as He.
  destruct (sum_exists _ _ _ _ _ Hne Hl Hall) as (c_0' & c' & psi' & Hs' & Hlc & Hlm).
  rewrite Hs in Hs'. injection Hs' as E1 E2. apply app_inj_tail in E2. destruct E2 as [E2 E3]. subst c_0' c' psi'. rewrite <- Hlc in He, Hlm.
  apply (reencryption_delivers pf b gens g_i delta gamma parties ek _ c_0 c psi (fsum rs) skd ekd); try assumption.
  rewrite chunk_sum_length by exact Hlm. exact Hg.
Qed.

Theorem aggregation_out_of_range pf b gens g_i delta gamma parties ek msgs rs (cts : list (list (G1 E))) c_0 c psi skd ekd shares b' :
  from_dkg b gens g_i delta gamma parties ek -> cts <> [] -> length msgs = length rs ->
  Forall2 (fun mr ct => encrypts ek g_i (fst mr) ct (snd mr)) (combine msgs rs) cts ->
  sum_cts cts = Ok (c_0 :: c ++ [psi]) ->
  from_dest gens skd ekd -> Forall2 (share_of gens c_0 c ekd) (map fst parties) shares ->
  Forall (fun x => x <> gzero) (firstn (length c) g_i) ->
  1 <= b' <= 31 -> max_chunk b' < modulus (K_of E) ->
  Forall (fun z => 0 <= z < modulus (K_of E)) (chunk_sum (length c) msgs) ->
  ~ Forall (fun z => z <= max_chunk b') (chunk_sum (length c) msgs) ->
  exists g_r cs, reencrypt c shares = Ok (g_r :: cs) /\
    decrypt_to_chunks_after_re_encryption pf g_r cs skd g_i b' = Err CouldNotFindDiscreteLog.
Proof.
  intros Hd Hne Hl Hall Hs Hdest Hsh Hg Hb HM Hm Hout.
  pose proof (sum_encrypts _ _ _ _ _ _ Hne Hl Hall Hs) as He.
  destruct (sum_exists _ _ _ _ _ Hne Hl Hall) as (c_0' & c' & psi' & Hs' & Hlc & Hlm).
  rewrite Hs in Hs'. injection Hs' as E1 E2. apply app_inj_tail in E2. destruct E2 as [E2 E3]. subst c_0' c' psi'. rewrite <- Hlc in He, Hlm.
  apply (reencryption_out_of_range pf b gens g_i delta gamma parties ek _ c_0 c psi (fsum rs) skd ekd shares b') in He; try assumption.
  rewrite chunk_sum_length by exact Hlm. exact Hg.
Qed.

(* decrypting a sum with the decryption key of a centralized key *)
Lemma keygen_opens b gens g_i delta gamma sk ek dk m c_0 c psi (r : Fr E) :
  from_keygen b gens g_i delta gamma sk ek dk -> encrypts ek g_i m (c_0 :: c ++ [psi]) r -> Forall (fun z => 0 <= z) m ->
  exists s v, length v = length s /\ dk = dk_formula gens sk s v /\ (length s < 256)%nat /\ (length s <= length g_i)%nat /\
    length c = length s /\ length m = length s /\ opens_to s g_i c_0 c m.
Proof.
  intros Hk He Hm. apply from_keygen_inv in Hk. destruct Hk as (n & s & t0 & t & v & Hn & Hg & H256 & Hs & Ht & Hv & -> & ->).
  apply encrypts_inv in He. destruct He as (n' & (_ & HX & _) & Hlm & _ & Hct).
  cbn [ek_formula ek_X] in HX. rewrite map_length in HX. apply ct_vec_eq in Hct. destruct Hct as (-> & -> & _).
  exists s, v. split; [lia|]. split; [reflexivity|]. split; [lia|]. split; [lia|]. split; [cbn [ct_formula ct_enc_chunks]; rewrite body_formula_length; lia|].
  split; [lia|]. apply honest_body_opens; [lia|exact Hm].
Qed.

Theorem sum_decrypts pf b gens g_i delta gamma sk ek dk msgs rs (cts : list (list (G1 E))) c_0 c psi b' :
  from_keygen b gens g_i delta gamma sk ek dk -> nondegenerate dk g_i (length c) ->
  cts <> [] -> length msgs = length rs ->
  Forall2 (fun mr ct => encrypts ek g_i (fst mr) ct (snd mr)) (combine msgs rs) cts ->
  sum_cts cts = Ok (c_0 :: c ++ [psi]) ->
  1 <= b' <= 31 -> max_chunk b' < modulus (K_of E) ->
  Forall (fun z => 0 <= z < modulus (K_of E)) (chunk_sum (length c) msgs) ->
  (Forall (fun z => z <= max_chunk b') (chunk_sum (length c) msgs) ->
     decrypt_to_chunks pf c_0 c sk (prepare_dk dk) g_i b' = Ok (chunk_sum (length c) msgs, sk [*] c_0)) /\
  (~ Forall (fun z => z <= max_chunk b') (chunk_sum (length c) msgs) ->
     decrypt_to_chunks pf c_0 c sk (prepare_dk dk) g_i b' = Err CouldNotFindDiscreteLog).
Proof.
  intros Hk Hnd Hne Hl Hall Hs Hb HM Hm.
  pose proof (sum_encrypts _ _ _ _ _ _ Hne Hl Hall Hs) as He.
  destruct (sum_exists _ _ _ _ _ Hne Hl Hall) as (c_0' & c' & psi' & Hs' & Hlc & Hlm).
  rewrite Hs in Hs'. injection Hs' as E1 E2. apply app_inj_tail in E2. destruct E2 as [E2 E3]. subst c_0' c' psi'. rewrite <- Hlc in He, Hlm.
  assert (Hpos : Forall (fun z => 0 <= z) (chunk_sum (length c) msgs)) by (eapply Forall_impl; [|exact Hm]; cbn; lia).
  destruct (keygen_opens _ _ _ _ _ _ _ _ _ _ _ _ _ Hk He Hpos) as (s & v & Hv & -> & H256 & Hg & Hc & Hms & Hop).
  rewrite Hc in Hnd. split; intros Hr.
  - apply decrypt_exact; try assumption. split; [exact Hop|]. split; [exact Hr|reflexivity].
  - eapply decrypt_out_of_range; try eassumption. eapply Forall_impl; [|exact Hm]; cbn; lia.
Qed.

(* ---------- C27 ---------- *)
Theorem doubled16_debug (c_0 : G1 E) c sk g_i : (length c <= length g_i)%nat ->
  decrypt_to_chunks_after_re_encryption Debug c_0 c sk g_i (16 * 2) = Panic.
Proof. intros H. apply reenc_debug_panic; [lia|exact H]. Qed.

Theorem doubled16_release (c_0 : G1 E) c sk g_i ms : (length c <= length g_i)%nat ->
  Forall (fun x => x <> gzero) (firstn (length c) g_i) ->
  opens_to (repeat sk (length c)) g_i c_0 c ms -> Forall (fun z => z < modulus (K_of E)) ms -> ~ Forall (fun z => z <= 1) ms ->
  decrypt_to_chunks_after_re_encryption Release c_0 c sk g_i (16 * 2) = Err CouldNotFindDiscreteLog.
Proof.
  intros Hg Hnz (_ & Hlm & Hop) Hr Hout. rewrite reenc_unfold.
  destruct (Nat.ltb_spec (length g_i) (length c)) as [Hlt|_]; [lia|].
  change (one_shl_u32 Release (16 * 2)) with (@Ok Z 1). cbn [bind]. change (as_u16 (1 - 1)) with 0.
  rewrite repeat_length in Hop, Hlm.
  assert (Hgi : forall i, (i < length c)%nat -> nth i g_i gzero <> gzero).
  { intros i Hi. rewrite Forall_forall in Hnz. apply Hnz. apply (nth_error_In _ i). rewrite <- (firstn_skipn (length c) g_i) at 2.
    rewrite app_nth1 by (rewrite firstn_length; lia). apply nth_error_nth'. rewrite firstn_length; lia. }
  pose proof (@modulus_gt1 (K_of E)) as Hp1.
  set (f := reenc_step _ _ _).
  assert (Hf : forall i, (i < length c)%nat -> f i = if nth i ms 0 <=? 1 then Ok (nth i ms 0) else Err CouldNotFindDiscreteLog).
  { intros i Hi. destruct (Hop i Hi) as [Hpos He]. rewrite nth_repeat_lt in He by exact Hi. unfold f, reenc_step.
    assert (Hx : idx (map (fun ci => ci [+] mul_bigint c_0 (into_bigint (fneg sk))) c) i = Ok (of_Z (nth i ms 0) [*] nth i g_i gzero)).
    { apply idx_nth_error. rewrite nth_error_map, (nth_error_nth' _ gzero) by exact Hi. cbn [option_map]. f_equal.
      change (mul_bigint c_0 (into_bigint (fneg sk))) with (fneg sk [*] c_0). rewrite He. glin. }
    rewrite Hx. cbn [bind]. rewrite (idx_nth g_i i gzero) by lia. cbn [bind].
    rewrite <- mul_bigint_smul. set (k := nth i ms 0) in *. set (g := nth i g_i gzero) in *.
    assert (Hk : 0 <= k < modulus (K_of E)).
    { split; [exact Hpos|]. rewrite Forall_forall in Hr. apply Hr. apply nth_In. lia. }
    specialize (Hgi i Hi). fold g in Hgi.
    unfold gis_zero. destruct (geqb (mul_bigint g k) gzero) eqn:Ez.
    - apply geqb_spec in Ez. change gzero with (mul_bigint g 0) in Ez. apply mul_bigint_inj in Ez; [|exact Hgi|lia|lia]. rewrite Ez. reflexivity.
    - apply geqb_false in Ez. unfold solve_discrete_log. destruct (geqb (mul_bigint g k) g) eqn:E1.
      + apply geqb_spec in E1. change g with (mul_bigint g 1) in E1 at 2. apply mul_bigint_inj in E1; [|exact Hgi|lia|lia]. rewrite E1. reflexivity.
      + apply geqb_false in E1. change (Z.to_nat (0 - 1)) with 0%nat. cbn [dlog_loop].
        destruct (Z.leb_spec k 1) as [Hle|]; [|reflexivity]. exfalso.
        assert (k = 0 \/ k = 1) as [Ek|Ek] by lia; rewrite Ek in *; [apply Ez|apply E1]; reflexivity. }
  assert (Hex : exists i, (i < length c)%nat /\ 1 < nth i ms 0).
  { destruct (Forall_Exists_dec (fun z => z <= 1) (fun z => Z_le_dec z 1) ms) as [H|H]; [contradiction|].
    apply Exists_exists in H. destruct H as (z & Hz & Hgt). apply In_nth with (d := 0) in Hz. destruct Hz as (i & Hi & <-). exists i. split; lia. }
  destruct Hex as (i & Hi & Hgt). apply (mapM_Err_intro f _ _ i).
  - apply in_seq; lia.
  - rewrite Hf by exact Hi. destruct (Z.leb_spec (nth i ms 0) 1); [lia|reflexivity].
  - intros j Hj. apply in_seq in Hj. rewrite Hf by lia. destruct (nth j ms 0 <=? 1); eauto.
Qed.

(* ---------- C29 ---------- *)
Theorem missing_share pf b gens g_i delta gamma pre p post ek m c_0 c psi (r : Fr E) skd ekd shares b' g_r cs ms i :
  from_dkg b gens g_i delta gamma (pre ++ p :: post) ek -> encrypts ek g_i m (c_0 :: c ++ [psi]) r -> Forall (fun z => 0 <= z) m ->
  from_dest gens skd ekd -> Forall2 (share_of gens c_0 c ekd) (map fst (pre ++ post)) shares ->
  Forall (fun x => x <> gzero) (firstn (length m) g_i) -> 1 <= b' <= 31 -> max_chunk b' < modulus (K_of E) ->
  reencrypt c shares = Ok (g_r :: cs) -> decrypt_to_chunks_after_re_encryption pf g_r cs skd g_i b' = Ok ms ->
  (i < length m)%nat -> nth i (st_s (fst p)) fzero [*] c_0 <> gzero -> nth i ms 0 <> nth i m 0.
Proof.
  intros Hd He Hm Hdest Hsh Hg Hb HM Hr Hdec Hi Hne.
  destruct (dkg_opens _ _ _ _ _ _ _ _ _ _ _ _ Hd He Hm) as (Hl & Hlg & _ & (_ & _ & Hop)).
  rewrite fcol_sum_length in Hop.
  assert (Hsks : map fst (pre ++ post) <> []).
  { intros H. rewrite H in Hsh. inversion Hsh; subst. cbn in Hr. discriminate. }
  destruct (reencrypt_explicit gens c_0 c ekd skd _ shares Hdest Hsks Hsh) as (g_r' & cs' & Hr' & Hlc & Hcs).
  rewrite Hr in Hr'. injection Hr' as <- <-.
  apply reenc_decrypt_exact in Hdec; try assumption; try lia; [|rewrite Hlc, Hl; exact Hg].
  destruct Hdec as ((_ & Hlms & Hop') & _). rewrite repeat_length in Hop', Hlms.
  specialize (Hcs i ltac:(lia)). destruct (Hop i ltac:(lia)) as [_ Hci]. destruct (Hop' i ltac:(lia)) as [_ Hci'].
  rewrite nth_repeat_lt in Hci' by lia. rewrite fcol_sum_nth in Hci by lia.
  intros Heq. apply Hne. rewrite Heq in Hci'. rewrite Hcs, Hci in Hci'.
  rewrite !map_map, !map_app in Hci'. cbn [map] in Hci'.
  rewrite !fsum_app, fsum_cons in Hci'.
  set (A := fsum (map (fun x => nth i (st_s (fst x)) fzero) pre)) in *. set (B := fsum (map (fun x => nth i (st_s (fst x)) fzero) post)) in *.
  set (sp := nth i (st_s (fst p)) fzero) in *. set (k := of_Z (nth i m 0)) in *.
  apply (gadd_cancel_l ((skd [*] g_r) [+] (k [*] nth i g_i gzero))).
  transitivity ((skd [*] g_r) [+] (k [*] nth i g_i gzero)); [|glin]. etransitivity; [|exact Hci']. glin.
Qed.

(* ---------- C31 ---------- *)
(* public data only: the re-encrypted chunks cs, the generators, a guess k for chunk i0 *)
Definition unmask_with_guess (pf : profile) (cs g_i : list (G1 E)) (b : Z) (i0 : nat) (k : Z) : outcome (list Z) :=
  let mask := nth i0 cs gzero [+] [-] (of_Z k [*] nth i0 g_i gzero) in
  decrypt_to_chunks_after_re_encryption pf gzero (map (fun x => x [+] [-] mask) cs) fzero g_i b.

Theorem unmask_attack pf b gens g_i delta gamma parties ek m c_0 c psi (r : Fr E) skd ekd shares b' g_r cs i0 :
  from_dkg b gens g_i delta gamma parties ek -> encrypts ek g_i m (c_0 :: c ++ [psi]) r ->
  from_dest gens skd ekd -> Forall2 (share_of gens c_0 c ekd) (map fst parties) shares ->
  reencrypt c shares = Ok (g_r :: cs) ->
  Forall (fun x => x <> gzero) (firstn (length m) g_i) ->
  1 <= b' <= 31 -> max_chunk b' < modulus (K_of E) -> Forall (fun z => 0 <= z <= max_chunk b') m -> (i0 < length m)%nat ->
  unmask_with_guess pf cs g_i b' i0 (nth i0 m 0) = Ok m.
Proof.
  intros Hd He Hdest Hsh Hr Hg Hb HM Hm Hi0.
  assert (Hpos : Forall (fun z => 0 <= z) m) by (eapply Forall_impl; [|exact Hm]; cbn; lia).
  destruct (dkg_opens _ _ _ _ _ _ _ _ _ _ _ _ Hd He Hpos) as (Hl & Hlg & _ & Hop).
  destruct (reencrypt_opens gens c_0 c ekd skd (map fst parties) shares g_i m Hdest) as (g_r' & cs' & Hr' & Hlc & Hop').
  - destruct Hd as (Hne & _). destruct parties; [contradiction|discriminate].
  - exact Hsh.
  - exact Hop.
  - rewrite Hr in Hr'. injection Hr' as <- <-. destruct Hop' as (_ & Hlm & Hop'). rewrite repeat_length in Hop', Hlm.
    assert (Hmask : nth i0 cs gzero [+] [-] (of_Z (nth i0 m 0) [*] nth i0 g_i gzero) = skd [*] g_r).
    { destruct (Hop' i0 ltac:(lia)) as [_ ->]. rewrite nth_repeat_lt by lia. glin. }
    unfold unmask_with_guess. rewrite Hmask.
    apply reenc_decrypt_exact; rewrite ?map_length; try assumption; try lia.
    + rewrite Hlc, Hl. exact Hg.
    + split; [|eapply Forall_impl; [|exact Hm]; cbn; lia]. unfold opens_to. rewrite repeat_length, !map_length. split; [reflexivity|]. split; [exact Hlm|].
      intros i Hi. destruct (Hop' i Hi) as [Hp Hci]. split; [exact Hp|]. rewrite nth_repeat_lt in * by exact Hi.
      rewrite (nth_indep _ gzero (gzero [+] [-] (skd [*] g_r))) by (rewrite map_length; exact Hi).
      rewrite (map_nth (fun x => x [+] [-] (skd [*] g_r))), Hci. glin.
Qed.

(* ---------- C32 ---------- *)
(* what the dishonest party sends: computed from its own key pair and from the others' public contributions *)
Definition vec_sub {K} {G : group K} (target : list G) (others : list (list G)) : list G :=
  map (fun i => nth i target gzero [+] [-] gsum (map (fun v => nth i v gzero) others)) (seq 0 (length target)).
Definition rogue_partial (gamma : G1 E) (ek : encryption_key E) (others : list (ek_partial E)) : ek_partial E :=
  FEncryptionKeyPartial (ek_X_0 ek)
    (vec_sub (ek_X ek) (map ekp_X others)) (vec_sub (ek_Y ek) (map ekp_Y others)) (vec_sub (ek_Z ek) (map ekp_Z others))
    (ek_P_2 ek [+] [-] gamma [+] [-] gsum (map ekp_P_2 others)).
Definition rogue_share (ek : encryption_key E) (others : list (p1share E)) : p1share E :=
  P1share (ek_P_1 ek [+] [-] gsum (map p1_P_1 others)).

Lemma vec_sub_length {K} {G : group K} (t : list G) o : length (vec_sub t o) = length t.
Proof. unfold vec_sub. rewrite map_length, seq_length. reflexivity. Qed.
Lemma col_sum_vec_sub {K} {G : group K} (t : list G) o : col_sum (length t) (o ++ [vec_sub t o]) = t.
Proof.
  rewrite (list_as_map gzero t) at 3. unfold col_sum. apply map_ext_in. intros i Hi. apply in_seq in Hi.
  rewrite map_app, gsum_app. cbn [map]. rewrite gsum_cons, gsum_nil, gadd_0_r. unfold vec_sub at 1.
  rewrite (map_seq_nth (fun i => nth i t gzero [+] [-] gsum (map (fun v => nth i v gzero) o))) by lia.
  rewrite (gadd_comm (nth i t gzero)), gadd_assoc, gadd_neg_r, gadd_0_l. reflexivity.
Qed.

Theorem rogue_key b gens g_i delta gamma honest sk ek dk :
  honest <> [] -> Forall (@from_partial E b gens g_i delta gamma) honest -> from_keygen b gens g_i delta gamma sk ek dk ->
  exists ekc shares,
    combineEKs gamma (map snd honest ++ [rogue_partial gamma ek (map snd honest)]) = Ok ekc /\
    mapM (fun p => genP1share ekc (fst p)) honest = Ok shares /\
    exists p1, combineP1share (shares ++ [rogue_share ek shares]) = Ok p1 /\ keygenFinal ekc p1 = ek.
Proof.
  intros Hne Hh Hk. apply from_keygen_inv in Hk. destruct Hk as (n & s & t0 & t & v & Hn & Hg & H256 & Hs & Ht & Hv & Hek & _).
  pose proof (partial_shapes _ _ _ _ _ _ n Hn Hh) as Hsh.
  assert (LX : length (ek_X ek) = n) by (subst ek; cbn; rewrite map_length; lia).
  assert (LY : length (ek_Y ek) = n) by (subst ek; cbn; rewrite scale_length; lia).
  assert (LZ : length (ek_Z ek) = S n) by (subst ek; cbn; rewrite map_length; lia).
  assert (X0 : ek_X_0 ek = delta) by (subst ek; reflexivity).
  set (ekc := FEncryptionKeyPartial (ek_X_0 ek) (ek_X ek) (ek_Y ek) (ek_Z ek) (ek_P_2 ek)).
  assert (Hc : combineEKs gamma (map snd honest ++ [rogue_partial gamma ek (map snd honest)]) = Ok ekc).
  { destruct honest as [|p0 ps]; [contradiction|]. cbn [map app].
    pose proof (Forall_inv Hsh) as ((A1 & A2 & A3 & A4) & _). pose proof (Forall_inv_tail Hsh) as Hps.
    rewrite combineEKs_ok.
    - rewrite A1, A2, A3, A4.
      change (snd p0 :: map snd ps ++ [rogue_partial gamma ek (snd p0 :: map snd ps)]) with
             (map snd (p0 :: ps) ++ [rogue_partial gamma ek (map snd (p0 :: ps))]).
      set (o := map snd (p0 :: ps)). unfold ekc. rewrite X0. rewrite !map_app. cbn [map rogue_partial ekp_X ekp_Y ekp_Z ekp_P_2].
      rewrite <- LX at 1. rewrite <- LY at 1. rewrite <- LZ at 1. rewrite !col_sum_vec_sub. do 2 f_equal.
      rewrite gsum_app. cbn [map]. rewrite gsum_cons, gsum_nil. glin.
    - apply Forall_app. split.
      + apply Forall_map. eapply Forall_impl; [|exact Hps]. cbn. intros p ((B1 & B2 & B3 & _) & _). unfold ekp_ge. lia.
      + constructor; [|constructor]. unfold ekp_ge. cbn [rogue_partial ekp_X ekp_Y ekp_Z]. rewrite !vec_sub_length. lia. }
  assert (Hshares : exists shares, mapM (fun p => genP1share ekc (fst p)) honest = Ok shares).
  { clear -Hsh LX. induction Hsh as [|p ps (_ & _ & Hst) _ IH]; [exists []; reflexivity|]. destruct IH as (l & Hl). cbn [mapM].
    destruct (st_t (fst p)) as [|t0' t'] eqn:Et; [discriminate|]. rewrite (genP1share_ok ekc (fst p) t0' t' Et); [|cbn [length] in Hst; cbn [ekc ekp_X]; lia].
    cbn [bind]. rewrite Hl. cbn [bind]. eauto. }
  destruct Hshares as (shares & Hshares). exists ekc, shares. split; [exact Hc|]. split; [exact Hshares|].
  exists (P1share (ek_P_1 ek)). split.
  - destruct (shares ++ [rogue_share ek shares]) as [|q0 qs] eqn:Eq; [destruct shares; discriminate|].
    rewrite combineP1share_ok, <- Eq, map_app, gsum_app. cbn [map rogue_share p1_P_1]. rewrite gsum_cons, gsum_nil. do 2 f_equal. glin.
  - unfold keygenFinal, ekc. cbn. destruct ek; reflexivity.
Qed.
End DistFacts.
