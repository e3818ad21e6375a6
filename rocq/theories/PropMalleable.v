(* PropMalleable.v -- C47-C49: what a ciphertext determines, and what anybody can do to it with public values only. *)
From Verif Require Import Base BaseFacts Algebra Utils UtilsFacts Setup Keygen KeygenFacts Encryption
  EncryptFacts DecryptFacts RoundTrip VerifyFacts Spec KeySpec VecFacts Protocol ReencFacts DistFacts Instance Examples PropEnc PropVerify.

(* the chunks a decryption returned, without the commitment nu to the randomness (errors and panics unchanged) *)
Definition chunks_of {E : pairing} (r : outcome (list Z * G1 E)) : outcome (list Z) := '(ms, _) <- r ;; Ok ms.

Section Malleable.
Context {E : pairing}.
Add Ring Kr : (@scalar_ring_theory (K_of E)).

Lemma chunks_of_agree (r1 r2 : outcome (list Z * G1 E)) :
  r1 <> Panic -> r2 <> Panic -> (forall e, r1 = Err e -> e = CouldNotFindDiscreteLog) -> (forall e, r2 = Err e -> e = CouldNotFindDiscreteLog) ->
  (forall ms, (exists nu, r1 = Ok (ms, nu)) <-> (exists nu, r2 = Ok (ms, nu))) -> chunks_of r1 = chunks_of r2.
Proof.
  intros P1 P2 E1 E2 H. destruct r1 as [[ms nu]|e|]; [| |contradiction].
  - destruct (proj1 (H ms) (ex_intro _ nu eq_refl)) as (nu' & ->). reflexivity.
  - destruct r2 as [[ms nu]|e'|]; [|cbn; f_equal; rewrite (E1 e eq_refl), (E2 e' eq_refl); reflexivity|contradiction].
    destruct (proj2 (H ms) (ex_intro _ nu eq_refl)) as (nu' & X). discriminate X.
Qed.

Lemma shape_formula pf gens sk (s v : list (Fr E)) g_i b c_0 c : length v = length s -> (length s < 256)%nat -> (length s <= length g_i)%nat ->
  0 <= b <= 31 -> length c <> length s ->
  decrypt_to_chunks pf c_0 c sk (prepare_dk (dk_formula gens sk s v)) g_i b = Err (IncompatibleDecryptionKey (length c) (length s)).
Proof.
  intros Hv H256 Hg Hb Hc.
  destruct (decrypt_to_chunks_shape pf c_0 c sk (prepare_dk (dk_formula gens sk s v)) g_i b Hb) as (_ & H & _).
  assert (H1 : length (pdk_V_1 (prepare_dk (dk_formula gens sk s v))) = length s).
  { unfold prepare_dk, dk_formula. cbn [pdk_V_1 dk_V_1]. rewrite !map_length, combine_length. lia. }
  assert (H2 : length (pdk_V_2 (prepare_dk (dk_formula gens sk s v))) = length s).
  { unfold prepare_dk, dk_formula. cbn [pdk_V_2 dk_V_2]. rewrite !map_length. lia. }
  rewrite H1, H2, Nat.mod_small in H by exact H256. apply H; [reflexivity|exact Hc].
Qed.

(* two bodies of the same length that open alike decrypt alike, also under two decryption keys for the same secrets *)
Lemma decrypt_agree pf pf' gens gens' sk sk' (s v v' : list (Fr E)) g_i b c_0 c c_0' c' :
  length v = length s -> length v' = length s -> (length s < 256)%nat -> (length s <= length g_i)%nat ->
  nondegenerate (dk_formula gens sk s v) g_i (length s) -> nondegenerate (dk_formula gens' sk' s v') g_i (length s) ->
  1 <= b <= 31 -> max_chunk b < modulus (K_of E) -> length c = length c' ->
  (forall ms, opens_to s g_i c_0 c ms <-> opens_to s g_i c_0' c' ms) ->
  chunks_of (decrypt_to_chunks pf c_0 c sk (prepare_dk (dk_formula gens sk s v)) g_i b) =
  chunks_of (decrypt_to_chunks pf' c_0' c' sk' (prepare_dk (dk_formula gens' sk' s v')) g_i b).
Proof.
  intros Hv Hv' H256 Hg HN HN' Hb HF Hl Hop.
  destruct (Nat.eq_dec (length c) (length s)) as [Hc|Hc].
  2:{ rewrite !shape_formula by (assumption || lia). rewrite Hl. reflexivity. }
  pose proof (fun ms nu => decrypt_exact pf gens sk s v g_i b c_0 c ms nu Hv H256 Hg HN Hb HF) as X.
  pose proof (fun ms nu => decrypt_exact pf' gens' sk' s v' g_i b c_0' c' ms nu Hv' H256 Hg HN' Hb HF) as X'.
  pose proof (decrypt_sound_shape pf gens sk s v g_i b c_0 c Hv H256 Hg Hc ltac:(lia)) as S1.
  pose proof (decrypt_sound_shape pf' gens' sk' s v' g_i b c_0' c' Hv' H256 Hg ltac:(lia) ltac:(lia)) as S2.
  apply chunks_of_agree.
  - destruct S1 as [(ms & nu & ->)| ->]; discriminate.
  - destruct S2 as [(ms & nu & ->)| ->]; discriminate.
  - destruct S1 as [(ms & nu & ->)| ->]; intros e H; [discriminate H|congruence].
  - destruct S2 as [(ms & nu & ->)| ->]; intros e H; [discriminate H|congruence].
  - intros ms. split; intros (nu & H).
    + apply X in H. destruct H as (H1 & H2 & _). eexists. apply X'. split; [apply Hop; exact H1|]. split; [exact H2|reflexivity].
    + apply X' in H. destruct H as (H1 & H2 & _). eexists. apply X. split; [apply Hop; exact H1|]. split; [exact H2|reflexivity].
Qed.

Lemma map_smul_inj (s s' : list (Fr E)) (x : G1 E) : x <> gzero -> map (fun a => a [*] x) s = map (fun a => a [*] x) s' -> s = s'.
Proof.
  intros Hx. revert s'; induction s as [|a s IH]; intros [|a' s'] H; cbn [map] in H; try discriminate; [reflexivity|].
  injection H as H1 H2. apply smul_inj_scalar in H1; [|exact Hx]. rewrite H1, (IH s' H2). reflexivity.
Qed.

(* zeros encrypted: a body that opens to zeros *)
Lemma zeros_body X0 (s : list (Fr E)) g_i n (r : Fr E) i : length s = n -> (i < n)%nat ->
  nth i (body_formula (map (fun x => x [*] X0) s) g_i (repeat 0 n) r) gzero = nth i s fzero [*] (r [*] X0).
Proof.
  intros Hs Hi. rewrite body_formula_nth by (rewrite repeat_length; exact Hi). rewrite nth_repeat_lt by exact Hi.
  rewrite (nth_map_default (fun x => x [*] X0) s i fzero gzero) by apply smul_0_l.
  change (of_Z 0) with (@fzero (K_of E)). glin.
Qed.

Lemma opens_zero_add (s : list (Fr E)) g_i c_0 c z0 z ms : length c = length s -> length z = length s ->
  (forall i, (i < length s)%nat -> nth i z gzero = nth i s fzero [*] z0) ->
  opens_to s g_i c_0 c ms <-> opens_to s g_i (c_0 [+] z0) (zip_with gadd c z) ms.
Proof.
  intros Hc Hz Hzi. unfold opens_to. rewrite zip_with_length.
  split; intros (H1 & H2 & H); (split; [lia|]); (split; [exact H2|]); intros i Hi; destruct (H i Hi) as [Hp He]; (split; [exact Hp|]).
  - rewrite zip_gadd_nth by lia. rewrite He, Hzi by exact Hi. glin.
  - rewrite zip_gadd_nth in He by lia. rewrite Hzi in He by exact Hi.
    apply (gadd_cancel_l (nth i s fzero [*] z0)). rewrite (gadd_comm _ (nth i c gzero)), He. glin.
Qed.
End Malleable.

(* ===== C47 ===== *)
(* Two runs of keygen (any randomness, chunk sizes, generators G and H, secret keys) that returned the same encryption key:
   their decryption keys decrypt every ciphertext -- honest or not -- to the same chunks, or fail with the same error. *)
Theorem C47_encryption_key_determines_decryption :
  forall (E : pairing) b1 b2 gens1 gens2 g_i delta1 delta2 gamma1 gamma2 sk1 sk2 (ek : encryption_key E) dk1 dk2,
  from_keygen b1 gens1 g_i delta1 gamma1 sk1 ek dk1 -> from_keygen b2 gens2 g_i delta2 gamma2 sk2 ek dk2 ->
  ek_X_0 ek <> gzero ->
  nondegenerate dk1 g_i (length (dk_V_2 dk1)) -> nondegenerate dk2 g_i (length (dk_V_2 dk2)) ->
  forall (pf1 pf2 : profile) (b' : Z) (c_0 : G1 E) (c : list (G1 E)), 1 <= b' <= 31 -> field_holds (K_of E) b' ->
  chunks_of (decrypt_to_chunks pf1 c_0 c sk1 (prepare_dk dk1) g_i b') = chunks_of (decrypt_to_chunks pf2 c_0 c sk2 (prepare_dk dk2) g_i b').
Proof.
  intros E b1 b2 gens1 gens2 g_i delta1 delta2 gamma1 gamma2 sk1 sk2 ek dk1 dk2 H1 H2 HX N1 N2 pf1 pf2 b' c_0 c Hb HF.
  apply from_keygen_inv in H1. destruct H1 as (n & s & t0 & t & v & _ & Hg & Hlt & Hs & _ & Hv & Hek & Hdk).
  apply from_keygen_inv in H2. destruct H2 as (n' & s' & t0' & t' & v' & _ & Hg' & Hlt' & Hs' & _ & Hv' & Hek' & Hdk').
  assert (D : ek_X_0 ek = delta1) by (rewrite Hek; reflexivity). assert (D' : ek_X_0 ek = delta2) by (rewrite Hek'; reflexivity).
  assert (X : ek_X ek = map (fun x => x [*] ek_X_0 ek) s) by (rewrite D, Hek; reflexivity).
  assert (X' : ek_X ek = map (fun x => x [*] ek_X_0 ek) s') by (rewrite D', Hek'; reflexivity).
  assert (Hss : s' = s) by (apply (map_smul_inj s' s (ek_X_0 ek) HX); congruence). subst s'.
  assert (L : length (dk_V_2 dk1) = length s) by (rewrite Hdk; unfold dk_formula; cbn [dk_V_2]; rewrite map_length; lia).
  assert (L' : length (dk_V_2 dk2) = length s) by (rewrite Hdk'; unfold dk_formula; cbn [dk_V_2]; rewrite map_length; lia).
  rewrite L, Hdk in N1. rewrite L', Hdk' in N2. rewrite Hdk, Hdk'. apply field_holds_iff in HF; [|lia].
  apply decrypt_agree; try assumption; try lia. intros ms; reflexivity.
Qed.

(* ... and there are such runs: every encryption key comes with a decryption key for every secret key rho' <> 0 *)
Theorem C47_many_decryption_keys :
  forall (E : pairing) b gens g_i delta gamma sk (ek : encryption_key E) dk (rho' : Fr E),
  from_keygen b gens g_i delta gamma sk ek dk -> exists dk', from_keygen b gens g_i delta gamma rho' ek dk' /\ dk_V_0 dk' = rho' [*] eg_H gens /\
    (rho' <> fzero -> eg_H gens <> gzero -> Forall (fun x => x <> gzero) (dk_V_2 dk')).
Proof.
  intros E b gens g_i delta gamma sk ek dk rho' H. apply from_keygen_inv in H.
  destruct H as (n & s & t0 & t & v & Hn & Hg & _ & Hs & Ht & Hv & -> & _).
  exists (dk_formula gens rho' s (repeat fone n)). split.
  - exists (replay_rng E), (rho' :: s ++ (t0 :: t) ++ repeat fone n ++ []), []. apply (keygen_replay b gens g_i delta gamma n rho' s t0 t (repeat fone n) [] Hn Hg Hs Ht). apply repeat_length.
  - split; [reflexivity|]. intros Hr HH. unfold dk_formula; cbn [dk_V_2]. apply Forall_map, Forall_forall. intros x Hx. apply repeat_spec in Hx. subst x.
    intros Hz. apply smul_eq_zero in Hz. destruct Hz as [Hz|Hz]; [|contradiction].
    apply fmul_integral in Hz. destruct Hz as [Hz|Hz]; [exact (fneq01 Hz)|contradiction].
Qed.

(* ===== C48 ===== *)
(* A ciphertext has one plaintext and one randomness only -- for every encryption key whose X_0 is not the identity, honest or not. *)
Theorem C48_ciphertext_determines_chunks_and_randomness :
  forall (E : pairing) (ek : encryption_key E) g_i m m' ct r r', encrypts ek g_i m ct r -> encrypts ek g_i m' ct r' ->
  ek_X_0 ek <> gzero -> Forall (fun x => x <> gzero) (firstn (length m) g_i) ->
  Forall (fun z => 0 <= z < modulus (K_of E)) m -> Forall (fun z => 0 <= z < modulus (K_of E)) m' -> m = m' /\ r = r'.
Proof.
  intros E ek g_i m m' ct r r' H H' HX Hg Hm Hm'. apply encrypts_inv in H, H'.
  destruct H as (n & (_ & LX & _) & Hl & Hgl & Hct). destruct H' as (n' & (_ & LX' & _) & Hl' & _ & Hct').
  rewrite Hct in Hct'. unfold ct_vec in Hct'. apply flat_ct_inv in Hct'. unfold ct_formula in Hct'. cbn [ct_X_r ct_enc_chunks ct_commitment] in Hct'.
  destruct Hct' as (E0 & Eb & _). apply smul_inj_scalar in E0; [|exact HX]. split; [|exact E0]. subst r'.
  apply nth_error_ext_eq; [lia|]. intros i a a' Ha Ha'.
  assert (Hi : (i < length m)%nat) by (apply nth_error_Some; congruence).
  pose proof (f_equal (fun l => nth i l gzero) Eb) as Ei. cbn beta in Ei. rewrite !body_formula_nth in Ei by lia.
  apply gadd_cancel_l in Ei.
  rewrite (nth_error_nth m i 0 Ha), (nth_error_nth m' i 0 Ha') in Ei.
  assert (Hgi : nth i g_i gzero <> gzero).
  { rewrite Forall_forall in Hg. apply Hg. rewrite <- (firstn_skipn (length m) g_i) at 1. rewrite app_nth1 by (rewrite firstn_length; lia).
    apply nth_In. rewrite firstn_length; lia. }
  apply smul_inj_scalar in Ei; [|exact Hgi]. apply (f_equal sval) in Ei.
  rewrite Forall_forall in Hm, Hm'. pose proof (Hm a (nth_error_In _ _ Ha)). pose proof (Hm' a' (nth_error_In _ _ Ha')).
  rewrite !of_Z_small in Ei by assumption. exact Ei.
Qed.

(* ===== C49 ===== *)
(* What anybody can do with the public key alone: encrypt zeros (or any d) and add. *)
Definition rerandomize {E} (R : rng_impl E) (ek : encryption_key E) (g_i : list (G1 E)) (ct : list (G1 E)) (st : rng_st R) : outcome (list (G1 E)) :=
  '(z, _, _) <- encrypt_decomposed_message R (repeat 0 (length ct - 2)) ek g_i st ;; add_cts ct z.
Definition shift_by {E} (R : rng_impl E) (ek : encryption_key E) (g_i : list (G1 E)) (d : list Z) (ct : list (G1 E)) (st : rng_st R) : outcome (list (G1 E)) :=
  '(z, _, _) <- encrypt_decomposed_message R d ek g_i st ;; add_cts ct z.

Lemma flat_length {A} (x y : A) l : (length (x :: l ++ [y]) - 2)%nat = length l.
Proof. cbn [length]. rewrite app_length. cbn [length]. lia. Qed.

(* Re-randomization of any accepted ciphertext, honest or not: succeeds, is accepted again, and decrypts to the same chunks (or
   fails with the same error); an honest ciphertext of m stays an honest ciphertext of m; c_0 changes by r' X_0. *)
Theorem C49_rerandomization :
  forall (E : pairing) b gens g_i delta gamma sk (ek : encryption_key E) dk (R : rng_impl E) st c_0 c psi,
  from_keygen b gens g_i delta gamma sk ek dk -> nondegenerate dk g_i (length (dk_V_2 dk)) ->
  verify_ciphertext_commitment c_0 c psi (prepare_ek ek) (prepare_gens gens) = Ok tt ->
  exists c_0' c' psi', rerandomize R ek g_i (c_0 :: c ++ [psi]) st = Ok (c_0' :: c' ++ [psi']) /\
    verify_ciphertext_commitment c_0' c' psi' (prepare_ek ek) (prepare_gens gens) = Ok tt /\
    (forall pf pf' b', 1 <= b' <= 31 -> field_holds (K_of E) b' ->
       chunks_of (decrypt_to_chunks pf c_0' c' sk (prepare_dk dk) g_i b') = chunks_of (decrypt_to_chunks pf' c_0 c sk (prepare_dk dk) g_i b')) /\
    c_0' = c_0 [+] (fst (rand_scalar R st) [*] ek_X_0 ek) /\
    (forall m r, encrypts ek g_i m (c_0 :: c ++ [psi]) r -> encrypts ek g_i m (c_0' :: c' ++ [psi']) (fadd r (fst (rand_scalar R st)))).
Proof.
  intros E b gens g_i delta gamma sk ek dk R st c_0 c psi Hk Hn Hv.
  apply from_keygen_inv in Hk. destruct Hk as (n & s & t0 & t & v & Hc & Hg & Hlt & Hs & Ht & Hvl & Hek & Hdk).
  pose proof (formula_wf gens g_i delta gamma s t0 t n Hs Ht Hg Hlt) as Hw. rewrite <- Hek in Hw.
  pose proof Hw as (_ & LX & LY & LZ).
  set (ct := Ciphertext c_0 c psi). change (verify_commitment ct (prepare_ek ek) (prepare_gens gens) = Ok tt) in Hv.
  pose proof Hv as Ha. apply (verify_accept n ct ek gens Hw) in Ha. destruct Ha as (Lc & _). unfold ct in Lc; cbn [ct_enc_chunks] in Lc.
  set (r' := fst (rand_scalar R st)).
  set (z := ct_formula ek g_i (repeat 0 n) r').
  assert (He : encrypt_decomposed_message R (repeat 0 n) ek g_i st = Ok (ct_vec z, r', snd (rand_scalar R st))).
  { apply encrypt_chunks_ok; rewrite ?repeat_length; lia. }
  assert (Hz : verify_commitment z (prepare_ek ek) (prepare_gens gens) = Ok tt).
  { pose proof (honest_verifies gens g_i delta gamma s t0 t (repeat 0 n) r' n Hs Ht (repeat_length 0 n) Hg Hlt) as H. cbv zeta in H. rewrite <- Hek in H. exact H. }
  assert (Lz : length (ct_enc_chunks z) = n) by (unfold z, ct_formula; cbn [ct_enc_chunks]; rewrite body_formula_length, repeat_length; reflexivity).
  assert (Hadd : add_cts (ct_vec ct) (ct_vec z) = Ok (ct_vec (ct_add ct z))).
  { rewrite add_cts_eq, !ct_vec_length. unfold ct; cbn [ct_enc_chunks]. rewrite Lc, Lz, Nat.leb_refl. rewrite <- ct_vec_add by (cbn [ct_enc_chunks]; lia). reflexivity. }
  exists (ct_X_r (ct_add ct z)), (ct_enc_chunks (ct_add ct z)), (ct_commitment (ct_add ct z)).
  assert (Hrer : rerandomize R ek g_i (c_0 :: c ++ [psi]) st = Ok (ct_vec (ct_add ct z))).
  { unfold rerandomize. rewrite flat_length, Lc, He. cbn [bind]. exact Hadd. }
  split; [exact Hrer|]. split.
  { destruct (add_accepted (ct_vec ct) (ct_vec z) ct z ek gens (ct_of_vec_ct_vec ct) (ct_of_vec_ct_vec z) Hv Hz) as (w & ct' & W1 & W2 & W3).
    rewrite Hadd in W1. injection W1 as <-. rewrite ct_of_vec_ct_vec in W2. injection W2 as <-. exact W3. }
  split.
  { intros pf pf' b' Hb' HF. apply field_holds_iff in HF; [|lia].
    assert (L : length (dk_V_2 dk) = length s) by (rewrite Hdk; unfold dk_formula; cbn [dk_V_2]; rewrite map_length; lia).
    rewrite L, Hdk in Hn. rewrite Hdk. apply decrypt_agree; try assumption; try lia.
    - unfold ct_add; cbn [ct_enc_chunks]. rewrite zip_with_length, Lz. unfold ct; cbn [ct_enc_chunks]. lia.
    - intros ms. unfold ct_add, ct. cbn [ct_X_r ct_enc_chunks]. symmetry. apply opens_zero_add; [lia|lia|].
      intros i Hi. unfold z, ct_formula. cbn [ct_X_r ct_enc_chunks]. rewrite Hek. unfold ek_formula; cbn [ek_X ek_X_0].
      apply zeros_body; lia. }
  split; [reflexivity|].
  intros m r Hm. assert (H0 : encrypts ek g_i (repeat 0 n) (ct_vec z) r') by (eexists _, _, _; exact He).
  pose proof Hm as Hm'. apply encrypts_inv in Hm'. destruct Hm' as (n' & (_ & LX' & _) & Lm & _).
  destruct (add_is_encryption_of_sum ek g_i m (repeat 0 n) (ct_vec ct) (ct_vec z) r r' Hm H0) as (w & W & W').
  rewrite Hadd in W. injection W as <-. rewrite chunk_add_0_r in W' by lia. eexists _, _, _. exact W'.
Qed.

(* Non-malleability is refuted: whoever sees a ciphertext of unknown m can turn it into an accepted ciphertext of m + d for any d. *)
Theorem C49_non_malleability_refuted :
  forall (E : pairing) b gens g_i delta gamma sk (ek : encryption_key E) dk (R : rng_impl E) st m c_0 c psi r d,
  from_keygen b gens g_i delta gamma sk ek dk -> nondegenerate dk g_i (length (dk_V_2 dk)) ->
  encrypts ek g_i m (c_0 :: c ++ [psi]) r -> length d = length m ->
  exists c_0' c' psi', shift_by R ek g_i d (c_0 :: c ++ [psi]) st = Ok (c_0' :: c' ++ [psi']) /\
    verify_ciphertext_commitment c_0' c' psi' (prepare_ek ek) (prepare_gens gens) = Ok tt /\
    (forall pf b', 1 <= b' <= 31 -> field_holds (K_of E) b' -> Forall (fun z => 0 <= z /\ fits b' z) (chunk_add m d) ->
       chunks_of (decrypt_to_chunks pf c_0' c' sk (prepare_dk dk) g_i b') = Ok (chunk_add m d)).
Proof.
  intros E b gens g_i delta gamma sk ek dk R st m c_0 c psi r d Hk Hn He Hd.
  pose proof He as Hi. apply encrypts_inv in Hi. destruct Hi as (n & Hw & Hm & Hg & Hct).
  pose proof Hw as (H256 & LX & LY & LZ).
  set (r' := fst (rand_scalar R st)). set (z := ct_formula ek g_i d r').
  assert (Hez : encrypt_decomposed_message R d ek g_i st = Ok (ct_vec z, r', snd (rand_scalar R st))) by (apply encrypt_chunks_ok; lia).
  assert (H0 : encrypts ek g_i d (ct_vec z) r') by (eexists _, _, _; exact Hez).
  destruct (add_is_encryption_of_sum ek g_i m d _ _ r r' He H0) as (w & W & W').
  assert (Hw' : encrypts ek g_i (chunk_add m d) w (fadd r r')) by (eexists _, _, _; exact W').
  pose proof Hw' as Hi'. apply encrypts_inv in Hi'. destruct Hi' as (_ & _ & _ & _ & Ew). unfold ct_vec in Ew.
  set (q := ct_formula ek g_i (chunk_add m d) (fadd r r')) in *.
  exists (ct_X_r q), (ct_enc_chunks q), (ct_commitment q).
  split; [unfold shift_by; rewrite Hez; cbn [bind]; rewrite W, Ew; reflexivity|].
  rewrite Ew in Hw'. split.
  { apply (C19_honest_chunk_ciphertexts_verify E b gens g_i delta gamma ek (chunk_add m d) _ _ _ (fadd r r')); [|exact Hw']. left. exists sk, dk. exact Hk. }
  intros pf b' Hb HF Hfit.
  assert (Hpos : Forall (fun z => 0 <= z) (chunk_add m d)) by (eapply Forall_impl; [|exact Hfit]; cbn beta; tauto).
  destruct (keygen_opens b gens g_i delta gamma sk ek dk (chunk_add m d) _ _ _ _ Hk Hw' Hpos) as (s & v & Hv & Hdk & Hl & Hgl & _ & _ & Hop).
  assert (L : length (dk_V_2 dk) = length s) by (rewrite Hdk; unfold dk_formula; cbn [dk_V_2]; rewrite map_length; lia).
  rewrite L, Hdk in Hn. rewrite Hdk. apply field_holds_iff in HF; [|lia].
  unfold chunks_of. erewrite (proj2 (decrypt_exact pf gens sk s v g_i b' _ _ (chunk_add m d) _ Hv Hl Hgl Hn Hb HF)); [reflexivity|].
  split; [exact Hop|]. split; [|reflexivity]. apply fits_Forall; [lia|]. eapply Forall_impl; [|exact Hfit]; cbn beta; tauto.
Qed.

(* ----- concrete cases ----- *)
Example ex_c47_hypotheses : from_keygen 4 x_gens x_gi x_delta x_gamma x_rho x_ek x_dk /\ ek_X_0 x_ek <> gzero /\ nondegenerate x_dk x_gi (length (dk_V_2 x_dk)).
Proof. split; [exact x_keygen|]. split; [|exact x_nondegenerate]. intros H. apply (f_equal sval) in H. vm_compute in H. discriminate H. Qed.
Example ex_shift_computes :
  ('(ct, _, _) <- encrypt_decomposed_message (replay_rng E61) x_msg1 x_ek x_gi [x_r1] ;;
   ct' <- shift_by (replay_rng E61) x_ek x_gi x_msg2 ct [x_r2] ;;
   ct'' <- rerandomize (replay_rng E61) x_ek x_gi ct' [x_r1] ;;
   c <- ct_of_vec ct'' ;;
   _ <- verify_commitment c (prepare_ek x_ek) (prepare_gens x_gens) ;;
   chunks_of (decrypt_to_chunks Debug (ct_X_r c) (ct_enc_chunks c) x_rho (prepare_dk x_dk) x_gi 8)) = Ok (chunk_add x_msg1 x_msg2).
Proof. vm_compute. reflexivity. Qed.
