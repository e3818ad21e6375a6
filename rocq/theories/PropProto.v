(* PropProto.v -- C25-C31, C42: homomorphic addition, distributed re-encryption, and the whole aggregation protocol.
   The scripts sum_cts, combine_shares, reencrypt are in Protocol.v (plain sequences of API calls). *)
From Coq Require Import Permutation.
From Verif Require Import Base BaseFacts Algebra Utils UtilsFacts Setup Keygen KeygenFacts Encryption
  EncryptFacts DecryptFacts RoundTrip VerifyFacts Spec KeySpec VecFacts Protocol ReencFacts DistFacts Instance Examples PropEnc PropVerify.

(* cts are ciphertexts of the chunk vectors msgs, each made by encrypt_decomposed_message under the key ek *)
Definition ciphertexts_of {E} (ek : encryption_key E) (g_i : list (G1 E)) (msgs : list (list Z)) (cts : list (list (G1 E))) : Prop :=
  Forall2 (fun m ct => exists r, encrypts ek g_i m ct r) msgs cts.
Lemma ciphertexts_of_inv {E} (ek : encryption_key E) g_i msgs cts : ciphertexts_of ek g_i msgs cts ->
  exists rs, length msgs = length rs /\ Forall2 (fun mr ct => encrypts ek g_i (fst mr) ct (snd mr)) (combine msgs rs) cts.
Proof.
  intros H. induction H as [|m ct msgs cts (r & Hr) H (rs & IH1 & IH2)].
  - exists []. split; [reflexivity|constructor].
  - exists (r :: rs). split; [cbn; lia|]. cbn [combine]. constructor; [exact Hr|exact IH2].
Qed.

(* ===== C25 ===== *)
Theorem C25_add_is_encryption_of_sum :
  forall (E : pairing) (ek : encryption_key E) g_i m1 m2 ct1 ct2 r1 r2, encrypts ek g_i m1 ct1 r1 -> encrypts ek g_i m2 ct2 r2 ->
  exists ct, add_cts ct1 ct2 = Ok ct /\ encrypts ek g_i (chunk_add m1 m2) ct (fadd r1 r2).
Proof.
  intros E ek g_i m1 m2 ct1 ct2 r1 r2 H1 H2. destruct (add_is_encryption_of_sum ek g_i m1 m2 ct1 ct2 r1 r2 H1 H2) as (ct & Ha & He).
  exists ct. split; [exact Ha|]. eexists _, _, _. exact He.
Qed.
Theorem C25_sum_is_encryption_of_sum :
  forall (E : pairing) (ek : encryption_key E) g_i n cts msgs rs, cts <> [] -> length (ek_X ek) = n -> length msgs = length rs ->
  Forall2 (fun mr ct => encrypts ek g_i (fst mr) ct (snd mr)) (combine msgs rs) cts ->
  exists ct, sum_cts cts = Ok ct /\ encrypts ek g_i (chunk_sum n msgs) ct (fsum rs).
Proof.
  intros E ek g_i n cts msgs rs Hne HX Hl H. destruct (sum_is_encryption_of_sum ek g_i n cts msgs rs Hne HX H Hl) as (ct & Ha & He).
  exists ct. split; [exact Ha|]. eexists _, _, _. exact He.
Qed.
(* accepted + accepted = accepted: for every key and any two ciphertexts, honest or not *)
Theorem C25_accepted_ciphertexts_add_up :
  forall (E : pairing) (v1 v2 : list (G1 E)) ct1 ct2 ek gens, ct_of_vec v1 = Ok ct1 -> ct_of_vec v2 = Ok ct2 ->
  verify_commitment ct1 (prepare_ek ek) (prepare_gens gens) = Ok tt ->
  verify_commitment ct2 (prepare_ek ek) (prepare_gens gens) = Ok tt ->
  exists v ct, add_cts v1 v2 = Ok v /\ ct_of_vec v = Ok ct /\ verify_commitment ct (prepare_ek ek) (prepare_gens gens) = Ok tt.
Proof. intros E. exact (@add_accepted E). Qed.
(* add_cts panics exactly when the second ciphertext is shorter *)
Theorem C25_add_panics_exactly : forall (E : pairing) (ct1 ct2 : list (G1 E)),
  (add_cts ct1 ct2 = Panic <-> (length ct2 < length ct1)%nat) /\ (forall e, add_cts ct1 ct2 <> Err e).
Proof.
  intros E ct1 ct2. rewrite add_cts_eq. destruct (Nat.leb_spec (length ct1) (length ct2)); split; try discriminate; (split; [discriminate||lia|lia||reflexivity]).
Qed.

(* ===== C26 ===== *)
Theorem C26_sum_decrypts_directly :
  forall (pf : profile) (E : pairing) b b' gens g_i delta gamma sk (ek : encryption_key E) dk msgs cts c_0 c psi,
  from_keygen b gens g_i delta gamma sk ek dk -> nondegenerate dk g_i (length (dk_V_2 dk)) ->
  cts <> [] -> ciphertexts_of ek g_i msgs cts -> sum_cts cts = Ok (c_0 :: c ++ [psi]) ->
  1 <= b' <= 31 -> field_holds (K_of E) b' -> Forall (fun z => 0 <= z < modulus (K_of E)) (chunk_sum (length c) msgs) ->
  (Forall (fits b') (chunk_sum (length c) msgs) ->
     exists nu, decrypt_to_chunks pf c_0 c sk (prepare_dk dk) g_i b' = Ok (chunk_sum (length c) msgs, nu)) /\
  (~ Forall (fits b') (chunk_sum (length c) msgs) ->
     decrypt_to_chunks pf c_0 c sk (prepare_dk dk) g_i b' = Err CouldNotFindDiscreteLog).
Proof.
  intros pf E b b' gens g_i delta gamma sk ek dk msgs cts c_0 c psi Hk Hn Hne Hcts Hs Hb HF Hr.
  apply ciphertexts_of_inv in Hcts. destruct Hcts as (rs & Hl & Hall). apply field_holds_iff in HF; [|lia].
  rewrite fits_Forall by lia.
  assert (Hlen : length c = length (dk_V_2 dk)).
  { destruct (sum_exists _ _ _ _ _ Hne Hl Hall) as (c_0' & c' & psi' & Hs' & Hlc & _). rewrite Hs in Hs'.
    assert (X : c_0 :: c ++ [psi] = c_0' :: c' ++ [psi']) by congruence. apply flat_ct_inv in X. destruct X as (_ & -> & _).
    rewrite Hlc. destruct (keygen_valid _ _ _ _ _ _ _ _ Hk) as (n & _ & _ & _ & _ & _ & _ & _ & _ & _ & L1 & _ & _ & _ & L5). congruence. }
  rewrite <- Hlen in Hn.
  destruct (sum_decrypts pf b gens g_i delta gamma sk ek dk msgs rs cts c_0 c psi b' Hk Hn Hne Hl Hall Hs Hb HF Hr) as [A B].
  split; [intros H; eexists; exact (A H)|exact B].
Qed.
Theorem C26_sum_decrypts_after_re_encryption :
  forall (pf : profile) (E : pairing) b b' gens g_i delta gamma parties (ek : encryption_key E) msgs cts c_0 c psi skd ekd shares,
  from_dkg b gens g_i delta gamma parties ek -> cts <> [] -> ciphertexts_of ek g_i msgs cts -> sum_cts cts = Ok (c_0 :: c ++ [psi]) ->
  from_dest gens skd ekd -> Forall2 (share_of gens c_0 c ekd) (map fst parties) shares ->
  Forall (fun x => x <> gzero) (firstn (length c) g_i) ->
  1 <= b' <= 31 -> field_holds (K_of E) b' -> Forall (fun z => 0 <= z < modulus (K_of E)) (chunk_sum (length c) msgs) ->
  exists g_r cs, reencrypt c shares = Ok (g_r :: cs) /\
  (Forall (fits b') (chunk_sum (length c) msgs) ->
     decrypt_to_chunks_after_re_encryption pf g_r cs skd g_i b' = Ok (chunk_sum (length c) msgs)) /\
  (~ Forall (fits b') (chunk_sum (length c) msgs) ->
     decrypt_to_chunks_after_re_encryption pf g_r cs skd g_i b' = Err CouldNotFindDiscreteLog).
Proof.
  intros pf E b b' gens g_i delta gamma parties ek msgs cts c_0 c psi skd ekd shares Hd Hne Hcts Hs Hdest Hsh Hg Hb HF Hr.
  apply ciphertexts_of_inv in Hcts. destruct Hcts as (rs & Hl & Hall). apply field_holds_iff in HF; [|lia].
  pose proof (fits_Forall b' (chunk_sum (length c) msgs) ltac:(lia)) as FI.
  destruct (Forall_dec (fun z => z <= max_chunk b') (fun z => Z_le_dec z (max_chunk b')) (chunk_sum (length c) msgs)) as [Hf|Hf].
  - destruct (aggregation_pipeline pf b gens g_i delta gamma parties ek msgs rs cts c_0 c psi skd ekd shares b' Hd Hne Hl Hall Hs Hdest Hsh Hg Hb HF) as (g_r & cs & H1 & H2).
    + apply Forall_forall. intros z Hz. rewrite Forall_forall in Hf, Hr. specialize (Hf z Hz). specialize (Hr z Hz). cbn in *. lia.
    + exists g_r, cs. split; [exact H1|]. split; [intros _; exact H2|intros Hc; exfalso; apply Hc, FI; exact Hf].
  - destruct (aggregation_out_of_range pf b gens g_i delta gamma parties ek msgs rs cts c_0 c psi skd ekd shares b' Hd Hne Hl Hall Hs Hdest Hsh Hg Hb HF Hr Hf) as (g_r & cs & H1 & H2).
    exists g_r, cs. split; [exact H1|]. split; [intros Hc; exfalso; apply Hf, FI; exact Hc|intros _; exact H2].
Qed.

(* ===== C27 ===== *)
Lemma chunk_sum_bound n msgs B : Forall (fun m => length m = n /\ Forall (fun z => 0 <= z <= B) m) msgs -> 0 <= B ->
  Forall (fun z => 0 <= z <= Z.of_nat (length msgs) * B) (chunk_sum n msgs).
Proof.
  intros H HB. induction H as [|m ms (Hl & Hm) H IH].
  - cbn [chunk_sum fold_right length]. apply Forall_forall. intros z Hz. apply repeat_spec in Hz. lia.
  - cbn [chunk_sum fold_right]. fold (chunk_sum n ms).
    assert (HL : length (chunk_sum n ms) = n) by (apply chunk_sum_length; eapply Forall_impl; [|exact H]; cbn; tauto).
    apply Forall_forall. intros z Hz. apply (In_nth _ _ 0) in Hz. destruct Hz as (i & Hi & <-).
    rewrite chunk_add_length in Hi. rewrite chunk_add_nth by lia.
    rewrite Forall_forall in IH, Hm. pose proof (IH (nth i (chunk_sum n ms) 0) ltac:(apply nth_In; lia)) as I1.
    pose proof (Hm (nth i m 0) ltac:(apply nth_In; lia)) as I2. cbn [length]. rewrite Nat2Z.inj_succ. cbn beta in I1, I2. nia.
Qed.
(* sums of up to 2^b + 1 ciphertexts of b-bit chunks decrypt with chunk size 2b, for b = 4 and b = 8 *)
Theorem C27_doubling_works_for_4_and_8 :
  forall (pf : profile) (E : pairing) b gens g_i delta gamma parties (ek : encryption_key E) msgs cts c_0 c psi skd ekd shares,
  b = 4 \/ b = 8 -> 2 ^ (b * 2) <= modulus (K_of E) ->
  from_dkg b gens g_i delta gamma parties ek -> cts <> [] -> ciphertexts_of ek g_i msgs cts -> Forall (digits_ok b) msgs ->
  Z.of_nat (length msgs) <= 2 ^ b + 1 ->
  sum_cts cts = Ok (c_0 :: c ++ [psi]) ->
  from_dest gens skd ekd -> Forall2 (share_of gens c_0 c ekd) (map fst parties) shares ->
  Forall (fun x => x <> gzero) (firstn (length c) g_i) ->
  exists g_r cs, reencrypt c shares = Ok (g_r :: cs) /\
    decrypt_to_chunks_after_re_encryption pf g_r cs skd g_i (b * 2) = Ok (chunk_sum (length c) msgs).
Proof.
  intros pf E b gens g_i delta gamma parties ek msgs cts c_0 c psi skd ekd shares Hb HM Hd Hne Hcts Hdig Hk Hs Hdest Hsh Hg.
  assert (Hpow : 2 ^ (b * 2) = 2 ^ b * 2 ^ b) by (destruct Hb as [->| ->]; reflexivity).
  assert (H16 : 2 ^ (b * 2) <= 2 ^ 16) by (destruct Hb as [->| ->]; cbn; lia).
  pose proof Hcts as Hcts'. apply ciphertexts_of_inv in Hcts'. destruct Hcts' as (rs & Hl & Hall).
  destruct (sum_exists _ _ _ _ _ Hne Hl Hall) as (c_0' & c' & psi' & Hs' & Hlc & Hlm). rewrite Hs in Hs'.
  assert (X : c_0 :: c ++ [psi] = c_0' :: c' ++ [psi']) by congruence. apply flat_ct_inv in X. destruct X as (<- & <- & <-).
  assert (HB : Forall (fun z => 0 <= z <= Z.of_nat (length msgs) * (2 ^ b - 1)) (chunk_sum (length c) msgs)).
  { apply chunk_sum_bound; [|destruct Hb as [->| ->]; cbn; lia]. apply Forall_forall. intros m Hm. rewrite Forall_forall in Hlm, Hdig. split; [rewrite (Hlm m Hm); lia|].
    pose proof (Hdig m Hm) as D. eapply Forall_impl; [|exact D]. cbn beta. intros z; lia. }
  assert (Hup : Z.of_nat (length msgs) * (2 ^ b - 1) < 2 ^ (b * 2)) by (destruct Hb as [->| ->]; cbn in *; nia).
  destruct (C26_sum_decrypts_after_re_encryption pf E b (b * 2) gens g_i delta gamma parties ek msgs cts c_0 c psi skd ekd shares) as (g_r & cs & H1 & H2 & _); try assumption.
  - destruct Hb as [->| ->]; lia.
  - left. exact HM.
  - eapply Forall_impl; [|exact HB]. cbn beta. intros z; lia.
  - exists g_r, cs. split; [exact H1|]. apply H2. eapply Forall_impl; [|exact HB]. cbn beta. unfold fits. intros z; lia.
Qed.
(* b = 16, debug build: the doubled chunk size panics on every ciphertext *)
Theorem C27_doubling_16_panics_refuted : forall (E : pairing) (c_0 : G1 E) c sk g_i, (length c <= length g_i)%nat ->
  decrypt_to_chunks_after_re_encryption Debug c_0 c sk g_i (16 * 2) = Panic.
Proof. intros E. exact (@doubled16_debug E). Qed.
(* b = 16, release build: the sum is never found unless all chunks of the sum are 0 or 1 *)
Theorem C27_doubling_16_release_refuted :
  forall (E : pairing) gens g_i delta gamma parties (ek : encryption_key E) msgs cts c_0 c psi skd ekd shares,
  from_dkg 16 gens g_i delta gamma parties ek -> cts <> [] -> ciphertexts_of ek g_i msgs cts -> sum_cts cts = Ok (c_0 :: c ++ [psi]) ->
  from_dest gens skd ekd -> Forall2 (share_of gens c_0 c ekd) (map fst parties) shares ->
  Forall (fun x => x <> gzero) (firstn (length c) g_i) ->
  Forall (fun z => 0 <= z < modulus (K_of E)) (chunk_sum (length c) msgs) ->
  (exists z, In z (chunk_sum (length c) msgs) /\ 2 <= z) ->
  exists g_r cs, reencrypt c shares = Ok (g_r :: cs) /\
    decrypt_to_chunks_after_re_encryption Release g_r cs skd g_i (16 * 2) = Err CouldNotFindDiscreteLog.
Proof.
  intros E gens g_i delta gamma parties ek msgs cts c_0 c psi skd ekd shares Hd Hne Hcts Hs Hdest Hsh Hg Hr (z & Hz & Hz2).
  apply ciphertexts_of_inv in Hcts. destruct Hcts as (rs & Hl & Hall).
  pose proof (sum_encrypts _ _ _ _ _ _ Hne Hl Hall Hs) as He.
  destruct (sum_exists _ _ _ _ _ Hne Hl Hall) as (c_0' & c' & psi' & Hs' & Hlc & Hlm). rewrite Hs in Hs'.
  assert (X : c_0 :: c ++ [psi] = c_0' :: c' ++ [psi']) by congruence. apply flat_ct_inv in X. destruct X as (<- & <- & <-). rewrite <- Hlc in He.
  assert (Hpos : Forall (fun z => 0 <= z) (chunk_sum (length c) msgs)) by (eapply Forall_impl; [|exact Hr]; cbn; lia).
  destruct (dkg_opens _ _ _ _ _ _ _ _ _ _ _ _ Hd He Hpos) as (Hl' & Hlg & _ & Hop).
  destruct (reencrypt_opens gens c_0 c ekd skd (map fst parties) shares g_i (chunk_sum (length c) msgs) Hdest) as (g_r & cs & Hrr & Hlcs & Hop').
  - destruct Hd as (Hp & _). destruct parties; [contradiction|discriminate].
  - exact Hsh.
  - exact Hop.
  - exists g_r, cs. split; [exact Hrr|]. eapply doubled16_release; [lia|rewrite Hlcs; exact Hg|exact Hop'| |].
    + eapply Forall_impl; [|exact Hr]. cbn; lia.
    + intros F. rewrite Forall_forall in F. specialize (F z Hz). cbn in F. lia.
Qed.

(* ===== C28 ===== *)
Theorem C28_re_encryption_delivers :
  forall (pf : profile) (E : pairing) b b' gens g_i delta gamma parties (ek : encryption_key E) m c_0 c psi r skd ekd shares,
  from_dkg b gens g_i delta gamma parties ek -> encrypts ek g_i m (c_0 :: c ++ [psi]) r ->
  from_dest gens skd ekd -> Forall2 (share_of gens c_0 c ekd) (map fst parties) shares ->
  Forall (fun x => x <> gzero) (firstn (length m) g_i) ->
  1 <= b' <= 31 -> field_holds (K_of E) b' -> Forall (fun z => 0 <= z /\ fits b' z) m ->
  exists g_r cs, reencrypt c shares = Ok (g_r :: cs) /\ decrypt_to_chunks_after_re_encryption pf g_r cs skd g_i b' = Ok m.
Proof.
  intros pf E b b' gens g_i delta gamma parties ek m c_0 c psi r skd ekd shares Hd He Hdest Hsh Hg Hb HF Hm.
  apply field_holds_iff in HF; [|lia]. apply (reencryption_delivers pf b gens g_i delta gamma parties ek m c_0 c psi r skd ekd shares b'); try assumption.
  eapply Forall_impl; [|exact Hm]. intros z [H1 H2]. apply fits_iff in H2; lia.
Qed.
(* re_encrypt_share of an honest party always succeeds on a ciphertext of the common key *)
Theorem C28_shares_available :
  forall (E : pairing) b gens g_i delta gamma parties (ek : encryption_key E) m c_0 c psi r ekd (R : rng_impl E) st p,
  from_dkg b gens g_i delta gamma parties ek -> encrypts ek g_i m (c_0 :: c ++ [psi]) r -> In p parties ->
  exists w g_r st', re_encrypt_share R gens c_0 c ekd (fst p) st = Ok (w, g_r, st').
Proof.
  intros E b gens g_i delta gamma parties ek m c_0 c psi r ekd R st p Hd He Hp.
  assert (Hc : length c = length (ek_X ek)).
  { apply encrypts_inv in He. destruct He as (n & (_ & HX & _) & Hm & _ & Hct). apply ct_vec_eq in Hct. destruct Hct as (_ & -> & _).
    unfold ct_formula; cbn [ct_enc_chunks]. rewrite body_formula_length. lia. }
  destruct Hd as (Hne & Hall & Hd).
  assert (Hp' : from_partial b gens g_i delta gamma p) by (rewrite Forall_forall in Hall; apply Hall; exact Hp).
  apply partial_shape in Hp'. destruct Hp' as (n & Hn & _ & Hs & _). rewrite (dkg_formula b gens g_i delta gamma parties n Hn Hne Hall) in Hd.
  assert (HX : length (ek_X ek) = n).
  { assert (I : forall A (x y : A), Ok x = Ok y -> x = y) by congruence. apply I in Hd. rewrite <- Hd. unfold ek_formula; cbn [ek_X]. rewrite map_length. apply fcol_sum_length. }
  destruct (share_total R gens c_0 c ekd (fst p) st) as [A _]. destruct (A ltac:(lia)) as ((w & g_r) & st' & H). exists w, g_r, st'. exact H.
Qed.

(* ===== C29 ===== *)
Theorem C29_every_party_needed :
  forall (pf : profile) (E : pairing) b b' gens g_i delta gamma pre p post (ek : encryption_key E) m c_0 c psi r skd ekd shares g_r cs ms i,
  from_dkg b gens g_i delta gamma (pre ++ p :: post) ek -> encrypts ek g_i m (c_0 :: c ++ [psi]) r -> Forall (fun z => 0 <= z) m ->
  from_dest gens skd ekd ->
  (* the shares of everybody but p *)
  Forall2 (share_of gens c_0 c ekd) (map fst (pre ++ post)) shares ->
  Forall (fun x => x <> gzero) (firstn (length m) g_i) -> 1 <= b' <= 31 -> field_holds (K_of E) b' ->
  reencrypt c shares = Ok (g_r :: cs) -> decrypt_to_chunks_after_re_encryption pf g_r cs skd g_i b' = Ok ms ->
  (i < length m)%nat -> nth i (st_s (fst p)) fzero [*] c_0 <> gzero -> nth i ms 0 <> nth i m 0.
Proof.
  intros pf E b b' gens g_i delta gamma pre p post ek m c_0 c psi r skd ekd shares g_r cs ms i Hd He Hm Hdest Hsh Hg Hb HF.
  apply field_holds_iff in HF; [|lia].
  exact (missing_share pf b gens g_i delta gamma pre p post ek m c_0 c psi r skd ekd shares b' g_r cs ms i Hd He Hm Hdest Hsh Hg Hb HF).
Qed.

(* ===== C30 ===== *)
Theorem C30_share_order_irrelevant :
  forall (E : pairing) (shares shares' : list (list (G1 E) * G1 E)) n c, Forall (fun s => length (fst s) = n) shares ->
  Permutation shares shares' -> combine_shares shares = combine_shares shares' /\ reencrypt c shares = reencrypt c shares'.
Proof.
  intros E shares shares' n c H Hp. assert (X := combine_shares_perm shares shares' n H Hp). split; [exact X|].
  unfold reencrypt. rewrite X. reflexivity.
Qed.
Theorem C30_combine_commutative_associative :
  forall (E : pairing) (g1 g2 g3 : G1 E) w1 w2 w3, length w1 = length w2 -> length w2 = length w3 ->
  combine_re_encrypt_share g1 g2 w1 w2 = combine_re_encrypt_share g2 g1 w2 w1 /\
  ('(w, g) <- combine_re_encrypt_share g1 g2 w1 w2 ;; combine_re_encrypt_share g g3 w w3) =
  ('(w, g) <- combine_re_encrypt_share g2 g3 w2 w3 ;; combine_re_encrypt_share g1 g w1 w).
Proof.
  intros E g1 g2 g3 w1 w2 w3 H1 H2. rewrite !combine_share_eq. rewrite H1, H2, !Nat.leb_refl. cbn [bind]. rewrite !combine_share_eq.
  rewrite !zip_with_length, H1, H2, Nat.min_id, Nat.leb_refl. split.
  - f_equal. f_equal; [|apply gadd_comm]. clear. revert w2; induction w1 as [|x w1 IH]; intros [|y w2]; try reflexivity. rewrite !zip_with_cons, IH, gadd_comm. reflexivity.
  - f_equal. f_equal; [|symmetry; apply gadd_assoc]. clear. revert w2 w3; induction w1 as [|x w1 IH]; intros [|y w2] [|z w3]; try reflexivity. rewrite !zip_with_cons, IH, gadd_assoc. reflexivity.
Qed.
Theorem C30_combine_panics_exactly : forall (E : pairing) (g1 g2 : G1 E) w1 w2,
  (combine_re_encrypt_share g1 g2 w1 w2 = Panic <-> (length w2 < length w1)%nat) /\ (forall e, combine_re_encrypt_share g1 g2 w1 w2 <> Err e).
Proof.
  intros E g1 g2 w1 w2. rewrite combine_share_eq. destruct (Nat.leb_spec (length w1) (length w2)); split; try discriminate; (split; [discriminate||lia|lia||reflexivity]).
Qed.

(* ===== C31 ===== *)
(* unmask_with_guess (DistFacts.v) uses the re-encrypted chunks cs, the public generators and one guessed chunk value; no
   secret key and no share.  From one correct chunk it recovers all. *)
Theorem C31_confidential_without_destination_key_refuted :
  forall (pf : profile) (E : pairing) b b' gens g_i delta gamma parties (ek : encryption_key E) m c_0 c psi r skd ekd shares g_r cs i0,
  from_dkg b gens g_i delta gamma parties ek -> encrypts ek g_i m (c_0 :: c ++ [psi]) r ->
  from_dest gens skd ekd -> Forall2 (share_of gens c_0 c ekd) (map fst parties) shares -> reencrypt c shares = Ok (g_r :: cs) ->
  Forall (fun x => x <> gzero) (firstn (length m) g_i) ->
  1 <= b' <= 31 -> field_holds (K_of E) b' -> Forall (fun z => 0 <= z /\ fits b' z) m -> (i0 < length m)%nat ->
  unmask_with_guess pf cs g_i b' i0 (nth i0 m 0) = Ok m.
Proof.
  intros pf E b b' gens g_i delta gamma parties ek m c_0 c psi r skd ekd shares g_r cs i0 Hd He Hdest Hsh Hr Hg Hb HF Hm Hi.
  apply field_holds_iff in HF; [|lia]. apply (unmask_attack pf b gens g_i delta gamma parties ek m c_0 c psi r skd ekd shares b' g_r cs i0); try assumption.
  eapply Forall_impl; [|exact Hm]. intros z [H1 H2]. apply fits_iff in H2; lia.
Qed.

(* ===== C42 ===== *)
Theorem C42_aggregation_pipeline :
  forall (pf : profile) (E : pairing) b b' gens g_i delta gamma parties msgs skd ekd (n : nat),
  chunks_count (K_of E) b = Ok (Z.of_nat n) -> (n <= length g_i)%nat -> Forall (fun x => x <> gzero) (firstn n g_i) ->
  parties <> [] -> Forall (from_partial b gens g_i delta gamma) parties -> from_dest gens skd ekd ->
  msgs <> [] -> Forall (fun m => length m = n /\ Forall (fun z => 0 <= z) m) msgs ->
  1 <= b' <= 31 -> field_holds (K_of E) b' -> Forall (fits b') (chunk_sum n msgs) ->
  (* the key is made *)
  exists ek, dkg gamma parties = Ok ek /\
  (* whatever randomness the encryptors use, the ciphertexts are made and can be added *)
  (forall m (R : rng_impl E) st, In m msgs -> exists ct r st', encrypt_decomposed_message R m ek g_i st = Ok (ct, r, st')) /\
  forall cts, ciphertexts_of ek g_i msgs cts ->
  exists c_0 c psi, sum_cts cts = Ok (c_0 :: c ++ [psi]) /\
  (* every party's share is made, whatever randomness it uses *)
  (forall p (R : rng_impl E) st, In p parties -> exists w g_r st', re_encrypt_share R gens c_0 c ekd (fst p) st = Ok (w, g_r, st')) /\
  forall shares, Forall2 (share_of gens c_0 c ekd) (map fst parties) shares ->
  exists g_r cs, reencrypt c shares = Ok (g_r :: cs) /\
    decrypt_to_chunks_after_re_encryption pf g_r cs skd g_i b' = Ok (chunk_sum n msgs).
Proof.
  intros pf E b b' gens g_i delta gamma parties msgs skd ekd n Hn Hg Hgi Hpn Hp Hdest Hmn Hm Hb HF Hfit.
  pose proof (dkg_formula b gens g_i delta gamma parties n Hn Hpn Hp) as Hdkg. eexists. split; [exact Hdkg|].
  set (ek := ek_formula gens g_i delta gamma (fcol_sum n (map party_s parties)) (fsum (map party_t0 parties)) (fcol_sum n (map party_t parties))) in *.
  assert (Hfd : from_dkg b gens g_i delta gamma parties ek) by (split; [exact Hpn|split; [exact Hp|exact Hdkg]]).
  pose proof (chunks_count_range _ _ _ Hn) as Hrange.
  assert (L : length (ek_X ek) = n /\ length (ek_Y ek) = n /\ length (ek_Z ek) = (n + 1)%nat).
  { apply (ek_formula_lengths gens g_i delta gamma); [apply fcol_sum_length|apply fcol_sum_length|exact Hg]. }
  destruct L as (L1 & L2 & L3).
  split.
  { intros m R st Hin. rewrite Forall_forall in Hm. destruct (Hm m Hin) as (Hlm & _). do 3 eexists. apply encrypt_chunks_ok; lia. }
  intros cts Hcts. pose proof Hcts as Hcts'. apply ciphertexts_of_inv in Hcts'. destruct Hcts' as (rs & Hl & Hall).
  assert (Hne : cts <> []) by (intros Hnil; rewrite Hnil in Hcts; inversion Hcts; congruence).
  destruct (sum_exists _ _ _ _ _ Hne Hl Hall) as (c_0 & c & psi & Hs & Hlc & _). rewrite L1 in Hlc.
  exists c_0, c, psi. split; [exact Hs|].
  pose proof (sum_encrypts _ _ _ _ _ _ Hne Hl Hall Hs) as He.
  split; [intros p R st Hin; exact (C28_shares_available E b gens g_i delta gamma parties ek _ c_0 c psi _ ekd R st p Hfd He Hin)|].
  intros shares Hsh. apply field_holds_iff in HF; [|lia].
  destruct (aggregation_pipeline pf b gens g_i delta gamma parties ek msgs rs cts c_0 c psi skd ekd shares b' Hfd Hne Hl Hall Hs Hdest Hsh) as (g_r & cs & H1 & H2).
  - rewrite Hlc. exact Hgi.
  - exact Hb.
  - exact HF.
  - rewrite Hlc. pose proof (chunk_sum_nonneg n msgs Hm) as Hnn. apply Forall_forall. intros z Hz. rewrite Forall_forall in Hfit, Hnn.
    specialize (Hnn z Hz). pose proof (proj1 (fits_iff b' z ltac:(lia)) (Hfit z Hz)). lia.
  - exists g_r, cs. rewrite Hlc in H2. split; [exact H1|exact H2].
Qed.

(* ----- concrete cases ----- *)
Definition x_share (p : secret_key_st E61 * ek_partial E61) (c_0 : G1 E61) (c : list (G1 E61)) (rho : Fr E61) : list (G1 E61) * G1 E61 :=
  (map (fun i => mul_bigint c_0 (into_bigint (fneg (nth i (st_s (fst p)) fzero))) [+] mul_bigint (ekd_pk x_ekd) (into_bigint rho)) (seq 0 (length c)),
   mul_bigint (eg_G x_gens) (into_bigint rho)).
(* the whole protocol computed: three parties, two ciphertexts, sum, three shares, decryption by the destination *)
Definition x_sum : list Z := [16; 16; 16; 16; 16; 16; 16; 16; 16; 16; 16; 16; 16; 16; 16; 0].
Example ex_sum_is : chunk_sum 16 [x_msg1; x_msg2] = x_sum.
Proof. vm_compute. reflexivity. Qed.
Example ex_pipeline_computes :
  (ek <- dkg x_gamma x_parties ;;
   '(ct1, _, _) <- encrypt_decomposed_message (replay_rng E61) x_msg1 ek x_gi [x_r1] ;;
   '(ct2, _, _) <- encrypt_decomposed_message (replay_rng E61) x_msg2 ek x_gi [x_r2] ;;
   s <- sum_cts [ct1; ct2] ;;
   ct <- ct_of_vec s ;;
   _ <- verify_commitment ct (prepare_ek ek) (prepare_gens x_gens) ;;
   shares <- mapM (fun p => '(w, g, _) <- re_encrypt_share (replay_rng E61) x_gens (ct_X_r ct) (ct_enc_chunks ct) x_ekd (fst p) [nz61 123] ;; Ok (w, g)) x_parties ;;
   re <- reencrypt (ct_enc_chunks ct) shares ;;
   match re with [] => Panic | g_r :: cs => decrypt_to_chunks_after_re_encryption Debug g_r cs x_skd x_gi 8 end) = Ok x_sum.
Proof. vm_compute. reflexivity. Qed.
Example ex_pipeline_hypotheses :
  chunks_count (K_of E61) 4 = Ok (Z.of_nat 16) /\ (16 <= length x_gi)%nat /\ Forall (fun x => x <> gzero) (firstn 16 x_gi) /\
  x_parties <> [] /\ Forall (from_partial 4 x_gens x_gi x_delta x_gamma) x_parties /\ from_dest x_gens x_skd x_ekd /\
  [x_msg1; x_msg2] <> [] /\ Forall (fun m => length m = 16%nat /\ Forall (fun z => 0 <= z) m) [x_msg1; x_msg2] /\
  field_holds (K_of E61) 8 /\ Forall (fits 8) (chunk_sum 16 [x_msg1; x_msg2]) /\ 2 ^ (4 * 2) <= modulus (K_of E61).
Proof.
  split; [exact x_count|]. split; [vm_compute; lia|]. split; [exact x_gi_nonzero|]. split; [discriminate|]. split; [exact x_parties_honest|].
  split; [exact x_dest|]. split; [discriminate|]. split; [repeat constructor; discriminate|]. split; [left; vm_compute; discriminate|].
  split; [|vm_compute; discriminate]. rewrite ex_sum_is. unfold x_sum, fits. repeat constructor.
Qed.
