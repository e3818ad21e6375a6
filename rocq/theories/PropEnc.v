(* PropEnc.v -- C12-C18, C24, C43: encryption and decryption. *)
From Verif Require Import Base BaseFacts Algebra Utils UtilsFacts Setup Commitment CommitmentFacts Keygen KeygenFacts Encryption
  EncryptFacts DecryptFacts RoundTrip PairingPowers Spec KeySpec VecFacts Protocol ReencFacts DistFacts Instance Examples.

Lemma fits_iff b z : 1 <= b -> (fits b z <-> z <= max_chunk b).
Proof.
  intros Hb. unfold fits, max_chunk. destruct (Z_le_gt_dec b 16) as [H|H].
  - rewrite Z.min_l by lia. assert (2 ^ b <= 2 ^ 16) by (apply Z.pow_le_mono_r; lia). lia.
  - rewrite Z.min_r by lia. assert (2 ^ 16 <= 2 ^ b) by (apply Z.pow_le_mono_r; lia). lia.
Qed.
Lemma fits_Forall b l : 1 <= b -> (Forall (fits b) l <-> Forall (fun z => z <= max_chunk b) l).
Proof. intros Hb. split; intros H; eapply Forall_impl; try exact H; intros z Hz; apply (fits_iff b z Hb); exact Hz. Qed.
Lemma field_holds_iff k b : 1 <= b -> (field_holds k b <-> max_chunk b < modulus k).
Proof.
  intros Hb. unfold field_holds, max_chunk. destruct (Z_le_gt_dec b 16) as [H|H].
  - rewrite Z.min_l by lia. assert (2 ^ b <= 2 ^ 16) by (apply Z.pow_le_mono_r; lia). lia.
  - rewrite Z.min_r by lia. assert (2 ^ 16 <= 2 ^ b) by (apply Z.pow_le_mono_r; lia). lia.
Qed.

Lemma fmul_0_l' {K} (a : scalar K) : fmul fzero a = fzero.
Proof. unfold fmul, fzero. rewrite sval_of_Z, Zmod_0_l, Z.mul_0_l. reflexivity. Qed.
Lemma fmul_0_r' {K} (a : scalar K) : fmul a fzero = fzero.
Proof. unfold fmul, fzero. rewrite sval_of_Z, Zmod_0_l, Z.mul_0_r. reflexivity. Qed.

(* ===== C12 ===== *)
(* every message encrypts, and what was encrypted is what is decrypted *)
Theorem C12_message_round_trip :
  forall (pf pf' : profile) (E : pairing) (R : rng_impl E) (b : Z) gens g_i delta gamma sk ek dk (msg : Fr E) (st : rng_st R),
  supported b -> 2 ^ b <= modulus (K_of E) ->
  64 * Z.of_nat (limbs (K_of E)) - b < modulus_bit_size (K_of E) -> 64 * Z.of_nat (limbs (K_of E)) < 256 * b ->
  from_keygen b gens g_i delta gamma sk ek dk -> nondegenerate dk g_i (length (dk_V_2 dk)) ->
  exists ct r st', encrypt pf R msg ek g_i b st = Ok (ct, r, st') /\
    exists nu, ct_decrypt pf' ct sk (prepare_dk dk) g_i b = Ok (msg, nu).
Proof.
  intros pf pf' E R b gens g_i delta gamma sk ek dk msg st Hb HM H1 H2 Hk Hn.
  destruct (encrypt_outcome pf R b gens g_i delta gamma sk ek dk msg st Hk Hb) as (ct & r & st' & He & _); [unfold chunk_compatible; lia|].
  exists ct, r, st'. split; [exact He|]. eexists. exact (message_round_trip pf pf' R b gens g_i delta gamma sk ek dk msg st ct r st' Hk Hn Hb HM He).
Qed.
(* without the size condition: whenever encrypt succeeds, decrypt returns the message *)
Theorem C12_message_round_trip_any_field :
  forall (pf pf' : profile) (E : pairing) (R : rng_impl E) (b : Z) gens g_i delta gamma sk ek dk (msg : Fr E) (st : rng_st R) ct r st',
  supported b -> 2 ^ b <= modulus (K_of E) ->
  from_keygen b gens g_i delta gamma sk ek dk -> nondegenerate dk g_i (length (dk_V_2 dk)) ->
  encrypt pf R msg ek g_i b st = Ok (ct, r, st') ->
  exists nu, ct_decrypt pf' ct sk (prepare_dk dk) g_i b = Ok (msg, nu).
Proof.
  intros pf pf' E R b gens g_i delta gamma sk ek dk msg st ct r st' Hb HM Hk Hn He. eexists.
  exact (message_round_trip pf pf' R b gens g_i delta gamma sk ek dk msg st ct r st' Hk Hn Hb HM He).
Qed.
(* the BLS12-381 scalar field meets the size conditions for every supported chunk size *)
Theorem C12_bls_conditions : forall b, supported b ->
  2 ^ b <= modulus BLS /\ 64 * Z.of_nat (limbs BLS) - b < modulus_bit_size BLS /\ 64 * Z.of_nat (limbs BLS) < 256 * b.
Proof. intros b [->|[->| ->]]; vm_compute; repeat split; discriminate || reflexivity. Qed.

(* ===== C13 ===== *)
Theorem C13_chunk_round_trip :
  forall (pf : profile) (E : pairing) (R : rng_impl E) (b b' : Z) gens g_i delta gamma sk ek dk (m : list Z) (st : rng_st R),
  1 <= b' <= 16 -> 2 ^ b' <= modulus (K_of E) ->
  from_keygen b gens g_i delta gamma sk ek dk -> nondegenerate dk g_i (length (dk_V_2 dk)) ->
  chunks_count (K_of E) b = Ok (Z.of_nat (length m)) -> digits_ok b' m ->
  exists c_0 c psi r st', encrypt_decomposed_message R m ek g_i st = Ok (c_0 :: c ++ [psi], r, st') /\
    exists nu, decrypt_to_chunks pf c_0 c sk (prepare_dk dk) g_i b' = Ok (m, nu).
Proof.
  intros pf E R b b' gens g_i delta gamma sk ek dk m st Hb' HM Hk Hn Hc Hd.
  pose proof Hk as Hk'. apply from_keygen_inv in Hk'. destruct Hk' as (n & s & t0 & t & v & Hc' & Hg & Hlt & Hs & Ht & Hv & Hek & Hdk).
  assert (Hm : length m = n) by (rewrite Hc in Hc'; assert (Z.of_nat (length m) = Z.of_nat n) by congruence; lia).
  pose proof (ek_formula_lengths gens g_i delta gamma s t0 t n Hs Ht Hg) as L. cbv zeta in L. rewrite <- Hek in L. destruct L as (L1 & L2 & L3).
  pose proof (encrypt_chunks_ok R m ek g_i st ltac:(lia) ltac:(lia) ltac:(lia) ltac:(lia) ltac:(lia)) as He. unfold ct_vec in He.
  do 5 eexists. split; [exact He|]. eexists.
  eapply (chunk_round_trip pf R b gens g_i delta gamma sk ek dk m); [exact Hk| | exact He | exact Hb' | exact HM | exact Hd].
  rewrite Hdk in Hn at 2. unfold dk_formula in Hn. cbn [dk_V_2] in Hn. rewrite map_length, Hv in Hn. rewrite Hm. exact Hn.
Qed.

(* ===== C14 ===== *)
(* s: the scalars with X_i = s_i X_0.  opens_to: c_i = s_i c_0 + ms_i g_i for all i (KeySpec.v). *)
Theorem C14_decryption_sound_and_complete :
  forall (E : pairing) (b : Z) gens g_i delta gamma sk (ek : encryption_key E) dk,
  from_keygen b gens g_i delta gamma sk ek dk -> nondegenerate dk g_i (length (dk_V_2 dk)) ->
  exists s, ek_X ek = map (fun x => x [*] ek_X_0 ek) s /\ length s = length (dk_V_2 dk) /\
  forall (pf : profile) (b' : Z) (c_0 : G1 E) (c : list (G1 E)), 1 <= b' <= 31 -> field_holds (K_of E) b' ->
    (forall ms nu, decrypt_to_chunks pf c_0 c sk (prepare_dk dk) g_i b' = Ok (ms, nu) <->
       opens_to s g_i c_0 c ms /\ Forall (fits b') ms /\ nu = sk [*] c_0) /\
    (length c = length s -> (forall ms, opens_to s g_i c_0 c ms -> ~ Forall (fits b') ms) ->
       decrypt_to_chunks pf c_0 c sk (prepare_dk dk) g_i b' = Err CouldNotFindDiscreteLog) /\
    (forall ms ms', opens_to s g_i c_0 c ms -> opens_to s g_i c_0 c ms' ->
       Forall (fits b') ms -> Forall (fits b') ms' -> ms = ms').
Proof.
  intros E b gens g_i delta gamma sk ek dk Hk Hn.
  apply from_keygen_inv in Hk. destruct Hk as (n & s & t0 & t & v & Hc & Hg & Hlt & Hs & Ht & Hv & Hek & Hdk).
  assert (L2 : length (dk_V_2 dk) = n) by (rewrite Hdk; unfold dk_formula; cbn [dk_V_2]; rewrite map_length; exact Hv).
  exists s. split; [rewrite Hek; reflexivity|]. split; [lia|]. intros pf b' c_0 c Hb' HF.
  rewrite L2, Hdk in *. apply field_holds_iff in HF; [|lia].
  assert (HN : nondegenerate (dk_formula gens sk s v) g_i (length s)) by (rewrite Hs; exact Hn).
  pose proof (fun ms nu => decrypt_exact pf gens sk s v g_i b' c_0 c ms nu ltac:(lia) ltac:(lia) ltac:(lia) HN Hb' HF) as X.
  assert (A : forall ms nu, decrypt_to_chunks pf c_0 c sk (prepare_dk (dk_formula gens sk s v)) g_i b' = Ok (ms, nu) <->
       opens_to s g_i c_0 c ms /\ Forall (fits b') ms /\ nu = sk [*] c_0).
  { intros ms nu. rewrite (fits_Forall b' ms) by lia. apply X. }
  split; [exact A|]. split.
  - intros Hl Hno. destruct (decrypt_sound_shape pf gens sk s v g_i b' c_0 c) as [(ms & nu & H)|H]; try lia; [|exact H].
    apply A in H. destruct H as (H1 & H2 & _). exfalso. exact (Hno ms H1 H2).
  - intros ms ms' H1 H2 F1 F2.
    pose proof (proj2 (A ms (sk [*] c_0)) (conj H1 (conj F1 eq_refl))) as D1.
    pose proof (proj2 (A ms' (sk [*] c_0)) (conj H2 (conj F2 eq_refl))) as D2. congruence.
Qed.

(* ===== C15 ===== *)
Theorem C15_pairing_powers_do_not_change_decryption :
  forall (pf pf' : profile) (E : pairing) (dk : decryption_key E) (b : Z) g_i table ct (sk : Fr E), 1 <= b <= 30 ->
  dk_pairing_powers pf dk b g_i = Ok table ->
  ct_decrypt_given_pairing_powers pf' ct sk (prepare_dk dk) g_i b table = ct_decrypt pf' ct sk (prepare_dk dk) g_i b.
Proof. intros pf pf' E. exact (@pairing_powers_equiv_decrypt E pf pf'). Qed.
Theorem C15_pairing_powers_do_not_change_chunk_decryption :
  forall (pf pf' : profile) (E : pairing) (dk : prepared_decryption_key E) (b : Z) g_i table c_0 c (sk : Fr E), 1 <= b <= 30 ->
  pdk_pairing_powers pf dk b g_i = Ok table ->
  decrypt_to_chunks_given_pairing_powers pf' c_0 c sk dk g_i b (Some table) = decrypt_to_chunks pf' c_0 c sk dk g_i b.
Proof. intros pf pf' E dk b g_i table c_0 c sk. apply (@pairing_powers_equiv E). Qed.
Theorem C15_pairing_powers_available : forall (pf : profile) (E : pairing) (b b' : Z) gens g_i delta gamma sk ek dk,
  @from_keygen E b gens g_i delta gamma sk ek dk -> 1 <= b' <= 30 -> exists table, dk_pairing_powers pf dk b' g_i = Ok table.
Proof. intros pf E. exact (@pairing_powers_exist E pf). Qed.

(* ===== C16 ===== *)
(* With only the first k rows of the right table: fine when all later chunks are 0, a panic when chunk k is not 0, the
   documented error when the first non-zero chunk after k comes later. *)
Theorem C16_truncated_table_exact :
  forall (pf pf' : profile) (E : pairing) (dk : prepared_decryption_key E) (b : Z) g_i table c_0 c (sk : Fr E) ms nu k, 1 <= b <= 30 ->
  pdk_pairing_powers pf dk b g_i = Ok table -> decrypt_to_chunks pf' c_0 c sk dk g_i b = Ok (ms, nu) -> (0 < k < length table)%nat ->
  let r := decrypt_to_chunks_given_pairing_powers pf' c_0 c sk dk g_i b (Some (firstn k table)) in
  ((forall i, (k <= i)%nat -> nth i ms 0 = 0) -> r = Ok (ms, nu)) /\
  (nth k ms 0 <> 0 -> r = Panic) /\
  (forall i, (k < i < length ms)%nat -> (forall j, (k <= j < i)%nat -> nth j ms 0 = 0) -> nth i ms 0 <> 0 -> r = Err InvalidPairingPowers).
Proof. intros pf pf' E. exact (@truncated_table E pf pf'). Qed.
(* With row i cut to its first L entries: a panic when chunk i is greater than L, otherwise no effect. *)
Theorem C16_shortened_row_exact :
  forall (pf pf' : profile) (E : pairing) (dk : prepared_decryption_key E) (b : Z) g_i table c_0 c (sk : Fr E) ms nu i L, 1 <= b <= 30 ->
  pdk_pairing_powers pf dk b g_i = Ok table -> decrypt_to_chunks pf' c_0 c sk dk g_i b = Ok (ms, nu) -> (i < length table)%nat ->
  decrypt_to_chunks_given_pairing_powers pf' c_0 c sk dk g_i b
    (Some (firstn i table ++ firstn L (nth i table []) :: skipn (S i) table)) =
    if Z.of_nat L <? nth i ms 0 then Panic else Ok (ms, nu).
Proof. intros pf pf' E. exact (@shortened_row E pf pf'). Qed.
(* the table search on an arbitrary table *)
Theorem C16_lookup_exact : forall (E : pairing) i M (p : GT E) (table : list (list (GT E))), 1 <= M <= 65535 ->
  ((length table < i)%nat -> solve_discrete_log_using_pairing_powers i M p table = Err InvalidPairingPowers) /\
  (length table = i -> solve_discrete_log_using_pairing_powers i M p table = Panic) /\
  (forall row, nth_error table i = Some row ->
     (exists k, solve_discrete_log_using_pairing_powers i M p table = Ok (Z.of_nat k + 1) /\ Z.of_nat k < M /\
        nth_error row k = Some p /\ forall k', (k' < k)%nat -> nth_error row k' <> Some p) \/
     ((forall k, Z.of_nat k < M -> nth_error row k <> Some p) /\
      solve_discrete_log_using_pairing_powers i M p table =
        if Z.of_nat (length row) <? M then Panic else Err CouldNotFindDiscreteLog)).
Proof. intros E i M p table. apply (@lookup_exact E). Qed.

(* refutation of "a too short table gives an error": an honest key, an honest ciphertext, the right table with one row kept *)
Theorem C16_short_table_is_an_error_refuted :
  exists (E : pairing) b gens g_i delta gamma sk ek dk m c_0 c psi r table k,
    @from_keygen E b gens g_i delta gamma sk ek dk /\ nondegenerate dk g_i (length (dk_V_2 dk)) /\ supported b /\ digits_ok b m /\
    encrypts ek g_i m (c_0 :: c ++ [psi]) r /\ dk_pairing_powers Debug dk b g_i = Ok table /\ (k < length table)%nat /\
    decrypt_to_chunks_given_pairing_powers Debug c_0 c sk (prepare_dk dk) g_i b (Some (firstn k table)) = Panic.
Proof.
  destruct (pairing_powers_exist Debug 4 4 x_gens x_gi x_delta x_gamma x_rho x_ek x_dk x_keygen ltac:(lia)) as (table & Ht).
  exists E61, 4, x_gens, x_gi, x_delta, x_gamma, x_rho, x_ek, x_dk, x_msg1.
  set (ct := ct_formula x_ek x_gi x_msg1 x_r1).
  exists (ct_X_r ct), (ct_enc_chunks ct), (ct_commitment ct), x_r1, table, 1%nat.
  assert (Hd : digits_ok 4 x_msg1) by (unfold x_msg1; repeat constructor; reflexivity || discriminate).
  assert (He : encrypts x_ek x_gi x_msg1 (ct_X_r ct :: ct_enc_chunks ct ++ [ct_commitment ct]) x_r1) by (apply (x_encrypts x_msg1 x_r1); reflexivity).
  assert (Hm : (2 : Z) ^ 4 <= modulus (K_of E61)) by (vm_compute; discriminate).
  destruct (pairing_powers_inv Debug (prepare_dk x_dk) 4 x_gi table ltac:(lia) Ht) as (_ & Hl & _).
  assert (Hl' : length table = 16%nat) by (rewrite Hl; vm_compute; reflexivity).
  split; [exact x_keygen|]. split; [exact x_nondegenerate|]. split; [left; reflexivity|]. split; [exact Hd|]. split; [exact He|].
  split; [exact Ht|]. split; [lia|].
  destruct He as (R & st & st' & He).
  pose proof (chunk_round_trip Debug R 4 x_gens x_gi x_delta x_gamma x_rho x_ek x_dk x_msg1 st _ _ _ x_r1 st' 4 x_keygen x_nondegenerate He ltac:(lia) Hm Hd) as Hdec.
  destruct (truncated_table Debug Debug (prepare_dk x_dk) 4 x_gi table _ _ x_rho _ _ 1 ltac:(lia) Ht Hdec ltac:(lia)) as (_ & HP & _).
  apply HP. discriminate.
Qed.

(* ===== C17 ===== *)
Theorem C17_commitment_to_randomness_verifiable :
  forall (pf : profile) (E : pairing) (b b' : Z) gens g_i delta gamma sk ek dk g_i' (ct : ciphertext E) m nu,
  from_keygen b gens g_i delta gamma sk ek dk ->
  ct_decrypt pf ct sk (prepare_dk dk) g_i' b' = Ok (m, nu) ->
  pair nu (prep (eg_H gens)) = pair (ct_X_r ct) (prep (dk_V_0 dk)) /\
  (eg_H gens <> gzero -> forall x, pair x (prep (eg_H gens)) = pair (ct_X_r ct) (prep (dk_V_0 dk)) -> x = nu).
Proof.
  intros pf E b b' gens g_i delta gamma sk ek dk g_i' ct m nu Hk Hd. apply decrypt_nu in Hd. subst nu. split.
  - apply (nu_verifies b gens g_i delta gamma sk ek dk _ _ Hk). reflexivity.
  - intros HH x Hx. destruct (nu_verifies b gens g_i delta gamma sk ek dk (ct_X_r ct) x Hk) as [_ H2]. exact (H2 HH Hx).
Qed.

(* ===== C18 ===== *)
(* for every engine, chunk size, generators and chunk position i there is a run of keygen whose keys validate and whose
   decryption returns 0 at position i whatever was encrypted *)
Theorem C18_degenerate_key_accepted :
  forall (E : pairing) (b : Z) (gens : encryption_gens E) g_i delta gamma (n i : nat),
  chunks_count (K_of E) b = Ok (Z.of_nat n) -> (n <= length g_i)%nat -> (i < n)%nat ->
  exists sk ek dk, from_keygen b gens g_i delta gamma sk ek dk /\ sk = fone /\ ek_validate ek = Ok tt /\ dk_validate dk = Ok tt /\
    forall pf b' c_0 c ms nu, decrypt_to_chunks pf c_0 c sk (prepare_dk dk) g_i b' = Ok (ms, nu) -> nth i ms 0 = 0.
Proof.
  intros E b gens g_i delta gamma n i Hn Hg Hi.
  set (z := repeat (@fone (K_of E)) n). set (v := repeat (@fone (K_of E)) i ++ fzero :: repeat fone (n - i - 1)).
  assert (Hz : length z = n) by apply repeat_length.
  assert (Hv : length v = n) by (unfold v; rewrite app_length; cbn [length]; rewrite !repeat_length; lia).
  exists fone, (ek_formula gens g_i delta gamma z fone z), (dk_formula gens fone z v).
  assert (Hk : from_keygen b gens g_i delta gamma fone (ek_formula gens g_i delta gamma z fone z) (dk_formula gens fone z v)).
  { exists (replay_rng E), (fone :: z ++ (fone :: z) ++ v ++ []), []. apply (keygen_replay b gens g_i delta gamma n); assumption. }
  split; [exact Hk|]. split; [reflexivity|].
  destruct (keygen_valid _ _ _ _ _ _ _ _ Hk) as (n' & Hn' & _ & H1 & _ & _ & _ & H2 & _). split; [exact H1|]. split; [exact H2|].
  intros pf b' c_0 c ms nu Hd. pose proof (chunks_count_range _ _ _ Hn) as Hr.
  apply (decrypt_degenerate pf gens fone z v g_i b' c_0 c ms nu); [lia|lia|lia|exact Hd|lia|].
  unfold dk_formula; cbn [dk_V_2]. rewrite (nth_map_default (fun b => fmul b fone [*] eg_H gens) v i fzero gzero) by (rewrite fmul_0_l'; apply smul_0_l).
  unfold v. rewrite app_nth2; rewrite repeat_length; [|lia]. rewrite Nat.sub_diag. cbn [nth].
  rewrite fmul_0_l'. apply smul_0_l.
Qed.
(* a secret key rho = 0 is accepted too and then everything decrypts to 0 *)
Theorem C18_zero_secret_key_decrypts_to_zero :
  forall (pf : profile) (E : pairing) (b b' : Z) gens g_i delta gamma (ek : encryption_key E) dk c_0 c ms nu,
  from_keygen b gens g_i delta gamma fzero ek dk ->
  decrypt_to_chunks pf c_0 c fzero (prepare_dk dk) g_i b' = Ok (ms, nu) -> Forall (fun z => z = 0) ms.
Proof.
  intros pf E b b' gens g_i delta gamma ek dk c_0 c ms nu Hk Hd.
  apply from_keygen_inv in Hk. destruct Hk as (n & s & t0 & t & v & Hc & Hg & Hlt & Hs & Ht & Hv & Hek & Hdk). subst dk.
  apply Forall_forall. intros x Hx. apply (In_nth _ _ 0) in Hx. destruct Hx as (i & Hi & <-).
  destruct (le_lt_dec (length s) i) as [Hle|Hlt'].
  - exfalso. rewrite decrypt_to_chunks_unfold in Hd. rewrite pdk_count_formula in Hd by lia. cbn [bind] in Hd. rewrite Nat2Z.id in Hd.
    destruct (Nat.eqb_spec (length c) (length s)) as [Hl|Hl]; cbn [negb] in Hd; [|discriminate].
    destruct (length g_i <? length c)%nat; [discriminate|]. destruct (one_shl_u32 pf b'); cbn [bind] in Hd; try discriminate.
    destruct (mapM _ _) as [ms'| |] eqn:Em; cbn [bind] in Hd; try discriminate. apply mapM_length in Em. rewrite seq_length in Em.
    assert (ms' = ms) by congruence. subst. lia.
  - apply (decrypt_degenerate pf gens fzero s v g_i b' c_0 c ms nu); [lia|lia|lia|exact Hd|exact Hlt'|].
    unfold dk_formula; cbn [dk_V_2]. rewrite (nth_map_default (fun b => fmul b fzero [*] eg_H gens) v i fzero gzero) by (rewrite fmul_0_l'; apply smul_0_l).
    rewrite fmul_0_r'. apply smul_0_l.
Qed.

(* so the round trip is false without the non-degeneracy hypothesis *)
Theorem C18_unconditional_round_trip_refuted :
  ~ (forall (E : pairing) b gens g_i delta gamma sk ek dk m c_0 c psi r,
       @from_keygen E b gens g_i delta gamma sk ek dk -> supported b -> 2 ^ b <= modulus (K_of E) -> digits_ok b m ->
       eg_H gens <> gzero -> Forall (fun x => x <> gzero) g_i -> delta <> gzero -> gamma <> gzero -> sk <> fzero ->
       encrypts ek g_i m (c_0 :: c ++ [psi]) r ->
       exists nu, decrypt_to_chunks Debug c_0 c sk (prepare_dk dk) g_i b = Ok (m, nu)).
Proof.
  intros H. destruct (C18_degenerate_key_accepted E61 4 x_gens x_gi x_delta x_gamma 16 0 x_count) as (sk & ek & dk & Hk & Hsk & _ & _ & Hz);
    [vm_compute; lia|lia|].
  pose proof Hk as Hk'. apply from_keygen_inv in Hk'. destruct Hk' as (n & s & t0 & t & v & Hc & Hg & Hlt & Hs & Ht & Hv & Hek & Hdk).
  assert (n = 16%nat) by (rewrite x_count in Hc; assert (Z.of_nat 16 = Z.of_nat n) by congruence; lia).
  pose proof (ek_formula_lengths x_gens x_gi x_delta x_gamma s t0 t n Hs Ht Hg) as L. cbv zeta in L. rewrite <- Hek in L. destruct L as (L1 & L2 & L3).
  assert (Lm : length x_msg1 = 16%nat) by reflexivity.
  pose proof (encrypt_chunks_ok (replay_rng E61) x_msg1 ek x_gi [x_r1] ltac:(lia) ltac:(lia) ltac:(lia) ltac:(lia) ltac:(lia)) as He. unfold ct_vec in He.
  change (fst (rand_scalar (replay_rng E61) [x_r1])) with x_r1 in He.
  destruct (H E61 4 x_gens x_gi x_delta x_gamma sk ek dk x_msg1 (ct_X_r (ct_formula ek x_gi x_msg1 x_r1)) (ct_enc_chunks (ct_formula ek x_gi x_msg1 x_r1)) (ct_commitment (ct_formula ek x_gi x_msg1 x_r1)) x_r1 Hk) as (nu & Hd).
  - left; reflexivity.
  - vm_compute; discriminate.
  - unfold x_msg1; repeat constructor; reflexivity || discriminate.
  - exact x_H.
  - exact x_gi_nonzero.
  - intros D. apply (f_equal sval) in D. vm_compute in D. discriminate.
  - intros D. apply (f_equal sval) in D. vm_compute in D. discriminate.
  - rewrite Hsk. apply fneq01.
  - exists (replay_rng E61), [x_r1], []. exact He.
  - apply Hz in Hd. discriminate.
Qed.

(* ===== C24 ===== *)
Theorem C24_encryption_failures_exact :
  forall (E : pairing) (R : rng_impl E) (m : list Z) (ek : encryption_key E) g_i st, (length (ek_X ek) < 256)%nat ->
  let nX := length (ek_X ek) in let nY := length (ek_Y ek) in let nZ := length (ek_Z ek) in
  let r := encrypt_decomposed_message R m ek g_i st in
  (nY <> nX -> r = Err (MalformedEncryptionKey nY nX)) /\
  (nY = nX -> nZ <> (nX + 1)%nat -> r = Err (MalformedEncryptionKey nZ nX)) /\
  (nY = nX -> nZ = (nX + 1)%nat -> length m <> nX -> r = Err (IncompatibleEncryptionKey (length m) nX)) /\
  (nY = nX -> nZ = (nX + 1)%nat -> length m = nX -> (length g_i < nX)%nat -> r = Err (VectorShorterThanExpected nX (length g_i))) /\
  (nY = nX -> nZ = (nX + 1)%nat -> length m = nX -> (nX <= length g_i)%nat -> exists ct rand st', r = Ok (ct, rand, st') /\ length ct = (nX + 2)%nat).
Proof.
  intros E R m ek g_i st H nX nY nZ r. subst r. rewrite encrypt_chunks_total. fold nX nY nZ. fold nX in H. cbv zeta.
  rewrite (Nat.mod_small nX 256) by exact H.
  destruct (Nat.eqb_spec nY nX) as [E1|E1]; cbn [negb]; [|repeat split; try reflexivity; congruence].
  destruct (Nat.eqb_spec nZ (nX + 1)) as [E2|E2]; cbn [negb]; [|repeat split; try reflexivity; congruence].
  destruct (Nat.eqb_spec (length m) nX) as [E3|E3]; cbn [negb]; [|repeat split; try reflexivity; congruence].
  destruct (Nat.ltb_spec (length g_i) (length m)) as [E4|E4]; [repeat split; try congruence; intros; lia|].
  destruct (Nat.ltb_spec nX 256) as [E5|E5]; [|lia]. repeat split; try congruence; try (intros; lia).
  intros. do 3 eexists. split; [reflexivity|]. unfold ct_vec, ct_formula. cbn [ct_X_r ct_enc_chunks ct_commitment length].
  rewrite app_length, body_formula_length. cbn [length]. lia.
Qed.
Theorem C24_encryption_never_panics :
  forall (E : pairing) (R : rng_impl E) (m : list Z) (ek : encryption_key E) g_i st, (length (ek_X ek) < 256)%nat ->
  encrypt_decomposed_message R m ek g_i st <> Panic.
Proof.
  intros E R m ek g_i st H. rewrite encrypt_chunks_total. cbv zeta. rewrite (Nat.mod_small _ _ H).
  destruct (Nat.ltb_spec (length (ek_X ek)) 256) as [_|E5]; [|lia].
  repeat match goal with |- (if ?c then _ else _) <> _ => destruct c; try discriminate end.
Qed.
(* beyond 255 chunks: a key that validates, a message of the length the key claims to support, and a panic *)
Theorem C24_never_panics_beyond_255_refuted : forall (E : pairing) (R : rng_impl E) (st : rng_st R) (g : G1 E),
  exists (ek : encryption_key E), ek_validate ek = Ok tt /\ ek_supported_chunks_count ek = Ok 1 /\
    forall z, encrypt_decomposed_message R [z] ek (repeat g 257) st = Panic.
Proof.
  intros E R st g. exists (EncryptionKey gzero (repeat gzero 257) (repeat gzero 257) (repeat gzero 258) gzero gzero).
  split; [|split]; [vm_compute; reflexivity|vm_compute; reflexivity|]. intros z. rewrite encrypt_chunks_total. cbv zeta.
  cbn [ek_X ek_Y ek_Z]. rewrite !repeat_length.
  replace (257 mod 256)%nat with 1%nat by reflexivity. reflexivity.
Qed.

(* ===== C43 ===== *)
Theorem C43_decryption_shape_errors :
  forall (pf : profile) (E : pairing) c_0 c (sk : Fr E) (dk : prepared_decryption_key E) g_i b, 0 <= b <= 31 ->
  (length (pdk_V_1 dk) < 256)%nat ->
  let n1 := length (pdk_V_1 dk) in let n2 := length (pdk_V_2 dk) in
  let r := decrypt_to_chunks pf c_0 c sk dk g_i b in
  (n2 <> n1 -> r = Err (MalformedDecryptionKey n2 n1)) /\
  (n2 = n1 -> length c <> n1 -> r = Err (IncompatibleDecryptionKey (length c) n1)) /\
  (n2 = n1 -> length c = n1 -> (length g_i < n1)%nat -> r = Err (VectorShorterThanExpected n1 (length g_i))) /\
  (n2 = n1 -> length c = n1 -> (n1 <= length g_i)%nat ->
     (exists ms nu, r = Ok (ms, nu) /\ length ms = n1) \/ r = Err CouldNotFindDiscreteLog).
Proof.
  intros pf E c_0 c sk dk g_i b Hb H. destruct (decrypt_to_chunks_shape pf c_0 c sk dk g_i b Hb) as (A & B & C & D).
  rewrite (Nat.mod_small _ _ H) in *. cbv zeta. split; [exact A|]. split; [exact B|]. split.
  - intros H1 H2 H3. rewrite <- H2. apply C; lia.
  - intros H1 H2 H3. rewrite <- H2. apply D; lia.
Qed.
Theorem C43_decryption_never_panics :
  forall (pf : profile) (E : pairing) c_0 c (sk : Fr E) (dk : prepared_decryption_key E) g_i b, 0 <= b <= 31 ->
  decrypt_to_chunks pf c_0 c sk dk g_i b <> Panic.
Proof.
  intros pf E c_0 c sk dk g_i b Hb. destruct (decrypt_to_chunks_shape pf c_0 c sk dk g_i b Hb) as (A & B & C & D).
  destruct (Nat.eq_dec (length (pdk_V_2 dk)) (length (pdk_V_1 dk))) as [E1|E1]; [|rewrite (A E1); discriminate].
  destruct (Nat.eq_dec (length c) (length (pdk_V_1 dk) mod 256)) as [E2|E2]; [|rewrite (B E1 E2); discriminate].
  destruct (le_lt_dec (length c) (length g_i)) as [E3|E3]; [|rewrite (C E1 E2 E3); discriminate].
  destruct (D E1 E2 E3) as [(? & ? & -> & _)| ->]; discriminate.
Qed.
Theorem C43_chunk_size_32_panics :
  forall (E : pairing) c_0 c (sk : Fr E) (dk : prepared_decryption_key E) g_i b, 32 <= b ->
  length (pdk_V_2 dk) = length (pdk_V_1 dk) -> (length (pdk_V_1 dk) < 256)%nat -> length c = length (pdk_V_1 dk) -> (length c <= length g_i)%nat ->
  decrypt_to_chunks Debug c_0 c sk dk g_i b = Panic.
Proof. intros E c_0 c sk dk g_i b Hb H1 H2 H3 H4. apply decrypt_to_chunks_debug_panic; try assumption. rewrite Nat.mod_small by exact H2. exact H3. Qed.

(* ----- concrete cases ----- *)
Example ex_decryption_hypotheses :
  from_keygen 4 x_gens x_gi x_delta x_gamma x_rho x_ek x_dk /\ nondegenerate x_dk x_gi (length (dk_V_2 x_dk)) /\
  supported 4 /\ 2 ^ 4 <= modulus (K_of E61) /\ 64 * Z.of_nat (limbs (K_of E61)) - 4 < modulus_bit_size (K_of E61) /\
  64 * Z.of_nat (limbs (K_of E61)) < 256 * 4 /\ field_holds (K_of E61) 4 /\ digits_ok 4 x_msg1 /\
  chunks_count (K_of E61) 4 = Ok (Z.of_nat (length x_msg1)).
Proof.
  split; [exact x_keygen|]. split; [exact x_nondegenerate|]. split; [left; reflexivity|]. split; [vm_compute; discriminate|].
  split; [vm_compute; reflexivity|]. split; [vm_compute; reflexivity|]. split; [left; vm_compute; discriminate|].
  split; [unfold x_msg1; repeat constructor; reflexivity || discriminate|]. exact x_count.
Qed.
(* and the model really computes: a message through encrypt and decrypt, in release and debug profile *)
Example ex_round_trip_computes :
  (r <- encrypt Debug (replay_rng E61) (of_Z 1234567890123456789) x_ek x_gi 4 [x_r1] ;;
   let '(ct, _, _) := r in d <- ct_decrypt Release ct x_rho (prepare_dk x_dk) x_gi 4 ;; Ok (sval (fst d))) = Ok 1234567890123456789.
Proof. vm_compute. reflexivity. Qed.
