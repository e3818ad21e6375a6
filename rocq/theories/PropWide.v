(* PropWide.v -- C81: chunk bit sizes from 0 to 255 in debug and release builds (shifts of 32 bit integers by 32 or more, i32 overflow at 31) *)
From Verif Require Import Base BaseFacts Algebra Utils UtilsFacts WindowFacts Commitment CommitmentFacts Setup Keygen KeygenFacts Encryption EncryptFacts DecryptFacts RoundTrip
  Spec KeySpec VecFacts Protocol ReencFacts DistFacts PropReencExact Instance Examples.

(* the prepared key has two vectors of the same length (at most 255), the ciphertext as many chunks, and there are enough generators *)
Definition shapes_fit {E : pairing} (c : list (G1 E)) (dk : prepared_decryption_key E) (g_i : list (G1 E)) : Prop :=
  length (pdk_V_1 dk) = length c /\ length (pdk_V_2 dk) = length c /\ (length c < 256)%nat /\ (length c <= length g_i)%nat.

Section Wide.
Context {E : pairing}.
Local Notation K := (K_of E).

Lemma shl_release b : 32 <= b -> one_shl_u32 Release b = one_shl_u32 Release (b mod 32).
Proof.
  intros Hb. pose proof (Z.mod_pos_bound b 32 ltac:(lia)) as Hm. unfold one_shl_u32. destruct (Z.ltb_spec b 32); [lia|]. destruct (Z.ltb_spec (b mod 32) 32); [reflexivity|lia].
Qed.
Lemma shl_i_release b : 32 <= b -> one_shl_i32 Release b = one_shl_i32 Release (b mod 32).
Proof.
  intros Hb. pose proof (Z.mod_pos_bound b 32 ltac:(lia)) as Hm. unfold one_shl_i32. destruct (Z.ltb_spec b 32); [lia|]. destruct (Z.ltb_spec (b mod 32) 32); [reflexivity|lia].
Qed.
Lemma count_ok (c : list (G1 E)) (dk : prepared_decryption_key E) g_i : shapes_fit c dk g_i -> pdk_supported_chunks_count dk = Ok (Z.of_nat (length c)).
Proof.
  intros (H1 & H2 & H3 & _). unfold pdk_supported_chunks_count, dec_supported_chunks_count. rewrite H1, H2, Nat.eqb_refl. cbn [negb]. f_equal. unfold as_u8. apply Z.mod_small. change (2 ^ 8) with 256. lia.
Qed.

(* Decryption in a release build with a chunk size of 32 or more is decryption with the chunk size modulo 32, on all inputs. *)
Theorem C81_wide_chunks_in_release_builds c_0 c (sk : Fr E) (dk : prepared_decryption_key E) g_i b powers : 32 <= b ->
  decrypt_to_chunks_given_pairing_powers Release c_0 c sk dk g_i b powers = decrypt_to_chunks_given_pairing_powers Release c_0 c sk dk g_i (b mod 32) powers /\
  decrypt_to_chunks Release c_0 c sk dk g_i b = decrypt_to_chunks Release c_0 c sk dk g_i (b mod 32) /\
  decrypt_to_chunks_after_re_encryption Release c_0 c sk g_i b = decrypt_to_chunks_after_re_encryption Release c_0 c sk g_i (b mod 32) /\
  pdk_pairing_powers Release dk b g_i = pdk_pairing_powers Release dk (b mod 32) g_i.
Proof.
  intros Hb. unfold decrypt_to_chunks, decrypt_to_chunks_given_pairing_powers, decrypt_to_chunks_after_re_encryption, pdk_pairing_powers.
  rewrite (shl_release b Hb), (shl_i_release b Hb). repeat split; reflexivity.
Qed.

(* What that is for the chunk size 32 (and every multiple of it): only the chunks 0 and 1 are found. *)
Theorem C81_chunk_size_32_finds_only_0_and_1 c_0 c (sk : Fr E) g_i b : 32 <= b -> b mod 32 = 0 -> (length c <= length g_i)%nat ->
  (forall ms, decrypt_to_chunks_after_re_encryption Release c_0 c sk g_i b = Ok ms ->
     length ms = length c /\ forall i m, nth_error ms i = Some m -> (m = 0 \/ m = 1) /\ nth i c gzero = (sk [*] c_0) [+] mul_bigint (nth i g_i gzero) m) /\
  (forall i, (i < length c)%nat -> (forall m, m = 0 \/ m = 1 -> nth i c gzero <> (sk [*] c_0) [+] mul_bigint (nth i g_i gzero) m) ->
     decrypt_to_chunks_after_re_encryption Release c_0 c sk g_i b = Err CouldNotFindDiscreteLog).
Proof.
  intros Hb Hm Hg.
  assert (HE : decrypt_to_chunks_after_re_encryption Release c_0 c sk g_i b = mapM (reenc_step 0 (map (fun ci => ci [+] mul_bigint c_0 (into_bigint (fneg sk))) c) g_i) (seq 0 (length c))).
  { rewrite reenc_unfold. destruct (Nat.ltb_spec (length g_i) (length c)); [lia|]. rewrite (shl_release b Hb), Hm. reflexivity. }
  set (f := reenc_step 0 _ g_i) in HE.
  assert (Hunm : forall x : G1 E, x [+] mul_bigint c_0 (into_bigint (fneg sk)) = x [+] [-] (sk [*] c_0)).
  { intros x. f_equal. change (mul_bigint c_0 (into_bigint (fneg sk))) with (fneg sk [*] c_0). apply smul_fneg. }
  assert (Hf : forall i, (i < length c)%nat -> f i = if gis_zero (nth i c gzero [+] [-] (sk [*] c_0)) then Ok 0 else if geqb (nth i c gzero [+] [-] (sk [*] c_0)) (nth i g_i gzero) then Ok 1 else Err CouldNotFindDiscreteLog).
  { intros i Hi. unfold f, reenc_step. rewrite (idx_nth (map (fun ci => ci [+] mul_bigint c_0 (into_bigint (fneg sk))) c) i (gzero [+] mul_bigint c_0 (into_bigint (fneg sk)))) by (rewrite map_length; exact Hi).
    rewrite (map_nth (fun ci => ci [+] mul_bigint c_0 (into_bigint (fneg sk))) c gzero i), Hunm. cbn [bind]. destruct (gis_zero _); [reflexivity|]. rewrite (idx_nth g_i i gzero) by lia. cbn [bind]. unfold solve_discrete_log.
    destruct (geqb _ _); reflexivity. }
  assert (Hopen : forall (x y : G1 E), x [+] [-] (sk [*] c_0) = y <-> x = (sk [*] c_0) [+] y).
  { intros x y. split; [intros <-; rewrite (gadd_comm x), gadd_assoc, gadd_neg_r, gadd_0_l; reflexivity | intros ->; rewrite (gadd_comm (sk [*] c_0)), <- gadd_assoc, gadd_neg_r, gadd_0_r; reflexivity]. }
  assert (Hz : forall x : G1 E, gis_zero x = true <-> x = gzero). { intros x. unfold gis_zero. apply geqb_spec. }
  split.
  - intros ms Hms. rewrite HE in Hms. apply mapM_seq_elim in Hms. destruct Hms as [Hl Hrow]. split; [exact Hl|]. intros i m Hi. specialize (Hrow i m Hi). cbn [Nat.add] in Hrow.
    assert (Hlt : (i < length c)%nat) by (rewrite <- Hl; apply nth_error_Some; congruence).
    rewrite (Hf i Hlt) in Hrow. destruct (gis_zero _) eqn:Z1.
    + assert (m = 0) by congruence. subst m. split; [left; reflexivity|]. apply Hz in Z1. apply Hopen in Z1. exact Z1.
    + destruct (geqb _ _) eqn:Z2; [|discriminate]. assert (m = 1) by congruence. subst m. split; [right; reflexivity|]. apply geqb_spec in Z2. apply Hopen in Z2. rewrite Z2, mul_bigint_1. reflexivity.
  - intros i Hi Hno. rewrite HE.
    assert (Hfi : f i = Err CouldNotFindDiscreteLog).
    { rewrite (Hf i Hi). destruct (gis_zero _) eqn:Z1; [exfalso; apply (Hno 0); [left; reflexivity|]; apply Hz in Z1; apply Hopen in Z1; exact Z1|].
      destruct (geqb _ _) eqn:Z2; [|reflexivity]. exfalso. apply (Hno 1); [right; reflexivity|]. apply geqb_spec in Z2. apply Hopen in Z2. rewrite Z2, mul_bigint_1. reflexivity. }
    destruct (mapM f (seq 0 (length c))) as [ms|e|] eqn:Em.
    + exfalso. apply mapM_seq_elim in Em. destruct Em as [Hl Hrow]. destruct (nth_error ms i) as [m|] eqn:Hm'; [|apply nth_error_None in Hm'; lia]. specialize (Hrow i m Hm'). cbn [Nat.add] in Hrow. congruence.
    + apply mapM_Err_inv in Em. destruct Em as (j & Hj & He). apply in_seq in Hj. rewrite (Hf j ltac:(lia)) in He. destruct (gis_zero _); [discriminate|]. destruct (geqb _ _); [discriminate|]. congruence.
    + exfalso. revert Em. apply mapM_no_panic. intros j Hj. apply in_seq in Hj. rewrite (Hf j ltac:(lia)). destruct (gis_zero _); [discriminate|]. destruct (geqb _ _); discriminate.
Qed.

(* In a debug build they panic when everything else is in order (and report what else is wrong otherwise). *)
Theorem C81_wide_chunks_panic_in_debug_builds c_0 c (sk : Fr E) (dk : prepared_decryption_key E) g_i b powers : 32 <= b ->
  (shapes_fit c dk g_i -> decrypt_to_chunks_given_pairing_powers Debug c_0 c sk dk g_i b powers = Panic /\ decrypt_to_chunks Debug c_0 c sk dk g_i b = Panic) /\
  ((length c <= length g_i)%nat -> decrypt_to_chunks_after_re_encryption Debug c_0 c sk g_i b = Panic) /\
  (length (pdk_V_1 dk) = length (pdk_V_2 dk) -> pdk_pairing_powers Debug dk b g_i = Panic) /\
  (forall pf e, (decrypt_to_chunks_given_pairing_powers Debug c_0 c sk dk g_i b powers = Err e -> decrypt_to_chunks_given_pairing_powers pf c_0 c sk dk g_i 16 powers = Err e) /\
     (decrypt_to_chunks_after_re_encryption Debug c_0 c sk g_i b = Err e -> decrypt_to_chunks_after_re_encryption pf c_0 c sk g_i 16 = Err e) /\
     (pdk_pairing_powers Debug dk b g_i = Err e -> pdk_pairing_powers pf dk 16 g_i = Err e)).
Proof.
  intros Hb.
  assert (HS : one_shl_u32 Debug b = Panic) by (unfold one_shl_u32; destruct (Z.ltb_spec b 32); [lia|reflexivity]).
  assert (HI : one_shl_i32 Debug b = Panic) by (unfold one_shl_i32; destruct (Z.ltb_spec b 32); [lia|reflexivity]).
  split; [|split; [|split]].
  - intros Hf. assert (X : forall pp, decrypt_to_chunks_given_pairing_powers Debug c_0 c sk dk g_i b pp = Panic).
    { intros pp. unfold decrypt_to_chunks_given_pairing_powers. rewrite (count_ok c dk g_i Hf). cbn [bind]. rewrite Nat2Z.id, Nat.eqb_refl. cbn [negb].
      destruct Hf as (_ & _ & _ & Hg). destruct (Nat.ltb_spec (length g_i) (length c)); [lia|]. cbv zeta. rewrite HS. reflexivity. }
    split; [apply X|]. unfold decrypt_to_chunks. apply X.
  - intros Hg. apply reenc_debug_panic; assumption.
  - intros He. unfold pdk_pairing_powers, pdk_supported_chunks_count, dec_supported_chunks_count. rewrite He, Nat.eqb_refl. cbn [negb bind]. rewrite HI. reflexivity.
  - intros pf e. unfold decrypt_to_chunks_given_pairing_powers, decrypt_to_chunks_after_re_encryption, pdk_pairing_powers. cbv zeta. rewrite HS, HI. cbn [bind]. split; [|split].
    + destruct (pdk_supported_chunks_count dk) as [cnt|e'|]; cbn [bind]; [|auto|discriminate]. destruct (negb _); [auto|]. destruct (_ <? _)%nat; [auto|discriminate].
    + destruct (_ <? _)%nat; [auto|discriminate].
    + destruct (pdk_supported_chunks_count dk) as [cnt|e'|]; cbn [bind]; [discriminate|auto|discriminate].
Qed.

(* Tables of pairing powers for every chunk size: how many entries a row gets, what they are, and when the computation panics.  For the chunk size 31 the
   subtraction overflows: a debug build panics and a release build makes rows of 2^31-1 entries. *)
Theorem C81_pairing_powers_of_all_chunk_sizes pf (dk : prepared_decryption_key E) g_i b : 0 <= b <= 255 ->
  length (pdk_V_1 dk) = length (pdk_V_2 dk) -> (length (pdk_V_1 dk) < 256)%nat -> (length (pdk_V_1 dk) <= length g_i)%nat ->
  (pf = Debug -> 31 <= b -> pdk_pairing_powers pf dk b g_i = Panic) /\
  (pf = Release \/ b <= 30 -> exists table, pdk_pairing_powers pf dk b g_i = Ok table /\ length table = length (pdk_V_1 dk) /\
     forall i row, nth_error table i = Some row -> exists g v, nth_error g_i i = Some g /\ nth_error (pdk_V_2 dk) i = Some v /\
       Z.of_nat (length row) = Z.max 1 (2 ^ (b mod 32) - 1) /\
       forall j x, nth_error row j = Some x -> x = mul_bigint (pair g v) (Z.of_nat j + 1)).
Proof.
  intros Hb H12 H256 Hg.
  assert (Hcnt : pdk_supported_chunks_count dk = Ok (Z.of_nat (length (pdk_V_1 dk)))).
  { unfold pdk_supported_chunks_count, dec_supported_chunks_count. rewrite H12, Nat.eqb_refl. cbn [negb]. f_equal. unfold as_u8. apply Z.mod_small. change (2 ^ 8) with 256. lia. }
  split.
  - intros -> Hb31. unfold pdk_pairing_powers. rewrite Hcnt. cbn [bind]. unfold one_shl_i32. destruct (Z.ltb_spec b 32); [|reflexivity].
    assert (b = 31) by lia. subst b. reflexivity.
  - intros Hcase.
    assert (Hmax : exists z, (one_shl <- one_shl_i32 pf b ;; sub_i32 pf one_shl 1) = Ok z /\ z = 2 ^ (b mod 32) - 1).
    { assert (Hred : one_shl_i32 pf b = Ok (wrap_i32 (2 ^ (b mod 32)))).
      { unfold one_shl_i32. destruct (Z.ltb_spec b 32); [rewrite Z.mod_small by lia; reflexivity|]. destruct Hcase as [->|]; [reflexivity|lia]. }
      rewrite Hred. cbn [bind]. pose proof (Z.mod_pos_bound b 32 ltac:(lia)) as Hm. destruct (Z.eq_dec (b mod 32) 31) as [E31|N31].
      - rewrite E31. destruct Hcase as [->|Hle]; [|rewrite Z.mod_small in E31 by lia; lia]. exists (2 ^ 31 - 1). split; reflexivity.
      - assert (Hp : 1 <= 2 ^ (b mod 32) <= 2 ^ 30) by (split; [apply (Z.pow_le_mono_r 2 0); lia | apply Z.pow_le_mono_r; lia]).
        assert (H30 : 2 ^ 30 < 2 ^ 31) by (apply Z.pow_lt_mono_r; lia).
        rewrite wrap_i32_small by lia. unfold sub_i32. destruct (Z.leb_spec (- 2 ^ 31) (2 ^ (b mod 32) - 1)); [|lia]. destruct (Z.ltb_spec (2 ^ (b mod 32) - 1) (2 ^ 31)); [|lia]. cbn [andb]. eexists. split; reflexivity. }
    destruct Hmax as (z & Hz & Ez). apply bind_Ok_inv in Hz. destruct Hz as (one & H1 & H2).
    assert (Hz0 : 0 <= z) by (rewrite Ez; pose proof (Z.mod_pos_bound b 32 ltac:(lia)); assert (1 <= 2 ^ (b mod 32)) by (apply (Z.pow_le_mono_r 2 0); lia); lia).
    set (f := fun i => g <- idx g_i i ;; v <- idx (pdk_V_2 dk) i ;; Ok (powers_row (Z.to_nat (z - 1)) (pair g v))).
    assert (HE : pdk_pairing_powers pf dk b g_i = mapM f (seq 0 (length (pdk_V_1 dk)))).
    { unfold pdk_pairing_powers. rewrite Hcnt. cbn [bind]. rewrite H1. cbn [bind]. rewrite H2. cbn [bind]. rewrite Nat2Z.id. reflexivity. }
    destruct (mapM f (seq 0 (length (pdk_V_1 dk)))) as [table|e|] eqn:Em.
    + exists table. split; [exact HE|]. apply mapM_seq_elim in Em. destruct Em as [Hl Hrow]. split; [exact Hl|]. intros i row Hi. specialize (Hrow i row Hi). cbn [Nat.add] in Hrow. unfold f in Hrow.
      apply bind_Ok_inv in Hrow. destruct Hrow as (g & Hgi & Hrow). apply bind_Ok_inv in Hrow. destruct Hrow as (v & Hv & Hrow). apply idx_Ok_iff in Hgi, Hv.
      exists g, v. split; [exact Hgi|]. split; [exact Hv|]. assert (Er : row = powers_row (Z.to_nat (z - 1)) (pair g v)) by congruence. rewrite Er. rewrite powers_row_length. split; [lia|].
      intros j x Hj. assert (Hjl : (j < S (Z.to_nat (z - 1)))%nat) by (rewrite <- (powers_row_length (Z.to_nat (z - 1)) (pair g v)); apply nth_error_Some; congruence).
      rewrite powers_row_nth in Hj by lia. congruence.
    + exfalso. apply mapM_Err_inv in Em. destruct Em as (i & Hi & He). apply in_seq in Hi. unfold f in He. rewrite (idx_nth g_i i gzero) in He by lia. cbn [bind] in He.
      destruct (idx_lt (pdk_V_2 dk) i) as (v & Hv & _); [lia|]. rewrite Hv in He. discriminate.
    + exfalso. revert Em. apply mapM_no_panic. intros i Hi. apply in_seq in Hi. unfold f. rewrite (idx_nth g_i i gzero) by lia. cbn [bind].
      destruct (idx_lt (pdk_V_2 dk) i) as (v & Hv & _); [lia|]. rewrite Hv. discriminate.
Qed.
End Wide.

(* Commitment keys: a release build uses the radix 2^(b mod 32) for a chunk size b of 32 or more, with the number of chunks for b. *)
Theorem C81_commitment_keys_of_wide_chunks (K : prime_field) (G : group K) (gens : chunked_commitment_gens G) b n : 32 <= b -> b mod 32 <= 30 -> chunks_count K b = Ok n -> 1 <= n ->
  exists key, commitment_key Release gens b = Ok (key ++ [cg_H gens]) /\ Z.of_nat (length key) = n /\
    forall i, (i < length key)%nat -> nth_error key i = Some (mul_bigint (cg_G gens) (2 ^ (b mod 32 * (n - 1 - Z.of_nat i)))).
Proof.
  intros Hb Hm Hn Hn1. pose proof (Z.mod_pos_bound b 32 ltac:(lia)) as Hp. exists (radix_powers (2 ^ (b mod 32)) (Z.to_nat n) (cg_G gens)).
  split.
  - unfold commitment_key. rewrite (shl_i_release b Hb). unfold one_shl_i32. destruct (Z.ltb_spec (b mod 32) 32); [|lia]. cbn [bind].
    assert (Hp2 : 0 <= 2 ^ (b mod 32) < 2 ^ 31) by (split; [apply Z.pow_nonneg; lia | apply Z.pow_lt_mono_r; lia]).
    rewrite wrap_i32_small by exact Hp2. unfold i32_as_u64. rewrite Z.mod_small by lia. rewrite Hn. cbn [bind].
    rewrite <- (Z2Nat.id (b mod 32)) by lia. rewrite is_power_of_two_pow2. rewrite <- (Z2Nat.id n) at 1 by lia. rewrite key_power_of_2_eq by lia. reflexivity.
  - rewrite radix_powers_length. split; [lia|]. intros i Hi. rewrite radix_powers_nth by exact Hi.
    rewrite <- mul_bigint_smul. f_equal. f_equal. rewrite <- Z.pow_mul_r by lia. f_equal. f_equal. lia.
Qed.

(* ===== hypotheses met, all outcomes occur ===== *)
Example C81_case_shapes : shapes_fit (firstn 16 x_gi) c79_pdk x_gi.
Proof. vm_compute. repeat split; repeat constructor. Qed.
Example C81_case_destination :
  decrypt_to_chunks_after_re_encryption Release c79_c_0 (c79_chunks [5; 0; 15]%Z) x_skd x_gi 36 = Ok [5; 0; 15] /\
  decrypt_to_chunks_after_re_encryption Release c79_c_0 (c79_chunks [5; 0; 15]%Z) x_skd x_gi 35 = Err CouldNotFindDiscreteLog /\
  decrypt_to_chunks_after_re_encryption Release c79_c_0 (c79_chunks [1; 0; 1]%Z) x_skd x_gi 64 = Ok [1; 0; 1] /\
  decrypt_to_chunks_after_re_encryption Release c79_c_0 (c79_chunks [2; 0; 1]%Z) x_skd x_gi 64 = Err CouldNotFindDiscreteLog /\
  decrypt_to_chunks_after_re_encryption Debug c79_c_0 (c79_chunks [1; 0; 1]%Z) x_skd x_gi 64 = Panic /\
  decrypt_to_chunks_after_re_encryption Debug c79_c_0 (c79_chunks [5; 0; 15]%Z) x_skd (firstn 2 x_gi) 64 = Err (VectorShorterThanExpected 3 2).
Proof. vm_compute. repeat split. Qed.
Example C81_case_powers :
  (match pdk_pairing_powers Release c79_pdk 34 x_gi with Ok table => map (@length _) table = repeat 3%nat 16 | _ => False end) /\
  pdk_pairing_powers Debug c79_pdk 34 x_gi = Panic /\ pdk_pairing_powers Debug c79_pdk 31 x_gi = Panic /\
  length (pdk_V_1 c79_pdk) = length (pdk_V_2 c79_pdk) /\ (length (pdk_V_1 c79_pdk) < 256)%nat /\ (length (pdk_V_1 c79_pdk) <= length x_gi)%nat.
Proof. vm_compute. repeat split; repeat constructor. Qed.
Example C81_case_commitment : chunks_count BLS 36 = Ok 8 /\ chunks_count BLS 64 = Ok 4 /\ 36 mod 32 <= 30 /\ 64 mod 32 <= 30.
Proof. vm_compute. repeat split; discriminate. Qed.
