(* PropUtils.v -- C01-C07 and C44: decomposition, chunk counts, commitments, fixed-base multiplication.
   Specification vocabulary: Spec.v. *)
From Verif Require Import Base BaseFacts Algebra Utils UtilsFacts WindowFacts Setup Commitment CommitmentFacts Spec Instance.

(* ===== C01 ===== *)
Theorem C01_decompose_compose_round_trip : forall (pf pf' : profile) (K : prime_field) (m : scalar K) (b : Z),
  supported b -> exists ds, decompose pf m b = Ok ds /\ compose pf' ds b = Ok m.
Proof. exact decompose_compose. Qed.

(* ===== C02 ===== *)
(* ds is THE list of that many in-range digits with that value *)
Theorem C02_decompose_is_radix_representation : forall (pf : profile) (K : prime_field) (m : scalar K) (b : Z),
  supported b ->
  exists ds, decompose pf m b = Ok ds /\ digits_ok b ds /\ radix_value b ds = into_bigint m /\
    b * Z.of_nat (length ds) = 64 * Z.of_nat (limbs K) /\
    forall ds', digits_ok b ds' -> length ds' = length ds -> radix_value b ds' = into_bigint m -> ds' = ds.
Proof.
  intros pf K m b Hb. destruct (decompose_spec pf K m b Hb) as (ds & H1 & H2 & H3 & H4).
  exists ds. repeat split; try assumption. intros ds' Hok Hl Hv.
  rewrite radix_value_horner in *. apply (horner_inj (2 ^ b)); [apply Z.pow_pos_nonneg; pose proof (supported_pos b Hb); lia | exact Hok | exact H2 | exact Hl |].
  rewrite Hv. symmetry; exact H3.
Qed.
Theorem C02_other_chunk_sizes_rejected : forall (pf : profile) (K : prime_field) (m : scalar K) (ds : list Z) (b : Z),
  ~ supported b -> decompose pf m b = Err (UnexpectedBase b) /\ @compose pf K ds b = Err (UnexpectedBase b).
Proof. intros; split; [apply decompose_unsupported | apply compose_unsupported]; assumption. Qed.

(* ===== C03 ===== *)
Theorem C03_chunks_count_is_ceiling : forall (K : prime_field) (b q : Z), 0 < b ->
  is_ceil_div (modulus_bit_size K) b q -> q <= 255 -> chunks_count K b = Ok q.
Proof.
  intros K b q Hb Hq Hle. destruct (chunks_count_exact K b Hb) as (q' & H1 & H2 & ->).
  rewrite (is_ceil_div_unique _ _ _ _ Hb Hq H1) in *. rewrite Z.mod_small by lia. reflexivity.
Qed.
Theorem C03_chunks_count_zero_panics : forall K : prime_field, chunks_count K 0 = Panic.
Proof. exact chunks_count_zero. Qed.
Theorem C03_chunks_count_agrees_with_decompose : forall (pf : profile) (K : prime_field) (m : scalar K) (b : Z) ds,
  supported b -> 64 * Z.of_nat (limbs K) < 256 * b -> decompose pf m b = Ok ds ->
  (chunks_count K b = Ok (Z.of_nat (length ds)) <-> 64 * Z.of_nat (limbs K) - b < modulus_bit_size K).
Proof. exact chunks_count_matches. Qed.
Theorem C03_bls_counts : forall (pf : profile) (m : scalar BLS) (b : Z), supported b ->
  exists ds, decompose pf m b = Ok ds /\ chunks_count BLS b = Ok (Z.of_nat (length ds)).
Proof.
  intros pf m b Hb. destruct (decompose_spec pf BLS m b Hb) as (ds & H1 & _). exists ds. split; [exact H1|].
  apply (chunks_count_matches pf BLS m b ds Hb); [|exact H1|]; cbn [limbs BLS]; rewrite ?BLS_bits; destruct Hb as [->|[->| ->]]; lia.
Qed.

(* ===== C04 ===== *)
Theorem C04_compose_in_range : forall (pf : profile) (K : prime_field) (ds : list Z) (b : Z),
  supported b -> digits_ok b ds -> (b = 4 -> Nat.Even (length ds)) ->
  @compose pf K ds b = Ok (of_Z (radix_value b ds)).
Proof. exact compose_in_range. Qed.
Theorem C04_compose_odd_rejected : forall (pf : profile) (K : prime_field) (ds : list Z),
  Nat.Odd (length ds) -> @compose pf K ds 4 = Err InvalidDecomposition.
Proof. exact compose_odd4. Qed.
Theorem C04_compose_in_range_never_panics : forall (pf : profile) (K : prime_field) (ds : list Z) (b : Z),
  digits_ok b ds -> @compose pf K ds b <> Panic.
Proof.
  intros pf K ds b Hd. destruct (Z.eq_dec b 4) as [->|H4].
  - destruct (Nat.Even_or_Odd (length ds)) as [He|Ho].
    + rewrite compose_in_range; [discriminate | left; reflexivity | exact Hd | intros _; exact He].
    + rewrite compose_odd4 by exact Ho. discriminate.
  - destruct (Z.eq_dec b 8) as [->|H8]; [rewrite compose_in_range; [discriminate | right; left; reflexivity | exact Hd | lia]|].
    destruct (Z.eq_dec b 16) as [->|H16]; [rewrite compose_in_range; [discriminate | right; right; reflexivity | exact Hd | lia]|].
    rewrite compose_unsupported; [discriminate|]. unfold supported. lia.
Qed.
(* arbitrary u16 chunks: what compose computes, exactly.  8-bit chunks are truncated to their low byte; a pair (a,b) of 4-bit
   chunks becomes the byte 16a+b modulo 256, or a panic in debug builds when (16a mod 2^16)+b overflows u16. *)
Fixpoint pair_bytes (ds : list Z) : list Z :=
  match ds with a :: b :: ds' => (16 * a + b) mod 256 :: pair_bytes ds' | _ => [] end.
Fixpoint pair_overflow (ds : list Z) : Prop :=
  match ds with a :: b :: ds' => 2 ^ 16 <= (16 * a) mod 2 ^ 16 + b \/ pair_overflow ds' | _ => False end.
Lemma compose4_steps pf ds : Nat.Even (length ds) -> Forall (fun d => 0 <= d < 2 ^ 16) ds ->
  (pf = Release \/ ~ pair_overflow ds -> mapM (compose4_step pf) (chunks2 ds) = Ok (pair_bytes ds)) /\
  (pf = Debug -> pair_overflow ds -> mapM (compose4_step pf) (chunks2 ds) = Panic).
Proof.
  induction ds as [|a|a b ds IH] using list_ind2; intros He Hr.
  - split; [reflexivity|]. cbn. intros _ [].
  - destruct He as [k Hk]. cbn in Hk. lia.
  - assert (He' : Nat.Even (length ds)) by (destruct He as [k Hk]; exists (k - 1)%nat; cbn in Hk; lia).
    inversion Hr as [|? ? Ha Hr1]; subst. inversion Hr1 as [|? ? Hb Hr2]; subst. specialize (IH He' Hr2). destruct IH as [IH1 IH2].
    cbn [chunks2 mapM pair_bytes pair_overflow].
    assert (Hstep : compose4_step pf [a; b] = if (16 * a) mod 2 ^ 16 + b <? 2 ^ 16 then Ok ((16 * a + b) mod 256)
        else match pf with Debug => Panic | Release => Ok ((16 * a + b) mod 256) end).
    { unfold compose4_step. cbn [idx nth_error bind]. unfold shl_u16, add_u16, as_u16. rewrite (Z.mul_comm a). change (2 ^ 4) with 16.
      assert (Hm : ((16 * a) mod 2 ^ 16 + b) mod 256 = (16 * a + b) mod 256).
      { rewrite Zplus_mod. rewrite <- Znumtheory.Zmod_div_mod; [|lia|lia|exists 256; reflexivity]. rewrite <- Zplus_mod. reflexivity. }
      destruct (Z.ltb_spec ((16 * a) mod 2 ^ 16 + b) (2 ^ 16)) as [Hlt|Hge]; cbn [bind].
      - unfold as_u8. change (2 ^ 8) with 256. rewrite Hm. reflexivity.
      - destruct pf; cbn [bind]; [reflexivity|]. unfold as_u8. change (2 ^ 8) with 256.
        rewrite <- Znumtheory.Zmod_div_mod; [|lia|lia|exists 256; reflexivity]. rewrite Hm. reflexivity. }
    rewrite Hstep. destruct (Z.ltb_spec ((16 * a) mod 2 ^ 16 + b) (2 ^ 16)) as [Hlt|Hge]; split.
    + intros Hc. cbn [bind]. rewrite IH1; [reflexivity|]. destruct Hc as [Hc|Hc]; [left; exact Hc|right; tauto].
    + intros Hpf [Ho|Ho]; [lia|]. cbn [bind]. rewrite IH2 by assumption. reflexivity.
    + intros [Hc|Hc]; [|exfalso; apply Hc; left; exact Hge]. rewrite Hc in *. cbn [bind]. rewrite IH1 by (left; reflexivity). reflexivity.
    + intros Hpf _. rewrite Hpf. reflexivity.
Qed.
Theorem C04_compose_any_chunks : forall (pf : profile) (K : prime_field) (ds : list Z), Forall (fun d => 0 <= d < 2 ^ 16) ds ->
  (@compose pf K ds 8 = Ok (of_Z (radix_value 8 (map (fun d => d mod 2 ^ 8) ds)))) /\
  (@compose pf K ds 16 = Ok (of_Z (radix_value 16 ds))) /\
  (Nat.Even (length ds) -> pf = Release \/ ~ pair_overflow ds -> @compose pf K ds 4 = Ok (of_Z (radix_value 8 (pair_bytes ds)))) /\
  (Nat.Even (length ds) -> pf = Debug -> pair_overflow ds -> @compose pf K ds 4 = Panic).
Proof.
  intros pf K ds Hr.
  assert (E8 : forall l, @from_be_bytes_mod_order K l = of_Z (radix_value 8 l)).
  { intros l. rewrite from_be_bytes_horner, radix_value_horner. reflexivity. }
  assert (E4 : Nat.Even (length ds) -> Nat.eqb (length ds mod 2) 1 = false).
  { intros [k Hk]. rewrite Hk, Nat.mul_comm, Nat.mod_mul by lia. reflexivity. }
  split; [|split; [|split]].
  - unfold compose. cbn [Z.eqb Pos.eqb]. rewrite E8. reflexivity.
  - apply compose_in_range; [right; right; reflexivity | exact Hr | lia].
  - intros He Hc. unfold compose. cbn [Z.eqb Pos.eqb]. rewrite E4 by exact He.
    rewrite (proj1 (compose4_steps pf ds He Hr) Hc). cbn [bind]. rewrite E8. reflexivity.
  - intros He Hpf Ho. unfold compose. cbn [Z.eqb Pos.eqb]. rewrite E4 by exact He.
    rewrite (proj2 (compose4_steps pf ds He Hr) Hpf Ho). reflexivity.
Qed.
(* so composing the chunk-wise sum of two decompositions does not give the sum of the messages *)
Definition compose_carries : Prop := forall (pf : profile) (K : prime_field) (m1 m2 : scalar K) b d1 d2,
  supported b -> decompose pf m1 b = Ok d1 -> decompose pf m2 b = Ok d2 -> Forall (fun d => d < 2 ^ 16) (chunk_add d1 d2) ->
  compose pf (chunk_add d1 d2) b = Ok (fadd m1 m2).
Theorem C04_compose_carries_refuted : ~ compose_carries /\
  @compose Release BLS (repeat 0 62 ++ [30; 30]) 4 = Ok (of_Z 254) /\ @compose Debug BLS [4095; 16] 4 = Panic.
Proof.
  split; [|split].
  - intros H.
    assert (Hd : exists d, decompose Release (@of_Z BLS 255) 8 = Ok d /\ d = repeat 0 31 ++ [255]) by (eexists; split; vm_compute; reflexivity).
    destruct Hd as (d & Hd & Ed).
    specialize (H Release BLS (of_Z 255) (of_Z 255) 8 d d ltac:(right; left; reflexivity) Hd Hd).
    assert (Hr : Forall (fun d => d < 2 ^ 16) (chunk_add d d)) by (rewrite Ed; cbn; repeat constructor; lia).
    specialize (H Hr). rewrite Ed in H.
    assert (Hc : @compose Release BLS (chunk_add (repeat 0 31 ++ [255]) (repeat 0 31 ++ [255])) 8 = Ok (of_Z 254)) by (vm_compute; reflexivity).
    rewrite Hc in H. injection H as H. vm_compute in H. discriminate.
  - vm_compute. reflexivity.
  - vm_compute. reflexivity.
Qed.

(* ===== C05 ===== *)
Theorem C05_chunked_commitment_commits_to_message :
  forall (pf : profile) (K : prime_field) (G : group K) (b : Z) (m r : scalar K) (gens : chunked_commitment_gens G),
  supported b -> 64 * Z.of_nat (limbs K) - b < modulus_bit_size K -> 64 * Z.of_nat (limbs K) < 256 * b ->
  exists n key,
    chunks_count K b = Ok (Z.of_nat n) /\ length key = (n + 1)%nat /\ commitment_key pf gens b = Ok key /\
    chunked_commitment_new pf m r b gens = Ok ((m [*] cg_G gens) [+] (r [*] cg_H gens), key) /\
    get_commitment_given_commitment_key pf m r b key = Ok ((m [*] cg_G gens) [+] (r [*] cg_H gens)).
Proof.
  intros pf K G b m r gens Hb H1 H2. apply chunked_commitment_value; [exact Hb|]. unfold chunk_compatible. lia.
Qed.
Theorem C05_chunked_commitment_bls :
  forall (pf : profile) (G : group BLS) (b : Z) (m r : scalar BLS) (gens : chunked_commitment_gens G), supported b ->
  exists key, commitment_key pf gens b = Ok key /\
    chunked_commitment_new pf m r b gens = Ok ((m [*] cg_G gens) [+] (r [*] cg_H gens), key) /\
    get_commitment_given_commitment_key pf m r b key = Ok ((m [*] cg_G gens) [+] (r [*] cg_H gens)).
Proof.
  intros pf G b m r gens Hb. destruct (chunked_commitment_value pf b m r gens Hb) as (n & key & _ & _ & H1 & H2 & H3).
  - unfold chunk_compatible. cbn [limbs BLS]. rewrite BLS_bits. destruct Hb as [->|[->| ->]]; lia.
  - exists key. auto.
Qed.

(* ===== C06 ===== *)
(* the i-th of n key elements is 2^(b(n-1-i)) G, followed by H *)
Theorem C06_commitment_key_is_radix_powers :
  forall (pf : profile) (K : prime_field) (G : group K) (gens : chunked_commitment_gens G) (b n : Z),
  1 <= b <= 30 -> chunks_count K b = Ok n -> 1 <= n ->
  exists key, commitment_key pf gens b = Ok (key ++ [cg_H gens]) /\ Z.of_nat (length key) = n /\
    forall i, (i < length key)%nat -> nth_error key i = Some (mul_bigint (cg_G gens) (2 ^ (b * (n - 1 - Z.of_nat i)))).
Proof.
  intros pf K G gens b n Hb Hn Hn1. exists (radix_powers (2 ^ b) (Z.to_nat n) (cg_G gens)). split; [apply commitment_key_spec; assumption|].
  rewrite radix_powers_length. split; [lia|]. intros i Hi. rewrite radix_powers_nth by exact Hi.
  rewrite <- mul_bigint_smul. f_equal. f_equal. rewrite <- Z.pow_mul_r by lia. f_equal. f_equal. lia.
Qed.
Theorem C06_key_constructions_agree : forall (K : prime_field) (G : group K) (g : G) (n k : Z), 1 <= n -> 0 <= k ->
  commitment_key_for_radix_non_power_of_2 g n (2 ^ k) = Ok (commitment_key_for_radix_power_of_2 g n (2 ^ k)).
Proof. intros K G g n k. apply key_constructions_agree. Qed.
(* b = 31: the key is not the radix-2^31 key *)
Theorem C06_commitment_key_31_refuted :
  forall (pf : profile) (K : prime_field) (G : group K) (gens : chunked_commitment_gens G) (n : Z),
  65537 < modulus K -> cg_G gens <> gzero -> chunks_count K 31 = Ok n -> 2 <= n ->
  exists key, commitment_key pf gens 31 = Ok key /\
    key <> map (fun i => mul_bigint (cg_G gens) ((2 ^ 31) ^ Z.of_nat (Z.to_nat n - 1 - i))) (seq 0 (Z.to_nat n)) ++ [cg_H gens].
Proof.
  intros pf K G gens n Hp HG Hn Hn2. eexists. split; [apply (commitment_key_31 pf gens n Hn); lia|].
  intros Heq. apply (commitment_key_31_wrong pf gens n Hp HG Hn Hn2). rewrite (commitment_key_31 pf gens n Hn) by lia. rewrite Heq. do 2 f_equal.
  unfold radix_powers. apply map_ext. intros i. apply mul_bigint_smul.
Qed.
Theorem C06_commitment_key_32_panics : forall (K : prime_field) (G : group K) (gens : chunked_commitment_gens G) (b : Z),
  32 <= b -> commitment_key Debug gens b = Panic.
Proof. intros K G gens b. apply commitment_key_debug_panic. Qed.

(* ===== C07 ===== *)
Definition blinding_always_matters : Prop :=
  forall (pf : profile) (K : prime_field) (G : group K) (b : Z) (m r1 r2 : scalar K) (gens : chunked_commitment_gens G),
  supported b -> cg_H gens <> gzero -> r1 <> r2 ->
  chunked_commitment_new pf m r1 b gens <> chunked_commitment_new pf m r2 b gens.
(* the general reason *)
Theorem C07_blinding_dropped : forall (pf : profile) (K : prime_field) (G : group K) (b : Z) (m r1 r2 : scalar K) (gens : chunked_commitment_gens G),
  supported b -> modulus_bit_size K <= 64 * Z.of_nat (limbs K) - b ->
  chunked_commitment_new pf m r1 b gens = chunked_commitment_new pf m r2 b gens /\
  exists c, chunked_commitment_new pf m r1 b gens = Ok c.
Proof. intros pf K G b m r1 r2 gens. apply blinding_dropped. Qed.
Theorem C07_blinding_always_matters_refuted : ~ blinding_always_matters.
Proof.
  intros H.
  apply (H Release M31 (AddGroup M31) 4 (of_Z 5) (of_Z 1) (of_Z 2) (@ChunkedCommitmentGens M31 (AddGroup M31) (of_Z 3) (of_Z 7))).
  - left; reflexivity.
  - intros E. apply (f_equal sval) in E. vm_compute in E. discriminate.
  - intros E. apply (f_equal sval) in E. vm_compute in E. discriminate.
  - apply blinding_dropped; [left; reflexivity | vm_compute; discriminate].
Qed.
(* where the lengths agree (BLS12-381 and every supported chunk size), it does matter *)
Theorem C07_blinding_matters_when_lengths_agree :
  forall (pf : profile) (K : prime_field) (G : group K) (b : Z) (m r1 r2 : scalar K) (gens : chunked_commitment_gens G),
  supported b -> 64 * Z.of_nat (limbs K) - b < modulus_bit_size K -> 64 * Z.of_nat (limbs K) < 256 * b ->
  cg_H gens <> gzero -> r1 <> r2 ->
  chunked_commitment_new pf m r1 b gens <> chunked_commitment_new pf m r2 b gens.
Proof.
  intros pf K G b m r1 r2 gens Hb H1 H2 HH Hr Heq.
  assert (Hc : chunk_compatible K b) by (unfold chunk_compatible; lia).
  destruct (chunked_commitment_value pf b m r1 gens Hb Hc) as (n1 & k1 & _ & _ & _ & E1 & _).
  destruct (chunked_commitment_value pf b m r2 gens Hb Hc) as (n2 & k2 & _ & _ & _ & E2 & _).
  rewrite E1, E2 in Heq. injection Heq as Heq _. apply gadd_cancel_l in Heq. apply Hr. apply (smul_inj_scalar _ _ _ HH Heq).
Qed.

(* ===== C44 ===== *)
Theorem C44_fixed_base_multiplication : forall (K : prime_field) (G : group K) (g : G) (xs : list (scalar K)),
  multiply_field_elems_with_same_group_elem g xs = Ok (map (fun x => x [*] g) xs).
Proof. intros K G g xs. apply multiply_field_elems_correct. Qed.
Theorem C44_hint_does_not_matter : forall (K : prime_field) (G : group K) (hint : nat) (g : G) (x : scalar K) (xs : list (scalar K)),
  window_table_multiply (window_table_new hint g) x = Ok (x [*] g) /\
  window_table_multiply_many (window_table_new hint g) xs = Ok (map (fun x => x [*] g) xs).
Proof. intros K G hint g x xs. split; [apply window_multiply_correct | apply window_multiply_many_correct]. Qed.

(* ----- concrete cases meeting the hypotheses ----- *)
Example ex_supported : supported 4 /\ supported 8 /\ supported 16 /\ ~ supported 5.
Proof. unfold supported. repeat split; try lia. Qed.
Example ex_bls_compatible : forall b, supported b -> 64 * Z.of_nat (limbs BLS) - b < modulus_bit_size BLS /\ 64 * Z.of_nat (limbs BLS) < 256 * b.
Proof. intros b Hb. cbn [limbs BLS]. rewrite BLS_bits. destruct Hb as [->|[->| ->]]; lia. Qed.
Example ex_decompose : decompose Debug (@of_Z BLS (2 ^ 100 + 77)) 16 = Ok (repeat 0 9 ++ [16; 0; 0; 0; 0; 0; 77]).
Proof. vm_compute. reflexivity. Qed.
Example ex_counts : chunks_count BLS 4 = Ok 64 /\ chunks_count BLS 8 = Ok 32 /\ chunks_count BLS 16 = Ok 16 /\ chunks_count BLS 31 = Ok 9 /\
  is_ceil_div 255 16 16.
Proof. repeat split; vm_compute; try reflexivity; discriminate. Qed.
Example ex_dropped_field : modulus_bit_size M31 <= 64 * Z.of_nat (limbs M31) - 4.
Proof. vm_compute. discriminate. Qed.
Example ex_key31 : 65537 < modulus BLS /\ chunks_count BLS 31 = Ok 9.
Proof. split; vm_compute; reflexivity. Qed.
