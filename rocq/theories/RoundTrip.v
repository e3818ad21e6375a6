(* RoundTrip.v -- encryption followed by decryption (C12, C13), precomputed pairing powers (C15, C16), and the
   commitment to the randomness (C17) *)
From Verif Require Import Base BaseFacts Algebra Utils UtilsFacts CommitmentFacts Setup Keygen KeygenFacts Encryption
  EncryptFacts DecryptFacts Spec KeySpec VecFacts.

Section RoundTrip.
Context {E : pairing}.
Add Ring Kr : (@scalar_ring_theory (K_of E)).

Lemma max_chunk_small b : 1 <= b <= 16 -> max_chunk b = 2 ^ b - 1.
Proof. intros Hb. unfold max_chunk. rewrite Z.min_l by lia. reflexivity. Qed.

(* everything about an honest encryption in one place *)
Theorem encrypt_chunks_honest (R : rng_impl E) b gens g_i delta gamma sk ek dk m st ct r st' :
  from_keygen b gens g_i delta gamma sk ek dk ->
  encrypt_decomposed_message R m ek g_i st = Ok (ct, r, st') ->
  exists n s t0 t v, chunks_count (K_of E) b = Ok (Z.of_nat n) /\ (n <= length g_i)%nat /\ (n < 256)%nat /\
    length s = n /\ length t = n /\ length v = n /\ length m = n /\
    ek = ek_formula gens g_i delta gamma s t0 t /\ dk = dk_formula gens sk s v /\
    ct = ct_vec (ct_formula ek g_i m r) /\ (r, st') = rand_scalar R st.
Proof.
  intros Hk Henc. apply from_keygen_inv in Hk.
  destruct Hk as (n & s & t0 & t & v & Hn & Hg & H256 & Hs & Ht & Hv & -> & ->).
  exists n, s, t0, t, v.
  destruct (ek_formula_lengths gens g_i delta gamma s t0 t n Hs Ht Hg) as (HX & HY & HZ). cbv zeta in HX, HY, HZ.
  rewrite encrypt_chunks_total in Henc. cbv zeta in Henc. rewrite HX, HY, HZ, !Nat.eqb_refl in Henc. cbn [negb] in Henc.
  rewrite Nat.mod_small in Henc by exact H256.
  destruct (Nat.eqb_spec (length m) n) as [Hm|Hm]; cbn [negb] in Henc; [|discriminate].
  destruct (length g_i <? length m)%nat; [discriminate|].
  destruct (n <? 256)%nat; [|discriminate].
  injection Henc as <- <- <-.
  repeat match goal with |- _ /\ _ => split end; try assumption; try reflexivity.
  destruct (rand_scalar R st); reflexivity.
Qed.

Lemma ct_vec_shape (ct : ciphertext E) : ct_vec ct = ct_X_r ct :: ct_enc_chunks ct ++ [ct_commitment ct].
Proof. reflexivity. Qed.

Theorem chunk_round_trip pf (R : rng_impl E) b gens g_i delta gamma sk ek dk m st c_0 c psi r st' b' :
  from_keygen b gens g_i delta gamma sk ek dk -> nondegenerate dk g_i (length m) ->
  encrypt_decomposed_message R m ek g_i st = Ok (c_0 :: c ++ [psi], r, st') ->
  1 <= b' <= 16 -> 2 ^ b' <= modulus (K_of E) -> Forall (fun z => 0 <= z < 2 ^ b') m ->
  decrypt_to_chunks pf c_0 c sk (prepare_dk dk) g_i b' = Ok (m, sk [*] c_0).
Proof.
  intros Hk Hnd Henc Hb Hp Hm.
  destruct (encrypt_chunks_honest R b gens g_i delta gamma sk ek dk m st _ r st' Hk Henc)
    as (n & s & t0 & t & v & Hn & Hg & H256 & Hs & Ht & Hv & Hlm & Hek & Hdk & Hct & Hr).
  injection Hct as E0 E1. apply app_inj_tail in E1. destruct E1 as [E1 E2].
  rewrite Hdk in *. rewrite Hlm, <- Hs in Hnd.
  apply decrypt_exact; try assumption; try lia.
  - rewrite max_chunk_small by lia. lia.
  - rewrite E0, E1, Hek. split; [|split; [|reflexivity]].
    + apply (honest_body_opens gens g_i delta gamma s t0 t m r); [lia|].
      eapply Forall_impl; [|exact Hm]. cbn; intros; lia.
    + eapply Forall_impl; [|exact Hm]. intros z Hz. cbn in Hz. rewrite max_chunk_small by lia. lia.
Qed.

(* encrypt: when it succeeds, and what it returns *)
Theorem encrypt_outcome pf (R : rng_impl E) b gens g_i delta gamma sk ek dk (msg : Fr E) st :
  from_keygen b gens g_i delta gamma sk ek dk -> supported b -> chunk_compatible (K_of E) b ->
  exists ct r st', encrypt pf R msg ek g_i b st = Ok (ct, r, st') /\ (r, st') = rand_scalar R st.
Proof.
  intros Hk Hb Hc. apply from_keygen_inv in Hk.
  destruct Hk as (n & s & t0 & t & v & Hn & Hg & H256 & Hs & Ht & Hv & -> & ->).
  destruct (decompose_spec pf (K_of E) msg b Hb) as (ds & Hd & Hdr & Hdv & Hdl).
  destruct (compatible_count pf b msg ds Hb Hc Hd) as [Hcnt Hpos].
  rewrite Hn in Hcnt. injection Hcnt as Hcnt. apply Nat2Z.inj in Hcnt.
  destruct (ek_formula_lengths gens g_i delta gamma s t0 t n Hs Ht Hg) as (HX & HY & HZ). cbv zeta in HX, HY, HZ.
  unfold encrypt. rewrite Hd. cbn [bind]. rewrite encrypt_chunks_ok by lia. cbn [bind].
  rewrite ct_of_vec_ct_vec. cbn [bind]. eexists _, _, _. split; [reflexivity|].
  destruct (rand_scalar R st); reflexivity.
Qed.

Lemma encrypt_inv pf (R : rng_impl E) (msg : Fr E) ek g_i b st ct r st' :
  encrypt pf R msg ek g_i b st = Ok (ct, r, st') ->
  exists ds, decompose pf msg b = Ok ds /\ encrypt_decomposed_message R ds ek g_i st = Ok (ct_vec ct, r, st').
Proof.
  unfold encrypt. intros H. destruct (decompose pf msg b) as [ds|e|]; cbn [bind] in H; try discriminate.
  exists ds. split; [reflexivity|].
  destruct (encrypt_decomposed_message R ds ek g_i st) as [[[v r1] st1]|e|]; cbn [bind] in H; try discriminate.
  destruct v as [|x rest]; cbn [ct_of_vec bind] in H; [discriminate|].
  destruct (rev rest) as [|psi cs] eqn:Er; cbn [bind] in H; [discriminate|].
  injection H as <- <- <-. unfold ct_vec; cbn [ct_X_r ct_enc_chunks ct_commitment].
  do 3 f_equal. f_equal. rewrite <- (rev_involutive rest), Er. reflexivity.
Qed.

Lemma supported_range b : supported b -> 1 <= b <= 16.
Proof. intros [->|[->| ->]]; lia. Qed.

Theorem message_round_trip pf pf' (R : rng_impl E) b gens g_i delta gamma sk ek dk (msg : Fr E) st ct r st' :
  from_keygen b gens g_i delta gamma sk ek dk -> nondegenerate dk g_i (length (dk_V_2 dk)) ->
  supported b -> 2 ^ b <= modulus (K_of E) ->
  encrypt pf R msg ek g_i b st = Ok (ct, r, st') ->
  ct_decrypt pf' ct sk (prepare_dk dk) g_i b = Ok (msg, sk [*] ct_X_r ct).
Proof.
  intros Hk Hnd Hb Hp Henc.
  destruct (encrypt_inv pf R msg ek g_i b st ct r st' Henc) as (ds & Hd & Hv).
  destruct (decompose_spec pf (K_of E) msg b Hb) as (ds' & Hd' & Hdr & Hdv & Hdl).
  rewrite Hd in Hd'. injection Hd' as <-.
  assert (Hlen : length ds = length (dk_V_2 dk)).
  { destruct (encrypt_chunks_honest R b gens g_i delta gamma sk ek dk ds st _ r st' Hk Hv)
    as (n & s & t0 & t & v & _ & _ & _ & Hs & Ht & Hlv & Hlm & _ & -> & _).
    cbn. rewrite map_length. lia. }
  rewrite <- Hlen in Hnd. rewrite ct_vec_shape in Hv.
  unfold ct_decrypt, decrypt.
  rewrite (chunk_round_trip pf' R b gens g_i delta gamma sk ek dk ds st _ _ _ r st' b Hk Hnd Hv) ;
    [|apply supported_range; exact Hb | exact Hp | exact Hdr].
  cbn [bind]. destruct (decompose_compose pf pf' (K_of E) msg b Hb) as (ds'' & Hd'' & Hcomp).
  rewrite Hd in Hd''. injection Hd'' as <-. rewrite Hcomp. reflexivity.
Qed.

(* ---------- precomputed pairing powers ---------- *)
Lemma powers_loop_length steps (cur base : GT E) : length (powers_loop steps cur base) = steps.
Proof. revert cur; induction steps as [|st IH]; intros cur; cbn; [reflexivity|]. now rewrite IH. Qed.
Lemma powers_loop_nth steps (base : GT E) : forall k j, (j < steps)%nat ->
  nth_error (powers_loop steps (mul_bigint base (Z.of_nat k)) base) j = Some (mul_bigint base (Z.of_nat (k + j + 1))).
Proof.
  induction steps as [|st IH]; intros k j Hj; [lia|]. cbn [powers_loop].
  assert (Hstep : mul_bigint base (Z.of_nat k) [+] base = mul_bigint base (Z.of_nat (S k))).
  { rewrite Nat2Z.inj_succ, mul_bigint_succ. apply gadd_comm. }
  rewrite Hstep. destruct j as [|j]; cbn [nth_error].
  - do 3 f_equal. lia.
  - rewrite IH by lia. do 3 f_equal. lia.
Qed.
Definition powers_row (steps : nat) (base : GT E) : list (GT E) := base :: powers_loop steps base base.
Lemma powers_row_nth steps base j : (j <= steps)%nat ->
  nth_error (powers_row steps base) j = Some (mul_bigint base (Z.of_nat j + 1)).
Proof.
  intros Hj. unfold powers_row. destruct j as [|j]; cbn [nth_error].
  - reflexivity.
  - rewrite <- (mul_bigint_1 base) at 1. change 1 with (Z.of_nat 1) at 1. rewrite powers_loop_nth by lia. do 2 f_equal. lia.
Qed.
Lemma powers_row_length steps base : length (powers_row steps base) = S steps.
Proof. unfold powers_row. cbn [length]. now rewrite powers_loop_length. Qed.

(* the search in a row of L entries: the first match wins; running off the end of the row panics *)
Lemma powers_search_spec steps : forall j (row : list (GT E)) p, Z.of_nat (j + steps) <= 65536 -> (j <= length row)%nat ->
  (exists k, powers_search steps j (Ok row) p = Ok (Z.of_nat k + 1) /\ (j <= k < j + steps)%nat /\
     nth_error row k = Some p /\ forall k', (j <= k' < k)%nat -> nth_error row k' <> Some p) \/
  ((forall k, (j <= k < j + steps)%nat -> nth_error row k <> Some p) /\
   powers_search steps j (Ok row) p = if (length row <? j + steps)%nat then Panic else Err CouldNotFindDiscreteLog).
Proof.
  induction steps as [|st IH]; intros j row p Hsz Hle; cbn [powers_search].
  - right. split; [intros; lia|]. destruct (Nat.ltb_spec (length row) (j + 0)); [lia|reflexivity].
  - cbn [bind]. destruct (Nat.ltb_spec (length row) j); [lia|].
    destruct (Nat.eq_dec j (length row)) as [Ej|Ej].
    + rewrite idx_ge by lia. cbn [bind]. right. split.
      * intros k Hk Hn. assert ((k < length row)%nat) by (apply nth_error_Some; congruence). lia.
      * destruct (Nat.ltb_spec (length row) (j + S st)); [reflexivity|lia].
    + destruct (idx_lt row j) as (x & Hx & Hx'); [lia|]. rewrite Hx. cbn [bind].
      destruct (geqb x p) eqn:Eq.
      * apply geqb_spec in Eq. subst x. left. exists j. rewrite as_u16_small by lia.
        repeat split; [lia | lia | exact Hx' | intros; lia].
      * apply geqb_false in Eq.
        destruct (IH (S j) row p) as [(k & Hk & Hr & Hv & Hmin)|(Hno & Hk)]; [lia | lia | |].
        -- left. exists k. split; [exact Hk|]. split; [lia|]. split; [exact Hv|].
           intros k' Hk'. destruct (Nat.eq_dec k' j) as [->|]; [congruence|]. apply Hmin; lia.
        -- right. split.
           ++ intros k Hk'. destruct (Nat.eq_dec k j) as [->|]; [congruence|]. apply Hno; lia.
           ++ rewrite Hk. replace (S j + st)%nat with (j + S st)%nat by lia. reflexivity.
Qed.

Lemma powers_search_full M steps (base p : GT E) : 1 <= M <= 65535 -> (Z.to_nat M <= S steps)%nat ->
  powers_search (Z.to_nat M) 0 (Ok (powers_row steps base)) p = solve_discrete_log M base p.
Proof.
  intros HM Hlen.
  destruct (powers_search_spec (Z.to_nat M) 0 (powers_row steps base) p) as [(k & Hk & Hr & Hv & Hmin)|(Hno & Hk)]; [lia | lia | |];
  destruct (solve_dlog_spec M base p) as [(k2 & Hk2 & Hr2 & Hv2 & Hmin2)|(Hk2 & Hno2)]; rewrite Hk, Hk2.
  - rewrite powers_row_nth in Hv by lia. injection Hv as Hv.
    f_equal. destruct (Z.lt_trichotomy (Z.of_nat k + 1) k2) as [Hlt|[Heq|Hgt]]; [|exact Heq|].
    + exfalso. apply (Hmin2 (Z.of_nat k + 1)); [lia|exact Hv].
    + exfalso. apply (Hmin (Z.to_nat (k2 - 1))); [lia|]. rewrite powers_row_nth by lia.
      f_equal. rewrite Z2Nat.id by lia. replace (k2 - 1 + 1) with k2 by lia. exact Hv2.
  - exfalso. rewrite powers_row_nth in Hv by lia. injection Hv as Hv. apply (Hno2 (Z.of_nat k + 1)); [lia|exact Hv].
  - exfalso. apply (Hno (Z.to_nat (k2 - 1))); [lia|]. rewrite powers_row_nth by lia.
    f_equal. rewrite Z2Nat.id by lia. replace (k2 - 1 + 1) with k2 by lia. exact Hv2.
  - rewrite powers_row_length. destruct (Nat.ltb_spec (S steps) (0 + Z.to_nat M)); [lia|reflexivity].
Qed.

(* what the table is *)
Lemma pairing_powers_inv pf (dk : prepared_decryption_key E) b g_i table : 1 <= b <= 30 ->
  pdk_pairing_powers pf dk b g_i = Ok table ->
  length (pdk_V_2 dk) = length (pdk_V_1 dk) /\ length table = (length (pdk_V_1 dk) mod 256)%nat /\
  forall i row, nth_error table i = Some row -> exists g v, nth_error g_i i = Some g /\ nth_error (pdk_V_2 dk) i = Some v /\
    row = powers_row (Z.to_nat (2 ^ b - 2)) (pair g v).
Proof.
  intros Hb. unfold pdk_pairing_powers, pdk_supported_chunks_count, dec_supported_chunks_count.
  destruct (Nat.eqb_spec (length (pdk_V_2 dk)) (length (pdk_V_1 dk))) as [E12|]; cbn [negb bind]; [|discriminate].
  unfold one_shl_i32. destruct (Z.ltb_spec b 32); [|lia]. cbn [bind].
  assert (Hp : 2 <= 2 ^ b <= 2 ^ 30) by (split; [apply (Z.pow_le_mono_r 2 1 b); lia | apply Z.pow_le_mono_r; lia]).
  rewrite wrap_i32_small by lia. unfold sub_i32.
  destruct (Z.leb_spec (- 2 ^ 31) (2 ^ b - 1)); [|lia]. destruct (Z.ltb_spec (2 ^ b - 1) (2 ^ 31)); [|lia]. cbn [andb bind].
  intros Hmap. apply mapM_seq_elim in Hmap. destruct Hmap as [Hlen Hrow].
  assert (Hu8 : Z.to_nat (as_u8 (Z.of_nat (length (pdk_V_1 dk)))) = (length (pdk_V_1 dk) mod 256)%nat).
  { unfold as_u8. change (2 ^ 8) with (Z.of_nat 256). rewrite <- Nat2Z.inj_mod, Nat2Z.id. reflexivity. }
  split; [exact E12|]. split; [rewrite Hlen; exact Hu8|].
  intros i row Hi. specialize (Hrow i row Hi). cbn [Nat.add] in Hrow.
  apply bind_Ok_inv in Hrow. destruct Hrow as (g & Hg & Hrow). apply bind_Ok_inv in Hrow. destruct Hrow as (v & Hv & Hrow).
  apply idx_Ok_iff in Hg, Hv. exists g, v. split; [exact Hg|]. split; [exact Hv|].
  injection Hrow as <-. unfold powers_row. do 3 f_equal. lia.
Qed.

(* the loop body with a table *)
Definition chunk_step_pp (M : Z) (c : list (G1 E)) (c_0_rho : G1 E) (V1 V2 : list (G2Prepared E)) (g_i : list (G1 E))
    (table : list (list (GT E))) (i : nat) : outcome Z :=
  ci <- idx c i ;;
  v2 <- idx V2 i ;;
  v1 <- idx V1 i ;;
  p <- multi_pairing [ci; c_0_rho] [v2; v1] ;;
  if gis_zero p then Ok 0
  else if Nat.eqb (length table) 0
    then g <- idx g_i i ;; solve_discrete_log M (pair g v2) p
    else solve_discrete_log_using_pairing_powers i M p table.

Lemma decrypt_with_table_unfold pf c_0 c sk (dk : prepared_decryption_key E) g_i b table :
  decrypt_to_chunks_given_pairing_powers pf c_0 c sk dk g_i b (Some table) =
  (cnt <- pdk_supported_chunks_count dk ;;
   if negb (Nat.eqb (length c) (Z.to_nat cnt)) then Err (IncompatibleDecryptionKey (length c) (Z.to_nat cnt))
   else if (length g_i <? length c)%nat then Err (VectorShorterThanExpected (length c) (length g_i))
   else one_shl <- one_shl_u32 pf b ;;
   ms <- mapM (chunk_step_pp (as_u16 (one_shl - 1)) c (mul_bigint c_0 (into_bigint (fneg sk))) (pdk_V_1 dk) (pdk_V_2 dk) g_i table)
      (seq 0 (length c)) ;;
   Ok (ms, [-] mul_bigint c_0 (into_bigint (fneg sk)))).
Proof. reflexivity. Qed.

Theorem pairing_powers_equiv pf pf' (dk : prepared_decryption_key E) b g_i table c_0 c sk : 1 <= b <= 30 ->
  pdk_pairing_powers pf dk b g_i = Ok table ->
  decrypt_to_chunks_given_pairing_powers pf' c_0 c sk dk g_i b (Some table) = decrypt_to_chunks pf' c_0 c sk dk g_i b.
Proof.
  intros Hb Ht. destruct (pairing_powers_inv pf dk b g_i table Hb Ht) as (E12 & Hlen & Hrow).
  rewrite decrypt_with_table_unfold, decrypt_to_chunks_unfold.
  unfold pdk_supported_chunks_count, dec_supported_chunks_count. rewrite E12, Nat.eqb_refl. cbn [negb bind].
  assert (Hu8 : Z.to_nat (as_u8 (Z.of_nat (length (pdk_V_1 dk)))) = (length (pdk_V_1 dk) mod 256)%nat).
  { unfold as_u8. change (2 ^ 8) with (Z.of_nat 256). rewrite <- Nat2Z.inj_mod, Nat2Z.id. reflexivity. }
  rewrite Hu8. destruct (Nat.eqb_spec (length c) (length (pdk_V_1 dk) mod 256)) as [Hc|Hc]; cbn [negb]; [|reflexivity].
  destruct (Nat.ltb_spec (length g_i) (length c)) as [Hg|Hg]; [reflexivity|].
  destruct (max_chunk_eq pf' b ltac:(lia)) as (z & Hz & HMz). rewrite Hz. cbn [bind]. rewrite HMz.
  match goal with |- (_ <- ?a ;; _) = (_ <- ?b ;; _) => assert (Hm : a = b); [|rewrite Hm; reflexivity] end.
  apply mapM_ext. intros i Hi. apply in_seq in Hi. unfold chunk_step_pp, chunk_step.
  destruct (nth_error table i) as [row|] eqn:Hnth.
  2:{ apply nth_error_None in Hnth. lia. }
  destruct (Hrow i row Hnth) as (g & v & Hg' & Hv & ->).
  rewrite (idx_nth_error _ _ _ Hv), (idx_nth_error _ _ _ Hg').
  destruct (idx c i) as [ci|e|]; cbn [bind]; [|reflexivity..].
  destruct (idx (pdk_V_1 dk) i) as [v1|e|]; cbn [bind]; [|reflexivity..].
  destruct (multi_pairing _ _) as [p|e|]; cbn [bind]; [|reflexivity..].
  destruct (gis_zero p); [reflexivity|].
  destruct (Nat.eqb_spec (length table) 0); [lia|].
  unfold solve_discrete_log_using_pairing_powers. destruct (Nat.ltb_spec (length table) i); [lia|].
  rewrite (idx_nth_error _ _ _ Hnth).
  pose proof (max_chunk_pos b ltac:(lia)) as Hpos.
  assert (Hmax : max_chunk b <= 65535 /\ max_chunk b <= 2 ^ b - 1).
  { unfold max_chunk. assert (2 ^ Z.min b 16 <= 2 ^ 16) by (apply Z.pow_le_mono_r; lia).
    assert (2 ^ Z.min b 16 <= 2 ^ b) by (apply Z.pow_le_mono_r; lia). lia. }
  apply powers_search_full; lia.
Qed.

(* the whole decryption *)
Corollary pairing_powers_equiv_decrypt pf pf' (dk : decryption_key E) b g_i table ct sk : 1 <= b <= 30 ->
  dk_pairing_powers pf dk b g_i = Ok table ->
  ct_decrypt_given_pairing_powers pf' ct sk (prepare_dk dk) g_i b table = ct_decrypt pf' ct sk (prepare_dk dk) g_i b.
Proof.
  intros Hb Ht. unfold ct_decrypt_given_pairing_powers, decrypt_given_pairing_powers, ct_decrypt, decrypt.
  rewrite (pairing_powers_equiv pf pf' (prepare_dk dk) b g_i table) by assumption. reflexivity.
Qed.

(* honest keys always have a table *)
Theorem pairing_powers_exist pf b b' gens g_i delta gamma sk ek dk :
  @from_keygen E b gens g_i delta gamma sk ek dk -> 1 <= b' <= 30 ->
  exists table, dk_pairing_powers pf dk b' g_i = Ok table.
Proof.
  intros Hk Hb. apply from_keygen_inv in Hk.
  destruct Hk as (n & s & t0 & t & v & Hn & Hg & H256 & Hs & Ht & Hv & -> & ->).
  unfold dk_pairing_powers, pdk_pairing_powers. rewrite pdk_count_formula by lia. cbn [bind].
  unfold one_shl_i32. destruct (Z.ltb_spec b' 32); [|lia]. cbn [bind].
  assert (Hp : 2 <= 2 ^ b' <= 2 ^ 30) by (split; [apply (Z.pow_le_mono_r 2 1 b'); lia | apply Z.pow_le_mono_r; lia]).
  rewrite wrap_i32_small by lia. unfold sub_i32.
  destruct (Z.leb_spec (- 2 ^ 31) (2 ^ b' - 1)); [|lia]. destruct (Z.ltb_spec (2 ^ b' - 1) (2 ^ 31)); [|lia]. cbn [andb bind].
  rewrite Nat2Z.id.
  match goal with |- exists table, mapM ?f ?l = Ok table =>
    assert (Hf : forall i, In i l -> exists row, f i = Ok row) end.
  { intros i Hi. apply in_seq in Hi.
    destruct (idx_lt g_i i) as (g & -> & _); [lia|]. cbn [bind].
    destruct (idx_lt (pdk_V_2 (prepare_dk (dk_formula gens sk s v))) i) as (q & -> & _).
    { unfold prepare_dk, dk_formula. cbn [pdk_V_2 dk_V_2]. rewrite !map_length. lia. }
    cbn [bind]. eauto. }
  revert Hf. generalize (seq 0 (length s)). intros l. induction l as [|i l IH]; intros Hf; [exists []; reflexivity|].
  cbn [mapM]. destruct (Hf i (or_introl eq_refl)) as (row & ->). cbn [bind].
  destruct IH as (rows & ->); [intros j Hj; apply Hf; right; exact Hj|]. cbn [bind]. eauto.
Qed.

(* ---------- malformed tables: the exact behaviour ---------- *)
(* one lookup *)
Theorem lookup_exact i M (p : GT E) table : 1 <= M <= 65535 ->
  ((length table < i)%nat -> solve_discrete_log_using_pairing_powers i M p table = Err InvalidPairingPowers) /\
  (length table = i -> solve_discrete_log_using_pairing_powers i M p table = Panic) /\
  (forall row, nth_error table i = Some row ->
     (exists k, solve_discrete_log_using_pairing_powers i M p table = Ok (Z.of_nat k + 1) /\ Z.of_nat k < M /\
        nth_error row k = Some p /\ forall k', (k' < k)%nat -> nth_error row k' <> Some p) \/
     ((forall k, Z.of_nat k < M -> nth_error row k <> Some p) /\
      solve_discrete_log_using_pairing_powers i M p table =
        if Z.of_nat (length row) <? M then Panic else Err CouldNotFindDiscreteLog)).
Proof.
  intros HM. unfold solve_discrete_log_using_pairing_powers. split; [|split].
  - intros H. destruct (Nat.ltb_spec (length table) i); [reflexivity|lia].
  - intros H. destruct (Nat.ltb_spec (length table) i); [lia|]. rewrite idx_ge by lia.
    destruct (Z.to_nat M) as [|k] eqn:EM; [lia|]. reflexivity.
  - intros row Hrow. assert ((i < length table)%nat) by (apply nth_error_Some; congruence).
    destruct (Nat.ltb_spec (length table) i); [lia|]. rewrite (idx_nth_error _ _ _ Hrow).
    destruct (powers_search_spec (Z.to_nat M) 0 row p) as [(k & Hk & Hr & Hv & Hmin)|(Hno & Hk)]; [lia | lia | |].
    + left. exists k. rewrite Hk. split; [reflexivity|]. split; [lia|]. split; [exact Hv|]. intros k' Hk'. apply Hmin; lia.
    + right. split; [intros k Hk'; apply Hno; lia|]. rewrite Hk.
      destruct (Nat.ltb_spec (length row) (0 + Z.to_nat M)); destruct (Z.ltb_spec (Z.of_nat (length row)) M); try reflexivity; lia.
Qed.
End RoundTrip.
