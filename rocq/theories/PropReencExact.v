(* PropReencExact.v -- C79: what the re-encryption functions and the search for the chunks return on arbitrary inputs *)
From Verif Require Import Base BaseFacts Algebra Utils UtilsFacts Setup Keygen KeygenFacts Encryption EncryptFacts DecryptFacts RoundTrip
  Spec KeySpec VecFacts Protocol ReencFacts DistFacts Instance Examples.

(* z is the smallest number from 0 to M with z g = p *)
Definition least_multiple {K : prime_field} {G : group K} (M : Z) (g p : G) (z : Z) : Prop :=
  0 <= z <= M /\ mul_bigint g z = p /\ forall z', 0 <= z' < z -> mul_bigint g z' <> p.

Section Search.
Context {K : prime_field} {G : group K}.
Definition search_step (M : Z) (g p : G) : outcome Z := if gis_zero p then Ok 0 else solve_discrete_log M g p.
Lemma mul_bigint_zero (g : G) : mul_bigint g 0 = gzero. Proof. reflexivity. Qed.
Lemma search_exact M (g p : G) : 1 <= M -> (forall z, search_step M g p = Ok z <-> least_multiple M g p z) /\
  (search_step M g p = Err CouldNotFindDiscreteLog <-> forall z, 0 <= z <= M -> mul_bigint g z <> p) /\
  (search_step M g p = Err CouldNotFindDiscreteLog \/ exists z, search_step M g p = Ok z).
Proof.
  intros HM. unfold search_step, least_multiple. destruct (gis_zero p) eqn:Z0.
  - unfold gis_zero in Z0. apply geqb_spec in Z0. subst p. split; [|split].
    + intros z. split.
      * intros H. assert (z = 0) by congruence. subst z. split; [lia|]. split; [apply mul_bigint_zero|]. intros z' Hz'. lia.
      * intros (Hz & _ & Hmin). f_equal. destruct (Z.eq_dec 0 z) as [->|Hne]; [reflexivity|]. exfalso. apply (Hmin 0); [lia|apply mul_bigint_zero].
    + split; [discriminate|]. intros H. exfalso. apply (H 0); [lia|apply mul_bigint_zero].
    + right. exists 0. reflexivity.
  - assert (Hp : p <> gzero). { intros ->. unfold gis_zero in Z0. assert (X : geqb (@gzero K G) gzero = true) by (apply geqb_spec; reflexivity). congruence. }
    destruct (solve_dlog_spec M g p) as [(k & Hk & Hr & Hv & Hmin)|(Hk & Hno)]; rewrite Hk; rewrite ?Z.max_r in * by lia.
    + split; [|split].
      * intros z. split.
        { intros H. assert (z = k) by congruence. subst z. split; [lia|]. split; [exact Hv|]. intros z' Hz'. destruct (Z.eq_dec z' 0) as [->|Hne]; [rewrite mul_bigint_zero; congruence|apply Hmin; lia]. }
        { intros (Hz & Hv' & Hmin'). f_equal. destruct (Z_lt_le_dec k z) as [Hlt|Hle]; [destruct (Hmin' k ltac:(lia) Hv)|].
          destruct (Z.eq_dec z 0) as [->|Hz0]; [rewrite mul_bigint_zero in Hv'; congruence|]. destruct (Z_lt_le_dec z k) as [Hlt|Hle']; [destruct (Hmin z ltac:(lia) Hv')|lia]. }
      * split; [discriminate|]. intros H. destruct (H k ltac:(lia) Hv).
      * right. exists k. reflexivity.
    + split; [|split].
      * intros z. split; [discriminate|]. intros (Hz & Hv & _). exfalso. destruct (Z.eq_dec z 0) as [->|Hne]; [rewrite mul_bigint_zero in Hv; congruence|]. apply (Hno z); [lia|exact Hv].
      * split; [|reflexivity]. intros _ z Hz. destruct (Z.eq_dec z 0) as [->|Hne]; [rewrite mul_bigint_zero; congruence|apply Hno; lia].
      * left. reflexivity.
Qed.
(* all chunks *)
Lemma search_all M (f : nat -> outcome Z) (g p : nat -> G) n : 1 <= M -> (forall i, (i < n)%nat -> f i = search_step M (g i) (p i)) ->
  (forall ms, mapM f (seq 0 n) = Ok ms <-> length ms = n /\ forall i, (i < n)%nat -> least_multiple M (g i) (p i) (nth i ms 0)) /\
  (mapM f (seq 0 n) = Err CouldNotFindDiscreteLog <-> exists i, (i < n)%nat /\ forall z, 0 <= z <= M -> mul_bigint (g i) z <> p i) /\
  (mapM f (seq 0 n) = Err CouldNotFindDiscreteLog \/ exists ms, mapM f (seq 0 n) = Ok ms).
Proof.
  intros HM Hf.
  assert (A : forall ms, mapM f (seq 0 n) = Ok ms <-> length ms = n /\ forall i, (i < n)%nat -> least_multiple M (g i) (p i) (nth i ms 0)).
  { intros ms. split.
    - intros H. apply mapM_seq_elim in H. destruct H as [L H]. split; [exact L|]. intros i Hi. destruct (nth_error ms i) as [z|] eqn:Hz; [|apply nth_error_None in Hz; lia].
      pose proof (H i z Hz) as Hi'. cbn [Nat.add] in Hi'. rewrite Hf in Hi' by exact Hi. apply (search_exact M (g i) (p i) HM) in Hi'. rewrite (nth_error_nth _ _ 0 Hz). exact Hi'.
    - intros [L H]. apply mapM_seq_intro; [exact L|]. intros i z Hz. cbn [Nat.add]. assert (Hi : (i < n)%nat) by (rewrite <- L; apply nth_error_Some; congruence).
      rewrite Hf by exact Hi. apply (search_exact M (g i) (p i) HM). rewrite <- (nth_error_nth _ _ 0 Hz). apply H. exact Hi. }
  assert (C : (mapM f (seq 0 n) = Err CouldNotFindDiscreteLog /\ exists i, In i (seq 0 n) /\ search_step M (g i) (p i) = Err CouldNotFindDiscreteLog) \/ exists ms, mapM f (seq 0 n) = Ok ms).
  { assert (Hl : forall i, In i (seq 0 n) -> f i = search_step M (g i) (p i)) by (intros i Hi; apply in_seq in Hi; apply Hf; lia). clear Hf A. revert Hl.
    induction (seq 0 n) as [|a l IH]; intros Hl; cbn [mapM]; [right; exists []; reflexivity|]. rewrite (Hl a) by (left; reflexivity).
    destruct (search_exact M (g a) (p a) HM) as (_ & _ & [X|(z & X)]); rewrite X; [left; split; [reflexivity|exists a; split; [left; reflexivity|exact X]]|]. cbn [bind].
    destruct IH as [[-> (i & Hi & Y)]|(ms & ->)]; [intros i Hi; apply Hl; right; exact Hi|left; split; [reflexivity|exists i; split; [right; exact Hi|exact Y]]|right; exists (z :: ms); reflexivity]. }
  split; [exact A|]. split; [|destruct C as [[C _]|C]; [left; exact C|right; exact C]]. split.
  - intros H. destruct C as [[_ (i & Hi & Y)]|(ms & C)]; [|congruence]. apply in_seq in Hi. exists i. split; [lia|]. apply (search_exact M (g i) (p i) HM). exact Y.
  - intros (i & Hi & Hno). destruct C as [[C _]|(ms & C)]; [exact C|]. exfalso. apply A in C. destruct C as [_ C]. destruct (C i Hi) as (Hz & Hv & _). exact (Hno _ Hz Hv).
Qed.
Lemma zip_nth_le (c w : list G) : forall i, (length c <= length w)%nat -> (i < length c)%nat -> nth i (zip_with gadd c w) gzero = nth i c gzero [+] nth i w gzero.
Proof. revert w. induction c as [|a c IH]; intros [|b w] i L Hi; cbn [length] in *; try lia. destruct i; [reflexivity|]. cbn [zip_with nth]. apply IH; lia. Qed.
End Search.

(* ===== C79 ===== *)
(* A party's share for any list of chunks, whatever the first element, the destination key and the secrets: the chunks themselves are not looked
   at; one scalar is drawn; the only failure is a panic when there are more chunks than secrets. *)
Theorem C79_share_exact : forall (E : pairing) (R : rng_impl E) gens c_0 c ekd (sk : secret_key_st E) (st : rng_st R),
  let r := fst (rand_scalar R st) in
  ((length c <= length (st_s sk))%nat -> exists w, re_encrypt_share R gens c_0 c ekd sk st = Ok (w, r [*] eg_G gens, snd (rand_scalar R st)) /\ length w = length c /\
     forall i, (i < length c)%nat -> nth i w gzero = (fneg (nth i (st_s sk) fzero) [*] c_0) [+] (r [*] ekd_pk ekd)) /\
  ((length (st_s sk) < length c)%nat -> re_encrypt_share R gens c_0 c ekd sk st = Panic).
Proof.
  intros E R gens c_0 c ekd sk st r. unfold re_encrypt_share. subst r. destruct (rand_scalar R st) as [r st1]. cbn [fst snd]. split.
  - intros H. exists (map (fun i => (fneg (nth i (st_s sk) fzero) [*] c_0) [+] (r [*] ekd_pk ekd)) (seq 0 (length c))).
    assert (X : mapM (fun i => si <- idx (st_s sk) i ;; Ok (mul_bigint c_0 (into_bigint (fneg si)) [+] mul_bigint (ekd_pk ekd) (into_bigint r))) (seq 0 (length c)) =
      Ok (map (fun i => (fneg (nth i (st_s sk) fzero) [*] c_0) [+] (r [*] ekd_pk ekd)) (seq 0 (length c)))).
    { rewrite <- mapM_map_Ok. apply mapM_ext. intros i Hi. apply in_seq in Hi. rewrite (idx_nth _ i fzero) by lia. reflexivity. }
    rewrite X. cbn [bind]. split; [reflexivity|]. split; [rewrite map_length, seq_length; reflexivity|].
    intros i Hi. rewrite (nth_indep _ gzero ((fneg (nth 0 (st_s sk) fzero) [*] c_0) [+] (r [*] ekd_pk ekd))) by (rewrite map_length, seq_length; exact Hi).
    rewrite (map_nth (fun i => (fneg (nth i (st_s sk) fzero) [*] c_0) [+] (r [*] ekd_pk ekd)) (seq 0 (length c)) 0%nat i), seq_nth by exact Hi. reflexivity.
  - intros H. rewrite (mapM_seq_panic _ 0 (length c) (length (st_s sk))); [reflexivity|exact H| |].
    + intros i Hi. rewrite (idx_nth _ (0 + i) fzero) by exact Hi. eexists. reflexivity.
    + cbn [Nat.add]. rewrite idx_ge by lia. reflexivity.
Qed.
(* Putting the combined shares to the chunks: an element of w is added to each chunk, superfluous ones are ignored, missing ones panic. *)
Theorem C79_combined_ciphertext_exact : forall (E : pairing) (c : list (G1 E)) g_r w,
  ((length c <= length w)%nat -> exists cs, combine_ct_with_w c g_r w = Ok (g_r :: cs) /\ length cs = length c /\ forall i, (i < length c)%nat -> nth i cs gzero = nth i c gzero [+] nth i w gzero) /\
  ((length w < length c)%nat -> combine_ct_with_w c g_r w = Panic).
Proof.
  intros E c g_r w. unfold combine_ct_with_w. rewrite mapM_zip. split; intros H.
  - destruct (Nat.leb_spec (length c) (length w)); [|lia]. cbn [bind]. exists (zip_with gadd c w). split; [reflexivity|]. split; [rewrite zip_with_length; lia|]. intros i Hi. apply zip_nth_le; lia.
  - destruct (Nat.leb_spec (length c) (length w)); [lia|]. reflexivity.
Qed.
(* What the destination gets out of any list of group elements: for every chunk the smallest multiple of its generator, up to the largest chunk
   value, that equals the chunk without its mask; an error exactly when there is none for some chunk or there are fewer generators than chunks. *)
Theorem C79_destination_decryption_exact : forall (pf : profile) (E : pairing) c_0 c (sk : Fr E) g_i b,
  1 <= b <= 31 -> let M := 2 ^ Z.min b 16 - 1 in let r := decrypt_to_chunks_after_re_encryption pf c_0 c sk g_i b in
  let unmasked i := nth i c gzero [+] (fneg sk [*] c_0) in
  ((length g_i < length c)%nat -> r = Err (VectorShorterThanExpected (length c) (length g_i))) /\
  ((length c <= length g_i)%nat ->
     (forall ms, r = Ok ms <-> length ms = length c /\ forall i, (i < length c)%nat -> least_multiple M (nth i g_i gzero) (unmasked i) (nth i ms 0)) /\
     (r = Err CouldNotFindDiscreteLog <-> exists i, (i < length c)%nat /\ forall z, 0 <= z <= M -> mul_bigint (nth i g_i gzero) z <> unmasked i) /\
     (r = Err CouldNotFindDiscreteLog \/ exists ms, r = Ok ms)).
Proof.
  intros pf E c_0 c sk g_i b Hb M r unmasked. subst r. unfold decrypt_to_chunks_after_re_encryption. split; intros H.
  - destruct (Nat.ltb_spec (length g_i) (length c)); [reflexivity|lia].
  - destruct (Nat.ltb_spec (length g_i) (length c)); [lia|]. destruct (max_chunk_eq pf b ltac:(lia)) as (z & -> & Hz). cbn [bind]. rewrite Hz. change (max_chunk b) with M.
    pose proof (max_chunk_pos b ltac:(lia)) as HM. change (max_chunk b) with M in HM.
    apply (search_all M _ (fun i => nth i g_i gzero) unmasked (length c) HM). intros i Hi. unfold search_step, unmasked.
    rewrite (idx_nth _ i gzero) by (rewrite map_length; exact Hi). cbn [bind].
    rewrite (nth_indep _ gzero (gzero [+] mul_bigint c_0 (into_bigint (fneg sk)))) by (rewrite map_length; exact Hi).
    rewrite (map_nth (fun ci => ci [+] mul_bigint c_0 (into_bigint (fneg sk))) c gzero i). change (mul_bigint c_0 (into_bigint (fneg sk))) with (fneg sk [*] c_0).
    destruct (gis_zero (nth i c gzero [+] (fneg sk [*] c_0))); [reflexivity|]. rewrite (idx_nth _ i gzero) by lia. reflexivity.
Qed.
(* The same for direct decryption with any prepared decryption key of matching lengths, honest or not. *)
Theorem C79_decryption_exact : forall (pf : profile) (E : pairing) c_0 c (sk : Fr E) (dk : prepared_decryption_key E) g_i b z0,
  1 <= b <= 31 -> length (pdk_V_1 dk) = length c -> length (pdk_V_2 dk) = length c -> (length c < 256)%nat -> (length c <= length g_i)%nat ->
  let M := 2 ^ Z.min b 16 - 1 in let r := decrypt_to_chunks pf c_0 c sk dk g_i b in
  let V_1 i := nth i (pdk_V_1 dk) z0 in let V_2 i := nth i (pdk_V_2 dk) z0 in
  let unmasked i := pair (nth i c gzero) (V_2 i) [+] pair (fneg sk [*] c_0) (V_1 i) in
  let base i := pair (nth i g_i gzero) (V_2 i) in
  (forall ms nu, r = Ok (ms, nu) <-> nu = sk [*] c_0 /\ length ms = length c /\ forall i, (i < length c)%nat -> least_multiple M (base i) (unmasked i) (nth i ms 0)) /\
  (r = Err CouldNotFindDiscreteLog <-> exists i, (i < length c)%nat /\ forall z, 0 <= z <= M -> mul_bigint (base i) z <> unmasked i) /\
  (r = Err CouldNotFindDiscreteLog \/ exists ms, r = Ok (ms, sk [*] c_0)).
Proof.
  intros pf E c_0 c sk dk g_i b z0 Hb L1 L2 Hc Hg M r V_1 V_2 unmasked base. subst r. rewrite decrypt_to_chunks_unfold.
  assert (X : pdk_supported_chunks_count dk = Ok (Z.of_nat (length c))).
  { unfold pdk_supported_chunks_count. rewrite L1, L2. apply dec_supported_ok. exact Hc. }
  rewrite X. cbn [bind]. rewrite Nat2Z.id, Nat.eqb_refl. cbn [negb]. destruct (Nat.ltb_spec (length g_i) (length c)) as [?|_]; [lia|].
  destruct (max_chunk_eq pf b ltac:(lia)) as (z & -> & Hz). cbn [bind]. rewrite Hz. change (max_chunk b) with M.
  pose proof (max_chunk_pos b ltac:(lia)) as HM. change (max_chunk b) with M in HM.
  assert (Nu : [-] mul_bigint c_0 (into_bigint (fneg sk)) = sk [*] c_0) by (change (mul_bigint c_0 (into_bigint (fneg sk))) with (fneg sk [*] c_0); rewrite smul_fneg, gneg_neg; reflexivity).
  destruct (search_all M (chunk_step M c (mul_bigint c_0 (into_bigint (fneg sk))) (pdk_V_1 dk) (pdk_V_2 dk) g_i) base unmasked (length c) HM) as (A & B & C).
  { intros i Hi. unfold chunk_step, search_step. rewrite (idx_nth c i gzero) by exact Hi. rewrite (idx_nth _ i z0) by lia. rewrite (idx_nth (pdk_V_1 dk) i z0) by lia. cbn [bind]. rewrite multi_pairing_2. cbn [bind].
    rewrite (idx_nth g_i i gzero) by lia. reflexivity. }
  set (r := mapM _ _) in *. clearbody r. split; [|split].
  - intros ms nu. rewrite <- A. split.
    + intros H. destruct r as [ms'|e|]; cbn [bind] in H; try discriminate H.
      split; [rewrite <- Nu; exact (f_equal (fun o => match o with Ok x => snd x | _ => nu end) (eq_sym H))|f_equal; exact (f_equal (fun o => match o with Ok x => fst x | _ => ms end) H)].
    + intros [-> ->]. cbn [bind]. rewrite Nu. reflexivity.
  - rewrite <- B. split; intros H; [destruct r; cbn [bind] in H; congruence|rewrite H; reflexivity].
  - destruct C as [-> |(ms & ->)]; [left; reflexivity|right; exists ms; cbn [bind]; rewrite Nu; reflexivity].
Qed.

(* ===== hypotheses met, all outcomes occur ===== *)
Definition c79_c_0 : G1 E61 := of_Z 4242.
Definition c79_chunks (ms : list Z) : list (G1 E61) := map (fun gm => mul_bigint (fst gm) (snd gm) [+] (x_skd [*] c79_c_0)) (combine x_gi ms).
Example C79_case_destination :
  1 <= 4 <= 31 /\ (length (c79_chunks [5; 0; 15]%Z) <= length x_gi)%nat /\
  decrypt_to_chunks_after_re_encryption Debug c79_c_0 (c79_chunks [5; 0; 15]%Z) x_skd x_gi 4 = Ok [5; 0; 15] /\
  decrypt_to_chunks_after_re_encryption Debug c79_c_0 (c79_chunks [5; 16; 15]%Z) x_skd x_gi 4 = Err CouldNotFindDiscreteLog /\
  decrypt_to_chunks_after_re_encryption Debug c79_c_0 (c79_chunks [5; 0; 15]%Z) x_skd (firstn 2 x_gi) 4 = Err (VectorShorterThanExpected 3 2).
Proof. split; [lia|]. split; [vm_compute; lia|]. vm_compute. repeat split. Qed.
Definition c79_pdk : prepared_decryption_key E61 := prepare_dk x_dk.
Example C79_case_decryption :
  length (pdk_V_1 c79_pdk) = 16%nat /\ length (pdk_V_2 c79_pdk) = 16%nat /\ (16 <= length x_gi)%nat /\
  match encrypt_decomposed_message (replay_rng E61) x_msg1 x_ek x_gi [x_r1] with
  | Ok (c_0 :: ct, _, _) => match decrypt_to_chunks Debug c_0 (firstn 16 ct) x_rho c79_pdk x_gi 4 with Ok (ms, _) => ms = x_msg1 | _ => False end
  | _ => False end.
Proof. vm_compute. repeat split. repeat constructor. Qed.
Example C79_case_share :
  (3 <= length (st_s (fst (x_party 10))))%nat /\
  (match re_encrypt_share (replay_rng E61) x_gens c79_c_0 (firstn 3 x_gi) x_ekd (fst (x_party 10)) [x_r1] with Ok (w, _, _) => length w = 3%nat | _ => False end) /\
  re_encrypt_share (replay_rng E61) x_gens c79_c_0 (x_gi ++ x_gi) x_ekd (fst (x_party 10)) [x_r1] = Panic /\
  combine_ct_with_w (firstn 2 x_gi) c79_c_0 [c79_c_0] = Panic /\ combine_ct_with_w (firstn 1 x_gi) gzero [gzero; c79_c_0] = Ok [gzero; nth 0 x_gi gzero].
Proof. split; [vm_compute; lia|]. vm_compute. repeat split. Qed.
