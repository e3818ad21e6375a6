(* PropSerde.v -- C41: serialization of the public types *)
From Coq Require Import String Permutation.
From Verif Require Import Base BaseFacts Algebra Utils UtilsFacts Setup Commitment Keygen Encryption Circuit Groth16 Serde SerdeFacts Instance.
Open Scope list_scope.

(* ---------- specification ---------- *)
(* What is assumed of the curve's own point encoding: a written point is read back and the bytes after it are left alone; a
   point that can be read from some bytes is also read from a longer stream; what is written are bytes. *)
Definition point_codec {T} (c : codec T) : Prop :=
  (forall x rest, dec c (enc c x ++ rest) = Some (x, rest)) /\
  (forall bs x r more, dec c bs = Some (x, r) -> dec c (bs ++ more) = Some (x, r ++ more)) /\
  (forall x, Forall (fun b => 0 <= b < 256) (enc c x)).
(* What is claimed of a type's encoding, for the values satisfying P. *)
Definition faithful {T} (c : codec T) (P : T -> Prop) : Prop :=
  (* deserializing gives back the value and leaves the following bytes unread *)
  (forall x rest, P x -> dec c (enc c x ++ rest) = Some (x, rest)) /\
  (* two values never have the same encoding, and none is a prefix of another *)
  (forall x y rest, P x -> P y -> enc c x = enc c y ++ rest -> x = y /\ rest = []) /\
  (* an encoding cut short anywhere is rejected *)
  (forall x p s, P x -> enc c x = p ++ s -> s <> [] -> dec c p = None).
(* vectors and integers that fit in a u64 *)
Definition fits {T} (l : list T) : Prop := Z.of_nat (length l) < 2 ^ 64.

(* ---------- proofs ---------- *)
Lemma point_lawful {T} (c : codec T) : point_codec c -> lawful_on c (fun _ => True).
Proof. intros (A & B & C). constructor; [intros; apply A|exact B|intros; apply C]. Qed.
Lemma lawful_faithful {T} (c : codec T) P : lawful_on c P -> faithful c P.
Proof.
  intros L. split; [exact (law_read c P L)|split].
  - intros x y rest Hx Hy H. pose proof (law_read c P L x [] Hx) as R. rewrite app_nil_r, H, (law_read c P L y rest Hy) in R. injection R as -> ->. split; reflexivity.
  - intros x p s Hx H Hs. exact (truncated c P x p s L Hx H Hs).
Qed.
Lemma fits_lawful {T} (c : codec T) : lawful_on c (fun _ => True) -> lawful_on (vec_codec c) fits.
Proof. intros L. apply lawful_weaken with (2 := vec_lawful c _ L). intros l H. split; [exact H|]. apply Forall_forall. intros; exact I. Qed.

Section Lawful.
Context {E : pairing} (g1 : codec (G1 E)) (g2 : codec (G2 E)).
Hypothesis L1 : lawful_on g1 (fun _ => True).
Hypothesis L2 : lawful_on g2 (fun _ => True).
Let V1 := fits_lawful g1 L1.
Let V2 := fits_lawful g2 L2.
Let VF := fits_lawful _ (fr_lawful (K_of E)).
Ltac st l := eapply struct_lawful with (3 := l); [intros []; reflexivity|cbn; tauto].
Lemma ciphertext_lawful : lawful_on (ciphertext_codec g1) (fun c => fits (ct_enc_chunks c)).
Proof. st (pair_lawful _ _ _ _ L1 (pair_lawful _ _ _ _ V1 L1)). Qed.
Lemma secret_key_st_lawful : lawful_on secret_key_st_codec (fun k : secret_key_st E => fits (st_s k) /\ fits (st_t k)).
Proof. st (pair_lawful _ _ _ _ VF VF). Qed.
Lemma p1share_lawful : lawful_on (p1share_codec g1) (fun _ => True).
Proof. st L1. Qed.
Lemma ek_partial_lawful : lawful_on (ek_partial_codec g1 g2) (fun k => fits (ekp_X k) /\ fits (ekp_Y k) /\ fits (ekp_Z k)).
Proof. st (pair_lawful _ _ _ _ L1 (pair_lawful _ _ _ _ V1 (pair_lawful _ _ _ _ V1 (pair_lawful _ _ _ _ V2 L1)))). Qed.
Lemma encryption_key_lawful : lawful_on (encryption_key_codec g1 g2) (fun k => fits (ek_X k) /\ fits (ek_Y k) /\ fits (ek_Z k)).
Proof. st (pair_lawful _ _ _ _ L1 (pair_lawful _ _ _ _ V1 (pair_lawful _ _ _ _ V1 (pair_lawful _ _ _ _ V2 (pair_lawful _ _ _ _ L1 L1))))). Qed.
Lemma ek_dest_lawful : lawful_on (ek_dest_codec g1) (fun _ => True).
Proof. st L1. Qed.
Lemma decryption_key_lawful : lawful_on (decryption_key_codec g2) (fun k => fits (dk_V_1 k) /\ fits (dk_V_2 k)).
Proof. st (pair_lawful _ _ _ _ L2 (pair_lawful _ _ _ _ V2 V2)). Qed.
Lemma chunked_commitment_lawful : lawful_on (chunked_commitment_codec g1) (fun c => fits (snd c)).
Proof. eapply lawful_weaken with (2 := pair_lawful _ _ _ _ L1 V1). tauto. Qed.
Lemma window_table_lawful : lawful_on (window_table_codec g1)
  (fun w => Z.of_nat (wt_scalar_size w) < 2 ^ 64 /\ Z.of_nat (wt_window_size w) < 2 ^ 64 /\ Z.of_nat (wt_outerc w) < 2 ^ 64 /\ fits (wt_table w) /\ Forall fits (wt_table w)).
Proof. st (pair_lawful _ _ _ _ u64_lawful (pair_lawful _ _ _ _ u64_lawful (pair_lawful _ _ _ _ u64_lawful (vec_lawful _ _ V1)))). Qed.
Lemma verifying_key_lawful : lawful_on (verifying_key_codec g1 g2) (fun k => fits (vk_gamma_abc_g1 k)).
Proof. st (pair_lawful _ _ _ _ L1 (pair_lawful _ _ _ _ L2 (pair_lawful _ _ _ _ L2 (pair_lawful _ _ _ _ L2 V1)))). Qed.
Lemma groth16_proving_key_lawful : lawful_on (groth16_proving_key_codec g1 g2)
  (fun k => fits (vk_gamma_abc_g1 (gpk_vk k)) /\ fits (gpk_a_query k) /\ fits (gpk_b_g1_query k) /\ fits (gpk_b_g2_query k) /\ fits (gpk_h_query k) /\ fits (gpk_l_query k)).
Proof.
  st (pair_lawful _ _ _ _ verifying_key_lawful (pair_lawful _ _ _ _ L1 (pair_lawful _ _ _ _ L1 (pair_lawful _ _ _ _ V1 (pair_lawful _ _ _ _ V1
    (pair_lawful _ _ _ _ V2 (pair_lawful _ _ _ _ V1 V1))))))).
Qed.
Lemma proving_key_lawful : lawful_on (proving_key_codec g1 g2)
  (fun k => let k := pk_pk k in fits (vk_gamma_abc_g1 (gpk_vk k)) /\ fits (gpk_a_query k) /\ fits (gpk_b_g1_query k) /\ fits (gpk_b_g2_query k) /\ fits (gpk_h_query k) /\ fits (gpk_l_query k)).
Proof. st (pair_lawful _ _ _ _ groth16_proving_key_lawful L1). Qed.
End Lawful.

(* ===== C41 ===== *)
(* the canonical encoding of every serializable type of the crate *)
Theorem C41_canonical_round_trip :
  forall (E : pairing) (g1 : codec (G1 E)) (g2 : codec (G2 E)), point_codec g1 -> point_codec g2 ->
  faithful (ciphertext_codec g1) (fun c => fits (ct_enc_chunks c)) /\
  faithful (@secret_key_codec E) (fun _ => True) /\
  faithful (@secret_key_st_codec E) (fun k => fits (st_s k) /\ fits (st_t k)) /\
  faithful (p1share_codec g1) (fun _ => True) /\
  faithful (ek_partial_codec g1 g2) (fun k => fits (ekp_X k) /\ fits (ekp_Y k) /\ fits (ekp_Z k)) /\
  faithful (encryption_key_codec g1 g2) (fun k => fits (ek_X k) /\ fits (ek_Y k) /\ fits (ek_Z k)) /\
  faithful (ek_dest_codec g1) (fun _ => True) /\
  faithful (decryption_key_codec g2) (fun k => fits (dk_V_1 k) /\ fits (dk_V_2 k)) /\
  faithful (chunked_commitment_codec g1) (fun c => fits (snd c)) /\
  faithful (window_table_codec g1) (fun w => Z.of_nat (wt_scalar_size w) < 2 ^ 64 /\ Z.of_nat (wt_window_size w) < 2 ^ 64 /\
    Z.of_nat (wt_outerc w) < 2 ^ 64 /\ fits (wt_table w) /\ Forall fits (wt_table w)) /\
  faithful (proving_key_codec g1 g2) (fun k => let k := pk_pk k in fits (vk_gamma_abc_g1 (gpk_vk k)) /\ fits (gpk_a_query k) /\
    fits (gpk_b_g1_query k) /\ fits (gpk_b_g2_query k) /\ fits (gpk_h_query k) /\ fits (gpk_l_query k)).
Proof.
  intros E g1 g2 H1 H2. apply point_lawful in H1, H2.
  exact (conj (lawful_faithful _ _ (ciphertext_lawful g1 H1)) (conj (lawful_faithful _ _ (fr_lawful (K_of E)))
    (conj (lawful_faithful _ _ secret_key_st_lawful) (conj (lawful_faithful _ _ (p1share_lawful g1 H1))
    (conj (lawful_faithful _ _ (ek_partial_lawful g1 g2 H1 H2)) (conj (lawful_faithful _ _ (encryption_key_lawful g1 g2 H1 H2))
    (conj (lawful_faithful _ _ (ek_dest_lawful g1 H1)) (conj (lawful_faithful _ _ (decryption_key_lawful g2 H2))
    (conj (lawful_faithful _ _ (chunked_commitment_lawful g1 H1)) (conj (lawful_faithful _ _ (window_table_lawful g1 H1))
    (lawful_faithful _ _ (proving_key_lawful g1 g2 H1 H2)))))))))))).
Qed.

(* The scalar types only have one encoding: whatever bytes are accepted are those serialize would have written. *)
Theorem C41_secret_keys_canonical :
  forall (E : pairing) bytes rest, Forall (fun b => 0 <= b < 256) bytes ->
  (forall sk, dec (@secret_key_codec E) bytes = Some (sk, rest) -> bytes = enc (@secret_key_codec E) sk ++ rest) /\
  (forall st, dec (@secret_key_st_codec E) bytes = Some (st, rest) -> bytes = enc (@secret_key_st_codec E) st ++ rest).
Proof.
  intros E bytes rest Hb. split; intros x H.
  - exact (fr_canonical (K_of E) _ _ _ Hb H).
  - refine (struct_canonical _ _ _ _ (pair_canonical _ _ (vec_canonical _ (fr_canonical _)) (vec_canonical _ (fr_canonical _))) _ _ _ Hb H).
    intros []; reflexivity.
Qed.
(* a scalar that is not reduced is rejected *)
Theorem C41_unreduced_secret_key_rejected :
  forall (E : pairing) (z : Z) rest, modulus (K_of E) <= z < 256 ^ Z.of_nat (fr_bytes (K_of E)) ->
  dec (@secret_key_codec E) (bytes_le (fr_bytes (K_of E)) z ++ rest) = None.
Proof.
  intros E z rest Hz. cbn [secret_key_codec fr_codec dec]. replace (fr_bytes (K_of E)) with (length (bytes_le (fr_bytes (K_of E)) z)) at 1 by apply bytes_le_length.
  rewrite read_exact_app, le_value_bytes, Z.mod_small by (pose proof (@modulus_gt1 (K_of E)); lia).
  destruct (Z.ltb_spec z (modulus (K_of E))); [lia|reflexivity].
Qed.

(* serde (JSON, MessagePack, ...): what is written is read back *)
Theorem C41_serde_round_trip :
  forall (E : pairing) (g1 : codec (G1 E)) (g2 : codec (G2 E)), point_codec g1 -> point_codec g2 ->
  (forall c, of_value (ciphertext_serde g1) (to_value (ciphertext_serde g1) c) = Some c) /\
  (forall k, of_value (@secret_key_serde E) (to_value (@secret_key_serde E) k) = Some k) /\
  (forall k, of_value (@secret_key_st_serde E) (to_value (@secret_key_st_serde E) k) = Some k) /\
  (forall k, of_value (p1share_serde g1) (to_value (p1share_serde g1) k) = Some k) /\
  (forall k, of_value (ek_partial_serde g1 g2) (to_value (ek_partial_serde g1 g2) k) = Some k) /\
  (forall k, of_value (encryption_key_serde g1 g2) (to_value (encryption_key_serde g1 g2) k) = Some k) /\
  (forall k, of_value (ek_dest_serde g1) (to_value (ek_dest_serde g1) k) = Some k) /\
  (forall k, of_value (decryption_key_serde g2) (to_value (decryption_key_serde g2) k) = Some k) /\
  (forall c, of_value (chunked_commitment_serde g1) (to_value (chunked_commitment_serde g1) c) = Some c) /\
  (forall w, Z.of_nat (wt_scalar_size w) < 2 ^ 64 -> Z.of_nat (wt_window_size w) < 2 ^ 64 -> Z.of_nat (wt_outerc w) < 2 ^ 64 ->
     of_value (window_table_serde g1) (to_value (window_table_serde g1) w) = Some w) /\
  (forall k, let g := pk_pk k in fits (vk_gamma_abc_g1 (gpk_vk g)) -> fits (gpk_a_query g) -> fits (gpk_b_g1_query g) -> fits (gpk_b_g2_query g) ->
     fits (gpk_h_query g) -> fits (gpk_l_query g) -> of_value (proving_key_serde g1 g2) (to_value (proving_key_serde g1 g2) k) = Some k).
Proof.
  intros E g1 g2 H1 H2. apply point_lawful in H1, H2.
  pose proof (as_canonical_ok g1 _ H1) as O1. pose proof (as_canonical_ok g2 _ H2) as O2. pose proof (as_canonical_ok _ _ (fr_lawful (K_of E))) as OF.
  pose proof (as_vec_ok _ _ O1) as V1. pose proof (as_vec_ok _ _ O2) as V2. pose proof (as_vec_ok _ _ OF) as VF. pose proof (as_vec_ok _ _ V1) as VV1.
  assert (T : forall T (l : list T), Forall (fun _ => True) l) by (intros T l; apply Forall_forall; intros; exact I).
  assert (TT : forall T (l : list (list T)), Forall (Forall (fun _ => True)) l) by (intros T' l; apply Forall_forall; intros; apply T).
  unfold serde_ok in *.
  refine (conj _ (conj _ (conj _ (conj _ (conj _ (conj _ (conj _ (conj _ (conj _ (conj _ _)))))))))).
  - intros []. cbn [ciphertext_serde of_value to_value]. change (struct_fields _ _) with (Some [to_value (as_canonical g1) ct_X_r; to_value (as_vec (as_canonical g1)) ct_enc_chunks; to_value (as_canonical g1) ct_commitment]). cbv iota beta.
    rewrite !O1, V1 by auto. reflexivity.
  - intros k. apply OF. exact I.
  - intros []. cbn [secret_key_st_serde of_value to_value]. change (struct_fields _ _) with (Some [to_value (as_vec (as_canonical (fr_codec (K_of E)))) st_s; to_value (as_vec (as_canonical (fr_codec (K_of E)))) st_t]). cbv iota beta.
    rewrite !VF by auto. reflexivity.
  - intros []. cbn [p1share_serde of_value to_value]. change (struct_fields _ _) with (Some [to_value (as_canonical g1) p1_P_1]). cbv iota beta. rewrite !O1 by auto. reflexivity.
  - intros []. cbn [ek_partial_serde of_value to_value].
    change (struct_fields _ _) with (Some [to_value (as_canonical g1) ekp_X_0; to_value (as_vec (as_canonical g1)) ekp_X; to_value (as_vec (as_canonical g1)) ekp_Y;
      to_value (as_vec (as_canonical g2)) ekp_Z; to_value (as_canonical g1) ekp_P_2]). cbv iota beta. rewrite !O1, !V1, V2 by auto. reflexivity.
  - intros []. cbn [encryption_key_serde of_value to_value].
    change (struct_fields _ _) with (Some [to_value (as_canonical g1) ek_X_0; to_value (as_vec (as_canonical g1)) ek_X; to_value (as_vec (as_canonical g1)) ek_Y;
      to_value (as_vec (as_canonical g2)) ek_Z; to_value (as_canonical g1) ek_P_1; to_value (as_canonical g1) ek_P_2]). cbv iota beta. rewrite !O1, !V1, V2 by auto. reflexivity.
  - intros []. cbn [ek_dest_serde of_value to_value]. change (struct_fields _ _) with (Some [to_value (as_canonical g1) ekd_pk]). cbv iota beta. rewrite !O1 by auto. reflexivity.
  - intros []. cbn [decryption_key_serde of_value to_value]. change (struct_fields _ _) with (Some [to_value (as_canonical g2) dk_V_0; to_value (as_vec (as_canonical g2)) dk_V_1; to_value (as_vec (as_canonical g2)) dk_V_2]). cbv iota beta.
    rewrite !O2, !V2 by auto. reflexivity.
  - intros [a b]. cbn [chunked_commitment_serde of_value to_value fst snd]. rewrite O1, V1 by auto. reflexivity.
  - intros [] K1 K2 K3. cbn [window_table_serde of_value to_value].
    change (struct_fields _ _) with (Some [to_value usize_serde wt_scalar_size; to_value usize_serde wt_window_size; to_value usize_serde wt_outerc; to_value (as_vec (as_vec (as_canonical g1))) wt_table]). cbv iota beta.
    rewrite !usize_ok, VV1 by auto. reflexivity.
  - intros k; cbv zeta; intros K1 K2 K3 K4 K5 K6. destruct k as [g gam]. cbn [pk_pk] in *. cbn [proving_key_serde of_value to_value].
    change (struct_fields _ _) with (Some [to_value (as_canonical (groth16_proving_key_codec g1 g2)) g; to_value (as_canonical g1) gam]). cbv iota beta.
    rewrite (as_canonical_ok _ _ (groth16_proving_key_lawful g1 g2 H1 H2)) by tauto. rewrite O1 by auto. reflexivity.
Qed.

(* The adapter reads a value from the front of the byte sequence it is given: appended bytes are ignored, missing ones are not. *)
Theorem C41_serde_trailing_bytes_ignored :
  forall T (c : codec T) (x : T) extra, point_codec c -> Forall (fun b => 0 <= b < 256) extra ->
  of_value (as_canonical c) (VSeq (map VNum (enc c x ++ extra))) = Some x.
Proof. intros T c x extra H He. exact (as_canonical_prefix c _ x extra (point_lawful c H) I He). Qed.
Theorem C41_serde_truncation_rejected :
  forall T (c : codec T) (x : T) p s, point_codec c -> enc c x = p ++ s -> s <> [] ->
  of_value (as_canonical c) (VSeq (map VNum p)) = None.
Proof.
  intros T c x p s H He Hs. cbn [as_canonical of_value]. pose proof (law_bytes c _ (point_lawful c H) x I) as B. rewrite He in B. apply bytes_tail in B.
  rewrite bytes_of_values by apply B. rewrite (truncated c _ x p s (point_lawful c H) I He Hs). reflexivity.
Qed.
(* hence two different documents can stand for the same ciphertext *)
Theorem C41_serde_documents_not_unique :
  forall (E : pairing) (g1 : codec (G1 E)) (c : ciphertext E), point_codec g1 ->
  exists d, d <> to_value (ciphertext_serde g1) c /\ of_value (ciphertext_serde g1) d = Some c.
Proof.
  intros E g1 c H. pose proof (point_lawful g1 H) as L.
  exists (VMap [("X_r", VSeq (map VNum (enc g1 (ct_X_r c) ++ [0]))); ("enc_chunks", to_value (as_vec (as_canonical g1)) (ct_enc_chunks c)); ("commitment", to_value (as_canonical g1) (ct_commitment c))])%string.
  split.
  - intros X. cbn [ciphertext_serde to_value as_canonical] in X. injection X as X. apply (f_equal (@length value)) in X. rewrite !map_length, app_length in X. cbn [length] in X. lia.
  - cbn [ciphertext_serde of_value]. change (struct_fields _ _) with (Some [VSeq (map VNum (enc g1 (ct_X_r c) ++ [0])); to_value (as_vec (as_canonical g1)) (ct_enc_chunks c); to_value (as_canonical g1) (ct_commitment c)]). cbv iota beta.
    rewrite C41_serde_trailing_bytes_ignored by (try assumption; repeat constructor; lia). rewrite (as_vec_ok _ _ (as_canonical_ok g1 _ L)) by (apply Forall_forall; intros; exact I).
    rewrite (as_canonical_ok g1 _ L) by exact I. destruct c; reflexivity.
Qed.
(* the order of the fields in a document does not matter *)
Theorem C41_serde_field_order_irrelevant :
  forall (E : pairing) (g1 : codec (G1 E)) (g2 : codec (G2 E)) l l', Permutation l l' ->
  of_value (ciphertext_serde g1) (VMap l) = of_value (ciphertext_serde g1) (VMap l') /\
  of_value (encryption_key_serde g1 g2) (VMap l) = of_value (encryption_key_serde g1 g2) (VMap l') /\
  of_value (decryption_key_serde g2) (VMap l) = of_value (decryption_key_serde g2) (VMap l').
Proof.
  intros E g1 g2 l l' H. cbn [ciphertext_serde encryption_key_serde decryption_key_serde of_value].
  rewrite !(fun names => struct_fields_perm names l l' H). auto.
Qed.

(* fields the type does not have are skipped *)
Theorem C41_serde_unknown_fields_skipped :
  forall (E : pairing) (g1 : codec (G1 E)) (g2 : codec (G2 E)) key v l,
  (~ In key ["X_r"; "enc_chunks"; "commitment"]%string -> of_value (ciphertext_serde g1) (VMap ((key, v) :: l)) = of_value (ciphertext_serde g1) (VMap l)) /\
  (~ In key ["X_0"; "X"; "Y"; "Z"; "P_1"; "P_2"]%string -> of_value (encryption_key_serde g1 g2) (VMap ((key, v) :: l)) = of_value (encryption_key_serde g1 g2) (VMap l)) /\
  (~ In key ["V_0"; "V_1"; "V_2"]%string -> of_value (decryption_key_serde g2) (VMap ((key, v) :: l)) = of_value (decryption_key_serde g2) (VMap l)).
Proof.
  intros E g1 g2 key v l. cbn [ciphertext_serde encryption_key_serde decryption_key_serde of_value].
  split; [|split]; intros H; rewrite struct_fields_unknown by exact H; reflexivity.
Qed.
(* but a field given twice, or missing, is an error *)
Theorem C41_serde_duplicate_or_missing_field_rejected :
  forall (E : pairing) (g1 : codec (G1 E)) l name, In name ["X_r"; "enc_chunks"; "commitment"]%string ->
  length (filter (fun kv => String.eqb (fst kv) name) l) <> 1%nat -> of_value (ciphertext_serde g1) (VMap l) = None.
Proof.
  intros E g1 l name Hn Hl. assert (HN : lookup_one l name = None).
  { unfold lookup_one. destruct (filter _ l) as [|a [|b r]]; [reflexivity|exfalso; apply Hl; reflexivity|reflexivity]. }
  assert (HS : forall names, In name names -> opt_map (lookup_one l) names = None).
  { induction names as [|n names IH]; intros Hi; [destruct Hi|]. cbn [opt_map]. destruct Hi as [->|Hi]; [rewrite HN; reflexivity|].
    rewrite (IH Hi). destruct (lookup_one l n); reflexivity. }
  cbn [ciphertext_serde of_value struct_fields]. rewrite HS by exact Hn. reflexivity.
Qed.

(* ---------- a concrete case: points of the additive engine over a 61-bit field, eight bytes each ---------- *)
Example C41_case_codec : point_codec (fr_codec M61).
Proof. destruct (fr_lawful M61) as [A B C]. split; [intros; apply A; exact I|split; [exact B|intros; apply C; exact I]]. Qed.
Example C41_case : exists bytes, enc (@ciphertext_codec E61 (fr_codec M61)) (@Ciphertext E61 (of_Z 5) [of_Z 6; of_Z 7] (of_Z 258)) = bytes /\
  bytes = [5; 0; 0; 0; 0; 0; 0; 0;  2; 0; 0; 0; 0; 0; 0; 0;  6; 0; 0; 0; 0; 0; 0; 0;  7; 0; 0; 0; 0; 0; 0; 0;  2; 1; 0; 0; 0; 0; 0; 0].
Proof. eexists. split; [reflexivity|]. vm_compute. reflexivity. Qed.
