(* PropValidate.v -- C08: validate() and supported_chunks_count() of the four kinds of keys on arbitrary keys, exactly. *)
From Verif Require Import Base Algebra Utils Setup Keygen KeygenFacts Encryption Spec Instance Examples.

Local Ltac fin := first [ split; [intros HH; first [discriminate HH | split; lia | lia] | intros HH; first [reflexivity | exfalso; lia]]
  | intros; first [exfalso; lia | split; reflexivity | reflexivity] ].

(* A key of any origin passes validate() exactly if its vectors have the lengths n, n, n+1 (encryption keys) or n, n (decryption
   keys); otherwise the error tells the offending length and n, the Y vector being looked at first. The count is n as a u8. *)
Theorem C08_validation_of_encryption_keys :
  forall (E : pairing) (ek : encryption_key E), let n := length (ek_X ek) in
  (ek_validate ek = Ok tt <-> length (ek_Y ek) = n /\ length (ek_Z ek) = S n) /\
  (length (ek_Y ek) <> n -> ek_validate ek = Err (MalformedEncryptionKey (length (ek_Y ek)) n) /\
     ek_supported_chunks_count ek = Err (MalformedEncryptionKey (length (ek_Y ek)) n)) /\
  (length (ek_Y ek) = n -> length (ek_Z ek) <> S n -> ek_validate ek = Err (MalformedEncryptionKey (length (ek_Z ek)) n) /\
     ek_supported_chunks_count ek = Err (MalformedEncryptionKey (length (ek_Z ek)) n)) /\
  (length (ek_Y ek) = n -> length (ek_Z ek) = S n -> ek_supported_chunks_count ek = Ok (Z.of_nat n mod 256)) /\
  (* preparing a key changes neither answer *)
  pek_validate (prepare_ek ek) = ek_validate ek /\ pek_supported_chunks_count (prepare_ek ek) = ek_supported_chunks_count ek.
Proof.
  intros E ek n. assert (P : pek_supported_chunks_count (prepare_ek ek) = ek_supported_chunks_count ek).
  { unfold pek_supported_chunks_count, ek_supported_chunks_count, prepare_ek. cbn [pek_X pek_Y pek_Z]. rewrite ?map_length. reflexivity. }
  assert (V : pek_validate (prepare_ek ek) = ek_validate ek) by (unfold pek_validate, ek_validate; rewrite P; reflexivity).
  assert (X : forall A B C D F : Prop, A -> B -> C -> D -> F -> A /\ B /\ C /\ D /\ F) by tauto.
  apply X; [| | | |split; [exact V|exact P]]; clear P V X;
  unfold ek_validate, ek_supported_chunks_count, enc_supported_chunks_count; fold n;
  destruct (Nat.eqb_spec (length (ek_Y ek)) n) as [HY|HY]; cbn [negb bind];
  try (destruct (Nat.eqb_spec (length (ek_Z ek)) (n + 1)) as [HZ|HZ]; cbn [negb bind]); fin.
Qed.
Theorem C08_validation_of_prepared_encryption_keys :
  forall (E : pairing) (ek : prepared_encryption_key E), let n := length (pek_X ek) in
  (pek_validate ek = Ok tt <-> length (pek_Y ek) = n /\ length (pek_Z ek) = S n) /\
  (length (pek_Y ek) <> n -> pek_validate ek = Err (MalformedEncryptionKey (length (pek_Y ek)) n) /\
     pek_supported_chunks_count ek = Err (MalformedEncryptionKey (length (pek_Y ek)) n)) /\
  (length (pek_Y ek) = n -> length (pek_Z ek) <> S n -> pek_validate ek = Err (MalformedEncryptionKey (length (pek_Z ek)) n) /\
     pek_supported_chunks_count ek = Err (MalformedEncryptionKey (length (pek_Z ek)) n)) /\
  (length (pek_Y ek) = n -> length (pek_Z ek) = S n -> pek_supported_chunks_count ek = Ok (Z.of_nat n mod 256)).
Proof.
  intros E ek n.
  assert (X : forall A B C D : Prop, A -> B -> C -> D -> A /\ B /\ C /\ D) by tauto.
  apply X; clear X;
  unfold pek_validate, pek_supported_chunks_count, enc_supported_chunks_count; fold n;
  destruct (Nat.eqb_spec (length (pek_Y ek)) n) as [HY|HY]; cbn [negb bind];
  try (destruct (Nat.eqb_spec (length (pek_Z ek)) (n + 1)) as [HZ|HZ]; cbn [negb bind]); fin.
Qed.
Theorem C08_validation_of_decryption_keys :
  forall (E : pairing),
  (forall dk : decryption_key E, let n := length (dk_V_1 dk) in
     (dk_validate dk = Ok tt <-> length (dk_V_2 dk) = n) /\
     (length (dk_V_2 dk) <> n -> dk_validate dk = Err (MalformedDecryptionKey (length (dk_V_2 dk)) n) /\
        dk_supported_chunks_count dk = Err (MalformedDecryptionKey (length (dk_V_2 dk)) n)) /\
     (length (dk_V_2 dk) = n -> dk_supported_chunks_count dk = Ok (Z.of_nat n mod 256)) /\
     pdk_validate (prepare_dk dk) = dk_validate dk /\ pdk_supported_chunks_count (prepare_dk dk) = dk_supported_chunks_count dk) /\
  (forall dk : prepared_decryption_key E, let n := length (pdk_V_1 dk) in
     (pdk_validate dk = Ok tt <-> length (pdk_V_2 dk) = n) /\
     (length (pdk_V_2 dk) <> n -> pdk_validate dk = Err (MalformedDecryptionKey (length (pdk_V_2 dk)) n) /\
        pdk_supported_chunks_count dk = Err (MalformedDecryptionKey (length (pdk_V_2 dk)) n)) /\
     (length (pdk_V_2 dk) = n -> pdk_supported_chunks_count dk = Ok (Z.of_nat n mod 256))).
Proof.
  intros E. split.
  - intros dk n. assert (P : pdk_supported_chunks_count (prepare_dk dk) = dk_supported_chunks_count dk).
    { unfold pdk_supported_chunks_count, dk_supported_chunks_count, prepare_dk. cbn [pdk_V_1 pdk_V_2]. rewrite ?map_length. reflexivity. }
    assert (V : pdk_validate (prepare_dk dk) = dk_validate dk) by (unfold pdk_validate, dk_validate; rewrite P; reflexivity).
    assert (X : forall A B C D : Prop, A -> B -> C -> D -> A /\ B /\ C /\ D) by tauto.
    apply X; [| | |split; [exact V|exact P]]; clear P V X;
    unfold dk_validate, dk_supported_chunks_count, dec_supported_chunks_count; fold n;
    destruct (Nat.eqb_spec (length (dk_V_2 dk)) n) as [HY|HY]; cbn [negb bind]; fin.
  - intros dk n.
    assert (X : forall A B C : Prop, A -> B -> C -> A /\ B /\ C) by tauto.
    apply X; clear X;
    unfold pdk_validate, pdk_supported_chunks_count, dec_supported_chunks_count; fold n;
    destruct (Nat.eqb_spec (length (pdk_V_2 dk)) n) as [HY|HY]; cbn [negb bind]; fin.
Qed.

(* the three outcomes for encryption keys occur *)
Example C08_case_validation :
  exists ok bad_y bad_z : encryption_key E61,
    ek_validate ok = Ok tt /\ ek_validate bad_y = Err (MalformedEncryptionKey 1 2) /\ ek_validate bad_z = Err (MalformedEncryptionKey 2 2).
Proof.
  pose (g := @gzero _ (G1 E61)). pose (h := @gzero _ (G2 E61)).
  exists (EncryptionKey g [g;g] [g;g] [h;h;h] g g), (EncryptionKey g [g;g] [g] [h;h;h] g g), (EncryptionKey g [g;g] [g;g] [h;h] g g).
  repeat split.
Qed.
