(* Serde.v -- model of the serialization derived for the public types of /repo (CanonicalSerialize/CanonicalDeserialize,
   compressed mode) and of the serde adapter /repo/src/serde_utils.rs.
   A byte is an integer in 0..255.  Group elements are encoded by the curve crate (not in /repo): their codecs are parameters. *)
From Coq Require Import String.
From Verif Require Import Base Algebra Utils Setup Commitment Keygen Encryption Circuit Groth16.
Open Scope list_scope.

(* ---------- ark_serialize: a writer and a reader that stops at the end of the value ---------- *)
(* CanonicalSerialize::serialize_compressed / CanonicalDeserialize::deserialize_compressed for one type.
   dec returns the value and the unread bytes; None stands for any SerializationError. *)
Record codec (T : Type) := Codec { enc : T -> list Z; dec : list Z -> option (T * list Z) }.
Arguments Codec {T} _ _.
Arguments enc {T} _ _.
Arguments dec {T} _ _.

(* Read::read_exact of n bytes *)
Definition read_exact (n : nat) (bs : list Z) : option (list Z * list Z) :=
  if (length bs <? n)%nat then None else Some (firstn n bs, skipn n bs).
(* u64::from_le_bytes and the like: the little-endian value of a byte string *)
Definition le_value (bs : list Z) : Z := fold_right (fun b acc => b + 256 * acc) 0 bs.

(* u64 (and usize, which is written as a u64): eight bytes, least significant first (ark_serialize impls for integers) *)
Definition u64_codec : codec nat := Codec
  (fun n => bytes_le 8 (Z.of_nat n))
  (fun bs => match read_exact 8 bs with Some (w, rest) => Some (Z.to_nat (le_value w), rest) | None => None end).

(* ark_ff Fp: ceil(MODULUS_BIT_SIZE / 8) bytes, least significant first; an integer that is not below the modulus is rejected *)
Definition fr_bytes (K : prime_field) : nat := Z.to_nat ((modulus_bit_size K + 7) / 8).
Definition fr_codec (K : prime_field) : codec (scalar K) := Codec
  (fun a => bytes_le (fr_bytes K) (into_bigint a))
  (fun bs => match read_exact (fr_bytes K) bs with
             | Some (w, rest) => if le_value w <? modulus K then Some (of_Z (le_value w), rest) else None
             | None => None
             end).

(* Vec<T>: the length as a u64, then the elements *)
Fixpoint dec_many {T} (c : codec T) (n : nat) (bs : list Z) : option (list T * list Z) :=
  match n with
  | O => Some ([], bs)
  | S n' => match dec c bs with
            | Some (x, bs') => match dec_many c n' bs' with Some (xs, rest) => Some (x :: xs, rest) | None => None end
            | None => None
            end
  end.
Definition vec_codec {T} (c : codec T) : codec (list T) := Codec
  (fun l => enc u64_codec (length l) ++ concat (map (enc c) l))
  (fun bs => match dec u64_codec bs with Some (n, bs') => dec_many c n bs' | None => None end).

(* #[derive(CanonicalSerialize, CanonicalDeserialize)]: the fields one after the other, in declaration order *)
Definition pair_codec {A B} (a : codec A) (b : codec B) : codec (A * B) := Codec
  (fun p => enc a (fst p) ++ enc b (snd p))
  (fun bs => match dec a bs with
             | Some (x, bs') => match dec b bs' with Some (y, rest) => Some ((x, y), rest) | None => None end
             | None => None
             end).
(* a struct is its tuple of fields *)
Definition struct_codec {T U} (fields : T -> U) (build : U -> T) (c : codec U) : codec T := Codec
  (fun t => enc c (fields t))
  (fun bs => match dec c bs with Some (u, rest) => Some (build u, rest) | None => None end).

Section Types.
Context {E : pairing} (g1 : codec (G1 E)) (g2 : codec (G2 E)).
Let fr : codec (Fr E) := fr_codec (K_of E).

(* src/encryption.rs:36-47 *)
Definition ciphertext_codec : codec (ciphertext E) := struct_codec
  (fun c => (ct_X_r c, (ct_enc_chunks c, ct_commitment c)))
  (fun '(a, (b, c)) => Ciphertext a b c)
  (pair_codec g1 (pair_codec (vec_codec g1) g1)).
(* src/keygen.rs:27-39 *)
Definition secret_key_codec : codec (Fr E) := fr.
(* src/keygen.rs:43-53 *)
Definition secret_key_st_codec : codec (secret_key_st E) := struct_codec
  (fun k => (st_s k, st_t k)) (fun '(a, b) => SecretKeyST a b)
  (pair_codec (vec_codec fr) (vec_codec fr)).
(* src/keygen.rs:57-64 *)
Definition p1share_codec : codec (p1share E) := struct_codec (fun k => p1_P_1 k) (fun a => P1share a) g1.
(* src/keygen.rs:68-87 *)
Definition ek_partial_codec : codec (ek_partial E) := struct_codec
  (fun k => (ekp_X_0 k, (ekp_X k, (ekp_Y k, (ekp_Z k, ekp_P_2 k)))))
  (fun '(a, (b, (c, (d, e)))) => FEncryptionKeyPartial a b c d e)
  (pair_codec g1 (pair_codec (vec_codec g1) (pair_codec (vec_codec g1) (pair_codec (vec_codec g2) g1)))).
(* src/keygen.rs:91-113 *)
Definition encryption_key_codec : codec (encryption_key E) := struct_codec
  (fun k => (ek_X_0 k, (ek_X k, (ek_Y k, (ek_Z k, (ek_P_1 k, ek_P_2 k))))))
  (fun '(a, (b, (c, (d, (e, f))))) => EncryptionKey a b c d e f)
  (pair_codec g1 (pair_codec (vec_codec g1) (pair_codec (vec_codec g1) (pair_codec (vec_codec g2) (pair_codec g1 g1))))).
(* src/keygen.rs:117-125 *)
Definition ek_dest_codec : codec (ek_dest E) := struct_codec (fun k => ekd_pk k) (fun a => FEncryptionKeyDest a) g1.
(* src/keygen.rs:146-159 *)
Definition decryption_key_codec : codec (decryption_key E) := struct_codec
  (fun k => (dk_V_0 k, (dk_V_1 k, dk_V_2 k))) (fun '(a, (b, c)) => DecryptionKey a b c)
  (pair_codec g2 (pair_codec (vec_codec g2) (vec_codec g2))).
(* src/commitment.rs:43-49 (the struct ChunkedCommitment is a pair, as in Commitment.v) *)
Definition chunked_commitment_codec : codec (G1 E * list (G1 E)) := pair_codec g1 (vec_codec g1).
(* src/utils.rs:91-100 *)
Definition window_table_codec : codec (@window_table (K_of E) (G1 E)) := struct_codec
  (fun w => (wt_scalar_size w, (wt_window_size w, (wt_outerc w, wt_table w))))
  (fun '(a, (b, (c, d))) => WindowTable a b c d)
  (pair_codec u64_codec (pair_codec u64_codec (pair_codec u64_codec (vec_codec (vec_codec g1))))).
(* ark_groth16::VerifyingKey and ProvingKey (dependency) and src/saver_groth16.rs:29-39 *)
Definition verifying_key_codec : codec (verifying_key E) := struct_codec
  (fun k => (vk_alpha_g1 k, (vk_beta_g2 k, (vk_gamma_g2 k, (vk_delta_g2 k, vk_gamma_abc_g1 k)))))
  (fun '(a, (b, (c, (d, e)))) => VerifyingKey a b c d e)
  (pair_codec g1 (pair_codec g2 (pair_codec g2 (pair_codec g2 (vec_codec g1))))).
Definition groth16_proving_key_codec : codec (groth16_proving_key E) := struct_codec
  (fun k => (gpk_vk k, (gpk_beta_g1 k, (gpk_delta_g1 k, (gpk_a_query k, (gpk_b_g1_query k, (gpk_b_g2_query k, (gpk_h_query k, gpk_l_query k))))))))
  (fun '(a, (b, (c, (d, (e, (f, (g, h))))))) => Groth16ProvingKey a b c d e f g h)
  (pair_codec verifying_key_codec (pair_codec g1 (pair_codec g1 (pair_codec (vec_codec g1) (pair_codec (vec_codec g1)
    (pair_codec (vec_codec g2) (pair_codec (vec_codec g1) (vec_codec g1)))))))).
Definition proving_key_codec : codec (proving_key E) := struct_codec
  (fun k => (pk_pk k, pk_gamma_g1 k)) (fun '(a, b) => ProvingKey a b)
  (pair_codec groth16_proving_key_codec g1).
End Types.

(* ---------- serde ---------- *)
(* What a serde Serializer receives / a Deserializer offers.  The text or binary format below it (serde_json, rmp_serde) is
   not modelled. *)
Inductive value :=
| VNum (n : Z)                         (* an unsigned integer *)
| VSeq (l : list value)                (* a sequence or tuple *)
| VMap (l : list (string * value)).    (* a struct with its field names *)

Record serde (T : Type) := Serde { to_value : T -> value; of_value : value -> option T }.
Arguments Serde {T} _ _.
Arguments to_value {T} _ _.
Arguments of_value {T} _ _.

Fixpoint opt_map {A B} (f : A -> option B) (l : list A) : option (list B) :=
  match l with
  | [] => Some []
  | a :: l' => match f a, opt_map f l' with Some b, Some bs => Some (b :: bs) | _, _ => None end
  end.
(* <u8 as Deserialize>: an integer in range *)
Definition u8_of_value (v : value) : option Z :=
  match v with VNum n => if (0 <=? n) && (n <? 256) then Some n else None | _ => None end.

(* src/serde_utils.rs:14-25 AsCanonical::serialize: the compressed bytes, as a Vec<u8>;
   src/serde_utils.rs:26-33 AsCanonical::deserialize: reads a Vec<u8> and decodes from the front of it *)
Definition as_canonical {T} (c : codec T) : serde T := Serde
  (fun x => VSeq (map VNum (enc c x)))
  (fun v => match v with
            | VSeq l => match opt_map u8_of_value l with
                        | Some bytes => match dec c bytes with Some (x, _) => Some x | None => None end
                        | None => None
                        end
            | _ => None
            end).
(* #[serde_as(as = "Vec<..>")] *)
Definition as_vec {T} (s : serde T) : serde (list T) := Serde
  (fun l => VSeq (map (to_value s) l))
  (fun v => match v with VSeq l => opt_map (of_value s) l | _ => None end).
(* usize under serde: an integer below 2^64 *)
Definition usize_serde : serde nat := Serde
  (fun n => VNum (Z.of_nat n))
  (fun v => match v with VNum n => if (0 <=? n) && (n <? 2 ^ 64) then Some (Z.to_nat n) else None | _ => None end).

(* #[derive(Deserialize)] on a struct with named fields: from a map every field must occur exactly once, in any order, and
   other keys are skipped; from a sequence the fields are taken by position *)
Definition lookup_one (l : list (string * value)) (name : string) : option value :=
  match filter (fun kv => String.eqb (fst kv) name) l with [kv] => Some (snd kv) | _ => None end.
Definition struct_fields (names : list string) (v : value) : option (list value) :=
  match v with
  | VMap l => opt_map (lookup_one l) names
  | VSeq l => if Nat.eqb (length l) (length names) then Some l else None
  | _ => None
  end.

Section SerdeTypes.
Context {E : pairing} (g1 : codec (G1 E)) (g2 : codec (G2 E)).
Let fr : codec (Fr E) := fr_codec (K_of E).
Let one1 := as_canonical g1.
Let vec1 := as_vec (as_canonical g1).
Let one2 := as_canonical g2.
Let vec2 := as_vec (as_canonical g2).
Let vecF := as_vec (as_canonical fr).
Local Open Scope string_scope.

(* src/encryption.rs:35-47 *)
Definition ciphertext_serde : serde (ciphertext E) := Serde
  (fun c => VMap [("X_r", to_value one1 (ct_X_r c)); ("enc_chunks", to_value vec1 (ct_enc_chunks c)); ("commitment", to_value one1 (ct_commitment c))])
  (fun v => match struct_fields ["X_r"; "enc_chunks"; "commitment"] v with
            | Some [a; b; c] => match of_value one1 a, of_value vec1 b, of_value one1 c with
                                | Some a, Some b, Some c => Some (Ciphertext a b c) | _, _, _ => None end
            | _ => None end).
(* src/keygen.rs:26-39: a newtype struct is its content *)
Definition secret_key_serde : serde (Fr E) := as_canonical fr.
(* src/keygen.rs:42-53 *)
Definition secret_key_st_serde : serde (secret_key_st E) := Serde
  (fun k => VMap [("s", to_value vecF (st_s k)); ("t", to_value vecF (st_t k))])
  (fun v => match struct_fields ["s"; "t"] v with
            | Some [a; b] => match of_value vecF a, of_value vecF b with Some a, Some b => Some (SecretKeyST a b) | _, _ => None end
            | _ => None end).
(* src/keygen.rs:56-64 *)
Definition p1share_serde : serde (p1share E) := Serde
  (fun k => VMap [("P_1", to_value one1 (p1_P_1 k))])
  (fun v => match struct_fields ["P_1"] v with
            | Some [a] => match of_value one1 a with Some a => Some (P1share a) | None => None end
            | _ => None end).
(* src/keygen.rs:67-87 *)
Definition ek_partial_serde : serde (ek_partial E) := Serde
  (fun k => VMap [("X_0", to_value one1 (ekp_X_0 k)); ("X", to_value vec1 (ekp_X k)); ("Y", to_value vec1 (ekp_Y k));
                  ("Z", to_value vec2 (ekp_Z k)); ("P_2", to_value one1 (ekp_P_2 k))])
  (fun v => match struct_fields ["X_0"; "X"; "Y"; "Z"; "P_2"] v with
            | Some [a; b; c; d; e] => match of_value one1 a, of_value vec1 b, of_value vec1 c, of_value vec2 d, of_value one1 e with
                                      | Some a, Some b, Some c, Some d, Some e => Some (FEncryptionKeyPartial a b c d e) | _, _, _, _, _ => None end
            | _ => None end).
(* src/keygen.rs:90-113 *)
Definition encryption_key_serde : serde (encryption_key E) := Serde
  (fun k => VMap [("X_0", to_value one1 (ek_X_0 k)); ("X", to_value vec1 (ek_X k)); ("Y", to_value vec1 (ek_Y k));
                  ("Z", to_value vec2 (ek_Z k)); ("P_1", to_value one1 (ek_P_1 k)); ("P_2", to_value one1 (ek_P_2 k))])
  (fun v => match struct_fields ["X_0"; "X"; "Y"; "Z"; "P_1"; "P_2"] v with
            | Some [a; b; c; d; e; f] => match of_value one1 a, of_value vec1 b, of_value vec1 c, of_value vec2 d, of_value one1 e, of_value one1 f with
                                      | Some a, Some b, Some c, Some d, Some e, Some f => Some (EncryptionKey a b c d e f) | _, _, _, _, _, _ => None end
            | _ => None end).
(* src/keygen.rs:116-125 *)
Definition ek_dest_serde : serde (ek_dest E) := Serde
  (fun k => VMap [("pk", to_value one1 (ekd_pk k))])
  (fun v => match struct_fields ["pk"] v with
            | Some [a] => match of_value one1 a with Some a => Some (FEncryptionKeyDest a) | None => None end
            | _ => None end).
(* src/keygen.rs:145-159 *)
Definition decryption_key_serde : serde (decryption_key E) := Serde
  (fun k => VMap [("V_0", to_value one2 (dk_V_0 k)); ("V_1", to_value vec2 (dk_V_1 k)); ("V_2", to_value vec2 (dk_V_2 k))])
  (fun v => match struct_fields ["V_0"; "V_1"; "V_2"] v with
            | Some [a; b; c] => match of_value one2 a, of_value vec2 b, of_value vec2 c with
                                | Some a, Some b, Some c => Some (DecryptionKey a b c) | _, _, _ => None end
            | _ => None end).
(* src/commitment.rs:42-49: a tuple struct *)
Definition chunked_commitment_serde : serde (G1 E * list (G1 E)) := Serde
  (fun c => VSeq [to_value one1 (fst c); to_value vec1 (snd c)])
  (fun v => match v with
            | VSeq [a; b] => match of_value one1 a, of_value vec1 b with Some a, Some b => Some (a, b) | _, _ => None end
            | _ => None end).
(* src/utils.rs:90-100 *)
Definition window_table_serde : serde (@window_table (K_of E) (G1 E)) := Serde
  (fun w => VMap [("scalar_size", to_value usize_serde (wt_scalar_size w)); ("window_size", to_value usize_serde (wt_window_size w));
                  ("outerc", to_value usize_serde (wt_outerc w)); ("table", to_value (as_vec vec1) (wt_table w))])
  (fun v => match struct_fields ["scalar_size"; "window_size"; "outerc"; "table"] v with
            | Some [a; b; c; d] => match of_value usize_serde a, of_value usize_serde b, of_value usize_serde c, of_value (as_vec vec1) d with
                                   | Some a, Some b, Some c, Some d => Some (WindowTable a b c d) | _, _, _, _ => None end
            | _ => None end).
(* src/saver_groth16.rs:28-39 *)
Definition proving_key_serde : serde (proving_key E) := Serde
  (fun k => VMap [("pk", to_value (as_canonical (groth16_proving_key_codec g1 g2)) (pk_pk k)); ("gamma_g1", to_value one1 (pk_gamma_g1 k))])
  (fun v => match struct_fields ["pk"; "gamma_g1"] v with
            | Some [a; b] => match of_value (as_canonical (groth16_proving_key_codec g1 g2)) a, of_value one1 b with
                             | Some a, Some b => Some (ProvingKey a b) | _, _ => None end
            | _ => None end).
End SerdeTypes.
