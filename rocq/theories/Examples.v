(* Examples.v -- concrete keys, parties and ciphertexts used to show that the hypotheses of the property theorems are met
   by non-trivial cases.  All of them are outputs of the modelled functions run on a replayed random tape. *)
From Verif Require Import Base BaseFacts Algebra Utils Setup Keygen KeygenFacts Encryption EncryptFacts Spec KeySpec Protocol Instance.

Definition nz61 (z : Z) : Fr E61 := of_Z z.
Definition range61 (a : Z) (n : nat) : list (Fr E61) := map (fun i => of_Z (a + Z.of_nat i)) (seq 0 n).

Definition x_gens : encryption_gens E61 := @EncryptionGens E61 (of_Z 3) (of_Z 5).
Definition x_gi : list (G1 E61) := range61 100 16.
Definition x_delta : G1 E61 := of_Z 11.
Definition x_gamma : G1 E61 := of_Z 13.
Definition x_s := range61 1000 16.
Definition x_t0 := nz61 77.
Definition x_t := range61 2000 16.
Definition x_v := range61 3000 16.
Definition x_rho := nz61 999.
Definition x_ek : encryption_key E61 := ek_formula x_gens x_gi x_delta x_gamma x_s x_t0 x_t.
Definition x_dk : decryption_key E61 := dk_formula x_gens x_rho x_s x_v.

Lemma x_count : chunks_count (K_of E61) 4 = Ok (Z.of_nat 16).
Proof. vm_compute. reflexivity. Qed.
Lemma x_lengths : length x_s = 16%nat /\ length x_t = 16%nat /\ length x_v = 16%nat /\ length x_gi = 16%nat.
Proof. repeat split; vm_compute; reflexivity. Qed.

(* a key pair returned by keygen *)
Lemma x_keygen : from_keygen 4 x_gens x_gi x_delta x_gamma x_rho x_ek x_dk.
Proof.
  exists (replay_rng E61), (x_rho :: x_s ++ (x_t0 :: x_t) ++ x_v ++ []), [].
  destruct x_lengths as (A & B & C & D). apply (keygen_replay 4 x_gens x_gi x_delta x_gamma 16); try assumption; [exact x_count|lia].
Qed.

Definition nonzero61 (l : list (scalar M61)) : bool := forallb (fun x => negb (feqb x fzero)) l.
Lemma nonzero61_spec (l : list (scalar M61)) : nonzero61 l = true -> Forall (fun x : AddGroup M61 => x <> gzero) l.
Proof.
  intros H. apply Forall_forall. intros x Hx. unfold nonzero61 in H. rewrite forallb_forall in H. specialize (H x Hx).
  intros ->. change (@gzero M61 (AddGroup M61)) with (@fzero M61) in H.
  assert (E : feqb (@fzero M61) fzero = true) by (apply feqb_spec; reflexivity). rewrite E in H. discriminate.
Qed.
Lemma x_nondegenerate : nondegenerate x_dk x_gi 16.
Proof. split; apply nonzero61_spec; vm_compute; reflexivity. Qed.
Lemma x_gi_nonzero : Forall (fun x => x <> gzero) (firstn 16 x_gi).
Proof. apply nonzero61_spec; vm_compute; reflexivity. Qed.
Lemma x_H : eg_H x_gens <> gzero.
Proof. intros H. apply (f_equal sval) in H. vm_compute in H. discriminate. Qed.

(* three parties *)
Definition x_party (a : Z) : secret_key_st E61 * ek_partial E61 :=
  (SecretKeyST (range61 a 16) (nz61 (a + 500) :: range61 (a + 600) 16),
   ekp_formula x_gens x_gi x_delta x_gamma (range61 a 16) (nz61 (a + 500)) (range61 (a + 600) 16)).
Lemma range61_length a n : length (range61 a n) = n.
Proof. unfold range61. rewrite map_length, seq_length. reflexivity. Qed.
Lemma x_party_honest a : from_partial 4 x_gens x_gi x_delta x_gamma (x_party a).
Proof.
  exists (replay_rng E61), (range61 a 16 ++ (nz61 (a + 500) :: range61 (a + 600) 16) ++ []), [].
  apply (partial_replay 4 x_gens x_gi x_delta x_gamma 16); [exact x_count | vm_compute; lia | apply range61_length | apply range61_length].
Qed.
Definition x_parties := [x_party 10; x_party 20; x_party 30].
Lemma x_parties_honest : Forall (from_partial 4 x_gens x_gi x_delta x_gamma) x_parties.
Proof. repeat constructor; apply x_party_honest. Qed.
Definition x_dkg_ek : encryption_key E61 := ek_formula x_gens x_gi x_delta x_gamma
  (fcol_sum 16 (map party_s x_parties)) (fsum (map party_t0 x_parties)) (fcol_sum 16 (map party_t x_parties)).
Lemma x_dkg : from_dkg 4 x_gens x_gi x_delta x_gamma x_parties x_dkg_ek.
Proof.
  assert (Hne : x_parties <> []) by discriminate.
  split; [exact Hne|]. split; [exact x_parties_honest|].
  exact (dkg_formula 4 x_gens x_gi x_delta x_gamma x_parties 16 x_count Hne x_parties_honest).
Qed.

(* ciphertexts *)
Definition x_msg1 : list Z := [1; 2; 3; 4; 5; 6; 7; 8; 9; 10; 11; 12; 13; 14; 15; 0].
Definition x_msg2 : list Z := [15; 14; 13; 12; 11; 10; 9; 8; 7; 6; 5; 4; 3; 2; 1; 0].
Definition x_r1 := nz61 4242.
Definition x_r2 := nz61 777777.
Definition x_ct (ek : encryption_key E61) (m : list Z) (r : Fr E61) : list (G1 E61) := ct_vec (ct_formula ek x_gi m r).
Lemma x_dkg_lengths : length (ek_X x_dkg_ek) = 16%nat /\ length (ek_Y x_dkg_ek) = 16%nat /\ length (ek_Z x_dkg_ek) = 17%nat.
Proof. repeat split; vm_compute; reflexivity. Qed.
Lemma x_encrypts_dkg m r : length m = 16%nat -> encrypts x_dkg_ek x_gi m (x_ct x_dkg_ek m r) r.
Proof.
  intros Hm. exists (replay_rng E61), [r], []. destruct x_dkg_lengths as (A & B & C). destruct x_lengths as (_ & _ & _ & D).
  unfold x_ct. apply (encrypt_chunks_ok (replay_rng E61) m x_dkg_ek x_gi [r]); lia.
Qed.
Lemma x_ek_lengths : length (ek_X x_ek) = 16%nat /\ length (ek_Y x_ek) = 16%nat /\ length (ek_Z x_ek) = 17%nat.
Proof. repeat split; vm_compute; reflexivity. Qed.
Lemma x_encrypts m r : length m = 16%nat -> encrypts x_ek x_gi m (x_ct x_ek m r) r.
Proof.
  intros Hm. exists (replay_rng E61), [r], []. destruct x_ek_lengths as (A & B & C). destruct x_lengths as (_ & _ & _ & D).
  unfold x_ct. apply (encrypt_chunks_ok (replay_rng E61) m x_ek x_gi [r]); lia.
Qed.

(* destination key and shares *)
Definition x_skd : Fr E61 := nz61 31337.
Definition x_ekd : ek_dest E61 := FEncryptionKeyDest (x_skd [*] eg_G x_gens).
Lemma x_dest : from_dest x_gens x_skd x_ekd.
Proof. exists (replay_rng E61), [x_skd], []. reflexivity. Qed.
