(* PropVerify.v -- C19-C23: verification of the ciphertext commitment, individually and in batch. *)
From Verif Require Import Base BaseFacts Algebra Utils UtilsFacts Setup Keygen KeygenFacts Encryption
  EncryptFacts DecryptFacts RoundTrip VerifyFacts Spec KeySpec VecFacts Protocol ReencFacts DistFacts Instance Examples.

(* An encryption key that keygen returned, or that one or more honest parties obtained together. *)
Definition honest_key {E} (b : Z) (gens : encryption_gens E) (g_i : list (G1 E)) (delta gamma : G1 E) (ek : encryption_key E) : Prop :=
  (exists sk dk, from_keygen b gens g_i delta gamma sk ek dk) \/ (exists parties, from_dkg b gens g_i delta gamma parties ek).

Lemma honest_key_inv {E} b (gens : encryption_gens E) g_i delta gamma ek : honest_key b gens g_i delta gamma ek ->
  exists n s t0 t, chunks_count (K_of E) b = Ok (Z.of_nat n) /\ (n <= length g_i)%nat /\ (n < 256)%nat /\
    length s = n /\ length t = n /\ ek = ek_formula gens g_i delta gamma s t0 t.
Proof.
  intros [(sk & dk & H)|(ps & Hne & Hp & Hd)].
  - apply from_keygen_inv in H. destruct H as (n & s & t0 & t & v & H1 & H2 & H3 & H4 & H5 & _ & H6 & _). exists n, s, t0, t. repeat split; assumption.
  - destruct ps as [|p ps]; [contradiction|]. pose proof (Forall_inv Hp) as Hp0. apply from_partial_inv in Hp0.
    destruct Hp0 as (n & _ & _ & _ & Hn & Hg & Hlt & _). rewrite (dkg_formula b gens g_i delta gamma (p :: ps) n Hn Hne Hp) in Hd.
    do 4 eexists. split; [exact Hn|]. split; [exact Hg|]. split; [exact Hlt|]. split; [apply fcol_sum_length|]. split; [apply fcol_sum_length|].
    symmetry. assert (forall A (x y : A), Ok x = Ok y -> x = y) as I by congruence. apply I in Hd. exact Hd.
Qed.

(* ===== C19 ===== *)
Theorem C19_honest_chunk_ciphertexts_verify :
  forall (E : pairing) b gens g_i delta gamma (ek : encryption_key E) m c_0 c psi r,
  honest_key b gens g_i delta gamma ek -> encrypts ek g_i m (c_0 :: c ++ [psi]) r ->
  verify_ciphertext_commitment c_0 c psi (prepare_ek ek) (prepare_gens gens) = Ok tt.
Proof.
  intros E b gens g_i delta gamma ek m c_0 c psi r Hk He. apply honest_key_inv in Hk. destruct Hk as (n & s & t0 & t & Hn & Hg & Hlt & Hs & Ht & Hek).
  apply encrypts_inv in He. destruct He as (n' & Hw & Hm & Hg' & Hct). apply ct_vec_eq in Hct. destruct Hct as (-> & -> & ->).
  pose proof (formula_wf gens g_i delta gamma s t0 t n Hs Ht Hg Hlt) as Hw'. rewrite <- Hek in Hw'.
  assert (Hnn : n' = n) by (destruct Hw as (_ & A & _); destruct Hw' as (_ & B & _); congruence). 
  pose proof (honest_verifies gens g_i delta gamma s t0 t m r n Hs Ht ltac:(lia) Hg Hlt) as H. cbv zeta in H. rewrite <- Hek in H. exact H.
Qed.
Theorem C19_honest_message_ciphertexts_verify :
  forall (pf : profile) (E : pairing) (R : rng_impl E) b b' gens g_i delta gamma (ek : encryption_key E) (msg : Fr E) st ct r st',
  honest_key b gens g_i delta gamma ek -> encrypt pf R msg ek g_i b' st = Ok (ct, r, st') ->
  verify_commitment ct (prepare_ek ek) (prepare_gens gens) = Ok tt.
Proof.
  intros pf E R b b' gens g_i delta gamma ek msg st ct r st' Hk He. apply encrypt_inv in He. destruct He as (ds & _ & He).
  unfold verify_commitment. apply (C19_honest_chunk_ciphertexts_verify E b gens g_i delta gamma ek ds _ _ _ r Hk). exists R, st, st'. exact He.
Qed.

(* ===== C20 ===== *)
(* t_0, t: the scalars with Z = (t_0, t_1, ...) H *)
Theorem C20_verification_exact :
  forall (E : pairing) b gens g_i delta gamma (ek : encryption_key E), honest_key b gens g_i delta gamma ek -> eg_H gens <> gzero ->
  exists t0 t, ek_Z ek = map (fun x => x [*] eg_H gens) (t0 :: t) /\ length t = length (ek_X ek) /\
  forall c_0 c psi,
    (verify_ciphertext_commitment c_0 c psi (prepare_ek ek) (prepare_gens gens) = Ok tt <->
       length c = length (ek_X ek) /\ psi = (t0 [*] c_0) [+] dot t c) /\
    (length c = length (ek_X ek) -> psi <> (t0 [*] c_0) [+] dot t c ->
       verify_ciphertext_commitment c_0 c psi (prepare_ek ek) (prepare_gens gens) = Err InvalidCommitment) /\
    (length c <> length (ek_X ek) ->
       verify_ciphertext_commitment c_0 c psi (prepare_ek ek) (prepare_gens gens) = Err (IncompatibleEncryptionKey (length c) (length (ek_X ek)))).
Proof.
  intros E b gens g_i delta gamma ek Hk HH. apply honest_key_inv in Hk. destruct Hk as (n & s & t0 & t & Hn & Hg & Hlt & Hs & Ht & Hek).
  pose proof (formula_wf gens g_i delta gamma s t0 t n Hs Ht Hg Hlt) as Hw. rewrite <- Hek in Hw. pose proof Hw as (_ & LX & _).
  exists t0, t. split; [rewrite Hek; reflexivity|]. split; [lia|]. intros c_0 c psi. rewrite LX.
  pose proof (verify_exact gens g_i delta gamma s t0 t n (Ciphertext c_0 c psi) HH Hs Ht Hg Hlt) as X. rewrite <- Hek in X. cbn [ct_X_r ct_enc_chunks ct_commitment] in X.
  unfold verify_commitment in X. cbn [ct_X_r ct_enc_chunks ct_commitment] in X.
  pose proof (verify_wf n (Ciphertext c_0 c psi) ek gens Hw) as V. unfold verify_commitment in V. cbn [ct_X_r ct_enc_chunks ct_commitment] in V.
  split; [exact X|]. split.
  - intros Hl Hne. rewrite Hl, Nat.eqb_refl in V. cbn [negb] in V. rewrite V.
    destruct (gis_zero (defect ek gens (Ciphertext c_0 c psi))); [|reflexivity]. exfalso.
    apply X in V. destruct V as [_ V]. contradiction.
  - intros Hl. rewrite V. destruct (Nat.eqb_spec (length c) n); [contradiction|]. reflexivity.
Qed.
(* no ciphertext body has two accepted commitments -- for every key, honest or not *)
Theorem C20_accepted_commitment_unique :
  forall (E : pairing) (c_0 : G1 E) c psi psi' (ek : encryption_key E) gens, eg_H gens <> gzero ->
  verify_ciphertext_commitment c_0 c psi (prepare_ek ek) (prepare_gens gens) = Ok tt ->
  verify_ciphertext_commitment c_0 c psi' (prepare_ek ek) (prepare_gens gens) = Ok tt -> psi = psi'.
Proof.
  intros E c_0 c psi psi' ek gens HH H1 H2.
  pose proof (accepted_commitment_unique (Ciphertext c_0 c psi) (Ciphertext c_0 c psi') ek gens HH eq_refl eq_refl H1 H2) as X. congruence.
Qed.
(* changing exactly one element i of an accepted ciphertext (0 is c_0) is detected whenever Z_i is not the identity *)
Theorem C20_changed_element_rejected :
  forall (E : pairing) (ct1 ct2 : ciphertext E) (ek : encryption_key E) gens i,
  length (ct_enc_chunks ct1) = length (ct_enc_chunks ct2) -> ct_commitment ct1 = ct_commitment ct2 ->
  (forall j, j <> i -> nth j (ct_X_r ct1 :: ct_enc_chunks ct1) gzero = nth j (ct_X_r ct2 :: ct_enc_chunks ct2) gzero) ->
  nth i (ct_X_r ct1 :: ct_enc_chunks ct1) gzero <> nth i (ct_X_r ct2 :: ct_enc_chunks ct2) gzero ->
  nth i (ek_Z ek) gzero <> gzero ->
  verify_commitment ct1 (prepare_ek ek) (prepare_gens gens) = Ok tt ->
  verify_commitment ct2 (prepare_ek ek) (prepare_gens gens) = Err InvalidCommitment.
Proof. intros E. exact (@changed_element_rejected E). Qed.

(* ===== C21 ===== *)
Theorem C21_batch_complete :
  forall (E : pairing) (cts : list (ciphertext E)) rs (ek : encryption_key E) gens, cts <> [] -> length rs = length cts ->
  Forall (fun ct => verify_commitment ct (prepare_ek ek) (prepare_gens gens) = Ok tt) cts ->
  verify_commitments_in_batch cts rs (prepare_ek ek) (prepare_gens gens) = Ok tt.
Proof. intros E. exact (@batch_complete E). Qed.
Theorem C21_batch_of_one : forall (E : pairing) (ct : ciphertext E) (ek : encryption_key E) gens,
  verify_commitments_in_batch [ct] [fone] (prepare_ek ek) (prepare_gens gens) = verify_commitment ct (prepare_ek ek) (prepare_gens gens).
Proof. intros E. exact (@batch_single E). Qed.

(* ===== C22 ===== *)
Theorem C22_batch_sound :
  forall (E : pairing) (cts : list (ciphertext E)) (ek : encryption_key E) gens (bad : ciphertext E) (challenges : list (Fr E)),
  In bad cts -> verify_commitment bad (prepare_ek ek) (prepare_gens gens) <> Ok tt ->
  NoDup challenges ->
  (forall r, In r challenges ->
     verify_commitments_in_batch cts (map (fpow r) (seq 0 (length cts))) (prepare_ek ek) (prepare_gens gens) = Ok tt) ->
  (length challenges <= length cts - 1)%nat.
Proof.
  intros E cts ek gens bad rs Hin Hbad Hnd Hacc.
  destruct (le_lt_dec (length cts) (length rs)) as [H|H]; [|lia]. exfalso.
  assert (Hrs : rs <> []) by (intros ->; destruct cts; [contradiction|cbn in H; lia]).
  pose proof (batch_sound cts ek gens rs Hnd Hacc H Hrs) as F. rewrite Forall_forall in F. exact (Hbad (F bad Hin)).
Qed.

(* ===== C23 ===== *)
Theorem C23_batch_failures_exact :
  forall (E : pairing) (cts : list (ciphertext E)) rs (ek : encryption_key E) gens (n : nat),
  ek_supported_chunks_count ek = Ok (Z.of_nat n) -> length (ek_X ek) = n ->
  let r := verify_commitments_in_batch cts rs (prepare_ek ek) (prepare_gens gens) in
  (r = Panic <-> length rs <> length cts \/ cts = []) /\
  (forall pre ct post, length rs = length cts -> cts = pre ++ ct :: post -> Forall (fun c => length (ct_enc_chunks c) = n) pre ->
     length (ct_enc_chunks ct) <> n -> r = Err (IncompatibleEncryptionKey (length (ct_enc_chunks ct)) n)) /\
  (length rs = length cts -> cts <> [] -> Forall (fun c => length (ct_enc_chunks c) = n) cts -> r = Ok tt \/ r = Err InvalidCommitment).
Proof.
  intros E cts rs ek gens n Hc HX. cbv zeta. rewrite batch_total. cbv zeta. rewrite HX.
  unfold ek_supported_chunks_count, enc_supported_chunks_count in Hc. rewrite HX in Hc.
  destruct (Nat.eqb (length (ek_Y ek)) n); cbn [negb] in *; [|discriminate].
  destruct (Nat.eqb (length (ek_Z ek)) (n + 1)); cbn [negb] in *; [|discriminate].
  assert (Hn : (n < 256)%nat).
  { assert (A : as_u8 (Z.of_nat n) = Z.of_nat n) by congruence. unfold as_u8 in A. pose proof (Z.mod_pos_bound (Z.of_nat n) (2 ^ 8) ltac:(lia)). lia. }
  rewrite (Nat.mod_small n 256) by exact Hn.
  destruct (Nat.leb_spec 256 n) as [|_]; [lia|].
  destruct (Nat.eqb_spec (length rs) (length cts)) as [El|El]; cbn [negb].
  2:{ split; [tauto|]. split; intros; contradiction. }
  set (bad := fun ct : ciphertext E => negb (Nat.eqb (length (ct_enc_chunks ct)) n)).
  assert (Fno : forall l, Forall (fun c : ciphertext E => length (ct_enc_chunks c) = n) l -> filter bad l = []).
  { intros l Hl. induction Hl as [|x l Hx Hl IH]; [reflexivity|]. cbn [filter]. unfold bad at 1. rewrite Hx, Nat.eqb_refl. exact IH. }
  split; [|split].
  - destruct (filter bad cts) as [|x l] eqn:Ef.
    + destruct cts as [|c cts]; [tauto|]. destruct (gis_zero _); (split; [discriminate|]); intros [H|H]; [contradiction|discriminate|contradiction|discriminate].
    + split; [discriminate|]. intros [H|H]; [contradiction|]. subst. discriminate.
  - intros pre ct post _ -> Hpre Hct. rewrite filter_app, (Fno pre Hpre). cbn [app filter]. unfold bad at 1.
    destruct (Nat.eqb_spec (length (ct_enc_chunks ct)) n); [contradiction|]. cbn [negb]. reflexivity.
  - intros _ Hne Hall. rewrite (Fno cts Hall). destruct cts; [contradiction|]. destruct (gis_zero _); auto.
Qed.

(* ----- concrete cases ----- *)
Example ex_honest_keys : honest_key 4 x_gens x_gi x_delta x_gamma x_ek /\ honest_key 4 x_gens x_gi x_delta x_gamma x_dkg_ek /\ eg_H x_gens <> gzero /\
  encrypts x_dkg_ek x_gi x_msg1 (x_ct x_dkg_ek x_msg1 x_r1) x_r1.
Proof.
  split; [left; exists x_rho, x_dk; exact x_keygen|]. split; [right; exists x_parties; exact x_dkg|]. split; [exact x_H|].
  apply x_encrypts_dkg; reflexivity.
Qed.
(* a batch of two honest ciphertexts and a tampered one: rejected by the model, as the theorem says for all but two challenges *)
Definition x_ct1 : ciphertext E61 := ct_formula x_dkg_ek x_gi x_msg1 x_r1.
Definition x_ct2 : ciphertext E61 := ct_formula x_dkg_ek x_gi x_msg2 x_r2.
Definition x_bad : ciphertext E61 := Ciphertext (ct_X_r x_ct1) (ct_enc_chunks x_ct1) (ct_commitment x_ct1 [+] eg_G x_gens).
Example ex_batch :
  verify_commitment x_ct1 (prepare_ek x_dkg_ek) (prepare_gens x_gens) = Ok tt /\
  verify_commitment x_bad (prepare_ek x_dkg_ek) (prepare_gens x_gens) = Err InvalidCommitment /\
  verify_commitments_in_batch [x_ct1; x_ct2; x_ct1] (map (fpow (nz61 5)) (seq 0 3)) (prepare_ek x_dkg_ek) (prepare_gens x_gens) = Ok tt /\
  verify_commitments_in_batch [x_ct1; x_bad; x_ct2] (map (fpow (nz61 5)) (seq 0 3)) (prepare_ek x_dkg_ek) (prepare_gens x_gens) = Err InvalidCommitment /\
  verify_commitments_in_batch [x_ct1; x_bad; x_ct2] (map (fpow (nz61 0)) (seq 0 3)) (prepare_ek x_dkg_ek) (prepare_gens x_gens) = Ok tt.
Proof. repeat split; vm_compute; reflexivity. Qed.
