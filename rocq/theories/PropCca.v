(* PropCca.v -- theorems for C77: an attacker with a verifying decryption service learns nothing about the messages it may not ask for *)
From Verif Require Import Base BaseFacts Algebra Utils UtilsFacts Setup Keygen Encryption Circuit CircuitFacts CircuitSat CommitmentFacts VecFacts KeySpec KeygenFacts
  EncryptFacts DecryptFacts Spec VerifyFacts Protocol ReencFacts DistFacts PropVerify Groth16 ArkGroth16 PolyFacts Groth16Spec ArkFacts Groth16Facts SchwartzZippel SoundCore SoundSpec
  SoundAlg SoundGame SoundLink SoundFacts SoundCount SoundHonest PropUtils PropEnc PropGroth16 PropGroth16More PropGroth16Cases PropSound PropSoundCases PropZK PrivacySpec PrivacyAlg PrivacyGame PrivacyLink PrivacyCount
  PrivacySpan PrivacyMany PropPrivacy SoundDkgSpec SoundDkg SoundAdaptSpec SoundAdapt PropSoundAdapt NonmalCore NonmalAlg NonmalSpec NonmalGame NonmalRows NonmalLink NonmalCount PropNonmal
  RoundTrip CcaSpec Cca CcaCount Instance Examples.

(* The coins are those of the setup (3n+7) and of the encryptions (three each).  The attacker sees everything published, the decryption key
   included, and the ciphertexts and proofs of the messages; it may make t tests and q submissions, each depending on all earlier answers.
   The service refuses what does not verify, decrypts the rest, and keeps silent only about the protected messages.  The results for two
   lists of protected messages differ on a small fraction of the coins. *)
Theorem C77_result_rarely_depends_on_the_messages (E : pairing) (gens : encryption_gens E) (pf : profile)
    (domain : nat -> option (list (Fr E))) (fuel n : nat) (b : Z) (cs : csys (K_of E)) (xs : list (Fr E)) (protected msgs msgs' : list (Fr E))
    (t q : nat) (A : attacker E bool) (L : list (list (Fr E))) :
  eg_G gens <> gzero -> eg_H gens <> gzero -> domain_ok domain ->
  supported b -> 2 ^ b <= modulus (K_of E) ->
  64 * Z.of_nat (limbs (K_of E)) - b < modulus_bit_size (K_of E) -> 64 * Z.of_nat (limbs (K_of E)) < 256 * b ->
  chunks_count (K_of E) b = Ok (Z.of_nat n) -> (0 < n)%nat ->
  generate_constraints (BitsizeCheckCircuit b (Z.of_nat n) None true) (cs_new Circuit.Setup) = Ok cs ->
  domain (length (cs_cons cs) + cs_num_inst cs)%nat = Some xs ->
  within t q A -> length msgs' = length msgs -> incl msgs protected -> incl msgs' protected ->
  NoDup L ->
  (forall coins, In coins L -> length coins = (3 * n + 7 + 3 * length msgs)%nat /\
     experiment_cca pf (ark_backend pf domain fuel) gens b A protected msgs coins <> experiment_cca pf (ark_backend pf domain fuel) gens b A protected msgs' coins) ->
  let N := Z.of_nat (length xs) in let k := Z.of_nat (length msgs) in let m := 3 * Z.of_nat n in
  let T := Z.of_nat t + 2 * Z.of_nat q in
  let forged := T * (3 * N + 7 * (m + 6)) + (4 * N + 7 * (m + 6)) + k * (T + k) * (3 * N + 9 * (m + 9)) in
  Z.of_nat (length L) * modulus (K_of E) <=
  (N + (1 + Z.of_nat n + Z.of_nat n * (N + 2)) + 2 * T * k * (3 * N + 9 * (m + 9)) + 2 * Z.of_nat q * forged) * modulus (K_of E) ^ Z.of_nat (3 * n + 7 + 3 * length msgs).
Proof.
  intros HG HH Hd Hb HM C1 C2 Hc Hn Hcs Hxs W Hl I1 I2 Hnd HL. cbv zeta.
  pose proof (cca_bound n cs xs pf domain fuel b gens HG HH Hd Hb HM (conj C1 C2) Hc Hn Hcs Hxs protected msgs msgs' A t q L W (eq_sym Hl) I1 I2 Hnd HL) as B.
  unfold NM, D0 in B. replace (Z.of_nat t + 2 * Z.of_nat q) with (Z.of_nat (t + 2 * q)) by lia. set (Q := Z.of_nat (t + 2 * q)) in *. clearbody Q.
  eapply Z.le_trans; [exact B|]. apply Z.eq_le_incl. ring.
Qed.

(* in terms of the number of coins on which the attacker says yes: All lists every sequence of coins once *)
Theorem C77_decryption_service_does_not_reveal_protected_messages (E : pairing) (gens : encryption_gens E) (pf : profile)
    (domain : nat -> option (list (Fr E))) (fuel n k : nat) (b : Z) (cs : csys (K_of E)) (xs : list (Fr E)) (All : list (list (Fr E))) :
  eg_G gens <> gzero -> eg_H gens <> gzero -> domain_ok domain ->
  supported b -> 2 ^ b <= modulus (K_of E) ->
  64 * Z.of_nat (limbs (K_of E)) - b < modulus_bit_size (K_of E) -> 64 * Z.of_nat (limbs (K_of E)) < 256 * b ->
  chunks_count (K_of E) b = Ok (Z.of_nat n) -> (0 < n)%nat ->
  generate_constraints (BitsizeCheckCircuit b (Z.of_nat n) None true) (cs_new Circuit.Setup) = Ok cs ->
  domain (length (cs_cons cs) + cs_num_inst cs)%nat = Some xs ->
  NoDup All -> (forall coins, In coins All <-> length coins = (3 * n + 7 + 3 * k)%nat) ->
  forall (t q : nat) (A : attacker E bool) (protected msgs msgs' : list (Fr E)), within t q A -> length msgs = k -> length msgs' = k -> incl msgs protected -> incl msgs' protected ->
  let says_yes ms coins := match experiment_cca pf (ark_backend pf domain fuel) gens b A protected ms coins with Some g => g | None => false end in
  let yes ms := Z.of_nat (length (filter (says_yes ms) All)) in
  let N := Z.of_nat (length xs) in let m := 3 * Z.of_nat n in let T := Z.of_nat t + 2 * Z.of_nat q in
  let forged := T * (3 * N + 7 * (m + 6)) + (4 * N + 7 * (m + 6)) + Z.of_nat k * (T + Z.of_nat k) * (3 * N + 9 * (m + 9)) in
  Z.abs (yes msgs - yes msgs') * modulus (K_of E) <=
  (N + (1 + Z.of_nat n + Z.of_nat n * (N + 2)) + 2 * T * Z.of_nat k * (3 * N + 9 * (m + 9)) + 2 * Z.of_nat q * forged) * Z.of_nat (length All).
Proof.
  intros HG HH Hdom Hb HbM H1 H2 Hcount Hn0 Hcs Hxs Hnd HA t q A protected msgs msgs' W Lm Lm' I1 I2 says_yes yes. cbv zeta. rewrite (all_tuples_count _ All Hnd HA).
  pose proof (@modulus_gt1 (K_of E)) as Hp.
  eapply Z.le_trans; [apply Z.mul_le_mono_nonneg_r; [lia|apply count_difference]|].
  rewrite <- Lm. apply (C77_result_rarely_depends_on_the_messages E gens pf domain fuel n b cs xs protected msgs msgs' t q A _ HG HH Hdom Hb HbM H1 H2 Hcount Hn0 Hcs Hxs W); [congruence|exact I1|exact I2|apply NoDup_filter; exact Hnd|].
  intros coins Hin. apply filter_In in Hin. destruct Hin as [Hin Hne]. split; [rewrite Lm; apply HA; exact Hin|].
  intros Z. unfold says_yes in Hne. rewrite Z in Hne. rewrite Bool.eqb_reflx in Hne. discriminate Hne.
Qed.

(* The service does not help to forge either: what the attacker gets accepted in the end is an encryption of chunks of b bits that can be
   read off its combinations, or a copy of a ciphertext on the table. *)
Theorem C77_decryption_service_does_not_help_to_forge (E : pairing) (gens : encryption_gens E) (pf : profile)
    (domain : nat -> option (list (Fr E))) (fuel n : nat) (b : Z) (cs : csys (K_of E)) (xs : list (Fr E)) (protected msgs : list (Fr E))
    (t q : nat) (A : attacker E (strategy E)) (L : list (list (Fr E))) :
  eg_G gens <> gzero -> eg_H gens <> gzero -> domain_ok domain ->
  supported b -> 2 ^ b <= modulus (K_of E) ->
  64 * Z.of_nat (limbs (K_of E)) - b < modulus_bit_size (K_of E) -> 64 * Z.of_nat (limbs (K_of E)) < 256 * b ->
  chunks_count (K_of E) b = Ok (Z.of_nat n) -> (0 < n)%nat ->
  generate_constraints (BitsizeCheckCircuit b (Z.of_nat n) None true) (cs_new Circuit.Setup) = Ok cs ->
  domain (length (cs_cons cs) + cs_num_inst cs)%nat = Some xs ->
  within t q A -> incl msgs protected -> NoDup L ->
  (forall coins, In coins L -> length coins = (3 * n + 7 + 3 * length msgs)%nat /\ exists pk sk ek dk rest cps st' S,
     setup_for_groth16 (ark_backend pf domain fuel) (replay_rng E) b gens coins = Ok (pk, sk, ek, dk, rest) /\
     encrypt_all pf (ark_backend pf domain fuel) (replay_rng E) msgs ek pk b rest = Ok (cps, st') /\
     experiment_cca pf (ark_backend pf domain fuel) gens b A protected msgs coins = Some S /\
     let ct := ciphertext_from S (table_g1 gens pk ek cps) in
     let q := proof_from S (table_g1 gens pk ek cps) (table_g2 gens pk ek dk cps) in
     verify_commitment_and_proof ct q (prepare_verifying_key (gpk_vk (pk_pk pk))) (prepare_ek ek) (prepare_gens gens) = Ok tt /\
     ~ (digits_ok b (extracted_chunks n S) /\ exists g_i, get_gs_for_encryption (gpk_vk (pk_pk pk)) = Ok g_i /\
        encrypts ek g_i (extracted_chunks n S) (ct_vec ct) (extracted_r n S)) /\
     ~ (exists ct0 q0, In (ct0, q0) cps /\ ct = rerandomized ek (extracted_r n S) ct0 /\ exists kappa, kappa <> fzero /\ pr_a q = kappa [*] pr_a q0)) ->
  let N := Z.of_nat (length xs) in let k := Z.of_nat (length msgs) in let m := 3 * Z.of_nat n in
  let T := Z.of_nat t + 2 * Z.of_nat q in
  let forged := T * (3 * N + 7 * (m + 6)) + (4 * N + 7 * (m + 6)) + k * (T + k) * (3 * N + 9 * (m + 9)) in
  Z.of_nat (length L) * modulus (K_of E) <=
  (N + (1 + Z.of_nat n + Z.of_nat n * (N + 2)) + (Z.of_nat q + 1) * forged) * modulus (K_of E) ^ Z.of_nat (3 * n + 7 + 3 * length msgs).
Proof.
  intros HG HH Hd Hb HM C1 C2 Hc Hn Hcs Hxs W I1 Hnd HL. cbv zeta.
  pose proof (cca_forgery_bound n cs xs pf domain fuel b gens HG HH Hd Hb HM (conj C1 C2) Hc Hn Hcs Hxs protected msgs A t q L W I1 Hnd HL) as B.
  unfold NM, D0 in B. replace (Z.of_nat t + 2 * Z.of_nat q) with (Z.of_nat (t + 2 * q)) by lia. set (Q := Z.of_nat (t + 2 * q)) in *. clearbody Q.
  eapply Z.le_trans; [exact B|]. apply Z.eq_le_incl. ring.
Qed.

(* ---------- what the service answers ---------- *)
Section Service.
Context {E : pairing}.
Lemma opened_chunks pf b gens g_i delta gamma sk (ek : encryption_key E) dk ds (ct : ciphertext E) r : supported b -> 2 ^ b <= modulus (K_of E) ->
  from_keygen b gens g_i delta gamma sk ek dk -> nondegenerate dk g_i (length (dk_V_2 dk)) -> digits_ok b ds -> encrypts ek g_i ds (ct_vec ct) r ->
  decrypt_to_chunks pf (ct_X_r ct) (ct_enc_chunks ct) sk (prepare_dk dk) g_i b = Ok (ds, sk [*] ct_X_r ct).
Proof.
  intros Hb HM Hk Hn Hd (R & st & st' & He). destruct (encrypts_inv ek g_i ds (ct_vec ct) r) as (n & (Hlt & LX & _) & Ln & _ & _); [exists R, st, st'; exact He|].
  pose proof Hk as Hk'. apply from_keygen_inv in Hk'. destruct Hk' as (n' & s & t0 & t & v & Hc & Hg & Hlt' & Hs & Ht & Hv & Hek & Hdk).
  assert (L2 : length (dk_V_2 dk) = n') by (rewrite Hdk; unfold dk_formula; cbn [dk_V_2]; rewrite map_length; exact Hv).
  pose proof (ek_formula_lengths gens g_i delta gamma s t0 t n' Hs Ht Hg) as (Y & _). rewrite <- Hek in Y.
  apply (chunk_round_trip pf R b gens g_i delta gamma sk ek dk ds st (ct_X_r ct) (ct_enc_chunks ct) (ct_commitment ct) r st' b Hk); [replace (length ds) with (length (dk_V_2 dk)) by lia; exact Hn|exact He| |exact HM|exact Hd].
  destruct Hb as [-> | [-> | ->]]; lia.
Qed.
(* Whatever verifies and encrypts chunks of b bits is answered with these chunks, unless they are those of a protected message. *)
Theorem C77_service_opens_what_it_may (pf : profile) (B : groth16_backend E) (R : rng_impl E) b gens st pk sk (ek : encryption_key E) dk st' g_i protected
    (ct : ciphertext E) (q : proof E) ds r :
  supported b -> 2 ^ b <= modulus (K_of E) ->
  setup_for_groth16 B R b gens st = Ok (pk, sk, ek, dk, st') -> get_gs_for_encryption (gpk_vk (pk_pk pk)) = Ok g_i -> nondegenerate dk g_i (length (dk_V_2 dk)) ->
  verify_commitment_and_proof ct q (prepare_verifying_key (gpk_vk (pk_pk pk))) (prepare_ek ek) (prepare_gens gens) = Ok tt ->
  digits_ok b ds -> encrypts ek g_i ds (ct_vec ct) r ->
  ((exists m, In m protected /\ decompose pf m b = Ok ds) -> service pf b gens pk sk ek dk protected ct q = Protected) /\
  ((forall m, In m protected -> decompose pf m b <> Ok ds) -> service pf b gens pk sk ek dk protected ct q = Opened ds).
Proof.
  intros Hb HM Hset Hg Hn Hv Hd He. unfold setup_for_groth16 in Hset. apply bind_Ok_inv in Hset. destruct Hset as (circ & Hcirc & Hset).
  apply bind_Ok_inv in Hset. destruct Hset as ([pk0 st1] & Hsrs & Hset). apply bind_Ok_inv in Hset. destruct Hset as (g_i' & Hg' & Hset).
  apply bind_Ok_inv in Hset. destruct Hset as ([[[sk0 ek0] dk0] st2] & Hk & Hset).
  assert (pk0 = pk) by congruence. assert (ek0 = ek) by congruence. assert (sk0 = sk) by congruence. assert (dk0 = dk) by congruence. clear Hset. subst pk0 ek0 sk0 dk0.
  assert (g_i' = g_i) by congruence. subst g_i'.
  assert (HS : service pf b gens pk sk ek dk protected ct q = reply_for pf b protected ds).
  { unfold service. rewrite Hv, Hg. rewrite (opened_chunks pf b gens g_i (gpk_delta_g1 (pk_pk pk)) (pk_gamma_g1 pk) sk ek dk ds ct r); try assumption; [reflexivity|]. exists R, st1, st2. exact Hk. }
  rewrite HS. split.
  - intros (m & Hin & Hm). exact (reply_protected pf b protected m ds Hin Hm).
  - intros Hno. unfold reply_for. destruct (is_protected pf b protected ds) eqn:Z; [exfalso|reflexivity]. apply existsb_exists in Z. destruct Z as (m & Hin & Z). apply (Hno m Hin).
    destruct (decompose pf m b) as [ds'|err|]; [|discriminate Z|discriminate Z]. destruct (list_eq_dec Z.eq_dec ds' ds) as [->|_]; [reflexivity|discriminate Z].
Qed.
(* in particular honest ciphertexts of every message that is not protected are decrypted *)
Theorem C77_service_opens_honest_ciphertexts (pf : profile) (B : groth16_backend E) (R : rng_impl E) b gens st pk sk (ek : encryption_key E) dk st' g_i protected
    (R' : rng_impl E) (msg : Fr E) (st1 : rng_st R') :
  backend_correct B -> supported b -> 2 ^ b <= modulus (K_of E) ->
  64 * Z.of_nat (limbs (K_of E)) - b < modulus_bit_size (K_of E) -> 64 * Z.of_nat (limbs (K_of E)) < 256 * b ->
  setup_for_groth16 B R b gens st = Ok (pk, sk, ek, dk, st') -> get_gs_for_encryption (gpk_vk (pk_pk pk)) = Ok g_i -> nondegenerate dk g_i (length (dk_V_2 dk)) ->
  exists ct r q st2 ds, encrypt_with_proof pf B R' msg ek pk b st1 = Ok (ct, r, q, st2) /\ decompose pf msg b = Ok ds /\
    service pf b gens pk sk ek dk protected ct q = (if in_dec feq_dec msg protected then Protected else Opened ds).
Proof.
  intros HB Hb HM C1 C2 Hset Hg Hn. pose proof Hset as Hset0. unfold setup_for_groth16 in Hset. apply bind_Ok_inv in Hset. destruct Hset as (circ & Hcirc & Hset).
  apply bind_Ok_inv in Hset. destruct Hset as ([pk0 s1] & Hsrs & Hset). apply bind_Ok_inv in Hset. destruct Hset as (g_i' & Hg' & Hset).
  apply bind_Ok_inv in Hset. destruct Hset as ([[[sk0 ek0] dk0] s2] & Hk & Hset).
  assert (pk0 = pk) by congruence. assert (ek0 = ek) by congruence. assert (sk0 = sk) by congruence. assert (dk0 = dk) by congruence. clear Hset. subst pk0 ek0 sk0 dk0.
  assert (g_i' = g_i) by congruence. subst g_i'.
  assert (Hk' : honest_key b gens g_i (gpk_delta_g1 (pk_pk pk)) (pk_gamma_g1 pk) ek) by (left; exists sk, dk, R, s1, s2; exact Hk).
  destruct (with_proof_any_key pf E B R' b circ gens pk g_i ek msg st1 HB Hb HM (conj C1 C2) Hcirc) as (ct & r & q & s3 & s4 & Hrun & Henc & Hver); [exists R, st, s1; exact Hsrs|exact Hg|exact Hk'|].
  destruct (C02_decompose_is_radix_representation pf (K_of E) msg b Hb) as (ds & Hd & Hdig & Hval & _).
  exists ct, r, q, s4, ds. split; [exact Hrun|]. split; [exact Hd|].
  assert (He : encrypts ek g_i ds (ct_vec ct) r).
  { unfold encrypt in Henc. rewrite Hd in Henc. cbn [bind] in Henc. apply bind_Ok_inv in Henc. destruct Henc as ([[v r'] s5] & He & Henc). apply bind_Ok_inv in Henc. destruct Henc as (ct' & Hct & Henc).
    exists R', st1, s5. rewrite He. assert (ct' = ct) by congruence. assert (r' = r) by congruence. subst ct' r'.
    pose proof He as He'. destruct (encrypts_inv ek g_i ds v r) as (n & _ & _ & _ & Y); [exists R', st1, s5; exact He|]. subst v. rewrite ct_of_vec_ct_vec in Hct. congruence. }
  destruct (C77_service_opens_what_it_may pf B R b gens st pk sk ek dk st' g_i protected ct q ds r Hb HM Hset0 Hg Hn Hver Hdig He) as [P1 P2].
  destruct (in_dec feq_dec msg protected) as [Hin|Hin]; [apply P1; exists msg; split; assumption|apply P2]. intros m Hm Hdm. apply Hin.
  destruct (C01_decompose_compose_round_trip pf pf (K_of E) m b Hb) as (d1 & Q1 & Q2). destruct (C01_decompose_compose_round_trip pf pf (K_of E) msg b Hb) as (d2 & Q3 & Q4).
  assert (d1 = d2) by congruence. subst d2. rewrite Q2 in Q4. apply (f_equal (fun o => match o with Ok x => x | _ => msg end)) in Q4. rewrite <- Q4. exact Hm.
Qed.
End Service.

(* ---------- the protection and the check of the proof are needed ---------- *)
Section Needed.
Context {E : pairing}.
Notation K := (K_of E).
Notation F := (Fr E).
Add Ring Kcn : (@scalar_ring_theory K).
Notation e i env := (nth i env fzero).
Lemma with_proof_encrypts (pf : profile) (B : groth16_backend E) (R : rng_impl E) msg (ek : encryption_key E) pk b st ct r q st' g_i ds : get_gs_for_encryption (gpk_vk (pk_pk pk)) = Ok g_i -> decompose pf msg b = Ok ds ->
  encrypt_with_proof pf B R msg ek pk b st = Ok (ct, r, q, st') -> encrypts ek g_i ds (ct_vec ct) r.
Proof.
  intros Hg Hd Hrun. unfold encrypt_with_proof in Hrun. rewrite Hg in Hrun. cbn [bind] in Hrun. apply bind_Ok_inv in Hrun. destruct Hrun as ([[c r1] s1] & He & Hrun).
  rewrite Hd in Hrun. cbn [bind] in Hrun. apply bind_Ok_inv in Hrun. destruct Hrun as (circ & _ & Hrun). apply bind_Ok_inv in Hrun. destruct Hrun as ([q' s2] & _ & Hrun).
  assert (c = ct) by congruence. assert (r1 = r) by congruence. subst c r1. clear Hrun.
  apply encrypt_inv in He. destruct He as (ds' & Hd' & He). assert (ds' = ds) by congruence. subst ds'. exists R, st, s1. exact He.
Qed.
Lemma decompose_differ (pf : profile) b (m m' : F) ds : supported b -> decompose pf m b = Ok ds -> m' <> m -> decompose pf m' b <> Ok ds.
Proof.
  intros Hb H1 Hne H2. apply Hne. destruct (C01_decompose_compose_round_trip pf pf K m b Hb) as (d1 & Q1 & Q2). destruct (C01_decompose_compose_round_trip pf pf K m' b Hb) as (d2 & Q3 & Q4).
  assert (d1 = d2) by congruence. subst d2. rewrite Q2 in Q4. exact (f_equal (fun o => match o with Ok x => x | _ => m end) (eq_sym Q4)).
Qed.
Lemma setup_keys (B : groth16_backend E) (R : rng_impl E) b gens st pk sk ek dk st' g_i : setup_for_groth16 B R b gens st = Ok (pk, sk, ek, dk, st') -> get_gs_for_encryption (gpk_vk (pk_pk pk)) = Ok g_i ->
  from_keygen b gens g_i (gpk_delta_g1 (pk_pk pk)) (pk_gamma_g1 pk) sk ek dk.
Proof.
  intros Hset Hg. unfold setup_for_groth16 in Hset. apply bind_Ok_inv in Hset. destruct Hset as (circ & Hcirc & Hset).
  apply bind_Ok_inv in Hset. destruct Hset as ([pk0 s1] & Hsrs & Hset). apply bind_Ok_inv in Hset. destruct Hset as (g_i' & Hg' & Hset).
  apply bind_Ok_inv in Hset. destruct Hset as ([[[sk0 ek0] dk0] s2] & Hk & Hset).
  assert (pk0 = pk) by congruence. assert (ek0 = ek) by congruence. assert (sk0 = sk) by congruence. assert (dk0 = dk) by congruence. clear Hset. subst pk0 ek0 sk0 dk0.
  assert (g_i' = g_i) by congruence. subst g_i'. exists R, s1, s2. exact Hk.
Qed.

(* the same service without the check of the proof: it only checks the commitment (Ciphertext::verify_commitment, src/encryption.rs:83-95) *)
Definition service_without_proof (pf : profile) (b : Z) (gens : encryption_gens E) (pk : proving_key E) (sk : Fr E) (ek : encryption_key E) (dk : decryption_key E)
    (protected : list (Fr E)) (ct : ciphertext E) (q : proof E) : reply :=
  match verify_commitment ct (prepare_ek ek) (prepare_gens gens) with
  | Ok _ =>
    match get_gs_for_encryption (gpk_vk (pk_pk pk)) with
    | Ok g_i =>
      match decrypt_to_chunks pf (ct_X_r ct) (ct_enc_chunks ct) sk (prepare_dk dk) g_i b with
      | Ok (chunks, _) => reply_for pf b protected chunks
      | _ => Refused
      end
    | _ => Refused
    end
  | _ => Refused
  end.

Definition opened_as (ds : list Z) (r : reply) : bool := match r with Opened ds' => if list_eq_dec Z.eq_dec ds' ds then true else false | _ => false end.

Variables (n : nat) (cs : csys K) (xs : list F) (pf : profile) (domain : nat -> option (list F)) (fuel : nat) (b : Z) (gens : encryption_gens E).
Let ni := cs_num_inst cs.
Let nw := cs_num_wit cs.
Let N := length xs.
Let M := (ni + nw)%nat.
Notation B := (ark_backend pf domain fuel).
Hypothesis Hdom_ok : domain_ok domain.
Hypothesis Hb : supported b.
Hypothesis HbM : 2 ^ b <= modulus K.
Hypothesis Hcomp : chunk_compatible K b.
Hypothesis Hcount : chunks_count K b = Ok (Z.of_nat n).
Hypothesis Hn0 : (0 < n)%nat.
Hypothesis Hcs : generate_constraints (BitsizeCheckCircuit b (Z.of_nat n) None true) (@cs_new K Circuit.Setup) = Ok cs.
Hypothesis Hdomain : domain (length (cs_cons cs) + cs_num_inst cs)%nat = Some xs.

Lemma opened_as_same ds : opened_as ds (Opened ds) = true.
Proof. unfold opened_as. destruct (list_eq_dec Z.eq_dec ds ds) as [_|Z]; [reflexivity|destruct (Z eq_refl)]. Qed.
Lemma opened_as_reply (protected : list F) ds ds' : ds' <> ds -> opened_as ds (reply_for pf b protected ds') = false.
Proof. intros H. unfold opened_as, reply_for. destruct (is_protected pf b protected ds'); [reflexivity|]. destruct (list_eq_dec Z.eq_dec ds' ds) as [Z|_]; [destruct (H Z)|reflexivity]. Qed.
Lemma reply_unprotected (protected : list F) ds : (forall m, In m protected -> decompose pf m b <> Ok ds) -> reply_for pf b protected ds = Opened ds.
Proof.
  intros Hno. unfold reply_for. destruct (is_protected pf b protected ds) eqn:Z; [exfalso|reflexivity]. apply existsb_exists in Z. destruct Z as (m & Hin & Z). apply (Hno m Hin).
  destruct (decompose pf m b) as [ds'|err|]; [|discriminate Z|discriminate Z]. destruct (list_eq_dec Z.eq_dec ds' ds) as [->|_]; [reflexivity|discriminate Z].
Qed.
(* one encryption under a setup: what is on the table *)
Lemma one_encryption x dx coins pk sk ek dk rest g_i : decompose pf x b = Ok dx -> length coins = (3 * n + 7 + 3)%nat -> ~ In (e 4 coins) xs ->
  setup_for_groth16 B (replay_rng E) b gens coins = Ok (pk, sk, ek, dk, rest) -> get_gs_for_encryption (gpk_vk (pk_pk pk)) = Ok g_i ->
  exists ct r q st', encrypt_all pf B (replay_rng E) [x] ek pk b rest = Ok ([(ct, q)], st') /\ encrypts ek g_i dx (ct_vec ct) r.
Proof.
  intros Hdx Lc Hin Hset Hg. destruct (run_ok pf domain fuel b gens Hdom_ok Hb HbM Hcomp x coins pk sk ek dk rest Hset) as (ct & r & q & st' & Hrun).
  exists ct, r, q, st'. split; [cbn [encrypt_all]; rewrite Hrun; reflexivity|]. exact (with_proof_encrypts pf B (replay_rng E) x ek pk b rest ct r q st' g_i dx Hg Hdx Hrun).
Qed.

(* One submission and no test tell any message that is not protected from any other: re-randomize the ciphertext and have it decrypted. *)
Lemma copy_opened (protected : list F) x dx ds coins pk sk ek dk rest g_i : decompose pf x b = Ok dx -> length coins = (3 * n + 7 + 3)%nat -> ~ In (e 4 coins) xs ->
  setup_for_groth16 B (replay_rng E) b gens coins = Ok (pk, sk, ek, dk, rest) -> get_gs_for_encryption (gpk_vk (pk_pk pk)) = Ok g_i -> nondegenerate dk g_i (length (dk_V_2 dk)) ->
  experiment_cca pf B gens b (Submit (copying n cs xs 0 fone) (fun r => Done (opened_as ds r))) protected [x] coins = Some (opened_as ds (reply_for pf b protected dx)).
Proof.
  intros Hdx Lc Hin Hset Hg Hn. destruct (one_encryption x dx coins pk sk ek dk rest g_i Hdx Lc Hin Hset Hg) as (ct & r & q & st' & Henc & He).
  pose proof (copying_works n cs xs pf domain fuel b gens Hdom_ok Hb HbM Hcomp Hcount Hn0 Hcs Hdomain [x] 0 fone ltac:(cbn [length]; lia)) as (_ & _ & HS).
  destruct (HS coins pk sk ek dk rest [(ct, q)] st' ltac:(cbn [length]; lia) Hin Hset Henc) as (ct0 & q0 & T1 & T2 & _ & T4 & _). clear HS.
  cbn [nth_error] in T1. assert (E1 : ct0 = ct) by congruence. subst ct0. unfold experiment_cca. rewrite Hset, Henc. cbn [attack]. do 2 f_equal.
  set (T := table_g1 gens pk ek [(ct, q)]) in *. set (T' := table_g2 gens pk ek dk [(ct, q)]) in *. set (c1 := ciphertext_from (copying n cs xs 0 fone) T) in *. set (q1 := proof_from (copying n cs xs 0 fone) T T') in *.
  destruct (decompose_spec pf K x b Hb) as (dx' & Hdx' & Hdig & _). assert (dx' = dx) by congruence. subst dx'.
  apply (C73_copies_encrypt_the_copied_message ek _ _ _ _ fone) in He. rewrite <- T2 in He.
  unfold service. rewrite T4, Hg. rewrite (opened_chunks pf b gens g_i (gpk_delta_g1 (pk_pk pk)) (pk_gamma_g1 pk) sk ek dk dx c1 (fadd fone r)); try assumption; [reflexivity|]. eapply setup_keys; eassumption.
Qed.
Theorem C77_unprotected_messages_are_revealed (protected : list F) (m m' : F) : m' <> m -> ~ In m protected ->
  exists A : attacker E bool, within 0 1 A /\
  forall coins pk sk ek dk rest g_i, length coins = (3 * n + 7 + 3)%nat -> ~ In (e 4 coins) xs ->
    setup_for_groth16 B (replay_rng E) b gens coins = Ok (pk, sk, ek, dk, rest) -> get_gs_for_encryption (gpk_vk (pk_pk pk)) = Ok g_i -> nondegenerate dk g_i (length (dk_V_2 dk)) ->
    experiment_cca pf B gens b A protected [m] coins = Some true /\ experiment_cca pf B gens b A protected [m'] coins = Some false.
Proof.
  intros Hne Hnp. destruct (decompose_spec pf K m b Hb) as (ds & Hd & _). destruct (decompose_spec pf K m' b Hb) as (ds' & Hd' & _).
  exists (Submit (copying n cs xs 0 fone) (fun r => Done (opened_as ds r))). split; [constructor; intros; constructor|]. intros coins pk sk ek dk rest g_i Lc Hin Hset Hg Hn. split.
  - rewrite (copy_opened protected m ds ds coins pk sk ek dk rest g_i) by assumption. rewrite reply_unprotected; [rewrite opened_as_same; reflexivity|].
    intros x Hx. apply (decompose_differ pf b m x ds Hb Hd). intros ->. exact (Hnp Hx).
  - rewrite (copy_opened protected m' ds' ds coins pk sk ek dk rest g_i) by assumption. rewrite opened_as_reply; [reflexivity|]. intros ->. exact (decompose_differ pf b m m' ds Hb Hd Hne Hd').
Qed.

(* Without the check of the proof the service tells any two messages apart, protected or not: add one to the first chunk. *)
Definition shifting : strategy E :=
  let q1 := P1 n cs xs in let at_0 j := unit_row (q1 + j) in
  Strategy [] [] [] (at_0 0%nat) (map (fun j => if Nat.eqb j 0 then padd (at_0 1%nat) (unit_row (n + 6 + (M + (M + ((N - 1) + nw))) + 1)) else at_0 (S j)) (seq 0 n))
    (padd (at_0 (n + 1)%nat) (unit_row 0)).
Lemma shifting_adds_one x d ds ct r q st' coins pk sk ek dk rest g_i : length coins = (3 * n + 7 + 3)%nat -> ~ In (e 4 coins) xs ->
  setup_for_groth16 B (replay_rng E) b gens coins = Ok (pk, sk, ek, dk, rest) -> get_gs_for_encryption (gpk_vk (pk_pk pk)) = Ok g_i ->
  encrypt_all pf B (replay_rng E) [x] ek pk b rest = Ok ([(ct, q)], st') -> encrypts ek g_i (d :: ds) (ct_vec ct) r ->
  encrypts ek g_i (d + 1 :: ds) (ct_vec (ciphertext_from shifting (table_g1 gens pk ek [(ct, q)]))) r.
Proof.
  intros Lc Hin Hset Hg Henc He.
  assert (Hv : vanishing_at xs (e 4 coins) <> fzero) by (rewrite vanishing_zero; exact Hin).
  destruct (run_split n cs xs pf domain fuel b gens Hdom_ok Hb HbM Hcomp Hcount Hn0 Hcs Hdomain [x] coins pk sk ek dk rest _ st' Lc Hv Hset Henc) as (Hs0 & L0 & Hv0 & _). set (c0 := firstn (3 * n + 7) coins) in *.
  destruct (pub_lengths n cs xs pf domain fuel b gens Hb HbM Hcount Hn0 Hcs Hdomain c0 pk sk ek dk [] ltac:(lia) Hv0 Hs0) as [LP1 _].
  pose proof (setup_shape n cs xs pf domain fuel b gens (bits_of _ b Hb HbM) Hcount Hn0 Hcs Hdomain c0 pk sk ek dk [] L0 Hv0 Hs0) as (S1 & S2 & S3 & S4 & S5 & S6 & S7 & S8).
  pose proof He as He'. apply encrypts_inv in He'. destruct He' as (n' & Hw & Ln & Hgl & Hct).
  assert (Ec : ct = ct_formula ek g_i (d :: ds) r).
  { apply (f_equal (@ct_of_vec E)) in Hct. rewrite !ct_of_vec_ct_vec in Hct. exact (f_equal (fun o => match o with Ok y => y | _ => ct end) Hct). }
  pose proof Hw as (_ & LX & LY & _). assert (Hnn : n' = n) by lia. rewrite Hnn in *. clear Hnn n'. cbn [length] in Ln.
  assert (HgA : vk_gamma_abc_g1 (gpk_vk (pk_pk pk)) = nth 0 (vk_gamma_abc_g1 (gpk_vk (pk_pk pk))) gzero :: g_i).
  { unfold get_gs_for_encryption in Hg. destruct (vk_gamma_abc_g1 (gpk_vk (pk_pk pk))) as [|g0 gs]; [|]. 1: cbn in Hg; discriminate Hg. cbn [nth]. f_equal. cbn in Hg. congruence. }
  set (T := table_g1 gens pk ek [(ct, q)]).
  assert (A0 : forall j, (j < n + 4)%nat -> nth (P1 n cs xs + j) T gzero = nth j (pair_g1 (ct, q)) gzero).
  { intros j Hj. unfold T, table_g1. rewrite app_nth2; rewrite LP1; [|lia]. replace (P1 n cs xs + j - P1 n cs xs)%nat with j by lia. cbn [map concat]. rewrite app_nil_r. reflexivity. }
  assert (Lb : length (ct_enc_chunks ct) = n) by (rewrite Ec; unfold ct_formula; cbn [ct_enc_chunks]; rewrite body_formula_length; cbn [length]; lia).
  assert (AY : nth 0 T gzero = nth 0 (ek_Y ek) gzero).
  { unfold T, table_g1, public_g1. rewrite <- !app_assoc. apply app_nth1. lia. }
  assert (AG : nth (n + 6 + (M + (M + ((N - 1) + nw))) + 1) T gzero = nth 0 g_i gzero).
  { unfold T, table_g1, public_g1. rewrite HgA. fold ni nw in S3, S4, S7. fold M in S3, S4. fold N in S6. fold nw in S7.
    rewrite <- !app_assoc. rewrite (app_assoc (ek_Y ek)). rewrite app_nth2 by (rewrite app_length; cbn [length]; lia). rewrite app_length. cbn [length].
    rewrite app_nth2 by (cbn [length]; lia). cbn [length]. rewrite app_nth2 by lia. rewrite app_nth2 by lia. rewrite app_nth2 by lia. rewrite app_nth2 by lia.
    match goal with |- nth ?k _ _ = _ => replace k with 1%nat by lia end. cbn [app nth]. apply app_nth1. lia. }
  assert (Eq : ciphertext_from shifting T = ct_formula ek g_i (d + 1 :: ds) r).
  { assert (X0 : dot (sg_X_r shifting) T = ct_X_r ct) by (unfold shifting; cbv zeta; cbn [sg_X_r]; rewrite dot_unit_row, A0 by lia; reflexivity).
    assert (X1 : map (fun c => dot c T) (sg_chunks shifting) = body_formula (ek_X ek) g_i (d + 1 :: ds) r).
    { unfold shifting. cbv zeta. cbn [sg_chunks]. rewrite map_map. unfold body_formula. cbn [length]. rewrite Ln. apply map_ext_in. intros j Hj. apply in_seq in Hj.
      assert (Y : nth (S j) (pair_g1 (ct, q)) gzero = (r [*] nth j (ek_X ek) gzero) [+] (of_Z (nth j (d :: ds) 0) [*] nth j g_i gzero)).
      { unfold pair_g1. cbn [fst snd]. cbn [app nth]. rewrite app_nth1 by lia. rewrite Ec. unfold ct_formula. cbn [ct_enc_chunks]. unfold body_formula.
        set (f := fun i : nat => _). rewrite (nth_indep _ _ (f 0%nat)) by (rewrite map_length, seq_length; cbn [length]; lia). rewrite map_nth, seq_nth by (cbn [length]; lia). reflexivity. }
      destruct (Nat.eqb_spec j 0) as [->|Hj0].
      - rewrite dot_padd, !dot_unit_row, A0, AG by lia. rewrite Y. cbn [nth]. rewrite of_Z_add. change (of_Z 1) with (@fone K). glin.
      - rewrite dot_unit_row, A0 by lia. rewrite Y. destruct j as [|j]; [lia|]. reflexivity. }
    assert (X2 : dot (sg_commitment shifting) T = psi_formula ek (d + 1 :: ds) r).
    { unfold shifting. cbv zeta. cbn [sg_commitment]. rewrite dot_padd, !dot_unit_row, A0, AY by lia.
      assert (Y : nth (n + 1) (pair_g1 (ct, q)) gzero = psi_formula ek (d :: ds) r).
      { unfold pair_g1. cbn [fst snd]. replace (n + 1)%nat with (S n) by lia. cbn [app nth]. rewrite app_nth2 by lia. rewrite Lb, Nat.sub_diag. cbn [app nth]. rewrite Ec. reflexivity. }
      rewrite Y. unfold psi_formula. destruct (ek_Y ek) as [|y ys]; [cbn [length] in LY; lia|]. cbn [map dot nth]. rewrite of_Z_add. change (of_Z 1) with (@fone K). glin. }
    unfold ciphertext_from. rewrite X0, X1, X2. unfold ct_formula. f_equal. rewrite Ec. reflexivity. }
  rewrite Eq. exists (replay_rng E), [r], []. apply encrypts_intro with (n := n); [exact Hw|cbn [length]; lia|exact Hgl].
Qed.
(* experiment_cca with that service *)
Definition experiment_without_proof {R : Type} (A : attacker E R) (protected msgs coins : list F) : option R :=
  match setup_for_groth16 B (replay_rng E) b gens coins with
  | Ok (pk, sk, ek, dk, rest) =>
    match encrypt_all pf B (replay_rng E) msgs ek pk b rest with
    | Ok (cps, _) => Some (attack (service_without_proof pf b gens pk sk ek dk protected) A (table_g1 gens pk ek cps) (table_g2 gens pk ek dk cps))
    | _ => None
    end
  | _ => None
  end.
Lemma shift_opened (protected : list F) x d dx ds coins pk sk ek dk rest g_i : decompose pf x b = Ok (d :: dx) -> d + 1 < 2 ^ b -> length coins = (3 * n + 7 + 3)%nat -> ~ In (e 4 coins) xs ->
  setup_for_groth16 B (replay_rng E) b gens coins = Ok (pk, sk, ek, dk, rest) -> get_gs_for_encryption (gpk_vk (pk_pk pk)) = Ok g_i -> nondegenerate dk g_i (length (dk_V_2 dk)) ->
  experiment_without_proof (Submit shifting (fun r => Done (opened_as ds r))) protected [x] coins = Some (opened_as ds (reply_for pf b protected (d + 1 :: dx))).
Proof.
  intros Hdx Hd1 Lc Hin Hset Hg Hn. destruct (one_encryption x _ coins pk sk ek dk rest g_i Hdx Lc Hin Hset Hg) as (ct & r & q & st' & Henc & He).
  pose proof (shifting_adds_one x d dx ct r q st' coins pk sk ek dk rest g_i Lc Hin Hset Hg Henc He) as He1. unfold experiment_without_proof. rewrite Hset, Henc. cbn [attack]. do 2 f_equal.
  set (c1 := ciphertext_from shifting _) in *. set (q1 := proof_from shifting _ _) in *.
  destruct (decompose_spec pf K x b Hb) as (dx' & Hdx' & Hdig & _). assert (dx' = d :: dx) by congruence. subst dx'.
  pose proof (setup_keys B (replay_rng E) b gens coins pk sk ek dk rest g_i Hset Hg) as Hk. pose proof Hk as (R & s1 & s2 & Hk').
  assert (Hver : verify_commitment c1 (prepare_ek ek) (prepare_gens gens) = Ok tt).
  { unfold verify_commitment. apply (C19_honest_chunk_ciphertexts_verify E b gens g_i (gpk_delta_g1 (pk_pk pk)) (pk_gamma_g1 pk) ek (d + 1 :: dx) _ _ _ r); [left; exists sk, dk, R, s1, s2; exact Hk'|exact He1]. }
  assert (Hdig1 : digits_ok b (d + 1 :: dx)). { inversion Hdig; subst. constructor; [lia|assumption]. }
  unfold service_without_proof. rewrite Hver, Hg. rewrite (opened_chunks pf b gens g_i (gpk_delta_g1 (pk_pk pk)) (pk_gamma_g1 pk) sk ek dk (d + 1 :: dx) c1 r) by assumption. reflexivity.
Qed.
Theorem C77_without_the_proof_protected_messages_are_revealed (protected : list F) (m m' : F) d ds d' ds' :
  m' <> m -> decompose pf m b = Ok (d :: ds) -> decompose pf m' b = Ok (d' :: ds') -> d + 1 < 2 ^ b -> d' + 1 < 2 ^ b ->
  (forall x, In x protected -> decompose pf x b <> Ok (d + 1 :: ds)) ->
  exists A : attacker E bool, within 0 1 A /\
  forall coins pk sk ek dk rest g_i, length coins = (3 * n + 7 + 3)%nat -> ~ In (e 4 coins) xs ->
    setup_for_groth16 B (replay_rng E) b gens coins = Ok (pk, sk, ek, dk, rest) -> get_gs_for_encryption (gpk_vk (pk_pk pk)) = Ok g_i -> nondegenerate dk g_i (length (dk_V_2 dk)) ->
    experiment_without_proof A protected [m] coins = Some true /\ experiment_without_proof A protected [m'] coins = Some false.
Proof.
  intros Hne Hd Hd' L1 L2 Hp. exists (Submit shifting (fun r => Done (opened_as (d + 1 :: ds) r))). split; [constructor; intros; constructor|]. intros coins pk sk ek dk rest g_i Lc Hin Hset Hg Hn. split.
  - rewrite (shift_opened protected m d ds (d + 1 :: ds) coins pk sk ek dk rest g_i) by assumption. rewrite reply_unprotected by exact Hp. rewrite opened_as_same. reflexivity.
  - rewrite (shift_opened protected m' d' ds' (d + 1 :: ds) coins pk sk ek dk rest g_i) by assumption. rewrite opened_as_reply; [reflexivity|]. intros Z.
    apply (decompose_differ pf b m m' (d :: ds) Hb Hd Hne). rewrite Hd'. assert (d' + 1 = d + 1) by congruence. assert (ds' = ds) by congruence. f_equal. f_equal; [lia|assumption].
Qed.

(* How often the setup yields keys with which these attacks, and decryption altogether, work. *)
Hypothesis HG : eg_G gens <> gzero.
Hypothesis HH : eg_H gens <> gzero.
Hypothesis Hfuel : (0 < fuel)%nat.
Definition working (coins : list F) : Prop := ~ In (e 4 coins) xs /\ exists pk sk ek dk rest g_i,
  setup_for_groth16 B (replay_rng E) b gens coins = Ok (pk, sk, ek, dk, rest) /\ get_gs_for_encryption (gpk_vk (pk_pk pk)) = Ok g_i /\ nondegenerate dk g_i (length (dk_V_2 dk)).
Lemma working_if coins : (3 * n + 7 <= length coins)%nat -> vanishing_at xs (e 4 coins) <> fzero -> e 2 coins <> fzero -> e 3 coins <> fzero -> healthy n cs xs coins -> working coins.
Proof.
  intros Lc Hv H2 H3 Hh. split; [rewrite <- vanishing_zero; exact Hv|].
  destruct (setup_exists_rest n cs xs pf domain fuel b gens (bits_of _ b Hb HbM) Hcount Hn0 Hcs Hdomain coins Lc H2 H3 Hv Hfuel) as (pk & sk & ek & dk & Hset).
  pose proof (setup_tape_rest n cs xs pf domain fuel b gens Hcount Hcs Hdomain (proj1 (cs_shape n cs xs b (bits_of _ b Hb HbM) Hn0 Hcs)) coins pk sk ek dk _ Lc Hv Hset) as (_ & _ & Hgs & _ & _ & Hdk & _).
  exists pk, sk, ek, dk, (skipn (3 * n + 7) coins), (gis n cs xs gens coins). split; [exact Hset|]. split; [exact Hgs|].
  assert (L : length (dk_V_2 dk) = n) by (rewrite Hdk; unfold dk_formula; cbn [dk_V_2]; rewrite !map_length, seq_length; reflexivity). rewrite L, Hdk.
  apply (degenerate_tape n cs xs gens HG HH Hn0); [exact Hh|exact H2].
Qed.
Lemma nth_prefix m i (c : list F) : (i < m)%nat -> nth i (firstn m c) fzero = nth i c fzero.
Proof. revert i c; induction m as [|m IH]; intros i c Hi; [lia|]. destruct c as [|x c]; [reflexivity|]. destruct i as [|i]; cbn [firstn nth]; [reflexivity|]. apply IH. lia. Qed.
Lemma healthy_prefix coins : healthy n cs xs (firstn (3 * n + 7) coins) -> healthy n cs xs coins.
Proof.
  unfold healthy. intros H X. apply H. clear H. apply Exists_exists in X. destruct X as (Df & Hin & Z). apply Exists_exists. exists Df. split; [exact Hin|]. rewrite <- Z. clear Z.
  unfold degenerate_polys in Hin. destruct Hin as [<-|Hin]; [cbn [snd]; apply nth_prefix; lia|]. apply in_app_or in Hin. destruct Hin as [Hin|Hin]; apply in_map_iff in Hin; destruct Hin as (j & <- & Hj); apply in_seq in Hj; cbn [snd].
  - apply nth_prefix. lia.
  - rewrite !nth_prefix by lia. reflexivity.
Qed.
Definition conds (c : list F) : Prop := vanishing_at xs (e 4 c) <> fzero /\ e 2 c <> fzero /\ e 3 c <> fzero /\ healthy n cs xs c.
Lemma conds_dec c : {conds c} + {~ conds c}.
Proof.
  unfold conds. destruct (feq_dec (vanishing_at xs (e 4 c)) fzero) as [Z|Z]; [right; tauto|]. destruct (feq_dec (e 2 c) fzero) as [Z2|Z2]; [right; tauto|]. destruct (feq_dec (e 3 c) fzero) as [Z3|Z3]; [right; tauto|].
  destruct (healthy_dec n cs xs c) as [Z4|Z4]; [left; tauto|right; tauto].
Qed.
Lemma conds_bound (r : nat) (L : list (list F)) : NoDup L -> (forall coins, In coins L -> length coins = (3 * n + 7 + r)%nat /\ ~ conds coins) ->
  Z.of_nat (length L) * modulus K <= (Z.of_nat N + (2 + (1 + Z.of_nat n + Z.of_nat n * (Z.of_nat N + 2)))) * modulus K ^ Z.of_nat (3 * n + 7 + r).
Proof.
  intros Hnd HL. apply (split_tau n cs xs b HbM Hn0); [lia|exact Hnd|intros c Hc; apply HL; exact Hc|]. intros L1 Hnd1 HL1.
  set (polys := (1, fun env => e 2 env) :: (1, fun env => e 3 env) :: degenerate_polys n cs xs).
  apply (prefix_bound n cs xs b Hb HbM Hn0 Hcs (3 * n + 7) r (fun c => Exists (fun Df => snd Df c = fzero) polys)); [|exact Hnd1|].
  - intros L0 Hnd0 HL0. assert (X : zsum (map fst polys) = 2 + (1 + Z.of_nat n + Z.of_nat n * (Z.of_nat (length xs) + 2))).
    { unfold polys. cbn [map zsum fst]. rewrite (degenerate_sum n cs xs Hn0). ring. }
    unfold N. rewrite <- X. apply union_bound; [|exact Hnd0|exact HL0]. unfold polys. constructor; [apply (small_var n cs xs Hn0); lia|]. constructor; [apply (small_var n cs xs Hn0); lia|].
    exact (degenerate_small n cs xs domain b Hdom_ok (bits_of _ b Hb HbM) Hn0 Hcs Hdomain).
  - intros c Hc. destruct (HL1 c Hc) as [Hin Hv]. destruct (HL c Hin) as [Lc Hw]. split; [exact Lc|]. unfold polys.
    destruct (feq_dec (e 2 c) fzero) as [Z2|Z2]; [left; cbn [snd]; rewrite nth_prefix by lia; exact Z2|]. right.
    destruct (feq_dec (e 3 c) fzero) as [Z3|Z3]; [left; cbn [snd]; rewrite nth_prefix by lia; exact Z3|]. right.
    destruct (Exists_dec (fun Df => snd Df (firstn (3 * n + 7) c) = fzero) (degenerate_polys n cs xs) (fun Df => feq_dec _ fzero)) as [X|X]; [exact X|exfalso].
    apply Hw. split; [exact Hv|]. split; [exact Z2|]. split; [exact Z3|]. apply healthy_prefix. exact X.
Qed.
Theorem C77_setups_usually_work (r : nat) (L : list (list F)) : NoDup L -> (forall coins, In coins L -> length coins = (3 * n + 7 + r)%nat /\ ~ working coins) ->
  let N := Z.of_nat (length xs) in
  Z.of_nat (length L) * modulus K <= (N + (2 + (1 + Z.of_nat n + Z.of_nat n * (N + 2)))) * modulus K ^ Z.of_nat (3 * n + 7 + r).
Proof.
  intros Hnd HL. cbv zeta. apply conds_bound; [exact Hnd|]. intros c Hc. destruct (HL c Hc) as [Lc Hw]. split; [exact Lc|]. intros (A1 & A2 & A3 & A4). apply Hw. apply working_if; try assumption. lia.
Qed.
Lemma working_exists (r : nat) : Z.of_nat N + (2 + (1 + Z.of_nat n + Z.of_nat n * (Z.of_nat N + 2))) < modulus K -> exists coins, length coins = (3 * n + 7 + r)%nat /\ working coins.
Proof.
  intros Hp. destruct (@all_tuples_exist K (3 * n + 7 + r)) as (T & T1 & T2). pose proof (all_tuples_count _ T T1 T2) as CT. pose proof (@modulus_gt1 K) as Hp1.
  destruct (Exists_dec conds T conds_dec) as [X|X].
  - apply Exists_exists in X. destruct X as (c & Hc & A1 & A2 & A3 & A4). apply T2 in Hc. exists c. split; [exact Hc|]. apply working_if; try assumption. lia.
  - exfalso. assert (B1 : Z.of_nat (length T) * modulus K <= (Z.of_nat N + (2 + (1 + Z.of_nat n + Z.of_nat n * (Z.of_nat N + 2)))) * modulus K ^ Z.of_nat (3 * n + 7 + r)).
    { apply conds_bound; [exact T1|]. intros c Hc. split; [apply T2; exact Hc|]. intros Y. apply X. apply Exists_exists. exists c. split; assumption. }
    rewrite CT in B1. set (D := Z.of_nat N + _) in *. clearbody D. assert (0 < modulus K ^ Z.of_nat (3 * n + 7 + r)) by (apply Z.pow_pos_nonneg; lia). nia.
Qed.
End Needed.

(* On the 61-bit group of the examples: with up to 1000 ciphertexts on the table, 1000 tests and 10 submissions the numbers of coins on which the
   attacker says yes differ by less than 2^-16 of all coins. *)
Example C77_case (pf : profile) (t q : nat) (A : attacker E61 bool) (protected msgs msgs' : list (Fr E61)) (All : list (list (Fr E61))) : (t <= 1000)%nat -> (q <= 10)%nat -> within t q A ->
  length msgs = 1000%nat -> length msgs' = 1000%nat -> incl msgs protected -> incl msgs' protected -> NoDup All -> (forall coins, In coins All <-> length coins = (3 * 4 + 7 + 3 * 1000)%nat) ->
  let says_yes ms coins := match experiment_cca pf (ark_backend pf y_domain 3) x_gens 16 A protected ms coins with Some g => g | None => false end in
  let yes ms := Z.of_nat (length (filter (says_yes ms) All)) in
  Z.abs (yes msgs - yes msgs') * 2 ^ 16 <= Z.of_nat (length All).
Proof.
  intros Ht Hq W Lm Lm' I1 I2 Hnd HA says_yes yes. destruct z_cs as (cs & Hcs & Hd). destruct y_conditions as (C1 & C2 & C3 & C4).
  assert (HG : eg_G x_gens <> gzero) by (intros H; apply (f_equal sval) in H; vm_compute in H; discriminate H). assert (H4 : (0 < 4)%nat) by lia.
  pose proof (C77_decryption_service_does_not_reveal_protected_messages E61 x_gens pf y_domain 3 4 1000 16 cs y_xs All HG x_H y_domain_ok C1 C2 C3 C4 y_count H4 Hcs Hd Hnd HA t q A protected msgs msgs' W Lm Lm' I1 I2) as B.
  cbv zeta in B. fold (says_yes msgs) (says_yes msgs') in B. fold (yes msgs) (yes msgs') in B.
  assert (Ly : Z.of_nat (length y_xs) <= 2 ^ 12) by (unfold y_xs, y_points; rewrite map_length, seq_length; unfold y_N; lia).
  change (modulus (K_of E61)) with (2 ^ 61 - 1) in B. set (d := Z.abs _) in *. assert (0 <= d) by apply Z.abs_nonneg. set (T := Z.of_nat (length All)) in *. assert (0 <= T) by (unfold T; lia).
  set (N := Z.of_nat (length y_xs)) in *. assert (0 <= N) by (unfold N; lia). replace (Z.of_nat 1000) with 1000 in B by lia. replace (Z.of_nat 4) with 4 in B by lia.
  assert (Ht' : 0 <= Z.of_nat t + 2 * Z.of_nat q <= 1020) by lia. assert (Hq' : 0 <= Z.of_nat q <= 10) by lia. set (u := Z.of_nat t + 2 * Z.of_nat q) in *. set (v := Z.of_nat q) in *. clearbody d T N u v. clear - B H H0 H1 Ly Ht' Hq'.
  assert (D1 : u * (3 * N + 7 * (3 * 4 + 6)) <= 1020 * (3 * 2 ^ 12 + 126)) by (apply Z.mul_le_mono_nonneg; lia).
  assert (D2 : 1000 * (u + 1000) * (3 * N + 9 * (3 * 4 + 9)) <= 1000 * 2020 * (3 * 2 ^ 12 + 189)) by (apply Z.mul_le_mono_nonneg; lia).
  assert (D3 : 2 * u * 1000 * (3 * N + 9 * (3 * 4 + 9)) <= 2 * 1020 * 1000 * (3 * 2 ^ 12 + 189)) by (apply Z.mul_le_mono_nonneg; lia).
  set (f := u * (3 * N + 7 * (3 * 4 + 6)) + _ + _) in B. assert (Hf : 0 <= f <= 2 ^ 35) by (split; [unfold f; repeat apply Z.add_nonneg_nonneg; repeat apply Z.mul_nonneg_nonneg; lia|unfold f; lia]). clearbody f.
  assert (D4 : 2 * v * f <= 2 * 10 * 2 ^ 35) by (apply Z.mul_le_mono_nonneg; lia).
  set (s := N + _ + _ + _) in B. assert (Hs : s <= 2 ^ 44 - 1) by (unfold s; lia). clearbody s.
  assert (d * (2 ^ 61 - 1) <= (2 ^ 44 - 1) * T) by (etransitivity; [exact B|apply Z.mul_le_mono_nonneg_r; lia]). lia.
Qed.
(* There are coins with which everything works; on them, one submission without a test distinguishes unprotected messages, and a service that
   does not check the proof lets an attacker distinguish protected ones. *)
Example C77_needed_case (pf : profile) : exists (cs : csys K61) (coins : list (Fr E61)), generate_constraints (BitsizeCheckCircuit 16 (Z.of_nat 4) None true) (cs_new Circuit.Setup) = Ok cs /\
  length coins = (3 * 4 + 7 + 3)%nat /\ working y_xs pf y_domain 3 16 x_gens coins /\
  (exists A, within 0 1 A /\ experiment_cca pf (ark_backend pf y_domain 3) x_gens 16 A [] [fzero] coins = Some true /\ experiment_cca pf (ark_backend pf y_domain 3) x_gens 16 A [] [nz61 (2 ^ 49)] coins = Some false) /\
  let protected := [fzero; nz61 (2 ^ 49)] in
  exists A, within 0 1 A /\ experiment_without_proof pf y_domain 3 16 x_gens A protected [fzero] coins = Some true /\ experiment_without_proof pf y_domain 3 16 x_gens A protected [nz61 (2 ^ 49)] coins = Some false.
Proof.
  destruct z_cs as (cs & Hcs & Hd). destruct y_conditions as (C1 & C2 & C3 & C4).
  assert (HG : eg_G x_gens <> gzero) by (intros H; apply (f_equal sval) in H; vm_compute in H; discriminate H). assert (H4 : (0 < 4)%nat) by lia. assert (H3 : (0 < 3)%nat) by lia.
  assert (Hne : nz61 (2 ^ 49) <> @fzero K61) by (intros Z; apply (f_equal sval) in Z; vm_compute in Z; discriminate Z).
  assert (W : exists coins, length coins = (3 * 4 + 7 + 3)%nat /\ working y_xs pf y_domain 3 16 x_gens coins).
  { apply (working_exists 4 cs y_xs pf y_domain 3 16 x_gens y_domain_ok C1 C2 y_count H4 Hcs Hd HG x_H H3 3).
    assert (Ly : Z.of_nat (length y_xs) <= 2 ^ 12) by (unfold y_xs, y_points; rewrite map_length, seq_length; unfold y_N; lia). change (modulus (K_of E61)) with (2 ^ 61 - 1). set (N := Z.of_nat (length y_xs)) in *. clearbody N. lia. }
  destruct W as (coins & Lc & Wk). exists cs, coins. split; [exact Hcs|]. split; [exact Lc|]. split; [exact Wk|]. destruct Wk as (Hin & pk & sk & ek & dk & rest & g_i & Hset & Hg & Hn). split.
  - destruct (C77_unprotected_messages_are_revealed 4 cs y_xs pf y_domain 3 16 x_gens y_domain_ok C1 C2 (conj C3 C4) y_count H4 Hcs Hd [] fzero (nz61 (2 ^ 49)) Hne ltac:(intros [])) as (A & W & HA).
    exists A. split; [exact W|]. exact (HA coins pk sk ek dk rest g_i Lc Hin Hset Hg Hn).
  - cbv zeta. assert (D0 : decompose pf (@fzero K61) 16 = Ok [0; 0; 0; 0]) by (destruct pf; vm_compute; reflexivity).
    assert (D1 : decompose pf (nz61 (2 ^ 49)) 16 = Ok [2; 0; 0; 0]) by (destruct pf; vm_compute; reflexivity).
    destruct (C77_without_the_proof_protected_messages_are_revealed 4 cs y_xs pf y_domain 3 16 x_gens y_domain_ok C1 C2 (conj C3 C4) y_count H4 Hcs Hd [fzero; nz61 (2 ^ 49)] fzero (nz61 (2 ^ 49)) 0 [0; 0; 0] 2 [0; 0; 0]
      Hne D0 D1 ltac:(lia) ltac:(lia)) as (A & W & HA).
    { intros x [<-|[<-|[]]]; [rewrite D0|rewrite D1]; intros Z; discriminate (f_equal (fun o => match o with Ok (a :: _) => a | _ => 7 end) Z). }
    exists A. split; [exact W|]. exact (HA coins pk sk ek dk rest g_i Lc Hin Hset Hg Hn).
Qed.
