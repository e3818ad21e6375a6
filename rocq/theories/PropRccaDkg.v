(* PropRccaDkg.v -- theorems for C80: adaptively chosen messages stay secret from all parties but one of the distributed key generation, even when
   the parties decrypt everything else together *)
From Verif Require Import Base BaseFacts Algebra Utils UtilsFacts Setup Keygen Encryption Circuit CircuitFacts CircuitSat CommitmentFacts VecFacts KeySpec KeygenFacts
  EncryptFacts DecryptFacts Spec VerifyFacts Protocol ReencFacts DistFacts PropVerify Groth16 ArkGroth16 PolyFacts Groth16Spec ArkFacts Groth16Facts SchwartzZippel SoundCore SoundSpec
  SoundAlg SoundGame SoundLink SoundFacts SoundCount SoundHonest PropUtils PropEnc PropGroth16 PropGroth16More PropGroth16Cases PropSound PropSoundCases PropZK PrivacySpec PrivacyAlg PrivacyGame PrivacyLink PrivacyCount
  PrivacySpan PrivacyMany PropPrivacy PrivacyDkgSpec PrivacyDkg PropPrivacyDkg SoundDkgSpec SoundDkg SoundAdaptSpec SoundAdapt PropSoundAdapt NonmalCore NonmalAlg NonmalSpec NonmalGame NonmalRows NonmalLink NonmalCount PropNonmal
  NonmalDkg PropNonmalDkg RoundTrip PropRobust CcaSpec Cca CcaCount PropCca RccaSpec RccaTest RccaCount RccaDkgSpec RccaDkg Instance Examples.

(* The coins are those of the setup and of the honest party (2n+6) and of at most k encryptions (three each); the tapes of the other parties are
   arbitrary and fixed.  The coalition sees everything the parties publish during the key generation, makes at most t tests and q submissions and
   offers at most k pairs of messages, all in any order and each depending on everything before.  Submissions are verified, re-encrypted by all
   parties for a fresh destination, and decrypted by it; the parties' random numbers for this come from any generator G in any state st. *)
Theorem C80_result_rarely_depends_on_which_messages (E : pairing) (R : Type) (gens : encryption_gens E) (pf : profile)
    (domain : nat -> option (list (Fr E))) (fuel n : nat) (b : Z) (cs : csys (K_of E)) (xs : list (Fr E)) (before after : list (list (Fr E)))
    (G : rng_impl E) (st : rng_st G) (t q k : nat) (A : adversary E R) (L : list (list (Fr E))) :
  eg_G gens <> gzero -> eg_H gens <> gzero -> domain_ok domain ->
  supported b -> 2 ^ b <= modulus (K_of E) ->
  64 * Z.of_nat (limbs (K_of E)) - b < modulus_bit_size (K_of E) -> 64 * Z.of_nat (limbs (K_of E)) < 256 * b ->
  chunks_count (K_of E) b = Ok (Z.of_nat n) -> (0 < n)%nat ->
  generate_constraints (BitsizeCheckCircuit b (Z.of_nat n) None true) (cs_new Circuit.Setup) = Ok cs ->
  domain (length (cs_cons cs) + cs_num_inst cs)%nat = Some xs ->
  Forall (fun tape => length tape = (2 * n + 1)%nat) before -> Forall (fun tape => length tape = (2 * n + 1)%nat) after ->
  limited t q k A -> NoDup L ->
  (forall coins, In coins L -> length coins = (2 * n + 6 + 3 * k)%nat /\
     experiment_rcca_dkg pf (ark_backend pf domain fuel) G gens b before after false A st coins <> experiment_rcca_dkg pf (ark_backend pf domain fuel) G gens b before after true A st coins) ->
  let N := Z.of_nat (length xs) in let m := 3 * Z.of_nat n in let T := Z.of_nat t + 2 * Z.of_nat q in
  let forged := 4 * N + 7 * (m + 6) + Z.of_nat k ^ 2 * (3 * N + 9 * (m + 9)) in
  Z.of_nat (length L) * modulus (K_of E) <=
  (N + (1 + Z.of_nat n + Z.of_nat n * (N + 2)) + 4 * T * (Z.of_nat k + 1) * (3 * N + 9 * (m + 9)) + 2 * Z.of_nat q * forged) * modulus (K_of E) ^ Z.of_nat (2 * n + 6 + 3 * k).
Proof.
  intros HG HH Hd Hb HM C1 C2 Hc Hn Hcs Hxs Hbef Haft W Hnd HL. cbv zeta.
  pose proof (rcca_dkg_bound n cs xs pf domain fuel b gens HG HH Hd Hb HM (conj C1 C2) Hc Hn Hcs Hxs before after Hbef Haft A G st t q k W L Hnd HL) as B.
  unfold cost, NM, D0 in B. cbn [cw] in B. replace (Z.of_nat t + 2 * Z.of_nat q) with (Z.of_nat (t + 2 * q)) by lia. set (Q := Z.of_nat (t + 2 * q)) in *. clearbody Q.
  replace (Z.of_nat (k + 1)) with (Z.of_nat k + 1) in B by lia.
  eapply Z.le_trans; [exact B|]. apply Z.eq_le_incl. ring.
Qed.

(* in terms of the number of coins on which the coalition says yes: All lists every sequence of coins once *)
Theorem C80_adaptively_chosen_messages_stay_secret (E : pairing) (gens : encryption_gens E) (pf : profile)
    (domain : nat -> option (list (Fr E))) (fuel n k : nat) (b : Z) (cs : csys (K_of E)) (xs : list (Fr E)) (before after : list (list (Fr E))) (All : list (list (Fr E))) :
  eg_G gens <> gzero -> eg_H gens <> gzero -> domain_ok domain ->
  supported b -> 2 ^ b <= modulus (K_of E) ->
  64 * Z.of_nat (limbs (K_of E)) - b < modulus_bit_size (K_of E) -> 64 * Z.of_nat (limbs (K_of E)) < 256 * b ->
  chunks_count (K_of E) b = Ok (Z.of_nat n) -> (0 < n)%nat ->
  generate_constraints (BitsizeCheckCircuit b (Z.of_nat n) None true) (cs_new Circuit.Setup) = Ok cs ->
  domain (length (cs_cons cs) + cs_num_inst cs)%nat = Some xs ->
  Forall (fun tape => length tape = (2 * n + 1)%nat) before -> Forall (fun tape => length tape = (2 * n + 1)%nat) after ->
  NoDup All -> (forall coins, In coins All <-> length coins = (2 * n + 6 + 3 * k)%nat) ->
  forall (G : rng_impl E) (st : rng_st G) (t q : nat) (A : adversary E bool), limited t q k A ->
  let says_yes second coins := match experiment_rcca_dkg pf (ark_backend pf domain fuel) G gens b before after second A st coins with Some g => g | None => false end in
  let yes second := Z.of_nat (length (filter (says_yes second) All)) in
  let N := Z.of_nat (length xs) in let m := 3 * Z.of_nat n in let T := Z.of_nat t + 2 * Z.of_nat q in
  let forged := 4 * N + 7 * (m + 6) + Z.of_nat k ^ 2 * (3 * N + 9 * (m + 9)) in
  Z.abs (yes false - yes true) * modulus (K_of E) <=
  (N + (1 + Z.of_nat n + Z.of_nat n * (N + 2)) + 4 * T * (Z.of_nat k + 1) * (3 * N + 9 * (m + 9)) + 2 * Z.of_nat q * forged) * Z.of_nat (length All).
Proof.
  intros HG HH Hdom Hb HbM H1 H2 Hcount Hn0 Hcs Hxs Hbef Haft Hnd HA G st t q A W says_yes yes. cbv zeta. rewrite (all_tuples_count _ All Hnd HA).
  pose proof (@modulus_gt1 (K_of E)) as Hp.
  eapply Z.le_trans; [apply Z.mul_le_mono_nonneg_r; [lia|apply count_difference]|].
  apply (C80_result_rarely_depends_on_which_messages E bool gens pf domain fuel n b cs xs before after G st t q k A _ HG HH Hdom Hb HbM H1 H2 Hcount Hn0 Hcs Hxs Hbef Haft W); [apply NoDup_filter; exact Hnd|].
  intros coins Hin. apply filter_In in Hin. destruct Hin as [Hin Hne]. split; [apply HA; exact Hin|].
  intros Z. unfold says_yes in Hne. rewrite Z in Hne. rewrite Bool.eqb_reflx in Hne. discriminate Hne.
Qed.

(* What the coalition gets accepted in the end is an encryption of chunks of b bits that can be read off its combinations, or a copy of a
   ciphertext on the table: cps are the encryptions of the messages offered during the attack. *)
Theorem C80_chosen_messages_do_not_help_to_forge (E : pairing) (gens : encryption_gens E) (pf : profile)
    (domain : nat -> option (list (Fr E))) (fuel n : nat) (b : Z) (cs : csys (K_of E)) (xs : list (Fr E)) (before after : list (list (Fr E)))
    (G : rng_impl E) (st : rng_st G) (t q k : nat) (second : bool) (A : adversary E (strategy E)) (L : list (list (Fr E))) :
  eg_G gens <> gzero -> eg_H gens <> gzero -> domain_ok domain ->
  supported b -> 2 ^ b <= modulus (K_of E) ->
  64 * Z.of_nat (limbs (K_of E)) - b < modulus_bit_size (K_of E) -> 64 * Z.of_nat (limbs (K_of E)) < 256 * b ->
  chunks_count (K_of E) b = Ok (Z.of_nat n) -> (0 < n)%nat ->
  generate_constraints (BitsizeCheckCircuit b (Z.of_nat n) None true) (cs_new Circuit.Setup) = Ok cs ->
  domain (length (cs_cons cs) + cs_num_inst cs)%nat = Some xs ->
  Forall (fun tape => length tape = (2 * n + 1)%nat) before -> Forall (fun tape => length tape = (2 * n + 1)%nat) after ->
  limited t q k A -> NoDup L ->
  let nb := length before in let parties := (length before + 1 + length after)%nat in
  (forall coins, In coins L -> length coins = (2 * n + 6 + 3 * k)%nat /\ exists keys rest S cps,
     dkg_setup (ark_backend pf domain fuel) gens b before after coins = Ok (keys, rest) /\
     dkg_duel pf (ark_backend pf domain fuel) G gens b keys second A [] [] rest st = Some (S, cps) /\
     let T1 := dkg_g1 gens (public_run keys cps) in let T2 := dkg_g2 gens (public_run keys cps) in
     let ct := ciphertext_from S T1 in let q := proof_from S T1 T2 in
     verify_commitment_and_proof ct q (prepare_verifying_key (gpk_vk (pk_pk (kg_pk keys)))) (prepare_ek (kg_ek keys)) (prepare_gens gens) = Ok tt /\
     ~ (digits_ok b (dkg_extracted_chunks n nb parties S) /\ exists g_i, get_gs_for_encryption (gpk_vk (pk_pk (kg_pk keys))) = Ok g_i /\
        encrypts (kg_ek keys) g_i (dkg_extracted_chunks n nb parties S) (ct_vec ct) (dkg_extracted_r n nb parties S)) /\
     ~ (exists ct0 q0, In (ct0, q0) cps /\ ct = rerandomized (kg_ek keys) (dkg_extracted_r n nb parties S) ct0 /\ exists kappa, kappa <> fzero /\ pr_a q = kappa [*] pr_a q0)) ->
  let N := Z.of_nat (length xs) in let m := 3 * Z.of_nat n in let T := Z.of_nat t + 2 * Z.of_nat q in
  let forged := 4 * N + 7 * (m + 6) + Z.of_nat k ^ 2 * (3 * N + 9 * (m + 9)) in
  Z.of_nat (length L) * modulus (K_of E) <=
  (N + (1 + Z.of_nat n + Z.of_nat n * (N + 2)) + 3 * T * (Z.of_nat k + 1) * (3 * N + 9 * (m + 9)) + (Z.of_nat q + 1) * forged) * modulus (K_of E) ^ Z.of_nat (2 * n + 6 + 3 * k).
Proof.
  intros HG HH Hd Hb HM C1 C2 Hc Hn Hcs Hxs Hbef Haft W Hnd nb parties HL. cbv zeta.
  pose proof (rcca_dkg_forgery n cs xs pf domain fuel b gens HG HH Hd Hb HM (conj C1 C2) Hc Hn Hcs Hxs before after Hbef Haft A G st t q k second W L Hnd HL) as B.
  unfold cost, NM, D0 in B. replace (Z.of_nat t + 2 * Z.of_nat q) with (Z.of_nat (t + 2 * q)) by lia. set (Q := Z.of_nat (t + 2 * q)) in *. assert (HQ : 0 <= Q) by (unfold Q; lia). clearbody Q.
  replace (Z.of_nat (k + 1)) with (Z.of_nat k + 1) in B by lia. pose proof (@modulus_gt1 (K_of E)) as Hp.
  eapply Z.le_trans; [exact B|]. apply Z.mul_le_mono_nonneg_r; [apply Z.pow_nonneg; lia|].
  set (X := Q * ((Z.of_nat k + 1) * (3 * Z.of_nat (length xs) + 9 * (3 * Z.of_nat n + 9)))). assert (HX : 0 <= X) by (unfold X; repeat apply Z.mul_nonneg_nonneg; lia).
  assert (cw second * X <= 3 * X) by (destruct second; cbn [cw]; lia). etransitivity; [apply Z.add_le_mono_l, Z.add_le_mono_l, Z.add_le_mono_r, Z.add_le_mono_r; exact H|]. unfold X. apply Z.eq_le_incl. ring.
Qed.

(* ---------- the game ---------- *)
(* The key generation succeeds unless one of three coins is bad, its keys come from all the parties, and the game comes to an end whatever the
   coalition does; the ciphertexts on the table at the end are honest encryptions of at most k messages. *)
Theorem C80_game_ends (E : pairing) (R : Type) (gens : encryption_gens E) (pf : profile)
    (domain : nat -> option (list (Fr E))) (fuel n : nat) (b : Z) (cs : csys (K_of E)) (xs : list (Fr E)) (before after : list (list (Fr E)))
    (G : rng_impl E) (st : rng_st G) (t q k : nat) (second : bool) (A : adversary E R) coins :
  eg_G gens <> gzero -> eg_H gens <> gzero -> domain_ok domain -> supported b -> 2 ^ b <= modulus (K_of E) ->
  64 * Z.of_nat (limbs (K_of E)) - b < modulus_bit_size (K_of E) -> 64 * Z.of_nat (limbs (K_of E)) < 256 * b ->
  chunks_count (K_of E) b = Ok (Z.of_nat n) -> (0 < n)%nat -> (0 < fuel)%nat ->
  generate_constraints (BitsizeCheckCircuit b (Z.of_nat n) None true) (cs_new Circuit.Setup) = Ok cs ->
  domain (length (cs_cons cs) + cs_num_inst cs)%nat = Some xs ->
  Forall (fun tape => length tape = (2 * n + 1)%nat) before -> Forall (fun tape => length tape = (2 * n + 1)%nat) after ->
  limited t q k A -> length coins = (2 * n + 6 + 3 * k)%nat -> nth 2 coins fzero <> fzero -> nth 3 coins fzero <> fzero -> ~ In (nth 4 coins fzero) xs ->
  exists keys rest g_i r cps msgs st', dkg_setup (ark_backend pf domain fuel) gens b before after coins = Ok (keys, rest) /\
    get_gs_for_encryption (gpk_vk (pk_pk (kg_pk keys))) = Ok g_i /\
    from_dkg b gens g_i (gpk_delta_g1 (pk_pk (kg_pk keys))) (pk_gamma_g1 (kg_pk keys)) (kg_parties keys) (kg_ek keys) /\
    length (kg_parties keys) = (length before + 1 + length after)%nat /\
    experiment_rcca_dkg pf (ark_backend pf domain fuel) G gens b before after second A st coins = Some r /\
    dkg_duel pf (ark_backend pf domain fuel) G gens b keys second A [] [] rest st = Some (r, cps) /\
    (length msgs <= k)%nat /\ encrypt_all pf (ark_backend pf domain fuel) (replay_rng E) msgs (kg_ek keys) (kg_pk keys) b rest = Ok (cps, st').
Proof.
  intros HG HH Hd Hb HM C1 C2 Hc Hn Hf Hcs Hxs Hbef Haft W Lc H2 H3 Hin.
  destruct (C67_experiment_shows_accepted_ciphertexts E gens pf domain fuel n b cs xs before after (repeat fzero k) coins HG HH Hd Hb HM C1 C2 Hc Hn Hf Hcs Hxs Hbef Haft) as (run & g_i & _ & Hrun & Hg & _); try assumption.
  { rewrite repeat_length. exact Lc. }
  destruct (setup_from_execution _ _ _ _ _ _ _ _ _ Hrun) as (keys & rest & s1 & Hset & Erun & _). rewrite Erun in Hg. cbn [public_run dr_pk] in Hg.
  assert (Tc : tau_ok xs coins) by (unfold tau_ok; rewrite vanishing_zero; exact Hin).
  destruct (dkg_duel_ends n cs xs pf domain fuel b gens Hd Hb HM (conj C1 C2) Hc Hn Hcs Hxs before after Hbef Haft A G st t q k second coins keys rest W Lc Tc Hset) as (r & cps & ms & st' & Y1 & Y2 & Y3).
  destruct (setup_parties _ _ _ _ _ _ _ _ _ Hset Hg) as [P1 P2].
  exists keys, rest, g_i, r, cps, ms, st'. split; [exact Hset|]. split; [exact Hg|]. split; [exact P1|]. split; [exact P2|]. split; [unfold experiment_rcca_dkg; rewrite Hset, Y1; reflexivity|]. split; [exact Y1|]. split; [exact Y2|exact Y3].
Qed.

Section Service.
Context {E : pairing}.
Notation K := (K_of E).
(* the destination gets the encrypted chunks *)
Lemma together_opens pf (G : rng_impl E) b gens g_i delta gamma parties (ek : encryption_key E) (ct : ciphertext E) ds r st : supported b -> 2 ^ b <= modulus K ->
  from_dkg b gens g_i delta gamma parties ek -> Forall (fun x => x <> gzero) (firstn (length ds) g_i) -> digits_ok b ds -> encrypts ek g_i ds (ct_vec ct) r ->
  exists skd ekd shares g_r cs st1 st2, Fkeygen_dest G gens st = Ok (skd, ekd, st1) /\ all_shares G gens (ct_X_r ct) (ct_enc_chunks ct) ekd (map fst parties) st1 = Ok (shares, st2) /\
    from_dest gens skd ekd /\ Forall2 (share_of gens (ct_X_r ct) (ct_enc_chunks ct) ekd) (map fst parties) shares /\
    reencrypt (ct_enc_chunks ct) shares = Ok (g_r :: cs) /\ decrypt_to_chunks_after_re_encryption pf g_r cs skd g_i b = Ok ds.
Proof.
  intros Hb HM Hd Hg Hdig He. assert (Hpos : Forall (fun z => 0 <= z) ds) by (eapply Forall_impl; [|exact Hdig]; intros z Hz; cbv beta in Hz; lia).
  unfold ct_vec in He. destruct (dkg_opens _ _ _ _ _ _ _ _ _ _ _ _ Hd He Hpos) as (Hlc & Hlg & Hall & Hop).
  unfold Fkeygen_dest. destruct (rand_scalar G st) as [skd st1] eqn:Er. set (ekd := FEncryptionKeyDest _). assert (Hdest : from_dest gens skd ekd) by (exists G, st, st1; unfold Fkeygen_dest; rewrite Er; reflexivity).
  destruct (all_shares_ok G gens (ct_X_r ct) (ct_enc_chunks ct) ekd (map fst parties)) with (st := st1) as (shares & st2 & Hsh & HF).
  { clear - Hall. eapply Forall_impl; [|exact Hall]. intros a Ha. cbv beta in Ha. lia. }
  assert (Hne : map fst parties <> []) by (destruct Hd as (Hp & _); destruct parties; [contradiction|discriminate]).
  destruct (reencrypt_same gens (ct_X_r ct) (ct_enc_chunks ct) ekd skd _ shares Hdest Hne HF) as (g_r & cs & Hr & Lcs & HO).
  exists skd, ekd, shares, g_r, cs, st1, st2. split; [reflexivity|]. split; [exact Hsh|]. split; [exact Hdest|]. split; [exact HF|]. split; [exact Hr|].
  assert (b <= 16 /\ 1 <= b) by (destruct Hb as [-> | [-> | ->]]; lia). assert (Hmax : max_chunk b = 2 ^ b - 1) by (unfold max_chunk; rewrite Z.min_l by lia; reflexivity).
  apply (reenc_decrypt_exact pf g_r cs skd g_i b ds); [lia|rewrite Lcs, Hlc; exact Hg|lia|lia|]. split; [apply HO; exact Hop|].
  eapply Forall_impl; [|exact Hdig]. intros z Hz. cbv beta in Hz. lia.
Qed.
Theorem C80_parties_open_what_they_may (pf : profile) (G : rng_impl E) b gens g_i delta gamma (keys : dkg_keys E) protected (ct : ciphertext E) (q : proof E) ds r st :
  supported b -> 2 ^ b <= modulus K -> get_gs_for_encryption (gpk_vk (pk_pk (kg_pk keys))) = Ok g_i -> from_dkg b gens g_i delta gamma (kg_parties keys) (kg_ek keys) ->
  Forall (fun x => x <> gzero) (firstn (length ds) g_i) ->
  verify_commitment_and_proof ct q (prepare_verifying_key (gpk_vk (pk_pk (kg_pk keys)))) (prepare_ek (kg_ek keys)) (prepare_gens gens) = Ok tt ->
  digits_ok b ds -> encrypts (kg_ek keys) g_i ds (ct_vec ct) r ->
  ((exists m, In m protected /\ decompose pf m b = Ok ds) -> fst (service_by_parties pf G b gens keys protected ct q st) = Protected) /\
  ((forall m, In m protected -> decompose pf m b <> Ok ds) -> fst (service_by_parties pf G b gens keys protected ct q st) = Opened ds).
Proof.
  intros Hb HM Hg Hd Hn Hv Hdig He. destruct (together_opens pf G b gens g_i delta gamma (kg_parties keys) (kg_ek keys) ct ds r st Hb HM Hd Hn Hdig He) as (skd & ekd & shares & g_r & cs & st1 & st2 & Z1 & Z2 & _ & _ & Z3 & Z4).
  assert (HS : fst (service_by_parties pf G b gens keys protected ct q st) = reply_for pf b protected ds).
  { unfold service_by_parties, decrypt_together. rewrite Hv, Hg, Z1. cbn [bind]. rewrite Z2. cbn [bind]. rewrite Z3. cbn [bind]. rewrite Z4. reflexivity. }
  rewrite HS. split.
  - intros (m & Hin & Hm). exact (reply_protected pf b protected m ds Hin Hm).
  - intros Hno. apply reply_unprotected. exact Hno.
Qed.

(* ---------- the shares must be honest ---------- *)
(* the service when the first party adds the given multiples of the g_i to its share *)
Definition service_tampered (pf : profile) (G : rng_impl E) (b : Z) (gens : encryption_gens E) (keys : dkg_keys E) (extra : list Z) (protected : list (Fr E))
    (ct : ciphertext E) (q : proof E) (st : rng_st G) : reply :=
  match verify_commitment_and_proof ct q (prepare_verifying_key (gpk_vk (pk_pk (kg_pk keys)))) (prepare_ek (kg_ek keys)) (prepare_gens gens) with
  | Ok _ =>
    match get_gs_for_encryption (gpk_vk (pk_pk (kg_pk keys))) with
    | Ok g_i =>
      match ('(skd, ekd, st1) <- Fkeygen_dest G gens st ;;
             '(shares, _) <- all_shares G gens (ct_X_r ct) (ct_enc_chunks ct) ekd (map fst (kg_parties keys)) st1 ;;
             v <- reencrypt (ct_enc_chunks ct) (match shares with (w, g_r) :: rest => (zip_with gadd w (scale (map of_Z extra) g_i), g_r) :: rest | [] => [] end) ;;
             match v with g_r :: cs => decrypt_to_chunks_after_re_encryption pf g_r cs skd g_i b | [] => Panic end) with
      | Ok chunks => reply_for pf b protected chunks
      | _ => Refused
      end
    | _ => Refused
    end
  | _ => Refused
  end.
(* A party that does not follow the protocol when decrypting makes the destination open a protected message, shifted by what it likes. *)
Theorem C80_one_tampered_share_reveals_protected_messages (pf : profile) (G : rng_impl E) b gens g_i delta gamma (keys : dkg_keys E) protected (ct : ciphertext E) (q : proof E) ds extra r st :
  supported b -> 2 ^ b <= modulus K -> get_gs_for_encryption (gpk_vk (pk_pk (kg_pk keys))) = Ok g_i -> from_dkg b gens g_i delta gamma (kg_parties keys) (kg_ek keys) ->
  Forall (fun x => x <> gzero) (firstn (length ds) g_i) ->
  verify_commitment_and_proof ct q (prepare_verifying_key (gpk_vk (pk_pk (kg_pk keys)))) (prepare_ek (kg_ek keys)) (prepare_gens gens) = Ok tt ->
  digits_ok b ds -> encrypts (kg_ek keys) g_i ds (ct_vec ct) r ->
  length extra = length ds -> digits_ok b (chunk_add ds extra) -> (forall m, In m protected -> decompose pf m b <> Ok (chunk_add ds extra)) ->
  service_tampered pf G b gens keys extra protected ct q st = Opened (chunk_add ds extra).
Proof.
  intros Hb HM Hg Hd Hn Hv Hdig He Hl Hdig' Hno. destruct (together_opens pf G b gens g_i delta gamma (kg_parties keys) (kg_ek keys) ct ds r st Hb HM Hd Hn Hdig He) as (skd & ekd & shares & g_r & cs & st1 & st2 & Z1 & Z2 & Hdest & HF & _ & _).
  unfold service_tampered. rewrite Hv, Hg, Z1. cbn [bind]. rewrite Z2. cbn [bind]. destruct shares as [|[w g_p] post].
  { exfalso. destruct Hd as (Hp & _). destruct (kg_parties keys); [exact (Hp eq_refl)|inversion HF]. }
  assert (b <= 16 /\ 1 <= b) by (destruct Hb as [-> | [-> | ->]]; lia). assert (2 ^ b <= 2 ^ 16) by (apply Z.pow_le_mono_r; lia).
  destruct (C52_robust_re_encryption_refuted pf E b b gens g_i delta gamma (kg_parties keys) (kg_ek keys) ds (ct_X_r ct) (ct_enc_chunks ct) (ct_commitment ct) r skd ekd [] w g_p post extra Hd He Hdest HF Hn Hl)
    as (g_r' & cs' & Y1 & Y2).
  { eapply Forall_impl; [|exact Hdig]. intros z Hz. cbv beta in Hz. lia. }
  { lia. }
  { left. exact HM. }
  { eapply Forall_impl; [|exact Hdig']. intros z Hz. cbv beta in Hz. split; [lia|]. split; lia. }
  cbn [app] in Y1. rewrite Y1. cbn [bind]. rewrite Y2. apply reply_unprotected. exact Hno.
Qed.
(* For every honest ciphertext under a key of the distributed key generation: honest parties decrypt it, or say that it is protected; when the first
   party adds g_1 to its share, the protected message is opened. *)
Theorem C80_honest_ciphertexts (pf : profile) (B : groth16_backend E) (G R : rng_impl E) b gens before after coins keys rest g_i (m : Fr E) (st : rng_st G) (st1 : rng_st R) protected :
  backend_correct B -> supported b -> 2 ^ b <= modulus K ->
  64 * Z.of_nat (limbs K) - b < modulus_bit_size K -> 64 * Z.of_nat (limbs K) < 256 * b ->
  dkg_setup B gens b before after coins = Ok (keys, rest) -> get_gs_for_encryption (gpk_vk (pk_pk (kg_pk keys))) = Ok g_i -> Forall (fun x => x <> gzero) g_i ->
  exists ct r q st2 ds, encrypt_with_proof pf B R m (kg_ek keys) (kg_pk keys) b st1 = Ok (ct, r, q, st2) /\ decompose pf m b = Ok ds /\
    fst (service_by_parties pf G b gens keys protected ct q st) = (if in_dec feq_dec m protected then Protected else Opened ds) /\
    (forall d tl, ds = d :: tl -> d + 1 < 2 ^ b -> (forall x, In x protected -> decompose pf x b <> Ok (d + 1 :: tl)) ->
       service_tampered pf G b gens keys (1 :: repeat 0 (length tl)) protected ct q st = Opened (d + 1 :: tl)).
Proof.
  intros HB Hb HM C1 C2 Hset Hg Hnz. destruct (setup_parties _ _ _ _ _ _ _ _ _ Hset Hg) as [Hd _].
  assert (Hcirc : exists circ, circuit_new b None None true = Ok circ /\ from_srs B (generate_constraints circ) gens (kg_pk keys)).
  { unfold dkg_setup in Hset. apply bind_Ok_inv in Hset. destruct Hset as (circ & Hc & Hset). apply bind_Ok_inv in Hset. destruct Hset as ([pk s1] & Hs & Hset). exists circ. split; [exact Hc|].
    apply bind_Ok_inv in Hset. destruct Hset as (g' & _ & Hset). cbv zeta in Hset. apply bind_Ok_inv in Hset. destruct Hset as (ps1 & _ & Hset). apply bind_Ok_inv in Hset. destruct Hset as ([[sk part] s2] & _ & Hset).
    apply bind_Ok_inv in Hset. destruct Hset as (ps2 & _ & Hset). apply bind_Ok_inv in Hset. destruct Hset as (com & _ & Hset). apply bind_Ok_inv in Hset. destruct Hset as (sh & _ & Hset). apply bind_Ok_inv in Hset. destruct Hset as (p1 & _ & Hset).
    assert (keys = DkgKeys pk (ps1 ++ (sk, part) :: ps2) sh (keygenFinal com p1)) by congruence. subst keys. exists (replay_rng E), coins, s1. exact Hs. }
  destruct Hcirc as (circ & Hcirc & Hsrs).
  destruct (with_proof_any_key pf E B R b circ gens (kg_pk keys) g_i (kg_ek keys) m st1 HB Hb HM (conj C1 C2) Hcirc Hsrs Hg) as (ct & r & q & s3 & s4 & Hrun & _ & Hver); [right; exists (kg_parties keys); exact Hd|].
  destruct (C02_decompose_is_radix_representation pf K m b Hb) as (ds & Hdm & Hdig & _).
  pose proof (with_proof_encrypts pf B R m (kg_ek keys) (kg_pk keys) b st1 ct r q s4 g_i ds Hg Hdm Hrun) as He.
  assert (Hnz' : forall k, Forall (fun x => x <> gzero) (firstn k g_i)) by (intros k; rewrite <- (firstn_skipn k g_i) in Hnz; apply Forall_app in Hnz; apply Hnz).
  exists ct, r, q, s4, ds. split; [exact Hrun|]. split; [exact Hdm|]. split.
  - destruct (C80_parties_open_what_they_may pf G b gens g_i _ _ keys protected ct q ds r st Hb HM Hg Hd (Hnz' _) Hver Hdig He) as [P1 P2].
    destruct (in_dec feq_dec m protected) as [Hin|Hin]; [apply P1; exists m; split; assumption|apply P2]. intros x Hx Hdx.
    apply (decompose_differ pf b m x ds Hb Hdm); [intros ->; exact (Hin Hx)|exact Hdx].
  - intros d tl -> Hlt Hno. assert (EA : chunk_add (d :: tl) (1 :: repeat 0 (length tl)) = d + 1 :: tl).
    { cbn [chunk_add]. f_equal. clear. induction tl as [|z tl IH]; [reflexivity|]. cbn [length repeat chunk_add]. rewrite IH, Z.add_0_r. reflexivity. }
    rewrite <- EA. apply (C80_one_tampered_share_reveals_protected_messages pf G b gens g_i _ _ keys protected ct q (d :: tl) _ r st Hb HM Hg Hd (Hnz' _) Hver Hdig He).
    + cbn [length]. rewrite repeat_length. reflexivity.
    + rewrite EA. inversion Hdig; subst. constructor; [lia|assumption].
    + rewrite EA. exact Hno.
Qed.
End Service.

(* How often the key generation succeeds with generators g_i different from zero, so that the parties can decrypt. *)
Section Often.
Context {E : pairing}.
Notation K := (K_of E).
Notation F := (Fr E).
Notation e i env := (nth i env fzero).
Variables (n : nat) (cs : csys K) (xs : list F) (pf : profile) (domain : nat -> option (list F)) (fuel : nat) (b : Z) (gens : encryption_gens E).
Notation B := (ark_backend pf domain fuel).
Hypothesis HG : eg_G gens <> gzero.
Hypothesis HH : eg_H gens <> gzero.
Hypothesis Hdom_ok : domain_ok domain.
Hypothesis Hb : supported b.
Hypothesis HbM : 2 ^ b <= modulus K.
Hypothesis Hcomp : chunk_compatible K b.
Hypothesis Hcount : chunks_count K b = Ok (Z.of_nat n).
Hypothesis Hn0 : (0 < n)%nat.
Hypothesis Hfuel : (0 < fuel)%nat.
Hypothesis Hcs : generate_constraints (BitsizeCheckCircuit b (Z.of_nat n) None true) (@cs_new K Circuit.Setup) = Ok cs.
Hypothesis Hdomain : domain (length (cs_cons cs) + cs_num_inst cs)%nat = Some xs.
Variables (before after : list (list F)).
Hypothesis Hbef : Forall (fun tape => length tape = (2 * n + 1)%nat) before.
Hypothesis Haft : Forall (fun tape => length tape = (2 * n + 1)%nat) after.
Definition dkg_working (d : list F) : Prop := ~ In (e 4 d) xs /\ e 2 d <> fzero /\ e 3 d <> fzero /\ exists keys rest g_i, dkg_setup B gens b before after d = Ok (keys, rest) /\
  get_gs_for_encryption (gpk_vk (pk_pk (kg_pk keys))) = Ok g_i /\ Forall (fun x => x <> gzero) g_i.
Lemma central_coins r d w i : length d = (2 * n + 6 + r)%nat -> length w = S n -> (i < 5)%nat -> e i (centralk n before after d w) = e i d.
Proof.
  intros Ld Lw Hi. assert (L0 : length (firstn (2 * n + 6) d) = (2 * n + 6)%nat) by (rewrite firstn_length; lia).
  destruct (shiftd_split n cs xs b Hn0 before after (firstn (2 * n + 6) d) w L0 Lw) as (al & be & ga & de & ta & sh & t0 & t & rho & v & E0 & _ & _ & _ & _ & Ec).
  unfold centralk. rewrite Ec. rewrite <- (nth_front fzero (2 * n + 6) i d) by lia. rewrite E0. do 5 (destruct i as [|i]; [reflexivity|]). lia.
Qed.
Lemma dkg_working_if r d w : length d = (2 * n + 6 + r)%nat -> length w = S n -> conds n cs xs (centralk n before after d w) -> dkg_working d.
Proof.
  intros Ld Lw (Hv & H2 & H3 & Hh). pose proof (central_coins r d w 4 Ld Lw ltac:(lia)) as E4. pose proof (central_coins r d w 2 Ld Lw ltac:(lia)) as E2. pose proof (central_coins r d w 3 Ld Lw ltac:(lia)) as E3.
  rewrite E4 in Hv. assert (Hin : ~ In (e 4 d) xs) by (rewrite <- vanishing_zero; exact Hv). destruct Hcomp as [C1 C2].
  assert (Ld0 : length (firstn (2 * n + 6) d) = (2 * n + 6 + 3 * length (@nil F))%nat) by (rewrite firstn_length; cbn [length]; lia).
  assert (exists keys rest, dkg_setup B gens b before after d = Ok (keys, rest)) as (keys & rest & Hset).
  { destruct (C67_experiment_shows_accepted_ciphertexts E gens pf domain fuel n b cs xs before after (repeat fzero r) (d ++ repeat fzero (2 * r)) HG HH Hdom_ok Hb HbM C1 C2 Hcount Hn0 Hfuel Hcs Hdomain Hbef Haft) as (run & g_i & _ & Hrun & _).
    - rewrite app_length, !repeat_length. lia.
    - rewrite app_nth1 by lia. rewrite <- E2. exact H2.
    - rewrite app_nth1 by lia. rewrite <- E3. exact H3.
    - rewrite app_nth1 by lia. exact Hin.
    - destruct (setup_from_execution _ _ _ _ _ _ _ _ _ Hrun) as (keys & rest & s1 & Hset & _).
      destruct (dkg_setup_local n cs xs pf domain fuel b gens Hb HbM Hcount Hn0 Hcs Hdomain before after r (2 * r) d (repeat fzero (2 * r)) keys rest Ld ltac:(apply repeat_length) Hv Hset) as (rest' & Hset'). exists keys, rest'. exact Hset'. }
  split; [exact Hin|]. split; [rewrite <- E2; exact H2|]. split; [rewrite <- E3; exact H3|].
  destruct (dkg_as_central_r n cs xs pf domain fuel b gens Hb HbM Hcount Hn0 Hcs Hdomain before after Hbef Haft) as (rows1 & rows2 & _ & HC).
  destruct (HC [] r d w _ Ld Lw Hv (execution_from_setup pf B gens b before after [] d keys rest [] rest Hset eq_refl)) as (Lc & _ & _ & sk & dk & s1 & Hcen & _). cbn [public_run dr_pk dr_ek] in Hcen.
  set (c := centralk n before after d w) in *. assert (Hv' : vanishing_at xs (e 4 c) <> fzero) by (rewrite E4; exact Hv).
  pose proof (setup_tape_rest n cs xs pf domain fuel b gens Hcount Hcs Hdomain (proj1 (cs_shape n cs xs b (bits_of _ b Hb HbM) Hn0 Hcs)) c _ sk _ dk _ ltac:(lia) Hv' Hcen) as (Hga & _ & Hgs & _).
  exists keys, rest, (gis n cs xs gens c). split; [exact Hset|]. split; [exact Hgs|].
  destruct (degenerate_tape n cs xs gens HG HH Hn0 c Hh Hga) as [_ X]. rewrite firstn_all2 in X; [exact X|]. unfold gis. rewrite map_length, seq_length. lia.
Qed.
Theorem C80_key_generations_usually_work (r : nat) (L : list (list F)) : NoDup L -> (forall coins, In coins L -> length coins = (2 * n + 6 + r)%nat /\ ~ dkg_working coins) ->
  let N := Z.of_nat (length xs) in
  Z.of_nat (length L) * modulus K <= (N + (2 + (1 + Z.of_nat n + Z.of_nat n * (N + 2)))) * modulus K ^ Z.of_nat (2 * n + 6 + r).
Proof.
  intros Hnd HL. cbv zeta. refine (rare_dkg n cs xs b Hn0 before after r _ (fun c => ~ conds n cs xs c) (fun d => ~ dkg_working d) _ _ L Hnd HL).
  - intros L' Hnd' HL'. apply (conds_bound n cs xs domain fuel b); assumption.
  - intros d w Ld Lw Hw Hc. apply Hw. exact (dkg_working_if r d w Ld Lw Hc).
Qed.
Lemma dkg_working_exists (r : nat) : let N := Z.of_nat (length xs) in N + (2 + (1 + Z.of_nat n + Z.of_nat n * (N + 2))) < modulus K -> exists coins, length coins = (2 * n + 6 + r)%nat /\ dkg_working coins.
Proof.
  intros N Hp. destruct (@all_tuples_exist K (2 * n + 6 + r)) as (T & T1 & T2). pose proof (all_tuples_count _ T T1 T2) as CT. pose proof (@modulus_gt1 K) as Hp1. set (w := repeat (@fzero K) (S n)).
  assert (Lw : length w = S n) by apply repeat_length.
  destruct (@all_tuples_exist K (S n)) as (W & W1 & W2). set (good d := Exists (fun w => conds n cs xs (centralk n before after d w)) W).
  assert (Gd : forall d, {good d} + {~ good d}) by (intros d; apply Exists_dec; intros w'; apply conds_dec).
  destruct (Exists_dec good T Gd) as [X|X].
  - apply Exists_exists in X. destruct X as (d & Hd & X). apply T2 in Hd. apply Exists_exists in X. destruct X as (w' & Hw & Hc). apply W2 in Hw. exists d. split; [exact Hd|]. exact (dkg_working_if r d w' Hd Hw Hc).
  - exfalso. assert (B1 : Z.of_nat (length T) * modulus K <= (N + (2 + (1 + Z.of_nat n + Z.of_nat n * (N + 2)))) * modulus K ^ Z.of_nat (2 * n + 6 + r)).
    { refine (rare_dkg n cs xs b Hn0 before after r _ (fun c => ~ conds n cs xs c) (fun d => ~ good d) _ _ T T1 _).
      - intros L' Hnd' HL'. apply (conds_bound n cs xs domain fuel b); assumption.
      - intros d w' Ld Lw' Hw Hc. apply Hw. apply Exists_exists. exists w'. split; [apply W2; exact Lw'|exact Hc].
      - intros d Hd. split; [apply T2; exact Hd|]. intros Y. apply X. apply Exists_exists. exists d. split; assumption. }
    rewrite CT in B1. set (D := N + _) in *. clearbody D. assert (0 < modulus K ^ Z.of_nat (2 * n + 6 + r)) by (apply Z.pow_pos_nonneg; lia). nia.
Qed.
End Often.
Lemma decompose_of_5 (pf : profile) : exists d tl, decompose pf (nz61 5) 16 = Ok (d :: tl) /\ d + 1 < 2 ^ 16.
Proof. exists 0, [0; 0; 5]. split; [destruct pf; vm_compute; reflexivity|lia]. Qed.

(* On the 61-bit group of the examples: with up to 1000 pairs of messages, 1000 tests and 10 submissions the numbers of coins on which the
   coalition says yes differ by less than 2^-20 of all coins. *)
Example C80_case (pf : profile) (before after : list (list (Fr E61))) (G : rng_impl E61) (st : rng_st G) (t q : nat) (A : adversary E61 bool) (All : list (list (Fr E61))) :
  Forall (fun tape => length tape = (2 * 4 + 1)%nat) before -> Forall (fun tape => length tape = (2 * 4 + 1)%nat) after ->
  (t <= 1000)%nat -> (q <= 10)%nat -> limited t q 1000 A ->
  NoDup All -> (forall coins, In coins All <-> length coins = (2 * 4 + 6 + 3 * 1000)%nat) ->
  let says_yes second coins := match experiment_rcca_dkg pf (ark_backend pf y_domain 3) G x_gens 16 before after second A st coins with Some g => g | None => false end in
  let yes second := Z.of_nat (length (filter (says_yes second) All)) in
  Z.abs (yes false - yes true) * 2 ^ 20 <= Z.of_nat (length All).
Proof.
  intros Hbef Haft Ht Hq W Hnd HA says_yes yes. destruct z_cs as (cs & Hcs & Hd). destruct y_conditions as (C1 & C2 & C3 & C4).
  assert (HG : eg_G x_gens <> gzero) by (intros H; apply (f_equal sval) in H; vm_compute in H; discriminate H). assert (H4 : (0 < 4)%nat) by lia.
  pose proof (C80_adaptively_chosen_messages_stay_secret E61 x_gens pf y_domain 3 4 1000 16 cs y_xs before after All HG x_H y_domain_ok C1 C2 C3 C4 y_count H4 Hcs Hd Hbef Haft Hnd HA G st t q A W) as B.
  cbv zeta in B. fold (says_yes false) (says_yes true) in B. fold (yes false) (yes true) in B.
  assert (Ly : Z.of_nat (length y_xs) <= 2 ^ 12) by (unfold y_xs, y_points; rewrite map_length, seq_length; unfold y_N; lia).
  change (modulus (K_of E61)) with (2 ^ 61 - 1) in B. set (d := Z.abs _) in *. assert (0 <= d) by apply Z.abs_nonneg. set (T := Z.of_nat (length All)) in *. assert (0 <= T) by (unfold T; lia).
  set (N := Z.of_nat (length y_xs)) in *. assert (0 <= N) by (unfold N; lia). replace (Z.of_nat 1000) with 1000 in B by lia. replace (Z.of_nat 4) with 4 in B by lia.
  assert (Ht' : 0 <= Z.of_nat t + 2 * Z.of_nat q <= 1020) by lia. assert (Hq' : 0 <= Z.of_nat q <= 10) by lia. set (u := Z.of_nat t + 2 * Z.of_nat q) in *. set (v := Z.of_nat q) in *. clearbody d T N u v. clear - B H H0 H1 Ly Ht' Hq'.
  assert (D3 : 4 * u * (1000 + 1) * (3 * N + 9 * (3 * 4 + 9)) <= 4 * 1020 * 1001 * (3 * 2 ^ 12 + 189)) by (apply Z.mul_le_mono_nonneg; lia).
  set (f := 4 * N + _ + _) in B. assert (Hf : 0 <= f <= 2 ^ 34) by (unfold f; lia). clearbody f.
  assert (D4 : 2 * v * f <= 2 * 10 * 2 ^ 34) by (apply Z.mul_le_mono_nonneg; lia).
  set (s := N + _ + _ + _) in B. assert (Hs : s <= 2 ^ 40 - 1) by (unfold s; lia). clearbody s.
  assert (d * (2 ^ 61 - 1) <= (2 ^ 40 - 1) * T) by (etransitivity; [exact B|apply Z.mul_le_mono_nonneg_r; lia]). lia.
Qed.
(* Coins on which a key generation with three parties works and the game with any coalition comes to an end. *)
Example C80_game_case (pf : profile) (G : rng_impl E61) (st : rng_st G) (R : Type) (A : adversary E61 R) t q second : limited t q 1 A ->
  experiment_rcca_dkg pf (ark_backend pf y_domain 3) G x_gens 16 [map nz61 [2; 3; 4; 5; 6; 7; 8; 9; 10]] [map nz61 [12; 13; 14; 15; 16; 17; 18; 19; 20]] second A st u_coins <> None.
Proof.
  intros W. destruct z_cs as (cs & Hcs & Hd). destruct y_conditions as (C1 & C2 & C3 & C4). assert (H4 : (0 < 4)%nat) by lia. assert (H3 : (0 < 3)%nat) by lia.
  assert (HG : eg_G x_gens <> gzero) by (intros H; apply (f_equal sval) in H; vm_compute in H; discriminate H).
  assert (Hbef : Forall (fun tape : list (Fr E61) => length tape = (2 * 4 + 1)%nat) [map nz61 [2; 3; 4; 5; 6; 7; 8; 9; 10]]) by (constructor; [reflexivity|constructor]).
  assert (Haft : Forall (fun tape : list (Fr E61) => length tape = (2 * 4 + 1)%nat) [map nz61 [12; 13; 14; 15; 16; 17; 18; 19; 20]]) by (constructor; [reflexivity|constructor]).
  destruct (C80_game_ends E61 R x_gens pf y_domain 3 4 16 cs y_xs _ _ G st t q 1 second A u_coins HG x_H y_domain_ok C1 C2 C3 C4 y_count H4 H3 Hcs Hd Hbef Haft W eq_refl z_gamma z_delta z_in)
    as (keys & rest & g_i & r & cps & ms & st' & _ & _ & _ & _ & X & _).
  rewrite X. discriminate.
Qed.
(* Coins on which the key generation of three parties works and nobody's generators are zero; on them the honest parties do not open the
   protected message 5, and open it shifted when the first party tampers with its share. *)
Example C80_service_case (pf : profile) (G R : rng_impl E61) (st : rng_st G) (st1 : rng_st R) :
  let before := [map nz61 [2; 3; 4; 5; 6; 7; 8; 9; 10]] in let after := [map nz61 [12; 13; 14; 15; 16; 17; 18; 19; 20]] in
  exists coins keys rest ct r q st2 ds, length coins = (2 * 4 + 6 + 3)%nat /\ dkg_setup (ark_backend pf y_domain 3) x_gens 16 before after coins = Ok (keys, rest) /\
    encrypt_with_proof pf (ark_backend pf y_domain 3) R (nz61 5) (kg_ek keys) (kg_pk keys) 16 st1 = Ok (ct, r, q, st2) /\ decompose pf (nz61 5) 16 = Ok ds /\
    fst (service_by_parties pf G 16 x_gens keys [] ct q st) = Opened ds /\ fst (service_by_parties pf G 16 x_gens keys [nz61 5] ct q st) = Protected /\
    exists d tl, ds = d :: tl /\ service_tampered pf G 16 x_gens keys (1 :: repeat 0 (length tl)) [nz61 5] ct q st = Opened (d + 1 :: tl).
Proof.
  intros before after. destruct z_cs as (cs & Hcs & Hd). destruct y_conditions as (C1 & C2 & C3 & C4). assert (H4 : (0 < 4)%nat) by lia. assert (H3 : (0 < 3)%nat) by lia.
  assert (HG : eg_G x_gens <> gzero) by (intros H; apply (f_equal sval) in H; vm_compute in H; discriminate H).
  assert (Hbef : Forall (fun tape : list (Fr E61) => length tape = (2 * 4 + 1)%nat) before) by (constructor; [reflexivity|constructor]).
  assert (Haft : Forall (fun tape : list (Fr E61) => length tape = (2 * 4 + 1)%nat) after) by (constructor; [reflexivity|constructor]).
  destruct (dkg_working_exists 4 cs y_xs pf y_domain 3 16 x_gens HG x_H y_domain_ok C1 C2 (conj C3 C4) y_count H4 H3 Hcs Hd before after Hbef Haft 3) as (coins & Lc & _ & _ & _ & keys & rest & g_i & Hset & Hg & Hnz).
  { assert (Ly : Z.of_nat (length y_xs) <= 2 ^ 12) by (unfold y_xs, y_points; rewrite map_length, seq_length; unfold y_N; lia). change (modulus (K_of E61)) with (2 ^ 61 - 1). set (N := Z.of_nat (length y_xs)) in *. clearbody N. lia. }
  destruct (C80_honest_ciphertexts pf _ G R 16 x_gens before after coins keys rest g_i (nz61 5) st st1 [] (ark_backend_correct pf y_domain 3 y_domain_ok) C1 C2 C3 C4 Hset Hg Hnz) as (ct & r & q & st2 & ds & E1 & E2 & E3 & _).
  destruct (C80_honest_ciphertexts pf _ G R 16 x_gens before after coins keys rest g_i (nz61 5) st st1 [nz61 5] (ark_backend_correct pf y_domain 3 y_domain_ok) C1 C2 C3 C4 Hset Hg Hnz) as (ct' & r' & q' & st2' & ds' & E1' & E2' & E3' & E4').
  rewrite E1 in E1'. rewrite E2 in E2'. assert (ct' = ct) by congruence. assert (q' = q) by congruence. assert (ds' = ds) by congruence. subst ct' q' ds'. clear E1' E2'.
  destruct (in_dec feq_dec (nz61 5) []) as [[]|_] in E3. destruct (in_dec feq_dec (nz61 5) [nz61 5]) as [_|No] in E3'; [|destruct (No (or_introl eq_refl))].
  exists coins, keys, rest, ct, r, q, st2, ds. split; [exact Lc|]. split; [exact Hset|]. split; [exact E1|]. split; [exact E2|]. split; [exact E3|]. split; [exact E3'|].
  destruct (decompose_of_5 pf) as (d & tl & Hds & Hlt). rewrite E2 in Hds. assert (Eds : ds = d :: tl) by congruence. exists d, tl. split; [exact Eds|]. apply E4'; [exact Eds|exact Hlt|].
  intros x [<-|[]]. rewrite E2, Eds. intros Z. apply (f_equal (fun o => match o with Ok l => hd 0 l | _ => 0 end)) in Z. cbn [hd] in Z. lia.
Qed.
