(* PropNonmal.v -- theorems for C73: a prover that has seen honest ciphertexts with their proofs gets nothing accepted but encryptions of
   chunks it knows and re-randomized copies of single ciphertexts it has seen *)
From Verif Require Import Base BaseFacts Algebra Utils UtilsFacts Setup Keygen Encryption Circuit CircuitFacts CircuitSat CommitmentFacts VecFacts KeySpec KeygenFacts
  EncryptFacts DecryptFacts Spec VerifyFacts Protocol ReencFacts DistFacts PropVerify Groth16 ArkGroth16 PolyFacts Groth16Spec ArkFacts Groth16Facts SchwartzZippel SoundCore SoundSpec
  SoundAlg SoundGame SoundLink SoundFacts SoundCount SoundHonest PropGroth16 PropGroth16More PropGroth16Cases PropSound PropSoundCases PropZK PrivacySpec PrivacyAlg PrivacyGame PrivacyLink PrivacyCount
  PrivacySpan PrivacyMany PropPrivacy SoundDkgSpec SoundDkg SoundAdaptSpec SoundAdapt PropSoundAdapt NonmalCore NonmalAlg NonmalSpec NonmalGame NonmalRows NonmalLink NonmalCount Instance Examples.

(* The coins of the whole execution: 3n+7 for the setup, then three per honest encryption.  The prover sees everything the setup
   publishes (decryption key included) and the ciphertexts and proofs of the messages msgs, tests products of pairings, and outputs linear
   combinations.  What it gets accepted is, but for the stated fraction of the coins, either an encryption of chunks of b bits that can be
   read off its combinations, or one of the ciphertexts it saw with an encryption of zeros under a randomness it knows added to it and a
   proof whose A is a multiple of that of the same ciphertext's proof. *)
Theorem C73_accepted_ciphertexts_are_fresh_or_copies (E : pairing) (gens : encryption_gens E) (pf : profile)
    (domain : nat -> option (list (Fr E))) (fuel n : nat) (b : Z) (cs : csys (K_of E)) (xs : list (Fr E)) (msgs : list (Fr E)) (P : prover E) (L : list (list (Fr E))) :
  eg_G gens <> gzero -> eg_H gens <> gzero -> domain_ok domain ->
  supported b -> 2 ^ b <= modulus (K_of E) ->
  64 * Z.of_nat (limbs (K_of E)) - b < modulus_bit_size (K_of E) -> 64 * Z.of_nat (limbs (K_of E)) < 256 * b ->
  chunks_count (K_of E) b = Ok (Z.of_nat n) -> (0 < n)%nat ->
  generate_constraints (BitsizeCheckCircuit b (Z.of_nat n) None true) (cs_new Circuit.Setup) = Ok cs ->
  domain (length (cs_cons cs) + cs_num_inst cs)%nat = Some xs ->
  NoDup L ->
  (forall coins, In coins L -> length coins = (3 * n + 7 + 3 * length msgs)%nat /\ exists pk sk ek dk rest cps st',
     setup_for_groth16 (ark_backend pf domain fuel) (replay_rng E) b gens coins = Ok (pk, sk, ek, dk, rest) /\
     encrypt_all pf (ark_backend pf domain fuel) (replay_rng E) msgs ek pk b rest = Ok (cps, st') /\
     let S := play P (table_g1 gens pk ek cps) (table_g2 gens pk ek dk cps) in
     let ct := ciphertext_from S (table_g1 gens pk ek cps) in
     let q := proof_from S (table_g1 gens pk ek cps) (table_g2 gens pk ek dk cps) in
     verify_commitment_and_proof ct q (prepare_verifying_key (gpk_vk (pk_pk pk))) (prepare_ek ek) (prepare_gens gens) = Ok tt /\
     ~ (digits_ok b (extracted_chunks n S) /\ exists g_i, get_gs_for_encryption (gpk_vk (pk_pk pk)) = Ok g_i /\
        encrypts ek g_i (extracted_chunks n S) (ct_vec ct) (extracted_r n S)) /\
     ~ (exists ct0 q0, In (ct0, q0) cps /\ ct = rerandomized ek (extracted_r n S) ct0 /\ exists kappa, kappa <> fzero /\ pr_a q = kappa [*] pr_a q0)) ->
  let N := Z.of_nat (length xs) in let t := Z.of_nat (tests P) in let k := Z.of_nat (length msgs) in
  Z.of_nat (length L) * modulus (K_of E) <=
  (N + ((t * (3 * N + 7 * (3 * Z.of_nat n + 6)) + (4 * N + 7 * (3 * Z.of_nat n + 6))) + k * (t + k) * (3 * N + 9 * (3 * Z.of_nat n + 9))))
    * modulus (K_of E) ^ Z.of_nat (3 * n + 7 + 3 * length msgs).
Proof.
  intros HG HH Hd Hb HM C1 C2 Hc Hn Hcs Hxs Hnd HL.
  exact (nonmal_bound n cs xs pf domain fuel b gens HG HH Hd Hb HM (conj C1 C2) Hc Hn Hcs Hxs msgs P L Hnd HL).
Qed.

(* ---------- re-randomized copies carry the copied message and are accepted ---------- *)
Section Copies.
Context {E : pairing}.
Add Ring Krn : (@scalar_ring_theory (K_of E)).
Lemma rerandomized_is_sum (ek : encryption_key E) g_i (rho : Fr E) (ct : ciphertext E) : length (ek_X ek) = length (ct_enc_chunks ct) ->
  ct_add ct (ct_formula ek g_i (repeat 0 (length (ct_enc_chunks ct))) rho) = rerandomized ek rho ct.
Proof.
  intros L. unfold ct_add, rerandomized, ct_formula. cbn [ct_X_r ct_enc_chunks ct_commitment]. f_equal.
  - unfold body_formula. rewrite repeat_length. set (l := ct_enc_chunks ct) in *. clearbody l.
    assert (X : map (fun i => (rho [*] nth i (ek_X ek) gzero) [+] (of_Z (nth i (repeat 0 (length l)) 0) [*] nth i g_i gzero)) (seq 0 (length l)) = map (fun X => rho [*] X) (ek_X ek)).
    { rewrite <- L. transitivity (map (fun X => rho [*] X) (map (fun i => nth i (ek_X ek) gzero) (seq 0 (length (ek_X ek))))); [|rewrite <- list_as_map; reflexivity]. rewrite map_map. apply map_ext. intros i. rewrite nth_repeat. change (of_Z 0) with (@fzero (K_of E)). glin. }
    rewrite X. clear X. generalize dependent (ek_X ek). induction l as [|c l IH]; intros [|X Xs] L; cbn [length] in L; try lia; [reflexivity|]. cbn [map zip_with combine fst snd]. f_equal. apply IH. lia.
  - unfold psi_formula. assert (X : forall k (l : list (G1 E)), dot (map of_Z (repeat 0 k)) l = gzero).
    { induction k as [|k IH]; intros [|y l]; cbn [repeat map dot]; try reflexivity. rewrite IH. change (of_Z 0) with (@fzero (K_of E)). glin. }
    rewrite X. glin.
Qed.
Theorem C73_copies_encrypt_the_copied_message (ek : encryption_key E) g_i (ds : list Z) (ct : ciphertext E) (r rho : Fr E) :
  encrypts ek g_i ds (ct_vec ct) r -> encrypts ek g_i ds (ct_vec (rerandomized ek rho ct)) (fadd rho r).
Proof.
  intros H. pose proof H as H0. apply encrypts_inv in H. destruct H as (n' & Hw & Ln & Hg & Hv).
  assert (Ec : ct = ct_formula ek g_i ds r).
  { apply (f_equal (@ct_of_vec E)) in Hv. rewrite !ct_of_vec_ct_vec in Hv. injection Hv as Hv. exact Hv. }
  pose proof Hw as (_ & LX & _). rewrite Ec, <- rerandomized_formula by lia. exists (replay_rng E), [fadd rho r], []. apply encrypts_intro with (n := n'); [exact Hw|lia|exact Hg].
Qed.
Theorem C73_copies_are_accepted (B : groth16_backend E) circ gens pk g_i b ek (ct : ciphertext E) (q : proof E) (rho : Fr E) :
  backend_correct B -> from_srs B circ gens pk -> get_gs_for_encryption (gpk_vk (pk_pk pk)) = Ok g_i ->
  honest_key b gens g_i (gpk_delta_g1 (pk_pk pk)) (pk_gamma_g1 pk) ek -> length (ct_enc_chunks ct) = length (ek_X ek) ->
  verify_commitment_and_proof ct q (prepare_verifying_key (gpk_vk (pk_pk pk))) (prepare_ek ek) (prepare_gens gens) = Ok tt ->
  verify_commitment_and_proof (rerandomized ek rho ct) (Proof (pr_a q) (pr_b q) (pr_c q [+] (rho [*] ek_P_2 ek)))
    (prepare_verifying_key (gpk_vk (pk_pk pk))) (prepare_ek ek) (prepare_gens gens) = Ok tt.
Proof.
  intros HB Hs Hg Hk Hl Hv. destruct ct as [c_0 c psi]. cbn [ct_enc_chunks] in Hl.
  destruct (C54_ciphertext_and_proof_rerandomization E B circ gens pk g_i b ek (replay_rng E) c_0 c psi q [rho] HB Hs Hg Hk Hl) as (c_0' & c' & psi' & p' & X1 & _ & _ & X4).
  specialize (X4 Hv). pose proof Hk as Hk'. apply honest_key_inv in Hk'. destruct Hk' as (n & s & t0 & t & Hn & Hgl & Hlt & Hls & Hlt' & Hek).
  pose proof (formula_wf gens g_i (gpk_delta_g1 (pk_pk pk)) (pk_gamma_g1 pk) s t0 t n Hls Hlt' Hgl Hlt) as Hw. rewrite <- Hek in Hw. pose proof Hw as (_ & LX & LY & LZ).
  unfold shift_with_proof in X1. rewrite encrypt_chunks_ok in X1 by (rewrite ?repeat_length; lia). cbn [bind rand_scalar replay_rng fst snd] in X1.
  change (c_0 :: c ++ [psi]) with (ct_vec (Ciphertext c_0 c psi)) in X1. set (z := ct_formula ek g_i (repeat 0 (length c)) rho) in *.
  assert (Lz : length (ct_enc_chunks z) = length c) by (unfold z, ct_formula; cbn [ct_enc_chunks]; rewrite body_formula_length, repeat_length; reflexivity).
  rewrite add_cts_eq, !ct_vec_length in X1. cbn [ct_enc_chunks] in X1. rewrite Lz, Nat.leb_refl in X1. rewrite ct_vec_add in X1 by (cbn [ct_enc_chunks]; lia). cbn [bind] in X1.
  pose proof (rerandomized_is_sum ek g_i rho (Ciphertext c_0 c psi) ltac:(cbn [ct_enc_chunks]; lia)) as R. cbn [ct_enc_chunks] in R. fold z in R. rewrite R in X1.
  assert (Y : ct_vec (rerandomized ek rho (Ciphertext c_0 c psi)) = ct_vec (Ciphertext c_0' c' psi') /\ p' = blinded q rho ek).
  { split; [exact (f_equal (fun o => match o with Ok (a, _) => a | _ => [] end) X1)|]. symmetry. exact (f_equal (fun o => match o with Ok (_, a) => a | _ => q end) X1). }
  destruct Y as [Y1 Y2]. apply (f_equal (@ct_of_vec E)) in Y1. rewrite !ct_of_vec_ct_vec in Y1. apply (f_equal (fun o => match o with Ok x => x | _ => Ciphertext c_0 c psi end)) in Y1.
  rewrite Y1. subst p'. exact X4.
Qed.
End Copies.

(* ---------- both kinds of strategies exist ---------- *)
Section Sides.
Context {E : pairing}.
Notation K := (K_of E).
Notation F := (Fr E).
Add Ring Kns : (@scalar_ring_theory K).
Notation e i env := (nth i env fzero).
Variables (n : nat) (cs : csys K) (xs : list F) (pf : profile) (domain : nat -> option (list F)) (fuel : nat) (b : Z) (gens : encryption_gens E).
Let ni := cs_num_inst cs.
Let nw := cs_num_wit cs.
Let N := length xs.
Let M := (ni + nw)%nat.
Notation B := (ark_backend pf domain fuel).
Hypothesis HG : eg_G gens <> gzero.
Hypothesis Hdom_ok : domain_ok domain.
Hypothesis Hb : supported b.
Hypothesis HbM : 2 ^ b <= modulus K.
Hypothesis Hcomp : chunk_compatible K b.
Hypothesis Hcount : chunks_count K b = Ok (Z.of_nat n).
Hypothesis Hn0 : (0 < n)%nat.
Hypothesis Hcs : generate_constraints (BitsizeCheckCircuit b (Z.of_nat n) None true) (@cs_new K Circuit.Setup) = Ok cs.
Hypothesis Hdomain : domain (length (cs_cons cs) + cs_num_inst cs)%nat = Some xs.
Notation Q1 := (P1 n cs xs).
Notation Q2 := (P2 n cs).

Definition row1 (p1 x0 : F) (x : list F) (p2 : F) : list F :=
  g1_coeffs (zs n) p1 fzero fzero fzero fzero fzero (zs M) (zs M) (zs (N - 1)) (zs nw) (zs ni) x0 x p2.
Definition copying (i : nat) (rho : F) : strategy E :=
  let at_i j := unit_row (i * (n + 4) + j) in
  Strategy (row1 fzero fzero (zs n) fzero ++ at_i (n + 2)%nat) (zs Q2 ++ unit_row i) (row1 fzero fzero (zs n) rho ++ at_i (n + 3)%nat)
    (row1 fzero rho (zs n) fzero ++ at_i 0%nat) (map (fun j => row1 fzero fzero (unit_at n j rho) fzero ++ at_i (S j)) (seq 0 n))
    (row1 rho fzero (zs n) fzero ++ at_i (n + 1)%nat).

(* the execution on given coins, cut into setup and encryptions *)
Lemma run_split msgs c pk sk ek dk rest cps st' : length c = (3 * n + 7 + 3 * length msgs)%nat -> vanishing_at xs (e 4 c) <> fzero ->
  setup_for_groth16 B (replay_rng E) b gens c = Ok (pk, sk, ek, dk, rest) -> encrypt_all pf B (replay_rng E) msgs ek pk b rest = Ok (cps, st') ->
  setup_for_groth16 B (replay_rng E) b gens (firstn (3 * n + 7) c) = Ok (pk, sk, ek, dk, []) /\ length (firstn (3 * n + 7) c) = (3 * n + 7)%nat /\
  vanishing_at xs (e 4 (firstn (3 * n + 7) c)) <> fzero /\ good_setup n xs pf domain fuel b gens pk ek dk /\
  cps = map (forged gens pk ek dk) (hons n cs xs pf b msgs (skipn (3 * n + 7) c)) /\ length cps = length msgs.
Proof.
  intros Lc Hv Hset Henc.
  set (c0 := firstn (3 * n + 7) c). assert (L0 : length c0 = (3 * n + 7)%nat) by (unfold c0; rewrite firstn_length; lia). set (ck := skipn (3 * n + 7) c) in *.
  assert (Lck : length ck = (3 * length msgs)%nat) by (unfold ck; rewrite skipn_length; lia).
  assert (Ec : c = c0 ++ ck) by (symmetry; apply firstn_skipn). assert (Hv0 : vanishing_at xs (e 4 c0) <> fzero) by (rewrite Ec, app_nth1 in Hv by lia; exact Hv).
  destruct (setup_local n cs xs pf domain fuel b gens Hb HbM Hcount Hn0 Hcs Hdomain c0 L0 Hv0) as [(pk' & sk' & ek' & dk' & Hx)|Hx]; [|rewrite Ec in Hset; destruct (Hx _ _ Hset)].
  rewrite Ec, Hx in Hset. apply ok_pair5 in Hset. destruct Hset as (E1 & E2 & E3 & E4 & E5). subst pk' sk' ek' dk' rest.
  assert (Hs0 : setup_for_groth16 B (replay_rng E) b gens c0 = Ok (pk, sk, ek, dk, [])) by (rewrite <- (Hx []), app_nil_r; reflexivity).
  assert (Hg : good_setup n xs pf domain fuel b gens pk ek dk). { exists c0, sk. split; [exact L0|]. split; [exact Hv0|exact Hs0]. }
  pose proof (hons_run n cs xs pf domain fuel b gens Hdom_ok Hb HbM Hcomp Hcount Hn0 Hcs Hdomain msgs ck Lck pk ek dk [] Hg) as HR. rewrite app_nil_r in HR.
  rewrite HR in Henc. assert (Ecps : map (forged gens pk ek dk) (hons n cs xs pf b msgs ck) = cps) by congruence.
  split; [exact Hs0|]. split; [exact L0|]. split; [exact Hv0|]. split; [exact Hg|]. split; [symmetry; exact Ecps|].
  rewrite <- Ecps, map_length. apply (hons_length n cs xs pf b Hb HbM Hn0 Hcs). exact Lck.
Qed.
Lemma pair_at {A} (f : A -> list (G1 E)) m l : (forall x, In x l -> length (f x) = m) -> forall i d j, (i < length l)%nat -> (j < m)%nat -> nth (i * m + j) (concat (map f l)) gzero = nth j (f (nth i l d)) gzero.
Proof.
  induction l as [|x l IH]; intros Hl i d j Hi Hj; [cbn [length] in Hi; lia|]. cbn [map concat]. destruct i as [|i].
  - rewrite Nat.mul_0_l, Nat.add_0_l. cbn [nth]. apply app_nth1. rewrite (Hl x (or_introl eq_refl)). exact Hj.
  - cbn [nth]. rewrite app_nth2; rewrite (Hl x (or_introl eq_refl)); [|nia]. replace (S i * m + j - m)%nat with (i * m + j)%nat by nia. apply IH; [intros y Hy; apply Hl; right; exact Hy|cbn [length] in Hi; lia|exact Hj].
Qed.
Lemma run_keys c0 pk sk ek dk : setup_for_groth16 B (replay_rng E) b gens c0 = Ok (pk, sk, ek, dk, []) -> exists circ g_i,
  circuit_new b None None true = Ok circ /\ from_srs B (generate_constraints circ) gens pk /\ get_gs_for_encryption (gpk_vk (pk_pk pk)) = Ok g_i /\ honest_key b gens g_i (gpk_delta_g1 (pk_pk pk)) (pk_gamma_g1 pk) ek.
Proof.
  intros Hset. unfold setup_for_groth16 in Hset. apply bind_Ok_inv in Hset. destruct Hset as (circ & Hcirc & Hset).
  apply bind_Ok_inv in Hset. destruct Hset as ([pk0 st1] & Hsrs & Hset). apply bind_Ok_inv in Hset. destruct Hset as (g_i' & Hg' & Hset).
  apply bind_Ok_inv in Hset. destruct Hset as ([[[sk0 ek0] dk0] st2] & Hk & Hset).
  assert (pk0 = pk) by congruence. assert (ek0 = ek) by congruence. assert (sk0 = sk) by congruence. assert (dk0 = dk) by congruence. clear Hset. subst pk0 ek0 sk0 dk0.
  exists circ, g_i'. split; [exact Hcirc|]. split; [exists (replay_rng E), c0, st1; exact Hsrs|]. split; [exact Hg'|]. left. exists sk, dk, (replay_rng E), st1, st2. exact Hk.
Qed.
Lemma copying_works (msgs : list F) (i : nat) (rho : F) : let S := copying i rho in (i < length msgs)%nat ->
  extracted_r n S = rho /\ extracted_chunks n S = repeat 0 n /\
  forall coins pk sk ek dk rest cps st', length coins = (3 * n + 7 + 3 * length msgs)%nat -> ~ In (nth 4 coins fzero) xs ->
    setup_for_groth16 B (replay_rng E) b gens coins = Ok (pk, sk, ek, dk, rest) -> encrypt_all pf B (replay_rng E) msgs ek pk b rest = Ok (cps, st') ->
    let ct := ciphertext_from S (table_g1 gens pk ek cps) in
    let q := proof_from S (table_g1 gens pk ek cps) (table_g2 gens pk ek dk cps) in
    exists ct0 q0, nth_error cps i = Some (ct0, q0) /\ ct = rerandomized ek rho ct0 /\ q = Proof (pr_a q0) (pr_b q0) (pr_c q0 [+] (rho [*] ek_P_2 ek)) /\
      verify_commitment_and_proof ct q (prepare_verifying_key (gpk_vk (pk_pk pk))) (prepare_ek ek) (prepare_gens gens) = Ok tt /\
      (ct_X_r ct0 <> gzero -> ~ exists g_i, get_gs_for_encryption (gpk_vk (pk_pk pk)) = Ok g_i /\ encrypts ek g_i (extracted_chunks n S) (ct_vec ct) (extracted_r n S)).
Proof.
  intros S Hi. subst S.
  assert (Lz : forall k, length (@zs E k) = k) by (intros k; apply repeat_length).
  assert (XR : extracted_r n (copying i rho) = rho).
  { unfold extracted_r, copying. cbv zeta. cbn [sg_commitment]. unfold row1, g1_coeffs. rewrite !app_nth1 by (rewrite ?app_length, ?Lz; cbn [length]; lia). rewrite app_nth2; rewrite Lz; [|lia]. rewrite Nat.sub_diag. reflexivity. }
  assert (XC : extracted_chunks n (copying i rho) = repeat 0 n).
  { unfold extracted_chunks, copying. cbv zeta. cbn [sg_commitment]. unfold row1, g1_coeffs.
    match goal with |- map ?f _ = _ => assert (X : forall l, (forall j, In j l -> (j < n)%nat) -> map f l = repeat 0 (length l)) end.
    { induction l as [|j l IH]; intros Hl; [reflexivity|]. cbn [map length repeat]. rewrite IH by (intros k Hk; apply Hl; right; exact Hk). f_equal.
      pose proof (Hl j (or_introl eq_refl)) as Hj. rewrite !app_nth1 by (rewrite ?app_length, ?Lz; cbn [length]; lia). unfold zs. rewrite nth_repeat. reflexivity. }
    rewrite X; [rewrite seq_length; reflexivity|]. intros j Hj. apply in_seq in Hj. lia. }
  split; [exact XR|]. split; [exact XC|]. intros coins pk sk ek dk rest cps st' Lc Hin Hset Henc ct q.
  assert (Hv : vanishing_at xs (e 4 coins) <> fzero) by (rewrite vanishing_zero; exact Hin).
  destruct (run_split msgs coins pk sk ek dk rest cps st' Lc Hv Hset Henc) as (Hs0 & L0 & Hv0 & Hg & Ecps & Lcps). set (c0 := firstn (3 * n + 7) coins) in *. set (Ss := hons n cs xs pf b msgs (skipn (3 * n + 7) coins)) in *.
  assert (LSs : length Ss = length msgs) by (rewrite <- Lcps, Ecps, map_length; reflexivity).
  pose proof (hons_ok n cs xs pf domain fuel b gens Hdom_ok Hb HbM Hcomp Hcount Hn0 Hcs Hdomain msgs (skipn (3 * n + 7) coins)) as HSs. fold Ss in HSs.
  pose proof (setup_shape n cs xs pf domain fuel b gens (bits_of _ b Hb HbM) Hcount Hn0 Hcs Hdomain c0 pk sk ek dk [] L0 Hv0 Hs0) as Hsh.
  destruct (pub_lengths n cs xs pf domain fuel b gens Hb HbM Hcount Hn0 Hcs Hdomain c0 pk sk ek dk [] ltac:(lia) Hv0 Hs0) as [LP1 LP2].
  set (cp := forged gens pk ek dk (nth i Ss dS)). set (ct0 := fst cp). set (q0 := snd cp).
  assert (Ncp : nth_error cps i = Some (ct0, q0)).
  { rewrite Ecps. rewrite nth_error_map, (nth_error_nth' Ss dS) by lia. cbn [option_map]. unfold ct0, q0. fold cp. rewrite <- surjective_pairing. reflexivity. }
  assert (Hin0 : In (nth i Ss dS) Ss) by (apply nth_In; lia).
  assert (Lct0 : length (ct_enc_chunks ct0) = n).
  { unfold ct0, cp, forged, forge_ciphertext. cbn [fst ct_enc_chunks]. rewrite map_length. rewrite Forall_forall in HSs. apply (HSs _ Hin0). }
  assert (Lblk : forall S0, In S0 Ss -> length (pair_g1 (forged gens pk ek dk S0)) = (n + 4)%nat).
  { intros S0 H0. rewrite Forall_forall in HSs. destruct (HSs S0 H0) as (Lch & _). unfold pair_g1, forged, forge_ciphertext. cbn [fst snd ct_X_r ct_enc_chunks ct_commitment]. rewrite !app_length, map_length, Lch. cbn [length]. lia. }
  assert (At : forall p1 x0 x p2 j, length x = n -> (j < n + 4)%nat -> dot (row1 p1 x0 x p2 ++ unit_row (i * (n + 4) + j)) (table_g1 gens pk ek cps) =
     ((p1 [*] ek_P_1 ek) [+] (x0 [*] ek_X_0 ek) [+] dot x (ek_X ek) [+] (p2 [*] ek_P_2 ek)) [+] nth j (pair_g1 cp) gzero).
  { intros p1 x0 x p2 j Lx Hj. unfold table_g1. rewrite dot_app_eq.
    - unfold row1. rewrite (dot_g1_coeffs n cs xs gens pk ek) by (try exact Hsh; rewrite ?Lz; try reflexivity; exact Lx). rewrite !dot_zs. rewrite dot_unit_row.
      rewrite Ecps, map_map. rewrite (pair_at (fun S0 => pair_g1 (forged gens pk ek dk S0)) (n + 4) Ss Lblk i dS j) by lia. fold cp. glin.
    - rewrite LP1. unfold row1, g1_coeffs, P1. rewrite !app_length, !Lz, Lx. cbn [length]. unfold M, N, ni, nw. lia. }
  assert (EX : forall j, (j < n)%nat -> nth (S j) (pair_g1 cp) gzero = nth j (ct_enc_chunks ct0) gzero).
  { intros j Hj. unfold pair_g1. fold ct0 q0. cbn [app nth]. apply app_nth1. lia. }
  assert (E2 : forall j, (j < 3)%nat -> nth (n + 1 + j) (pair_g1 cp) gzero = nth j [ct_commitment ct0; pr_a q0; pr_c q0] gzero).
  { intros j Hj. unfold pair_g1. fold ct0 q0. replace (n + 1 + j)%nat with (S (n + j)) by lia. cbn [app nth]. rewrite app_nth2; rewrite Lct0; [|lia]. replace (n + j - n)%nat with j by lia. reflexivity. }
  assert (Ect : ct = rerandomized ek rho ct0).
  { unfold ct, ciphertext_from, copying, rerandomized. cbv zeta. cbn [sg_X_r sg_chunks sg_commitment]. f_equal.
    - rewrite At by (rewrite ?Lz; lia). rewrite dot_zs. change (nth 0 (pair_g1 cp) gzero) with (ct_X_r ct0). glin.
    - rewrite map_map. destruct Hsh as (_ & LX & _). rewrite (list_as_map gzero (ct_enc_chunks ct0)), Lct0. rewrite <- LX at 2. rewrite (combine_nth_map _ gzero), map_map, LX. apply map_ext_in.
      intros j Hj. apply in_seq in Hj. rewrite At by (rewrite ?unit_at_length; lia). rewrite dot_unit, EX by lia. cbn [fst snd]. glin.
    - rewrite At by (rewrite ?Lz; lia). rewrite dot_zs. rewrite <- (Nat.add_0_r (n + 1)), E2 by lia. cbn [nth]. glin. }
  assert (Eq : q = Proof (pr_a q0) (pr_b q0) (pr_c q0 [+] (rho [*] ek_P_2 ek))).
  { unfold q, proof_from, copying. cbv zeta. cbn [sg_a sg_b sg_c].
    assert (Y1 : dot (row1 fzero fzero (zs n) fzero ++ unit_row (i * (n + 4) + (n + 2))) (table_g1 gens pk ek cps) = pr_a q0).
    { rewrite At by (rewrite ?Lz; lia). rewrite dot_zs. replace (n + 2)%nat with (n + 1 + 1)%nat by lia. rewrite E2 by lia. cbn [nth]. glin. }
    assert (Y2 : dot (row1 fzero fzero (zs n) rho ++ unit_row (i * (n + 4) + (n + 3))) (table_g1 gens pk ek cps) = pr_c q0 [+] (rho [*] ek_P_2 ek)).
    { rewrite At by (rewrite ?Lz; lia). rewrite dot_zs. replace (n + 3)%nat with (n + 1 + 2)%nat by lia. rewrite E2 by lia. cbn [nth]. glin. }
    assert (Y3 : dot (zs Q2 ++ unit_row i) (table_g2 gens pk ek dk cps) = pr_b q0).
    { unfold table_g2. rewrite dot_app_eq by (rewrite Lz, LP2; reflexivity). rewrite dot_zs, dot_unit_row, gadd_0_l.
      erewrite nth_error_nth; [reflexivity|]. rewrite nth_error_map, Ncp. reflexivity. }
    rewrite Y1, Y2, Y3. reflexivity. }
  exists ct0, q0. split; [exact Ncp|]. split; [exact Ect|]. split; [exact Eq|]. destruct (run_keys c0 pk sk ek dk Hs0) as (circ & g_i & Hcirc & Hsrs & Hgi & Hk). split.
  - rewrite Ect, Eq. apply (C73_copies_are_accepted B _ gens pk g_i b ek ct0 q0 rho (ark_backend_correct pf domain fuel Hdom_ok) Hsrs Hgi Hk); [destruct Hsh as (_ & LX & _); lia|].
    destruct (hons_in n cs xs pf b msgs _ _ Hin0) as (msg & r & rr & ss & _ & ES).
    destruct (hs_run n cs xs pf domain fuel b gens Hdom_ok Hb HbM Hcomp Hcount Hcs Hdomain msg) as (_ & _ & _ & _ & HR). specialize (HR r rr ss pk ek dk [] Hg).
    destruct (with_proof_any_key pf E B (replay_rng E) b circ gens pk g_i ek msg [r; rr; ss] (ark_backend_correct pf domain fuel Hdom_ok) Hb HbM Hcomp Hcirc Hsrs Hgi Hk) as (ct1 & r1 & q1 & s1 & s2 & Z1 & _ & Z3).
    rewrite HR in Z1. assert (W : ct1 = ct0 /\ q1 = q0) by (unfold ct0, q0, cp, forged; cbn [fst snd]; rewrite ES; split; congruence). destruct W as [-> ->]. exact Z3.
  - intros Hx (g' & _ & Z). rewrite XC, XR, Ect in Z. apply encrypts_inv in Z. destruct Z as (n' & _ & _ & _ & Z). apply (f_equal (hd gzero)) in Z. unfold ct_vec in Z. cbn [app hd] in Z.
    unfold rerandomized, ct_formula in Z. cbn [ct_X_r] in Z. apply Hx. apply (gadd_cancel_l (rho [*] ek_X_0 ek)). rewrite gadd_0_r, gadd_comm. exact Z.
Qed.
Theorem C73_copying_strategies (msgs : list F) (i : nat) (rho : F) : (i < length msgs)%nat -> exists S : strategy E,
  extracted_r n S = rho /\ extracted_chunks n S = repeat 0 n /\
  forall coins pk sk ek dk rest cps st', length coins = (3 * n + 7 + 3 * length msgs)%nat -> ~ In (nth 4 coins fzero) xs ->
    setup_for_groth16 B (replay_rng E) b gens coins = Ok (pk, sk, ek, dk, rest) -> encrypt_all pf B (replay_rng E) msgs ek pk b rest = Ok (cps, st') ->
    let ct := ciphertext_from S (table_g1 gens pk ek cps) in
    let q := proof_from S (table_g1 gens pk ek cps) (table_g2 gens pk ek dk cps) in
    exists ct0 q0, nth_error cps i = Some (ct0, q0) /\ ct = rerandomized ek rho ct0 /\ q = Proof (pr_a q0) (pr_b q0) (pr_c q0 [+] (rho [*] ek_P_2 ek)) /\
      verify_commitment_and_proof ct q (prepare_verifying_key (gpk_vk (pk_pk pk))) (prepare_ek ek) (prepare_gens gens) = Ok tt /\
      (ct_X_r ct0 <> gzero -> ~ exists g_i, get_gs_for_encryption (gpk_vk (pk_pk pk)) = Ok g_i /\ encrypts ek g_i (extracted_chunks n S) (ct_vec ct) (extracted_r n S)).
Proof. intros Hi. exists (copying i rho). exact (copying_works msgs i rho Hi). Qed.
(* a strategy that does not look at the ciphertexts *)
Definition blind (S : strategy E) : strategy E :=
  Strategy (firstn Q1 (sg_a S)) (firstn Q2 (sg_b S)) (firstn Q1 (sg_c S)) (firstn Q1 (sg_X_r S)) (map (firstn Q1) (sg_chunks S)) (firstn Q1 (sg_commitment S)).
Lemma dot_firstn {G : group K} k c (l l' : list G) : length l = k -> dot (firstn k c) (l ++ l') = dot c l.
Proof.
  revert c l; induction k as [|k IH]; intros c l Hl.
  - destruct l; [|discriminate]. destruct c, l'; reflexivity.
  - destruct l as [|y l]; [discriminate|]. destruct c as [|x c]; [destruct l'; reflexivity|]. cbn [firstn app dot]. rewrite IH by (cbn [length] in Hl; lia). reflexivity.
Qed.
Lemma nth_firstn {A} (d : A) k j l : (j < k)%nat -> nth j (firstn k l) d = nth j l d.
Proof. revert j l; induction k as [|k IH]; intros j l Hj; [lia|]. destruct l as [|x l]; [reflexivity|]. destruct j as [|j]; cbn [firstn nth]; [reflexivity|]. apply IH. lia. Qed.
Theorem C73_every_known_execution_can_be_cheated (msgs coins : list F) pk sk ek dk rest cps st' (ds : list Z) (r : F) :
  length coins = (3 * n + 7 + 3 * length msgs)%nat -> ~ In (nth 4 coins fzero) xs ->
  setup_for_groth16 B (replay_rng E) b gens coins = Ok (pk, sk, ek, dk, rest) -> encrypt_all pf B (replay_rng E) msgs ek pk b rest = Ok (cps, st') ->
  (forall ct0 q0, In (ct0, q0) cps -> ct_X_r ct0 <> gzero) -> length ds = n -> Forall (fun z => 0 <= z < modulus K) ds ->
  exists S : strategy E, extracted_chunks n S = ds /\ extracted_r n S = r /\
    let ct := ciphertext_from S (table_g1 gens pk ek cps) in
    let q := proof_from S (table_g1 gens pk ek cps) (table_g2 gens pk ek dk cps) in
    verify_commitment_and_proof ct q (prepare_verifying_key (gpk_vk (pk_pk pk))) (prepare_ek ek) (prepare_gens gens) = Ok tt /\
    ~ exists ct0 q0, In (ct0, q0) cps /\ ct = rerandomized ek (extracted_r n S) ct0.
Proof.
  intros Lc Hin Hset Henc Hx Lds Hds.
  assert (Hv : vanishing_at xs (e 4 coins) <> fzero) by (rewrite vanishing_zero; exact Hin).
  destruct (run_split msgs coins pk sk ek dk rest cps st' Lc Hv Hset Henc) as (Hs0 & L0 & Hv0 & _). set (c0 := firstn (3 * n + 7) coins) in *.
  destruct (pub_lengths n cs xs pf domain fuel b gens Hb HbM Hcount Hn0 Hcs Hdomain c0 pk sk ek dk [] ltac:(lia) Hv0 Hs0) as [LP1 LP2].
  destruct (known_setup_cheat_full gens pf domain fuel n b cs xs c0 pk sk ek dk [] ds r Hdom_ok (bits_of _ b Hb HbM) Hcount Hn0 Hcs Hdomain L0 ltac:(rewrite <- vanishing_zero; exact Hv0) Hs0 Lds Hds)
    as (S & A1 & A2 & _ & A4 & A5).
  assert (HQ : (n < Q1)%nat) by (unfold P1; lia).
  assert (X1 : extracted_chunks n (blind S) = ds).
  { rewrite <- A1. unfold extracted_chunks, blind. cbn [sg_commitment]. apply map_ext_in. intros j Hj. apply in_seq in Hj. rewrite nth_firstn by lia. reflexivity. }
  assert (X2 : extracted_r n (blind S) = r) by (rewrite <- A2; unfold extracted_r, blind; cbn [sg_commitment]; apply nth_firstn; lia).
  assert (X3 : ciphertext_from (blind S) (table_g1 gens pk ek cps) = forge_ciphertext S gens pk ek).
  { unfold ciphertext_from, forge_ciphertext, blind, table_g1. cbn [sg_X_r sg_chunks sg_commitment]. rewrite !dot_firstn by exact LP1. rewrite map_map. f_equal. apply map_ext. intros c. apply dot_firstn. exact LP1. }
  assert (X4 : proof_from (blind S) (table_g1 gens pk ek cps) (table_g2 gens pk ek dk cps) = forge_proof S gens pk ek dk).
  { unfold proof_from, forge_proof, blind, table_g1, table_g2. cbn [sg_a sg_b sg_c]. rewrite !dot_firstn by (exact LP1 || exact LP2). reflexivity. }
  exists (blind S). split; [exact X1|]. split; [exact X2|]. cbv zeta. rewrite X2, X3, X4. split; [exact A5|].
  intros (ct0 & q0 & Hi & Z). apply (Hx ct0 q0 Hi). apply (f_equal ct_X_r) in Z. rewrite A4 in Z. unfold rerandomized in Z. cbn [ct_X_r] in Z.
  apply (gadd_cancel_l (r [*] ek_X_0 ek)). rewrite gadd_0_r, gadd_comm. symmetry. exact Z.
Qed.
End Sides.

(* One concrete execution with one message on which a strategy is accepted that has the chunks 2^16, 0, 0, 0 and is no copy, and another
   that is a copy and no encryption of chunks it knows: none of the two exceptions of the theorem can be dropped, and its hypotheses can be met. *)
Lemma first_element (pf : profile) (E : pairing) b (msg : Fr E) ds ek g_i pk st ct r p st' B n : encrypt_with_proof pf B (replay_rng E) msg ek pk b st = Ok (ct, r, p, st') ->
  get_gs_for_encryption (gpk_vk (pk_pk pk)) = Ok g_i -> decompose pf msg b = Ok ds -> length (ek_X ek) = n -> length (ek_Y ek) = n -> length (ek_Z ek) = (n + 1)%nat -> (n < 256)%nat -> length ds = n -> length g_i = n ->
  ct_X_r ct = fst (rand_scalar (replay_rng E) st) [*] ek_X_0 ek.
Proof.
  intros Hrun Hg Hd HX HY HZ H256 Ld Lg. unfold encrypt_with_proof in Hrun. rewrite Hg in Hrun. cbn [bind] in Hrun. apply bind_Ok_inv in Hrun. destruct Hrun as ([[c r1] s1] & He & Hrun).
  rewrite Hd in Hrun. cbn [bind] in Hrun. apply bind_Ok_inv in Hrun. destruct Hrun as (circ & _ & Hrun). apply bind_Ok_inv in Hrun. destruct Hrun as ([q s2] & _ & Hrun). injection Hrun as -> _ _ _.
  unfold encrypt in He. rewrite Hd in He. cbn [bind] in He. rewrite (encrypt_chunks_ok (replay_rng E) ds ek g_i st) in He by lia. cbn [bind] in He. rewrite ct_of_vec_ct_vec in He. cbn [bind] in He. injection He as <- _ _.
  reflexivity.
Qed.
Lemma first_coin : fst (rand_scalar (replay_rng E61) (skipn (3 * 4 + 7) w_coins)) = nz61 3.
Proof. reflexivity. Qed.
Lemma nz3 : nz61 3 <> @fzero K61.
Proof. intros Z. apply (f_equal sval) in Z. vm_compute in Z. discriminate Z. Qed.
Lemma w_delta : nth 3 w_coins fzero <> fzero.
Proof. exact z_delta. Qed.
Example C73_case (pf : profile) (msg : Fr E61) : exists (cs : csys K61) pk sk ek dk rest cps st' (S S' : strategy E61),
  generate_constraints (BitsizeCheckCircuit 16 (Z.of_nat 4) None true) (cs_new Circuit.Setup) = Ok cs /\
  y_domain (length (cs_cons cs) + cs_num_inst cs)%nat = Some y_xs /\ length w_coins = (3 * 4 + 7 + 3 * length [msg])%nat /\
  setup_for_groth16 (ark_backend pf y_domain 3) (replay_rng E61) 16 x_gens w_coins = Ok (pk, sk, ek, dk, rest) /\
  encrypt_all pf (ark_backend pf y_domain 3) (replay_rng E61) [msg] ek pk 16 rest = Ok (cps, st') /\
  (let ct := ciphertext_from S (table_g1 x_gens pk ek cps) in let q := proof_from S (table_g1 x_gens pk ek cps) (table_g2 x_gens pk ek dk cps) in
   verify_commitment_and_proof ct q (prepare_verifying_key (gpk_vk (pk_pk pk))) (prepare_ek ek) (prepare_gens x_gens) = Ok tt /\
   ~ digits_ok 16 (extracted_chunks 4 S) /\ ~ exists ct0 q0, In (ct0, q0) cps /\ ct = rerandomized ek (extracted_r 4 S) ct0) /\
  (let ct := ciphertext_from S' (table_g1 x_gens pk ek cps) in let q := proof_from S' (table_g1 x_gens pk ek cps) (table_g2 x_gens pk ek dk cps) in
   verify_commitment_and_proof ct q (prepare_verifying_key (gpk_vk (pk_pk pk))) (prepare_ek ek) (prepare_gens x_gens) = Ok tt /\
   ~ exists g_i, get_gs_for_encryption (gpk_vk (pk_pk pk)) = Ok g_i /\ encrypts ek g_i (extracted_chunks 4 S') (ct_vec ct) (extracted_r 4 S')).
Proof.
  destruct z_cs as (cs & Hcs & Hd). destruct y_conditions as (C1 & C2 & C3 & C4). assert (H4 : (0 < 4)%nat) by lia.
  assert (HG : eg_G x_gens <> gzero) by (intros H; apply (f_equal sval) in H; vm_compute in H; discriminate H).
  assert (Hv : vanishing_at y_xs (nth 4 w_coins fzero) <> fzero) by (rewrite vanishing_zero; exact z_in).
  destruct (setup_exists_rest 4 cs y_xs pf y_domain 3 16 x_gens z_bits y_count H4 Hcs Hd w_coins) as (pk & sk & ek & dk & Hset); [rewrite w_length; lia|exact z_gamma|exact z_delta|exact Hv|lia|].
  destruct (run_ok pf y_domain 3 16 x_gens y_domain_ok C1 C2 (conj C3 C4) msg w_coins pk sk ek dk _ Hset) as (ct & r & p & s1 & Hrun).
  set (rest := skipn (3 * 4 + 7) w_coins) in *.
  assert (Henc : encrypt_all pf (ark_backend pf y_domain 3) (replay_rng E61) [msg] ek pk 16 rest = Ok ([(ct, p)], s1)) by (cbn [encrypt_all]; rewrite Hrun; reflexivity).
  assert (Hx : ct_X_r ct <> gzero).
  { pose proof (setup_tape_rest 4 cs y_xs pf y_domain 3 16 x_gens y_count Hcs Hd (proj1 (cs_shape 4 cs y_xs 16 z_bits H4 Hcs)) w_coins pk sk ek dk _ ltac:(rewrite w_length; lia) Hv Hset) as (_ & _ & Hgs & _ & Hek & _).
    set (g_i := gis 4 cs y_xs x_gens w_coins) in *. assert (Lg : length g_i = 4%nat) by (unfold g_i, gis; rewrite map_length; apply seq_length).
    match type of Hek with ek = ek_formula _ _ ?d ?g ?s ?t0 ?t => destruct (ek_formula_lengths x_gens g_i d g s t0 t 4 ltac:(rewrite map_length; apply seq_length) ltac:(rewrite map_length; apply seq_length) ltac:(lia)) as (LX & LY & LZ) end.
    cbv zeta in LX, LY, LZ. rewrite <- Hek in LX, LY, LZ.
    destruct (hs_run 4 cs y_xs pf y_domain 3 16 x_gens y_domain_ok C1 C2 (conj C3 C4) y_count Hcs Hd msg) as (Ld & D & _).
    rewrite (first_element pf E61 16 msg _ ek g_i pk rest ct r p s1 _ 4 Hrun Hgs D LX LY LZ ltac:(lia) Ld Lg). unfold rest. rewrite first_coin, Hek. cbn [ek_formula ek_X_0].
    intros Z. apply smul_eq_zero in Z. destruct Z as [Z|Z]; [exact (nz3 Z)|]. apply smul_eq_zero in Z. destruct Z as [Z|Z]; [exact (w_delta Z)|exact (HG Z)]. }
  assert (Lw : length w_coins = (3 * 4 + 7 + 3 * length [msg])%nat) by exact w_length.
  destruct (C73_every_known_execution_can_be_cheated 4 cs y_xs pf y_domain 3 16 x_gens y_domain_ok C1 C2 (conj C3 C4) y_count H4 Hcs Hd [msg] w_coins pk sk ek dk rest [(ct, p)] s1 [2 ^ 16; 0; 0; 0] (nz61 55)
    Lw z_in Hset Henc ltac:(intros ct0 q0 [Q|[]]; injection Q as <- <-; exact Hx) eq_refl z_small) as (S & S1 & _ & S3). cbv zeta in S3. destruct S3 as [S3 S4].
  destruct (C73_copying_strategies 4 cs y_xs pf y_domain 3 16 x_gens y_domain_ok C1 C2 (conj C3 C4) y_count H4 Hcs Hd [msg] 0 (nz61 55) ltac:(cbn [length]; lia)) as (S' & _ & _ & T).
  destruct (T w_coins pk sk ek dk rest [(ct, p)] s1 Lw z_in Hset Henc) as (ct0 & q0 & T1 & _ & _ & T4 & T5). cbn [nth_error] in T1. injection T1 as <- <-. specialize (T5 Hx).
  exists cs, pk, sk, ek, dk, rest, [(ct, p)], s1, S, S'. split; [exact Hcs|]. split; [exact Hd|]. split; [exact Lw|]. split; [exact Hset|]. split; [exact Henc|]. cbv zeta. split.
  - split; [exact S3|]. split; [|exact S4]. rewrite S1. intros X. apply Forall_inv in X. lia.
  - split; [exact T4|exact T5].
Qed.

(* On that group a prover with up to 2^20 tests that has seen up to 2^10 ciphertexts gets something else accepted on less than 2^-16 of the coins. *)
Example C73_bound_case (pf : profile) (msgs : list (Fr E61)) (P : prover E61) (L : list (list (Fr E61))) : Z.of_nat (tests P) <= 2 ^ 20 -> Z.of_nat (length msgs) <= 2 ^ 10 -> NoDup L ->
  (forall coins, In coins L -> length coins = (3 * 4 + 7 + 3 * length msgs)%nat /\ exists pk sk ek dk rest cps st',
     setup_for_groth16 (ark_backend pf y_domain 3) (replay_rng E61) 16 x_gens coins = Ok (pk, sk, ek, dk, rest) /\
     encrypt_all pf (ark_backend pf y_domain 3) (replay_rng E61) msgs ek pk 16 rest = Ok (cps, st') /\
     let S := play P (table_g1 x_gens pk ek cps) (table_g2 x_gens pk ek dk cps) in
     let ct := ciphertext_from S (table_g1 x_gens pk ek cps) in
     let q := proof_from S (table_g1 x_gens pk ek cps) (table_g2 x_gens pk ek dk cps) in
     verify_commitment_and_proof ct q (prepare_verifying_key (gpk_vk (pk_pk pk))) (prepare_ek ek) (prepare_gens x_gens) = Ok tt /\
     ~ (digits_ok 16 (extracted_chunks 4 S) /\ exists g_i, get_gs_for_encryption (gpk_vk (pk_pk pk)) = Ok g_i /\
        encrypts ek g_i (extracted_chunks 4 S) (ct_vec ct) (extracted_r 4 S)) /\
     ~ (exists ct0 q0, In (ct0, q0) cps /\ ct = rerandomized ek (extracted_r 4 S) ct0 /\ exists kappa, kappa <> fzero /\ pr_a q = kappa [*] pr_a q0)) ->
  Z.of_nat (length L) * 2 ^ 16 <= modulus K61 ^ Z.of_nat (3 * 4 + 7 + 3 * length msgs).
Proof.
  intros Ht Hk Hnd HL. destruct z_cs as (cs & Hcs & Hd). destruct y_conditions as (C1 & C2 & C3 & C4).
  assert (HG : eg_G x_gens <> gzero) by (intros H; apply (f_equal sval) in H; vm_compute in H; discriminate H). assert (H4 : (0 < 4)%nat) by lia.
  pose proof (C73_accepted_ciphertexts_are_fresh_or_copies E61 x_gens pf y_domain 3 4 16 cs y_xs msgs P L HG x_H y_domain_ok C1 C2 C3 C4 y_count H4 Hcs Hd Hnd HL) as B. cbv zeta in B.
  assert (Ly : Z.of_nat (length y_xs) <= 2 ^ 12) by (unfold y_xs, y_points; rewrite map_length, seq_length; unfold y_N; lia).
  change (modulus (K_of E61)) with (2 ^ 61 - 1) in B. change (modulus K61) with (2 ^ 61 - 1).
  set (T := (2 ^ 61 - 1) ^ _) in *. assert (HT : 0 < T) by (apply Z.pow_pos_nonneg; lia). clearbody T.
  set (N := Z.of_nat (length y_xs)) in *. set (t := Z.of_nat (tests P)) in *. set (k := Z.of_nat (length msgs)) in *. set (l := Z.of_nat (length L)) in *.
  assert (0 <= N) by (unfold N; lia). assert (0 <= t) by (unfold t; lia). assert (0 <= k) by (unfold k; lia). assert (0 <= l) by (unfold l; lia). clearbody N t k l. clear - B Ly Ht Hk HT H H0 H1 H2.
  assert (D1 : k * (t + k) <= 2 ^ 10 * (2 ^ 20 + 2 ^ 10)) by (apply Z.mul_le_mono_nonneg; lia).
  set (kk := k * (t + k)) in *. assert (0 <= kk) by (unfold kk; nia). clearbody kk.
  assert (D2 : kk * (3 * N + 9 * (3 * Z.of_nat 4 + 9)) <= (2 ^ 10 * (2 ^ 20 + 2 ^ 10)) * (3 * 2 ^ 12 + 189)) by (apply Z.mul_le_mono_nonneg; lia).
  assert (D3 : t * (3 * N + 7 * (3 * Z.of_nat 4 + 6)) <= 2 ^ 20 * (3 * 2 ^ 12 + 126)) by (apply Z.mul_le_mono_nonneg; lia).
  set (s := N + _) in B. assert (Hs : s <= 2 ^ 44 - 1) by (unfold s; lia). clearbody s.
  assert (l * (2 ^ 61 - 1) <= (2 ^ 44 - 1) * T) by (etransitivity; [exact B|apply Z.mul_le_mono_nonneg_r; lia]). lia.
Qed.
