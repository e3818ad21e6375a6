(* PropPrivacy.v -- C64: what an encryption with its proof reveals *)
From Verif Require Import Base BaseFacts Algebra Utils UtilsFacts Setup Keygen Encryption Circuit CircuitFacts CircuitSat CommitmentFacts VecFacts KeySpec KeygenFacts
  EncryptFacts DecryptFacts Spec VerifyFacts Protocol ReencFacts DistFacts PropVerify Groth16 ArkGroth16 PolyFacts Groth16Spec ArkFacts Groth16Facts SchwartzZippel SoundCore SoundSpec
  SoundAlg SoundGame SoundLink SoundFacts SoundCount SoundHonest Instance Examples PropGroth16 PropGroth16Cases PropSoundCases PropZK PrivacySpec PrivacyAlg PrivacyGame PrivacyLink PrivacyCount.

(* The coins of one execution are 3n+10 scalars: the 3n+7 of setup_for_groth16, then the randomness r of the encryption and the two
   scalars of the Groth16 prover.  All is the set of all coins. *)

(* C64.  An observer that sees the whole setup including the decryption key (but not the secret key), a ciphertext and its proof, and
   may test q adaptively chosen products of pairings of what it sees for being one (PrivacySpec.v), guesses the same thing for any two
   messages: the probabilities (over uniform coins) that it says yes differ by at most (N + 2q(3N + 9(3n+9)))/p, N the size of the
   evaluation domain, n the number of chunks, p the group order. *)
Theorem C64_ciphertext_and_proof_hide_the_message (E : pairing) (gens : encryption_gens E) (pf : profile)
    (domain : nat -> option (list (Fr E))) (fuel n : nat) (b : Z) (cs : csys (K_of E)) (xs : list (Fr E)) (All : list (list (Fr E))) :
  eg_G gens <> gzero -> eg_H gens <> gzero -> domain_ok domain -> supported b -> 2 ^ b <= modulus (K_of E) ->
  64 * Z.of_nat (limbs (K_of E)) - b < modulus_bit_size (K_of E) -> 64 * Z.of_nat (limbs (K_of E)) < 256 * b ->
  chunks_count (K_of E) b = Ok (Z.of_nat n) -> (0 < n)%nat ->
  generate_constraints (BitsizeCheckCircuit b (Z.of_nat n) None true) (cs_new Circuit.Setup) = Ok cs ->
  domain (length (cs_cons cs) + cs_num_inst cs)%nat = Some xs ->
  NoDup All -> (forall coins, In coins All <-> length coins = (3 * n + 10)%nat) ->
  forall (O : observer E) (msg msg' : Fr E),
  let yes m := Z.of_nat (length (filter (experiment pf (ark_backend pf domain fuel) gens b O m) All)) in
  Z.abs (yes msg - yes msg') * modulus (K_of E) <=
  (Z.of_nat (length xs) + 2 * Z.of_nat (questions O) * (3 * Z.of_nat (length xs) + 9 * (3 * Z.of_nat n + 9))) * Z.of_nat (length All).
Proof.
  intros HG HH Hdom Hb HbM H1 H2 Hcount Hn0 Hcs Hxs Hnd HA O msg msg'. cbv zeta. rewrite (all_tuples_count _ All Hnd HA).
  pose proof (@modulus_gt1 (K_of E)) as Hp.
  eapply Z.le_trans; [apply Z.mul_le_mono_nonneg_r; [lia|apply count_difference]|].
  apply (distinguish_bound n cs xs pf domain fuel b gens HG HH Hdom Hb HbM (conj H1 H2) Hcount Hn0 Hcs Hxs O msg msg'); [apply NoDup_filter; exact Hnd|].
  intros coins Hin. apply filter_In in Hin. destruct Hin as [Hin Hne]. split; [apply HA; exact Hin|].
  intros Z. rewrite Z in Hne. rewrite Bool.eqb_reflx in Hne. discriminate Hne.
Qed.

(* The same for the set of coins on which the guess depends on the message. *)
Theorem C64_guess_rarely_depends_on_the_message (E : pairing) (gens : encryption_gens E) (pf : profile)
    (domain : nat -> option (list (Fr E))) (fuel n : nat) (b : Z) (cs : csys (K_of E)) (xs : list (Fr E)) (O : observer E) (msg msg' : Fr E) (L : list (list (Fr E))) :
  eg_G gens <> gzero -> eg_H gens <> gzero -> domain_ok domain -> supported b -> 2 ^ b <= modulus (K_of E) ->
  64 * Z.of_nat (limbs (K_of E)) - b < modulus_bit_size (K_of E) -> 64 * Z.of_nat (limbs (K_of E)) < 256 * b ->
  chunks_count (K_of E) b = Ok (Z.of_nat n) -> (0 < n)%nat ->
  generate_constraints (BitsizeCheckCircuit b (Z.of_nat n) None true) (cs_new Circuit.Setup) = Ok cs ->
  domain (length (cs_cons cs) + cs_num_inst cs)%nat = Some xs ->
  NoDup L ->
  (forall coins, In coins L -> length coins = (3 * n + 10)%nat /\
     experiment pf (ark_backend pf domain fuel) gens b O msg coins <> experiment pf (ark_backend pf domain fuel) gens b O msg' coins) ->
  Z.of_nat (length L) * modulus (K_of E) <=
  (Z.of_nat (length xs) + 2 * Z.of_nat (questions O) * (3 * Z.of_nat (length xs) + 9 * (3 * Z.of_nat n + 9))) * modulus (K_of E) ^ Z.of_nat (3 * n + 10).
Proof.
  intros HG HH Hdom Hb HbM H1 H2 Hcount Hn0 Hcs Hxs Hnd HL.
  exact (distinguish_bound n cs xs pf domain fuel b gens HG HH Hdom Hb HbM (conj H1 H2) Hcount Hn0 Hcs Hxs O msg msg' L Hnd HL).
Qed.

(* The bound is about observers fixed before the coins are drawn: on coins that are known, one question tells any two different
   ciphertexts apart. *)
Section Known.
Context {E : pairing}.
Add Ring Kr : (@scalar_ring_theory (K_of E)).
Lemma product_skip i row q (Ps : list (G1 E)) Qs : pairing_product (repeat [] i ++ row :: q) Ps Qs = pair (nth i Ps gzero) (prep (dot row Qs)) [+] pairing_product q (skipn (S i) Ps) Qs.
Proof.
  revert Ps; induction i as [|i IH]; intros [|P Ps]; cbn [repeat app pairing_product nth skipn]; try (rewrite pair_zero_l; destruct q; cbn [pairing_product]; rewrite gadd_0_l; reflexivity).
  - reflexivity.
  - rewrite IH. cbn [dot]. rewrite pair_zero_r, gadd_0_l. reflexivity.
Qed.
Lemma lists_differ {A} (d : A) (l m : list A) : (forall x y : A, {x = y} + {x <> y}) -> length l = length m -> l <> m -> exists i, (i < length l)%nat /\ nth i l d <> nth i m d.
Proof.
  intros D. revert m; induction l as [|x l IH]; intros [|y m] Hl Hne; try discriminate; [contradiction|].
  destruct (D x y) as [->|Hx]; [|exists 0%nat; split; [cbn; lia|exact Hx]]. destruct (IH m) as (i & Hi & Hd); [cbn in Hl; lia|intros Z; apply Hne; congruence|].
  exists (S i). split; [cbn; lia|exact Hd].
Qed.
Theorem C64_known_coins_can_be_distinguished (gens : encryption_gens E) (pf : profile)
    (domain : nat -> option (list (Fr E))) (fuel n : nat) (b : Z) (cs : csys (K_of E)) (xs : list (Fr E)) (msg msg' : Fr E) coins pk sk ek dk st ct r p s1 ct' r' p' s1' :
  eg_H gens <> gzero -> eg_G gens <> gzero -> domain_ok domain -> supported b -> 2 ^ b <= modulus (K_of E) ->
  64 * Z.of_nat (limbs (K_of E)) - b < modulus_bit_size (K_of E) -> 64 * Z.of_nat (limbs (K_of E)) < 256 * b ->
  chunks_count (K_of E) b = Ok (Z.of_nat n) -> (0 < n)%nat ->
  generate_constraints (BitsizeCheckCircuit b (Z.of_nat n) None true) (cs_new Circuit.Setup) = Ok cs ->
  domain (length (cs_cons cs) + cs_num_inst cs)%nat = Some xs ->
  length coins = (3 * n + 10)%nat -> ~ In (nth 4 coins fzero) xs ->
  setup_for_groth16 (ark_backend pf domain fuel) (replay_rng E) b gens coins = Ok (pk, sk, ek, dk, st) ->
  encrypt_with_proof pf (ark_backend pf domain fuel) (replay_rng E) msg ek pk b st = Ok (ct, r, p, s1) ->
  encrypt_with_proof pf (ark_backend pf domain fuel) (replay_rng E) msg' ek pk b st = Ok (ct', r', p', s1') ->
  ct_enc_chunks ct <> ct_enc_chunks ct' ->
  exists O : observer E, questions O = 1%nat /\
    experiment pf (ark_backend pf domain fuel) gens b O msg coins = true /\ experiment pf (ark_backend pf domain fuel) gens b O msg' coins = false.
Proof.
  intros HH HG Hdom Hb HbM H1 H2 Hcount Hn0 Hcs Hxs Hl Hin Hset Hrun Hrun' Hne.
  assert (Hv : vanishing_at xs (nth 4 coins fzero) <> fzero) by (rewrite vanishing_zero; exact Hin).
  destruct (message_assignment n pf b msg Hb HbM) as (ds & sp & Hds & Hsp). destruct (message_assignment n pf b msg' Hb HbM) as (ds' & sp' & Hds' & Hsp').
  destruct (run_seen n cs xs pf domain fuel b gens HH Hdom Hb HbM (conj H1 H2) Hcount Hn0 Hcs Hxs coins pk sk ek dk st msg ds sp ct r p s1 Hl Hv Hds Hsp Hset Hrun) as (_ & _ & S1 & _).
  destruct (run_seen n cs xs pf domain fuel b gens HH Hdom Hb HbM (conj H1 H2) Hcount Hn0 Hcs Hxs coins pk sk ek dk st msg' ds' sp' ct' r' p' s1' Hl Hv Hds' Hsp' Hset Hrun') as (_ & _ & S1' & _).
  assert (LY : length (ek_Y ek) = n).
  { pose proof (bits_of _ b Hb HbM) as Hbits.
    pose proof (setup_tape_rest n cs xs pf domain fuel b gens Hcount Hcs Hxs (proj1 (cs_shape n cs xs b Hbits Hn0 Hcs)) coins pk sk ek dk st ltac:(lia) Hv Hset) as (_ & _ & _ & _ & Hek & _).
    rewrite Hek. cbn [ek_formula ek_Y]. rewrite (scale_as_map _ _ n); unfold gis; rewrite ?map_length, ?seq_length; lia. }
  assert (LL : length (seen_g1 gens pk ek ct p) = length (seen_g1 gens pk ek ct' p')).
  { rewrite S1, S1', !map_length. unfold u_of, seen1. rewrite !app_length, !map_length. reflexivity. }
  set (rest := fun (c : ciphertext E) (q : proof E) => skipn (n + 2) (seen_g1 gens pk ek c q)).
  assert (Hsplit : forall c q, seen_g1 gens pk ek c q = ek_Y ek ++ ek_P_1 ek :: eg_G gens :: rest c q).
  { intros c q. unfold rest, seen_g1, public_g1. cbv zeta. rewrite <- !app_assoc. cbn [app]. f_equal.
    rewrite skipn_app, skipn_all2 by lia. replace (n + 2 - length (ek_Y ek))%nat with 2%nat by lia. reflexivity. }
  assert (Hr : rest ct p <> rest ct' p').
  { intros Z. apply Hne. assert (Z' : seen_g1 gens pk ek ct p = seen_g1 gens pk ek ct' p') by (rewrite !Hsplit, Z; reflexivity). unfold seen_g1 in Z'. apply app_inv_head in Z'.
    cbn [app] in Z'. injection Z' as _ Z'. revert Z'. assert (Lc : length (ct_enc_chunks ct) = length (ct_enc_chunks ct')).
    { unfold seen_g1 in LL. rewrite !app_length in LL. cbn [length] in LL. lia. }
    revert Lc. generalize (ct_enc_chunks ct) (ct_enc_chunks ct'). intros l. induction l as [|x l IH]; intros [|y m] Lc Z'; try discriminate; [reflexivity|]. cbn [app] in Z'. injection Z' as -> Z'. f_equal.
    apply IH; [cbn in Lc; lia|exact Z']. }
  assert (LR : length (rest ct p) = length (rest ct' p')) by (unfold rest; rewrite !skipn_length; lia).
  destruct (lists_differ gzero _ _ geq_dec LR Hr) as (i & Hi & Hd).
  assert (Hc : exists c, nth i (rest ct p) gzero = c [*] eg_G gens).
  { unfold rest. rewrite nth_skipn, S1. exists (fmul (finv (fmul (nth 3 coins fzero) (fmul (nth 2 coins fzero) (nth 3 coins fzero)))) (nth (n + 2 + i) (u_of n cs xs (mv ds) (zv cs sp) coins) fzero)).
    set (f := fun x => _). rewrite (nth_indep _ gzero (f fzero)); [rewrite map_nth; reflexivity|]. unfold f. rewrite <- S1. unfold rest in Hi. rewrite skipn_length in Hi. lia. }
  destruct Hc as (c & Hc).
  exists (Ask (repeat [] (n + 1) ++ [fneg c] :: repeat [] i ++ [[fone]]) (Guess true) (Guess false)). split; [reflexivity|].
  assert (Hex : forall m c0 r0 p0 s0, encrypt_with_proof pf (ark_backend pf domain fuel) (replay_rng E) m ek pk b st = Ok (c0, r0, p0, s0) ->
    experiment pf (ark_backend pf domain fuel) gens b (Ask (repeat [] (n + 1) ++ [fneg c] :: repeat [] i ++ [[fone]]) (Guess true) (Guess false)) m coins = geqb (nth i (rest c0 p0) gzero) (nth i (rest ct p) gzero)).
  { intros m c0 r0 p0 s0 Hr0. unfold experiment. rewrite Hset, Hr0. cbn [observe]. rewrite product_skip.
    replace (S (n + 1)) with (n + 2)%nat by lia. fold (rest c0 p0). replace (repeat [] i ++ [[fone]]) with (repeat [] i ++ [@fone (K_of E)] :: []) by reflexivity. rewrite product_skip.
    cbn [pairing_product]. rewrite (Hsplit c0 p0), app_nth2 by lia. replace (n + 1 - length (ek_Y ek))%nat with 1%nat by lia. cbn [nth]. unfold seen_g2, public_g2. cbv zeta. cbn [app dot].
    assert (D1 : forall a l, a [*] eg_H gens [+] dot [] l = a [*] eg_H gens) by (intros a l; cbn [dot]; apply gadd_0_r). cbn [dot]. rewrite !gadd_0_r, !pair_smul_r, smul_1_l.
    assert (X : forall P : G1 E, (fneg c [*] pair (eg_G gens) (prep (eg_H gens))) [+] pair P (prep (eg_H gens)) = pair (P [+] [-] (c [*] eg_G gens)) (prep (eg_H gens))).
    { intros P. rewrite pair_add_l, pair_neg_l, pair_smul_l. glin. }
    rewrite X, Hc. set (P := nth i (rest c0 p0) gzero).
    assert (Y : geqb (pair (P [+] [-] (c [*] eg_G gens)) (prep (eg_H gens))) gzero = geqb P (c [*] eg_G gens)).
    { apply eq_true_iff_eq. rewrite !geqb_spec. split; intros Z.
      - apply pair_nondeg in Z. destruct Z as [Z|Z]; [|contradiction]. apply gsub_zero_eq in Z. exact Z.
      - rewrite Z, gadd_neg_r. apply pair_zero_l. }
    rewrite Y. destruct (geqb P (c [*] eg_G gens)); reflexivity. }
  split.
  - rewrite (Hex _ _ _ _ _ Hrun). apply geqb_spec. reflexivity.
  - rewrite (Hex _ _ _ _ _ Hrun'). destruct (geqb _ _) eqn:Eq; [|reflexivity]. apply geqb_spec in Eq. exfalso. apply Hd. symmetry. exact Eq.
Qed.
End Known.

(* On the concrete group of order 2^61-1 with four 16-bit chunks all hypotheses hold: an observer with up to 2^20 questions has an
   advantage below 2^-26. *)
Example C64_case (pf : profile) (O : observer E61) (msg msg' : Fr E61) (All : list (list (Fr E61))) : Z.of_nat (questions O) <= 2 ^ 20 ->
  NoDup All -> (forall coins, In coins All <-> length coins = (3 * 4 + 10)%nat) ->
  let yes m := Z.of_nat (length (filter (experiment pf (ark_backend pf y_domain 3) x_gens 16 O m) All)) in
  Z.abs (yes msg - yes msg') * 2 ^ 26 <= Z.of_nat (length All).
Proof.
  intros Hq Hnd HA yes. destruct z_cs as (cs & Hcs & Hd). destruct y_conditions as (C1 & C2 & C3 & C4).
  assert (HG : eg_G x_gens <> gzero) by (intros H; apply (f_equal sval) in H; vm_compute in H; discriminate H). assert (H4 : (0 < 4)%nat) by lia.
  pose proof (C64_ciphertext_and_proof_hide_the_message E61 x_gens pf y_domain 3 4 16 cs y_xs All HG x_H y_domain_ok C1 C2 C3 C4 y_count H4 Hcs Hd Hnd HA O msg msg') as B. cbv zeta in B. fold (yes msg) (yes msg') in B.
  assert (Ly : Z.of_nat (length y_xs) <= 2 ^ 12) by (unfold y_xs, y_points; rewrite map_length, seq_length; unfold y_N; lia).
  change (modulus (K_of E61)) with (2 ^ 61 - 1) in B. set (d := Z.abs _) in *. assert (0 <= d) by apply Z.abs_nonneg. set (T := Z.of_nat (length All)) in *. assert (0 <= T) by (unfold T; lia).
  set (N := Z.of_nat (length y_xs)) in *. set (q := Z.of_nat (questions O)) in *.
  assert (N + 2 * q * (3 * N + 9 * (3 * Z.of_nat 4 + 9)) <= 2 ^ 12 + 2 * 2 ^ 20 * (3 * 2 ^ 12 + 189)) by (assert (0 <= N) by (unfold N; lia); assert (0 <= q) by (unfold q; lia); nia).
  assert (d * (2 ^ 61 - 1) <= (2 ^ 12 + 2 * 2 ^ 20 * (3 * 2 ^ 12 + 189)) * T) by nia.
  lia.
Qed.

(* and one concrete execution on which one question tells the messages 2^48 and 2^49 apart *)
Lemma skip_rejected (E : pairing) domain fuel circ al be ga de (G : G1 E) (H : G2 E) t st cs xs : circ (cs_new Circuit.Setup) = Ok cs -> domain (length (cs_cons cs) + cs_num_inst cs)%nat = Some xs ->
  vanishing_at xs t = fzero -> ark_generate domain (S fuel) (replay_rng E) circ al be ga de G H (t :: st) = ark_generate domain fuel (replay_rng E) circ al be ga de G H st.
Proof.
  intros Hc Hd Hv. unfold ark_generate. rewrite Hc. cbn [bind]. rewrite Hd. cbn [domain_or_err bind sample_outside].
  change (rand_scalar (replay_rng E) (t :: st)) with (t, st). cbv beta iota. rewrite (proj2 (feqb_spec _ _) Hv). reflexivity.
Qed.
Definition w_coins : list (Fr E61) := z_tape ++ [nz61 3; nz61 5; nz61 7].
Lemma w_length : length w_coins = (3 * 4 + 10)%nat.
Proof. reflexivity. Qed.
Lemma smul_inj_scalar_or {K : prime_field} {G : group K} (a b : scalar K) (x : G) : a [*] x = b [*] x -> a <> b -> x = gzero.
Proof. intros H Hne. destruct (geq_dec x gzero) as [->|Hx]; [reflexivity|]. exfalso. apply Hne. exact (smul_inj_scalar a b x Hx H). Qed.
Lemma second_of {A} (f : nat -> A) (P : A -> Prop) : Forall P (skipn 1 (map f (seq 0 5))) -> P (f 1%nat).
Proof. cbn [seq map skipn]. apply Forall_inv. Qed.
Lemma w_rej i : (i < 433)%nat -> vanishing_at y_xs (nz61 (Z.of_nat i)) = fzero.
Proof. intros Hi. apply vanishing_zero; unfold y_xs, y_points; rewrite in_map_iff. exists i. split; [reflexivity|]. apply in_seq. unfold y_N. lia. Qed.
Lemma w_17 : vanishing_at y_xs (nz61 17) = fzero.
Proof. apply (w_rej 17). lia. Qed.
Lemma w_400 : vanishing_at y_xs (nz61 400) = fzero.
Proof. apply (w_rej 400). lia. Qed.
Lemma w_x : vanishing_at y_xs y_x <> fzero.
Proof. rewrite vanishing_zero. exact z_in. Qed.
Lemma w_backend pf a b c d (G : G1 E61) H st : generate_parameters_with_qap (y_backend pf) (replay_rng E61) y_circ a b c d G H st = ark_generate y_domain 3 (replay_rng E61) y_circ a b c d G H st.
Proof. unfold y_backend. reflexivity. Qed.
Lemma w_abc (cs : csys K61) : y_circ (cs_new Circuit.Setup) = Ok cs -> cs_num_inst cs = 5%nat ->
  y_domain (length (cs_cons cs) + cs_num_inst cs)%nat = Some y_xs -> fmul (qq cs y_xs y_alpha y_beta y_x 1) (finv y_gamma) [*] eg_G x_gens <> gzero.
Proof.
  intros Hcs Hni Hd. destruct (y_generate Debug []) as (gpk & Hg & Hgs). rewrite w_backend in Hg.
  rewrite (skip_rejected E61 y_domain 2 y_circ _ _ _ _ _ _ _ _ cs y_xs Hcs Hd w_17), (skip_rejected E61 y_domain 1 y_circ _ _ _ _ _ _ _ _ cs y_xs Hcs Hd w_400) in Hg.
  apply (ark_generate_tape cs y_xs _ _ _ _ _ _ _ _ _ _ _ _ _ Hcs Hd w_x) in Hg. destruct Hg as (_ & _ & _ & Hg). rewrite Hg in Hgs. cbn [gpk_vk vk_gamma_abc_g1] in Hgs.
  rewrite Hni in Hgs. pose proof y_gs_nonzero as NZ. rewrite <- Hgs in NZ. exact (second_of _ _ NZ).
Qed.
Lemma w_coin0 : nth 0 w_coins fzero = y_alpha.
Proof. reflexivity. Qed.
Lemma w_coin1 : nth 1 w_coins fzero = y_beta.
Proof. reflexivity. Qed.
Lemma w_coin2 : nth 2 w_coins fzero = y_gamma.
Proof. reflexivity. Qed.
Lemma w_coin4 : nth 4 w_coins fzero = y_x.
Proof. reflexivity. Qed.
Lemma w_first cs : generate_constraints (BitsizeCheckCircuit 16 (Z.of_nat 4) None true) (cs_new Circuit.Setup) = Ok cs ->
  y_domain (length (cs_cons cs) + cs_num_inst cs)%nat = Some y_xs -> nth 0 (gis 4 cs y_xs x_gens w_coins) gzero <> gzero.
Proof.
  intros Hcs Hd. assert (H4 : (0 < 4)%nat) by lia. destruct (cs_shape 4 cs y_xs 16 z_bits H4 Hcs) as (Hni & _).
  assert (E4 : Z.of_nat 4 = 4) by reflexivity. rewrite E4, <- z_circ in Hcs. pose proof (w_abc cs Hcs Hni Hd) as NZ.
  unfold gis. rewrite w_coin0, w_coin1, w_coin2, w_coin4. rewrite (map_seq_nth _ 4 0 gzero) by lia. exact NZ.
Qed.
Lemma w_chunk (pf : profile) (E : pairing) b (msg : Fr E) ds ek g_i pk st ct r p st' B n : encrypt_with_proof pf B (replay_rng E) msg ek pk b st = Ok (ct, r, p, st') ->
  get_gs_for_encryption (gpk_vk (pk_pk pk)) = Ok g_i -> decompose pf msg b = Ok ds -> length (ek_X ek) = n -> length (ek_Y ek) = n -> length (ek_Z ek) = (n + 1)%nat -> (n < 256)%nat -> length ds = n -> length g_i = n -> (0 < n)%nat ->
  nth 0 (ct_enc_chunks ct) gzero = (fst (rand_scalar (replay_rng E) st) [*] nth 0 (ek_X ek) gzero) [+] (of_Z (nth 0 ds 0) [*] nth 0 g_i gzero).
Proof.
  intros Hrun Hg Hd HX HY HZ H256 Ld Lg H0. unfold encrypt_with_proof in Hrun. rewrite Hg in Hrun. cbn [bind] in Hrun. apply bind_Ok_inv in Hrun. destruct Hrun as ([[c r1] s1] & He & Hrun).
  rewrite Hd in Hrun. cbn [bind] in Hrun. apply bind_Ok_inv in Hrun. destruct Hrun as (circ & _ & Hrun). apply bind_Ok_inv in Hrun. destruct Hrun as ([q s2] & _ & Hrun). injection Hrun as -> _ _ _.
  unfold encrypt in He. rewrite Hd in He. cbn [bind] in He. rewrite (encrypt_chunks_ok (replay_rng E) ds ek g_i st) in He by lia. cbn [bind] in He. rewrite ct_of_vec_ct_vec in He. cbn [bind] in He. injection He as <- _ _.
  cbn [ct_formula ct_enc_chunks]. apply body_formula_nth. lia.
Qed.
Example C64_known_case (pf : profile) : exists O : observer E61, questions O = 1%nat /\ length w_coins = (3 * 4 + 10)%nat /\
  experiment pf (ark_backend pf y_domain 3) x_gens 16 O (nz61 (2 ^ 48)) w_coins = true /\ experiment pf (ark_backend pf y_domain 3) x_gens 16 O (nz61 (2 ^ 49)) w_coins = false.
Proof.
  destruct z_cs as (cs & Hcs & Hd). destruct y_conditions as (C1 & C2 & C3 & C4). assert (H4 : (0 < 4)%nat) by lia.
  assert (HG : eg_G x_gens <> gzero) by (intros H; apply (f_equal sval) in H; vm_compute in H; discriminate H).
  assert (Hv : vanishing_at y_xs (nth 4 w_coins fzero) <> fzero) by (rewrite vanishing_zero; exact z_in).
  destruct (setup_exists_rest 4 cs y_xs pf y_domain 3 16 x_gens z_bits y_count H4 Hcs Hd w_coins) as (pk & sk & ek & dk & Hset); [rewrite w_length; lia|exact z_gamma|exact z_delta|exact Hv|lia|].
  destruct (run_ok pf y_domain 3 16 x_gens y_domain_ok C1 C2 (conj C3 C4) (nz61 (2 ^ 48)) w_coins pk sk ek dk _ Hset) as (ct & r & p & s1 & Hrun).
  destruct (run_ok pf y_domain 3 16 x_gens y_domain_ok C1 C2 (conj C3 C4) (nz61 (2 ^ 49)) w_coins pk sk ek dk _ Hset) as (ct' & r' & p' & s1' & Hrun').
  assert (Hne : ct_enc_chunks ct <> ct_enc_chunks ct').
  { pose proof (setup_tape_rest 4 cs y_xs pf y_domain 3 16 x_gens y_count Hcs Hd (proj1 (cs_shape 4 cs y_xs 16 z_bits H4 Hcs)) w_coins pk sk ek dk _ ltac:(rewrite w_length; lia) Hv Hset) as (_ & _ & Hgs & _ & Hek & _).
    set (g_i := gis 4 cs y_xs x_gens w_coins) in *. assert (Lg : length g_i = 4%nat) by (unfold g_i, gis; rewrite map_length; apply seq_length).
    match type of Hek with ek = ek_formula _ _ ?d ?g ?s ?t0 ?t => destruct (ek_formula_lengths x_gens g_i d g s t0 t 4 ltac:(rewrite map_length; apply seq_length) ltac:(rewrite map_length; apply seq_length) ltac:(lia)) as (LX & LY & LZ) end.
    cbv zeta in LX, LY, LZ. rewrite <- Hek in LX, LY, LZ.
    assert (D1 : decompose pf (nz61 (2 ^ 48)) 16 = Ok [1; 0; 0; 0]) by (destruct pf; vm_compute; reflexivity).
    assert (D2 : decompose pf (nz61 (2 ^ 49)) 16 = Ok [2; 0; 0; 0]) by (destruct pf; vm_compute; reflexivity).
    pose proof (w_chunk pf E61 16 (nz61 (2 ^ 48)) _ ek g_i pk _ ct r p s1 _ 4 Hrun Hgs D1 LX LY LZ ltac:(lia) eq_refl Lg H4) as X1.
    pose proof (w_chunk pf E61 16 (nz61 (2 ^ 49)) _ ek g_i pk _ ct' r' p' s1' _ 4 Hrun' Hgs D2 LX LY LZ ltac:(lia) eq_refl Lg H4) as X2.
    intros Z. rewrite Z, X2 in X1. cbn [nth] in X1. apply gadd_cancel_l in X1. apply (w_first cs Hcs Hd). fold g_i.
    apply (smul_inj_scalar_or (of_Z 2) (of_Z 1)); [exact X1|]. intros Q. apply (f_equal sval) in Q. vm_compute in Q. discriminate Q. }
  destruct (C64_known_coins_can_be_distinguished x_gens pf y_domain 3 4 16 cs y_xs (nz61 (2 ^ 48)) (nz61 (2 ^ 49)) w_coins pk sk ek dk _ ct r p s1 ct' r' p' s1'
     x_H HG y_domain_ok C1 C2 C3 C4 y_count H4 Hcs Hd w_length z_in Hset Hrun Hrun' Hne) as (O & O1 & O2 & O3). exists O. split; [exact O1|]. split; [exact w_length|]. split; assumption.
Qed.
