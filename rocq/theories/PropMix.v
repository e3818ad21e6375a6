(* PropMix.v -- C91: re-randomization by a mixer hides which ciphertext became which *)
From Verif Require Import Base BaseFacts Algebra Utils UtilsFacts Setup Keygen Encryption Circuit CircuitFacts CircuitSat CommitmentFacts VecFacts KeySpec KeygenFacts
  EncryptFacts DecryptFacts Spec VerifyFacts Protocol ReencFacts DistFacts PropVerify Groth16 ArkGroth16 PolyFacts Groth16Spec ArkFacts Groth16Facts SchwartzZippel SoundCore SoundSpec
  SoundAlg SoundGame SoundLink SoundFacts SoundCount SoundHonest PropGroth16 PropGroth16More PropGroth16Cases PropSoundCases PropMalleable PropZK PrivacySpec PrivacyAlg PrivacyGame PrivacyLink PrivacyCount PrivacySpan PrivacyMany
  PropPrivacyMany RoundTrip Instance Examples PropUtils PropEnc PropReceipt MixSpec Mix.

Lemma chosen_length {A} (o : list nat) (l : list A) : Forall (fun i => (i < length l)%nat) o -> length (chosen o l) = length o.
Proof. intros H. induction H as [|i o Hi H IH]; [reflexivity|]. cbn [chosen length]. destruct (nth_error l i) eqn:Ei; [cbn [length]; rewrite IH; reflexivity|apply nth_error_None in Ei; lia]. Qed.

(* Counting over all coins: two orders, of the same length, in which ballots are mixed, cannot be told apart by an observer of everything that is
   published -- who may know the messages, as the bound holds for any. *)
Theorem C91_mixing_hides_which_ballot_became_which (E : pairing) (gens : encryption_gens E) (pf : profile)
    (domain : nat -> option (list (Fr E))) (fuel n k m : nat) (b : Z) (cs : csys (K_of E)) (xs : list (Fr E)) (All : list (list (Fr E))) :
  eg_G gens <> gzero -> eg_H gens <> gzero -> domain_ok domain -> supported b -> 2 ^ b <= modulus (K_of E) ->
  64 * Z.of_nat (limbs (K_of E)) - b < modulus_bit_size (K_of E) -> 64 * Z.of_nat (limbs (K_of E)) < 256 * b ->
  chunks_count (K_of E) b = Ok (Z.of_nat n) -> (0 < n)%nat ->
  generate_constraints (BitsizeCheckCircuit b (Z.of_nat n) None true) (cs_new Circuit.Setup) = Ok cs ->
  domain (length (cs_cons cs) + cs_num_inst cs)%nat = Some xs ->
  NoDup All -> (forall coins, In coins All <-> length coins = (3 * n + 7 + 3 * k + m)%nat) ->
  forall (O : observer E) (msgs : list (Fr E)) (order order' : list nat), length msgs = k -> length order = m -> length order' = m ->
  Forall (fun i => (i < k)%nat) order -> Forall (fun i => (i < k)%nat) order' ->
  let yes o := Z.of_nat (length (filter (experiment_mix pf (ark_backend pf domain fuel) gens b O msgs o) All)) in
  Z.abs (yes order - yes order') * modulus (K_of E) <=
  (Z.of_nat (length xs) + 2 * Z.of_nat (questions O) * Z.of_nat m * (3 * Z.of_nat (length xs) + 9 * (3 * Z.of_nat n + 9))) * Z.of_nat (length All).
Proof.
  intros HG HH Hdom Hb HbM H1 H2 Hcount Hn0 Hcs Hxs Hnd HA O msgs order order' Lk Lo Lo' Ho Ho'. cbv zeta. pose proof (@modulus_gt1 (K_of E)) as Hp. subst k.
  set (M := (3 * n + 7 + 3 * length msgs)%nat) in *. set (B := ark_backend pf domain fuel). set (p := modulus (K_of E)) in *. set (D := 3 * Z.of_nat (length xs) + 9 * (3 * Z.of_nat n + 9)).
  pose proof (all_tuples_count _ All Hnd HA) as CA. fold p in CA.
  destruct (@all_tuples_exist (K_of E) (2 * m)) as (T & T1 & T2). pose proof (all_tuples_count _ T T1 T2) as CT. fold p in CT.
  destruct (@all_tuples_exist (K_of E) (M + 3 * m)) as (W & W1 & W2).
  set (good := fun c => negb (feqb (vanishing_at xs (nth 4 c fzero)) fzero)).
  assert (Hgood : forall c, good c = true <-> vanishing_at xs (nth 4 c fzero) <> fzero).
  { intros c. unfold good. destruct (feqb _ fzero) eqn:Ef; cbn [negb]; [apply feqb_spec in Ef; split; [discriminate|contradiction]|].
    split; [|reflexivity]. intros _ X. apply feqb_spec in X. congruence. }
  (* on good coins: the same number, up to the coins of the proofs, as for fresh encryptions *)
  assert (Same : forall o, length o = m -> Forall (fun i => (i < length msgs)%nat) o ->
    (length (filter (experiment_mix pf B gens b O msgs o) (filter good All)) * length T)%nat =
    length (filter (experiment_many pf B gens b (lifted n cs xs msgs m O) (msgs ++ chosen o msgs)) (filter good W))).
  { intros o Lom Hom. rewrite <- filter_fst.
    apply (count_bij (fun ac => woven n msgs o (fst ac) (snd ac))
      (fun c => let '(cm, d) := unweave (scalars_of n o (firstn M c)) (skipn M c) in (firstn M c ++ cm, d))).
    - apply NoDup_prod; [apply NoDup_filter; exact Hnd|exact T1].
    - apply NoDup_filter; exact W1.
    - intros [c d] Hin. apply in_prod_iff in Hin. destruct Hin as [Hc Hd]. cbn [fst snd]. apply filter_In in Hc. destruct Hc as [Hc Hv]. apply HA in Hc. apply T2 in Hd. apply Hgood in Hv.
      assert (Ls : length (scalars_of n o (firstn M c)) = m) by (unfold scalars_of; rewrite map_length; exact Lom).
      assert (Lf : length (firstn M c) = M) by (rewrite firstn_length; lia). assert (Lm : length (skipn M c) = m) by (rewrite skipn_length; lia).
      assert (Lw : length (weave (scalars_of n o (firstn M c)) (skipn M c) d) = (3 * m)%nat) by (rewrite weave_length, Ls; lia).
      unfold woven. fold M. split; [|split].
      + apply filter_In. split; [apply W2; rewrite app_length; lia|]. apply Hgood. rewrite app_nth1 by (rewrite Lf; unfold M; lia).
        rewrite <- (firstn_skipn M c), app_nth1 in Hv by (rewrite Lf; unfold M; lia). exact Hv.
      + rewrite !firstn_app, Lf, Nat.sub_diag. cbn [firstn]. rewrite app_nil_r, firstn_firstn, Nat.min_id. rewrite skipn_app, Lf, Nat.sub_diag. cbn [skipn].
        rewrite (skipn_all2 (firstn M c)) by lia. cbn [app]. rewrite unweave_weave by lia. rewrite firstn_skipn. reflexivity.
      + unfold B. rewrite (mix_experiment n cs xs pf domain fuel b gens Hdom Hb HbM (conj H1 H2) Hcount Hn0 Hcs Hxs msgs o O c d) by (try assumption; fold M; lia). rewrite Lom. reflexivity.
    - intros c Hc. apply filter_In in Hc. destruct Hc as [Hc Hv]. apply W2 in Hc. apply Hgood in Hv.
      assert (Ls : length (scalars_of n o (firstn M c)) = m) by (unfold scalars_of; rewrite map_length; exact Lom).
      assert (Lf : length (firstn M c) = M) by (rewrite firstn_length; lia). assert (Lm : length (skipn M c) = (3 * m)%nat) by (rewrite skipn_length; lia).
      destruct (unweave_length (scalars_of n o (firstn M c)) (skipn M c) ltac:(lia)) as [A1 A2]. pose proof (weave_unweave (scalars_of n o (firstn M c)) (skipn M c) ltac:(lia)) as A3.
      destruct (unweave (scalars_of n o (firstn M c)) (skipn M c)) as [cm d]. cbn [fst snd] in *. split.
      + apply in_prod_iff. split; [|apply T2; lia]. apply filter_In. split; [apply HA; rewrite app_length; lia|]. apply Hgood. rewrite app_nth1 by (rewrite Lf; unfold M; lia).
        rewrite <- (firstn_skipn M c), app_nth1 in Hv by (rewrite Lf; unfold M; lia). exact Hv.
      + unfold woven. fold M. rewrite !firstn_app, Lf, Nat.sub_diag. cbn [firstn]. rewrite app_nil_r, firstn_firstn, Nat.min_id. rewrite skipn_app, Lf, Nat.sub_diag. cbn [skipn].
        rewrite (skipn_all2 (firstn M c)) by lia. cbn [app]. rewrite A3. apply firstn_skipn. }
  (* the two fresh experiments differ by C66's bound *)
  assert (Diff : Z.abs (Z.of_nat (length (filter (experiment_mix pf B gens b O msgs order) (filter good All))) - Z.of_nat (length (filter (experiment_mix pf B gens b O msgs order') (filter good All)))) * p
    <= 2 * Z.of_nat (questions O) * Z.of_nat m * D * p ^ Z.of_nat (M + m)).
  { pose proof (Same order Lo Ho) as S1. pose proof (Same order' Lo' Ho') as S2. apply (f_equal Z.of_nat) in S1, S2. rewrite Nat2Z.inj_mul in S1, S2.
    set (x := Z.of_nat (length (filter (experiment_mix pf B gens b O msgs order) (filter good All)))) in *. set (y := Z.of_nat (length (filter (experiment_mix pf B gens b O msgs order') (filter good All)))) in *.
    set (f := experiment_many pf B gens b (lifted n cs xs msgs m O) (msgs ++ chosen order msgs)) in *. set (g := experiment_many pf B gens b (lifted n cs xs msgs m O) (msgs ++ chosen order' msgs)) in *.
    pose proof (count_difference f g (filter good W)) as CD.
    set (L := filter (fun x0 => negb (Bool.eqb (f x0) (g x0))) (filter good W)) in *.
    assert (HB : Z.of_nat (length L) * p <= Z.of_nat (length (chosen order msgs)) * ((2 * Z.of_nat (questions (lifted n cs xs msgs m O)) * D) *
       p ^ Z.of_nat (3 * n + 7 + 3 * (length msgs + (length (chosen order msgs) + length (@nil (Fr E))))))).
    { apply (hybrid_bound n cs xs pf domain fuel b gens HG HH Hdom Hb HbM (conj H1 H2) Hcount Hn0 Hcs Hxs msgs (chosen order msgs) (chosen order' msgs) [] (lifted n cs xs msgs m O) L).
      - rewrite !chosen_length by assumption. congruence.
      - apply NoDup_filter, NoDup_filter, W1.
      - intros c Hc. apply filter_In in Hc. destruct Hc as [Hc Hd]. apply filter_In in Hc. destruct Hc as [Hc Hv]. apply W2 in Hc. apply Hgood in Hv.
        split; [rewrite chosen_length by assumption; cbn [length]; unfold M in Hc; lia|]. split; [exact Hv|]. rewrite !app_nil_r. intros X. assert (X' : f c = g c) by exact X. rewrite X', Bool.eqb_reflx in Hd. discriminate Hd. }
    rewrite chosen_length, Lo in HB by assumption. unfold lifted in HB. rewrite lift_questions in HB. cbn [length] in HB.
    replace (3 * n + 7 + 3 * (length msgs + (m + 0)))%nat with ((M + m) + 2 * m)%nat in HB by (unfold M; lia).
    rewrite Nat2Z.inj_add, Z.pow_add_r in HB by lia. fold p in HB. rewrite <- S1, <- S2, CT in CD. rewrite <- Z.mul_sub_distr_r, Z.abs_mul in CD.
    set (q := p ^ Z.of_nat (2 * m)) in *. assert (Hq : 0 < q) by (unfold q; apply Z.pow_pos_nonneg; lia). rewrite (Z.abs_eq q) in CD by lia.
    apply (Z.mul_le_mono_pos_r _ _ q Hq). clearbody x y q L. clear -CD HB Hp. set (P := p ^ Z.of_nat (M + m)) in *. clearbody P D. nia. }
  (* the remaining coins are few *)
  assert (Bad : Z.of_nat (length (filter (fun c => negb (good c)) All)) * p <= Z.of_nat (length xs) * p ^ Z.of_nat (M + m)).
  { apply (tau_bound n cs xs b HbM Hn0 (M + m)); [unfold M; lia|apply NoDup_filter; exact Hnd|]. intros c Hc. apply filter_In in Hc. destruct Hc as [Hc Hg]. apply HA in Hc. split; [exact Hc|].
    unfold good in Hg. rewrite negb_involutive in Hg. apply feqb_spec. exact Hg. }
  rewrite CA.
  assert (Split : forall f : list (Fr E) -> bool, exists z, Z.of_nat (length (filter f All)) = Z.of_nat (length (filter f (filter good All))) + z /\ 0 <= z <= Z.of_nat (length (filter (fun c => negb (good c)) All))).
  { intros f. clear. induction All as [|c l (z & IH1 & IH2)]; [exists 0; cbn; lia|]. cbn [filter]. destruct (good c); cbn [negb filter]; destruct (f c); cbn [length]; [exists z; lia|exists z; lia|exists (z + 1); lia|exists z; lia]. }
  destruct (Split (experiment_mix pf B gens b O msgs order)) as (z & E1 & Z1). destruct (Split (experiment_mix pf B gens b O msgs order')) as (z' & E2 & Z2). rewrite E1, E2.
  set (P := p ^ Z.of_nat (M + m)) in *. clearbody P D.
  match type of Diff with Z.abs (?x - ?y) * _ <= _ => set (u := x) in *; set (v := y) in * end. clearbody u v. clear -Diff Bad Z1 Z2 Hp.
  set (N := Z.of_nat (length (filter _ _))) in *. clearbody N.
  assert (Z.abs (u + z - (v + z')) <= Z.abs (u - v) + N) by lia. nia.
Qed.


Section Shift.
Context {K : prime_field}.
Add Ring Kshift : (@scalar_ring_theory K).
Lemma shift_sum (r r' w : scalar K) : fadd r w = fadd r' (fadd w (fsub r r')). Proof. ring. Qed.
Lemma shift_back (r r' w : scalar K) : fadd (fadd w (fsub r r')) (fsub r' r) = w. Proof. ring. Qed.
End Shift.

(* What the mixer makes of one ciphertext of a message: a ciphertext of the message with a receipt for the sum of the scalars. *)
Lemma mix_one {E : pairing} (pf : profile) (R : rng_impl E) b g_i (ek : encryption_key E) ct (msg r : Fr E) (st : rng_st R) : receipt pf ek g_i b ct msg r ->
  exists q, mix R ek g_i [ct] st = Ok ([ct_vec q], snd (rand_scalar R st)) /\ receipt pf ek g_i b q msg (fadd r (fst (rand_scalar R st))) /\
    forall ds, decompose pf msg b = Ok ds -> q = ct_formula ek g_i ds (fadd r (fst (rand_scalar R st))).
Proof.
  intros Hr. apply receipt_chunks in Hr. destruct Hr as (ds & Hd & Hr). pose proof Hr as Hi. apply encrypts_inv in Hi. destruct Hi as (n & Hw & Hl & Hgl & Hct).
  set (w := fst (rand_scalar R st)). set (q := ct_formula ek g_i ds (fadd r w)). exists q.
  assert (Lc : length (ct_enc_chunks ct) = n) by (apply ct_vec_inj in Hct; rewrite Hct; unfold ct_formula; cbn [ct_enc_chunks]; rewrite body_formula_length; exact Hl).
  assert (Hz : encrypt_decomposed_message R (repeat 0 n) ek g_i st = Ok (ct_vec (ct_formula ek g_i (repeat 0 n) w), w, snd (rand_scalar R st))).
  { destruct Hw as (H256 & LX & LY & LZ). apply encrypt_chunks_ok; rewrite ?repeat_length; lia. }
  assert (Hz' : encrypts ek g_i (repeat 0 n) (ct_vec (ct_formula ek g_i (repeat 0 n) w)) w) by (eexists _, _, _; exact Hz).
  destruct (add_is_encryption_of_sum ek g_i ds (repeat 0 n) _ _ r w Hr Hz') as (v & W & W'). rewrite chunk_add_0_r in W' by exact Hl.
  assert (Hv : encrypts ek g_i ds v (fadd r w)) by (eexists _, _, _; exact W').
  pose proof Hv as Hi. apply encrypts_inv in Hi. destruct Hi as (_ & _ & _ & _ & Ev). fold q in Ev.
  split; [|split].
  - cbn [mix]. rewrite Lc, Hz. cbn [bind]. change (ct_X_r ct :: ct_enc_chunks ct ++ [ct_commitment ct]) with (ct_vec ct). rewrite W. cbn [bind]. rewrite Ev. reflexivity.
  - apply receipt_chunks. exists ds. split; [exact Hd|]. rewrite <- Ev. exact Hv.
  - intros ds' Hd'. rewrite Hd in Hd'. injection Hd' as <-. reflexivity.
Qed.

(* Mixing by itself hides everything but the contents, perfectly: take two ciphertexts of one message, however they were made.  Whatever is asked of
   the result (f) is true for as many scalars of the mixer with the one as with the other: they are shifted by the difference of the scalars with
   which the ciphertexts were made, which may be known to the observer. *)
Theorem C91_same_contents_are_mixed_alike :
  forall (pf pf' : profile) (E : pairing) (R R' : rng_impl E) b g_i (ek : encryption_key E) (msg r r' : Fr E) st st' s s' ct ct',
  encrypt pf R msg ek g_i b st = Ok (ct, r, s) -> encrypt pf' R' msg ek g_i b st' = Ok (ct', r', s') ->
  (forall w, mix (replay_rng E) ek g_i [ct] [w] = mix (replay_rng E) ek g_i [ct'] [fadd w (fsub r r')]) /\
  forall (f : outcome (list (list (G1 E)) * list (Fr E)) -> bool) All, NoDup All -> (forall w, In w All) ->
    length (filter (fun w => f (mix (replay_rng E) ek g_i [ct] [w])) All) = length (filter (fun w => f (mix (replay_rng E) ek g_i [ct'] [w])) All).
Proof.
  intros pf pf' E R R' b g_i ek msg r r' st st' s s' ct ct' H H'.
  assert (X : forall w, mix (replay_rng E) ek g_i [ct] [w] = mix (replay_rng E) ek g_i [ct'] [fadd w (fsub r r')]).
  { intros w. pose proof (proj1 (C90_the_returned_randomness_is_a_receipt pf pf E R b g_i ek msg r st s ct) H) as A.
    pose proof (proj1 (C90_the_returned_randomness_is_a_receipt pf' pf E R' b g_i ek msg r' st' s' ct') H') as A'.
    pose proof A as A0. apply receipt_chunks in A0. destruct A0 as (ds & Hd & _).
    destruct (mix_one pf (replay_rng E) b g_i ek ct msg r [w] A) as (q & B1 & _ & B2). destruct (mix_one pf (replay_rng E) b g_i ek ct' msg r' [fadd w (fsub r r')] A') as (q' & B1' & _ & B2').
    rewrite B1, B1', (B2 ds Hd), (B2' ds Hd). cbn [rand_scalar replay_rng fst snd]. rewrite (shift_sum r r' w). reflexivity. }
  split; [exact X|]. intros f All Hn HA.
  apply (count_bij (fun w => fadd w (fsub r r')) (fun w => fadd w (fsub r' r))); try exact Hn.
  - intros w _. split; [apply HA|]. split; [apply shift_back|rewrite X; reflexivity].
  - intros w _. split; [apply HA|apply shift_back].
Qed.

(* And nothing else is hidden: ciphertexts of different messages never lead to the same result, whatever scalars the mixer draws. *)
Theorem C91_different_contents_never_meet :
  forall (pf : profile) (E : pairing) (R R' Q Q' : rng_impl E) b g_i (ek : encryption_key E) (msg msg' r r' : Fr E) st st' s s' ct ct',
  encrypt pf R msg ek g_i b st = Ok (ct, r, s) -> encrypt pf R' msg' ek g_i b st' = Ok (ct', r', s') -> msg <> msg' ->
  2 ^ b <= modulus (K_of E) -> ek_X_0 ek <> gzero -> Forall (fun x => x <> gzero) (firstn (length (ek_X ek)) g_i) ->
  forall t t', exists v v' u u', mix Q ek g_i [ct] t = Ok (v, u) /\ mix Q' ek g_i [ct'] t' = Ok (v', u') /\ v <> v'.
Proof.
  intros pf E R R' Q Q' b g_i ek msg msg' r r' st st' s s' ct ct' H H' Hne HM HX Hg t t'.
  pose proof (proj1 (C90_the_returned_randomness_is_a_receipt pf pf E R b g_i ek msg r st s ct) H) as A.
  pose proof (proj1 (C90_the_returned_randomness_is_a_receipt pf pf E R' b g_i ek msg' r' st' s' ct') H') as A'.
  destruct (mix_one pf Q b g_i ek ct msg r t A) as (q & B1 & B2 & _). destruct (mix_one pf Q' b g_i ek ct' msg' r' t' A') as (q' & B1' & B2' & _).
  exists [ct_vec q], [ct_vec q'], (snd (rand_scalar Q t)), (snd (rand_scalar Q' t')). split; [exact B1|]. split; [exact B1'|].
  intros Z. assert (Y : ct_vec q = ct_vec q') by exact (f_equal (fun l => hd [] l) Z). apply ct_vec_inj in Y. clear Z. rename Y into Z. subst q'.
  destruct (proj2 (C90_receipts_are_true pf E b g_i ek q msg _ B2 HM) HX Hg pf msg' _ B2') as [Z _]. symmetry in Z. contradiction.
Qed.

(* The mixer delivers: whatever the generators used, it succeeds on ciphertexts of messages and returns as many, in the same order; each is
   accepted by verify_commitment and decrypts to the message of the original. *)
Theorem C91_mixing_keeps_the_messages :
  forall (pf : profile) (E : pairing) (R : rng_impl E) b g_i gens delta gamma sk dk (ek : encryption_key E),
  2 ^ b <= modulus (K_of E) -> from_keygen b gens g_i delta gamma sk ek dk -> nondegenerate dk g_i (length (dk_V_2 dk)) ->
  forall (msgs : list (Fr E)) (cts : list (ciphertext E)), Forall2 (fun ct msg => exists R' st r st', encrypt pf R' msg ek g_i b st = Ok (ct, r, st')) cts msgs ->
  forall st, exists cts' st', mix R ek g_i cts st = Ok (map (fun ct => ct_X_r ct :: ct_enc_chunks ct ++ [ct_commitment ct]) cts', st') /\
    Forall2 (fun ct' msg => verify_commitment ct' (prepare_ek ek) (prepare_gens gens) = Ok tt /\ forall pf', exists nu, ct_decrypt pf' ct' sk (prepare_dk dk) g_i b = Ok (msg, nu)) cts' msgs.
Proof.
  intros pf E R b g_i gens delta gamma sk dk ek HM Hk Hn msgs cts H. induction H as [|ct msg cts msgs He H IH]; intros st.
  - exists [], st. split; [reflexivity|constructor].
  - destruct He as (R' & st0 & r & st0' & He). pose proof (proj1 (C90_the_returned_randomness_is_a_receipt pf pf E R' b g_i ek msg r st0 st0' ct) He) as Hr.
    apply receipt_chunks in Hr. destruct Hr as (ds & Hd & Hr). pose proof Hr as Hi. apply encrypts_inv in Hi. destruct Hi as (n & Hw & Hl & Hgl & Hct).
    set (w := fst (rand_scalar R st)). destruct (IH (snd (rand_scalar R st))) as (cts' & st' & Hmix & Hall).
    set (q := ct_formula ek g_i ds (fadd r w)). exists (q :: cts'), st'.
    assert (Lc : length (ct_enc_chunks ct) = n) by (apply ct_vec_inj in Hct; rewrite Hct; unfold ct_formula; cbn [ct_enc_chunks]; rewrite body_formula_length; exact Hl).
    assert (Hz : encrypt_decomposed_message R (repeat 0 n) ek g_i st = Ok (ct_vec (ct_formula ek g_i (repeat 0 n) w), w, snd (rand_scalar R st))).
    { destruct Hw as (H256 & LX & LY & LZ). apply encrypt_chunks_ok; rewrite ?repeat_length; lia. }
    assert (Hz' : encrypts ek g_i (repeat 0 n) (ct_vec (ct_formula ek g_i (repeat 0 n) w)) w) by (eexists _, _, _; exact Hz).
    destruct (add_is_encryption_of_sum ek g_i ds (repeat 0 n) _ _ r w Hr Hz') as (v & W & W'). rewrite chunk_add_0_r in W' by exact Hl.
    assert (Hv : encrypts ek g_i ds v (fadd r w)) by (eexists _, _, _; exact W').
    pose proof Hv as Hi. apply encrypts_inv in Hi. destruct Hi as (_ & _ & _ & _ & Ev). fold q in Ev.
    split.
    + cbn [mix map]. rewrite Lc, Hz. cbn [bind]. change (ct_X_r ct :: ct_enc_chunks ct ++ [ct_commitment ct]) with (ct_vec ct). rewrite W. cbn [bind]. rewrite Hmix. cbn [bind]. rewrite Ev. reflexivity.
    + constructor; [|exact Hall].
      assert (Hrq : receipt pf ek g_i b q msg (fadd r w)) by (apply receipt_chunks; exists ds; split; [exact Hd|]; rewrite <- Ev; exact Hv).
      destruct (proj1 (C90_receipts_are_true pf E b g_i ek q msg (fadd r w) Hrq HM) gens delta gamma sk dk Hk) as [A1 A2]. split; [exact A1|exact (A2 Hn)].
Qed.

(* The experiment is not empty: on coins without a zero and whose evaluation point is outside the domain, everything succeeds and the observer is
   shown all that is published. *)
Theorem C91_experiment_shows_the_mixed_ciphertexts (E : pairing) (gens : encryption_gens E) (pf : profile)
    (domain : nat -> option (list (Fr E))) (fuel n : nat) (b : Z) (cs : csys (K_of E)) (xs : list (Fr E)) (msgs : list (Fr E)) (order : list nat) (coins : list (Fr E)) :
  domain_ok domain -> supported b -> 2 ^ b <= modulus (K_of E) ->
  64 * Z.of_nat (limbs (K_of E)) - b < modulus_bit_size (K_of E) -> 64 * Z.of_nat (limbs (K_of E)) < 256 * b ->
  chunks_count (K_of E) b = Ok (Z.of_nat n) -> (0 < n)%nat -> (0 < fuel)%nat ->
  generate_constraints (BitsizeCheckCircuit b (Z.of_nat n) None true) (cs_new Circuit.Setup) = Ok cs ->
  domain (length (cs_cons cs) + cs_num_inst cs)%nat = Some xs ->
  length coins = (3 * n + 7 + 3 * length msgs + length order)%nat -> Forall (fun i => (i < length msgs)%nat) order ->
  nth 2 coins fzero <> fzero -> nth 3 coins fzero <> fzero -> ~ In (nth 4 coins fzero) xs ->
  exists pk sk ek dk rest cps rest' g_i mixed, setup_for_groth16 (ark_backend pf domain fuel) (replay_rng E) b gens coins = Ok (pk, sk, ek, dk, rest) /\
    encrypt_all pf (ark_backend pf domain fuel) (replay_rng E) msgs ek pk b rest = Ok (cps, rest') /\ length cps = length msgs /\
    get_gs_for_encryption (gpk_vk (pk_pk pk)) = Ok g_i /\ mix (replay_rng E) ek g_i (chosen order (map fst cps)) rest' = Ok (mixed, []) /\ length mixed = length order /\
    Forall (fun v => length v = (n + 2)%nat) mixed /\
    forall O, experiment_mix pf (ark_backend pf domain fuel) gens b O msgs order coins = observe O (table_g1 gens pk ek cps ++ concat mixed) (table_g2 gens pk ek dk cps).
Proof.
  intros Hdom Hb HbM H1 H2 Hcount Hn0 Hf Hcs Hxs Hl Ho Hga Hde Hin.
  assert (Hv : vanishing_at xs (nth 4 coins fzero) <> fzero) by (rewrite vanishing_zero; exact Hin).
  set (M0 := (3 * n + 7)%nat) in *. set (c0 := firstn M0 coins). set (t := skipn M0 coins). set (cb := firstn (3 * length msgs) t). set (cm := skipn (3 * length msgs) t).
  assert (Lt : length t = (3 * length msgs + length order)%nat) by (unfold t; rewrite skipn_length; lia).
  assert (L0 : length c0 = M0) by (unfold c0; rewrite firstn_length; lia). assert (Lb : length cb = (3 * length msgs)%nat) by (unfold cb; rewrite firstn_length; lia).
  assert (Lm : length cm = length order) by (unfold cm; rewrite skipn_length; lia).
  assert (Ec : coins = c0 ++ cb ++ cm) by (unfold c0, cb, cm, t; rewrite !firstn_skipn; reflexivity).
  assert (Hnth : forall i, (i < M0)%nat -> nth i c0 fzero = nth i coins fzero) by (intros i Hi; rewrite Ec, app_nth1 by lia; reflexivity).
  destruct (setup_exists_rest n cs xs pf domain fuel b gens (bits_of _ b Hb HbM) Hcount Hn0 Hcs Hxs coins ltac:(lia) Hga Hde Hv Hf) as (pk & sk & ek & dk & HS).
  assert (Hg : good_setup n xs pf domain fuel b gens pk ek dk).
  { destruct (setup_exists_rest n cs xs pf domain fuel b gens (bits_of _ b Hb HbM) Hcount Hn0 Hcs Hxs c0) as (pk0 & sk0 & ek0 & dk0 & HS0);
      [fold M0; lia|rewrite Hnth by (unfold M0; lia); exact Hga|rewrite Hnth by (unfold M0; lia); exact Hde|rewrite Hnth by (unfold M0; lia); exact Hv|exact Hf|].
    rewrite skipn_all2 in HS0 by (fold M0; lia).
    destruct (setup_local n cs xs pf domain fuel b gens Hb HbM Hcount Hn0 Hcs Hxs c0 L0 ltac:(rewrite Hnth by (unfold M0; lia); exact Hv)) as [(pk1 & sk1 & ek1 & dk1 & HS1)|HS1].
    - rewrite Ec, HS1 in HS. injection HS as -> -> -> -> _. exists c0, sk. split; [exact L0|]. split; [rewrite Hnth by (unfold M0; lia); exact Hv|]. rewrite <- (app_nil_r c0) at 1. apply HS1.
    - rewrite Ec in HS. destruct (HS1 _ _ HS). }
  destruct (good_gs n xs pf domain fuel b gens pk ek dk Hg) as (g_i & Hgi).
  destruct (enc_all_formula n cs xs pf domain fuel b gens Hdom Hb HbM (conj H1 H2) Hcount Hn0 Hcs Hxs msgs cb Lb pk ek dk g_i Hg Hgi) as (cps & HC & Lcps & Ln & Hcp).
  destruct (mix_is_encryption n cs xs pf domain fuel b gens Hdom Hb HbM (conj H1 H2) Hcount Hn0 Hcs Hxs msgs cb pk ek dk g_i cps Hg Hgi Hcp order cm (repeat fzero (2 * length order)) Ho Lm ltac:(apply repeat_length))
    as (cps' & X1 & X2 & X3 & X4).
  exists pk, sk, ek, dk, (cb ++ cm), cps, cm, g_i, (map (fun cp => ct_vec (fst cp)) cps').
  assert (Et : skipn (3 * n + 7) coins = cb ++ cm) by (unfold cb, cm, t; rewrite firstn_skipn; reflexivity). rewrite Et in HS.
  split; [exact HS|]. split; [apply HC|]. split; [exact Lcps|]. split; [exact Hgi|]. split; [exact X4|]. split; [rewrite map_length; exact X2|]. split.
  - clear -X3. induction X3 as [|cp l Hc H IH]; cbn [map]; constructor; [|exact IH]. unfold ct_vec. cbn [length]. rewrite app_length, Hc. cbn [length]. lia.
  - intros O. unfold experiment_mix. rewrite HS, HC, Hgi, X4. reflexivity.
Qed.

(* The proofs must not be mixed along: moving a proof with its ciphertext, by C53's blinding, keeps its first two elements, so that everybody sees
   which ballot became which; anybody who compares elements is such an observer. *)
Theorem C91_blinded_proofs_give_the_mixer_away :
  forall (E : pairing) (R : rng_impl E) (ek : encryption_key E) (g_i : list (G1 E)) (d : list Z) (ct ct' : list (G1 E)) (p p' : proof E) (st : rng_st R),
  shift_with_proof R ek g_i d ct p st = Ok (ct', p') -> pr_a p' = pr_a p /\ pr_b p' = pr_b p.
Proof.
  intros E R ek g_i d ct ct' p p' st H. unfold shift_with_proof in H. apply bind_Ok_inv in H. destruct H as ([[z r] s] & _ & H). apply bind_Ok_inv in H. destruct H as (v & _ & H).
  injection H as _ <-. split; reflexivity.
Qed.

(* ----- concrete cases ----- *)
(* a thousand ballots, on the concrete group of order 2^61-1 with four 16-bit chunks, and up to 2^20 questions: advantage below 2^-16 *)
Example C91_case (pf : profile) (O : observer E61) (msgs : list (Fr E61)) (order order' : list nat) (All : list (list (Fr E61))) : Z.of_nat (questions O) <= 2 ^ 20 ->
  length msgs = 1000%nat -> length order = 1000%nat -> length order' = 1000%nat -> Forall (fun i => (i < 1000)%nat) order -> Forall (fun i => (i < 1000)%nat) order' ->
  NoDup All -> (forall coins, In coins All <-> length coins = (3 * 4 + 7 + 3 * 1000 + 1000)%nat) ->
  let yes o := Z.of_nat (length (filter (experiment_mix pf (ark_backend pf y_domain 3) x_gens 16 O msgs o) All)) in
  Z.abs (yes order - yes order') * 2 ^ 16 <= Z.of_nat (length All).
Proof.
  intros Hq Lk Lo Lo' Ho Ho' Hnd HA yes. destruct z_cs as (cs & Hcs & Hd). destruct y_conditions as (C1 & C2 & C3 & C4).
  assert (HG : eg_G x_gens <> gzero) by (intros H; apply (f_equal sval) in H; vm_compute in H; discriminate H). assert (H4 : (0 < 4)%nat) by lia.
  pose proof (C91_mixing_hides_which_ballot_became_which E61 x_gens pf y_domain 3 4 1000 1000 16 cs y_xs All HG x_H y_domain_ok C1 C2 C3 C4 y_count H4 Hcs Hd Hnd HA O msgs order order' Lk Lo Lo' Ho Ho') as B.
  cbv zeta in B. fold (yes order) (yes order') in B.
  assert (Ly : Z.of_nat (length y_xs) <= 2 ^ 12) by (unfold y_xs, y_points; rewrite map_length, seq_length; unfold y_N; lia).
  change (modulus (K_of E61)) with (2 ^ 61 - 1) in B. set (d := Z.abs _) in *. assert (0 <= d) by apply Z.abs_nonneg. set (T := Z.of_nat (length All)) in *. assert (0 <= T) by (unfold T; lia).
  set (N := Z.of_nat (length y_xs)) in *. set (q := Z.of_nat (questions O)) in *. replace (Z.of_nat 1000) with 1000 in B by lia.
  assert (N + 2 * q * 1000 * (3 * N + 9 * (3 * Z.of_nat 4 + 9)) <= 2 ^ 12 + 2 * 2 ^ 20 * 1000 * (3 * 2 ^ 12 + 189)) by (assert (0 <= N) by (unfold N; lia); assert (0 <= q) by (unfold q; lia); nia).
  assert (d * (2 ^ 61 - 1) <= (2 ^ 12 + 2 * 2 ^ 20 * 1000 * (3 * 2 ^ 12 + 189)) * T) by nia.
  lia.
Qed.
(* and an execution in which two ballots are mixed, the second one first *)
Example C91_shown_case (pf : profile) : exists pk sk ek dk rest cps rest' g_i mixed,
  setup_for_groth16 (ark_backend pf y_domain 3) (replay_rng E61) 16 x_gens (z_tape ++ map nz61 [3; 5; 7; 11; 13; 17; 19; 23]) = Ok (pk, sk, ek, dk, rest) /\
  encrypt_all pf (ark_backend pf y_domain 3) (replay_rng E61) [nz61 (2 ^ 48); nz61 (2 ^ 49)] ek pk 16 rest = Ok (cps, rest') /\ length cps = 2%nat /\
  get_gs_for_encryption (gpk_vk (pk_pk pk)) = Ok g_i /\ mix (replay_rng E61) ek g_i (chosen [1%nat; 0%nat] (map fst cps)) rest' = Ok (mixed, []) /\ length mixed = 2%nat.
Proof.
  destruct z_cs as (cs & Hcs & Hd). destruct y_conditions as (C1 & C2 & C3 & C4). assert (H4 : (0 < 4)%nat) by lia. assert (H3 : (0 < 3)%nat) by lia.
  destruct (C91_experiment_shows_the_mixed_ciphertexts E61 x_gens pf y_domain 3 4 16 cs y_xs [nz61 (2 ^ 48); nz61 (2 ^ 49)] [1%nat; 0%nat] (z_tape ++ map nz61 [3; 5; 7; 11; 13; 17; 19; 23])
    y_domain_ok C1 C2 C3 C4 y_count H4 H3 Hcs Hd) as (pk & sk & ek & dk & rest & cps & rest' & g_i & mixed & A1 & A2 & A3 & A4 & A5 & A6 & _).
  - reflexivity.
  - repeat constructor.
  - exact z_gamma.
  - exact z_delta.
  - exact z_in.
  - exists pk, sk, ek, dk, rest, cps, rest', g_i, mixed. repeat split; assumption.
Qed.
(* two ciphertexts of one message and one of another, with the key of C90's case *)
Example C91_contents_case : exists ct ct' ct2,
  encrypt Debug (replay_rng E61) (of_Z 3000000000) x_ek x_gi 4 [x_r1] = Ok (ct, x_r1, []) /\ encrypt Release (replay_rng E61) (of_Z 3000000000) x_ek x_gi 4 [nz61 5] = Ok (ct', nz61 5, []) /\
  encrypt Debug (replay_rng E61) (of_Z 3000000001) x_ek x_gi 4 [nz61 7] = Ok (ct2, nz61 7, []) /\
  ek_X_0 x_ek <> gzero /\ Forall (fun x => x <> gzero) (firstn (length (ek_X x_ek)) x_gi) /\ 2 ^ 4 <= modulus (K_of E61) /\ @of_Z (K_of E61) 3000000000 <> of_Z 3000000001.
Proof.
  assert (H4 : supported 4) by (left; reflexivity).
  destruct (encrypt_outcome Debug (replay_rng E61) 4 x_gens x_gi x_delta x_gamma x_rho x_ek x_dk (of_Z 3000000000) [x_r1] x_keygen) as (ct & r & st' & He & Hr); [exact H4|vm_compute; auto|].
  destruct (encrypt_outcome Release (replay_rng E61) 4 x_gens x_gi x_delta x_gamma x_rho x_ek x_dk (of_Z 3000000000) [nz61 5] x_keygen) as (ct' & r' & st1 & He' & Hr'); [exact H4|vm_compute; auto|].
  destruct (encrypt_outcome Debug (replay_rng E61) 4 x_gens x_gi x_delta x_gamma x_rho x_ek x_dk (of_Z 3000000001) [nz61 7] x_keygen) as (ct2 & r2 & st2 & He2 & Hr2); [exact H4|vm_compute; auto|].
  injection Hr as -> ->. injection Hr' as -> ->. injection Hr2 as -> ->. exists ct, ct', ct2. split; [exact He|]. split; [exact He'|]. split; [exact He2|].
  split; [intros H; apply (f_equal sval) in H; vm_compute in H; discriminate H|]. split; [exact (proj2 x_nondegenerate)|]. split; [vm_compute; discriminate|].
  intros H. apply (f_equal sval) in H. vm_compute in H. discriminate H.
Qed.
