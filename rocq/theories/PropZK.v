(* PropZK.v -- C62-C63: what a proof reveals, and what the setup secrets allow *)
From Verif Require Import Base BaseFacts Algebra Utils UtilsFacts Setup Commitment CommitmentFacts Keygen KeygenFacts Encryption EncryptFacts
  DecryptFacts RoundTrip VerifyFacts Spec KeySpec VecFacts Protocol ReencFacts DistFacts PropVerify Circuit CircuitFacts CircuitSat
  Groth16 ArkGroth16 PolyFacts Groth16Spec ArkFacts Groth16Facts Instance Examples PropGroth16 PropGroth16Cases.

(* The simulated proof for a ciphertext: it is computed from the ciphertext, the published verifying key, the secrets
   alpha, beta, gamma, delta of the setup and two arbitrary scalars a, b -- not from the message or any randomness of the encryption:
   A = a*G, B = b*H, C = delta^-1 (a*b*G - alpha*beta*G - gamma*(X_r + sum_i c_i + W_0)). *)
Definition simulated_proof {E : pairing} (gens : encryption_gens E) (alpha beta gamma delta : Fr E) (vk : verifying_key E) (ct : ciphertext E) (a b : Fr E) : proof E :=
  Proof (a [*] eg_G gens) (b [*] eg_H gens)
    (finv delta [*] ((fmul a b [*] eg_G gens) [+] [-] (fmul alpha beta [*] eg_G gens) [+]
       [-] (gamma [*] (ct_X_r ct [+] gsum (ct_enc_chunks ct) [+] nth 0 (vk_gamma_abc_g1 vk) gzero)))).
(* alpha, beta, gamma, delta are the discrete logarithms behind the verifying key *)
Definition setup_secrets {E : pairing} (gens : encryption_gens E) (vk : verifying_key E) (alpha beta gamma delta : Fr E) : Prop :=
  vk_alpha_g1 vk = alpha [*] eg_G gens /\ vk_beta_g2 vk = beta [*] eg_H gens /\ vk_gamma_g2 vk = gamma [*] eg_H gens /\ vk_delta_g2 vk = delta [*] eg_H gens /\ delta <> fzero.

Section ZK.
Context {E : pairing}.
Notation K := (K_of E).
Notation F := (Fr E).
Add Ring Krz : (@scalar_ring_theory K).

(* the only C that goes with given A, B *)
Lemma accepted_iff_simulated (gens : encryption_gens E) vk alpha beta gamma delta ct a b C : setup_secrets gens vk alpha beta gamma delta ->
  eg_H gens <> gzero -> vk_gamma_abc_g1 vk <> [] ->
  (verify_proof (prepare_verifying_key vk) (Proof (a [*] eg_G gens) (b [*] eg_H gens) C) ct = Ok tt <->
   Proof (a [*] eg_G gens) (b [*] eg_H gens) C = simulated_proof gens alpha beta gamma delta vk ct a b).
Proof.
  intros (Ha & Hb & Hg & Hd & Hd0) HH Hw. destruct (vk_gamma_abc_g1 vk) as [|w0 ws] eqn:Ew; [contradiction|]. clear Hw.
  rewrite (verify_proof_unfold vk _ _ w0 ws Ew). cbn [pr_a pr_b pr_c]. rewrite Ha, Hb, Hg, Hd. unfold simulated_proof. rewrite Ew. cbn [nth].
  set (G := eg_G gens). set (H := eg_H gens) in *. set (D := ct_X_r ct [+] gsum (ct_enc_chunks ct) [+] w0).
  set (Y := (fmul a b [*] G) [+] [-] (fmul alpha beta [*] G) [+] [-] (gamma [*] D)).
  assert (Q : pair (a [*] G) (prep (b [*] H)) [+] pair C (prep ([-] (delta [*] H))) [+] pair D (prep ([-] (gamma [*] H))) = pair (alpha [*] G) (prep (beta [*] H)) <->
              delta [*] C = Y).
  { rewrite !pair_neg_r, !pair_smul_r, !pair_smul_l.
    assert (P : pair (Y [+] [-] (delta [*] C)) (prep H) =
       ((b [*] (a [*] pair G (prep H))) [+] [-] (delta [*] pair C (prep H)) [+] [-] (gamma [*] pair D (prep H))) [+] [-] (beta [*] (alpha [*] pair G (prep H)))).
    { unfold Y. rewrite !pair_add_l, !pair_neg_l, !pair_smul_l. glin. }
    split.
    - intros Z. rewrite Z, gadd_neg_r in P. apply pair_nondeg in P. destruct P as [P|P]; [|contradiction]. apply gsub_zero_eq in P. symmetry. exact P.
    - intros Z. rewrite Z, gadd_neg_r, pair_zero_l in P. symmetry in P. apply gsub_zero_eq in P. exact P. }
  split.
  - match goal with |- (if geqb ?x ?y then _ else _) = _ -> _ => destruct (geqb x y) eqn:Eq; [|discriminate] end. intros _. apply geqb_spec in Eq. apply Q in Eq. f_equal.
    rewrite <- Eq, <- smul_fmul, finv_l by exact Hd0. symmetry. apply smul_1_l.
  - intros Z. assert (HC : C = finv delta [*] Y) by congruence. 
    match goal with |- (if geqb ?x ?y then _ else _) = _ => replace (geqb x y) with true; [reflexivity|] end. symmetry. apply geqb_spec. apply Q.
    rewrite HC, <- smul_fmul, finv_r by exact Hd0. apply smul_1_l.
Qed.

(* the first two elements of a proof: a fixed part plus the prover's randomness times delta *)
Lemma ark_prove_ab pf domain circ circ' alpha beta gamma delta G H fuel (R : rng_impl E) st gpk st' :
  ark_generate domain fuel R circ alpha beta gamma delta G H st = Ok (gpk, st') ->
  exists a0 b0, forall r1 r2 p, ark_prove pf domain circ' gpk r1 r2 = Ok p ->
    pr_a p = fadd a0 (fmul r1 delta) [*] G /\ pr_b p = fadd b0 (fmul r2 delta) [*] H.
Proof.
  intros Hg. apply ark_generate_inv in Hg. destruct Hg as (s & xs & t & _ & _ & _ & _ & _ & Hpk). cbv zeta in Hpk.
  destruct (instance_map s _) as [[a b] c]. 
  destruct (circ' (cs_new Prove)) as [sp|e|] eqn:Ec.
  2,3: exists fzero, fzero; intros r1 r2 p Hp; unfold ark_prove in Hp; rewrite Ec in Hp; discriminate Hp.
  destruct a as [|ka a].
  { exists fzero, fzero. intros r1 r2 p Hp. exfalso. unfold ark_prove in Hp. rewrite Ec in Hp. cbn [bind] in Hp. apply bind_Ok_inv in Hp. destruct Hp as (? & _ & Hp).
    apply bind_Ok_inv in Hp. destruct Hp as (? & _ & Hp). apply bind_Ok_inv in Hp. destruct Hp as (? & _ & Hp). rewrite Hpk in Hp. discriminate Hp. }
  destruct b as [|kb b].
  { exists fzero, fzero. intros r1 r2 p Hp. exfalso. unfold ark_prove in Hp. rewrite Ec in Hp. cbn [bind] in Hp. apply bind_Ok_inv in Hp. destruct Hp as (? & _ & Hp).
    apply bind_Ok_inv in Hp. destruct Hp as (? & _ & Hp). apply bind_Ok_inv in Hp. destruct Hp as (? & _ & Hp). apply bind_Ok_inv in Hp. destruct Hp as (? & _ & Hp). apply bind_Ok_inv in Hp. destruct Hp as (? & _ & Hp). rewrite Hpk in Hp. discriminate Hp. }
  set (z := skipn 1 (cs_inst sp) ++ cs_wit sp).
  exists (fadd (fadd ka (fdot a z)) alpha), (fadd (fadd kb (fdot b z)) beta). intros r1 r2 p Hp.
  unfold ark_prove in Hp. rewrite Ec in Hp. cbn [bind] in Hp. apply bind_Ok_inv in Hp. destruct Hp as (? & _ & Hp).
  apply bind_Ok_inv in Hp. destruct Hp as (? & _ & Hp). apply bind_Ok_inv in Hp. destruct Hp as (inp & Hin & Hp).
  assert (Hz : inp = skipn 1 (cs_inst sp)) by (unfold slice_from in Hin; destruct (Nat.leb _ _); congruence). rewrite Hz in Hp. fold z in Hp. rewrite Hpk in Hp.
  cbn [gpk_a_query gpk_b_g2_query gpk_delta_g1 gpk_vk vk_alpha_g1 vk_delta_g2 vk_beta_g2] in Hp. rewrite !calculate_coeff_exp in Hp. cbn [bind] in Hp.
  apply bind_Ok_inv in Hp. destruct Hp as (gb & _ & Hp). injection Hp as <-. cbn [pr_a pr_b]. split; glin.
Qed.

(* C62.  After a setup, fix a message and the randomness r of the encryption.  The two scalars that the prover draws determine the
   proof, the ciphertext does not depend on them, and running over all p^2 pairs the proofs are the simulated proofs, each once: with
   uniform (rr, ss) the proof is distributed exactly like a simulated proof with uniform (a, b), so it carries no information about the
   message beyond the ciphertext. *)
Theorem C62_perfect_zero_knowledge :
  forall (pf : profile) domain fuel (R : rng_impl E) b gens st0 pk sk ek dk st0',
  domain_ok domain -> supported b -> 2 ^ b <= modulus K -> 64 * Z.of_nat (limbs K) - b < modulus_bit_size K -> 64 * Z.of_nat (limbs K) < 256 * b ->
  eg_G gens <> gzero -> eg_H gens <> gzero ->
  setup_for_groth16 (ark_backend pf domain fuel) R b gens st0 = Ok (pk, sk, ek, dk, st0') ->
  exists alpha beta gamma delta, setup_secrets gens (gpk_vk (pk_pk pk)) alpha beta gamma delta /\
  forall msg r, exists ct,
    let run := fun rr ss => encrypt_with_proof pf (ark_backend pf domain fuel) (replay_rng E) msg ek pk b [r; rr; ss] in
    let sim := simulated_proof gens alpha beta gamma delta (gpk_vk (pk_pk pk)) ct in
    (forall rr ss, exists x y, run rr ss = Ok (ct, r, sim x y, [])) /\
    (forall x y, exists rr ss, run rr ss = Ok (ct, r, sim x y, []) /\
       forall rr' ss', run rr' ss' = Ok (ct, r, sim x y, []) -> rr' = rr /\ ss' = ss).
Proof.
  intros pf domain fuel R b gens st0 pk sk ek dk st0' Hdom Hb HM H1 H2 HG HH Hset.
  unfold setup_for_groth16 in Hset. apply bind_Ok_inv in Hset. destruct Hset as (circ & Hcirc & Hset).
  apply bind_Ok_inv in Hset. destruct Hset as ([pk0 st1] & Hsrs & Hset). apply bind_Ok_inv in Hset. destruct Hset as (g_i & Hg & Hset).
  apply bind_Ok_inv in Hset. destruct Hset as ([[[sk0 ek0] dk0] st2] & Hk & Hset). injection Hset as -> -> -> -> _.
  assert (Hk' : honest_key b gens g_i (gpk_delta_g1 (pk_pk pk)) (pk_gamma_g1 pk) ek) by (left; exists sk, dk, R, st1, st2; exact Hk).
  assert (Hs' : from_srs (ark_backend pf domain fuel) (generate_constraints circ) gens pk) by (exists R, st0, st1; exact Hsrs).
  assert (Hw : vk_gamma_abc_g1 (gpk_vk (pk_pk pk)) <> []). { intros Z. unfold get_gs_for_encryption in Hg. rewrite Z in Hg. discriminate Hg. }
  unfold generate_srs in Hsrs. destruct (rand_scalar R st0) as [alpha sa]. destruct (rand_scalar R sa) as [beta sb]. destruct (rand_scalar R sb) as [gamma sc].
  destruct (rand_scalar R sc) as [delta sd]. apply bind_Ok_inv in Hsrs. destruct Hsrs as ([gpk se] & Hgen & Hpk). cbn [generate_parameters_with_qap ark_backend] in Hgen.
  exists alpha, beta, gamma, delta.
  assert (Egpk : pk_pk pk = gpk) by (apply (f_equal (fun o => match o with Ok (q, _) => pk_pk q | _ => gpk end)) in Hpk; cbn in Hpk; symmetry; exact Hpk).
  assert (Hsec : setup_secrets gens (gpk_vk (pk_pk pk)) alpha beta gamma delta).
  { rewrite Egpk. pose proof Hgen as X. apply ark_generate_inv in X. destruct X as (s & xs & t & _ & _ & _ & _ & Hd0 & X). cbv zeta in X. destruct (instance_map s _) as [[a' b'] c'].
    rewrite X. repeat split. exact Hd0. }
  split; [exact Hsec|]. intros msg r.
  destruct (decompose_spec pf K msg b Hb) as (ds & Hd & Hdr & Hdv & Hdl).
  pose proof Hk' as Hk2. apply honest_key_inv in Hk2. destruct Hk2 as (n & s & t0 & t & Hn & Hgl & Hlt & Hls & Hlt' & Hek).
  destruct (compatible_count pf b msg ds Hb (conj H1 H2) Hd) as [Hcnt Hpos].
  assert (Hdn : length ds = n). { rewrite Hn in Hcnt. assert (A : Z.of_nat n = Z.of_nat (length ds)) by congruence. lia. }
  destruct (ek_formula_lengths gens g_i (gpk_delta_g1 (pk_pk pk)) (pk_gamma_g1 pk) s t0 t n Hls Hlt' Hgl) as (HX & HY & HZ). cbv zeta in HX, HY, HZ.
  rewrite <- Hek in HX, HY, HZ.
  set (ct := ct_formula ek g_i ds r). exists ct. cbv zeta.
  assert (Henc : forall rr ss, encrypt pf (replay_rng E) msg ek g_i b [r; rr; ss] = Ok (ct, r, [rr; ss])).
  { intros rr ss. pose proof (encrypt_chunks_ok (replay_rng E) ds ek g_i [r; rr; ss] ltac:(lia) ltac:(lia) ltac:(lia) ltac:(lia) ltac:(lia)) as He.
    change (rand_scalar (replay_rng E) [r; rr; ss]) with (r, [rr; ss]) in He. cbn [fst snd] in He.
    unfold encrypt. rewrite Hd. cbn [bind]. rewrite He. cbn [bind]. rewrite ct_of_vec_ct_vec. reflexivity. }
  destruct (ark_prove_ab pf domain (generate_constraints circ) (generate_constraints (BitsizeCheckCircuit b (Z.of_nat n) (Some (map (fun m => @of_Z K m) ds)) true))
    alpha beta gamma delta (eg_G gens) (eg_H gens) fuel R sd gpk se Hgen) as (a0 & b0 & Hab).
  assert (Hd0 : delta <> fzero) by apply Hsec.
  assert (Run : forall rr ss, encrypt_with_proof pf (ark_backend pf domain fuel) (replay_rng E) msg ek pk b [r; rr; ss] =
     Ok (ct, r, simulated_proof gens alpha beta gamma delta (gpk_vk (pk_pk pk)) ct (fadd a0 (fmul rr delta)) (fadd b0 (fmul ss delta)), [])).
  { intros rr ss. destruct (with_proof_any_key pf E (ark_backend pf domain fuel) (replay_rng E) b circ gens pk g_i ek msg [r; rr; ss] (ark_backend_correct pf domain fuel Hdom) Hb HM (conj H1 H2) Hcirc Hs' Hg Hk')
      as (ct1 & r1 & p & s1 & s2 & Hrun & Henc1 & Hver). rewrite Henc in Henc1. injection Henc1 as <- <- <-.
    rewrite Hrun. apply C36_combined_check_is_conjunction in Hver. destruct Hver as [_ Hver].
    unfold encrypt_with_proof in Hrun. rewrite Hg in Hrun. cbn [bind] in Hrun. rewrite Henc in Hrun. cbn [bind] in Hrun. rewrite Hd in Hrun. cbn [bind] in Hrun.
    unfold circuit_new in Hrun. rewrite Hn in Hrun. cbn [bind] in Hrun. apply bind_Ok_inv in Hrun. destruct Hrun as ([p' s3] & Hp & Hrun). injection Hrun as -> ->.
    unfold create_proof in Hp. change (rand_scalar (replay_rng E) [rr; ss]) with (rr, [ss]) in Hp. cbv beta iota in Hp. change (rand_scalar (replay_rng E) [ss]) with (ss, @nil F) in Hp. cbv beta iota in Hp.
    apply bind_Ok_inv in Hp. destruct Hp as (p0 & Hp0 & Hp). injection Hp as <- <-. cbn [create_proof_with_reduction ark_backend] in Hp0. rewrite Egpk in Hp0.
    apply Hab in Hp0. destruct Hp0 as [Ea Eb]. rewrite Ea, Eb in Hver |- *.
    apply (accepted_iff_simulated gens (gpk_vk (pk_pk pk)) alpha beta gamma delta) in Hver; [|exact Hsec|exact HH|exact Hw]. rewrite Hver. reflexivity. }
  assert (Inv : forall c x, fadd c (fmul (fmul (fsub x c) (finv delta)) delta) = x).
  { intros c x. transitivity (fadd c (fmul (fsub x c) (fmul (finv delta) delta))); [ring|]. rewrite finv_l by exact Hd0. ring. }
  assert (Inj : forall c x y, fadd c (fmul x delta) = fadd c (fmul y delta) -> x = y).
  { intros c x y Z. assert (Z' : fmul x delta = fmul y delta) by (transitivity (fsub (fadd c (fmul x delta)) c); [ring|rewrite Z; ring]).
    transitivity (fmul (fmul x delta) (finv delta)); [transitivity (fmul x (fmul delta (finv delta))); [rewrite finv_r by exact Hd0; ring|ring]|].
    rewrite Z'. transitivity (fmul y (fmul delta (finv delta))); [ring|]. rewrite finv_r by exact Hd0. ring. }
  split.
  - intros rr ss. exists (fadd a0 (fmul rr delta)), (fadd b0 (fmul ss delta)). apply Run.
  - intros x y. exists (fmul (fsub x a0) (finv delta)), (fmul (fsub y b0) (finv delta)). rewrite Run, !Inv. split; [reflexivity|].
    intros rr' ss' Z. rewrite Run in Z. injection Z as Za Zb _. apply (smul_inj_scalar _ _ _ HG) in Za. apply (smul_inj_scalar _ _ _ HH) in Zb.
    split; [apply (Inj a0)|apply (Inj b0)]; rewrite Inv; assumption.
Qed.

(* C63.  With the setup secrets every ciphertext whatsoever passes verify_proof (so every ciphertext that satisfies the commitment check
   passes the combined check), with any first two proof elements and exactly one third one. *)
Theorem C63_setup_secrets_prove_anything :
  forall gens (vk : verifying_key E) alpha beta gamma delta, setup_secrets gens vk alpha beta gamma delta -> eg_H gens <> gzero -> vk_gamma_abc_g1 vk <> [] ->
  forall (ct : ciphertext E) x y,
    verify_proof (prepare_verifying_key vk) (simulated_proof gens alpha beta gamma delta vk ct x y) ct = Ok tt /\
    (forall C, verify_proof (prepare_verifying_key vk) (Proof (x [*] eg_G gens) (y [*] eg_H gens) C) ct = Ok tt ->
       C = pr_c (simulated_proof gens alpha beta gamma delta vk ct x y)).
Proof.
  intros gens vk alpha beta gamma delta Hs HH Hw ct x y. split.
  - unfold simulated_proof at 1. apply accepted_iff_simulated with (1 := Hs); try assumption. reflexivity.
  - intros C HC. apply (accepted_iff_simulated gens vk alpha beta gamma delta) in HC; try assumption. rewrite <- HC. reflexivity.
Qed.
(* in particular encryptions of chunks of any size: the range check of the circuit is void against a party that knows the secrets *)
Theorem C63_range_check_void_for_setup_party :
  forall (B : groth16_backend E) (R : rng_impl E) b gens st0 pk sk ek dk st0', backend_correct B -> eg_H gens <> gzero ->
  setup_for_groth16 B R b gens st0 = Ok (pk, sk, ek, dk, st0') ->
  exists alpha beta gamma delta, setup_secrets gens (gpk_vk (pk_pk pk)) alpha beta gamma delta /\
  forall g_i m ct r x y, get_gs_for_encryption (gpk_vk (pk_pk pk)) = Ok g_i -> encrypts ek g_i m (ct_vec ct) r ->
    verify_commitment_and_proof ct (simulated_proof gens alpha beta gamma delta (gpk_vk (pk_pk pk)) ct x y)
      (prepare_verifying_key (gpk_vk (pk_pk pk))) (prepare_ek ek) (prepare_gens gens) = Ok tt.
Proof.
  intros B R b gens st0 pk sk ek dk st0' HB HH Hset.
  unfold setup_for_groth16 in Hset. apply bind_Ok_inv in Hset. destruct Hset as (circ & Hcirc & Hset).
  apply bind_Ok_inv in Hset. destruct Hset as ([pk0 st1] & Hsrs & Hset). apply bind_Ok_inv in Hset. destruct Hset as (g_i & Hg & Hset).
  apply bind_Ok_inv in Hset. destruct Hset as ([[[sk0 ek0] dk0] st2] & Hk & Hset). injection Hset as -> -> -> -> _.
  assert (Hk' : honest_key b gens g_i (gpk_delta_g1 (pk_pk pk)) (pk_gamma_g1 pk) ek) by (left; exists sk, dk, R, st1, st2; exact Hk).
  assert (Hw : vk_gamma_abc_g1 (gpk_vk (pk_pk pk)) <> []). { intros Z. unfold get_gs_for_encryption in Hg. rewrite Z in Hg. discriminate Hg. }
  unfold generate_srs in Hsrs. destruct (rand_scalar R st0) as [alpha sa]. destruct (rand_scalar R sa) as [beta sb]. destruct (rand_scalar R sb) as [gamma sc].
  destruct (rand_scalar R sc) as [delta sd]. apply bind_Ok_inv in Hsrs. destruct Hsrs as ([gpk se] & Hgen & Hpk).
  assert (Egpk : pk_pk pk = gpk) by (apply (f_equal (fun o => match o with Ok (q, _) => pk_pk q | _ => gpk end)) in Hpk; cbn in Hpk; symmetry; exact Hpk).
  destruct (setup_shape B HB _ _ _ _ _ _ _ _ _ _ _ Hgen) as (A1 & A2 & A3 & A4 & A5 & A6 & A7 & A8). rewrite <- Egpk in A3, A4, A5, A6.
  exists alpha, beta, gamma, delta. assert (Hsec : setup_secrets gens (gpk_vk (pk_pk pk)) alpha beta gamma delta) by (repeat split; assumption). split; [exact Hsec|].
  intros g' m ct r x y Hg' He. assert (g' = g_i) by congruence. subst g'.
  apply C36_combined_check_is_conjunction. split.
  - exact (C19_honest_chunk_ciphertexts_verify E b gens g_i _ _ ek m _ _ _ r Hk' He).
  - apply C63_setup_secrets_prove_anything; assumption.
Qed.
End ZK.

(* on the concrete setup of PropGroth16Cases.v: an accepted ciphertext that the key holder cannot decrypt *)
Example C62_case (pf : profile) (msg r : Fr E61) : exists pk ek alpha beta gamma delta ct,
  setup_for_groth16 (y_backend pf) (replay_rng E61) 16 x_gens y_tape = Ok (pk, y_rho, ek, y_dk, []) /\
  forall x y, exists rr ss, encrypt_with_proof pf (y_backend pf) (replay_rng E61) msg ek pk 16 [r; rr; ss]
    = Ok (ct, r, simulated_proof x_gens alpha beta gamma delta (gpk_vk (pk_pk pk)) ct x y, []).
Proof.
  destruct (y_setup pf) as (pk & ek & g_i & Hset & _). destruct y_conditions as (C1 & C2 & C3 & C4).
  assert (HG : eg_G x_gens <> gzero) by (intros H; apply (f_equal sval) in H; vm_compute in H; discriminate H).
  destruct (C62_perfect_zero_knowledge pf y_domain 3 (replay_rng E61) 16 x_gens y_tape pk y_rho ek y_dk [] y_domain_ok C1 C2 C3 C4 HG x_H Hset)
    as (alpha & beta & gamma & delta & _ & X). destruct (X msg r) as (ct & _ & Y).
  exists pk, ek, alpha, beta, gamma, delta, ct. split; [exact Hset|]. intros x y. destruct (Y x y) as (rr & ss & Z & _). exists rr, ss. exact Z.
Qed.
Example C63_case (pf : profile) : exists pk ek g_i ct p,
  setup_for_groth16 (y_backend pf) (replay_rng E61) 16 x_gens y_tape = Ok (pk, y_rho, ek, y_dk, []) /\
  get_gs_for_encryption (gpk_vk (pk_pk pk)) = Ok g_i /\
  verify_commitment_and_proof ct p (prepare_verifying_key (gpk_vk (pk_pk pk))) (prepare_ek ek) (prepare_gens x_gens) = Ok tt /\
  decrypt_to_chunks pf (ct_X_r ct) (ct_enc_chunks ct) y_rho (prepare_dk y_dk) g_i 16 = Err CouldNotFindDiscreteLog.
Proof.
  destruct (y_setup pf) as (pk & ek & g_i & Hset & Hg & Hl & Hek & Hsrs & Hnd).
  assert (HB : backend_correct (y_backend pf)) by (apply ark_backend_correct; exact y_domain_ok).
  destruct (C63_range_check_void_for_setup_party (y_backend pf) (replay_rng E61) 16 x_gens y_tape pk y_rho ek y_dk [] HB x_H Hset) as (alpha & beta & gamma & delta & _ & X).
  assert (Ls : length y_s = 4%nat) by apply range61_length. assert (Lt : length y_t = 4%nat) by apply range61_length.
  assert (Lv : length y_v = 4%nat) by apply range61_length.
  destruct (ek_formula_lengths x_gens g_i (gpk_delta_g1 (pk_pk pk)) (pk_gamma_g1 pk) y_s y_t0 y_t 4 Ls Lt ltac:(lia)) as (LX & LY & LZ). cbv zeta in LX, LY, LZ. rewrite <- Hek in LX, LY, LZ.
  set (m := [65536; 0; 0; 0]). set (ct := ct_formula ek g_i m (nz61 5)).
  assert (He : encrypts ek g_i m (ct_vec ct) (nz61 5)).
  { exists (replay_rng E61), [nz61 5], []. rewrite encrypt_chunks_ok by (try lia; unfold m; cbn [length]; lia). reflexivity. }
  exists pk, ek, g_i, ct, (simulated_proof x_gens alpha beta gamma delta (gpk_vk (pk_pk pk)) ct fone fone).
  split; [exact Hset|]. split; [exact Hg|]. split; [exact (X g_i m ct _ _ _ Hg He)|].
  assert (Hk : from_keygen 16 x_gens g_i (gpk_delta_g1 (pk_pk pk)) (pk_gamma_g1 pk) y_rho ek y_dk).
  { exists (replay_rng E61), (y_rho :: y_s ++ (y_t0 :: y_t) ++ y_v ++ []), []. rewrite Hek. apply (keygen_replay 16 x_gens g_i _ _ 4); [exact y_count|lia|exact Ls|exact Lt|exact Lv]. }
  assert (Hgi : skipn 1 (vk_gamma_abc_g1 (gpk_vk (pk_pk pk))) = g_i).
  { unfold get_gs_for_encryption, slice_from in Hg. destruct (Nat.leb 1 _); [|discriminate Hg]. congruence. }
  rewrite Hgi in Hnd.
  assert (Hm : Forall (fun z => 0 <= z) m) by (unfold m; repeat constructor; lia).
  destruct (keygen_opens _ _ _ _ _ _ _ _ _ _ _ _ _ Hk He Hm) as (s & v & Hv & Edk & H256 & Hgl & Hc & Hms & Hop).
  assert (L4 : length s = 4%nat) by (rewrite <- Hms; reflexivity).
  rewrite Edk in Hnd |- *. eapply decrypt_out_of_range with (ms := m); try eassumption; try lia.
  - replace (length s) with (length (dk_V_2 (dk_formula x_gens y_rho s v))); [exact Hnd|]. unfold dk_formula. cbn [dk_V_2]. rewrite map_length. exact Hv.
  - vm_compute. reflexivity.
  - change (modulus K61) with (2 ^ 61 - 1). unfold m. repeat constructor; lia.
  - unfold m. intros Z. apply Forall_inv in Z. vm_compute in Z. apply Z. reflexivity.
Qed.
