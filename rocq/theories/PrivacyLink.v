(* PrivacyLink.v -- what an execution of setup, encryption and proof puts on the table, in terms of its coins (for C64) *)
From Verif Require Import Base BaseFacts Algebra Utils UtilsFacts Setup Keygen Encryption Circuit CircuitFacts CircuitSat CommitmentFacts VecFacts KeySpec KeygenFacts
  EncryptFacts DecryptFacts Spec VerifyFacts Protocol ReencFacts DistFacts PropVerify Groth16 ArkGroth16 PolyFacts Groth16Spec ArkFacts Groth16Facts SchwartzZippel SoundCore SoundSpec
  SoundAlg SoundGame SoundLink SoundFacts SoundCount SoundHonest PropGroth16 PropZK PrivacySpec PrivacyAlg PrivacyGame.

Section PLink.
Context {E : pairing}.
Notation K := (K_of E).
Notation F := (Fr E).
Add Ring Kr : (@scalar_ring_theory K).
Notation "x +f y" := (fadd x y) (at level 50, left associativity).
Notation "x *f y" := (fmul x y) (at level 40, left associativity).
Notation "x -f y" := (fsub x y) (at level 50, left associativity).
Notation e i env := (nth i env fzero).

Variables (n : nat) (cs : csys K) (xs : list F) (pf : profile) (domain : nat -> option (list F)) (fuel : nat) (b : Z) (gens : encryption_gens E).
Let ni := cs_num_inst cs.
Let nw := cs_num_wit cs.
Let nc := length (cs_cons cs).
Let N := length xs.
Let M := (ni + nw)%nat.
Notation G := (eg_G gens).
Notation H := (eg_H gens).
Hypothesis HH : H <> gzero.
Hypothesis Hdom_ok : domain_ok domain.
Hypothesis Hb : supported b.
Hypothesis HbM : 2 ^ b <= modulus K.
Hypothesis Hcomp : chunk_compatible K b.
Hypothesis Hcount : chunks_count K b = Ok (Z.of_nat n).
Hypothesis Hn0 : (0 < n)%nat.
Hypothesis Hcs : generate_constraints (BitsizeCheckCircuit b (Z.of_nat n) None true) (@cs_new K Circuit.Setup) = Ok cs.
Hypothesis Hdomain : domain (nc + ni)%nat = Some xs.

Definition mv (ds : list Z) (j : nat) : F := of_Z (nth j ds 0).
Definition zv (sp : csys K) : list F := padz M (cs_inst sp ++ cs_wit sp).

Lemma run_seen coins pk sk ek dk st msg ds sp ct r p st2 : length coins = (3 * n + 10)%nat -> vanishing_at xs (e 4 coins) <> fzero ->
  decompose pf msg b = Ok ds -> generate_constraints (BitsizeCheckCircuit b (Z.of_nat n) (Some (map (fun m => of_Z m) ds)) true) (@cs_new K Prove) = Ok sp ->
  setup_for_groth16 (ark_backend pf domain fuel) (replay_rng E) b gens coins = Ok (pk, sk, ek, dk, st) ->
  encrypt_with_proof pf (ark_backend pf domain fuel) (replay_rng E) msg ek pk b st = Ok (ct, r, p, st2) ->
  e 2 coins <> fzero /\ e 3 coins <> fzero /\
  seen_g1 gens pk ek ct p = map (fun x => (finv (e 3 coins *f (e 2 coins *f e 3 coins)) *f x) [*] G) (u_of n cs xs (mv ds) (zv sp) coins) /\
  seen_g2 gens pk ek dk p = map (fun x => x [*] H) (v_of n cs xs (zv sp) coins).
Proof.
  intros Hl Hv Hds Hsp Hset Hrun.
  assert (Hbp : 0 < b) by (destruct Hb as [->|[->| ->]]; lia).
  assert (Hbb : 0 < b <= modulus_bit_size K) by (split; [exact Hbp|apply bits_ge; [lia|exact HbM]]).
  pose proof (proj1 (cs_shape n cs xs b Hbb Hn0 Hcs)) as Hni.
  pose proof (setup_tape_rest n cs xs pf domain fuel b gens Hcount Hcs Hdomain Hni coins pk sk ek dk st ltac:(lia) Hv Hset)
    as (Hga & Hde & Hgs & _ & Hek & Hdk & Hdelta & Hgamma & Hvk & P1 & P2 & QA & QB & Hst).
  split; [exact Hga|]. split; [exact Hde|].
  assert (Est : st = [e_r n coins; e_rr n coins; e_ss n coins]).
  { rewrite Hst. unfold e_r, e_rr, e_ss. assert (Ll : length (skipn (3 * n + 7) coins) = 3%nat) by (rewrite skipn_length; lia).
    pose proof (list_as_map fzero (skipn (3 * n + 7) coins)) as X. rewrite Ll in X. rewrite X. cbn [seq map]. rewrite !nth_skipn.
    repeat (apply (f_equal2 (@cons _)); [f_equal; lia|]). reflexivity. }
  set (ga := e 2 coins) in *. set (de := e 3 coins) in *. set (al := e 0 coins) in *. set (be := e 1 coins) in *. set (ta := e 4 coins) in *.
  set (r0 := e_r n coins) in *. set (rr := e_rr n coins) in *. set (ss := e_ss n coins) in *.
  destruct (compatible_count pf b msg ds Hb Hcomp Hds) as [Hcnt _].
  assert (Ld : length ds = n). { rewrite Hcount in Hcnt. assert (A : Z.of_nat n = Z.of_nat (length ds)) by congruence. lia. }
  set (g_i := gis n cs xs gens coins) in *.
  assert (Lg : length g_i = n) by (unfold g_i, gis; rewrite map_length, seq_length; reflexivity).
  (* acceptance *)
  pose proof Hset as Hset'. unfold setup_for_groth16 in Hset'. apply bind_Ok_inv in Hset'. destruct Hset' as (circ & Hcirc & Hset').
  apply bind_Ok_inv in Hset'. destruct Hset' as ([pk0 st1] & Hsrs & Hset'). apply bind_Ok_inv in Hset'. destruct Hset' as (g_i' & Hg' & Hset').
  apply bind_Ok_inv in Hset'. destruct Hset' as ([[[sk0 ek0] dk0] st3] & Hk & Hset'). injection Hset' as -> -> -> -> _.
  assert (g_i' = g_i) by congruence. subst g_i'.
  assert (Hk' : honest_key b gens g_i (gpk_delta_g1 (pk_pk pk)) (pk_gamma_g1 pk) ek) by (left; exists sk, dk, (replay_rng E), st1, st3; exact Hk).
  assert (Hs' : from_srs (ark_backend pf domain fuel) (generate_constraints circ) gens pk) by (exists (replay_rng E), coins, st1; exact Hsrs).
  destruct (with_proof_any_key pf E (ark_backend pf domain fuel) (replay_rng E) b circ gens pk g_i ek msg st (ark_backend_correct pf domain fuel Hdom_ok) Hb HbM Hcomp Hcirc Hs' Hgs Hk')
    as (ct1 & r1 & p1 & s1 & s2 & Hrun1 & Henc1 & Hver). rewrite Hrun in Hrun1. injection Hrun1 as <- <- <- <-.
  apply C36_combined_check_is_conjunction in Hver. destruct Hver as [_ Hver].
  (* the ciphertext *)
  assert (n256 : (n < 256)%nat) by exact (n256 n cs xs b Hcount Hn0).
  destruct (ek_formula_lengths gens g_i (de [*] G) (fneg ga [*] G) (map (e_s coins) (seq 0 n)) (e_t n coins 0) (map (fun j => e_t n coins (S j)) (seq 0 n)) n
    ltac:(rewrite map_length, seq_length; reflexivity) ltac:(rewrite map_length, seq_length; reflexivity) ltac:(lia)) as (LX & LY & LZ). cbv zeta in LX, LY, LZ. rewrite <- Hek in LX, LY, LZ.
  pose proof (encrypt_chunks_ok (replay_rng E) ds ek g_i st ltac:(lia) ltac:(lia) ltac:(lia) ltac:(lia) ltac:(lia)) as He.
  rewrite Est in He, Hrun, Henc1. change (rand_scalar (replay_rng E) [r0; rr; ss]) with (r0, [rr; ss]) in He. cbn [fst snd] in He.
  assert (Henc : encrypt pf (replay_rng E) msg ek g_i b [r0; rr; ss] = Ok (ct_formula ek g_i ds r0, r0, [rr; ss])).
  { unfold encrypt. rewrite Hds. cbn [bind]. rewrite He. cbn [bind]. rewrite ct_of_vec_ct_vec. reflexivity. }
  rewrite Henc in Henc1. injection Henc1 as <- <- <-.
  (* the proof *)
  unfold encrypt_with_proof in Hrun. rewrite Hgs in Hrun. cbn [bind] in Hrun. rewrite Henc in Hrun. cbn [bind] in Hrun. rewrite Hds in Hrun. cbn [bind] in Hrun.
  unfold circuit_new in Hrun. rewrite Hcount in Hrun. cbn [bind] in Hrun. apply bind_Ok_inv in Hrun. destruct Hrun as ([p' s3] & Hp & Hrun). injection Hrun as -> <-.
  unfold create_proof in Hp. change (rand_scalar (replay_rng E) [rr; ss]) with (rr, [ss]) in Hp. cbv beta iota in Hp. change (rand_scalar (replay_rng E) [ss]) with (ss, @nil F) in Hp. cbv beta iota in Hp.
  apply bind_Ok_inv in Hp. destruct Hp as (p0 & Hp0 & Hp). injection Hp as <- _. cbn [create_proof_with_reduction ark_backend] in Hp0.
  destruct (@generate_prove K b (Z.of_nat n) true (map (fun m => of_Z m) ds) ltac:(lia)) as (sp' & Hsp' & _ & _ & _ & Hinst & _).
  rewrite Hsp in Hsp'. injection Hsp' as <-.
  unfold ark_prove in Hp0. rewrite Hsp in Hp0. cbn [bind] in Hp0. apply bind_Ok_inv in Hp0. destruct Hp0 as (u & _ & Hp0).
  apply bind_Ok_inv in Hp0. destruct Hp0 as (xs' & _ & Hp0).
  assert (Hsl : slice_from (cs_inst sp) 1 = Ok (tl (cs_inst sp))) by (rewrite Hinst; reflexivity). rewrite Hsl in Hp0. cbn [bind] in Hp0.
  apply bind_Ok_inv in Hp0. destruct Hp0 as (pa & Ha & Hp0). apply bind_Ok_inv in Hp0. destruct Hp0 as (pb1 & _ & Hp0). apply bind_Ok_inv in Hp0. destruct Hp0 as (pb & HB & Hp0).
  injection Hp0 as <-. cbn [pr_a pr_b pr_c] in *.
  apply (coeff_dot cs) in Ha; [|eexists; exact Hinst|rewrite QA, map_length, seq_length; reflexivity].
  apply (coeff_dot cs) in HB; [|eexists; exact Hinst|rewrite QB, map_length, seq_length; reflexivity].
  fold ni nw M in Ha, HB. fold (zv sp) in Ha, HB. fold ni nw M in QA, QB.
  rewrite <- (map_map (colA cs xs ta) (fun x => x [*] G)) in QA. rewrite <- (map_map (colB cs xs ta) (fun x => x [*] H)) in QB.
  rewrite QA, dot_smul_map, Hdelta, Hvk in Ha. rewrite QB, dot_smul_map, Hvk in HB. cbn [vk_alpha_g1 vk_delta_g2 vk_beta_g2] in Ha, HB.
  assert (Ea : pa = a_of n cs xs (zv sp) coins [*] G) by (rewrite Ha; unfold a_of; fold al de ta rr ni nw M; glin).
  assert (Eb : pb = b_of n cs xs (zv sp) coins [*] H) by (rewrite HB; unfold b_of; fold be de ta ss ni nw M; glin).
  rewrite Ea, Eb in Hver. rewrite Ea, Eb. 
  assert (Hsec : setup_secrets gens (gpk_vk (pk_pk pk)) al be ga de) by (rewrite Hvk; repeat split; exact Hde).
  assert (Hw : vk_gamma_abc_g1 (gpk_vk (pk_pk pk)) <> []) by (rewrite Hvk; cbn [vk_gamma_abc_g1]; fold ni; unfold ni; rewrite Hni; discriminate).
  apply (accepted_iff_simulated gens (gpk_vk (pk_pk pk)) al be ga de) in Hver; [|exact Hsec|exact HH|exact Hw]. apply (f_equal pr_c) in Hver.
  match type of Hver with pr_c (Proof _ _ ?c) = _ => set (pc := c) in * end. cbn [pr_c] in Hver. clearbody pc.
  clear Ha HB Ea Eb pa pb pb1 Hsp Henc He Hk Hsrs Hset Hk' Hs' QA QB.
  set (a := a_of n cs xs (zv sp) coins) in *. set (bb := b_of n cs xs (zv sp) coins) in *.
  set (w := finv (de *f (ga *f de))).
  assert (Hgd : ga *f de <> fzero) by (intros Z; apply fmul_integral in Z; destruct Z; contradiction).
  assert (Hdg : de *f (ga *f de) <> fzero) by (intros Z; apply fmul_integral in Z; destruct Z; contradiction).
  assert (W0 : forall x, w *f (de *f (ga *f de *f x)) = x).
  { intros x. transitivity ((de *f (ga *f de) *f w) *f x); [ring|]. unfold w. rewrite finv_r by exact Hdg. ring. }
  assert (W1 : forall x, w *f (de *f x) = finv (ga *f de) *f x).
  { intros x. transitivity (w *f (de *f (ga *f de *f (finv (ga *f de) *f x)))); [|apply W0]. f_equal. f_equal.
    transitivity ((ga *f de *f finv (ga *f de)) *f x); [rewrite finv_r by exact Hgd; ring|ring]. }
  assert (W2 : forall x, w *f (de *f (de *f x)) = finv ga *f x).
  { intros x. transitivity (w *f (de *f (ga *f de *f (finv ga *f x)))); [|apply W0]. f_equal. f_equal.
    transitivity (de *f (ga *f finv ga) *f x); [rewrite finv_r by exact Hga; ring|ring]. }
  assert (W3 : forall x, w *f (ga *f de *f x) = finv de *f x).
  { intros x. transitivity (w *f (de *f (ga *f de *f (finv de *f x)))); [|apply W0]. f_equal.
    transitivity (ga *f de *f ((de *f finv de) *f x)); [rewrite finv_r by exact Hde; ring|ring]. }
  assert (W4 : forall x, w *f (ga *f (de *f x)) = finv de *f x) by (intros x; rewrite <- W3; f_equal; ring).
  assert (Hbody : ct_enc_chunks (ct_formula ek g_i ds r0) =
     map (fun j => (w *f (de *f (ga *f de *f (r0 *f (de *f e_s coins j)) +f mv ds j *f (de *f qq cs xs al be ta (S j))))) [*] G) (seq 0 n)).
  { cbn [ct_formula ct_enc_chunks]. unfold body_formula. rewrite Ld. apply map_ext_in. intros j Hj. apply in_seq in Hj. rewrite Hek at 1. cbn [ek_formula ek_X]. rewrite map_map.
    rewrite (map_seq_nth (fun x => e_s coins x [*] (de [*] G)) n j) by lia. unfold g_i, gis. rewrite (map_seq_nth _ n j gzero) by lia. fold (mv ds j) al be ta ga.
    transitivity ((w *f (de *f (ga *f de *f (r0 *f (de *f e_s coins j)))) +f w *f (de *f (de *f (mv ds j *f qq cs xs al be ta (S j))))) [*] G); [rewrite W0, W2; glin|].
    f_equal. ring. }
  assert (HX : ct_X_r (ct_formula ek g_i ds r0) = (w *f (de *f (ga *f de *f (r0 *f de)))) [*] G).
  { rewrite W0. rewrite Hek. cbn. rewrite <- smul_fmul. reflexivity. }
  split.
  - unfold seen_g1. rewrite P1, Hbody, HX. unfold u_of, seen1. fold al be ga de ta r0 a bb. rewrite !map_app, !map_map. cbn [map].
    apply (f_equal2 (@app _)); [|apply (f_equal2 (@app _)); [reflexivity|apply (f_equal2 (@app _)); [reflexivity|]]].
    + apply map_ext. intros x. rewrite W1. reflexivity.
    + cbn [app]. apply (f_equal2 (@cons _)); [|apply (f_equal2 (@cons _)); [|apply (f_equal2 (@cons _)); [|reflexivity]]].
      * cbn [ct_formula ct_commitment]. unfold psi_formula. rewrite Hek at 1 2. cbn [ek_formula ek_Y ek_P_1].
        rewrite (scale_as_map _ _ n) by (try (rewrite map_length, seq_length; reflexivity); lia).
        rewrite (map_ext_in _ (fun j => (e_t n coins (S j) *f (qq cs xs al be ta (S j) *f finv ga)) [*] G)).
        2:{ intros j Hj. apply in_seq in Hj. rewrite (map_seq_nth _ n j fzero) by lia. unfold g_i, gis. rewrite (map_seq_nth _ n j gzero) by lia. fold al be ta ga. rewrite <- smul_fmul. reflexivity. }
        rewrite <- (map_map (fun j => e_t n coins (S j) *f (qq cs xs al be ta (S j) *f finv ga)) (fun x => x [*] G)), dot_smul_map.
        rewrite <- !smul_fmul, <- smul_fadd. f_equal.
        rewrite (fdot_as_fsum (map of_Z ds) _ n) by (rewrite map_length; exact Ld).
        rewrite (fdot_as_fsum (map (e_s coins) (seq 0 n)) _ n) by (rewrite map_length, seq_length; reflexivity).
        assert (X1 : fsum (map (fun i => nth i (map (e_s coins) (seq 0 n)) fzero *f nth i (map (fun j => e_t n coins (S j)) (seq 0 n)) fzero) (seq 0 n)) = sum_n n (fun j => e_s coins j *f e_t n coins (S j))).
        { unfold sum_n. f_equal. apply map_ext_in. intros j Hj. apply in_seq in Hj. rewrite !(map_seq_nth _ n j fzero) by lia. reflexivity. }
        rewrite X1.
        assert (X2 : fsum (map (fun i => nth i (map of_Z ds) fzero *f nth i (map (fun j => e_t n coins (S j) *f (qq cs xs al be ta (S j) *f finv ga)) (seq 0 n)) fzero) (seq 0 n))
           = w *f (de *f sum_n n (fun j => mv ds j *f (e_t n coins (S j) *f (de *f qq cs xs al be ta (S j)))))).
        { unfold sum_n. rewrite <- !fsum_map_mul. f_equal. apply map_ext_in. intros j Hj. apply in_seq in Hj. rewrite (map_seq_nth _ n j fzero) by lia.
          rewrite (nth_indep _ fzero (of_Z 0)) by (rewrite map_length; lia). rewrite map_nth. fold (mv ds j).
          transitivity (mv ds j *f (e_t n coins (S j) *f (w *f (de *f (de *f qq cs xs al be ta (S j)))))); [rewrite W2; ring|ring]. }
        rewrite X2.
        match goal with |- ?A +f _ = w *f (de *f (ga *f de *f ?C +f ?D)) => transitivity (A +f w *f (de *f (ga *f de *f C))); [rewrite W0; ring|ring] end.
      * rewrite W0. reflexivity.
      * rewrite Hver. unfold simulated_proof. cbn [pr_c]. rewrite HX, Hbody, Hvk. cbn [vk_gamma_abc_g1]. fold ni. rewrite (map_seq_nth _ ni 0 gzero) by (unfold ni; rewrite Hni; lia).
        rewrite <- (map_map (fun j => w *f (de *f (ga *f de *f (r0 *f (de *f e_s coins j)) +f mv ds j *f (de *f qq cs xs al be ta (S j))))) (fun x => x [*] G)), gsum_map_smul.
        transitivity ((finv de *f (a *f bb -f al *f be -f ga *f (w *f (de *f (ga *f de *f (r0 *f de))) +f
            sum_n n (fun j => w *f (de *f (ga *f de *f (r0 *f (de *f e_s coins j)) +f mv ds j *f (de *f qq cs xs al be ta (S j))))) +f qq cs xs al be ta 0 *f finv ga))) [*] G); [unfold sum_n; glin|].
        f_equal.
        assert (X : sum_n n (fun j => w *f (de *f (ga *f de *f (r0 *f (de *f e_s coins j)) +f mv ds j *f (de *f qq cs xs al be ta (S j))))) =
           r0 *f (de *f sum_n n (e_s coins)) +f w *f (de *f sum_n n (fun j => mv ds j *f (de *f qq cs xs al be ta (S j))))).
        { unfold sum_n. rewrite <- !fsum_map_mul, <- fsum_map_add. f_equal. apply map_ext. intros j.
          transitivity (w *f (de *f (ga *f de *f (r0 *f (de *f e_s coins j)))) +f w *f (de *f (mv ds j *f (de *f qq cs xs al be ta (S j))))); [ring|rewrite W0; ring]. }
        rewrite X, W0.
        transitivity (w *f (ga *f de *f (a *f bb -f al *f be)) -f w *f (ga *f (de *f (qq cs xs al be ta 0))) -f w *f (ga *f (de *f (ga *f (r0 *f (de *f (fone +f sum_n n (e_s coins))))))) -f
           w *f (ga *f sum_n n (fun j => mv ds j *f (de *f qq cs xs al be ta (S j))))); [|ring].
        rewrite W3, !W4.
        assert (Y1 : finv de *f (ga *f (qq cs xs al be ta 0 *f finv ga)) = finv de *f qq cs xs al be ta 0).
        { transitivity (finv de *f qq cs xs al be ta 0 *f (ga *f finv ga)); [ring|]. rewrite finv_r by exact Hga. ring. }
        set (S1 := sum_n n (fun j => mv ds j *f (de *f qq cs xs al be ta (S j)))).
        assert (Y2 : finv de *f (ga *f (w *f (de *f S1))) = w *f (ga *f S1)).
        { transitivity (w *f (ga *f S1) *f (de *f finv de)); [ring|]. rewrite finv_r by exact Hde. ring. }
        transitivity (finv de *f (a *f bb -f al *f be) -f finv de *f (ga *f (r0 *f (de *f (fone +f sum_n n (e_s coins))))) -f finv de *f (ga *f (w *f (de *f S1))) -f finv de *f (ga *f (qq cs xs al be ta 0 *f finv ga))); [ring|].
        rewrite Y1, Y2. ring.
  - unfold seen_g2. rewrite P2. unfold v_of, seen2. rewrite map_app. cbn [map]. reflexivity.
Qed.
End PLink.
