(* PropRogue.v -- C71: whoever knows the commitment secrets t publishes accepted ciphertexts that nobody can decrypt;
   the rushing last party of the distributed key generation (C32) is in that position *)
From Verif Require Import Base BaseFacts Algebra Utils UtilsFacts Setup Keygen Encryption Circuit CircuitFacts CommitmentFacts VecFacts KeySpec KeygenFacts
  EncryptFacts DecryptFacts Spec VerifyFacts Protocol ReencFacts DistFacts PropKeys PropEnc PropProto PropVerify PropMalleable Groth16 ArkGroth16 Groth16Spec ArkFacts Groth16Facts Instance Examples
  RoundTrip PropGroth16 PropGroth16Cases PropGroth16More.

(* any amount D moved from the second chunk to the first, and the commitment adjusted with t_1 - t_2 *)
Definition moved {E : pairing} (t1 t2 : Fr E) (D : G1 E) (ct : ciphertext E) : ciphertext E :=
  match ct_enc_chunks ct with
  | x :: y :: rest => Ciphertext (ct_X_r ct) ((x [+] D) :: (y [+] [-] D) :: rest) (ct_commitment ct [+] (fsub t1 t2 [*] D))
  | _ => ct
  end.

Section Rogue.
Context {E : pairing}.
Notation K := (K_of E).
Add Ring Krg : (@scalar_ring_theory K).

Theorem C71_commitment_secrets_allow_redistribution b gens g_i delta gamma (ek : encryption_key E) vk p ct D t0 t1 t2 t :
  honest_key b gens g_i delta gamma ek -> eg_H gens <> gzero -> ek_Z ek = map (fun x => x [*] eg_H gens) (t0 :: t1 :: t2 :: t) ->
  verify_commitment_and_proof ct p (prepare_verifying_key vk) (prepare_ek ek) (prepare_gens gens) = Ok tt ->
  verify_commitment_and_proof (moved t1 t2 D ct) p (prepare_verifying_key vk) (prepare_ek ek) (prepare_gens gens) = Ok tt.
Proof.
  intros Hk HH HZ Hv. destruct ct as [c_0 [|x [|y rest]] psi]; try exact Hv. cbn [moved ct_enc_chunks ct_X_r ct_commitment].
  apply C36_combined_check_is_conjunction in Hv. destruct Hv as [Hv Hp]. apply C36_combined_check_is_conjunction.
  destruct (C20_verification_exact E b gens g_i delta gamma ek Hk HH) as (t0' & t' & HZ' & Lt & X).
  assert (Et : t0' :: t' = t0 :: t1 :: t2 :: t).
  { rewrite HZ in HZ'. revert HZ' HH. clear. generalize (t0 :: t1 :: t2 :: t) (t0' :: t'). intros l. induction l as [|a l IH]; intros [|a' l'] H HH; try discriminate H; [reflexivity|].
    cbn [map] in H. injection H as H1 H2. f_equal; [|apply IH; assumption]. symmetry. exact (smul_inj_scalar a a' (eg_H gens) HH H1). }
  injection Et as -> ->. unfold verify_commitment in *. cbn [ct_X_r ct_enc_chunks ct_commitment] in *. split.
  - apply X in Hv. destruct Hv as [L ->]. apply X. split; [exact L|]. cbn [dot]. glin.
  - rewrite <- Hp. apply C35_verify_proof_sees_only_the_sum. cbn [ct_X_r ct_enc_chunks gsum]. rewrite !gsum_cons. glin.
Qed.

(* moving 2^16 units of the first generator: no message chunk is that large, so no chunk size decrypts the result *)
Theorem C71_redistributed_ciphertext_does_not_decrypt pf b b' gens g_i delta gamma sk (ek : encryption_key E) dk m c_0 x y rest psi r :
  from_keygen b gens g_i delta gamma sk ek dk -> nondegenerate dk g_i (length (dk_V_2 dk)) ->
  encrypts ek g_i m (c_0 :: (x :: y :: rest) ++ [psi]) r -> Forall (fun z => 0 <= z < 2 ^ 16) m ->
  2 ^ 17 <= modulus K -> 1 <= b' <= 31 ->
  let D := of_Z (2 ^ 16) [*] nth 0 g_i gzero in
  decrypt_to_chunks pf c_0 ((x [+] D) :: (y [+] [-] D) :: rest) sk (prepare_dk dk) g_i b' = Err CouldNotFindDiscreteLog.
Proof.
  intros Hk Hnd He Hm HM Hb' D.
  destruct (C14_decryption_sound_and_complete E b gens g_i delta gamma sk ek dk Hk Hnd) as (s & HX & Ls & Hdec).
  assert (HF : field_holds K b') by (right; lia).
  destruct (Hdec pf b' c_0 ((x [+] D) :: (y [+] [-] D) :: rest) Hb' HF) as (_ & Herr & _). clear Hdec.
  apply encrypts_inv in He. destruct He as (n & (H256 & LX & _) & Lm & Lg & Ect). apply ct_vec_eq in Ect. destruct Ect as (E0 & Ec & _). cbn [ct_formula ct_X_r ct_enc_chunks] in E0, Ec.
  assert (Lc : length (x :: y :: rest) = n) by (rewrite Ec, body_formula_length; exact Lm). cbn [length] in Lc.
  assert (Lsn : length s = n) by (rewrite <- LX, HX, map_length; reflexivity).
  apply Herr; [cbn [length]; lia|]. intros ms (_ & Lms & Hop) Hfit.
  destruct (Hop 0%nat ltac:(lia)) as [Hpos H0]. cbn [nth] in H0.
  assert (Hx : x = (nth 0 s fzero [*] c_0) [+] (of_Z (nth 0 m 0) [*] nth 0 g_i gzero)).
  { apply (f_equal (fun l => nth 0 l gzero)) in Ec. cbn [nth] in Ec. rewrite Ec. unfold body_formula. rewrite map_seq_nth by lia.
    rewrite HX, E0. rewrite (nth_indep _ gzero (fzero [*] ek_X_0 ek)) by (rewrite map_length; lia). rewrite (map_nth (fun x => x [*] ek_X_0 ek)). glin. }
  assert (Hg0 : nth 0 g_i gzero <> gzero).
  { destruct Hnd as [_ Hg]. rewrite Forall_forall in Hg. apply Hg. rewrite <- (firstn_skipn (length (dk_V_2 dk)) g_i) at 1. rewrite app_nth1 by (rewrite firstn_length; lia).
    apply nth_In. rewrite firstn_length; lia. }
  assert (Hm0 : 0 <= nth 0 m 0 < 2 ^ 16) by (rewrite Forall_forall in Hm; apply Hm, nth_In; lia).
  assert (Hk0 : nth 0 ms 0 < 2 ^ 16) by (rewrite Forall_forall in Hfit; apply (Hfit (nth 0 ms 0)), nth_In; lia).
  assert (Heq : of_Z (nth 0 m 0 + 2 ^ 16) [*] nth 0 g_i gzero = of_Z (nth 0 ms 0) [*] nth 0 g_i gzero).
  { apply (gadd_cancel_l (nth 0 s fzero [*] c_0)). rewrite <- H0, Hx. unfold D. rewrite of_Z_add. glin. }
  apply smul_inj_scalar in Heq; [|exact Hg0]. apply (f_equal sval) in Heq. rewrite !sval_of_Z, !Z.mod_small in Heq; lia.
Qed.

(* The last party of the distributed key generation sees the others' public contributions and shares first.  It runs keygen for itself
   with coins it knows and sends its key minus what the others published.  The common key is then its own key; with its own t_1, t_2 it
   turns every accepted ciphertext (of its own messages, say) into one that passes the combined check, but decrypts under no chunk size --
   so C60 and C69 do not hold against a rushing party. *)
Theorem C71_rushing_party_publishes_accepted_garbage b gens pk g_i (honest : list (secret_key_st E * ek_partial E)) rho s t0 t1 t2 t v ek dk :
  let delta := gpk_delta_g1 (pk_pk pk) in let gamma := pk_gamma_g1 pk in
  honest <> [] -> Forall (from_partial b gens g_i delta gamma) honest ->
  keygen (replay_rng E) b gens g_i delta gamma (rho :: s ++ (t0 :: t1 :: t2 :: t) ++ v) = Ok (rho, ek, dk, []) ->
  chunks_count K b = Ok (Z.of_nat (length s)) -> length (t1 :: t2 :: t) = length s -> length v = length s ->
  nondegenerate dk g_i (length (dk_V_2 dk)) -> eg_H gens <> gzero -> 2 ^ 17 <= modulus K ->
  exists common shares p1,
    combineEKs gamma (map snd honest ++ [rogue_partial gamma ek (map snd honest)]) = Ok common /\
    mapM (fun p => genP1share common (fst p)) honest = Ok shares /\
    combineP1share (shares ++ [rogue_share ek shares]) = Ok p1 /\
    forall ct p m r, encrypts (keygenFinal common p1) g_i m (ct_vec ct) r -> Forall (fun z => 0 <= z < 2 ^ 16) m ->
      let pvk := prepare_verifying_key (gpk_vk (pk_pk pk)) in let pek := prepare_ek (keygenFinal common p1) in
      verify_commitment_and_proof ct p pvk pek (prepare_gens gens) = Ok tt ->
      let ct' := moved t1 t2 (of_Z (2 ^ 16) [*] nth 0 g_i gzero) ct in
      verify_commitment_and_proof ct' p pvk pek (prepare_gens gens) = Ok tt /\
      forall pf b', 1 <= b' <= 31 -> decrypt_to_chunks pf (ct_X_r ct') (ct_enc_chunks ct') rho (prepare_dk dk) g_i b' = Err CouldNotFindDiscreteLog.
Proof.
  intros delta gamma Hne Hh Hrun Hc Lt Lv Hnd HH HM.
  assert (Hk : from_keygen b gens g_i delta gamma rho ek dk) by (eexists _, _, _; exact Hrun).
  destruct (rogue_key b gens g_i delta gamma honest rho ek dk Hne Hh Hk) as (common & shares & H1 & H2 & p1 & H3 & H4).
  exists common, shares, p1. split; [exact H1|]. split; [exact H2|]. split; [exact H3|]. rewrite H4. intros ct p m r He Hm pvk pek Hv ct'.
  assert (HZ : ek_Z ek = map (fun x => x [*] eg_H gens) (t0 :: t1 :: t2 :: t)).
  { pose proof Hk as Hk2. apply from_keygen_inv in Hk2. destruct Hk2 as (n & _ & _ & _ & _ & Hn & Hgl & Hlt & _).
    rewrite Hc in Hn. injection Hn as Hn. 
    pose proof (keygen_replay b gens g_i delta gamma (length s) rho s t0 (t1 :: t2 :: t) v [] Hc ltac:(lia) eq_refl Lt Lv) as Q. rewrite app_nil_r in Q. rewrite Q in Hrun. injection Hrun as <- _. reflexivity. }
  split.
  - apply (C71_commitment_secrets_allow_redistribution b gens g_i delta gamma ek _ p ct _ t0 t1 t2 t); try assumption. left. exists rho, dk. exact Hk.
  - intros pf b' Hb'. pose proof He as He2. apply encrypts_inv in He2. destruct He2 as (n & Hw & Lm & Lg & Ect).
    destruct ct as [c_0 c psi]. cbn [ct_vec ct_X_r ct_enc_chunks ct_commitment] in *.
    assert (Lc : length c = length s).
    { apply ct_vec_eq in Ect. destruct Ect as (_ & Ec & _). cbn [ct_formula ct_enc_chunks] in Ec. rewrite Ec, body_formula_length.
      destruct Hw as (_ & LX & _). apply (f_equal (@length _)) in HZ. rewrite map_length in HZ. cbn [length] in *.
      pose proof Hk as Hk2. apply from_keygen_inv in Hk2. destruct Hk2 as (n' & s' & t0' & t' & v' & Hn & _ & _ & Ls' & _ & _ & Hek & _). rewrite Hc in Hn. injection Hn as Hn.
      rewrite Hek in LX. cbn [ek_formula ek_X] in LX. rewrite map_length in LX. lia. }
    destruct c as [|x [|y rest]]; try (cbn [length] in Lc, Lt; lia). unfold ct'. cbn [moved ct_enc_chunks ct_X_r].
    apply (C71_redistributed_ciphertext_does_not_decrypt pf b b' gens g_i delta gamma rho ek dk m c_0 x y rest psi r); assumption.
Qed.
End Rogue.

(* two honest parties and an attacker with the coins of PropGroth16Cases.v: the common key is the attacker's; any message *)
Example C71_case (pf : profile) (msg : Fr E61) (st : list (Fr E61)) : exists pk ek g_i (honest : list (secret_key_st E61 * ek_partial E61)) common shares p1 ct p,
  length honest = 2%nat /\
  combineEKs (pk_gamma_g1 pk) (map snd honest ++ [rogue_partial (pk_gamma_g1 pk) ek (map snd honest)]) = Ok common /\
  mapM (fun p => genP1share common (fst p)) honest = Ok shares /\ combineP1share (shares ++ [rogue_share ek shares]) = Ok p1 /\
  verify_commitment_and_proof ct p (prepare_verifying_key (gpk_vk (pk_pk pk))) (prepare_ek (keygenFinal common p1)) (prepare_gens x_gens) = Ok tt /\
  (forall pf' b', 1 <= b' <= 31 -> decrypt_to_chunks pf' (ct_X_r ct) (ct_enc_chunks ct) y_rho (prepare_dk y_dk) g_i b' = Err CouldNotFindDiscreteLog).
Proof.
  destruct (y_setup pf) as (pk & ek & g_i & _ & Hg & Hl & Hek & Hsrs & Hnd). destruct y_conditions as (C1 & C2 & C3 & C4).
  set (honest := map (y_party x_gens g_i (gpk_delta_g1 (pk_pk pk)) (pk_gamma_g1 pk)) [10; 20]).
  assert (Hp : Forall (from_partial 16 x_gens g_i (gpk_delta_g1 (pk_pk pk)) (pk_gamma_g1 pk)) honest).
  { unfold honest. rewrite Forall_map. apply Forall_forall. intros a _. exists (replay_rng E61), (range61 a 4 ++ (nz61 (a + 500) :: range61 (a + 600) 4) ++ []), [].
    apply (partial_replay 16 x_gens g_i _ _ 4); [exact y_count|lia|apply range61_length|apply range61_length]. }
  assert (HB : backend_correct (y_backend pf)) by (apply ark_backend_correct; exact y_domain_ok).
  pose proof (keygen_replay 16 x_gens g_i (gpk_delta_g1 (pk_pk pk)) (pk_gamma_g1 pk) 4 y_rho y_s y_t0 y_t y_v [] y_count ltac:(lia) eq_refl eq_refl eq_refl) as Hrun.
  rewrite <- Hek in Hrun. fold y_dk in Hrun. rewrite app_nil_r in Hrun.
  assert (Hk : from_keygen 16 x_gens g_i (gpk_delta_g1 (pk_pk pk)) (pk_gamma_g1 pk) y_rho ek y_dk) by (eexists _, _, _; exact Hrun).
  assert (Et : y_t = nz61 6000 :: nz61 6001 :: [nz61 6002; nz61 6003]) by reflexivity.
  assert (Hgi : skipn 1 (vk_gamma_abc_g1 (gpk_vk (pk_pk pk))) = g_i).
  { unfold get_gs_for_encryption, slice_from in Hg. destruct (Nat.leb 1 (length (vk_gamma_abc_g1 (gpk_vk (pk_pk pk))))); [|discriminate Hg]. congruence. }
  rewrite Hgi in Hnd.
  assert (HM : 2 ^ 17 <= modulus K61) by (vm_compute; discriminate).
  rewrite Et in Hrun.
  destruct (C71_rushing_party_publishes_accepted_garbage 16 x_gens pk g_i honest y_rho y_s y_t0 (nz61 6000) (nz61 6001) [nz61 6002; nz61 6003] y_v ek y_dk ltac:(discriminate) Hp Hrun y_count eq_refl eq_refl Hnd x_H HM)
    as (common & shares & p1 & H1 & H2 & H3 & H4).
  destruct (rogue_key 16 x_gens g_i _ _ honest y_rho ek y_dk ltac:(discriminate) Hp Hk) as (common' & shares' & H1' & H2' & p1' & H3' & H4').
  rewrite H1 in H1'. injection H1' as <-. rewrite H2 in H2'. injection H2' as <-. rewrite H3 in H3'. injection H3' as <-.
  destruct (with_proof_any_key pf E61 (y_backend pf) (replay_rng E61) 16 (BitsizeCheckCircuit 16 4 None true) x_gens pk g_i ek msg st
    HB C1 C2 (conj C3 C4)) as (ct & r & p & st1 & st2 & Hwp & Henc & Hv); [unfold circuit_new; rewrite y_count; reflexivity|exact Hsrs|exact Hg|left; exists y_rho, y_dk; exact Hk|].
  destruct (decompose_spec pf K61 msg 16 C1) as (m & Hdm & Hmr & _ & _).
  apply encrypt_inv in Henc. destruct Henc as (ds & Hds & Henc). rewrite Hdm in Hds. injection Hds as <-.
  rewrite H4' in H4. destruct (H4 ct p m r) as [Hv' Hdec]; [exists (replay_rng E61), st, st1; exact Henc|exact Hmr|exact Hv|].
  eexists pk, ek, g_i, honest, common, shares, p1, _, p. split; [reflexivity|]. split; [exact H1|]. split; [exact H2|]. split; [exact H3|]. rewrite H4'. split; [exact Hv'|exact Hdec].
Qed.
