(* PropReencBind.v -- C70: re-encryption shares are not bound to the ciphertext they were requested for *)
From Verif Require Import Base BaseFacts Algebra Utils UtilsFacts Setup Keygen Encryption Circuit CircuitFacts CommitmentFacts VecFacts KeySpec KeygenFacts
  EncryptFacts DecryptFacts Spec VerifyFacts Protocol ReencFacts DistFacts PropEnc PropProto PropVerify PropMalleable Groth16 ArkGroth16 Groth16Spec ArkFacts Groth16Facts Instance Examples
  RoundTrip PropGroth16 PropGroth16Cases PropGroth16More.

(* re_encrypt_share reads the chunks only for their number *)
Theorem C70_shares_do_not_depend_on_the_chunks :
  forall (E : pairing) (R : rng_impl E) gens (c_0 : G1 E) c junk ekd sk st, length junk = length c ->
  re_encrypt_share R gens c_0 junk ekd sk st = re_encrypt_share R gens c_0 c ekd sk st.
Proof. intros E R gens c_0 c junk ekd sk st H. unfold re_encrypt_share. rewrite H. reflexivity. Qed.

(* So shares the parties handed out for a request with the victim's first element and arbitrary junk for chunks open the victim's
   ciphertext to the requester. *)
Theorem C70_shares_for_junk_open_another_ciphertext :
  forall (pf : profile) (E : pairing) b b' gens g_i delta gamma parties (ek : encryption_key E) m c_0 c psi r skd ekd junk shares,
  from_dkg b gens g_i delta gamma parties ek -> encrypts ek g_i m (c_0 :: c ++ [psi]) r ->
  from_dest gens skd ekd -> length junk = length c -> Forall2 (share_of gens c_0 junk ekd) (map fst parties) shares ->
  Forall (fun x => x <> gzero) (firstn (length m) g_i) ->
  1 <= b' <= 31 -> field_holds (K_of E) b' -> Forall (fun z => 0 <= z /\ fits b' z) m ->
  exists g_r cs, reencrypt c shares = Ok (g_r :: cs) /\ decrypt_to_chunks_after_re_encryption pf g_r cs skd g_i b' = Ok m.
Proof.
  intros pf E b b' gens g_i delta gamma parties ek m c_0 c psi r skd ekd junk shares Hd He Hdest Hj Hsh Hg Hb HF Hm.
  apply (C28_re_encryption_delivers pf E b b' gens g_i delta gamma parties ek m c_0 c psi r skd ekd shares); try assumption.
  clear -Hsh Hj. induction Hsh as [|sk sh sks shs (R & st & st' & H) _ IH]; constructor; [|exact IH]. exists R, st, st'. rewrite <- H. symmetry. apply C70_shares_do_not_depend_on_the_chunks. exact Hj.
Qed.

(* Nor does it help if every party first checks the ciphertext and its proof: the requester re-randomizes the victim's ciphertext and
   proof with public values only; the result is another ciphertext, passes the combined check, and its re-encryption is the victim's message. *)
Theorem C70_checked_requests_open_another_ciphertext :
  forall (pf : profile) (E : pairing) (B : groth16_backend E) circ gens pk g_i b b' parties (ek : encryption_key E) (R : rng_impl E) m c_0 c psi r p st skd ekd,
  backend_correct B -> from_srs B circ gens pk -> get_gs_for_encryption (gpk_vk (pk_pk pk)) = Ok g_i ->
  from_dkg b gens g_i (gpk_delta_g1 (pk_pk pk)) (pk_gamma_g1 pk) parties ek -> encrypts ek g_i m (c_0 :: c ++ [psi]) r ->
  let pvk := prepare_verifying_key (gpk_vk (pk_pk pk)) in
  verify_commitment_and_proof (Ciphertext c_0 c psi) p pvk (prepare_ek ek) (prepare_gens gens) = Ok tt ->
  from_dest gens skd ekd -> Forall (fun x => x <> gzero) (firstn (length m) g_i) ->
  1 <= b' <= 31 -> field_holds (K_of E) b' -> Forall (fun z => 0 <= z /\ fits b' z) m ->
  exists c_0' c' psi' p', shift_with_proof R ek g_i (repeat 0 (length c)) (c_0 :: c ++ [psi]) p st = Ok (c_0' :: c' ++ [psi'], p') /\
    (fst (rand_scalar R st) <> fzero -> ek_X_0 ek <> gzero -> c_0' <> c_0) /\
    verify_commitment_and_proof (Ciphertext c_0' c' psi') p' pvk (prepare_ek ek) (prepare_gens gens) = Ok tt /\
    forall shares, Forall2 (share_of gens c_0' c' ekd) (map fst parties) shares ->
    exists g_r cs, reencrypt c' shares = Ok (g_r :: cs) /\ decrypt_to_chunks_after_re_encryption pf g_r cs skd g_i b' = Ok m.
Proof.
  intros pf E B circ gens pk g_i b b' parties ek R m c_0 c psi r p st skd ekd HB Hs Hg Hd He pvk Hv Hdest Hnz Hb HF Hm.
  assert (Hk : honest_key b gens g_i (gpk_delta_g1 (pk_pk pk)) (pk_gamma_g1 pk) ek) by (right; exists parties; exact Hd).
  pose proof He as He2. apply encrypts_inv in He2. destruct He2 as (n & Hw & Lm & Lg & Ect).
  assert (Lc : length c = n).
  { apply (f_equal (@length _)) in Ect. unfold ct_vec, ct_formula in Ect. cbn [ct_X_r ct_enc_chunks ct_commitment length] in Ect. rewrite !app_length in Ect. cbn [length] in Ect.
    unfold body_formula in Ect. rewrite map_length, seq_length in Ect. lia. }
  assert (LX : length (ek_X ek) = n) by (destruct Hw as (_ & X & _); exact X).
  destruct (C54_ciphertext_and_proof_rerandomization E B circ gens pk g_i b ek R c_0 c psi p st HB Hs Hg Hk ltac:(lia)) as (c_0' & c' & psi' & p' & H1 & H2 & _ & H4).
  exists c_0', c', psi', p'. split; [exact H1|]. split; [|split; [exact (H4 Hv)|]].
  - intros Hr HX Y. rewrite Y in H2. assert (Z : fst (rand_scalar R st) [*] ek_X_0 ek = gzero).
    { apply (gadd_cancel_l c_0). rewrite <- H2, gadd_0_r. reflexivity. }
    apply smul_eq_zero in Z. destruct Z; contradiction.
  - intros shares Hsh.
    assert (He' : encrypts ek g_i m (c_0' :: c' ++ [psi']) (fadd r (fst (rand_scalar R st)))).
    { unfold shift_with_proof in H1. apply bind_Ok_inv in H1. destruct H1 as ([[z r'] st'] & Hz & H1). apply bind_Ok_inv in H1. destruct H1 as (ct' & Ha & H1). injection H1 as -> _.
      assert (Hz' : encrypts ek g_i (repeat 0 (length c)) z r') by (exists R, st, st'; exact Hz).
      destruct (C25_add_is_encryption_of_sum E ek g_i m _ _ z r r' He Hz') as (ct & Ha' & Hct). rewrite Ha in Ha'. injection Ha' as <-.
      assert (Er : r' = fst (rand_scalar R st)).
      { rewrite (encrypt_chunks_ok R (repeat 0 (length c)) ek g_i st) in Hz; try (rewrite repeat_length; lia); try (destruct Hw as (A & B' & C & D); lia). injection Hz as _ <- _. reflexivity. }
      rewrite <- Er. replace m with (chunk_add m (repeat 0 (length c))) at 1; [exact Hct|].
      rewrite Lc, <- Lm. clear. induction m as [|x m IH]; [reflexivity|]. cbn [length repeat]. unfold chunk_add in *. cbn [combine map fst snd]. rewrite IH, Z.add_0_r. reflexivity. }
    exact (C28_re_encryption_delivers pf E b b' gens g_i _ _ parties ek m c_0' c' psi' _ skd ekd shares Hd He' Hdest Hsh Hnz Hb HF Hm).
Qed.

(* a concrete case: three parties, any message and coins, on the SRS of PropGroth16Cases.v *)
Lemma x_G : eg_G x_gens <> gzero.
Proof. intros H. apply (f_equal sval) in H. vm_compute in H. discriminate H. Qed.
Lemma y_dkg_accepted (pf : profile) (msg : Fr E61) (st : list (Fr E61)) : exists pk g_i parties ek m c_0 c psi r p,
  from_srs (y_backend pf) y_circ x_gens pk /\ get_gs_for_encryption (gpk_vk (pk_pk pk)) = Ok g_i /\ length parties = 3%nat /\
  from_dkg 16 x_gens g_i (gpk_delta_g1 (pk_pk pk)) (pk_gamma_g1 pk) parties ek /\ encrypts ek g_i m (c_0 :: c ++ [psi]) r /\
  verify_commitment_and_proof (Ciphertext c_0 c psi) p (prepare_verifying_key (gpk_vk (pk_pk pk))) (prepare_ek ek) (prepare_gens x_gens) = Ok tt /\
  Forall (fun x => x <> gzero) (firstn (length m) g_i) /\ Forall (fun z => 0 <= z /\ fits 16 z) m /\ ek_X_0 ek <> gzero /\ length m = 4%nat.
Proof.
  destruct (y_setup pf) as (pk & ek0 & g_i & _ & Hg & Hl & _ & Hsrs & Hnd). destruct y_conditions as (C1 & C2 & C3 & C4).
  set (parties := map (y_party x_gens g_i (gpk_delta_g1 (pk_pk pk)) (pk_gamma_g1 pk)) [10; 20; 30]).
  assert (Hp : Forall (from_partial 16 x_gens g_i (gpk_delta_g1 (pk_pk pk)) (pk_gamma_g1 pk)) parties).
  { unfold parties. rewrite Forall_map. apply Forall_forall. intros a _. exists (replay_rng E61), (range61 a 4 ++ (nz61 (a + 500) :: range61 (a + 600) 4) ++ []), [].
    apply (partial_replay 16 x_gens g_i _ _ 4); [exact y_count|lia|apply range61_length|apply range61_length]. }
  assert (Hne : parties <> []) by discriminate.
  pose proof (dkg_formula 16 x_gens g_i _ _ parties 4 y_count Hne Hp) as Hd.
  assert (HB : backend_correct (y_backend pf)) by (apply ark_backend_correct; exact y_domain_ok).
  set (ek := ek_formula x_gens g_i _ _ _ _ _) in Hd.
  assert (Hdk : from_dkg 16 x_gens g_i (gpk_delta_g1 (pk_pk pk)) (pk_gamma_g1 pk) parties ek) by exact (conj Hne (conj Hp Hd)).
  destruct (with_proof_any_key pf E61 (y_backend pf) (replay_rng E61) 16 (BitsizeCheckCircuit 16 4 None true) x_gens pk g_i ek msg st
    HB C1 C2 (conj C3 C4)) as ([c_0 c psi] & r & p & st1 & st2 & Hwp & Henc & Hv); [unfold circuit_new; rewrite y_count; reflexivity|exact Hsrs|exact Hg|right; exists parties; exact Hdk|].
  destruct (decompose_spec pf K61 msg 16 C1) as (m & Hdm & Hmr & _ & _).
  assert (He : encrypts ek g_i m (c_0 :: c ++ [psi]) r).
  { apply encrypt_inv in Henc. destruct Henc as (ds & Hds & Henc). rewrite Hdm in Hds. injection Hds as <-. exists (replay_rng E61), st, st1. exact Henc. }
  destruct (compatible_count pf 16 msg m C1 (conj C3 C4) Hdm) as [Hcnt _]. rewrite y_count in Hcnt. injection Hcnt as Lm. assert (Lm4 : length m = 4%nat) by lia.
  exists pk, g_i, parties, ek, m, c_0, c, psi, r, p. split; [exact Hsrs|]. split; [exact Hg|]. split; [reflexivity|]. split; [exact Hdk|]. split; [exact He|]. split; [exact Hv|].
  split; [|split; [|split; [|exact Lm4]]].
  - destruct Hnd as [_ Hnd]. unfold get_gs_for_encryption, slice_from in Hg. destruct (Nat.leb 1 (length (vk_gamma_abc_g1 (gpk_vk (pk_pk pk))))); [|discriminate Hg].
    assert (A : skipn 1 (vk_gamma_abc_g1 (gpk_vk (pk_pk pk))) = g_i) by congruence. rewrite A in Hnd. change (length (dk_V_2 y_dk)) with 4%nat in Hnd. rewrite Lm4. exact Hnd.
  - eapply Forall_impl; [|exact Hmr]. cbn. intros z Hz. unfold fits. lia.
  - change (ek_X_0 ek) with (gpk_delta_g1 (pk_pk pk)). destruct Hsrs as (R & s & s' & Hs). apply generate_srs_ok in Hs; [|exact HB]. destruct Hs as [Hs _].
    destruct Hs as (ga & de & _ & Hde & _ & _ & Hdel & _). rewrite Hdel. intros Z. apply smul_eq_zero in Z. destruct Z as [Z|Z]; [contradiction|exact (x_G Z)].
Qed.
Example C70_case (pf pf' : profile) (msg : Fr E61) (st st' : list (Fr E61)) : exists pk g_i (parties : list (secret_key_st E61 * ek_partial E61)) ek m r c_0 c psi p c_0' c' psi' p',
  encrypts ek g_i m (c_0 :: c ++ [psi]) r /\ length parties = 3%nat /\
  shift_with_proof (replay_rng E61) ek g_i (repeat 0 (length c)) (c_0 :: c ++ [psi]) p (nz61 77 :: st') = Ok (c_0' :: c' ++ [psi'], p') /\ c_0' <> c_0 /\
  verify_commitment_and_proof (Ciphertext c_0' c' psi') p' (prepare_verifying_key (gpk_vk (pk_pk pk))) (prepare_ek ek) (prepare_gens x_gens) = Ok tt /\
  forall shares, Forall2 (share_of x_gens c_0' c' x_ekd) (map fst parties) shares ->
    exists g_r cs, reencrypt c' shares = Ok (g_r :: cs) /\ decrypt_to_chunks_after_re_encryption pf' g_r cs x_skd g_i 16 = Ok m.
Proof.
  destruct (y_dkg_accepted pf msg st) as (pk & g_i & parties & ek & m & c_0 & c & psi & r & p & Hs & Hg & L3 & Hd & He & Hv & Hnz & Hm & HX & Lm).
  assert (HB : backend_correct (y_backend pf)) by (apply ark_backend_correct; exact y_domain_ok).
  assert (HF : field_holds K61 16) by (left; destruct y_conditions as (_ & C2 & _); exact C2).
  destruct (C70_checked_requests_open_another_ciphertext pf' E61 (y_backend pf) y_circ x_gens pk g_i 16 16 parties ek (replay_rng E61) m c_0 c psi r p (nz61 77 :: st') x_skd x_ekd
    HB Hs Hg Hd He Hv x_dest Hnz ltac:(lia) HF Hm) as (c_0' & c' & psi' & p' & H1 & H2 & H3 & H4).
  exists pk, g_i, parties, ek, m, r, c_0, c, psi, p, c_0', c', psi', p'. split; [exact He|]. split; [exact L3|]. split; [exact H1|]. split; [|split; [exact H3|exact H4]].
  apply H2; [|exact HX]. intros H. apply (f_equal sval) in H. vm_compute in H. discriminate H.
Qed.
