(* PropReceipt.v -- C90: whoever encrypts can prove to others what it encrypted: the randomness encrypt returns is a receipt *)
From Verif Require Import Base BaseFacts Algebra Utils UtilsFacts Setup Keygen KeygenFacts Encryption
  EncryptFacts DecryptFacts RoundTrip VerifyFacts Spec KeySpec VecFacts CommitmentFacts Circuit Groth16 Protocol ReencFacts DistFacts Instance Examples PropUtils PropEnc PropVerify PropMalleable ArkGroth16 Groth16Spec PropGroth16 PropGroth16More.

(* What anybody can check who is shown a message and a scalar: encrypt the message again, with a random number generator that returns just this
   scalar, and compare all of the ciphertext.  Only the public key and the generators are used. *)
Definition receipt {E} (pf : profile) (ek : encryption_key E) (g_i : list (G1 E)) (b : Z) (ct : ciphertext E) (msg r : Fr E) : Prop :=
  encrypt pf (replay_rng E) msg ek g_i b [r] = Ok (ct, r, []).

Section Proofs.
Context {E : pairing}.
Add Ring Kr : (@scalar_ring_theory (K_of E)).

(* debug and release builds decompose alike *)
Lemma decompose_both pf pf' (msg : Fr E) b ds : decompose pf msg b = Ok ds ->
  supported b /\ decompose pf' msg b = Ok ds /\ digits_ok b ds /\ compose pf' ds b = Ok msg.
Proof.
  intros H. assert (Hb : supported b).
  { unfold supported. destruct (Z.eq_dec b 4), (Z.eq_dec b 8), (Z.eq_dec b 16); try tauto.
    rewrite (decompose_unsupported pf (K_of E) msg b) in H by (unfold supported; tauto). discriminate. }
  split; [exact Hb|]. assert (Hp : decompose pf' msg b = Ok ds).
  { destruct (decompose_spec pf (K_of E) msg b Hb) as (d1 & Hd1 & Hok1 & Hv1 & Hl1). rewrite H in Hd1. injection Hd1 as <-.
    destruct (C02_decompose_is_radix_representation pf' (K_of E) msg b Hb) as (d2 & Hd2 & Hok2 & Hv2 & Hl2 & Hu). rewrite Hd2. f_equal. symmetry. apply Hu; [exact Hok1| |exact Hv1].
    pose proof (supported_pos b Hb). nia. }
  split; [exact Hp|].
  destruct (decompose_spec pf (K_of E) msg b Hb) as (ds' & Hd & Hok & _). rewrite H in Hd. injection Hd as <-. split; [exact Hok|].
  destruct (C01_decompose_compose_round_trip pf' pf' (K_of E) msg b Hb) as (ds' & Hd & Hc). rewrite Hp in Hd. injection Hd as <-. exact Hc.
Qed.
Lemma receipt_chunks pf ek g_i b (ct : ciphertext E) msg r : receipt pf ek g_i b ct msg r <-> exists ds, decompose pf msg b = Ok ds /\ encrypts ek g_i ds (ct_vec ct) r.
Proof.
  unfold receipt. split.
  - intros H. apply encrypt_inv in H. destruct H as (ds & Hd & H). exists ds. split; [exact Hd|]. eexists _, _, _; exact H.
  - intros (ds & Hd & H). apply encrypts_inv in H. destruct H as (n & Hw & Hl & Hg & Hct).
    unfold encrypt. rewrite Hd. cbn [bind]. rewrite (encrypts_intro n ek g_i ds r Hw Hl Hg). cbn [bind]. rewrite <- Hct, ct_of_vec_ct_vec. reflexivity.
Qed.
Lemma ct_vec_inj (a c : ciphertext E) : ct_vec a = ct_vec c -> a = c.
Proof. intros H. apply (f_equal ct_of_vec) in H. rewrite !ct_of_vec_ct_vec in H. injection H as H. exact H. Qed.

Lemma add_keeps (r r' : Fr E) : r = fadd r r' <-> r' = fzero.
Proof. split; [|intros ->; ring]. intros H. replace r' with (fsub (fadd r r') r) by ring. rewrite <- H. ring. Qed.

End Proofs.

(* Whatever random number generator was used: the randomness encrypt returned is a receipt for the message; so it is for encrypt_given_snark_vk
   and for the ciphertext that comes with a proof, whatever the implementation of Groth16. *)
Theorem C90_the_returned_randomness_is_a_receipt :
  forall (pf pf' : profile) (E : pairing) (R : rng_impl E) b g_i (ek : encryption_key E) (msg r : Fr E) (st st' : rng_st R) ct,
  (encrypt pf R msg ek g_i b st = Ok (ct, r, st') -> receipt pf' ek g_i b ct msg r) /\
  (forall vk, get_gs_for_encryption vk = Ok g_i -> encrypt_given_snark_vk pf R msg ek vk b st = Ok (ct, r, st') -> receipt pf' ek g_i b ct msg r) /\
  (forall (B : groth16_backend E) pk p, get_gs_for_encryption (gpk_vk (pk_pk pk)) = Ok g_i -> encrypt_with_proof pf B R msg ek pk b st = Ok (ct, r, p, st') ->
     receipt pf' ek g_i b ct msg r).
Proof.
  intros pf pf' E R b g_i ek msg r st st' ct.
  assert (X : forall s', encrypt pf R msg ek g_i b st = Ok (ct, r, s') -> receipt pf' ek g_i b ct msg r).
  { intros s' H. apply encrypt_inv in H. destruct H as (ds & Hd & H). apply receipt_chunks. exists ds. split; [exact (proj1 (proj2 (decompose_both pf pf' msg b ds Hd)))|].
    exists R, st, s'. exact H. }
  split; [exact (X st')|]. split.
  - intros vk Hg H. unfold encrypt_given_snark_vk in H. rewrite Hg in H. exact (X st' H).
  - intros B pk p Hg H. unfold encrypt_with_proof in H. rewrite Hg in H. cbn [bind] in H.
    destruct (encrypt pf R msg ek g_i b st) as [[[ct1 r1] s1]|e|] eqn:He; cbn [bind] in H; try discriminate.
    destruct (decompose pf msg b) as [d|e|]; cbn [bind] in H; try discriminate. destruct (circuit_new b None _ true) as [ci|e|]; cbn [bind] in H; try discriminate.
    destruct (create_proof _ _ _ _ _ _ _) as [[p2 s2]|e|]; cbn [bind] in H; try discriminate. injection H as <- <- _ _. exact (X s1 eq_refl).
Qed.

(* Receipts do not lie.  Whoever made the ciphertext, and however: if the check succeeds, the ciphertext is accepted by verify_commitment and
   decrypts to the message of the receipt, under every key pair with this encryption key. *)
Theorem C90_receipts_are_true :
  forall (pf : profile) (E : pairing) b g_i (ek : encryption_key E) ct (msg r : Fr E), receipt pf ek g_i b ct msg r -> 2 ^ b <= modulus (K_of E) ->
  (forall gens delta gamma sk dk, from_keygen b gens g_i delta gamma sk ek dk ->
     verify_commitment ct (prepare_ek ek) (prepare_gens gens) = Ok tt /\
     (nondegenerate dk g_i (length (dk_V_2 dk)) -> forall pf', exists nu, ct_decrypt pf' ct sk (prepare_dk dk) g_i b = Ok (msg, nu))) /\
  (* nobody has receipts for two messages, or two receipts for one: this needs no assumption on how the key was made *)
  (ek_X_0 ek <> gzero -> Forall (fun x => x <> gzero) (firstn (length (ek_X ek)) g_i) -> forall pf' msg' r', receipt pf' ek g_i b ct msg' r' -> msg' = msg /\ r' = r).
Proof.
  intros pf E b g_i ek ct msg r H HM. split.
  - intros gens delta gamma sk dk Hk. split.
    + apply (C19_honest_message_ciphertexts_verify pf E (replay_rng E) b b gens g_i delta gamma ek msg [r] ct r []); [left; exists sk, dk; exact Hk|exact H].
    + intros Hn pf'. apply receipt_chunks in H as H'. destruct H' as (ds & Hd & _). destruct (decompose_both pf pf msg b ds Hd) as (Hb & _).
      exact (C12_message_round_trip_any_field pf pf' E (replay_rng E) b gens g_i delta gamma sk ek dk msg [r] ct r [] Hb HM Hk Hn H).
  - intros HX Hg pf' msg' r' H'. apply receipt_chunks in H, H'. destruct H as (ds & Hd & H). destruct H' as (ds' & Hd' & H').
    destruct (decompose_both pf pf msg b ds Hd) as (Hb & _ & Hok & Hc). destruct (decompose_both pf' pf msg' b ds' Hd') as (_ & _ & Hok' & Hc').
    assert (L : length ds = length (ek_X ek)) by (apply encrypts_inv in H; destruct H as (n & (_ & A & _) & B & _); congruence).
    assert (Rg : forall l, digits_ok b l -> Forall (fun z => 0 <= z < modulus (K_of E)) l).
    { intros l Hl. eapply Forall_impl; [|exact Hl]. cbn beta. intros z Hz. lia. }
    destruct (C48_ciphertext_determines_chunks_and_randomness E ek g_i ds ds' (ct_vec ct) r r' H H' HX) as [-> ->]; [rewrite L; exact Hg|exact (Rg _ Hok)|exact (Rg _ Hok')|].
    rewrite Hc in Hc'. injection Hc' as <-. split; reflexivity.
Qed.

(* The remedy: somebody else re-randomizes the ciphertext.  There is exactly one receipt for the result, for the same message: the sum of both
   scalars.  So the client's own receipt is rejected unless the scalar drawn was 0, and a scalar named beforehand is the receipt for one draw only. *)
Theorem C90_rerandomization_voids_receipts :
  forall (pf : profile) (E : pairing) (R : rng_impl E) b g_i (ek : encryption_key E) ct (msg r : Fr E) (st : rng_st R), receipt pf ek g_i b ct msg r -> 2 ^ b <= modulus (K_of E) ->
  ek_X_0 ek <> gzero -> Forall (fun x => x <> gzero) (firstn (length (ek_X ek)) g_i) ->
  exists c_0' c' psi', rerandomize R ek g_i (ct_X_r ct :: ct_enc_chunks ct ++ [ct_commitment ct]) st = Ok (c_0' :: c' ++ [psi']) /\
    (forall pf' msg' r', receipt pf' ek g_i b (Ciphertext c_0' c' psi') msg' r' <-> msg' = msg /\ r' = fadd r (fst (rand_scalar R st))) /\
    (receipt pf ek g_i b (Ciphertext c_0' c' psi') msg r <-> fst (rand_scalar R st) = fzero).
Proof.
  intros pf E R b g_i ek ct msg r st H HM HX Hg. change (ct_X_r ct :: ct_enc_chunks ct ++ [ct_commitment ct]) with (ct_vec ct).
  apply receipt_chunks in H as H0. destruct H0 as (ds & Hd & He). destruct (decompose_both pf pf msg b ds Hd) as (Hb & _ & Hok & Hc).
  set (r' := fst (rand_scalar R st)). set (n := length ds).
  pose proof He as Hi. apply encrypts_inv in Hi. destruct Hi as (n' & Hw & Hl & Hgl & Hct). subst n'.
  assert (Hl2 : (length (ct_vec ct) - 2)%nat = n).
  { unfold ct_vec. rewrite flat_length. apply ct_vec_inj in Hct. rewrite Hct. unfold ct_formula; cbn [ct_enc_chunks]. apply body_formula_length. }
  assert (Hz : encrypt_decomposed_message R (repeat 0 n) ek g_i st = Ok (ct_vec (ct_formula ek g_i (repeat 0 n) r'), r', snd (rand_scalar R st))).
  { destruct Hw as (H256 & LX & LY & LZ). apply encrypt_chunks_ok; rewrite ?repeat_length; unfold n; lia. }
  assert (Hz' : encrypts ek g_i (repeat 0 n) (ct_vec (ct_formula ek g_i (repeat 0 n) r')) r') by (eexists _, _, _; exact Hz).
  destruct (add_is_encryption_of_sum ek g_i ds (repeat 0 n) _ _ r r' He Hz') as (w & W & W'). rewrite chunk_add_0_r in W' by reflexivity.
  assert (Hw' : encrypts ek g_i ds w (fadd r r')) by (eexists _, _, _; exact W').
  pose proof Hw' as Hi. apply encrypts_inv in Hi. destruct Hi as (_ & _ & _ & _ & Ew).
  set (q := ct_formula ek g_i ds (fadd r r')) in *. exists (ct_X_r q), (ct_enc_chunks q), (ct_commitment q).
  split; [unfold rerandomize; rewrite Hl2, Hz; cbn [bind]; rewrite W, Ew; reflexivity|].
  change (Ciphertext (ct_X_r q) (ct_enc_chunks q) (ct_commitment q)) with q.
  assert (Hr : forall pf', receipt pf' ek g_i b q msg (fadd r r')).
  { intros pf'. apply receipt_chunks. exists ds. split; [exact (proj1 (proj2 (decompose_both pf pf' msg b ds Hd)))|]. rewrite <- Ew. exact Hw'. }
  assert (X : forall pf' msg' r'', receipt pf' ek g_i b q msg' r'' <-> msg' = msg /\ r'' = fadd r r').
  { intros pf' msg' r''. split; [|intros [-> ->]; apply Hr]. intros H'.
    exact (proj2 (C90_receipts_are_true pf E b g_i ek q msg (fadd r r') (Hr pf) HM) HX Hg pf' msg' r'' H'). }
  split; [exact X|]. rewrite X, add_keeps. tauto.
Qed.

(* The same for ballots with proofs (C54): the mixed ballot is accepted as the original one was, and its only receipt is the sum of both scalars. *)
Theorem C90_mixing_voids_receipts_of_ballots :
  forall (pf : profile) (E : pairing) (B : groth16_backend E) circ gens pk g_i b sk ek dk (R R' : rng_impl E) (msg r : Fr E) st st' ct p stm,
  backend_correct B -> from_srs B circ gens pk -> get_gs_for_encryption (gpk_vk (pk_pk pk)) = Ok g_i ->
  from_keygen b gens g_i (gpk_delta_g1 (pk_pk pk)) (pk_gamma_g1 pk) sk ek dk -> gpk_delta_g1 (pk_pk pk) <> gzero -> Forall (fun x => x <> gzero) (firstn (length (ek_X ek)) g_i) -> 2 ^ b <= modulus (K_of E) ->
  encrypt_with_proof pf B R msg ek pk b st = Ok (ct, r, p, st') ->
  let pvk := prepare_verifying_key (gpk_vk (pk_pk pk)) in
  exists c_0' c' psi' p', shift_with_proof R' ek g_i (repeat 0 (length (ct_enc_chunks ct))) (ct_X_r ct :: ct_enc_chunks ct ++ [ct_commitment ct]) p stm = Ok (c_0' :: c' ++ [psi'], p') /\
    (verify_commitment_and_proof ct p pvk (prepare_ek ek) (prepare_gens gens) = Ok tt ->
     verify_commitment_and_proof (Ciphertext c_0' c' psi') p' pvk (prepare_ek ek) (prepare_gens gens) = Ok tt) /\
    (forall pf' msg' r', receipt pf' ek g_i b (Ciphertext c_0' c' psi') msg' r' <-> msg' = msg /\ r' = fadd r (fst (rand_scalar R' stm))).
Proof.
  intros pf E B circ gens pk g_i b sk ek dk R R' msg r st st' ct p stm HB Hs Hg Hk Hdel Hgi HM He pvk.
  pose proof (proj2 (proj2 (C90_the_returned_randomness_is_a_receipt pf pf E R b g_i ek msg r st st' ct)) B pk p Hg He) as Hr.
  assert (HX : ek_X_0 ek <> gzero) by (apply from_keygen_inv in Hk; destruct Hk as (n & s & t0 & t & v & _ & _ & _ & _ & _ & _ & Hek & _); rewrite Hek; exact Hdel).
  destruct (C90_rerandomization_voids_receipts pf E R' b g_i ek ct msg r stm Hr HM HX Hgi) as (x0 & x & xs & Hx & Hrec & _).
  assert (Hc : length (ct_enc_chunks ct) = length (ek_X ek)).
  { apply receipt_chunks in Hr. destruct Hr as (ds & _ & Hr). apply encrypts_inv in Hr. destruct Hr as (n & (_ & LX & _) & Hl & _ & Hct). apply ct_vec_inj in Hct.
    rewrite Hct. unfold ct_formula; cbn [ct_enc_chunks]. rewrite body_formula_length. congruence. }
  assert (Hh : honest_key b gens g_i (gpk_delta_g1 (pk_pk pk)) (pk_gamma_g1 pk) ek) by (left; exists sk, dk; exact Hk).
  destruct (C54_ciphertext_and_proof_rerandomization E B circ gens pk g_i b ek R' (ct_X_r ct) (ct_enc_chunks ct) (ct_commitment ct) p stm HB Hs Hg Hh Hc) as (c_0' & c' & psi' & p' & H1 & _ & _ & H2).
  exists c_0', c', psi', p'. split; [exact H1|]. split; [destruct ct; exact H2|].
  assert (Hsame : Ok (x0 :: x ++ [xs]) = Ok (c_0' :: c' ++ [psi'])).
  { rewrite <- Hx. unfold rerandomize. rewrite flat_length. unfold shift_with_proof in H1.
    destruct (encrypt_decomposed_message R' _ ek g_i stm) as [[[z r1] s1]|e|]; cbn [bind] in *; try discriminate.
    destruct (add_cts _ z) as [w|e|]; cbn [bind] in *; try discriminate. injection H1 as <- _. reflexivity. }
  injection Hsame as -> Hxs. apply app_inj_tail in Hxs. destruct Hxs as [-> ->]. exact Hrec.
Qed.

(* So votes can be sold: a client that gives away the randomness of its ballot convinces everybody of its vote, and it cannot cheat -- it has no
   receipt for any other message, whatever it does. *)
Theorem C90_receipt_freeness_refuted :
  forall (pf : profile) (E : pairing) (R : rng_impl E) b g_i gens delta gamma sk dk (ek : encryption_key E) (msg : Fr E) (st : rng_st R),
  supported b -> 2 ^ b <= modulus (K_of E) -> 64 * Z.of_nat (limbs (K_of E)) - b < modulus_bit_size (K_of E) -> 64 * Z.of_nat (limbs (K_of E)) < 256 * b ->
  from_keygen b gens g_i delta gamma sk ek dk -> nondegenerate dk g_i (length (dk_V_2 dk)) -> delta <> gzero ->
  exists ct r st', encrypt pf R msg ek g_i b st = Ok (ct, r, st') /\ forall pf' msg' r', receipt pf' ek g_i b ct msg' r' <-> msg' = msg /\ r' = r.
Proof.
  intros pf E R b g_i gens delta gamma sk dk ek msg st Hb HM Hc1 Hc2 Hk Hn Hdel.
  destruct (encrypt_outcome pf R b gens g_i delta gamma sk ek dk msg st Hk Hb (conj Hc1 Hc2)) as (ct & r & st' & He & _). exists ct, r, st'. split; [exact He|].
  assert (Hr : forall pf', receipt pf' ek g_i b ct msg r) by (intros pf'; exact (proj1 (C90_the_returned_randomness_is_a_receipt pf pf' E R b g_i ek msg r st st' ct) He)).
  intros pf' msg' r'. split; [|intros [-> ->]; apply Hr]. intros H'.
  apply from_keygen_inv in Hk. destruct Hk as (n & s & t0 & t & v & _ & Hg & Hlt & Hs & _ & Hv & Hek & Hdk).
  apply (proj2 (C90_receipts_are_true pf E b g_i ek ct msg r (Hr pf) HM)) with (pf' := pf'); [rewrite Hek; exact Hdel| |exact H'].
  destruct Hn as [_ Hn]. rewrite Hdk in Hn. rewrite Hek. unfold dk_formula, ek_formula in *. cbn [dk_V_2 ek_X] in *. rewrite map_length in *. replace (length s) with (length v) by lia. exact Hn.
Qed.

(* ----- concrete cases ----- *)
Example C90_case : exists ct, receipt Debug x_ek x_gi 4 ct (of_Z 3000000000) x_r1 /\ ek_X_0 x_ek <> gzero /\ Forall (fun x => x <> gzero) (firstn (length (ek_X x_ek)) x_gi) /\ 2 ^ 4 <= modulus (K_of E61) /\
  ~ receipt Release x_ek x_gi 4 ct (of_Z 3000000001) x_r1.
Proof.
  assert (HX : ek_X_0 x_ek <> gzero) by (intros H; apply (f_equal sval) in H; vm_compute in H; discriminate H).
  assert (Hg : Forall (fun x => x <> gzero) (firstn (length (ek_X x_ek)) x_gi)) by exact (proj2 x_nondegenerate).
  assert (HM : 2 ^ 4 <= modulus (K_of E61)) by (vm_compute; discriminate).
  destruct (encrypt_outcome Debug (replay_rng E61) 4 x_gens x_gi x_delta x_gamma x_rho x_ek x_dk (of_Z 3000000000) [x_r1] x_keygen) as (ct & r & st' & He & Hr); [left; reflexivity|vm_compute; auto|].
  injection Hr as -> ->. exists ct.
  assert (Hrc : receipt Debug x_ek x_gi 4 ct (of_Z 3000000000) x_r1) by exact He.
  repeat split; [exact Hrc|exact HX|exact Hg|exact HM|]. intros H. destruct (proj2 (C90_receipts_are_true _ _ _ _ _ _ _ _ Hrc HM) HX Hg _ _ _ H) as [A _].
  apply (f_equal sval) in A. vm_compute in A. discriminate A.
Qed.
