(* PropRobust.v -- C50-C52: which keys are usable, and what one misbehaving party can do. *)
From Verif Require Import Base BaseFacts Algebra Utils UtilsFacts Setup Keygen KeygenFacts Encryption
  EncryptFacts DecryptFacts RoundTrip VerifyFacts Spec KeySpec VecFacts Protocol ReencFacts DistFacts Instance Examples PropEnc PropVerify PropProto.

(* ===== C50 ===== *)
(* The relations between the parts of an encryption key that a ciphertext check relies on; all in public values. *)
Definition consistent_key {E} (gens : encryption_gens E) (g_i : list (G1 E)) (ek : encryption_key E) : Prop :=
  (forall i, (i < length (ek_X ek))%nat ->
     pair (nth i g_i gzero) (prep (nth (S i) (ek_Z ek) gzero)) = pair (nth i (ek_Y ek) gzero) (prep (eg_H gens))) /\
  pair (ek_X_0 ek) (prep (nth 0 (ek_Z ek) gzero)) [+]
    gsum (map (fun i => pair (nth i (ek_X ek) gzero) (prep (nth (S i) (ek_Z ek) gzero))) (seq 0 (length (ek_X ek)))) =
  pair (ek_P_1 ek) (prep (eg_H gens)).

Section Robust.
Context {E : pairing}.
Add Ring Kr : (@scalar_ring_theory (K_of E)).

(* the defect of an encryption under an arbitrary well-shaped key is linear in r and in the chunks *)
Definition key_defect (gens : encryption_gens E) (ek : encryption_key E) : GT E :=
  (pair (ek_X_0 ek) (prep (nth 0 (ek_Z ek) gzero)) [+]
   gsum (map (fun i => pair (nth i (ek_X ek) gzero) (prep (nth (S i) (ek_Z ek) gzero))) (seq 0 (length (ek_X ek))))) [+]
  [-] pair (ek_P_1 ek) (prep (eg_H gens)).
Definition chunk_defect (gens : encryption_gens E) (g_i : list (G1 E)) (ek : encryption_key E) (i : nat) : GT E :=
  pair (nth i g_i gzero) (prep (nth (S i) (ek_Z ek) gzero)) [+] [-] pair (nth i (ek_Y ek) gzero) (prep (eg_H gens)).

Lemma gsum_map_neg {A} (f : A -> GT E) l : gsum (map (fun x => [-] f x) l) = [-] gsum (map f l).
Proof. induction l as [|a l IH]; cbn [map]; [rewrite gsum_nil, gneg_0; reflexivity|]. rewrite !gsum_cons, IH, gneg_add. reflexivity. Qed.
Lemma gsum_map_smul' {A} (a : Fr E) (f : A -> GT E) l : gsum (map (fun x => a [*] f x) l) = a [*] gsum (map f l).
Proof. rewrite <- gsum_smul, map_map. reflexivity. Qed.
Lemma pair_gsum_l {A} (f : A -> G1 E) l (q : G2 E) : pair (gsum (map f l)) (prep q) = gsum (map (fun x => pair (f x) (prep q)) l).
Proof. induction l as [|a l IH]; cbn [map]; [rewrite !gsum_nil; apply pair_zero_l|]. rewrite !gsum_cons, pair_add_l, IH. reflexivity. Qed.

Lemma defect_linear gens g_i (ek : encryption_key E) m r n : wf_key n ek -> length m = n -> (n <= length g_i)%nat ->
  defect ek gens (ct_formula ek g_i m r) =
  (r [*] key_defect gens ek) [+] gsum (map (fun i => of_Z (nth i m 0) [*] chunk_defect gens g_i ek i) (seq 0 n)).
Proof.
  intros (_ & LX & LY & LZ) Hm Hg. unfold defect, ct_formula. cbn [ct_X_r ct_enc_chunks ct_commitment].
  destruct (ek_Z ek) as [|z0 zs] eqn:EZ; [cbn in LZ; lia|]. cbn [pdot].
  rewrite (pdot_as_gsum _ zs n) by (rewrite ?body_formula_length; cbn [length] in LZ; lia).
  assert (A : gsum (map (fun j => pair (nth j (body_formula (ek_X ek) g_i m r) gzero) (prep (nth j zs gzero))) (seq 0 n)) =
     (r [*] gsum (map (fun i => pair (nth i (ek_X ek) gzero) (prep (nth i zs gzero))) (seq 0 n))) [+]
     gsum (map (fun i => of_Z (nth i m 0) [*] pair (nth i g_i gzero) (prep (nth i zs gzero))) (seq 0 n))).
  { rewrite <- gsum_map_smul', <- gsum_map_add. f_equal. apply map_ext_in. intros i Hi. apply in_seq in Hi.
    rewrite body_formula_nth by lia. rewrite pair_add_l, !pair_smul_l. reflexivity. }
  rewrite A. unfold psi_formula. rewrite (dot_as_gsum (map of_Z m) (ek_Y ek) n) by (rewrite map_length; exact Hm).
  assert (B : map (fun i => nth i (map of_Z m) fzero [*] nth i (ek_Y ek) gzero) (seq 0 n) = map (fun i => of_Z (nth i m 0) [*] nth i (ek_Y ek) gzero) (seq 0 n)).
  { apply map_ext_in. intros i Hi. apply in_seq in Hi. rewrite (nth_map_default of_Z m i 0 fzero) by reflexivity. reflexivity. }
  rewrite B, !pair_add_l, pair_gsum_l, !pair_smul_l.
  assert (C : gsum (map (fun i => of_Z (nth i m 0) [*] chunk_defect gens g_i ek i) (seq 0 n)) =
     gsum (map (fun i => of_Z (nth i m 0) [*] pair (nth i g_i gzero) (prep (nth i zs gzero))) (seq 0 n)) [+]
     [-] gsum (map (fun i => pair (of_Z (nth i m 0) [*] nth i (ek_Y ek) gzero) (prep (eg_H gens))) (seq 0 n))).
  { rewrite <- gsum_map_neg, <- gsum_map_add. f_equal. apply map_ext. intros i. unfold chunk_defect. rewrite EZ. cbn [nth]. rewrite pair_smul_l. glin. }
  rewrite C. unfold key_defect. rewrite EZ, LX. cbn [nth]. glin.
Qed.

Lemma consistent_iff gens g_i (ek : encryption_key E) :
  consistent_key gens g_i ek <-> (forall i, (i < length (ek_X ek))%nat -> chunk_defect gens g_i ek i = gzero) /\ key_defect gens ek = gzero.
Proof.
  unfold consistent_key, chunk_defect, key_defect. split; intros [H1 H2]; split.
  - intros i Hi. rewrite (H1 i Hi). apply gadd_neg_r.
  - rewrite H2. apply gadd_neg_r.
  - intros i Hi. apply gsub_zero_eq, H1; exact Hi.
  - apply gsub_zero_eq, H2.
Qed.

(* the unit chunk vector e_i *)
Definition unit_chunks (n i : nat) : list Z := map (fun j => if Nat.eqb j i then 1 else 0) (seq 0 n).
Lemma unit_chunks_nth n i j : (j < n)%nat -> nth j (unit_chunks n i) 0 = if Nat.eqb j i then 1 else 0.
Proof. intros H. exact (map_seq_nth (fun j => if Nat.eqb j i then 1 else 0) n j 0 H). Qed.
Lemma gsum_unit (f : nat -> GT E) n i : (i < n)%nat ->
  gsum (map (fun j => of_Z (nth j (unit_chunks n i) 0) [*] f j) (seq 0 n)) = f i.
Proof.
  intros Hi. assert (Hq : seq 0 n = seq 0 i ++ i :: seq (S i) (n - i - 1)) by (transitivity (seq 0 (i + S (n - i - 1))); [f_equal; lia|apply seq_app]).
  rewrite Hq, map_app. cbn [map]. unfold gsum at 1. rewrite fold_right_app. cbn [fold_right].
  assert (Z : forall l, (forall j, In j l -> (j < n)%nat /\ j <> i) -> forall x, fold_right gadd x (map (fun j => of_Z (nth j (unit_chunks n i) 0) [*] f j) l) = x).
  { induction l as [|j l IH]; intros Hl x; [reflexivity|]. cbn [map fold_right]. rewrite IH by (intros j' Hj'; apply Hl; right; exact Hj').
    destruct (Hl j (or_introl eq_refl)) as [A B]. rewrite unit_chunks_nth by exact A. destruct (Nat.eqb_spec j i); [contradiction|].
    change (of_Z 0) with (@fzero (K_of E)). rewrite smul_0_l. apply gadd_0_l. }
  rewrite !Z.
  - rewrite unit_chunks_nth by exact Hi. rewrite Nat.eqb_refl. change (of_Z 1) with (@fone (K_of E)). glin.
  - intros j Hj. apply in_seq in Hj. lia.
  - intros j Hj. apply in_seq in Hj. lia.
Qed.
Lemma lin_swap (r : Fr E) (u w y z : GT E) : u [+] [-] (w [+] (r [*] y)) [+] [-] (u [+] [-] (w [+] (r [*] z))) = r [*] (z [+] [-] y).
Proof. glin. Qed.
Lemma lin_shift (a d e : Fr E) (x g : G1 E) : (a [*] x) [+] (d [*] g) [+] (e [*] g) = (a [*] x) [+] (fadd d e [*] g).
Proof. glin. Qed.
End Robust.

(* For every encryption key that passes validate() and has fewer than 256 chunks -- however it was obtained -- all its honest
   ciphertexts are accepted exactly if the key is consistent. *)
Theorem C50_usable_iff_consistent :
  forall (E : pairing) gens g_i (ek : encryption_key E), ek_validate ek = Ok tt -> (length (ek_X ek) < 256)%nat -> (length (ek_X ek) <= length g_i)%nat ->
  ((forall m c_0 c psi r, encrypts ek g_i m (c_0 :: c ++ [psi]) r ->
      verify_ciphertext_commitment c_0 c psi (prepare_ek ek) (prepare_gens gens) = Ok tt) <-> consistent_key gens g_i ek).
Proof.
  intros E gens g_i ek HV H256 Hg.
  assert (Hw : wf_key (length (ek_X ek)) ek).
  { unfold ek_validate, ek_supported_chunks_count, enc_supported_chunks_count in HV.
    destruct (Nat.eqb_spec (length (ek_Y ek)) (length (ek_X ek))) as [HY|]; cbn [negb bind] in HV; [|discriminate HV].
    destruct (Nat.eqb_spec (length (ek_Z ek)) (length (ek_X ek) + 1)) as [HZ|]; cbn [negb bind] in HV; [|discriminate HV].
    repeat split; assumption. }
  set (n := length (ek_X ek)) in *. rewrite consistent_iff. fold n. split.
  - intros H.
    assert (X : forall m r, length m = n -> defect ek gens (ct_formula ek g_i m r) = gzero).
    { intros m r Hm. pose proof (encrypts_intro n ek g_i m r Hw Hm Hg) as He.
      specialize (H m _ _ _ r (ex_intro _ _ (ex_intro _ _ (ex_intro _ _ He)))).
      change (verify_commitment (ct_formula ek g_i m r) (prepare_ek ek) (prepare_gens gens) = Ok tt) in H.
      apply (verify_accept n) in H; [|exact Hw]. exact (proj2 H). }
    split.
    + intros i Hi. specialize (X (unit_chunks n i) fzero). unfold unit_chunks at 1 in X. rewrite map_length, seq_length in X. specialize (X eq_refl).
      rewrite (defect_linear gens g_i ek _ _ n Hw) in X by (unfold unit_chunks; rewrite ?map_length, ?seq_length; lia).
      rewrite gsum_unit, smul_0_l, gadd_0_l in X by exact Hi. exact X.
    + specialize (X (repeat 0 n) fone (repeat_length 0 n)). rewrite (defect_linear gens g_i ek _ _ n Hw) in X by (rewrite ?repeat_length; lia).
      rewrite smul_1_l in X.
      assert (Z : gsum (map (fun i => of_Z (nth i (repeat 0 n) 0) [*] chunk_defect gens g_i ek i) (seq 0 n)) = gzero).
      { rewrite <- (gsum_map_zero (seq 0 n)). f_equal. apply map_ext_in. intros i Hi. apply in_seq in Hi. rewrite nth_repeat_lt by lia. apply smul_0_l. }
      rewrite Z, gadd_0_r in X. exact X.
  - intros [H1 H2] m c_0 c psi r He. apply encrypts_inv in He. destruct He as (n' & Hw' & Hm & _ & Hct).
    assert (Hn : n' = n) by (destruct Hw' as (_ & A & _); unfold n; congruence). rewrite Hn in *; clear Hn Hw' n'.
    apply ct_vec_eq in Hct. destruct Hct as (-> & -> & ->).
    change (verify_commitment (ct_formula ek g_i m r) (prepare_ek ek) (prepare_gens gens) = Ok tt).
    apply (verify_accept n); [exact Hw|]. split; [unfold ct_formula; cbn [ct_enc_chunks]; rewrite body_formula_length; exact Hm|].
    rewrite (defect_linear gens g_i ek m r n Hw Hm Hg), H2, smul_0_r, gadd_0_l.
    rewrite <- (gsum_map_zero (seq 0 n)). f_equal. apply map_ext_in. intros i Hi. apply in_seq in Hi. rewrite H1 by lia. apply smul_0_r.
Qed.
(* validate() does not notice an inconsistent key: an honest key with any other P_1 passes it, and every honest ciphertext with
   randomness other than 0 is rejected *)
Theorem C50_validate_detects_bad_keys_refuted :
  forall (E : pairing) b gens g_i delta gamma (ek : encryption_key E) P, honest_key b gens g_i delta gamma ek -> eg_H gens <> gzero -> P <> ek_P_1 ek ->
  let bad := EncryptionKey (ek_X_0 ek) (ek_X ek) (ek_Y ek) (ek_Z ek) P (ek_P_2 ek) in
  ek_validate bad = Ok tt /\
  forall m c_0 c psi r, encrypts bad g_i m (c_0 :: c ++ [psi]) r ->
    (verify_ciphertext_commitment c_0 c psi (prepare_ek bad) (prepare_gens gens) = Ok tt <-> r = fzero) /\
    (r <> fzero -> verify_ciphertext_commitment c_0 c psi (prepare_ek bad) (prepare_gens gens) = Err InvalidCommitment).
Proof.
  intros E b gens g_i delta gamma ek P Hk HH HP bad. apply honest_key_inv in Hk. destruct Hk as (n & s & t0 & t & Hn & Hg & Hlt & Hs & Ht & Hek).
  pose proof (formula_wf gens g_i delta gamma s t0 t n Hs Ht Hg Hlt) as Hw. rewrite <- Hek in Hw.
  assert (Hw' : wf_key n bad) by exact Hw. pose proof Hw as (_ & LX & LY & LZ).
  split.
  { unfold ek_validate, ek_supported_chunks_count, enc_supported_chunks_count, bad. cbn [ek_X ek_Y ek_Z]. rewrite LX, LY, LZ, !Nat.eqb_refl. reflexivity. }
  intros m c_0 c psi r He. apply encrypts_inv in He. destruct He as (n' & (_ & A & _) & Hm & _ & Hct).
  unfold bad in A; cbn [ek_X] in A. assert (Hn' : n' = n) by congruence. rewrite Hn' in *; clear Hn' A n'.
  apply ct_vec_eq in Hct. destruct Hct as (-> & -> & ->).
  pose proof (honest_verifies gens g_i delta gamma s t0 t m r n Hs Ht Hm Hg Hlt) as V. cbv zeta in V. rewrite <- Hek in V.
  apply (verify_accept n) in V; [|exact Hw]. destruct V as [Lc V].
  assert (D : defect bad gens (ct_formula bad g_i m r) = r [*] pair (ek_P_1 ek [+] [-] P) (prep (eg_H gens))).
  { assert (Q : defect bad gens (ct_formula bad g_i m r) [+] [-] defect ek gens (ct_formula ek g_i m r) = r [*] pair (ek_P_1 ek [+] [-] P) (prep (eg_H gens))).
    { unfold defect, bad, ct_formula, psi_formula. cbn [ct_X_r ct_enc_chunks ct_commitment ek_X ek_X_0 ek_Y ek_Z ek_P_1].
      rewrite !pair_add_l, !pair_smul_l, pair_neg_l. clear. 
      generalize (pdot (r [*] ek_X_0 ek :: body_formula (ek_X ek) g_i m r) (ek_Z ek)). intros u.
      generalize (pair (dot (map of_Z m) (ek_Y ek)) (prep (eg_H gens))), (pair P (prep (eg_H gens))), (pair (ek_P_1 ek) (prep (eg_H gens))). intros w y z.
      apply lin_swap. }
    rewrite V, gneg_0, gadd_0_r in Q. exact Q. }
  assert (Acc : verify_commitment (ct_formula bad g_i m r) (prepare_ek bad) (prepare_gens gens) = Ok tt <-> r = fzero).
  { rewrite (verify_accept n) by exact Hw'. rewrite D. split.
    - intros [_ Z]. apply smul_eq_zero in Z. destruct Z as [Z|Z]; [exact Z|]. exfalso. apply pair_nondeg in Z. destruct Z as [Z|Z]; [|contradiction]. apply HP. symmetry. apply gsub_zero_eq. exact Z.
    - intros ->. split; [unfold ct_formula; cbn [ct_enc_chunks]; rewrite body_formula_length; exact Hm|apply smul_0_l]. }
  split; [exact Acc|]. intros Hr. change (verify_commitment (ct_formula bad g_i m r) (prepare_ek bad) (prepare_gens gens) = Err InvalidCommitment).
  pose proof (verify_wf n (ct_formula bad g_i m r) bad gens Hw') as V'. rewrite V' in *.
  assert (L' : length (ct_enc_chunks (ct_formula bad g_i m r)) = n) by (unfold ct_formula; cbn [ct_enc_chunks]; rewrite body_formula_length; exact Hm).
  rewrite L', Nat.eqb_refl in *. cbn [negb] in *. destruct (gis_zero _); [|reflexivity]. exfalso. apply Hr, Acc. reflexivity.
Qed.

(* ===== C51 ===== *)
(* The distributed key generation with whatever P_1 shares were received. *)
Definition dkg_with_shares {E} (gamma : G1 E) (parties : list (secret_key_st E * ek_partial E)) (shares : list (p1share E)) : outcome (encryption_key E) :=
  ek <- combineEKs gamma (map snd parties) ;;
  p1 <- combineP1share shares ;;
  Ok (keygenFinal ek p1).
(* the shares the parties make when all of them are honest *)
Definition honest_shares {E} (gamma : G1 E) (parties : list (secret_key_st E * ek_partial E)) : outcome (list (p1share E)) :=
  ek <- combineEKs gamma (map snd parties) ;; mapM (fun p => genP1share ek (fst p)) parties.

Lemma dkg_split {E} gamma (parties : list (secret_key_st E * ek_partial E)) : 
  dkg gamma parties = (shares <- honest_shares gamma parties ;; dkg_with_shares gamma parties shares).
Proof. unfold dkg, honest_shares, dkg_with_shares. destruct (combineEKs gamma (map snd parties)) as [ek|e|]; reflexivity. Qed.

(* One wrong P_1 share: nothing is noticed when the key is made, X, Y, Z and P_2 are those of the honest run, but no honest
   ciphertext (randomness other than 0) verifies any more.  Re-encryption and decryption still work. *)
Theorem C51_one_wrong_P1_share :
  forall (E : pairing) b gens g_i delta gamma parties (ek : encryption_key E) pre good bad post,
  from_dkg b gens g_i delta gamma parties ek -> honest_shares gamma parties = Ok (pre ++ good :: post) ->
  p1_P_1 bad <> p1_P_1 good -> eg_H gens <> gzero ->
  exists ek', dkg_with_shares gamma parties (pre ++ bad :: post) = Ok ek' /\ ek_validate ek' = Ok tt /\
    ek_X_0 ek' = ek_X_0 ek /\ ek_X ek' = ek_X ek /\ ek_Y ek' = ek_Y ek /\ ek_Z ek' = ek_Z ek /\ ek_P_2 ek' = ek_P_2 ek /\
    forall m c_0 c psi r, encrypts ek' g_i m (c_0 :: c ++ [psi]) r ->
      (verify_ciphertext_commitment c_0 c psi (prepare_ek ek') (prepare_gens gens) = Ok tt <-> r = fzero) /\
      (r <> fzero -> verify_ciphertext_commitment c_0 c psi (prepare_ek ek') (prepare_gens gens) = Err InvalidCommitment) /\
      forall pf b' skd ekd shares, from_dest gens skd ekd -> Forall2 (share_of gens c_0 c ekd) (map fst parties) shares ->
        Forall (fun x => x <> gzero) (firstn (length m) g_i) -> 1 <= b' <= 31 -> field_holds (K_of E) b' -> Forall (fun z => 0 <= z /\ fits b' z) m ->
        exists g_r cs, reencrypt c shares = Ok (g_r :: cs) /\ decrypt_to_chunks_after_re_encryption pf g_r cs skd g_i b' = Ok m.
Proof.
  intros E b gens g_i delta gamma parties ek pre good bad post Hd Hsh Hne HH.
  pose proof Hd as (_ & _ & Hdk). rewrite dkg_split, Hsh in Hdk. cbn [bind] in Hdk.
  unfold dkg_with_shares in *. destruct (combineEKs gamma (map snd parties)) as [ekp|e|] eqn:Ec; cbn [bind] in *; try discriminate Hdk.
  assert (Hc : forall x, combineP1share (pre ++ x :: post) = Ok (P1share (gsum (map p1_P_1 pre) [+] (p1_P_1 x [+] gsum (map p1_P_1 post))))).
  { intros x. assert (Q : gsum (map p1_P_1 (pre ++ x :: post)) = gsum (map p1_P_1 pre) [+] (p1_P_1 x [+] gsum (map p1_P_1 post))).
    { rewrite map_app, gsum_app. cbn [map]. rewrite gsum_cons. reflexivity. }
    rewrite <- Q. destruct pre as [|p0 pre]; cbn [app]; apply combineP1share_ok. }
  rewrite Hc in *. cbn [bind] in *. assert (Hek : ek = keygenFinal ekp (P1share (gsum (map p1_P_1 pre) [+] (p1_P_1 good [+] gsum (map p1_P_1 post))))) by congruence. clear Hdk.
  set (P := gsum (map p1_P_1 pre) [+] (p1_P_1 bad [+] gsum (map p1_P_1 post))).
  assert (HP : P <> ek_P_1 ek).
  { rewrite Hek. unfold keygenFinal; cbn [ek_P_1 p1_P_1]. unfold P. intros H. apply gadd_cancel_l in H. rewrite !(gadd_comm _ (gsum (map p1_P_1 post))) in H.
    apply gadd_cancel_l in H. contradiction. }
  assert (Hk : honest_key b gens g_i delta gamma ek) by (right; exists parties; exact Hd).
  destruct (C50_validate_detects_bad_keys_refuted E b gens g_i delta gamma ek P Hk HH HP) as (V & W). cbv zeta in V, W.
  set (ek' := EncryptionKey (ek_X_0 ek) (ek_X ek) (ek_Y ek) (ek_Z ek) P (ek_P_2 ek)) in *.
  exists ek'. split; [unfold ek'; rewrite Hek; reflexivity|]. split; [exact V|]. do 5 (split; [reflexivity|]).
  intros m c_0 c psi r He. destruct (W m c_0 c psi r He) as (W1 & W2). split; [exact W1|]. split; [exact W2|].
  intros pf b' skd ekd shares Hdest Hs Hg Hb HF Hm.
  apply encrypts_inv in He. destruct He as (n & Hw & Hlm & Hgl & Hct). assert (Hw' : wf_key n ek) by exact Hw.
  apply ct_vec_eq in Hct. destruct Hct as (H0 & H1 & _).
  apply (C28_re_encryption_delivers pf E b b' gens g_i delta gamma parties ek m c_0 c (psi_formula ek m r) r skd ekd shares Hd); try assumption.
  exists (replay_rng E), [r], []. rewrite (encrypts_intro n ek g_i m r Hw' Hlm Hgl). rewrite H0, H1. reflexivity.
Qed.
(* the honest shares exist in every honest run *)
Theorem C51_honest_shares_exist :
  forall (E : pairing) b gens g_i delta gamma parties (ek : encryption_key E), from_dkg b gens g_i delta gamma parties ek ->
  exists shares, honest_shares gamma parties = Ok shares /\ length shares = length parties /\ dkg_with_shares gamma parties shares = Ok ek.
Proof.
  intros E b gens g_i delta gamma parties ek (_ & _ & Hd). rewrite dkg_split in Hd. apply bind_Ok_inv in Hd. destruct Hd as (sh & H1 & H2).
  exists sh. split; [exact H1|]. split; [|exact H2]. unfold honest_shares in H1. apply bind_Ok_inv in H1. destruct H1 as (ekp & _ & H1).
  apply mapM_length in H1. exact H1.
Qed.

(* ===== C52 ===== *)
(* Robustness of re-encryption is refuted: a party that adds d_i g_i to its share makes the destination decrypt to m + d, with no
   error anywhere (there is no check of re-encryption shares in the API). *)
Theorem C52_robust_re_encryption_refuted :
  forall (pf : profile) (E : pairing) b b' gens g_i delta gamma parties (ek : encryption_key E) m c_0 c psi r skd ekd pre w g_p post d,
  from_dkg b gens g_i delta gamma parties ek -> encrypts ek g_i m (c_0 :: c ++ [psi]) r ->
  from_dest gens skd ekd -> Forall2 (share_of gens c_0 c ekd) (map fst parties) (pre ++ (w, g_p) :: post) ->
  Forall (fun x => x <> gzero) (firstn (length m) g_i) -> length d = length m -> Forall (fun z => 0 <= z) m ->
  1 <= b' <= 31 -> field_holds (K_of E) b' -> Forall (fun z => 0 <= z /\ fits b' z) (chunk_add m d) ->
  let w' := zip_with gadd w (scale (map of_Z d) g_i) in
  exists g_r cs, reencrypt c (pre ++ (w', g_p) :: post) = Ok (g_r :: cs) /\ decrypt_to_chunks_after_re_encryption pf g_r cs skd g_i b' = Ok (chunk_add m d).
Proof.
  intros pf E b b' gens g_i delta gamma parties ek m c_0 c psi r skd ekd pre w g_p post d Hd He Hdest Hsh Hg Hld Hm Hb HF Hfit w'.
  destruct (dkg_opens _ _ _ _ _ _ _ _ _ _ _ _ Hd He Hm) as (Hlc & Hlg & Hall & Hop).
  assert (Hlen : Forall (fun s => length (fst s) = length c) (pre ++ (w, g_p) :: post)).
  { clear -Hsh. induction Hsh as [|sk sh sks shares H _ IH]; [constructor|]. constructor; [|exact IH].
    apply share_inv in H. destruct H as (_ & rho & _ & ->). rewrite map_length, seq_length. reflexivity. }
  assert (Hne : map fst parties <> []) by (destruct Hd as (Hp & _); destruct parties; [contradiction|discriminate]).
  destruct (reencrypt_opens gens c_0 c ekd skd (map fst parties) (pre ++ (w, g_p) :: post) g_i m Hdest Hne Hsh Hop) as (g_r & cs & Hr & Hcs & Hop').
  assert (Lw : length w = length c) by (apply Forall_app in Hlen; destruct Hlen as [_ H]; apply Forall_inv in H; exact H).
  set (dg := scale (map of_Z d) g_i).
  assert (Ldg : length dg = length c) by (unfold dg; rewrite scale_length, map_length; lia).
  assert (Hlen' : Forall (fun s => length (fst s) = length c) (pre ++ (w', g_p) :: post)).
  { apply Forall_app in Hlen. destruct Hlen as [A B]. apply Forall_app. split; [exact A|]. inversion B as [|? ? _ B']; subst.
    constructor; [|exact B']. cbn [fst]. unfold w'. rewrite zip_with_length. fold dg. lia. }
  assert (Hcomb : forall l : list (list (G1 E) * G1 E), Forall (fun s => length (fst s) = length c) l -> l <> [] -> combine_shares l = Ok (col_sum (length c) (map fst l), gsum (map snd l))).
  { intros [|s0 l] Hl Hn; [contradiction|]. inversion Hl as [|? ? E0 Hl']; subst. rewrite combine_shares_ok, E0; [reflexivity|].
    eapply Forall_impl; [|exact Hl']. cbn; intros; lia. }
  assert (N : forall x : list (G1 E) * G1 E, pre ++ x :: post <> []) by (intros x H; apply app_eq_nil in H; destruct H as [_ H]; discriminate H).
  unfold reencrypt in *. rewrite Hcomb in * by (assumption || apply N). cbn [bind] in *.
  assert (Hs2 : gsum (map snd (pre ++ (w', g_p) :: post)) = gsum (map snd (pre ++ (w, g_p) :: post))) by (rewrite !map_app; reflexivity).
  assert (Hs1 : col_sum (length c) (map fst (pre ++ (w', g_p) :: post)) = zip_with gadd (col_sum (length c) (map fst (pre ++ (w, g_p) :: post))) dg).
  { rewrite (list_as_map gzero (zip_with gadd _ dg)). rewrite zip_with_length, col_sum_length, Ldg, Nat.min_id.
    unfold col_sum at 1. apply map_ext_in. intros i Hi. apply in_seq in Hi.
    rewrite zip_gadd_nth by (rewrite col_sum_length; lia). rewrite col_sum_nth by lia. rewrite !map_app, !gsum_app. cbn [map]. rewrite !gsum_cons. cbn [fst].
    unfold w'. fold dg. rewrite zip_gadd_nth by lia. rewrite <- !gadd_assoc. f_equal. f_equal. apply gadd_comm. }
  rewrite Hs1, Hs2.
  unfold combine_ct_with_w in *. rewrite mapM_zip in *. rewrite zip_with_length, col_sum_length, Ldg, Nat.min_id, Nat.leb_refl in *. cbn [bind] in *.
  assert (G : gsum (map snd (pre ++ (w, g_p) :: post)) = g_r /\ zip_with gadd c (col_sum (length c) (map fst (pre ++ (w, g_p) :: post))) = cs).
  { assert (Z : gsum (map snd (pre ++ (w, g_p) :: post)) :: zip_with gadd c (col_sum (length c) (map fst (pre ++ (w, g_p) :: post))) = g_r :: cs) by congruence.
    injection Z as Z1 Z2. auto. }
  destruct G as [G1' G2']. rewrite G1'. exists g_r, (zip_with gadd c (zip_with gadd (col_sum (length c) (map fst (pre ++ (w, g_p) :: post))) dg)).
  split; [reflexivity|].
  assert (Ass : zip_with gadd c (zip_with gadd (col_sum (length c) (map fst (pre ++ (w, g_p) :: post))) dg) = zip_with gadd cs dg).
  { rewrite <- G2'. generalize (col_sum (length c) (map fst (pre ++ (w, g_p) :: post))), dg. clear. 
    induction c as [|x c IH]; intros [|y l] [|z d]; try reflexivity. rewrite !zip_with_cons, IH, gadd_assoc. reflexivity. }
  rewrite Ass. apply field_holds_iff in HF; [|lia].
  assert (Lz : length (zip_with gadd cs dg) = length c) by (rewrite zip_with_length; lia).
  apply reenc_decrypt_exact; rewrite ?Lz; try assumption; try lia.
  - rewrite Hlc; exact Hg.
  - split; [|apply fits_Forall; [lia|]; eapply Forall_impl; [|exact Hfit]; cbn beta; tauto].
    destruct Hop' as (_ & H2 & H3). rewrite repeat_length in H2, H3. unfold opens_to. rewrite repeat_length, Lz, chunk_add_length.
    split; [reflexivity|]. split; [lia|]. intros i Hi. rewrite Hcs in H3. destruct (H3 i Hi) as [_ Q].
    rewrite Forall_forall in Hfit. split; [apply Hfit, nth_In; rewrite chunk_add_length; lia|].
    rewrite zip_gadd_nth by lia. rewrite Q. unfold dg. rewrite scale_nth, (nth_map_default of_Z d i 0 fzero) by reflexivity.
    rewrite chunk_add_nth by lia. rewrite of_Z_add. rewrite !nth_repeat_lt by lia. apply lin_shift.
Qed.

(* ----- concrete cases ----- *)
Example ex_wrong_share_computes :
  (shares <- honest_shares x_gamma x_parties ;;
   ek <- match shares with _ :: rest => dkg_with_shares x_gamma x_parties (P1share (eg_G x_gens) :: rest) | [] => Panic end ;;
   '(ct, _, _) <- encrypt_decomposed_message (replay_rng E61) x_msg1 ek x_gi [x_r1] ;;
   c <- ct_of_vec ct ;; verify_commitment c (prepare_ek ek) (prepare_gens x_gens)) = Err InvalidCommitment.
Proof. vm_compute. reflexivity. Qed.
Example ex_consistent : consistent_key x_gens x_gi x_ek.
Proof.
  apply (C50_usable_iff_consistent E61 x_gens x_gi x_ek); [vm_compute; reflexivity|vm_compute; lia|vm_compute; lia|].
  intros m c_0 c psi r He. apply (C19_honest_chunk_ciphertexts_verify E61 4 x_gens x_gi x_delta x_gamma x_ek m c_0 c psi r); [|exact He].
  left. exists x_rho, x_dk. exact x_keygen.
Qed.
