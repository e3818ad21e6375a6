(* PropKeys.v -- C08-C11, C32: key generation, centralized and distributed. *)
From Coq Require Import Permutation.
From Verif Require Import Base BaseFacts Algebra Utils UtilsFacts Setup Keygen KeygenFacts Encryption EncryptFacts RoundTrip
  Spec KeySpec VecFacts Protocol DistFacts Instance Examples ReencFacts.

(* ===== C08 ===== *)
Theorem C08_keygen_fails_exactly_when_short :
  forall (E : pairing) (R : rng_impl E) (b : Z) gens g_i delta gamma st (n : Z), chunks_count (K_of E) b = Ok n ->
  ((Z.of_nat (length g_i) < n) ->
     keygen R b gens g_i delta gamma st = Err (VectorShorterThanExpected (length g_i) (Z.to_nat n)) /\
     FkeygenPartial R b gens g_i delta gamma st = Err (VectorShorterThanExpected (length g_i) (Z.to_nat n))) /\
  (n <= Z.of_nat (length g_i) ->
     (exists sk ek dk st', keygen R b gens g_i delta gamma st = Ok (sk, ek, dk, st')) /\
     (exists sk ek st', FkeygenPartial R b gens g_i delta gamma st = Ok (sk, ek, st'))).
Proof.
  intros E R b gens g_i delta gamma st n Hn. pose proof (chunks_count_range _ _ _ Hn) as Hr. split; intros Hl.
  - apply keygen_short; [exact Hn|lia].
  - destruct (keygen_formula R b gens g_i delta gamma st n Hn ltac:(lia)) as (rho & s & t0 & t & v & st' & _ & _ & _ & H1).
    destruct (partial_formula R b gens g_i delta gamma st n Hn ltac:(lia)) as (s2 & t02 & t2 & st2 & _ & _ & H2). split; eauto 10.
Qed.
Theorem C08_keygen_output_well_formed :
  forall (E : pairing) b gens g_i delta gamma sk ek dk, @from_keygen E b gens g_i delta gamma sk ek dk ->
  exists n, chunks_count (K_of E) b = Ok (Z.of_nat n) /\
    ek_validate ek = Ok tt /\ pek_validate (prepare_ek ek) = Ok tt /\ dk_validate dk = Ok tt /\ pdk_validate (prepare_dk dk) = Ok tt /\
    ek_supported_chunks_count ek = Ok (Z.of_nat n) /\ pek_supported_chunks_count (prepare_ek ek) = Ok (Z.of_nat n) /\
    dk_supported_chunks_count dk = Ok (Z.of_nat n) /\ pdk_supported_chunks_count (prepare_dk dk) = Ok (Z.of_nat n) /\
    length (ek_X ek) = n /\ length (ek_Y ek) = n /\ length (ek_Z ek) = (n + 1)%nat /\ length (dk_V_1 dk) = n /\ length (dk_V_2 dk) = n /\
    ek_X_0 ek = delta.
Proof.
  intros E b gens g_i delta gamma sk ek dk H. destruct (keygen_valid _ _ _ _ _ _ _ _ H) as (n & H1 & H2 & H3 & H4 & H5 & H6 & H7 & H8 & H9 & L1 & L2 & L3 & L4 & L5).
  exists n. repeat split; try assumption.
  apply from_keygen_inv in H. destruct H as (n' & s & t0 & t & v & _ & _ & _ & _ & _ & _ & -> & _). reflexivity.
Qed.
Theorem C08_partial_output_well_formed :
  forall (E : pairing) b gens g_i delta gamma sk ek, @from_partial E b gens g_i delta gamma (sk, ek) ->
  exists n, chunks_count (K_of E) b = Ok (Z.of_nat n) /\ length (st_s sk) = n /\ length (st_t sk) = (n + 1)%nat /\
    length (ekp_X ek) = n /\ length (ekp_Y ek) = n /\ length (ekp_Z ek) = (n + 1)%nat /\ ekp_X_0 ek = delta.
Proof.
  intros E b gens g_i delta gamma sk ek H. apply partial_shape in H. cbn [fst snd] in H. destruct H as (n & Hn & (A & B & C & D) & F & G).
  exists n. repeat split; try assumption; lia.
Qed.
Theorem C08_chunk_size_zero_panics : forall (E : pairing) (R : rng_impl E) gens g_i delta gamma st,
  keygen R 0 gens g_i delta gamma st = Panic /\ FkeygenPartial R 0 gens g_i delta gamma st = Panic.
Proof. intros. split; reflexivity. Qed.

Lemma dot_split_app {K : prime_field} {T : group K} (a b : list (scalar K)) (l m : list T) :
  length a = length l -> dot (a ++ b) (l ++ m) = gadd (dot a l) (dot b m).
Proof.
  revert l; induction a as [|x a IH]; intros [|y l] Hl; try discriminate; cbn [app dot]; [symmetry; apply gadd_0_l|].
  cbn [length] in Hl. rewrite IH by lia. apply gadd_assoc.
Qed.
(* the commitment key, of the encryption key and of its prepared form: Y_1..Y_n, P_1; it opens every ciphertext's commitment *)
Theorem C08_commitment_key :
  forall (E : pairing) b gens g_i delta gamma sk ek dk, @from_keygen E b gens g_i delta gamma sk ek dk ->
  exists n, chunks_count (K_of E) b = Ok (Z.of_nat n) /\
    (forall key, key = ek_commitment_key ek \/ key = pek_commitment_key (prepare_ek ek) ->
       length key = (n + 1)%nat /\ (forall i, (i < n)%nat -> nth i key gzero = nth i (ek_Y ek) gzero) /\ nth n key gzero = ek_P_1 ek /\
       forall m c_0 c psi r, encrypts ek g_i m (c_0 :: c ++ [psi]) r -> psi = dot (map of_Z m ++ [r]) key).
Proof.
  intros E b gens g_i delta gamma sk ek dk H. destruct (C08_keygen_output_well_formed E b gens g_i delta gamma sk ek dk H) as (n & Hn & _ & _ & _ & _ & _ & _ & _ & _ & LX & LY & LZ & _).
  exists n. split; [exact Hn|]. intros key Hkey. assert (Ek : key = ek_Y ek ++ [ek_P_1 ek]) by (destruct Hkey as [-> | ->]; reflexivity). subst key. clear Hkey.
  split; [rewrite app_length; cbn [length]; lia|]. split; [intros i Hi; apply app_nth1; lia|]. split; [rewrite app_nth2 by lia; rewrite LY, Nat.sub_diag; reflexivity|].
  intros m c_0 c psi r He. apply encrypts_inv in He. destruct He as (n' & (_ & LX' & LY' & _) & Hm & _ & Hct). apply ct_vec_eq in Hct. destruct Hct as (_ & _ & ->).
  unfold ct_formula. cbn [ct_commitment]. unfold psi_formula. rewrite dot_split_app by (rewrite map_length; lia). cbn [dot]. rewrite gadd_0_r. reflexivity.
Qed.

(* ===== C09 ===== *)
Lemma fcol_sum_split {K} n (ts : list (list (scalar K))) :
  fcol_sum (n + 1) ts = fsum (map (fun t => nth 0 t fzero) ts) :: fcol_sum n (map (@tl _) ts).
Proof.
  unfold fcol_sum. replace (n + 1)%nat with (S n) by lia. cbn [seq map]. f_equal. rewrite <- seq_shift, map_map. apply map_ext. intros i.
  f_equal. rewrite map_map. apply map_ext. intros t. destruct t as [|x t]; cbn; [destruct i; reflexivity|reflexivity].
Qed.
(* The distributed key is exactly the key keygen returns when its random tape supplies the sums of the parties' secrets. *)
Theorem C09_distributed_equals_centralized :
  forall (E : pairing) b gens g_i delta gamma (parties : list (secret_key_st E * ek_partial E)) n,
  chunks_count (K_of E) b = Ok (Z.of_nat n) -> parties <> [] -> Forall (from_partial b gens g_i delta gamma) parties ->
  exists ek, dkg gamma parties = Ok ek /\
    forall rho v, length v = n ->
      exists dk, keygen (replay_rng E) b gens g_i delta gamma
        (rho :: fcol_sum n (map (fun p => st_s (fst p)) parties) ++ fcol_sum (n + 1) (map (fun p => st_t (fst p)) parties) ++ v)
        = Ok (rho, ek, dk, []).
Proof.
  intros E b gens g_i delta gamma parties n Hn Hne Hp.
  rewrite (dkg_formula b gens g_i delta gamma parties n Hn Hne Hp). eexists. split; [reflexivity|].
  intros rho v Hv.
  assert (Hg : (n <= length g_i)%nat).
  { destruct parties as [|p ps]; [contradiction|]. apply Forall_inv in Hp. apply from_partial_inv in Hp.
    destruct Hp as (n' & _ & _ & _ & Hn' & Hg & _). rewrite Hn in Hn'. assert (n' = n) by (injection Hn'; lia). lia. }
  rewrite fcol_sum_split. rewrite !map_map. 
  pose proof (fun s t0 t => keygen_replay b gens g_i delta gamma n rho s t0 t v []) as HK.
  rewrite app_nil_r in HK. eexists. apply HK; try assumption; apply fcol_sum_length.
Qed.

(* ===== C10 ===== *)
Theorem C10_combineEKs_order_independent :
  forall (E : pairing) gamma (eks eks' : list (ek_partial E)) nX nY nZ x0,
  Forall (fun ek => length (ekp_X ek) = nX /\ length (ekp_Y ek) = nY /\ length (ekp_Z ek) = nZ /\ ekp_X_0 ek = x0) eks ->
  Permutation eks eks' -> combineEKs gamma eks = combineEKs gamma eks'.
Proof. intros E gamma eks eks' nX nY nZ x0 H. exact (combineEKs_perm gamma eks eks' nX nY nZ x0 H). Qed.
Theorem C10_combineP1share_order_independent : forall (E : pairing) (ps ps' : list (p1share E)),
  Permutation ps ps' -> combineP1share ps = combineP1share ps'.
Proof. intros E. exact combineP1share_perm. Qed.
Theorem C10_dkg_order_independent : forall (E : pairing) b gens g_i delta gamma (ps ps' : list (secret_key_st E * ek_partial E)),
  Forall (from_partial b gens g_i delta gamma) ps -> Permutation ps ps' -> dkg gamma ps = dkg gamma ps'.
Proof. intros E. exact dkg_perm. Qed.

(* ===== C11 ===== *)
Theorem C11_combineEKs_exact : forall (E : pairing) gamma (eks : list (ek_partial E)),
  (exists ek, combineEKs gamma eks = Ok ek) /\
    (exists ek0 rest, eks = ek0 :: rest /\ Forall (fun ek => (length (ekp_X ek0) <= length (ekp_X ek))%nat /\
        (length (ekp_Y ek0) <= length (ekp_Y ek))%nat /\ (length (ekp_Z ek0) <= length (ekp_Z ek))%nat) rest) \/
  combineEKs gamma eks = Panic /\
    ~ (exists ek0 rest, eks = ek0 :: rest /\ Forall (fun ek => (length (ekp_X ek0) <= length (ekp_X ek))%nat /\
        (length (ekp_Y ek0) <= length (ekp_Y ek))%nat /\ (length (ekp_Z ek0) <= length (ekp_Z ek))%nat) rest).
Proof.
  intros E gamma eks. destruct eks as [|ek0 rest].
  - right. split; [reflexivity|]. intros (? & ? & ? & _). discriminate.
  - destruct (Forall_dec (ekp_ge ek0) (ekp_ge_dec ek0) rest) as [H|H].
    + left. split; [eexists; apply combineEKs_ok; exact H|]. exists ek0, rest. split; [reflexivity|exact H].
    + right. split; [apply combineEKs_panic; exact H|]. intros (e & r & He & Hf). injection He as <- <-. apply H. exact Hf.
Qed.
(* and what it returns: entry-wise sums over the length of the FIRST key, gamma added once to P_2 *)
Theorem C11_combineEKs_value : forall (E : pairing) gamma (ek0 : ek_partial E) rest,
  Forall (fun ek => (length (ekp_X ek0) <= length (ekp_X ek))%nat /\ (length (ekp_Y ek0) <= length (ekp_Y ek))%nat /\
                    (length (ekp_Z ek0) <= length (ekp_Z ek))%nat) rest ->
  combineEKs gamma (ek0 :: rest) = Ok (FEncryptionKeyPartial (ekp_X_0 ek0)
    (col_sum (length (ekp_X ek0)) (map ekp_X (ek0 :: rest))) (col_sum (length (ekp_Y ek0)) (map ekp_Y (ek0 :: rest)))
    (col_sum (length (ekp_Z ek0)) (map ekp_Z (ek0 :: rest))) (gamma [+] gsum (map ekp_P_2 (ek0 :: rest)))).
Proof. intros E. exact combineEKs_ok. Qed.
Theorem C11_combineP1share_exact : forall (E : pairing) (ps : list (p1share E)),
  combineP1share ps = match ps with [] => Panic | _ => Ok (P1share (gsum (map p1_P_1 ps))) end.
Proof. intros E [|p ps]; [reflexivity|]. apply combineP1share_ok. Qed.
Theorem C11_genP1share_exact : forall (E : pairing) (ek : ek_partial E) (sk : secret_key_st E),
  (length (st_t sk) <= length (ekp_X ek))%nat /\ genP1share ek sk = Panic \/
  (length (ekp_X ek) < length (st_t sk))%nat /\
    genP1share ek sk = Ok (P1share (dot (st_t sk) (ekp_X_0 ek :: ekp_X ek))).
Proof.
  intros E ek sk. destruct (le_lt_dec (length (st_t sk)) (length (ekp_X ek))) as [H|H]; [left|right]; split; try assumption.
  - apply genP1share_panic; exact H.
  - destruct (st_t sk) as [|t0 t] eqn:Et; [cbn in H; lia|]. cbn [length] in H. rewrite (genP1share_ok ek sk t0 t Et) by lia. reflexivity.
Qed.

(* ===== C32 ===== *)
(* honest: the other parties' (secret, public) contributions -- only their public parts are used by the attacker;
   (sk, ek, dk): a key pair the attacker made for itself with keygen.  It sends rogue_partial and rogue_share
   (DistFacts.v: its own key minus the sum of what the others published). *)
Theorem C32_single_party_cannot_decrypt_refuted :
  forall (E : pairing) b gens g_i delta gamma (honest : list (secret_key_st E * ek_partial E)) sk ek dk,
  honest <> [] -> Forall (from_partial b gens g_i delta gamma) honest -> from_keygen b gens g_i delta gamma sk ek dk ->
  exists common shares p1,
    combineEKs gamma (map snd honest ++ [rogue_partial gamma ek (map snd honest)]) = Ok common /\
    mapM (fun p => genP1share common (fst p)) honest = Ok shares /\
    combineP1share (shares ++ [rogue_share ek shares]) = Ok p1 /\
    keygenFinal common p1 = ek /\
    (* every message anybody encrypts under the common key is decrypted by the attacker alone *)
    forall pf pf' (R : rng_impl E) (msg : Fr E) st ct r st',
      nondegenerate dk g_i (length (dk_V_2 dk)) -> supported b -> 2 ^ b <= modulus (K_of E) ->
      encrypt pf R msg (keygenFinal common p1) g_i b st = Ok (ct, r, st') ->
      ct_decrypt pf' ct sk (prepare_dk dk) g_i b = Ok (msg, sk [*] ct_X_r ct).
Proof.
  intros E b gens g_i delta gamma honest sk ek dk Hne Hh Hk.
  destruct (rogue_key b gens g_i delta gamma honest sk ek dk Hne Hh Hk) as (c & sh & H1 & H2 & p1 & H3 & H4).
  exists c, sh, p1. repeat (split; [assumption|]). intros pf pf' R msg st ct r st' Hnd Hb HM He.
  rewrite H4 in He. exact (message_round_trip pf pf' R b gens g_i delta gamma sk ek dk msg st ct r st' Hk Hnd Hb HM He).
Qed.

(* ----- concrete cases ----- *)
Example ex_keygen : from_keygen 4 x_gens x_gi x_delta x_gamma x_rho x_ek x_dk /\ nondegenerate x_dk x_gi (length (dk_V_2 x_dk)) /\ supported 4 /\ 2 ^ 4 <= modulus (K_of E61).
Proof. split; [exact x_keygen|]. split; [exact x_nondegenerate|]. split; [left; reflexivity|]. vm_compute; discriminate. Qed.
Example ex_parties : x_parties <> [] /\ Forall (from_partial 4 x_gens x_gi x_delta x_gamma) x_parties /\ chunks_count (K_of E61) 4 = Ok (Z.of_nat 16).
Proof. split; [discriminate|]. split; [exact x_parties_honest|exact x_count]. Qed.
(* the three-party key really is a sum: it differs from every single party's key *)
Example ex_dkg_key : map sval (ek_X x_dkg_ek) = map (fun i => 11 * (60 + 3 * Z.of_nat i)) (seq 0 16).
Proof. vm_compute. reflexivity. Qed.
