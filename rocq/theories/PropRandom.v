(* PropRandom.v -- C56-C58: unsupported chunk sizes, what the functions take from the random generator, reused randomness. *)
From Verif Require Import Base BaseFacts Algebra Utils UtilsFacts Setup Keygen KeygenFacts Encryption EncryptFacts DecryptFacts RoundTrip
  Spec KeySpec VecFacts Protocol ReencFacts DistFacts VerifyFacts Instance Examples PropKeys PropEnc.

(* ===== C56 ===== *)
(* A chunk size other than 4, 8, 16 is refused by message encryption whatever the key, before anything is drawn or computed;
   decryption of messages never succeeds with it. *)
Theorem C56_unsupported_chunk_size_refused_by_encrypt :
  forall (pf : profile) (E : pairing) (R : rng_impl E) (msg : Fr E) ek g_i b st, ~ supported b ->
  encrypt pf R msg ek g_i b st = Err (UnexpectedBase b).
Proof.
  intros pf E R msg ek g_i b st Hb. unfold encrypt, decompose.
  destruct (Z.eqb_spec b 4) as [->|]; [exfalso; apply Hb; left; reflexivity|].
  destruct (Z.eqb_spec b 8) as [->|]; [exfalso; apply Hb; right; left; reflexivity|].
  destruct (Z.eqb_spec b 16) as [->|]; [exfalso; apply Hb; right; right; reflexivity|]. reflexivity.
Qed.
Theorem C56_unsupported_chunk_size_never_decrypts :
  forall (pf : profile) (E : pairing) ct (sk : Fr E) dk g_i b, ~ supported b -> forall res, ct_decrypt pf ct sk dk g_i b <> Ok res.
Proof.
  intros pf E ct sk dk g_i b Hb res H. unfold ct_decrypt, decrypt in H. apply bind_Ok_inv in H. destruct H as ([ms nu] & _ & H).
  apply bind_Ok_inv in H. destruct H as (m & H & _). unfold compose in H.
  destruct (Z.eqb_spec b 4) as [->|]; [apply Hb; left; reflexivity|].
  destruct (Z.eqb_spec b 8) as [->|]; [apply Hb; right; left; reflexivity|].
  destruct (Z.eqb_spec b 16) as [->|]; [apply Hb; right; right; reflexivity|]. discriminate H.
Qed.
(* Key generation does not refuse it (it divides by b, so only b = 0 panics); with such keys single chunks can be encrypted and
   decrypted for every chunk size up to 16, but no message can. *)
Theorem C56_key_generation_refuses_unsupported_sizes_refuted :
  forall (E : pairing) (R : rng_impl E) (b : Z) gens g_i delta gamma (st : rng_st R) n,
  0 < b -> ~ supported b -> chunks_count (K_of E) b = Ok (Z.of_nat n) -> (n <= length g_i)%nat ->
  exists sk ek dk st', keygen R b gens g_i delta gamma st = Ok (sk, ek, dk, st') /\ ek_validate ek = Ok tt /\ dk_validate dk = Ok tt /\
    (forall pf R' msg (st2 : rng_st R'), encrypt pf R' msg ek g_i b st2 = Err (UnexpectedBase b)) /\
    (b <= 16 -> 2 ^ b <= modulus (K_of E) -> nondegenerate dk g_i (length (dk_V_2 dk)) ->
     forall pf m R' (st2 : rng_st R'), length m = n -> digits_ok b m ->
       exists c_0 c psi r st3, encrypt_decomposed_message R' m ek g_i st2 = Ok (c_0 :: c ++ [psi], r, st3) /\
         exists nu, decrypt_to_chunks pf c_0 c sk (prepare_dk dk) g_i b = Ok (m, nu)).
Proof.
  intros E R b gens g_i delta gamma st n H0 Hb Hn Hg.
  destruct (keygen_formula R b gens g_i delta gamma st (Z.of_nat n) Hn ltac:(lia)) as (rho & s & t0 & t & v & st' & Hs & Ht & Hv & Hk).
  assert (Hk' : from_keygen b gens g_i delta gamma rho (ek_formula gens g_i delta gamma s t0 t) (dk_formula gens rho s v)) by (exists R, st, st'; exact Hk).
  exists rho, (ek_formula gens g_i delta gamma s t0 t), (dk_formula gens rho s v), st'. split; [exact Hk|].
  rewrite Nat2Z.id in *. split; [|split; [|split]].
  - unfold ek_validate, ek_supported_chunks_count, enc_supported_chunks_count, ek_formula. cbn [ek_X ek_Y ek_Z].
    rewrite !map_length, scale_length. cbn [length]. rewrite Ht, Hs. replace (Nat.min n (length g_i)) with n by lia. rewrite Nat.eqb_refl.
    replace (Nat.eqb (S n) (n + 1)) with true by (symmetry; apply Nat.eqb_eq; lia). reflexivity.
  - unfold dk_validate, dk_supported_chunks_count, dec_supported_chunks_count, dk_formula. cbn [dk_V_1 dk_V_2].
    rewrite !map_length, combine_length, Hs, Hv, Nat.min_id, Nat.eqb_refl. reflexivity.
  - intros pf R' msg st2. apply C56_unsupported_chunk_size_refused_by_encrypt. exact Hb.
  - intros Hb16 HM Hnd pf m R' st2 Hm Hd.
    destruct (C13_chunk_round_trip pf E R' b b gens g_i delta gamma _ _ _ m st2 ltac:(lia) HM Hk' Hnd) as (c_0 & c & psi & r & st3 & A & B); [rewrite Hm; exact Hn|exact Hd|].
    exists c_0, c, psi, r, st3. split; [exact A|exact B].
Qed.

(* ===== C57 ===== *)
(* k scalars drawn one after the other, and the state of the generator afterwards *)
Fixpoint draws {E} (R : rng_impl E) (k : nat) (st : rng_st R) : list (Fr E) :=
  match k with O => [] | S k' => fst (rand_scalar R st) :: draws R k' (snd (rand_scalar R st)) end.
Fixpoint after {E} (R : rng_impl E) (k : nat) (st : rng_st R) : rng_st R :=
  match k with O => st | S k' => after R k' (snd (rand_scalar R st)) end.

Section Rand.
Context {E : pairing}.
Lemma rand_scalars_draws (R : rng_impl E) k st : rand_scalars R k st = (draws R k st, after R k st).
Proof.
  revert st; induction k as [|k IH]; intros st; cbn [rand_scalars draws after]; [reflexivity|].
  destruct (rand_scalar R st) as [x st1]. cbn [fst snd]. rewrite IH. reflexivity.
Qed.
Lemma draws_length (R : rng_impl E) k st : length (draws R k st) = k.
Proof. revert st; induction k as [|k IH]; intros st; cbn [draws length]; [reflexivity|]. rewrite IH. reflexivity. Qed.
Lemma draws_add (R : rng_impl E) j k st : draws R (j + k) st = draws R j st ++ draws R k (after R j st).
Proof. revert st; induction j as [|j IH]; intros st; cbn [Nat.add draws after app]; [reflexivity|]. rewrite IH. reflexivity. Qed.
Lemma after_add (R : rng_impl E) j k st : after R (j + k) st = after R k (after R j st).
Proof. revert st; induction j as [|j IH]; intros st; cbn [Nat.add after]; [reflexivity|]. apply IH. Qed.
Lemma draws_replay (l rest : list (Fr E)) : draws (replay_rng E) (length l) (l ++ rest) = l /\ after (replay_rng E) (length l) (l ++ rest) = rest.
Proof.
  induction l as [|x l [IH1 IH2]]; cbn [length app draws after]; [split; reflexivity|].
  change (rand_scalar (replay_rng E) (x :: l ++ rest)) with (x, l ++ rest). cbn [fst snd]. rewrite IH1, IH2. split; reflexivity.
Qed.
Lemma rand_scalar_draws (R : rng_impl E) st : rand_scalar R st = (hd fzero (draws R 1 st), after R 1 st).
Proof. cbn [draws after hd]. destruct (rand_scalar R st); reflexivity. Qed.

(* the replayed tape gives the same draws *)
Lemma replay_same (R : rng_impl E) k st : draws (replay_rng E) k (draws R k st) = draws R k st /\ after (replay_rng E) k (draws R k st) = [].
Proof.
  pose proof (draws_replay (draws R k st) []) as [H1 H2]. rewrite draws_length, app_nil_r in H1, H2. split; assumption.
Qed.
End Rand.

(* result of a run, its final generator state replaced *)
Definition with_state {A S S' : Type} (r : outcome (A * S)) (s : S') : outcome (A * S') :=
  match r with Ok (a, _) => Ok (a, s) | Err e => Err e | Panic => Panic end.

(* Key generation takes exactly 3n+2 scalars, n the number of chunks, and depends on nothing else: run on the recorded scalars
   it gives the same result (also the same error or panic). *)
Theorem C57_keygen_randomness :
  forall (E : pairing) (R : rng_impl E) b gens g_i delta gamma (st : rng_st R) n, chunks_count (K_of E) b = Ok n ->
  let k := (3 * Z.to_nat n + 2)%nat in
  keygen R b gens g_i delta gamma st = with_state (keygen (replay_rng E) b gens g_i delta gamma (draws R k st)) (after R k st).
Proof.
  intros E R b gens g_i delta gamma st n Hn k. unfold keygen. rewrite Hn. cbn [bind].
  destruct (length g_i <? Z.to_nat n)%nat; [reflexivity|]. set (N := Z.to_nat n) in *.
  assert (Hk : k = (1 + (N + ((N + 1) + N)))%nat) by (unfold k; lia). rewrite Hk.
  rewrite !(rand_scalar_draws). rewrite !rand_scalars_draws.
  set (s1 := after R 1 st). set (s2 := after R N s1). set (s3 := after R (N + 1) s2).
  assert (D : draws R (1 + (N + ((N + 1) + N))) st = draws R 1 st ++ draws R N s1 ++ draws R (N + 1) s2 ++ draws R N s3) by (rewrite (draws_add R 1), (draws_add R N), (draws_add R (N + 1)); reflexivity).
  assert (A : after R (1 + (N + ((N + 1) + N))) st = after R N s3) by (rewrite (after_add R 1), (after_add R N), (after_add R (N + 1)); reflexivity).
  rewrite D, A.
  pose proof (draws_replay (draws R 1 st) (draws R N s1 ++ draws R (N + 1) s2 ++ draws R N s3)) as [P1 P2]. rewrite draws_length in P1, P2.
  pose proof (draws_replay (draws R N s1) (draws R (N + 1) s2 ++ draws R N s3)) as [P3 P4]. rewrite draws_length in P3, P4.
  pose proof (draws_replay (draws R (N + 1) s2) (draws R N s3)) as [P5 P6]. rewrite draws_length in P5, P6.
  pose proof (draws_replay (draws R N s3) []) as [P7 P8]. rewrite draws_length, app_nil_r in P7, P8.
  rewrite P1, P2, P3, P4, P5, P6, P7, P8.
  generalize (draws R N s1), (draws R (N + 1) s2), (draws R N s3), (hd fzero (draws R 1 st)), (after R N s3). clear. intros s t v rho stf.
  repeat match goal with |- context [bind ?x _] => destruct x; cbn [bind with_state]; try reflexivity end.
Qed.
(* one party of the distributed key generation: 2n+1 scalars *)
Theorem C57_partial_keygen_randomness :
  forall (E : pairing) (R : rng_impl E) b gens g_i delta gamma (st : rng_st R) n, chunks_count (K_of E) b = Ok n ->
  let k := (2 * Z.to_nat n + 1)%nat in
  FkeygenPartial R b gens g_i delta gamma st = with_state (FkeygenPartial (replay_rng E) b gens g_i delta gamma (draws R k st)) (after R k st).
Proof.
  intros E R b gens g_i delta gamma st n Hn k. unfold FkeygenPartial. rewrite Hn. cbn [bind].
  destruct (length g_i <? Z.to_nat n)%nat; [reflexivity|]. set (N := Z.to_nat n) in *.
  assert (Hk : k = (N + (N + 1))%nat) by (unfold k; lia). rewrite Hk.
  rewrite !rand_scalars_draws. set (s2 := after R N st).
  assert (D : draws R (N + (N + 1)) st = draws R N st ++ draws R (N + 1) s2) by (rewrite (draws_add R N); reflexivity).
  assert (A : after R (N + (N + 1)) st = after R (N + 1) s2) by (rewrite (after_add R N); reflexivity).
  rewrite D, A.
  pose proof (draws_replay (draws R N st) (draws R (N + 1) s2)) as [P3 P4]. rewrite draws_length in P3, P4.
  pose proof (draws_replay (draws R (N + 1) s2) []) as [P5 P6]. rewrite draws_length, app_nil_r in P5, P6.
  rewrite P3, P4, P5, P6. generalize (draws R N st), (draws R (N + 1) s2), (after R (N + 1) s2). clear. intros s t stf.
  repeat match goal with |- context [bind ?x _] => destruct x; cbn [bind with_state]; try reflexivity end.
Qed.
(* encryption of chunks and of messages, a re-encryption share and a destination key: one scalar *)
Theorem C57_encryption_randomness :
  forall (pf : profile) (E : pairing) (R : rng_impl E) ek g_i b (msg : Fr E) m (st : rng_st R),
  encrypt_decomposed_message R m ek g_i st = with_state (encrypt_decomposed_message (replay_rng E) m ek g_i (draws R 1 st)) (after R 1 st) /\
  encrypt pf R msg ek g_i b st = with_state (encrypt pf (replay_rng E) msg ek g_i b (draws R 1 st)) (after R 1 st).
Proof.
  intros pf E R ek g_i b msg m st.
  assert (X : forall m, encrypt_decomposed_message R m ek g_i st = with_state (encrypt_decomposed_message (replay_rng E) m ek g_i (draws R 1 st)) (after R 1 st)).
  { clear. intros m. unfold encrypt_decomposed_message. destruct (ek_supported_chunks_count ek); cbn [bind]; [|reflexivity..].
    destruct (negb _); [reflexivity|]. destruct (_ <? _)%nat; [reflexivity|]. cbn [draws after].
    change (rand_scalar (replay_rng E) [fst (rand_scalar R st)]) with (fst (rand_scalar R st), @nil (Fr E)).
    destruct (rand_scalar R st) as [r st1]. cbn [fst snd]. match goal with |- context [mapM ?f ?l] => destruct (mapM f l) end; reflexivity. }
  split; [apply X|]. unfold encrypt. destruct (decompose pf msg b) as [d|e|]; cbn [bind]; [|reflexivity..]. rewrite X.
  destruct (encrypt_decomposed_message (replay_rng E) d ek g_i (draws R 1 st)) as [[[ct r] st1]|e|]; cbn [bind with_state]; [|reflexivity..].
  destruct (ct_of_vec ct); reflexivity.
Qed.
Theorem C57_re_encryption_randomness :
  forall (E : pairing) (R : rng_impl E) gens c_0 c (sk : secret_key_st E) ekd (st : rng_st R),
  re_encrypt_share R gens c_0 c ekd sk st = with_state (re_encrypt_share (replay_rng E) gens c_0 c ekd sk (draws R 1 st)) (after R 1 st) /\
  Fkeygen_dest R gens st = with_state (Fkeygen_dest (replay_rng E) gens (draws R 1 st)) (after R 1 st).
Proof.
  intros E R gens c_0 c sk ekd st. unfold re_encrypt_share, Fkeygen_dest. cbn [draws after].
  change (rand_scalar (replay_rng E) [fst (rand_scalar R st)]) with (fst (rand_scalar R st), @nil (Fr E)).
  destruct (rand_scalar R st) as [r st1]. cbn [fst snd]. split; [|reflexivity].
  match goal with |- context [mapM ?f ?l] => destruct (mapM f l) end; reflexivity.
Qed.

(* None of the scalars is thrown away or used for two things: the published results determine all of them.  The secret keys, the randomness
   and the masks are the drawn scalars themselves. *)
Section Matters.
Context {E : pairing}.
Add Ring Kr : (@scalar_ring_theory (K_of E)).
Lemma map_scaled_inj {G : group (K_of E)} (x : G) (l l' : list (Fr E)) : x <> gzero -> map (fun a => a [*] x) l = map (fun a => a [*] x) l' -> l = l'.
Proof.
  intros Hx. revert l'; induction l as [|a l IH]; intros [|a' l'] H; try discriminate H; [reflexivity|]. cbn [map] in H.
  pose proof (f_equal (fun o => hd gzero o) H) as H1. cbn [hd] in H1. pose proof (f_equal (fun o => tl o) H) as H2. cbn [tl] in H2.
  apply smul_inj_scalar in H1; [|exact Hx]. rewrite H1, (IH l' H2). reflexivity.
Qed.
Lemma tape_parts (n : nat) (l : list (Fr E)) : length l = (3 * n + 2)%nat -> exists rho s t0 t v, length s = n /\ length t = n /\ length v = n /\ l = rho :: s ++ (t0 :: t) ++ v ++ [].
Proof.
  intros H. destruct l as [|rho l]; [cbn in H; lia|]. cbn [length] in H. rewrite <- (firstn_skipn n l).
  set (u := skipn n l). assert (Hu : length u = (2 * n + 1)%nat) by (unfold u; rewrite skipn_length; lia). destruct u as [|t0 u]; [cbn in Hu; lia|]. cbn [length] in Hu.
  exists rho, (firstn n l), t0, (firstn n u), (skipn n u). split; [rewrite firstn_length; lia|]. split; [rewrite firstn_length; lia|]. split; [rewrite skipn_length; lia|].
  rewrite app_nil_r. cbn [app]. rewrite firstn_skipn. reflexivity.
Qed.
Lemma tape_parts2 (n : nat) (l : list (Fr E)) : length l = (2 * n + 1)%nat -> exists s t0 t, length s = n /\ length t = n /\ l = s ++ (t0 :: t) ++ [].
Proof.
  intros H. rewrite <- (firstn_skipn n l). set (u := skipn n l). assert (Hu : length u = (n + 1)%nat) by (unfold u; rewrite skipn_length; lia). destruct u as [|t0 u]; [cbn in Hu; lia|]. cbn [length] in Hu.
  exists (firstn n l), t0, u. split; [rewrite firstn_length; lia|]. split; [lia|]. rewrite app_nil_r. reflexivity.
Qed.
Lemma map_fmul_inj (rho : Fr E) (l l' : list (Fr E)) : rho <> fzero -> map (fun b => fmul b rho) l = map (fun b => fmul b rho) l' -> l = l'.
Proof.
  intros Hr. revert l'; induction l as [|a l IH]; intros [|a' l'] H; try discriminate H; [reflexivity|]. cbn [map] in H.
  pose proof (f_equal (fun o => hd fzero o) H) as H1. cbn [hd] in H1. pose proof (f_equal (fun o => tl o) H) as H2. cbn [tl] in H2. rewrite (IH l' H2). f_equal.
  assert (Z : fmul (fsub a a') rho = fzero) by (transitivity (fsub (fmul a rho) (fmul a' rho)); [ring|rewrite H1; ring]).
  apply fmul_integral in Z. destruct Z as [Z|Z]; [apply fsub_zero_eq; exact Z|destruct (Hr Z)].
Qed.
Theorem C57_every_scalar_matters (R : rng_impl E) (pf : profile) b (gens : encryption_gens E) g_i delta gamma (n : nat) :
  chunks_count (K_of E) b = Ok (Z.of_nat n) -> (n <= length g_i)%nat -> delta <> gzero -> eg_H gens <> gzero -> eg_G gens <> gzero ->
  (* a destination key: the secret is the drawn scalar *)
  (forall st, Fkeygen_dest R gens st = Ok (fst (rand_scalar R st), FEncryptionKeyDest (fst (rand_scalar R st) [*] eg_G gens), snd (rand_scalar R st))) /\
  (forall r r', r [*] eg_G gens = r' [*] eg_G gens -> r = r') /\
  (* key generation: the secret key is the first scalar, and the published keys determine all 3n+2 *)
  (forall l sk ek dk st', length l = (3 * n + 2)%nat -> keygen (replay_rng E) b gens g_i delta gamma l = Ok (sk, ek, dk, st') -> sk = hd fzero l) /\
  (forall l l' sk sk' ek dk st st', length l = (3 * n + 2)%nat -> length l' = (3 * n + 2)%nat ->
     keygen (replay_rng E) b gens g_i delta gamma l = Ok (sk, ek, dk, st) -> keygen (replay_rng E) b gens g_i delta gamma l' = Ok (sk', ek, dk, st') -> sk <> fzero -> l = l') /\
  (* one party: the secrets are the 2n+1 scalars in order, and the published contribution determines them *)
  (forall l sk ekp st', length l = (2 * n + 1)%nat -> FkeygenPartial (replay_rng E) b gens g_i delta gamma l = Ok (sk, ekp, st') -> st_s sk ++ st_t sk = l) /\
  (forall l l' sk sk' ekp st st', length l = (2 * n + 1)%nat -> length l' = (2 * n + 1)%nat ->
     FkeygenPartial (replay_rng E) b gens g_i delta gamma l = Ok (sk, ekp, st) -> FkeygenPartial (replay_rng E) b gens g_i delta gamma l' = Ok (sk', ekp, st') -> l = l') /\
  (* encryption: the randomness is the drawn scalar, and the first element shows whether it is used again *)
  (forall ek gs msg st ct r st', ek_X_0 ek <> gzero -> encrypt pf R msg ek gs b st = Ok (ct, r, st') -> r = fst (rand_scalar R st) /\ forall r', ct_X_r ct = r' [*] ek_X_0 ek -> r' = r) /\
  (* a share of a re-encryption: likewise *)
  (forall c_0 c ekd sk st w g_r st', re_encrypt_share R gens c_0 c ekd sk st = Ok (w, g_r, st') -> forall r', g_r = r' [*] eg_G gens -> r' = fst (rand_scalar R st)).
Proof.
  intros Hn Hle Hd HH HG. split; [intros st; unfold Fkeygen_dest; destruct (rand_scalar R st); reflexivity|]. split; [intros r r' H; apply smul_inj_scalar in H; assumption|]. split; [|split; [|split; [|split; [|split]]]].
  - intros l sk ek dk st' Hl Hk. destruct (tape_parts n l Hl) as (rho & s & t0 & t & v & Hs & Ht & Hv & ->). rewrite (keygen_replay b gens g_i delta gamma n) in Hk by assumption.
    cbn [hd]. exact (f_equal (fun o => match o with Ok (x, _, _, _) => x | _ => sk end) (eq_sym Hk)).
  - intros l l' sk sk' ek dk st st' Hl Hl' Hk Hk' Hsk.
    destruct (tape_parts n l Hl) as (rho & s & t0 & t & v & Hs & Ht & Hv & ->). destruct (tape_parts n l' Hl') as (rho' & s' & t0' & t' & v' & Hs' & Ht' & Hv' & ->).
    rewrite (keygen_replay b gens g_i delta gamma n) in Hk by assumption. rewrite (keygen_replay b gens g_i delta gamma n) in Hk' by assumption.
    assert (Esk : rho = sk) by exact (f_equal (fun o => match o with Ok (x, _, _, _) => x | _ => sk end) Hk).
    pose proof (eq_trans (f_equal (fun o => match o with Ok (_, x, _, _) => x | _ => ek end) Hk) (f_equal (fun o => match o with Ok (_, x, _, _) => x | _ => ek end) (eq_sym Hk'))) as Eek.
    pose proof (eq_trans (f_equal (fun o => match o with Ok (_, _, x, _) => x | _ => dk end) Hk) (f_equal (fun o => match o with Ok (_, _, x, _) => x | _ => dk end) (eq_sym Hk'))) as Edk.
    cbv beta iota in Eek, Edk. clear Hk Hk'.
    pose proof (f_equal ek_X Eek) as EX. pose proof (f_equal ek_Z Eek) as EZ. pose proof (f_equal dk_V_0 Edk) as E0. pose proof (f_equal dk_V_2 Edk) as E2.
    unfold ek_formula, dk_formula in EX, EZ, E0, E2. cbn [ek_X ek_Z dk_V_0 dk_V_2] in EX, EZ, E0, E2.
    apply (map_scaled_inj delta _ _ Hd) in EX. apply (map_scaled_inj (eg_H gens) _ _ HH) in EZ. apply smul_inj_scalar in E0; [|exact HH]. subst rho' rho s'.
    rewrite <- (map_map (fun b0 => fmul b0 sk) (fun a => a [*] eg_H gens) v), <- (map_map (fun b0 => fmul b0 sk) (fun a => a [*] eg_H gens) v') in E2.
    apply (map_scaled_inj (eg_H gens) _ _ HH) in E2. apply (map_fmul_inj sk _ _ Hsk) in E2. rewrite EZ, E2. reflexivity.
  - intros l sk ekp st' Hl Hk. destruct (tape_parts2 n l Hl) as (s & t0 & t & Hs & Ht & ->). rewrite (partial_replay b gens g_i delta gamma n) in Hk by assumption.
    assert (Esk : SecretKeyST s (t0 :: t) = sk) by exact (f_equal (fun o => match o with Ok (x, _, _) => x | _ => sk end) Hk). rewrite <- Esk. cbn [st_s st_t]. rewrite app_nil_r. reflexivity.
  - intros l l' sk sk' ekp st st' Hl Hl' Hk Hk'. destruct (tape_parts2 n l Hl) as (s & t0 & t & Hs & Ht & ->). destruct (tape_parts2 n l' Hl') as (s' & t0' & t' & Hs' & Ht' & ->).
    rewrite (partial_replay b gens g_i delta gamma n) in Hk by assumption. rewrite (partial_replay b gens g_i delta gamma n) in Hk' by assumption.
    pose proof (eq_trans (f_equal (fun o => match o with Ok (_, x, _) => x | _ => ekp end) Hk) (f_equal (fun o => match o with Ok (_, x, _) => x | _ => ekp end) (eq_sym Hk'))) as Eek. cbv beta iota in Eek.
    pose proof (f_equal ekp_X Eek) as EX. pose proof (f_equal ekp_Z Eek) as EZ. unfold ekp_formula in EX, EZ. cbn [ekp_X ekp_Z] in EX, EZ.
    apply (map_scaled_inj delta _ _ Hd) in EX. apply (map_scaled_inj (eg_H gens) _ _ HH) in EZ. rewrite EX, EZ. reflexivity.
  - intros ek gs msg st ct r st' HX He. unfold encrypt in He. apply bind_Ok_inv in He. destruct He as (d & _ & He). apply bind_Ok_inv in He. destruct He as ([[v r1] st1] & He & H2).
    unfold encrypt_decomposed_message in He. apply bind_Ok_inv in He. destruct He as (cnt & _ & He). destruct (negb _); [discriminate|]. destruct (_ <? _)%nat; [discriminate|].
    destruct (rand_scalar R st) as [r0 st0] eqn:Hr. apply bind_Ok_inv in He. destruct He as (chunks & _ & He). cbv zeta in He. cbn [fst].
    assert (Ev : r0 [*] ek_X_0 ek :: chunks ++ [msm_bigint (ek_commitment_key ek) (d ++ [into_bigint r0])] = v) by exact (f_equal (fun o => match o with Ok (x, _, _) => x | _ => v end) He).
    assert (Er : r0 = r1) by exact (f_equal (fun o => match o with Ok (_, x, _) => x | _ => r1 end) He). apply bind_Ok_inv in H2. destruct H2 as (ct' & Hct & H2).
    assert (Ec : ct' = ct) by exact (f_equal (fun o => match o with Ok (x, _, _) => x | _ => ct' end) H2). assert (Er' : r1 = r) by exact (f_equal (fun o => match o with Ok (_, x, _) => x | _ => r1 end) H2).
    subst v ct' r1 r. split; [reflexivity|]. intros r' H. unfold ct_of_vec in Hct. destruct (rev _) as [|psi cr]; [discriminate Hct|].
    assert (Ex : r0 [*] ek_X_0 ek = ct_X_r ct) by exact (f_equal (fun o => match o with Ok x => ct_X_r x | _ => gzero end) Hct). rewrite <- Ex in H. apply smul_inj_scalar in H; [symmetry; exact H|exact HX].
  - intros c_0 c ekd sk st w g_r st' H r' Hr. unfold re_encrypt_share in H. destruct (rand_scalar R st) as [r st1]. cbv zeta in H. apply bind_Ok_inv in H. destruct H as (w0 & _ & H). cbn [fst].
    assert (Eg : r [*] eg_G gens = g_r) by exact (f_equal (fun o => match o with Ok (_, x, _) => x | _ => g_r end) H). rewrite <- Eg in Hr. apply smul_inj_scalar in Hr; [symmetry; exact Hr|exact HG].
Qed.
End Matters.

(* A generator whose group elements are read from two recorded tapes (the identity when a tape is used up). *)
Definition points_rng (E : pairing) : rng_impl E :=
  RngImpl E (list (G1 E) * list (G2 E))
    (fun st => (fzero, st))
    (fun st => match fst st with [] => (gzero, st) | x :: l => (x, (l, snd st)) end)
    (fun st => match snd st with [] => (gzero, st) | x :: l => (x, (fst st, l)) end).
(* Generators made from a random source: the encryption generators are the first G1 element drawn and the G2 element drawn after
   it; the two commitment generators are two successive G1 draws.  Nothing else is drawn: on recorded tapes exactly those elements
   are consumed, so every pair of generators arises and equal generators only from equal draws. *)
Theorem C57_generators_randomness :
  forall (E : pairing) (R : rng_impl E) (st : rng_st R),
  (let st1 := snd (rand_g1 R st) in
   encryption_gens_new_using_rng R st = (EncryptionGens (fst (rand_g1 R st)) (fst (rand_g2 R st1)), snd (rand_g2 R st1)) /\
   chunked_commitment_gens_new_using_rng R st = (ChunkedCommitmentGens (fst (rand_g1 R st)) (fst (rand_g1 R st1)), snd (rand_g1 R st1))) /\
  (forall (g g' : G1 E) (h : G2 E) l1 l2,
   encryption_gens_new_using_rng (points_rng E) (g :: l1, h :: l2) = (EncryptionGens g h, (l1, l2)) /\
   chunked_commitment_gens_new_using_rng (points_rng E) (g :: g' :: l1, l2) = (ChunkedCommitmentGens g g', (l1, l2))).
Proof.
  intros E R st. split.
  - unfold encryption_gens_new_using_rng, chunked_commitment_gens_new_using_rng. destruct (rand_g1 R st) as [g st1]. cbn [fst snd].
    destruct (rand_g2 R st1), (rand_g1 R st1). split; reflexivity.
  - intros. split; reflexivity.
Qed.

(* ===== C58 ===== *)
Section Reuse.
Context {E : pairing}.
Add Ring Kr : (@scalar_ring_theory (K_of E)).
Lemma reuse_lin (a b : Fr E) (x g : G1 E) : (x [+] (a [*] g)) [+] [-] (x [+] (b [*] g)) = fsub a b [*] g.
Proof. glin. Qed.
End Reuse.
(* Two encryptions under the same key with the same randomness: the first elements are equal, and the difference of the i-th
   chunks of the ciphertexts is the difference of the i-th message chunks times g_i -- for any key, honest or not.  Hence equality
   of chunks is visible, and the whole message difference can be searched for chunk by chunk without any secret. *)
Theorem C58_reused_randomness_reveals_differences :
  forall (E : pairing) (ek : encryption_key E) g_i m m' c_0 c psi c_0' c' psi' r,
  encrypts ek g_i m (c_0 :: c ++ [psi]) r -> encrypts ek g_i m' (c_0' :: c' ++ [psi']) r ->
  c_0' = c_0 /\ length c = length m /\ length m' = length m /\ forall i, (i < length m)%nat ->
    nth i c gzero [+] [-] nth i c' gzero = fsub (of_Z (nth i m 0)) (of_Z (nth i m' 0)) [*] nth i g_i gzero /\
    (nth i g_i gzero <> gzero -> 0 <= nth i m 0 < modulus (K_of E) -> 0 <= nth i m' 0 < modulus (K_of E) ->
     (nth i c gzero = nth i c' gzero <-> nth i m 0 = nth i m' 0)).
Proof.
  intros E ek g_i m m' c_0 c psi c_0' c' psi' r H H'. apply encrypts_inv in H, H'.
  destruct H as (n & (_ & LX & _) & Hl & Hgl & Hct). destruct H' as (n' & (_ & LX' & _) & Hl' & _ & Hct').
  apply ct_vec_eq in Hct, Hct'. destruct Hct as (-> & -> & _). destruct Hct' as (-> & -> & _).
  split; [reflexivity|]. split; [apply body_formula_length|]. split; [lia|]. intros i Hi. unfold ct_formula; cbn [ct_enc_chunks ct_X_r]. rewrite !body_formula_nth by lia.
  split; [apply reuse_lin|]. intros Hg Hm Hm'. split.
  - intros He. apply gadd_cancel_l in He. apply smul_inj_scalar in He; [|exact Hg]. apply (f_equal sval) in He. rewrite !of_Z_small in He by assumption. exact He.
  - intros ->. reflexivity.
Qed.
(* with different randomness (and X_0 not the identity) the first elements differ, so reuse itself is visible *)
Theorem C58_fresh_randomness_changes_first_element :
  forall (E : pairing) (ek : encryption_key E) g_i m m' c_0 c psi c_0' c' psi' r r',
  encrypts ek g_i m (c_0 :: c ++ [psi]) r -> encrypts ek g_i m' (c_0' :: c' ++ [psi']) r' -> ek_X_0 ek <> gzero ->
  (c_0 = c_0' <-> r = r').
Proof.
  intros E ek g_i m m' c_0 c psi c_0' c' psi' r r' H H' HX. apply encrypts_inv in H, H'.
  destruct H as (n & _ & _ & _ & Hct). destruct H' as (n' & _ & _ & _ & Hct'). apply ct_vec_eq in Hct, Hct'. destruct Hct as (-> & _ & _). destruct Hct' as (-> & _ & _).
  split; [apply smul_inj_scalar; exact HX|intros ->; reflexivity].
Qed.

(* ----- concrete cases ----- *)
Example C56_case : exists sk ek dk st', keygen (replay_rng E61) 5 x_gens x_gi x_delta x_gamma [] = Ok (sk, ek, dk, st') /\
  forall pf msg, encrypt pf (replay_rng E61) msg ek x_gi 5 [] = Err (UnexpectedBase 5).
Proof.
  destruct (C56_key_generation_refuses_unsupported_sizes_refuted E61 (replay_rng E61) 5 x_gens x_gi x_delta x_gamma [] 13) as (sk & ek & dk & st' & H & _ & _ & H2 & _);
    [lia|unfold supported; lia|vm_compute; reflexivity|vm_compute; lia|]. exists sk, ek, dk, st'. split; [exact H|]. intros pf msg. apply H2.
Qed.
Example C57_matters_case : chunks_count (K_of E61) 16 = Ok (Z.of_nat 4) /\ (4 <= length x_gi)%nat /\ x_delta <> gzero /\ eg_H x_gens <> gzero /\ eg_G x_gens <> gzero /\
  exists ek dk, keygen (replay_rng E61) 16 x_gens x_gi x_delta x_gamma (map nz61 [1; 2; 3; 4; 5; 6; 7; 8; 9; 10; 11; 12; 13; 14]) = Ok (nz61 1, ek, dk, []).
Proof.
  split; [vm_compute; reflexivity|]. split; [vm_compute; lia|].
  split; [intros H; apply (f_equal sval) in H; vm_compute in H; discriminate H|]. split; [intros H; apply (f_equal sval) in H; vm_compute in H; discriminate H|].
  split; [intros H; apply (f_equal sval) in H; vm_compute in H; discriminate H|].
  pose proof (keygen_replay 16 x_gens x_gi x_delta x_gamma 4 (nz61 1) (map nz61 [2; 3; 4; 5]) (nz61 6) (map nz61 [7; 8; 9; 10]) (map nz61 [11; 12; 13; 14]) []) as X.
  eexists _, _. apply X; reflexivity || (vm_compute; reflexivity) || (vm_compute; lia).
Qed.
