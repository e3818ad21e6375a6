(* SoundFacts.v -- acceptance on a tape, extraction and the counting argument (for C59-C60) *)
From Verif Require Import Base BaseFacts Algebra Utils UtilsFacts Setup Keygen Encryption Circuit CircuitFacts CircuitSat CommitmentFacts VecFacts KeySpec KeygenFacts
  EncryptFacts DecryptFacts Spec VerifyFacts Protocol ReencFacts DistFacts Groth16 ArkGroth16 PolyFacts Groth16Spec ArkFacts Groth16Facts SchwartzZippel SoundCore SoundSpec
  SoundAlg SoundGame SoundLink.

(* ---------- union bound ---------- *)
Section Union.
Context {K : prime_field}.
Notation F := (scalar K).
(* f is a polynomial function on F^k, not identically zero, of total degree at most D *)
Definition small_zeros (k : nat) (D : Z) (f : list F -> F) : Prop :=
  exists d a, pfun k d f /\ length a = k /\ f a <> fzero /\ deg_sum k d <= D.
Lemma split_list {A} (P : A -> bool) (L : list A) : NoDup L -> exists L1 L2, NoDup L1 /\ NoDup L2 /\ (length L = length L1 + length L2)%nat /\
  (forall x, In x L1 -> In x L /\ P x = true) /\ (forall x, In x L2 -> In x L /\ P x = false).
Proof.
  intros H. exists (filter P L), (filter (fun x => negb (P x)) L). split; [apply NoDup_filter; exact H|]. split; [apply NoDup_filter; exact H|].
  split; [apply filter_split|]. split; intros x Hx; apply filter_In in Hx; [exact Hx|]. rewrite Bool.negb_true_iff in Hx. exact Hx.
Qed.
Theorem union_bound k : forall (fs : list (Z * (list F -> F))) (L : list (list F)),
  Forall (fun Df => small_zeros k (fst Df) (snd Df)) fs -> NoDup L ->
  (forall l, In l L -> length l = k /\ Exists (fun Df => snd Df l = fzero) fs) ->
  Z.of_nat (length L) * modulus K <= zsum (map fst fs) * modulus K ^ Z.of_nat k.
Proof.
  pose proof (@modulus_gt1 K) as Hp. intros fs. induction fs as [|[D f] fs IH]; intros L Hs Hnd HL.
  - destruct L as [|l L]; [cbn; lia|]. destruct (HL l (or_introl eq_refl)) as [_ H]. inversion H.
  - apply Forall_cons_iff in Hs; destruct Hs as [(d & a & Hf & Ha & Hn & Hd) Hs']. cbn [fst snd map zsum] in *.
    destruct (split_list (fun l => feqb (f l) fzero) L Hnd) as (L1 & L2 & N1 & N2 & Len & H1 & H2).
    assert (B1 : Z.of_nat (length L1) * modulus K <= deg_sum k d * modulus K ^ Z.of_nat k).
    { apply (zeros_bound k d f a L1 Hf Ha Hn N1). intros l Hl. destruct (H1 l Hl) as [Hin Hz]. split; [apply HL; exact Hin|]. apply feqb_spec; exact Hz. }
    assert (B2 : Z.of_nat (length L2) * modulus K <= zsum (map fst fs) * modulus K ^ Z.of_nat k).
    { apply IH; [exact Hs'|exact N2|]. intros l Hl. destruct (H2 l Hl) as [Hin Hz]. destruct (HL l Hin) as [Hk Hex]. split; [exact Hk|].
      apply Exists_cons in Hex. destruct Hex as [X|Hex]; [|exact Hex]. cbn [snd] in X. apply feqb_spec in X. congruence. }
    assert (0 < modulus K ^ Z.of_nat k) by (apply Z.pow_pos_nonneg; lia). rewrite Len, Nat2Z.inj_add. nia.
Qed.
End Union.

Section Facts.
Context {E : pairing}.
Notation K := (K_of E).
Notation F := (Fr E).
Add Ring Kr : (@scalar_ring_theory K).
Notation "x +f y" := (fadd x y) (at level 50, left associativity).
Notation "x *f y" := (fmul x y) (at level 40, left associativity).
Notation "x -f y" := (fsub x y) (at level 50, left associativity).
Notation e i env := (nth i env fzero).

Variables (n : nat) (cs : csys K) (xs : list F) (pf : profile) (domain : nat -> option (list F)) (fuel : nat) (b : Z) (gens : encryption_gens E) (S0 : strategy E).
Let ni := cs_num_inst cs.
Let nw := cs_num_wit cs.
Let nc := length (cs_cons cs).
Let N := length xs.
Let k := (3 * n + 7)%nat.
Notation G := (eg_G gens).
Notation H := (eg_H gens).
Hypothesis HG : G <> gzero.
Hypothesis HH : H <> gzero.
Hypothesis Hdom_ok : domain_ok domain.
Hypothesis Hb : 0 < b <= modulus_bit_size K.
Hypothesis Hcount : chunks_count K b = Ok (Z.of_nat n).
Hypothesis Hn0 : (0 < n)%nat.
Hypothesis Hcs : generate_constraints (BitsizeCheckCircuit b (Z.of_nat n) None true) (@cs_new K Circuit.Setup) = Ok cs.
Hypothesis Hdomain : domain (nc + ni)%nat = Some xs.

Lemma n256 : (n < 256)%nat.
Proof. pose proof (chunks_count_range _ _ _ Hcount). lia. Qed.
Lemma cs_shape : ni = S n /\ cs_cons cs = @all_cons K (Z.to_nat b) (circuit_vars true n) 0 /\ cs_ok cs.
Proof.
  destruct (@generate_setup K b (Z.of_nat n) true ltac:(lia)) as (s & Hs & Hi & Hw & Hc). rewrite Hcs in Hs. injection Hs as <-. rewrite Nat2Z.id in *.
  split; [exact Hi|]. split; [exact Hc|]. unfold cs_ok. rewrite Hi, Hw, Hc. cbn [wit0]. apply all_cons_ok.
  - unfold circuit_vars, alloc_vars. rewrite Forall_map. apply Forall_forall. intros i Hi'. apply in_seq in Hi'. cbn. lia.
  - unfold circuit_vars. rewrite alloc_vars_length. lia.
Qed.
Let Hni : ni = S n := proj1 cs_shape.

(* ---------- acceptance ---------- *)
Lemma exp_iff {T : group K} (g : T) (w u x y : F) : g <> gzero -> u *f w = fone -> ((w *f x) [*] g = (w *f y) [*] g <-> y -f x = fzero).
Proof.
  intros Hg Hw. split.
  - intros Z. apply (smul_inj_scalar _ _ _ Hg) in Z. apply (f_equal (fmul u)) in Z.
    assert (W : forall z, u *f (w *f z) = z) by (intros z; transitivity ((u *f w) *f z); [ring|rewrite Hw; ring]). rewrite !W in Z. rewrite Z. ring.
  - intros Z. apply fsub_zero_eq in Z. rewrite Z. reflexivity.
Qed.
Section Tape.
Variables (env : list F) (pk : proving_key E) (sk : F) (ek : encryption_key E) (dk : decryption_key E) (st' : list F).
Hypothesis Hl : length env = k.
Hypothesis Hv : vanishing_at xs (e 4 env) <> fzero.
Hypothesis Hs : setup_for_groth16 (ark_backend pf domain fuel) (replay_rng E) b gens env = Ok (pk, sk, ek, dk, st').
Let ST := setup_tape n cs xs pf domain fuel b gens Hcount Hcs Hdomain Hni env pk sk ek dk st' Hl Hv Hs.
Let w := finv (e 2 env *f e 3 env).
Lemma tape_gd : (e 2 env *f e 3 env) *f w = fone.
Proof.
  destruct ST as (Hga & Hde & _). unfold w. apply finv_r. intros Z; apply fmul_integral in Z; destruct Z; contradiction.
Qed.
Lemma tape_g1 c : dot c (public_g1 gens pk ek) = (w *f fdot c (g1e n cs xs env)) [*] G.
Proof.
  destruct ST as (_ & _ & _ & _ & _ & _ & _ & _ & _ & P1 & _). rewrite P1. fold w. rewrite <- (map_map (fun x => w *f x) (fun a => a [*] G)), dot_smul_map. f_equal.
  rewrite (fdot_map_r c (fun x => x) (g1e n cs xs env) w), map_id. reflexivity.
Qed.
Lemma tape_g2 c : dot c (public_g2 gens pk ek dk) = fdot c (g2e n cs xs env) [*] H.
Proof. destruct ST as (_ & _ & _ & _ & _ & _ & _ & _ & _ & _ & P2). rewrite P2. apply dot_smul_map. Qed.
Let E1 := fun c => fdot c (g1e n cs xs env).

Theorem accept_com : verify_commitment (forge_ciphertext S0 gens pk ek) (prepare_ek ek) (prepare_gens gens) = Ok tt <->
  length (sg_chunks S0) = n /\ f_com n cs xs S0 env = fzero.
Proof.
  destruct ST as (_ & _ & _ & _ & Hek & _). rewrite Hek at 2.
  rewrite (verify_exact _ _ _ _ _ _ _ n); [|exact HH|rewrite map_length, seq_length; reflexivity|rewrite map_length, seq_length; reflexivity|unfold gis; rewrite map_length, seq_length; lia|exact n256].
  cbn [forge_ciphertext ct_commitment ct_X_r ct_enc_chunks]. rewrite map_length.
  assert (T : e_t n env 0 :: map (fun j => e_t n env (S j)) (seq 0 n) = map (e_t n env) (seq 0 (S n))).
  { cbn [seq map]. f_equal. rewrite <- seq_shift, map_map. reflexivity. }
  change (e_t n env 0 [*] dot (sg_X_r S0) (public_g1 gens pk ek) [+] dot (map (fun j => e_t n env (S j)) (seq 0 n)) (map (fun c => dot c (public_g1 gens pk ek)) (sg_chunks S0)))
    with (dot (e_t n env 0 :: map (fun j => e_t n env (S j)) (seq 0 n)) (map (fun c => dot c (public_g1 gens pk ek)) (sg_X_r S0 :: sg_chunks S0))).
  rewrite T, tape_g1. rewrite (map_ext _ (fun c => (w *f E1 c) [*] G) (fun c => tape_g1 c)).
  rewrite <- (map_map (fun c => w *f E1 c) (fun a => a [*] G)), dot_smul_map, fdot_map_r. rewrite (exp_iff G w _ _ _ HG tape_gd).
  unfold f_com, eq_com. fold (g1e n cs xs env). rewrite (fdot_comm (map (fun c => fdot c (g1e n cs xs env)) (sg_X_r S0 :: sg_chunks S0))). reflexivity.
Qed.
Theorem accept_qap : verify_proof (prepare_verifying_key (gpk_vk (pk_pk pk))) (forge_proof S0 gens pk ek dk) (forge_ciphertext S0 gens pk ek) = Ok tt <->
  f_qap n cs xs S0 env = fzero.
Proof.
  destruct ST as (Hga & Hde & _ & _ & _ & _ & _ & _ & Hvk & _). rewrite Hvk. replace (cs_num_inst cs) with (S n) by (symmetry; exact Hni). cbn [seq map].
  erewrite verify_proof_unfold by reflexivity. cbn [vk_delta_g2 vk_gamma_g2 vk_alpha_g1 vk_beta_g2 forge_proof forge_ciphertext pr_a pr_b pr_c ct_X_r ct_enc_chunks].
  assert (Gs : dot (sg_X_r S0) (public_g1 gens pk ek) [+] gsum (map (fun c => dot c (public_g1 gens pk ek)) (sg_chunks S0)) = (w *f fsum (map E1 (sg_X_r S0 :: sg_chunks S0))) [*] G).
  { change (dot (sg_X_r S0) (public_g1 gens pk ek) [+] gsum (map (fun c => dot c (public_g1 gens pk ek)) (sg_chunks S0)))
      with (gsum (map (fun c => dot c (public_g1 gens pk ek)) (sg_X_r S0 :: sg_chunks S0))).
    rewrite (map_ext _ (fun c => (w *f E1 c) [*] G) (fun c => tape_g1 c)). rewrite <- (map_map (fun c => w *f E1 c) (fun a => a [*] G)), gsum_map_smul, fsum_map_mul. reflexivity. }
  rewrite Gs, !tape_g1, tape_g2. rewrite !pair_neg_r, <- smul_fadd. rewrite !pair_smul_r, !pair_smul_l, <- ?smul_fmul.
  set (B := fdot (sg_b S0) (g2e n cs xs env)) in *. set (X := fsum (map E1 (sg_X_r S0 :: sg_chunks S0))) in *.
  assert (Hp : pair G (prep H) <> gzero) by (intros Z; apply pair_nondeg in Z; destruct Z; contradiction).
  match goal with |- (if geqb ?x ?y then _ else _) = _ <-> _ => transitivity (x = y); [rewrite <- (geqb_spec x y); destruct (geqb x y); split; congruence|] end.
  set (u := e 2 env *f e 3 env) in *. set (q0 := qq cs xs (e 0 env) (e 1 env) (e 4 env) 0).
  transitivity ((w *f (u *f (e 0 env *f e 1 env))) [*] pair G (prep H) = (w *f (B *f E1 (sg_a S0) -f e 3 env *f E1 (sg_c S0) -f e 2 env *f (X +f e 3 env *f q0))) [*] pair G (prep H)).
  - pose proof tape_gd as TG. fold u in TG. split; intros Z.
    + transitivity ((e 1 env *f e 0 env) [*] pair G (prep H)).
      * f_equal. transitivity ((u *f w) *f (e 0 env *f e 1 env)); [ring|rewrite TG; ring].
      * rewrite <- Z. rewrite <- !smul_fneg, <- !smul_fadd. f_equal.
        transitivity (B *f (w *f E1 (sg_a S0)) +f fneg (e 3 env *f (w *f E1 (sg_c S0))) +f fneg (e 2 env *f (w *f X +f (u *f w) *f (q0 *f finv (e 2 env))))); [rewrite TG; unfold E1, q0; ring|].
        transitivity (B *f (w *f E1 (sg_a S0)) +f fneg (e 3 env *f (w *f E1 (sg_c S0))) +f fneg (e 2 env *f (w *f X +f w *f e 3 env *f q0 *f (e 2 env *f finv (e 2 env))))); [unfold u; ring|].
        rewrite finv_r by exact Hga. ring.
    + transitivity ((w *f (u *f (e 0 env *f e 1 env))) [*] pair G (prep H)).
      2:{ f_equal. transitivity ((u *f w) *f (e 0 env *f e 1 env)); [ring|rewrite TG; ring]. }
      rewrite Z. rewrite <- !smul_fneg, <- !smul_fadd. f_equal.
      transitivity (B *f (w *f E1 (sg_a S0)) +f fneg (e 3 env *f (w *f E1 (sg_c S0))) +f fneg (e 2 env *f (w *f X +f (u *f w) *f (q0 *f finv (e 2 env))))); [rewrite TG; unfold E1, q0; ring|].
      transitivity (B *f (w *f E1 (sg_a S0)) +f fneg (e 3 env *f (w *f E1 (sg_c S0))) +f fneg (e 2 env *f (w *f X +f w *f e 3 env *f q0 *f (e 2 env *f finv (e 2 env))))); [unfold u; ring|].
      rewrite finv_r by exact Hga. ring.
  - rewrite (exp_iff (pair G (prep H)) w u _ _ Hp tape_gd).
    assert (Q : f_qap n cs xs S0 env = (B *f E1 (sg_a S0) -f e 3 env *f E1 (sg_c S0) -f e 2 env *f (X +f e 3 env *f q0)) -f u *f (e 0 env *f e 1 env)).
    { unfold f_qap, eq_qap. fold (g1e n cs xs env) (g2e n cs xs env). fold B. unfold X, E1, u, q0. ring. }
    rewrite Q. reflexivity.
Qed.
Theorem accept_poly :
  verify_commitment_and_proof (forge_ciphertext S0 gens pk ek) (forge_proof S0 gens pk ek dk) (prepare_verifying_key (gpk_vk (pk_pk pk))) (prepare_ek ek) (prepare_gens gens) = Ok tt <->
  length (sg_chunks S0) = n /\ f_com n cs xs S0 env = fzero /\ f_qap n cs xs S0 env = fzero.
Proof.
  rewrite <- accept_qap, <- and_assoc, <- accept_com. unfold verify_commitment_and_proof.
  destruct (verify_commitment _ _ _) as [[]|err|]; cbn [bind]; split; try (intros Z; split; [reflexivity|exact Z]); try (intros [_ Z]; exact Z); try discriminate; intros [Z _]; discriminate Z.
Qed.
End Tape.

(* ---------- every choice of exponents is a tape ---------- *)
Definition tape_of (al be ga de ta rh : F) (s t v : nat -> F) : list F :=
  al :: be :: ga :: de :: ta :: rh :: map s (seq 0 n) ++ map t (seq 0 (S n)) ++ map v (seq 0 n).
Lemma tape_of_length al be ga de ta rh s t v : length (tape_of al be ga de ta rh s t v) = k.
Proof. unfold tape_of, k. cbn [length]. rewrite !app_length, !map_length, !seq_length. lia. Qed.
Lemma tape_of_s al be ga de ta rh s t v j : (j < n)%nat -> e_s (tape_of al be ga de ta rh s t v) j = s j.
Proof.
  intros Hj. unfold e_s, tape_of. cbn [nth Nat.add]. rewrite app_nth1 by (rewrite map_length, seq_length; exact Hj). apply (map_seq_nth s n j fzero Hj).
Qed.
Lemma tape_of_t al be ga de ta rh s t v j : (j < S n)%nat -> e_t n (tape_of al be ga de ta rh s t v) j = t j.
Proof.
  intros Hj. unfold e_t, tape_of. cbn [nth Nat.add]. rewrite app_nth2; rewrite map_length, seq_length; [|lia]. rewrite app_nth1 by (rewrite map_length, seq_length; lia).
  replace (n + j - n)%nat with j by lia. apply (map_seq_nth t (S n) j fzero Hj).
Qed.
Lemma tape_of_v al be ga de ta rh s t v j : (j < n)%nat -> e_v n (tape_of al be ga de ta rh s t v) j = v j.
Proof.
  intros Hj. unfold e_v, tape_of. replace (7 + 2 * n + j)%nat with (6 + (n + (S n + j)))%nat by lia. cbn [nth Nat.add].
  rewrite app_nth2; rewrite map_length, seq_length; [|lia]. rewrite app_nth2; rewrite map_length, seq_length; [|lia].
  replace (n + S (n + j) - n - S n)%nat with j by lia. apply (map_seq_nth v n j fzero Hj).
Qed.
Lemma sum_n_ext (f g : nat -> F) : (forall j, (j < n)%nat -> f j = g j) -> sum_n n f = sum_n n g.
Proof. intros Hf. unfold sum_n. f_equal. apply map_ext_in. intros j Hj. apply in_seq in Hj. apply Hf. lia. Qed.
Lemma g1b_ext al be ga de ta s t s' t' : (forall j, (j < n)%nat -> s j = s' j) -> (forall j, (j < S n)%nat -> t j = t' j) ->
  g1b n cs xs al be ga de ta s t = g1b n cs xs al be ga de ta s' t'.
Proof.
  intros Hs Ht. unfold g1b, tpart, rest. rewrite (sum_n_ext s s' Hs), (Ht 0%nat) by lia.
  rewrite (sum_n_ext (fun j => s j *f t (S j)) (fun j => s' j *f t' (S j))) by (intros j Hj; rewrite Hs, Ht by lia; reflexivity).
  rewrite (map_ext_in (fun j => t (S j) *f _) (fun j => t' (S j) *f (de *f qq cs xs al be ta (S j)))) by (intros j Hj; apply in_seq in Hj; rewrite Ht by lia; reflexivity).
  rewrite (map_ext_in (fun j => ga *f de *f (de *f s j)) (fun j => ga *f de *f (de *f s' j))) by (intros j Hj; apply in_seq in Hj; rewrite Hs by lia; reflexivity).
  reflexivity.
Qed.
Lemma g2b_ext be ga de ta rh s t v s' t' v' : (forall j, (j < n)%nat -> s j = s' j) -> (forall j, (j < S n)%nat -> t j = t' j) -> (forall j, (j < n)%nat -> v j = v' j) ->
  g2b n cs xs be ga de ta rh s t v = g2b n cs xs be ga de ta rh s' t' v'.
Proof.
  intros Hs Ht Hv. unfold g2b.
  rewrite (map_ext_in t t') by (intros j Hj; apply in_seq in Hj; apply Ht; lia).
  rewrite (map_ext_in (fun j => s j *f v j) (fun j => s' j *f v' j)) by (intros j Hj; apply in_seq in Hj; rewrite Hs, Hv by lia; reflexivity).
  rewrite (map_ext_in (fun j => v j *f rh) (fun j => v' j *f rh)) by (intros j Hj; apply in_seq in Hj; rewrite Hv by lia; reflexivity).
  reflexivity.
Qed.
Lemma com_everywhere : (forall env, length env = k -> f_com n cs xs S0 env = fzero) ->
  forall al be ga de ta s t, eq_com n cs xs S0 al be ga de ta s t = fzero.
Proof.
  intros Hz al be ga de ta s t. set (v := fun _ : nat => @fzero K). specialize (Hz (tape_of al be ga de ta fzero s t v) (tape_of_length _ _ _ _ _ _ _ _ _)).
  unfold f_com, eq_com in *. cbn [tape_of nth] in Hz.
  rewrite (g1b_ext al be ga de ta _ _ s t) in Hz by (intros j Hj; first [apply tape_of_s|apply tape_of_t]; exact Hj).
  rewrite (map_ext_in (e_t n _) t (seq 0 (S n))) in Hz by (intros j Hj; apply in_seq in Hj; apply tape_of_t; lia). exact Hz.
Qed.
Lemma qap_everywhere : (forall env, length env = k -> f_qap n cs xs S0 env = fzero) ->
  forall al be ga de ta rh s t v, eq_qap n cs xs S0 al be ga de ta rh s t v = fzero.
Proof.
  intros Hz al be ga de ta rh s t v. specialize (Hz (tape_of al be ga de ta rh s t v) (tape_of_length _ _ _ _ _ _ _ _ _)).
  unfold f_qap, eq_qap in *. cbn [tape_of nth] in Hz.
  rewrite (g1b_ext al be ga de ta _ _ s t) in Hz by (intros j Hj; first [apply tape_of_s|apply tape_of_t]; exact Hj).
  rewrite (g2b_ext be ga de ta rh _ _ _ s t v) in Hz by (intros j Hj; first [apply tape_of_s|apply tape_of_t|apply tape_of_v]; exact Hj). exact Hz.
Qed.

(* ---------- extraction ---------- *)
Hypothesis big : 8 < modulus K.
Let xs_ok : NoDup xs /\ (nc + ni <= N)%nat := Hdom_ok _ _ Hdomain.

Theorem forged_is_encryption_at env pk sk ek dk st' : length env = k -> vanishing_at xs (e 4 env) <> fzero ->
  setup_for_groth16 (ark_backend pf domain fuel) (replay_rng E) b gens env = Ok (pk, sk, ek, dk, st') ->
  length (sg_chunks S0) = n -> (forall al be ga de ta t, eq_com n cs xs S0 al be ga de ta (e_s env) t = fzero) ->
  forge_ciphertext S0 gens pk ek = ct_formula ek (gis n cs xs gens env) (extracted_chunks n S0) (extracted_r n S0).
Proof.
  intros Hl Hv Hs Hlen Hcom.
  destruct (setup_tape n cs xs pf domain fuel b gens Hcount Hcs Hdomain Hni env pk sk ek dk st' Hl Hv Hs)
    as (Hga & Hde & Hgs & _ & Hek & Hdk & _ & _ & Hvk & P1 & P2).
  set (w := finv (e 2 env *f e 3 env)) in *.
  assert (Hgd : e 2 env *f e 3 env <> fzero) by (intros Z; apply fmul_integral in Z; destruct Z; contradiction).
  assert (D1 : forall c, dot c (public_g1 gens pk ek) = (w *f fdot c (g1e n cs xs env)) [*] G).
  { intros c. rewrite P1. rewrite <- (map_map (fun x => w *f x) (fun a => a [*] G)), dot_smul_map. f_equal.
    rewrite (fdot_map_r c (fun x => x) (g1e n cs xs env) w), map_id. reflexivity. }
  assert (W1 : forall x, w *f (e 2 env *f e 3 env *f x) = x).
  { intros x. transitivity ((e 2 env *f e 3 env *f w) *f x); [ring|]. unfold w. rewrite finv_r by exact Hgd. ring. }
  assert (W3 : forall x, w *f (e 3 env *f x) = finv (e 2 env) *f x).
  { intros x. transitivity (w *f (e 2 env *f e 3 env *f (finv (e 2 env) *f x))); [|apply W1]. transitivity (w *f e 3 env *f (e 2 env *f finv (e 2 env)) *f x); [rewrite finv_r by exact Hga; ring|ring]. }
  pose proof (fun i Hi => com_value n cs xs big (proj1 xs_ok) (proj2 xs_ok) Hni Hn0 S0 Hlen (e_s env) Hcom i (e 0 env) (e 1 env) (e 2 env) (e 3 env) (e 4 env) (e_t n env) Hi) as V.
  pose proof (psi_value n cs xs big (proj2 xs_ok) Hni Hn0 S0 Hlen (e_s env) Hcom (e 0 env) (e 1 env) (e 2 env) (e 3 env) (e 4 env) (e_t n env)) as Vp.
  fold (g1e n cs xs env) in V, Vp.
  assert (Em : map of_Z (extracted_chunks n S0) = pad n (sg_commitment S0)).
  { unfold extracted_chunks, pad. rewrite map_map. apply map_ext. intros j. apply of_Z_sval. }
  assert (Ln : length (extracted_chunks n S0) = n) by (unfold extracted_chunks; rewrite map_length, seq_length; reflexivity).
  assert (En : forall j, (j < n)%nat -> of_Z (nth j (extracted_chunks n S0) 0) = nth j (sg_commitment S0) fzero).
  { intros j Hj. unfold extracted_chunks. rewrite (map_seq_nth _ n j 0 Hj). apply of_Z_sval. }
  unfold forge_ciphertext, ct_formula. f_equal.
  - rewrite D1. specialize (V 0%nat ltac:(lia)). cbn [nth lin] in V. rewrite V. rewrite Hek. cbn [ek_X_0 ek_formula]. rewrite <- smul_fmul. f_equal.
    unfold extracted_r. transitivity (w *f (e 2 env *f e 3 env *f (nth n (sg_commitment S0) fzero *f e 3 env))); [ring|apply W1].
  - unfold body_formula. rewrite Ln. rewrite (map_eq_seq (fun c => dot c (public_g1 gens pk ek)) [] (sg_chunks S0) n Hlen).
    apply map_ext_in. intros j Hj. apply in_seq in Hj. rewrite En by lia. rewrite D1. pose proof (V (S j) ltac:(lia)) as Vj. cbn [nth] in Vj. rewrite Vj.
    change (nth (S j) (lin n cs xs (sg_commitment S0) (e 0 env) (e 1 env) (e 2 env) (e 3 env) (e 4 env) (e_s env)) fzero) with (nth (S j) (lin n cs xs (sg_commitment S0) (e 0 env) (e 1 env) (e 2 env) (e 3 env) (e 4 env) (e_s env)) fzero).
    rewrite lin_nth by lia. rewrite Hek at 1. cbn [ek_X ek_formula]. rewrite map_map. rewrite (map_seq_nth _ n j gzero) by lia.
    unfold gis. rewrite (map_seq_nth _ n j gzero) by lia. rewrite <- !smul_fmul, <- smul_fadd. f_equal. unfold extracted_r.
    set (c := nth j (sg_commitment S0) fzero). set (r := nth n (sg_commitment S0) fzero). set (q := qq cs xs (e 0 env) (e 1 env) (e 4 env) (S j)).
    transitivity (w *f (e 3 env *f (c *f q)) +f w *f (e 2 env *f e 3 env *f (r *f e_s env j *f e 3 env))); [ring|]. rewrite W1, W3. ring.
  - rewrite D1, Vp. rewrite <- tpart_lin. unfold tpart. unfold psi_formula. rewrite Em. rewrite Hek. cbn [ek_Y ek_P_1 ek_formula].
    rewrite fdot_app_r, map_length, seq_length, fdot_single. fold (extracted_r n S0).
    rewrite (scale_as_map _ _ n) by (try (rewrite map_length, seq_length; reflexivity); unfold gis; rewrite map_length, seq_length; lia).
    rewrite (map_ext_in (fun i => nth i _ fzero [*] nth i (gis n cs xs gens env) gzero) (fun j => (w *f (e_t n env (S j) *f (e 3 env *f qq cs xs (e 0 env) (e 1 env) (e 4 env) (S j)))) [*] G)).
    2:{ intros j Hj. apply in_seq in Hj. unfold gis. rewrite !(map_seq_nth _ n j) by lia. rewrite <- smul_fmul. f_equal.
        transitivity (e_t n env (S j) *f (w *f (e 3 env *f qq cs xs (e 0 env) (e 1 env) (e 4 env) (S j)))); [rewrite W3; ring|ring]. }
    rewrite <- (map_map (fun j => w *f (e_t n env (S j) *f (e 3 env *f qq cs xs (e 0 env) (e 1 env) (e 4 env) (S j)))) (fun a => a [*] G)), dot_smul_map.
    rewrite pad_fdot by (rewrite map_length, seq_length; reflexivity). rewrite fdot_map_r.
    rewrite <- !smul_fmul, <- smul_fadd. f_equal.
    rewrite (fdot_as_fsum (map (e_s env) (seq 0 n)) _ n) by (rewrite map_length, seq_length; reflexivity). 
    replace (fsum (map (fun i => nth i (map (e_s env) (seq 0 n)) fzero *f nth i (map (fun j => e_t n env (S j)) (seq 0 n)) fzero) (seq 0 n))) with (sum_n n (fun j => e_s env j *f e_t n env (S j))).
    2:{ unfold sum_n. f_equal. apply map_ext_in. intros j Hj. apply in_seq in Hj. rewrite !(map_seq_nth _ n j fzero) by lia. reflexivity. }
    set (T := e_t n env 0 +f _). set (r := extracted_r n S0). set (Q := fdot _ _).
    transitivity (w *f Q +f w *f (e 2 env *f e 3 env *f (r *f (T *f e 3 env)))); [ring|]. rewrite W1. ring.
Qed.
Theorem forged_is_encryption env pk sk ek dk st' : length env = k -> vanishing_at xs (e 4 env) <> fzero ->
  setup_for_groth16 (ark_backend pf domain fuel) (replay_rng E) b gens env = Ok (pk, sk, ek, dk, st') ->
  length (sg_chunks S0) = n -> (forall al be ga de ta s t, eq_com n cs xs S0 al be ga de ta s t = fzero) ->
  forge_ciphertext S0 gens pk ek = ct_formula ek (gis n cs xs gens env) (extracted_chunks n S0) (extracted_r n S0).
Proof. intros H1 H2 H3 H4 H5. exact (forged_is_encryption_at env pk sk ek dk st' H1 H2 H3 H4 (fun al be ga de ta t => H5 al be ga de ta (e_s env) t)). Qed.
Theorem forged_digits_at s rh v : length (sg_chunks S0) = n -> (forall al be ga de ta t, eq_com n cs xs S0 al be ga de ta s t = fzero) ->
  (forall al be ga de ta t, eq_qap n cs xs S0 al be ga de ta rh s t v = fzero) -> digits_ok b (extracted_chunks n S0).
Proof.
  intros Hlen Hcom Hqap. pose proof (qap_satisfied n cs xs big (proj1 xs_ok) (proj2 xs_ok) Hni Hn0 (proj2 (proj2 cs_shape)) S0 Hlen s Hcom rh v Hqap) as Q.
  rewrite (proj1 (proj2 cs_shape)) in Q.
  assert (R : Forall (fun v => sval v < 2 ^ Z.of_nat (Z.to_nat b)) (pad n (sg_commitment S0))).
  { apply (satisfiable_public (Z.to_nat b)); [lia|]. rewrite pad_length. eexists. exact Q. }
  rewrite Z2Nat.id in R by lia. unfold digits_ok, extracted_chunks. unfold pad in R. rewrite Forall_map in *. eapply Forall_impl; [|exact R].
  intros j Hj. cbv beta in Hj. pose proof (sval_range (nth j (sg_commitment S0) fzero)). unfold into_bigint. lia.
Qed.
Theorem forged_digits : length (sg_chunks S0) = n -> (forall al be ga de ta s t, eq_com n cs xs S0 al be ga de ta s t = fzero) ->
  (forall al be ga de ta rh s t v, eq_qap n cs xs S0 al be ga de ta rh s t v = fzero) -> digits_ok b (extracted_chunks n S0).
Proof.
  intros H1 H2 H3. apply (forged_digits_at (fun _ => fzero) fzero (fun _ => fzero) H1); [intros; apply H2|intros; apply H3].
Qed.
End Facts.
