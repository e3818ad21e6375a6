(* PropReencLeak.v -- C31 continued: the re-encrypted chunks alone, without a known chunk, give away the plaintext *)
From Verif Require Import Base BaseFacts Algebra Utils UtilsFacts Setup Keygen Encryption Circuit CircuitFacts CircuitSat CommitmentFacts VecFacts KeySpec KeygenFacts
  EncryptFacts DecryptFacts Spec VerifyFacts Protocol ReencFacts DistFacts PropEnc PropProto PropVerify Groth16 ArkGroth16 PolyFacts Groth16Spec ArkFacts Groth16Facts Instance Examples
  PropGroth16 PropGroth16Cases SchwartzZippel SoundCore SoundSpec SoundAlg SoundGame SoundLink SoundFacts SoundCount SoundHonest PropSound PropSoundCases PropZK PrivacySpec PrivacyAlg PrivacyGame
  PrivacyLink PrivacyCount PrivacySpan PrivacyMany PrivacyDkgSpec PrivacyDkg.

(* ---------- procedures that use public data only: the re-encrypted chunks and the generators ---------- *)
(* is cs a re-encryption of the chunks m?  All chunks must carry the same mask. *)
Definition looks_like {E : pairing} (cs g_i : list (G1 E)) (m : list Z) : bool :=
  forallb (fun i => geqb (nth i cs gzero [+] [-] (of_Z (nth i m 0) [*] nth i g_i gzero)) (nth 0 cs gzero [+] [-] (of_Z (nth 0 m 0) [*] nth 0 g_i gzero))) (seq 0 (length cs)).
(* try every value of the first chunk, take the first one for which the other chunks decrypt *)
Fixpoint first_ok {A} (l : list (outcome A)) : option A :=
  match l with
  | [] => None
  | Ok a :: _ => Some a
  | _ :: l' => first_ok l'
  end.
Definition recover_chunks {E : pairing} (pf : profile) (cs g_i : list (G1 E)) (b : Z) : option (list Z) :=
  first_ok (map (fun k => unmask_with_guess pf cs g_i b 0 (Z.of_nat k)) (seq 0 (Z.to_nat (2 ^ Z.min b 16)))).

(* the two generators are not related by small coefficients *)
Definition no_small_relation {E : pairing} (b : Z) (g g' : G1 E) : Prop :=
  forall u v, fits b (Z.abs u) -> fits b (Z.abs v) -> of_Z u [*] g = of_Z v [*] g' -> u = 0.

Section Leak.
Context {E : pairing}.
Notation K := (K_of E).
Add Ring Kr : (@scalar_ring_theory K).

(* what a re-encryption is *)
Lemma masked b gens g_i delta gamma parties (ek : encryption_key E) m c_0 c psi r skd ekd shares g_r cs :
  from_dkg b gens g_i delta gamma parties ek -> encrypts ek g_i m (c_0 :: c ++ [psi]) r -> Forall (fun z => 0 <= z) m ->
  from_dest gens skd ekd -> Forall2 (share_of gens c_0 c ekd) (map fst parties) shares -> reencrypt c shares = Ok (g_r :: cs) ->
  length cs = length m /\ (length m <= length g_i)%nat /\ forall i, (i < length m)%nat -> nth i cs gzero = (skd [*] g_r) [+] (of_Z (nth i m 0) [*] nth i g_i gzero).
Proof.
  intros Hd He Hpos Hdest Hsh Hr.
  destruct (dkg_opens _ _ _ _ _ _ _ _ _ _ _ _ Hd He Hpos) as (Hl & Hlg & _ & Hop).
  destruct (reencrypt_opens gens c_0 c ekd skd (map fst parties) shares g_i m Hdest) as (g_r' & cs' & Hr' & Hlc & Hop').
  - destruct Hd as (Hne & _). destruct parties; [contradiction|discriminate].
  - exact Hsh.
  - exact Hop.
  - rewrite Hr in Hr'. injection Hr' as <- <-. destruct Hop' as (_ & Hlm & Hop'). rewrite repeat_length in Hop', Hlm. split; [lia|]. split; [lia|].
    intros i Hi. destruct (Hop' i ltac:(lia)) as [_ Hci]. rewrite nth_repeat_lt in Hci by lia. exact Hci.
Qed.

Theorem C31_candidate_messages_can_be_tested :
  forall b gens g_i delta gamma parties (ek : encryption_key E) m c_0 c psi r skd ekd shares g_r cs,
  from_dkg b gens g_i delta gamma parties ek -> encrypts ek g_i m (c_0 :: c ++ [psi]) r -> Forall (fun z => 0 <= z) m ->
  from_dest gens skd ekd -> Forall2 (share_of gens c_0 c ekd) (map fst parties) shares -> reencrypt c shares = Ok (g_r :: cs) ->
  (* the right message passes *)
  looks_like cs g_i m = true /\
  (* and another one only if the differences of the chunks, on their generators, all agree *)
  (forall m', looks_like cs g_i m' = true <-> forall i, (i < length m)%nat -> of_Z (nth i m 0 - nth i m' 0) [*] nth i g_i gzero = of_Z (nth 0 m 0 - nth 0 m' 0) [*] nth 0 g_i gzero).
Proof.
  intros b gens g_i delta gamma parties ek m c_0 c psi r skd ekd shares g_r cs Hd He Hpos Hdest Hsh Hr.
  destruct (masked _ _ _ _ _ _ _ _ _ _ _ _ _ _ _ _ _ Hd He Hpos Hdest Hsh Hr) as (Lc & Lg & Hm).
  assert (Main : forall m', looks_like cs g_i m' = true <-> forall i, (i < length m)%nat -> of_Z (nth i m 0 - nth i m' 0) [*] nth i g_i gzero = of_Z (nth 0 m 0 - nth 0 m' 0) [*] nth 0 g_i gzero).
  { intros m'. unfold looks_like. rewrite forallb_forall, Lc. split.
    - intros H i Hi. specialize (H i ltac:(apply in_seq; lia)). apply geqb_spec in H. rewrite (Hm i Hi), (Hm 0%nat ltac:(lia)) in H.
      set (mask := skd [*] g_r) in *. rewrite !of_Z_sub. set (a := of_Z (nth i m 0)) in *. set (a' := of_Z (nth i m' 0)) in *. set (d := of_Z (nth 0 m 0)) in *. set (d' := of_Z (nth 0 m' 0)) in *.
      set (g := nth i g_i gzero) in *. set (g0 := nth 0 g_i gzero) in *.
      assert (X : (fsub a a' [*] g) = [-] mask [+] ((mask [+] (a [*] g)) [+] [-] (a' [*] g))) by glin. rewrite X, H. glin.
    - intros H i Hi. apply in_seq in Hi. specialize (H i ltac:(lia)). apply geqb_spec. rewrite (Hm i) by lia. rewrite (Hm 0%nat) by lia. rewrite !of_Z_sub in H.
      set (mask := skd [*] g_r) in *. set (a := of_Z (nth i m 0)) in *. set (a' := of_Z (nth i m' 0)) in *. set (d := of_Z (nth 0 m 0)) in *. set (d' := of_Z (nth 0 m' 0)) in *.
      set (g := nth i g_i gzero) in *. set (g0 := nth 0 g_i gzero) in *.
      assert (X : (mask [+] (a [*] g)) [+] [-] (a' [*] g) = mask [+] (fsub a a' [*] g)) by glin. rewrite X, H. glin. }
  split; [|exact Main]. apply Main. intros i Hi. rewrite !Z.sub_diag. change (of_Z 0) with (@fzero K). rewrite !smul_0_l. reflexivity.
Qed.

(* In particular two messages that agree in one chunk and differ in another, by less than the field's characteristic, are told apart by
   everybody, whatever the randomness and the keys. *)
Corollary C31_two_messages_are_told_apart :
  forall b gens g_i delta gamma parties (ek : encryption_key E) m m' c_0 c psi r skd ekd shares g_r cs i j,
  from_dkg b gens g_i delta gamma parties ek -> encrypts ek g_i m (c_0 :: c ++ [psi]) r -> Forall (fun z => 0 <= z) m ->
  from_dest gens skd ekd -> Forall2 (share_of gens c_0 c ekd) (map fst parties) shares -> reencrypt c shares = Ok (g_r :: cs) ->
  (i < length m)%nat -> (j < length m)%nat -> nth i m 0 = nth i m' 0 -> 0 < Z.abs (nth j m 0 - nth j m' 0) < modulus K -> nth j g_i gzero <> gzero ->
  looks_like cs g_i m = true /\ looks_like cs g_i m' = false.
Proof.
  intros b gens g_i delta gamma parties ek m m' c_0 c psi r skd ekd shares g_r cs i j Hd He Hpos Hdest Hsh Hr Hi Hj Heq Hne Hg.
  destruct (C31_candidate_messages_can_be_tested _ _ _ _ _ _ _ _ _ _ _ _ _ _ _ _ _ Hd He Hpos Hdest Hsh Hr) as [T1 T2]. split; [exact T1|].
  destruct (looks_like cs g_i m') eqn:Z; [|reflexivity]. exfalso. pose proof (proj1 (T2 m') Z) as H. pose proof (H i Hi) as Hi'. pose proof (H j Hj) as Hj'.
  rewrite Heq, Z.sub_diag in Hi'. change (of_Z 0) with (@fzero K) in Hi'. rewrite smul_0_l in Hi'. rewrite <- Hi' in Hj'. apply smul_eq_zero in Hj'. destruct Hj' as [Hj'|Hj']; [|contradiction].
  apply (f_equal sval) in Hj'. rewrite sval_of_Z in Hj'. change (sval (@fzero K)) with (0 mod modulus K) in Hj'. rewrite Zmod_0_l in Hj'.
  apply Z.mod_divide in Hj'; [|lia]. destruct Hj' as (q & Hq). assert (q <> 0) by (intros ->; lia). rewrite Hq, Z.abs_mul in Hne. rewrite (Z.abs_eq (modulus K)) in Hne by lia. nia.
Qed.

(* From the re-encrypted chunks alone the complete plaintext is found in at most 2^16 attempts. *)
Lemma first_ok_unique {A} (f : nat -> outcome A) l k0 a : In k0 l -> f k0 = Ok a -> (forall k x, In k l -> f k = Ok x -> x = a) -> first_ok (map f l) = Some a.
Proof.
  intros Hin Hf. revert Hin; induction l as [|k l IH]; intros Hin Hu; [contradiction|]. cbn [map first_ok]. destruct (f k) as [x| |] eqn:Ek.
  - rewrite (Hu k x (or_introl eq_refl) Ek). reflexivity.
  - apply IH; [destruct Hin as [->|Hin]; [congruence|exact Hin]|]. intros k' x Hk'. apply Hu. right. exact Hk'.
  - apply IH; [destruct Hin as [->|Hin]; [congruence|exact Hin]|]. intros k' x Hk'. apply Hu. right. exact Hk'.
Qed.
Theorem C31_everything_is_recovered_without_any_key :
  forall (pf : profile) b b' gens g_i delta gamma parties (ek : encryption_key E) m c_0 c psi r skd ekd shares g_r cs,
  from_dkg b gens g_i delta gamma parties ek -> encrypts ek g_i m (c_0 :: c ++ [psi]) r ->
  from_dest gens skd ekd -> Forall2 (share_of gens c_0 c ekd) (map fst parties) shares -> reencrypt c shares = Ok (g_r :: cs) ->
  Forall (fun x => x <> gzero) (firstn (length m) g_i) -> no_small_relation b' (nth 0 g_i gzero) (nth 1 g_i gzero) ->
  1 <= b' <= 31 -> field_holds K b' -> Forall (fun z => 0 <= z /\ fits b' z) m -> (2 <= length m)%nat ->
  recover_chunks pf cs g_i b' = Some m.
Proof.
  intros pf b b' gens g_i delta gamma parties ek m c_0 c psi r skd ekd shares g_r cs Hd He Hdest Hsh Hr Hg Hrel Hb HF Hm Hn.
  assert (Hpos : Forall (fun z => 0 <= z) m) by (eapply Forall_impl; [|exact Hm]; cbn; tauto).
  destruct (masked _ _ _ _ _ _ _ _ _ _ _ _ _ _ _ _ _ Hd He Hpos Hdest Hsh Hr) as (Lc & Lg & Hmask).
  assert (Hc : forall i, (i < length m)%nat -> 0 <= nth i m 0 /\ fits b' (nth i m 0)) by (intros i Hi; rewrite Forall_forall in Hm; apply Hm, nth_In; exact Hi).
  assert (Hright : unmask_with_guess pf cs g_i b' 0 (nth 0 m 0) = Ok m) by (eapply C31_confidential_without_destination_key_refuted; try eassumption; lia).
  assert (P16 : 2 ^ Z.min b' 16 <= 2 ^ b' /\ 2 ^ Z.min b' 16 <= 2 ^ 16) by (split; apply Z.pow_le_mono_r; lia).
  unfold recover_chunks. apply (first_ok_unique _ _ (Z.to_nat (nth 0 m 0))).
  - apply in_seq. destruct (Hc 0%nat ltac:(lia)) as [H0 [H1 H2]]. assert (nth 0 m 0 < 2 ^ Z.min b' 16) by (destruct (Z.min_spec b' 16) as [[_ ->]|[_ ->]]; assumption). lia.
  - rewrite Z2Nat.id by (apply (Hc 0%nat); lia). exact Hright.
  - intros k x Hk Hx. apply in_seq in Hk. assert (Hk' : 0 <= Z.of_nat k < 2 ^ Z.min b' 16) by lia.
    assert (Ek : Z.of_nat k = nth 0 m 0).
    { pose proof (proj1 (field_holds_iff K b' ltac:(lia)) HF) as HM. unfold unmask_with_guess in Hx.
      apply reenc_decrypt_exact in Hx; rewrite ?map_length, ?Lc; try assumption; try lia.
      destruct Hx as [(_ & Lx & Hx) Hmax]. rewrite repeat_length, map_length, Lc in Lx, Hx. destruct (Hx 1%nat ltac:(lia)) as [X0 X1].
      rewrite nth_repeat_lt in X1 by lia. set (mask := nth 0 cs gzero [+] [-] (of_Z (Z.of_nat k) [*] nth 0 g_i gzero)) in X1.
      rewrite (nth_indep _ gzero (gzero [+] [-] mask)) in X1 by (rewrite map_length; lia). rewrite (map_nth (fun y => y [+] [-] mask)) in X1.
      rewrite (Hmask 1%nat) in X1 by lia. unfold mask in X1. rewrite (Hmask 0%nat) in X1 by lia. clear mask. set (mask := skd [*] g_r) in X1.
      assert (Hu : fits b' (Z.abs (Z.of_nat k - nth 0 m 0))) by (destruct (Hc 0%nat ltac:(lia)) as [H0 [H1 H2]]; split; lia).
      assert (Hmx : 0 <= nth 1 x 0 /\ fits b' (nth 1 x 0)) by (split; [exact X0|]; apply fits_iff; [lia|]; rewrite Forall_forall in Hmax; apply Hmax, nth_In; lia).
      assert (Hv : fits b' (Z.abs (nth 1 x 0 - nth 1 m 0))) by (destruct (Hc 1%nat ltac:(lia)) as [H0 [H1 H2]]; destruct Hmx as [H3 [H4 H5]]; split; lia).
      assert (R : of_Z (Z.of_nat k - nth 0 m 0) [*] nth 0 g_i gzero = of_Z (nth 1 x 0 - nth 1 m 0) [*] nth 1 g_i gzero).
      { rewrite !of_Z_sub. set (kk := of_Z (Z.of_nat k)) in *. set (m0 := of_Z (nth 0 m 0)) in *. set (m1 := of_Z (nth 1 m 0)) in *. set (x1 := of_Z (nth 1 x 0)) in *.
        set (g0 := nth 0 g_i gzero) in *. set (g1 := nth 1 g_i gzero) in *.
        assert (Y : fsub x1 m1 [*] g1 = ((fzero [*] gzero) [+] (x1 [*] g1)) [+] [-] (m1 [*] g1)) by glin. rewrite Y, <- X1. glin. }
      pose proof (Hrel _ _ Hu Hv R). lia. }
    rewrite Ek, Hright in Hx. congruence.
Qed.
End Leak.

(* Setups on which the two generators have a small relation, or a generator is trivial, are few: five scalars are drawn for the SRS. *)
Section Rare.
Context {E : pairing}.
Notation K := (K_of E).
Notation F := (Fr E).
Add Ring Kr2 : (@scalar_ring_theory K).
Notation e i env := (nth i env fzero).
Notation p := (modulus K).
Variables (n : nat) (cs : csys K) (xs : list F) (pf : profile) (domain : nat -> option (list F)) (fuel : nat) (b : Z) (gens : encryption_gens E).
Notation B := (ark_backend pf domain fuel).
Let ni := cs_num_inst cs.
Let nc := length (cs_cons cs).
Let N := length xs.
Hypothesis HG : eg_G gens <> gzero.
Hypothesis Hdom_ok : domain_ok domain.
Hypothesis Hb : supported b.
Hypothesis HbM : 2 ^ b <= p.
Hypothesis Hcount : chunks_count K b = Ok (Z.of_nat n).
Hypothesis Hn0 : (2 <= n)%nat.
Hypothesis Hcs : generate_constraints (BitsizeCheckCircuit b (Z.of_nat n) None true) (@cs_new K Circuit.Setup) = Ok cs.
Hypothesis Hdomain : domain (nc + ni)%nat = Some xs.
Definition rel (u v : F) (env : list F) : F := fsub (fmul u (qq cs xs (e 0 env) (e 1 env) (e 4 env) 1)) (fmul v (qq cs xs (e 0 env) (e 1 env) (e 4 env) 2)).
Lemma pf_qq5 j : @pfun K 5 (dqq N) (fun env => qq cs xs (e 0 env) (e 1 env) (e 4 env) j).
Proof.
  assert (HA : forall f, @pfun K 5 (dg N 0) f -> @pfun K 5 (dqq N) f).
  { intros f. apply pfun_weaken. intros i _. unfold dg, dqq. destruct i as [|[|[|[|[|i]]]]]; cbn; lia. }
  assert (HM : forall i f, (i < 2)%nat -> @pfun K 5 (dg N 0) f -> @pfun K 5 (dqq N) (fun env => fmul (e i env) (f env))).
  { intros i f Hi Hf. apply (pfun_mul 5 _ (dvar i) (dg N 0)); [| |exact Hf].
    - intros i' _. unfold dvar, dg, dqq. destruct i as [|[|i]]; [| |lia]; destruct i' as [|[|[|[|[|i']]]]]; cbn; lia.
    - apply (pfun_ext 5 _ (fun env => peval [fzero; fone] (e i env))); [intros env _; cbn; ring|]. apply pfun_peval. unfold dvar. rewrite Nat.eqb_refl. cbn. lia. }
  unfold qq. apply pfun_add; [apply pfun_add|].
  - apply HM; [lia|apply pf_colA].
  - apply HM; [lia|apply pf_colB].
  - apply HA, pf_colC.
Qed.
Lemma small_rel u v : u <> fzero -> small_zeros 5 (Z.of_nat N + 2) (rel u v).
Proof.
  intros Hu. pose proof (cs_shape n cs xs b (bits_of _ b Hb HbM) ltac:(lia) Hcs) as (Hni & _ & _). destruct (Hdom_ok _ _ Hdomain) as [Hnd HN]. fold N in HN.
  set (x := nth (nc + 1) xs fzero). set (w := fsub (fmul u (colC cs xs x 1)) (fmul v (colC cs xs x 2))).
  exists (dqq N), [fzero; fmul (finv u) (fsub fone w); fzero; fzero; x]. split; [|split; [reflexivity|split]].
  - unfold rel. apply (pfun_ext 5 _ (fun env => fadd (fmul u (qq cs xs (e 0 env) (e 1 env) (e 4 env) 1)) (fmul (fneg v) (qq cs xs (e 0 env) (e 1 env) (e 4 env) 2)))); [intros env _; ring|].
    apply pfun_add; (eapply (pfun_mul 5 _ (fun _ => 0%nat) (dqq N)); [intros i _; lia|apply pfun_const|apply pf_qq5]).
  - unfold rel. cbn [nth]. unfold qq.
    assert (C1 : colA cs xs x 1 = fone) by (unfold x; rewrite (colA_at n cs xs Hnd HN Hni ltac:(lia)) by (fold ni; lia); reflexivity).
    assert (C2 : colA cs xs x 2 = fzero) by (unfold x; rewrite (colA_at n cs xs Hnd HN Hni ltac:(lia)) by (fold ni; lia); reflexivity). rewrite C1, C2. intros Z. apply (@fneq01 K).
    etransitivity; [|exact Z]. set (u' := finv u). assert (U : fmul u u' = fone) by (apply finv_r; exact Hu).
    transitivity (fadd (fmul (fmul u u') (fsub fone w)) w); [rewrite U; ring|]. unfold w. ring.
  - pose proof (deg_sum_dqq 0 N) as D. cbn [Nat.add] in D. rewrite D. lia.
Qed.
Lemma small_qq5 j : (j < n)%nat -> small_zeros 5 (Z.of_nat N + 2) (fun env => qq cs xs (e 0 env) (e 1 env) (e 4 env) (S j)).
Proof.
  intros Hj. pose proof (cs_shape n cs xs b (bits_of _ b Hb HbM) ltac:(lia) Hcs) as (Hni & _ & _). destruct (Hdom_ok _ _ Hdomain) as [Hnd HN]. fold N in HN.
  set (x := nth (nc + S j) xs fzero). exists (dqq N), [fzero; fsub fone (colC cs xs x (S j)); fzero; fzero; x]. split; [apply pf_qq5|]. split; [reflexivity|]. split.
  - cbn [nth]. unfold qq. unfold x at 2. rewrite (colA_at n cs xs Hnd HN Hni ltac:(lia)) by (fold ni; lia). rewrite Nat.eqb_refl. intros Z. apply (@fneq01 K).
    etransitivity; [|exact Z]. fold x. ring.
  - pose proof (deg_sum_dqq 0 N) as D. cbn [Nat.add] in D. rewrite D. lia.
Qed.

(* the pairs of small coefficients *)
Definition M (b' : Z) : nat := Z.to_nat (2 ^ Z.min b' 16).
Definition ints (b' : Z) : list Z := map (fun i => Z.of_nat i - Z.of_nat (M b')) (seq 0 (2 * M b')).
Lemma ints_in b' z : 1 <= b' -> fits b' (Z.abs z) -> In z (ints b').
Proof.
  intros Hb' [H1 H2]. assert (Hz : Z.abs z < 2 ^ Z.min b' 16) by (destruct (Z.min_spec b' 16) as [[_ ->]|[_ ->]]; assumption).
  unfold ints. apply in_map_iff. exists (Z.to_nat (z + Z.of_nat (M b'))). unfold M in *. split; [lia|]. apply in_seq. lia.
Qed.
Definition polys (b' : Z) : list (Z * (list F -> F)) :=
  map (fun j => (Z.of_nat N + 2, fun env => qq cs xs (e 0 env) (e 1 env) (e 4 env) (S j))) (seq 0 n) ++
  map (fun uv => (Z.of_nat N + 2, rel (of_Z (fst uv)) (of_Z (snd uv)))) (filter (fun uv => negb (feqb (@of_Z K (fst uv)) fzero)) (list_prod (ints b') (ints b'))).
Lemma polys_small b' : Forall (fun Df => small_zeros 5 (fst Df) (snd Df)) (polys b').
Proof.
  unfold polys. apply Forall_app. split; apply Forall_map, Forall_forall.
  - intros j Hj. apply in_seq in Hj. apply small_qq5. lia.
  - intros [u v] Hu. apply filter_In in Hu. destruct Hu as [_ Hu]. cbn [fst snd] in *. apply small_rel. intros Z. apply feqb_spec in Z. rewrite Z in Hu. discriminate Hu.
Qed.
Lemma zs_app l m : zsum (l ++ m) = zsum l + zsum m.
Proof. clear. induction l as [|a l IH]; cbn [app zsum]; [lia|rewrite IH; lia]. Qed.
Lemma zs_const {A} (l : list A) c : zsum (map (fun _ => c) l) = c * Z.of_nat (length l).
Proof. clear. induction l as [|a l IH]; cbn [map zsum length]; [lia|rewrite IH; lia]. Qed.
Lemma filter_le {A} (f : A -> bool) l : (length (filter f l) <= length l)%nat.
Proof. clear. induction l as [|a l IH]; cbn [filter length]; [lia|]. destruct (f a); cbn [length]; lia. Qed.
Lemma polys_sum b' : 1 <= b' -> zsum (map fst (polys b')) <= (Z.of_nat n + 2 ^ (2 * Z.min b' 16 + 2)) * (Z.of_nat N + 2).
Proof.
  intros Hb'. unfold polys. rewrite map_app, zs_app, !map_map. cbn [fst]. rewrite !zs_const, seq_length.
  assert (HF : Z.of_nat (length (filter (fun uv => negb (feqb (@of_Z K (fst uv)) fzero)) (list_prod (ints b') (ints b')))) <= 2 ^ (2 * Z.min b' 16 + 2)).
  { eapply Z.le_trans; [apply inj_le, filter_le|]. rewrite prod_length. unfold ints. rewrite map_length, seq_length. unfold M. rewrite !Nat2Z.inj_mul, Z2Nat.id by (apply Z.pow_nonneg; lia).
    rewrite Z.pow_add_r, Z.pow_twice_r by lia. lia. }
  nia.
Qed.
Lemma gis_srs tape pk st : length tape = 5%nat -> vanishing_at xs (e 4 tape) <> fzero ->
  generate_srs B (replay_rng E) (generate_constraints (BitsizeCheckCircuit b (Z.of_nat n) None true)) gens tape = Ok (pk, st) ->
  e 2 tape <> fzero /\ get_gs_for_encryption (gpk_vk (pk_pk pk)) = Ok (gis n cs xs gens tape).
Proof.
  intros Hl Hv Hs. pose proof (proj1 (cs_shape n cs xs b (bits_of _ b Hb HbM) ltac:(lia) Hcs)) as Hni.
  destruct tape as [|al [|be [|ga [|de [|ta [|z tape]]]]]]; try discriminate Hl. change (vanishing_at xs ta <> fzero) in Hv.
  destruct (srs_local n cs xs pf domain fuel b gens Hb HbM ltac:(lia) Hcs Hdomain al be ga de ta Hv) as [(pk' & Lg & Hsrs)|No]; [|destruct (No _ _ Hs)].
  rewrite Hsrs in Hs. assert (pk' = pk) by congruence. subst pk'.
  pose proof (setup_from_srs n cs xs pf domain fuel b gens Hcount ltac:(lia) al be ga de ta pk fzero (repeat fzero n) fzero (repeat fzero n) (repeat fzero n) [] Hsrs Lg
    ltac:(apply repeat_length) ltac:(apply repeat_length) ltac:(apply repeat_length)) as Hset.
  set (c := al :: be :: ga :: de :: ta :: fzero :: repeat fzero n ++ (fzero :: repeat fzero n) ++ repeat fzero n ++ []) in Hset.
  assert (Lc : length c = (3 * n + 7)%nat) by (unfold c; repeat (cbn [length]; rewrite ?app_length, ?repeat_length); lia).
  destruct (setup_tape n cs xs pf domain fuel b gens Hcount Hcs Hdomain Hni c pk _ _ _ _ Lc Hv Hset) as (H2 & _ & Hg & _). split; [exact H2|exact Hg].
Qed.

Theorem relations_rare b' (L : list (list F)) : 1 <= b' -> field_holds K b' -> NoDup L ->
  (forall tape, In tape L -> length tape = 5%nat /\ exists pk st g_i,
     generate_srs B (replay_rng E) (generate_constraints (BitsizeCheckCircuit b (Z.of_nat n) None true)) gens tape = Ok (pk, st) /\
     get_gs_for_encryption (gpk_vk (pk_pk pk)) = Ok g_i /\
     ~ (Forall (fun x => x <> gzero) g_i /\ no_small_relation b' (nth 0 g_i gzero) (nth 1 g_i gzero))) ->
  Z.of_nat (length L) * p <= (Z.of_nat N + (Z.of_nat n + 2 ^ (2 * Z.min b' 16 + 2)) * (Z.of_nat N + 2)) * p ^ 5.
Proof.
  intros Hb' HF Hnd HL. change 5 with (Z.of_nat 5). apply (split_tau n cs xs b HbM ltac:(lia)); [lia|exact Hnd|intros c Hc; apply HL; exact Hc|]. intros L' Hnd' HL'.
  pose proof (@modulus_gt1 K) as Hp. assert (P5 : 0 < p ^ Z.of_nat 5) by (apply Z.pow_pos_nonneg; lia).
  eapply Z.le_trans; [apply (union_bound 5 (polys b') L' (polys_small b') Hnd')|apply Z.mul_le_mono_nonneg_r; [lia|apply polys_sum; exact Hb']].
  intros tape Hin. destruct (HL' tape Hin) as [Hi Hv]. destruct (HL tape Hi) as (Hl & pk & st & g_i & Hs & Hg & Hbad). split; [exact Hl|].
  destruct (Exists_dec (fun Df => snd Df tape = fzero) (polys b') (fun Df => feq_dec (snd Df tape) fzero)) as [X|X]; [exact X|exfalso]. apply Hbad. clear Hbad.
  destruct (gis_srs tape pk st Hl Hv Hs) as [Hga Hg']. rewrite Hg in Hg'. assert (g_i = gis n cs xs gens tape) by congruence. subst g_i. clear Hg Hg'.
  assert (Hall : Forall (fun Df => snd Df tape <> fzero) (polys b')) by (apply Forall_forall; intros Df HD Z; apply X, Exists_exists; exists Df; split; assumption).
  unfold polys in Hall. apply Forall_app in Hall. destruct Hall as [HQ HR]. rewrite Forall_map, Forall_forall in HQ, HR. cbn [snd] in HQ, HR.
  assert (Hinv : finv (e 2 tape) <> fzero) by (intros Z; apply (@fneq01 K); rewrite <- (finv_r _ Hga), Z; ring). split.
  - unfold gis. apply Forall_map, Forall_forall. intros j Hj Z. apply smul_eq_zero in Z. destruct Z as [Z|Z]; [|contradiction]. apply fmul_integral in Z. destruct Z as [Z|Z]; [|contradiction].
    exact (HQ j Hj Z).
  - intros u v Hu Hv' R. destruct (Z.eq_dec u 0) as [Z|Z]; [exact Z|exfalso].
    assert (Hnz : @of_Z K u <> fzero).
    { intros Y. apply (f_equal sval) in Y. rewrite sval_of_Z in Y. change (sval (@fzero K)) with (0 mod modulus K) in Y. rewrite Zmod_0_l in Y.
      apply Z.mod_divide in Y; [|lia]. destruct Y as (q & Hq). assert (q <> 0) by (intros ->; lia). apply fits_iff in Hu; [|lia]. apply field_holds_iff in HF; [|lia].
      rewrite Hq, Z.abs_mul in Hu. rewrite (Z.abs_eq (modulus K)) in Hu by lia. nia. }
    apply (HR (u, v)).
    + apply filter_In. split; [apply in_prod; apply ints_in; assumption|]. cbn [fst]. destruct (feqb (of_Z u) fzero) eqn:Y; [apply feqb_spec in Y; contradiction|reflexivity].
    + cbn [fst snd]. unfold gis in R. assert (n1 : exists m', n = S (S m')) by (exists (n - 2)%nat; lia). destruct n1 as (m' & ->). cbn [seq map nth] in R.
      unfold rel. set (q1 := qq cs xs _ _ _ 1) in *. set (q2 := qq cs xs _ _ _ 2) in *.
      assert (Y : fmul (fsub (fmul (of_Z u) q1) (fmul (of_Z v) q2)) (finv (e 2 tape)) [*] eg_G gens = gzero).
      { transitivity ((of_Z u [*] (fmul q1 (finv (e 2 tape)) [*] eg_G gens)) [+] [-] (of_Z v [*] (fmul q2 (finv (e 2 tape)) [*] eg_G gens))); [glin|]. rewrite R. apply gadd_neg_r. }
      apply smul_eq_zero in Y. destruct Y as [Y|Y]; [|contradiction]. apply fmul_integral in Y. destruct Y as [Y|Y]; [exact Y|contradiction].
Qed.
End Rare.

(* So on all but a fraction (N + (n + 2^34)(N+2))/p of the SRSs (2^(2b'+2) instead of 2^34 for chunk sizes below 16) the plaintext of every
   re-encrypted ciphertext is recovered, whatever the keys, the messages and the randomness. *)
Theorem C31_recovery_works_on_almost_every_srs (E : pairing) (gens : encryption_gens E) (pf : profile)
    (domain : nat -> option (list (Fr E))) (fuel n : nat) (b b' : Z) (cs : csys (K_of E)) (xs : list (Fr E)) (L : list (list (Fr E))) :
  eg_G gens <> gzero -> domain_ok domain -> supported b -> 2 ^ b <= modulus (K_of E) -> chunks_count (K_of E) b = Ok (Z.of_nat n) -> (2 <= n)%nat ->
  generate_constraints (BitsizeCheckCircuit b (Z.of_nat n) None true) (cs_new Circuit.Setup) = Ok cs ->
  domain (length (cs_cons cs) + cs_num_inst cs)%nat = Some xs ->
  1 <= b' <= 31 -> field_holds (K_of E) b' -> NoDup L ->
  (forall tape, In tape L -> length tape = 5%nat /\ exists pk st g_i,
     generate_srs (ark_backend pf domain fuel) (replay_rng E) (generate_constraints (BitsizeCheckCircuit b (Z.of_nat n) None true)) gens tape = Ok (pk, st) /\
     get_gs_for_encryption (gpk_vk (pk_pk pk)) = Ok g_i /\
     exists parties ek m c_0 c psi r skd ekd shares g_r cs',
       from_dkg b gens g_i (gpk_delta_g1 (pk_pk pk)) (pk_gamma_g1 pk) parties ek /\ encrypts ek g_i m (c_0 :: c ++ [psi]) r /\
       Forall (fun z => 0 <= z /\ fits b' z) m /\ length m = n /\
       from_dest gens skd ekd /\ Forall2 (share_of gens c_0 c ekd) (map fst parties) shares /\ reencrypt c shares = Ok (g_r :: cs') /\
       recover_chunks pf cs' g_i b' <> Some m) ->
  Z.of_nat (length L) * modulus (K_of E) <=
  (Z.of_nat (length xs) + (Z.of_nat n + 2 ^ (2 * Z.min b' 16 + 2)) * (Z.of_nat (length xs) + 2)) * modulus (K_of E) ^ 5.
Proof.
  intros HG Hd Hb HbM Hc Hn Hcs Hxs Hb' HF Hnd HL. apply (relations_rare n cs xs pf domain fuel b gens HG Hd Hb HbM Hc Hn Hcs Hxs b' L); [lia|exact HF|exact Hnd|].
  intros tape Hin. destruct (HL tape Hin) as (Hl & pk & st & g_i & Hs & Hg & parties & ek & m & c_0 & c & psi & r & skd & ekd & shares & g_r & cs' & H1 & H2 & H3 & H4 & H5 & H6 & H7 & H8).
  split; [exact Hl|]. exists pk, st, g_i. split; [exact Hs|]. split; [exact Hg|]. intros [X1 X2]. apply H8.
  eapply (C31_everything_is_recovered_without_any_key pf b b' gens); try eassumption; [|lia].
  apply Forall_forall. intros x Hx. rewrite Forall_forall in X1. apply X1. rewrite <- (firstn_skipn (length m) g_i). apply in_or_app. left. exact Hx.
Qed.

(* the attack computed on the concrete key of Examples.v: three parties re-encrypt, the observer reads the message off the result *)
Lemma mod61_small (u v : Z) : Z.abs u < 16 -> Z.abs v < 16 -> (u * 100) mod (2 ^ 61 - 1) = (v * 101) mod (2 ^ 61 - 1) -> u = 0.
Proof.
  intros Hu Hv R. assert (Hp : 0 < 2 ^ 61 - 1) by reflexivity.
  pose proof (Z.div_mod (u * 100) (2 ^ 61 - 1) ltac:(lia)) as D1. pose proof (Z.div_mod (v * 101) (2 ^ 61 - 1) ltac:(lia)) as D2.
  rewrite R in D1. set (a := u * 100 / (2 ^ 61 - 1)) in *. set (b := v * 101 / (2 ^ 61 - 1)) in *. clearbody a b.
  change (2 ^ 61 - 1) with 2305843009213693951 in *. assert (a = b) by lia. lia.
Qed.
Lemma gi61_0 : nth 0 x_gi gzero = @of_Z M61 100.
Proof. reflexivity. Qed.
Lemma gi61_1 : nth 1 x_gi gzero = @of_Z M61 101.
Proof. reflexivity. Qed.
Lemma smul61 (a c : Z) : @of_Z (K_of E61) a [*] (@of_Z M61 c : G1 E61) = @of_Z M61 (a * c).
Proof. rewrite of_Z_mul. exact (smul_AddGroup M61 (of_Z a) (of_Z c)). Qed.
Example C31_case_generators : no_small_relation 4 (nth 0 x_gi gzero) (nth 1 x_gi gzero).
Proof.
  intros u v [Hu _] [Hv _] R. rewrite gi61_0, gi61_1, !smul61 in R. apply (f_equal sval) in R. rewrite !sval_of_Z in R.
  exact (mod61_small u v Hu Hv R).
Qed.
Example C31_case_computes :
  (ek <- dkg x_gamma x_parties ;;
   '(ct, _, _) <- encrypt_decomposed_message (replay_rng E61) x_msg1 ek x_gi [x_r1] ;;
   let c_0 := nth 0 ct gzero in let c := firstn 16 (skipn 1 ct) in
   shares <- mapM (fun p => '(w, g, _) <- re_encrypt_share (replay_rng E61) x_gens c_0 c x_ekd (fst p) [nz61 123] ;; Ok (w, g)) x_parties ;;
   re <- reencrypt c shares ;;
   match re with [] => Panic | g_r :: cs => Ok (recover_chunks Debug cs x_gi 4, looks_like cs x_gi x_msg1, looks_like cs x_gi x_msg2) end) = Ok (Some x_msg1, true, false).
Proof. vm_compute. reflexivity. Qed.
