(* PropTally.v -- theorems for C87: sums of accepted ballots are sums of small chunks, whoever cast them *)
From Verif Require Import Base BaseFacts Algebra Utils UtilsFacts Setup Keygen Encryption Circuit CircuitFacts CircuitSat CommitmentFacts VecFacts KeySpec KeygenFacts
  EncryptFacts DecryptFacts Spec VerifyFacts Protocol ReencFacts DistFacts PropVerify PropCircuit Groth16 ArkGroth16 PolyFacts Groth16Spec ArkFacts Groth16Facts SchwartzZippel SoundCore SoundSpec
  SoundAlg SoundGame SoundLink SoundFacts SoundCount SoundHonest PropUtils PropEnc PropProto PropGroth16 PropGroth16More PropGroth16Cases PropSound PropSoundCases PropZK PrivacySpec PrivacyAlg PrivacyGame PrivacyLink PrivacyCount
  PrivacySpan PrivacyMany PropPrivacy PrivacyDkgSpec PrivacyDkg PropPrivacyDkg SoundDkgSpec SoundDkg SoundAdaptSpec SoundAdapt PropSoundAdapt NonmalCore NonmalAlg NonmalSpec NonmalGame NonmalRows NonmalLink NonmalCount PropNonmal
  NonmalDkg PropNonmalDkg RoundTrip PropRobust CcaSpec Cca CcaCount PropCca PropReencExact RccaSpec RccaTest RccaCount RccaDkgSpec RccaDkg PropRccaDkg RushSpec Rush PropRush InsiderSpec Insider PropInsider
  LateSpec PropLate TallySpec ArkCoset Radix2 CosetGame PropBls Instance Examples.

(* ---------- adding up ---------- *)
Section Add.
Context {E : pairing}.
Notation K := (K_of E).
Definition good (b : Z) (keys : dkg_keys E) (g_i : list (G1 E)) (ballot : ciphertext E * proof E) : Prop :=
  exists ds r, digits_ok b ds /\ encrypts (kg_ek keys) g_i ds (ct_vec (fst ballot)) r.
Lemma good_votes b keys g_i ballots : Forall (good b keys g_i) ballots -> exists votes, Forall (digits_ok b) votes /\ Forall2 (fun ballot vote => exists r, encrypts (kg_ek keys) g_i vote (ct_vec (fst ballot)) r) ballots votes.
Proof.
  induction 1 as [|x l (ds & r & Hd & He) _ (votes & V1 & V2)]; [exists []; split; constructor|]. exists (ds :: votes). split; constructor; try assumption. exists r. exact He.
Qed.
Lemma Forall2_flip_map {A B C} (f : A -> C) (R : B -> C -> Prop) l l' : Forall2 (fun a b => R b (f a)) l l' -> Forall2 R l' (map f l).
Proof. induction 1; cbn; constructor; assumption. Qed.
Lemma votes_add_up pf gens b b' (n v : nat) g_i delta gamma (keys : dkg_keys E) ballots votes :
  chunks_count K b = Ok (Z.of_nat n) -> from_dkg b gens g_i delta gamma (kg_parties keys) (kg_ek keys) ->
  Forall (fun x => x <> gzero) g_i -> ballots <> [] -> (length ballots <= v)%nat -> 0 <= b -> 1 <= b' <= 31 -> field_holds K b' -> fits b' (Z.of_nat v * (2 ^ b - 1)) ->
  Forall (digits_ok b) votes -> Forall2 (fun ballot vote => exists r, encrypts (kg_ek keys) g_i vote (ct_vec (fst ballot)) r) ballots votes ->
  Forall (fun vote => length vote = n) votes /\ exists total,
    sum_cts (map (fun ballot : ciphertext E * proof E => ct_vec (fst ballot)) ballots) = Ok (ct_vec total) /\
    forall (G : rng_impl E) (st : rng_st G), exists st', decrypt_together pf G b' gens g_i (map fst (kg_parties keys)) total st = Ok (chunk_sum n votes, st').
Proof.
  intros Hn Hd Hnz Hne Hv Hb0 Hb HF Hfit Hdig Henc.
  assert (HX : length (ek_X (kg_ek keys)) = n).
  { destruct Hd as (Hpn & Hp & Hk). rewrite (dkg_formula b gens g_i delta gamma _ n Hn Hpn Hp) in Hk. injection Hk as Hk. rewrite <- Hk. cbn [ek_formula ek_X]. rewrite map_length, fcol_sum_length. reflexivity. }
  set (vec := fun ballot : ciphertext E * proof E => ct_vec (fst ballot)).
  assert (Hcts : ciphertexts_of (kg_ek keys) g_i votes (map vec ballots)) by (unfold ciphertexts_of; apply (Forall2_flip_map vec (fun vote ct => exists r, encrypts (kg_ek keys) g_i vote ct r)); exact Henc).
  pose proof (ciphertexts_of_inv _ _ _ _ Hcts) as (rs & Hl & Hall).
  assert (Hne' : map vec ballots <> []) by (destruct ballots; [contradiction|discriminate]).
  destruct (sum_exists _ _ _ _ _ Hne' Hl Hall) as (c_0 & c & psi & Hs & Hlc & Hlm). rewrite HX in Hlc, Hlm.
  split; [exact Hlm|]. exists (Ciphertext c_0 c psi). split; [exact Hs|]. intros G st.
  pose proof (sum_encrypts _ _ _ _ _ _ Hne' Hl Hall Hs) as He. rewrite HX in He.
  assert (Hlv : length votes = length ballots) by (clear - Henc; induction Henc; cbn [length]; congruence).
  assert (Hsum : Forall (fun z => 0 <= z <= Z.of_nat (length votes) * (2 ^ b - 1)) (chunk_sum n votes)).
  { apply chunk_sum_bound; [|pose proof (Z.pow_pos_nonneg 2 b ltac:(lia) Hb0); lia]. clear - Hdig Hlm. induction votes as [|d l IH]; constructor; [|apply IH; [inversion Hdig|inversion Hlm]; assumption].
    split; [inversion Hlm; assumption|]. inversion Hdig as [|? ? Hd _]; subst. eapply Forall_impl; [|exact Hd]. intros z Hz. cbv beta in Hz. lia. }
  assert (Hpos : Forall (fun z => 0 <= z) (chunk_sum n votes)) by (eapply Forall_impl; [|exact Hsum]; intros z Hz; cbv beta in Hz; lia).
  destruct (dkg_opens _ _ _ _ _ _ _ _ _ _ _ _ Hd He Hpos) as (_ & Hlg & Hlen & _).
  unfold decrypt_together, Fkeygen_dest. cbn [ct_X_r ct_enc_chunks]. destruct (rand_scalar G st) as [skd st1] eqn:Er. cbn [bind]. set (ekd := FEncryptionKeyDest _).
  assert (Hdest : from_dest gens skd ekd) by (exists G, st, st1; unfold Fkeygen_dest; rewrite Er; reflexivity).
  destruct (all_shares_ok G gens c_0 c ekd (map fst (kg_parties keys))) with (st := st1) as (shares & st2 & Hsh & HFs).
  { clear - Hlen. eapply Forall_impl; [|exact Hlen]. intros a Ha. cbv beta in Ha. lia. }
  rewrite Hsh. cbn [bind]. apply field_holds_iff in HF; [|lia].
  destruct (aggregation_pipeline pf b gens g_i delta gamma (kg_parties keys) (kg_ek keys) votes rs (map vec ballots) c_0 c psi skd ekd shares b' Hd Hne' Hl Hall Hs Hdest HFs) as (g_r & cs & H1 & H2).
  - rewrite <- (firstn_skipn (length c) g_i) in Hnz. apply Forall_app in Hnz. apply Hnz.
  - exact Hb.
  - exact HF.
  - rewrite Hlc. apply (proj1 (fits_iff b' _ ltac:(lia))) in Hfit. eapply Forall_impl; [|exact Hsum]. intros z Hz. cbv beta in Hz. split; [lia|].
    etransitivity; [apply Hz|]. etransitivity; [|exact Hfit]. apply Z.mul_le_mono_nonneg_r; [pose proof (Z.pow_pos_nonneg 2 b ltac:(lia) Hb0); lia|]. lia.
  - exists st2. rewrite H1. cbn [bind]. rewrite H2. cbn [bind]. rewrite Hlc. reflexivity.
Qed.

Lemma good_adds_up pf gens b b' (n v : nat) g_i delta gamma (keys : dkg_keys E) ballots :
  chunks_count K b = Ok (Z.of_nat n) -> get_gs_for_encryption (gpk_vk (pk_pk (kg_pk keys))) = Ok g_i -> from_dkg b gens g_i delta gamma (kg_parties keys) (kg_ek keys) ->
  Forall (fun x => x <> gzero) g_i -> ballots <> [] -> (length ballots <= v)%nat -> 0 <= b -> 1 <= b' <= 31 -> field_holds K b' -> fits b' (Z.of_nat v * (2 ^ b - 1)) ->
  Forall (good b keys g_i) ballots -> adds_up pf gens keys n b b' ballots.
Proof.
  intros Hn Hg Hd Hnz Hne Hv Hb0 Hb HF Hfit Hgood.
  destruct (good_votes _ _ _ _ Hgood) as (votes & Hdig & Henc).
  destruct (votes_add_up pf gens b b' n v g_i delta gamma keys ballots votes Hn Hd Hnz Hne Hv Hb0 Hb HF Hfit Hdig Henc) as (Hlm & total & Hs & HG).
  exists g_i, votes, total. split; [exact Hg|]. split; [|split; [exact Hs|exact HG]].
  clear - Henc Hdig Hlm. induction Henc as [|x y l l' Hr _ IH]; constructor; [|apply IH; [inversion Hdig|inversion Hlm]; assumption].
  split; [inversion Hlm; assumption|]. split; [inversion Hdig; assumption|exact Hr].
Qed.

(* ---------- results of attacks ---------- *)
Fixpoint imap {R R' : Type} (f : R -> R') (A : insider E R) : insider E R' :=
  match A with
  | IStop r => IStop (f r)
  | ITry q A1 A2 => ITry q (imap f A1) (imap f A2)
  | IOffer m m' next => IOffer m m' (imap f next)
  | IShip St dest next => IShip St dest (fun r => imap f (next r))
  end.
Lemma imap_limited {R R'} (f : R -> R') t q k A : ilimited t q k A -> ilimited t q k (imap f A).
Proof. induction 1; cbn [imap]; constructor; assumption. Qed.
Lemma imap_duel {R R'} (f : R -> R') pf B (G H : rng_impl E) gens b keys honest second (A : insider E R) : forall offered cps seen coins st sh,
  insider_duel pf B G H gens b keys honest second (imap f A) offered cps seen coins st sh =
  option_map (fun x => (f (fst (fst x)), snd (fst x), snd x)) (insider_duel pf B G H gens b keys honest second A offered cps seen coins st sh).
Proof.
  induction A as [r|m A1 IH1 A2 IH2|m m' next IH|St dest next IH]; intros offered cps seen coins st sh; cbn [imap insider_duel].
  - reflexivity.
  - destruct (geqb _ _); [apply IH1|apply IH2].
  - destruct (encrypt_with_proof _ _ _ _ _ _ _ _) as [[[[ct r] p] coins']|err|]; [apply IH|reflexivity|reflexivity].
  - cbv zeta. destruct (service_by_parties _ _ _ _ _ _ _ _ _) as [answer st']. destruct answer; try apply IH.
    destruct (re_encrypt_share _ _ _ _ _ _ _) as [[[w g_r] sh']|err|]; [apply IH|reflexivity|reflexivity].
Qed.
Lemma imap_run {R R'} (f : R -> R') pf B (G H : rng_impl E) gens b before after second (A : insider E R) st sh coins keys r cps seen :
  insider_run pf B G H gens b before after second A st sh coins = Some (keys, (r, cps, seen)) -> insider_run pf B G H gens b before after second (imap f A) st sh coins = Some (keys, (f r, cps, seen)).
Proof.
  unfold insider_run. destruct (dkg_setup _ _ _ _ _ _) as [[keys' rest]|err|]; try discriminate. destruct (nth_error _ _) as [[honest pa]|]; [|discriminate].
  rewrite imap_duel. destruct (insider_duel _ _ _ _ _ _ _ _ _ _ _ _ _ _ _ _) as [[[r' cps'] seen']|]; cbn [option_map fst snd]; [|discriminate]. intros X. injection X as -> -> -> ->. reflexivity.
Qed.

(* the ciphertexts on the table are honest encryptions *)
Lemma duel_table {R} pf B (G H : rng_impl E) gens b keys honest second (A : insider E R) g_i : supported b -> get_gs_for_encryption (gpk_vk (pk_pk (kg_pk keys))) = Ok g_i ->
  forall offered cps seen coins st sh r cps' seen', insider_duel pf B G H gens b keys honest second A offered cps seen coins st sh = Some (r, cps', seen') ->
  Forall (good b keys g_i) cps -> Forall (good b keys g_i) cps'.
Proof.
  intros Hb Hg. induction A as [r0|m A1 IH1 A2 IH2|m m' next IH|St dest next IH]; intros offered cps seen coins st sh r cps' seen'; cbn [insider_duel].
  - intros X F. assert (cps = cps') by congruence. subst. exact F.
  - destruct (geqb _ _); [apply IH1|apply IH2].
  - destruct (encrypt_with_proof _ _ _ _ _ _ _ _) as [[[[ct r1] p] coins']|err|] eqn:He; try discriminate. intros X F. apply (IH _ _ _ _ _ _ _ _ _ X). apply Forall_app. split; [exact F|]. constructor; [|constructor].
    destruct (C02_decompose_is_radix_representation pf K (if second then m' else m) b Hb) as (ds & Hdm & Hdig & _).
    exists ds, r1. split; [exact Hdig|]. exact (with_proof_encrypts _ _ _ _ _ _ _ _ _ _ _ _ _ _ Hg Hdm He).
  - cbv zeta. destruct (service_by_parties _ _ _ _ _ _ _ _ _) as [answer st']. destruct answer; try apply IH.
    destruct (re_encrypt_share _ _ _ _ _ _ _) as [[[w g_r] sh']|err|]; [apply IH|discriminate|discriminate].
Qed.
End Add.

Lemma Forall_nn {A} (P : A -> Prop) l : (forall x, In x l -> ~ ~ P x) -> ~ ~ Forall P l.
Proof.
  induction l as [|x l IH]; intros H Hno; [apply Hno; constructor|]. apply (H x (or_introl eq_refl)). intros Px. apply IH; [intros y Hy; apply H; right; exact Hy|]. intros F. apply Hno. constructor; assumption.
Qed.

(* The coalition of C85 (all parties but one, who choose messages and see decryption shares) casts ballots in the end; with the ciphertexts made
   during the attack there are at most v of them.  If all ballots of the coalition are accepted, then on all but few coins all ballots together add
   up, although none of them is decrypted on its own. *)
Theorem C87_accepted_ballots_add_up (E : pairing) (gens : encryption_gens E) (pf : profile)
    (domain : nat -> option (list (Fr E))) (fuel n : nat) (b b' : Z) (cs : csys (K_of E)) (xs : list (Fr E)) (before after : list (list (Fr E)))
    (G H : rng_impl E) (st : rng_st G) (sh : rng_st H) (t q k v : nat) (second : bool) (A : insider E (list (strategy E))) (L : list (list (Fr E))) :
  eg_G gens <> gzero -> eg_H gens <> gzero -> domain_ok domain ->
  supported b -> 2 ^ b <= modulus (K_of E) ->
  64 * Z.of_nat (limbs (K_of E)) - b < modulus_bit_size (K_of E) -> 64 * Z.of_nat (limbs (K_of E)) < 256 * b ->
  chunks_count (K_of E) b = Ok (Z.of_nat n) -> (0 < n)%nat -> (0 < fuel)%nat ->
  generate_constraints (BitsizeCheckCircuit b (Z.of_nat n) None true) (cs_new Circuit.Setup) = Ok cs ->
  domain (length (cs_cons cs) + cs_num_inst cs)%nat = Some xs ->
  Forall (fun tape => length tape = (2 * n + 1)%nat) before -> Forall (fun tape => length tape = (2 * n + 1)%nat) after ->
  1 <= b' <= 31 -> field_holds (K_of E) b' -> fits b' (Z.of_nat v * (2 ^ b - 1)) ->
  ilimited t q k A -> NoDup L ->
  (forall coins, In coins L -> length coins = (2 * n + 6 + 3 * k)%nat /\ exists keys Ss cps seen,
     insider_run pf (ark_backend pf domain fuel) G H gens b before after second A st sh coins = Some (keys, (Ss, cps, seen)) /\
     let mine := cast Ss (dkg_g1 gens (public_run keys cps) ++ seen) (dkg_g2 gens (public_run keys cps)) in
     cps ++ mine <> [] /\ (length (cps ++ mine) <= v)%nat /\ Forall (accepted gens keys) mine /\
     ~ adds_up pf gens keys n b b' (cps ++ mine)) ->
  let N := Z.of_nat (length xs) in let m := 3 * Z.of_nat n in let T := Z.of_nat t + 2 * Z.of_nat q in
  let forged := 4 * N + 7 * (m + 6) + Z.of_nat k ^ 2 * (3 * N + 9 * (m + 9)) in
  let base := N + (1 + Z.of_nat n + Z.of_nat n * (N + 2)) in
  Z.of_nat (length L) * modulus (K_of E) <=
  (base + 2 + Z.of_nat v * (base + (Z.of_nat q + 1) * (base + 3 * T * (Z.of_nat k + 1) * (3 * N + 9 * (m + 9)) + (Z.of_nat q + 1) * forged))) * modulus (K_of E) ^ Z.of_nat (2 * n + 6 + 3 * k).
Proof.
  intros HG HH Hd Hb HM C1 C2 Hc Hn Hf Hcs Hxs Hbef Haft Hb' HF Hfit W Hnd HL. cbv zeta.
  set (N := Z.of_nat (length xs)). set (base := N + (1 + Z.of_nat n + Z.of_nat n * (N + 2))).
  set (D := base + (Z.of_nat q + 1) * _).
  set (S0 := @Strategy E [] [] [] [] [] []).
  set (bad := fun i coins => exists keys S cps seen,
     insider_run pf (ark_backend pf domain fuel) G H gens b before after second (imap (fun Ss => nth i Ss S0) A) st sh coins = Some (keys, (S, cps, seen)) /\
     let T1 := dkg_g1 gens (public_run keys cps) ++ seen in let T2 := dkg_g2 gens (public_run keys cps) in
     let ct := ciphertext_from S T1 in let q := proof_from S T1 T2 in
     verify_commitment_and_proof ct q (prepare_verifying_key (gpk_vk (pk_pk (kg_pk keys)))) (prepare_ek (kg_ek keys)) (prepare_gens gens) = Ok tt /\
     ~ (exists g_i ds r, get_gs_for_encryption (gpk_vk (pk_pk (kg_pk keys))) = Ok g_i /\ digits_ok b ds /\ encrypts (kg_ek keys) g_i ds (ct_vec ct) r) /\
     ~ (exists ct0 q0 r, In (ct0, q0) cps /\ ct = rerandomized (kg_ek keys) r ct0 /\ exists kappa, kappa <> fzero /\ pr_a q = kappa [*] pr_a q0)).
  assert (RB : rare (2 * n + 6 + 3 * k) (Z.of_nat v * D) (fun coins => exists i, (i < v)%nat /\ bad i coins)).
  { apply rare_upto. intros i L' Hnd' HL'.
    exact (C85_shares_do_not_help_to_forge E gens pf domain fuel n b cs xs before after G H st sh t q k second _ L' HG HH Hd Hb HM C1 C2 Hc Hn Hcs Hxs Hbef Haft (imap_limited (fun Ss => nth i Ss S0) _ _ _ _ W) Hnd' HL'). }
  assert (RW : rare (2 * n + 6 + 3 * k) (base + 2) (fun coins => ~ dkg_working xs pf domain fuel b gens before after coins)).
  { intros L' Hnd' HL'. replace (base + 2) with (N + (2 + (1 + Z.of_nat n + Z.of_nat n * (N + 2)))) by (unfold base; ring).
    exact (C80_key_generations_usually_work (E := E) n cs xs pf domain fuel b gens HG HH Hd Hb HM (conj C1 C2) Hc Hn Hf Hcs Hxs before after Hbef Haft (3 * k) L' Hnd' HL'). }
  refine (rare_stable _ _ (fun coins => exists keys Ss cps seen,
     insider_run pf (ark_backend pf domain fuel) G H gens b before after second A st sh coins = Some (keys, (Ss, cps, seen)) /\
     let mine := cast Ss (dkg_g1 gens (public_run keys cps) ++ seen) (dkg_g2 gens (public_run keys cps)) in
     cps ++ mine <> [] /\ (length (cps ++ mine) <= v)%nat /\ Forall (accepted gens keys) mine /\
     ~ adds_up pf gens keys n b b' (cps ++ mine)) _ (rare_or _ _ _ _ _ RW RB) _ L Hnd HL). clear RB RW HL Hnd L.
  intros coins Lc (keys & Ss & cps & seen & Hrun & Hrest) Hno. cbv zeta in Hrest. destruct Hrest as (Hne & Hlen & Hacc & Hbad).
  apply Hno. left. intros (_ & _ & _ & keys' & rest & g_i & Hset & Hg & Hnz).
  pose proof Hrun as Hrun'. unfold insider_run in Hrun'. rewrite Hset in Hrun'. destruct (nth_error (kg_parties keys') (length before)) as [[honest pa]|] eqn:Hh; [|discriminate Hrun'].
  destruct (insider_duel _ _ _ _ _ _ _ _ _ _ _ _ _ _ _ _) as [[[Ss' cps'] seen']|] eqn:Hduel; [|discriminate Hrun'].
  cbn [option_map] in Hrun'. assert (EQ : keys' = keys /\ Ss' = Ss /\ cps' = cps /\ seen' = seen) by (repeat split; congruence). destruct EQ as (-> & -> & -> & ->). clear Hrun'.
  destruct (setup_parties _ _ _ _ _ _ _ _ _ Hset Hg) as [Hfd _].
  pose proof (duel_table _ _ _ _ _ _ _ _ _ _ _ Hb Hg _ _ _ _ _ _ _ _ _ Hduel (Forall_nil _)) as Htab.
  apply (Forall_nn (good b keys g_i) (cast Ss (dkg_g1 gens (public_run keys cps) ++ seen) (dkg_g2 gens (public_run keys cps)))).
  - intros x Hx Hng. unfold cast in Hx. apply in_map_iff in Hx. destruct Hx as (S & Ex & HS). apply (In_nth _ _ S0) in HS. destruct HS as (i & Hi & HS).
    apply Hno. right. exists i. split.
    { clear - Hi Hlen. rewrite app_length in Hlen. unfold cast in Hlen. rewrite map_length in Hlen. lia. }
    exists keys, S, cps, seen. split; [rewrite <- HS; apply (imap_run (fun Ss => nth i Ss S0)); exact Hrun|]. cbv zeta. split.
    { rewrite Forall_forall in Hacc. assert (Hin : In x (cast Ss (dkg_g1 gens (public_run keys cps) ++ seen) (dkg_g2 gens (public_run keys cps)))) by (unfold cast; apply in_map_iff; exists S; split; [exact Ex|rewrite <- HS; apply nth_In; exact Hi]).
      specialize (Hacc x Hin). rewrite <- Ex in Hacc. exact Hacc. }
    split.
    + intros (g' & ds & r & Hg' & Hdig & He). apply Hng. assert (g' = g_i) by congruence. subst g'. exists ds, r. split; [exact Hdig|]. rewrite <- Ex. exact He.
    + intros (ct0 & q0 & r & Hin & Hct & _). apply Hng. rewrite Forall_forall in Htab. destruct (Htab _ Hin) as (ds & r0 & Hdig & He). cbn [fst] in He. exists ds, (fadd r r0). split; [exact Hdig|].
      rewrite <- Ex. cbn [fst]. rewrite Hct. apply C73_copies_encrypt_the_copied_message. exact He.
  - intros Hmine. apply Hbad. apply (good_adds_up pf gens b b' n v g_i _ _ keys _ Hc Hg Hfd Hnz Hne Hlen); try assumption; [destruct Hb as [->|[->| ->]]; lia|].
    apply Forall_app. split; assumption.
Qed.

(* The same for coalitions that first look at the SRS and the honest contribution and then decide how to contribute and attack (C86). *)
Theorem C87_ballots_of_late_coalitions_add_up (E : pairing) (gens : encryption_gens E) (pf : profile)
    (domain : nat -> option (list (Fr E))) (fuel n : nat) (b b' : Z) (cs : csys (K_of E)) (xs : list (Fr E))
    (G H : rng_impl E) (st : rng_st G) (sh : rng_st H) (t q k v : nat) (second : bool) (P : plan E (late E (list (strategy E)))) (L : list (list (Fr E))) :
  eg_G gens <> gzero -> eg_H gens <> gzero -> domain_ok domain ->
  supported b -> 2 ^ b <= modulus (K_of E) ->
  64 * Z.of_nat (limbs (K_of E)) - b < modulus_bit_size (K_of E) -> 64 * Z.of_nat (limbs (K_of E)) < 256 * b ->
  chunks_count (K_of E) b = Ok (Z.of_nat n) -> (0 < n)%nat -> (0 < fuel)%nat ->
  generate_constraints (BitsizeCheckCircuit b (Z.of_nat n) None true) (cs_new Circuit.Setup) = Ok cs ->
  domain (length (cs_cons cs) + cs_num_inst cs)%nat = Some xs ->
  1 <= b' <= 31 -> field_holds (K_of E) b' -> fits b' (Z.of_nat v * (2 ^ b - 1)) ->
  Forall (late_limited n t q k) (choices P) -> NoDup L ->
  (forall coins, In coins L -> length coins = (2 * n + 6 + 3 * k)%nat /\ exists pk part,
     first_moves (ark_backend pf domain fuel) gens b coins = Ok (pk, part) /\
     let x := settle P (early_g1 gens pk part) (early_g2 gens pk part) in exists keys Ss cps seen,
     insider_run pf (ark_backend pf domain fuel) G H gens b (la_before x) (la_after x) second (la_attack x) st sh coins = Some (keys, (Ss, cps, seen)) /\
     let mine := cast Ss (dkg_g1 gens (public_run keys cps) ++ seen) (dkg_g2 gens (public_run keys cps)) in
     cps ++ mine <> [] /\ (length (cps ++ mine) <= v)%nat /\ Forall (accepted gens keys) mine /\
     ~ adds_up pf gens keys n b b' (cps ++ mine)) ->
  let N := Z.of_nat (length xs) in let m := 3 * Z.of_nat n in let T := Z.of_nat t + 2 * Z.of_nat q in
  let forged := 4 * N + 7 * (m + 6) + Z.of_nat k ^ 2 * (3 * N + 9 * (m + 9)) in
  let base := N + (1 + Z.of_nat n + Z.of_nat n * (N + 2)) in
  Z.of_nat (length L) * modulus (K_of E) <=
  (N + (Z.of_nat (looks P) * (3 * N + 7 * (m + 6)) +
   (base + 2 + Z.of_nat v * (base + (Z.of_nat q + 1) * (base + 3 * T * (Z.of_nat k + 1) * (3 * N + 9 * (m + 9)) + (Z.of_nat q + 1) * forged))))) * modulus (K_of E) ^ Z.of_nat (2 * n + 6 + 3 * k).
Proof.
  intros HG HH Hd Hb HM C1 C2 Hc Hn Hf Hcs Hxs Hb' HF Hfit HP Hnd HL. cbv zeta.
  set (D := _ + 2 + Z.of_nat v * _). assert (HD : 0 <= D) by (unfold D; pose proof (Z.pow_nonneg (Z.of_nat k) 2); repeat first [apply Z.add_nonneg_nonneg | apply Z.mul_nonneg_nonneg]; lia).
  refine (rare_split n cs xs b HM Hn (2 * n + 6 + 3 * k) _ _ _ _ L Hnd HL); [lia|].
  refine (rush_bound n cs xs pf domain fuel b gens HG HH Hb HM Hc Hn Hcs Hxs (late_limited n t q k) (fun x coins => exists keys Ss cps seen,
     insider_run pf (ark_backend pf domain fuel) G H gens b (la_before x) (la_after x) second (la_attack x) st sh coins = Some (keys, (Ss, cps, seen)) /\
     let mine := cast Ss (dkg_g1 gens (public_run keys cps) ++ seen) (dkg_g2 gens (public_run keys cps)) in
     cps ++ mine <> [] /\ (length (cps ++ mine) <= v)%nat /\ Forall (accepted gens keys) mine /\
     ~ adds_up pf gens keys n b b' (cps ++ mine)) D (3 * k) P HD HP _).
  intros x (Hbef & Haft & W) L' Hnd' HL'.
  exact (C87_accepted_ballots_add_up E gens pf domain fuel n b b' cs xs (la_before x) (la_after x) G H st sh t q k v second (la_attack x) L' HG HH Hd Hb HM C1 C2 Hc Hn Hf Hcs Hxs Hbef Haft Hb' HF Hfit W Hnd' HL').
Qed.

(* ---------- with the parameters of BLS12-381 ---------- *)
Lemma tally_budget (N n T q k l v : Z) : 0 <= N <= 32768 -> 16 <= n <= 64 -> 0 <= q -> 2 * q <= T -> 0 <= l -> 0 <= v -> (v + 1) * (q + 1) * (T + (l + 1)) <= 2 ^ 64 -> 0 <= k <= 2 ^ 20 ->
  (N + (l * (3 * N + 7 * (3 * n + 6)) + ((N + (1 + n + n * (N + 2))) + 2 + v * ((N + (1 + n + n * (N + 2))) + (q + 1) * ((N + (1 + n + n * (N + 2))) + 3 * T * (k + 1) * (3 * N + 9 * (3 * n + 9)) +
    (q + 1) * (4 * N + 7 * (3 * n + 6) + k ^ 2 * (3 * N + 9 * (3 * n + 9)))))))) * 2 ^ 128 <= bls_r.
Proof.
  intros HN Hn Hq HqT Hl Hv HX Hk.
  assert (M : forall a b x y, 0 <= a <= x -> 0 <= b <= y -> 0 <= a * b <= x * y) by (intros a b x y Ha Hb; split; [apply Z.mul_nonneg_nonneg; lia|apply Z.mul_le_mono_nonneg; lia]).
  assert (H1 : 0 <= n * (N + 2) <= 64 * 32770) by (apply M; lia).
  assert (HA : 0 <= 3 * N + 9 * (3 * n + 9) <= 100113) by lia. assert (HA7 : 0 <= 3 * N + 7 * (3 * n + 6) <= 100113) by lia.
  assert (Hk2 : 0 <= k ^ 2 <= 2 ^ 40) by (rewrite Z.pow_2_r; change (2 ^ 40) with (2 ^ 20 * 2 ^ 20); apply M; lia).
  assert (HB : 0 <= N + (1 + n + n * (N + 2)) <= 2130113) by lia. set (A := 3 * N + 9 * (3 * n + 9)) in *. set (A7 := 3 * N + 7 * (3 * n + 6)) in *. set (B := N + (1 + n + n * (N + 2))) in *.
  assert (HkA : 0 <= k ^ 2 * A <= 2 ^ 40 * 100113) by (apply M; assumption).
  assert (HF : 0 <= 4 * N + 7 * (3 * n + 6) + k ^ 2 * A <= 133000 + 2 ^ 40 * 100113) by lia. set (F := 4 * N + 7 * (3 * n + 6) + k ^ 2 * A) in *.
  assert (HC : 0 <= (k + 1) * A <= (2 ^ 20 + 1) * 100113) by (apply M; lia).
  replace (3 * T * (k + 1) * A) with (3 * T * ((k + 1) * A)) by ring. set (C := (k + 1) * A) in *.
  assert (Hq1 : (v + 1) * (q + 1) * 1 <= (v + 1) * (q + 1) * (T + (l + 1))) by (apply Z.mul_le_mono_nonneg_l; [apply Z.mul_nonneg_nonneg; lia|lia]).
  assert (HqT' : (v + 1) * (q + 1) * T <= (v + 1) * (q + 1) * (T + (l + 1))) by (apply Z.mul_le_mono_nonneg_l; [apply Z.mul_nonneg_nonneg; lia|lia]).
  assert (Hqq : (v + 1) * (q + 1) * (q + 1) <= (v + 1) * (q + 1) * (T + (l + 1))) by (apply Z.mul_le_mono_nonneg_l; [apply Z.mul_nonneg_nonneg; lia|lia]).
  assert (Hll : 1 * l <= (v + 1) * (q + 1) * (T + (l + 1))) by (apply Z.mul_le_mono_nonneg; [lia|apply (Z.mul_le_mono_nonneg 1 (v + 1) 1 (q + 1)); lia|lia|lia]).
  assert (Hv1 : (v + 1) * 1 <= (v + 1) * (q + 1)) by (apply Z.mul_le_mono_nonneg_l; lia).
  set (X := 2 ^ 64) in *.
  assert (M2 : forall a b y, 0 <= a <= X -> 0 <= b <= y -> a * b <= X * y) by (intros a b y Ha Hb; apply M; assumption).
  assert (P1 : 0 <= v * (q + 1)) by (apply Z.mul_nonneg_nonneg; lia).
  assert (P2 : 0 <= v * (q + 1) * T) by (apply Z.mul_nonneg_nonneg; lia). assert (P3 : 0 <= v * (q + 1) * (q + 1)) by (apply Z.mul_nonneg_nonneg; lia).
  assert (Q0 : 0 <= (q + 1) * T) by (apply Z.mul_nonneg_nonneg; lia). assert (Q1 : 0 <= (q + 1) * (q + 1)) by (apply Z.mul_nonneg_nonneg; lia).
  assert (E1 : (v + 1) * (q + 1) = v * (q + 1) + (q + 1)) by ring. assert (E2 : (v + 1) * (q + 1) * T = v * (q + 1) * T + (q + 1) * T) by ring.
  assert (E3 : (v + 1) * (q + 1) * (q + 1) = v * (q + 1) * (q + 1) + (q + 1) * (q + 1)) by ring.
  assert (Y1 : l * A7 <= X * 100113) by (apply M2; lia). assert (Y2 : v * B <= X * 2130113) by (apply M2; lia). assert (Y3 : v * (q + 1) * B <= X * 2130113) by (apply M2; lia).
  assert (Y4 : v * (q + 1) * T * C <= X * ((2 ^ 20 + 1) * 100113)) by (apply M2; lia). assert (Y5 : v * (q + 1) * (q + 1) * F <= X * (133000 + 2 ^ 40 * 100113)) by (apply M2; lia).
  replace (N + (l * A7 + (B + 2 + v * (B + (q + 1) * (B + 3 * T * C + (q + 1) * F))))) with (N + l * A7 + B + 2 + v * B + v * (q + 1) * B + 3 * (v * (q + 1) * T * C) + v * (q + 1) * (q + 1) * F) by ring.
  etransitivity; [apply Z.mul_le_mono_nonneg_r; [discriminate|]|].
  - instantiate (1 := 32768 + X * 100113 + 2130113 + 2 + X * 2130113 + X * 2130113 + 3 * (X * ((2 ^ 20 + 1) * 100113)) + X * (133000 + 2 ^ 40 * 100113)). clearbody A A7 B C F X. lia.
  - unfold X. vm_compute. discriminate.
Qed.
(* With at most 2^20 pairs of messages and (v + 1) (q + 1) (t + 2q + looks + 1) <= 2^64 the tally is wrong on at most 2^-128 of all coins: for example
   up to 4369 ballots of 4-bit chunks or 257 ballots of 8-bit chunks, decrypted with the chunk size 16 *)
Theorem C87_bls_ballots_add_up (E : pairing) (gens : encryption_gens E) (pf : profile) (fuel : nat) (b b' : Z)
    (G H : rng_impl E) (st : rng_st G) (sh : rng_st H) (t q k v : nat) (second : bool) (P : plan E (late E (list (strategy E)))) (L : list (list (Fr E))) :
  bls12_381 E -> supported b -> eg_G gens <> gzero -> eg_H gens <> gzero -> (0 < fuel)%nat ->
  let n := bls_chunks b in
  1 <= b' <= 31 -> fits b' (Z.of_nat v * (2 ^ b - 1)) ->
  Forall (late_limited n t q k) (choices P) -> (Z.of_nat v + 1) * (Z.of_nat q + 1) * (Z.of_nat t + 2 * Z.of_nat q + (Z.of_nat (looks P) + 1)) <= 2 ^ 64 -> Z.of_nat k <= 2 ^ 20 -> NoDup L ->
  (forall coins, In coins L -> length coins = (2 * n + 6 + 3 * k)%nat /\ exists pk part,
     first_moves (bls_backend pf fuel) gens b coins = Ok (pk, part) /\
     let x := settle P (early_g1 gens pk part) (early_g2 gens pk part) in exists keys Ss cps seen,
     insider_run pf (bls_backend pf fuel) G H gens b (la_before x) (la_after x) second (la_attack x) st sh coins = Some (keys, (Ss, cps, seen)) /\
     let mine := cast Ss (dkg_g1 gens (public_run keys cps) ++ seen) (dkg_g2 gens (public_run keys cps)) in
     cps ++ mine <> [] /\ (length (cps ++ mine) <= v)%nat /\ Forall (accepted gens keys) mine /\
     ~ adds_up pf gens keys n b b' (cps ++ mine)) ->
  Z.of_nat (length L) * 2 ^ 128 <= modulus (K_of E) ^ Z.of_nat (2 * n + 6 + 3 * k).
Proof.
  intros HE Hb HG HH Hf. params HE Hb. cbv zeta. intros Hb' Hfit HP Ht Hk Hnd HL. pose proof (proj1 HE) as Hp.
  assert (HF : field_holds (K_of E) b') by (right; rewrite Hp; vm_compute; discriminate).
  assert (Hbound := C87_ballots_of_late_coalitions_add_up E gens pf bls_domain fuel (bls_chunks b) b b' cs xs G H st sh t q k v second P L HG HH Hdom Hb HbM Hc1 Hc2 Hcount Hn0 Hf Hcs Hxs Hb' HF Hfit HP Hnd).
  cbv zeta in Hbound. rewrite Hp in Hbound |- *. eapply margin; [apply Hbound| |apply Z.pow_nonneg; discriminate|reflexivity|discriminate].
  - intros coins Hin. destruct (HL coins Hin) as (Hl & pk & part & Hfm & keys & Ss & cps & seen & Hrun & Hrest). split; [exact Hl|]. exists pk, part. split; [exact Hfm|]. exists keys, Ss, cps, seen. split; [|exact Hrest].
    unfold bls_backend in Hrun. rewrite (coset_insider_run bls_generator pf bls_domain fuel b Hdom Hg0 Hgrp Hb Hbits) in Hrun. exact Hrun.
  - clear - Ht Hk HN Hn64. apply tally_budget; try assumption; lia.
Qed.

(* ---------- copied ballots ---------- *)
(* The ballots that add up need not be independent: the coalition re-randomizes a ciphertext it has seen, with its proof, and casts it.  The copy is
   another ciphertext, is accepted, and what it contains, which the coalition does not know, is counted twice. *)
Theorem C87_a_copied_ballot_counts_twice (E : pairing) (gens : encryption_gens E) (pf : profile)
    (domain : nat -> option (list (Fr E))) (fuel n : nat) (b b' : Z) (cs : csys (K_of E)) (xs : list (Fr E)) (before after : list (list (Fr E)))
    (G H : rng_impl E) (st : rng_st G) (sh : rng_st H) (second : bool) (m m' rho : Fr E) :
  eg_G gens <> gzero -> eg_H gens <> gzero -> domain_ok domain ->
  supported b -> 2 ^ b <= modulus (K_of E) ->
  64 * Z.of_nat (limbs (K_of E)) - b < modulus_bit_size (K_of E) -> 64 * Z.of_nat (limbs (K_of E)) < 256 * b ->
  chunks_count (K_of E) b = Ok (Z.of_nat n) -> (0 < n)%nat -> (0 < fuel)%nat ->
  generate_constraints (BitsizeCheckCircuit b (Z.of_nat n) None true) (cs_new Circuit.Setup) = Ok cs ->
  domain (length (cs_cons cs) + cs_num_inst cs)%nat = Some xs ->
  Forall (fun tape => length tape = (2 * n + 1)%nat) before -> Forall (fun tape => length tape = (2 * n + 1)%nat) after ->
  1 <= b' <= 31 -> field_holds (K_of E) b' -> fits b' (2 * (2 ^ b - 1)) ->
  exists S : strategy E, forall coins, length coins = (2 * n + 6 + 3 * 1)%nat -> dkg_working xs pf domain fuel b gens before after coins ->
  exists keys ct0 q0 q1 g_i ds total,
    insider_run pf (ark_backend pf domain fuel) G H gens b before after second (IOffer m m' (IStop [S])) st sh coins = Some (keys, ([S], [(ct0, q0)], [])) /\
    let mine := cast [S] (dkg_g1 gens (public_run keys [(ct0, q0)]) ++ []) (dkg_g2 gens (public_run keys [(ct0, q0)])) in
    mine = [(rerandomized (kg_ek keys) rho ct0, q1)] /\ Forall (accepted gens keys) mine /\ adds_up pf gens keys n b b' ([(ct0, q0)] ++ mine) /\
    get_gs_for_encryption (gpk_vk (pk_pk (kg_pk keys))) = Ok g_i /\ decompose pf (if second then m' else m) b = Ok ds /\
    add_cts (ct_vec ct0) (ct_vec (rerandomized (kg_ek keys) rho ct0)) = Ok (ct_vec total) /\
    forall (G' : rng_impl E) (st1 : rng_st G'), exists st2, decrypt_together pf G' b' gens g_i (map fst (kg_parties keys)) total st1 = Ok (map (fun d => 2 * d) ds, st2).
Proof.
  intros HG HH Hd Hb HM C1 C2 Hc Hn Hf Hcs Hxs Hbef Haft Hb' HF Hfit. set (msg := if second then m' else m).
  destruct (C74_copying_strategies n cs xs pf domain fuel b gens Hd Hb HM (conj C1 C2) Hc Hn Hcs Hxs before after Hbef Haft [msg] 0 rho ltac:(cbn [length]; lia)) as (S & _ & _ & T).
  exists S. intros coins Lc (Hin & H2 & H3 & keys & rest & g_i & Hset & Hg & Hnz).
  destruct (C85_game_ends E _ gens pf domain fuel n b cs xs before after G H st sh 0 0 1 second (IOffer m m' (IStop [S])) coins HG HH Hd Hb HM C1 C2 Hc Hn Hf Hcs Hxs Hbef Haft
    ltac:(apply ilimited_offer, ilimited_stop) Lc H2 H3 Hin) as (keys0 & rest0 & honest & part & r & cps & seen & msgs & st' & op & Hset0 & Hh & _ & Hrun & _).
  assert (keys0 = keys /\ rest0 = rest) as [-> ->] by (split; congruence). clear Hset0.
  pose proof Hrun as Hrun'. unfold insider_run in Hrun'. rewrite Hset, Hh in Hrun'. cbn [insider_duel] in Hrun'. fold msg in Hrun'.
  destruct (encrypt_with_proof _ _ _ _ _ _ _ _) as [[[[ct0 r0] q0] coins']|err|] eqn:He in Hrun'; [|discriminate Hrun'|discriminate Hrun']. cbn [option_map app] in Hrun'.
  assert (EQ : r = [S] /\ cps = [(ct0, q0)] /\ seen = []) by (repeat split; congruence). destruct EQ as (-> & -> & ->). clear Hrun'.
  assert (Henc : encrypt_all pf (ark_backend pf domain fuel) (replay_rng E) [msg] (kg_ek keys) (kg_pk keys) b rest = Ok ([(ct0, q0)], coins')) by (cbn [encrypt_all]; rewrite He; reflexivity).
  pose proof (execution_from_setup _ _ _ _ _ _ _ _ _ _ _ _ Hset Henc) as Hex.
  destruct (T coins (public_run keys [(ct0, q0)]) Lc Hin Hex) as (ct0' & q0' & Hn0 & Hct & Hq & Hv & _). cbn [public_run dr_cps dr_ek dr_pk nth_error] in Hn0, Hct, Hq, Hv.
  assert (ct0' = ct0 /\ q0' = q0) as [-> ->] by (split; congruence). clear Hn0.
  destruct (C02_decompose_is_radix_representation pf (K_of E) msg b Hb) as (ds & Hdm & Hdig & _).
  pose proof (with_proof_encrypts _ _ _ _ _ _ _ _ _ _ _ _ _ _ Hg Hdm He) as Henc0.
  pose proof (C73_copies_encrypt_the_copied_message _ _ _ _ _ rho Henc0) as Henc1.
  destruct (setup_parties _ _ _ _ _ _ _ _ _ Hset Hg) as [Hfd _].
  set (q1 := Proof (pr_a q0) (pr_b q0) (pr_c q0 [+] (rho [*] ek_P_2 (kg_ek keys)))) in *. set (ct1 := rerandomized (kg_ek keys) rho ct0) in *.
  assert (Hb0 : 0 <= b) by (destruct Hb as [->|[->| ->]]; lia).
  destruct (votes_add_up pf gens b b' n 2 g_i _ _ keys [(ct0, q0); (ct1, q1)] [ds; ds] Hc Hfd Hnz ltac:(discriminate) ltac:(cbn [length]; lia) Hb0 Hb' HF Hfit) as (Hlm & total & Hsum & Htog).
  { repeat constructor; assumption. }
  { constructor; [exists r0; exact Henc0|]. constructor; [exists (fadd rho r0); exact Henc1|constructor]. }
  exists keys, ct0, q0, q1, g_i, ds, total. split; [exact Hrun|]. cbv zeta. rewrite app_nil_r.
  assert (Hmine : cast [S] (dkg_g1 gens (public_run keys [(ct0, q0)])) (dkg_g2 gens (public_run keys [(ct0, q0)])) = [(ct1, q1)]) by (unfold cast; cbn [map]; rewrite Hct, Hq; reflexivity).
  rewrite Hmine. split; [reflexivity|]. split.
  { constructor; [|constructor]. unfold accepted. cbn [fst snd]. rewrite Hct, Hq in Hv. exact Hv. }
  split.
  { apply (good_adds_up pf gens b b' n 2 g_i _ _ keys [(ct0, q0); (ct1, q1)] Hc Hg Hfd Hnz ltac:(discriminate) ltac:(cbn [length]; lia) Hb0 Hb' HF Hfit).
    constructor; [exists ds, r0; split; [exact Hdig|exact Henc0]|]. constructor; [exists ds, (fadd rho r0); split; [exact Hdig|exact Henc1]|constructor]. }
  split; [exact Hg|]. split; [exact Hdm|]. split.
  { cbn [map fst sum_cts foldM] in Hsum. apply bind_Ok_inv in Hsum. destruct Hsum as (x & Hx & Hsum). cbn [foldM] in Hsum. fold ct1. rewrite Hx. congruence. }
  intros G' st1. destruct (Htog G' st1) as (st2 & Hst2). exists st2. rewrite Hst2. f_equal. f_equal.
  apply Forall_inv in Hlm. clear - Hlm. cbn [chunk_sum fold_right]. rewrite chunk_add_0_r by exact Hlm. clear. induction ds as [|d ds IH]; cbn [chunk_add map]; [reflexivity|]. rewrite IH. f_equal. lia.
Qed.

(* On the 61-bit group of the examples, with 16 chunks of 4 bits decrypted as chunks of 8 bits: there are working coins for all tapes of the other
   parties, on them the coalition copies the ballot of an honest client, and both ballots add up. *)
Example C87_case (pf : profile) (G H : rng_impl E61) (st : rng_st G) (sh : rng_st H) (second : bool) (m m' rho : Fr E61) (before after : list (list (Fr E61))) :
  Forall (fun tape => length tape = 33%nat) before -> Forall (fun tape => length tape = 33%nat) after ->
  exists (xs : list (Fr E61)) (S : strategy E61) coins keys ct0 q0, length xs = 1921%nat /\ dkg_working xs pf y_domain 3 4 x_gens before after coins /\
    insider_run pf (ark_backend pf y_domain 3) G H x_gens 4 before after second (IOffer m m' (IStop [S])) st sh coins = Some (keys, ([S], [(ct0, q0)], [])) /\
    let mine := cast [S] (dkg_g1 x_gens (public_run keys [(ct0, q0)]) ++ []) (dkg_g2 x_gens (public_run keys [(ct0, q0)])) in
    map fst mine = [rerandomized (kg_ek keys) rho ct0] /\ Forall (accepted x_gens keys) mine /\ adds_up pf x_gens keys 16 4 8 ([(ct0, q0)] ++ mine).
Proof.
  intros Hbef Haft.
  assert (HG : eg_G x_gens <> gzero) by (intros Z; apply (f_equal sval) in Z; vm_compute in Z; discriminate Z).
  assert (Hbits : 0 < 4 < modulus_bit_size K61) by (vm_compute; split; reflexivity).
  assert (Hc : chunks_count K61 4 = Ok (Z.of_nat 16)) by (vm_compute; reflexivity).
  assert (Hb : supported 4) by (left; reflexivity). assert (HM : 2 ^ 4 <= modulus K61) by (vm_compute; discriminate).
  assert (C1 : 64 * Z.of_nat (limbs K61) - 4 < modulus_bit_size K61) by (vm_compute; reflexivity). assert (C2 : 64 * Z.of_nat (limbs K61) < 256 * 4) by (vm_compute; reflexivity).
  assert (H16 : (0 < 16)%nat) by lia. assert (H3 : (0 < 3)%nat) by lia.
  destruct (C38_circuit_shape K61 4 (Z.of_nat 16) Hbits Hc) as (c & cs & Hcn & Hcs & Hi & Hcc).
  unfold circuit_new in Hcn. rewrite Hc in Hcn. cbn [bind] in Hcn. assert (c = BitsizeCheckCircuit 4 (Z.of_nat 16) None true) by congruence. subst c. clear Hcn.
  assert (Hsz : (length (cs_cons cs) + cs_num_inst cs)%nat = 1921%nat).
  { assert (Em : modulus_bit_size K61 = 61) by (vm_compute; reflexivity). rewrite Em in Hcc. lia. }
  set (xs := y_points 1921). assert (Hd : y_domain (length (cs_cons cs) + cs_num_inst cs)%nat = Some xs).
  { rewrite Hsz. unfold y_domain. assert (Hlt : Z.of_nat 1921 <? 2 ^ 60 = true) by (vm_compute; reflexivity). rewrite Hlt. reflexivity. }
  assert (Hl : length xs = 1921%nat) by (unfold xs, y_points; rewrite map_length, seq_length; reflexivity). clearbody xs.
  assert (HF : field_holds K61 8) by (left; vm_compute; discriminate). assert (Hfit : fits 8 (2 * (2 ^ 4 - 1))) by (split; vm_compute; reflexivity).
  destruct (C87_a_copied_ballot_counts_twice E61 x_gens pf y_domain 3 16 4 8 cs xs before after G H st sh second m m' rho HG x_H y_domain_ok Hb HM C1 C2 Hc H16 H3 Hcs Hd Hbef Haft ltac:(lia) HF Hfit) as (S & T).
  destruct (dkg_working_exists 16 cs xs pf y_domain 3 4 x_gens HG x_H y_domain_ok Hb HM (conj C1 C2) Hc H16 H3 Hcs Hd before after Hbef Haft (3 * 1)) as (coins & Lc & W).
  { rewrite Hl. vm_compute. reflexivity. }
  destruct (T coins Lc W) as (keys & ct0 & q0 & q1 & g_i & ds & total & Hrun & Hm & Hacc & Hadd & _).
  exists xs, S, coins, keys, ct0, q0. split; [exact Hl|]. split; [exact W|]. split; [exact Hrun|]. cbv zeta in *.
  split; [rewrite Hm; reflexivity|]. split; assumption.
Qed.
