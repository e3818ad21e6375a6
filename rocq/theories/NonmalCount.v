(* NonmalCount.v -- counting the coins on which a prover that has seen honest ciphertexts gets something accepted that is neither an
   encryption of chunks it knows nor a re-randomized copy of one of them (for C73) *)
From Verif Require Import Base BaseFacts Algebra Utils UtilsFacts Setup Keygen Encryption Circuit CircuitFacts CircuitSat CommitmentFacts VecFacts KeySpec KeygenFacts
  EncryptFacts DecryptFacts Spec VerifyFacts Protocol ReencFacts DistFacts PropVerify Groth16 ArkGroth16 PolyFacts Groth16Spec ArkFacts Groth16Facts SchwartzZippel SoundCore SoundSpec
  SoundAlg SoundGame SoundLink SoundFacts SoundCount SoundHonest PropGroth16 PropSound PropSoundCases PropZK PrivacySpec PrivacyAlg PrivacyGame PrivacyLink PrivacyCount PrivacySpan PrivacyMany
  SoundDkgSpec SoundDkg SoundAdaptSpec SoundAdapt PropSoundAdapt NonmalCore NonmalAlg NonmalSpec NonmalGame NonmalRows NonmalLink.

(* lists covered by events *)
Lemma cover2 {A} (P Q : A -> Prop) (L : list A) : NoDup L -> (forall c, In c L -> P c \/ Q c) ->
  exists L1 L2, NoDup L1 /\ NoDup L2 /\ (length L = length L1 + length L2)%nat /\ (forall c, In c L1 -> In c L /\ P c) /\ (forall c, In c L2 -> In c L /\ Q c).
Proof.
  induction L as [|c L IH]; intros Hnd HL.
  - exists [], []. split; [constructor|]. split; [constructor|]. split; [reflexivity|]. split; intros c [].
  - inversion Hnd as [|? ? Nc Nd]; subst. destruct IH as (L1 & L2 & N1 & N2 & Len & I1 & I2); [exact Nd|intros d Hd; apply HL; right; exact Hd|].
    destruct (HL c (or_introl eq_refl)) as [Hp|Hq].
    + exists (c :: L1), L2. split; [constructor; [intros Z; apply Nc, I1, Z|exact N1]|]. split; [exact N2|]. split; [cbn [length]; lia|].
      split; [intros d [<-|Hd]; [split; [left; reflexivity|exact Hp]|destruct (I1 d Hd); split; [right|]; assumption]|intros d Hd; destruct (I2 d Hd); split; [right|]; assumption].
    + exists L1, (c :: L2). split; [exact N1|]. split; [constructor; [intros Z; apply Nc, I2, Z|exact N2]|]. split; [cbn [length]; lia|].
      split; [intros d Hd; destruct (I1 d Hd); split; [right|]; assumption|intros d [<-|Hd]; [split; [left; reflexivity|exact Hq]|destruct (I2 d Hd); split; [right|]; assumption]].
Qed.
Lemma cover_many {A} (Ev : nat -> A -> Prop) (m : Z) (p : Z) k : forall (L : list A), 0 <= p -> 0 <= m ->
  (forall i L', (i < k)%nat -> NoDup L' -> (forall c, In c L' -> In c L /\ Ev i c) -> Z.of_nat (length L') * p <= m) ->
  NoDup L -> (forall c, In c L -> exists i, (i < k)%nat /\ Ev i c) -> Z.of_nat (length L) * p <= Z.of_nat k * m.
Proof.
  induction k as [|k IH]; intros L Hp Hm HB Hnd HL.
  - destruct L as [|c L]; [cbn; lia|]. destruct (HL c (or_introl eq_refl)) as (i & Hi & _). lia.
  - destruct (cover2 (Ev k) (fun c => exists i, (i < k)%nat /\ Ev i c) L Hnd) as (L1 & L2 & N1 & N2 & Len & I1 & I2).
    { intros c Hc. destruct (HL c Hc) as (i & Hi & He). destruct (Nat.eq_dec i k) as [->|Hne]; [left; exact He|right; exists i; split; [lia|exact He]]. }
    pose proof (HB k L1 ltac:(lia) N1 I1) as B1. assert (B2 : Z.of_nat (length L2) * p <= Z.of_nat k * m).
    { apply IH; [exact Hp|exact Hm| |exact N2|intros c Hc; apply I2; exact Hc]. intros i L' Hi Hnd' HL'. apply (HB i L'); [lia|exact Hnd'|]. intros c Hc. destruct (HL' c Hc) as [Y1 Y2]. split; [apply I2; exact Y1|exact Y2]. }
    rewrite Len. nia.
Qed.
Lemma search (P : nat -> Prop) (dec : forall i, {P i} + {~ P i}) k : (exists i, (i < k)%nat /\ P i) \/ (forall i, (i < k)%nat -> ~ P i).
Proof.
  induction k as [|k [(i & Hi & Hp)|IH]]; [right; lia|left; exists i; split; [lia|exact Hp]|].
  destruct (dec k) as [Hp|Hp]; [left; exists k; split; [lia|exact Hp]|right]. intros i Hi. destruct (Nat.eq_dec i k) as [->|]; [exact Hp|apply IH; lia].
Qed.

Lemma ok_pair5 {A B C D R} (a a' : A) (b b' : B) (c c' : C) (d d' : D) (r r' : R) : Ok (a, b, c, d, r) = Ok (a', b', c', d', r') -> a = a' /\ b = b' /\ c = c' /\ d = d' /\ r = r'.
Proof. intros H. injection H as -> -> -> -> ->. repeat split. Qed.

Section NCount.
Context {E : pairing}.
Notation K := (K_of E).
Notation F := (Fr E).
Add Ring Kr : (@scalar_ring_theory K).
Notation "x +f y" := (fadd x y) (at level 50, left associativity).
Notation "x *f y" := (fmul x y) (at level 40, left associativity).
Notation "x -f y" := (fsub x y) (at level 50, left associativity).
Notation e i env := (nth i env fzero).
Notation p := (modulus K).

Variables (n : nat) (cs : csys K) (xs : list F) (pf : profile) (domain : nat -> option (list F)) (fuel : nat) (b : Z) (gens : encryption_gens E).
Let ni := cs_num_inst cs.
Let nw := cs_num_wit cs.
Let nc := length (cs_cons cs).
Let N := length xs.
Let M := (ni + nw)%nat.
Notation G := (eg_G gens).
Notation H := (eg_H gens).
Notation B := (ark_backend pf domain fuel).
Hypothesis HG : G <> gzero.
Hypothesis HH : H <> gzero.
Hypothesis Hdom_ok : domain_ok domain.
Hypothesis Hb : supported b.
Hypothesis HbM : 2 ^ b <= modulus K.
Hypothesis Hcomp : chunk_compatible K b.
Hypothesis Hcount : chunks_count K b = Ok (Z.of_nat n).
Hypothesis Hn0 : (0 < n)%nat.
Hypothesis Hcs : generate_constraints (BitsizeCheckCircuit b (Z.of_nat n) None true) (@cs_new K Circuit.Setup) = Ok cs.
Hypothesis Hdomain : domain (nc + ni)%nat = Some xs.
Let Hni : ni = S n := proj1 (cs_shape n cs xs b (bits_of _ b Hb HbM) Hn0 Hcs).
Let D1 := 3 * Z.of_nat N + 9 * (3 * Z.of_nat n + 9).
Notation Q1 := (P1 n cs xs).
Notation Q2 := (P2 n cs).
Notation hok := (hon_ok n Q1 Q2).
Notation hons := (hons n cs xs pf b).
Notation hs := (hs n cs xs pf b).

Lemma HQ1 : (n < Q1)%nat.
Proof. unfold P1. lia. Qed.
Lemma g1_coeffs_length y p1 g al be de ga a b1 h l abc x0 x p2 : length y = n -> length x = n -> length a = M -> length b1 = M -> length h = (N - 1)%nat -> length l = nw -> length abc = ni ->
  length (@g1_coeffs E y p1 g al be de ga a b1 h l abc x0 x p2) = Q1.
Proof. intros. unfold g1_coeffs, P1. rewrite !app_length. cbn [length]. unfold M, N, ni, nw in *. lia. Qed.
Lemma g1_coeffs_nth y p1 g al be de ga a b1 h l abc x0 x p2 j : length y = n -> (j <= n)%nat -> nth j (@g1_coeffs E y p1 g al be de ga a b1 h l abc x0 x p2) fzero = nth j (y ++ [p1]) fzero.
Proof. intros Ly Hj. unfold g1_coeffs. apply app_nth1. rewrite app_length. cbn [length]. lia. Qed.
Lemma zs_nth k j : nth j (@zs E k ++ [fzero]) fzero = fzero.
Proof. unfold zs. revert j; induction k as [|k IH]; intros [|j]; cbn [repeat app nth]; try reflexivity; [destruct j; reflexivity|apply IH]. Qed.
Lemma hs_ok msg r rr ss : hok (hs msg r rr ss).
Proof.
  destruct (hs_run n cs xs pf domain fuel b gens Hdom_ok Hb HbM Hcomp Hcount Hcs Hdomain msg) as (Ld & _).
  assert (Lz : forall k, length (@zs E k) = k) by (intros k; apply repeat_length).
  unfold hon_ok, blk, NonmalLink.hs, honest_strategy. cbv zeta. cbn [sg_a sg_b sg_c sg_X_r sg_chunks sg_commitment].
  split; [rewrite map_length; apply seq_length|]. split; [|split].
  - intros row Hr. apply in_app_or in Hr. destruct Hr as [[<-|[]]|Hr]; [|apply in_app_or in Hr; destruct Hr as [Hr|[<-|[<-|[<-|[]]]]]].
    1,3-5: apply g1_coeffs_length; rewrite ?map_length, ?padz_length, ?Lz; first [reflexivity | exact Ld].
    apply in_map_iff in Hr. destruct Hr as (i & <- & Hi). apply in_seq in Hi. apply g1_coeffs_length; rewrite ?Lz, ?unit_at_length; try reflexivity; try lia.
  - rewrite app_length, padz_length. unfold P2. cbn [length]. fold ni nw. lia.
  - intros j Hj. unfold col. rewrite !map_app. cbn [map].
    rewrite !g1_coeffs_nth by (rewrite ?map_length, ?Lz; first [exact Hj | reflexivity | exact Ld]). rewrite !zs_nth.
    assert (X : forall f (l : list nat), (forall i, nth j (f i) fzero = @fzero K) -> map (fun r => nth j r fzero) (map f l) = repeat fzero (length l)).
    { intros f l Hf. rewrite map_map. induction l as [|i l IH]; [reflexivity|]. cbn [map length repeat]. rewrite Hf, IH. reflexivity. }
    rewrite X by (intros i; rewrite g1_coeffs_nth by (rewrite ?Lz; first [exact Hj | reflexivity]); apply zs_nth). rewrite seq_length. cbn [repeat app]. reflexivity.
Qed.
Lemma hons_ok msgs coins : Forall hok (hons msgs coins).
Proof. apply Forall_forall. intros S0 Hin. apply hons_in in Hin. destruct Hin as (msg & r & rr & ss & _ & ->). apply hs_ok. Qed.

(* ---------- what a table of k ciphertexts is used for ---------- *)
Definition dS : strategy E := Strategy [] [] [] [] [] [].
Definition xi (i : nat) (St : strategy E) : F := at_ n Q1 i (n + 1) (sg_commitment St).
Definition ka (i : nat) (St : strategy E) : F := at_ n Q1 i (n + 2) (sg_a St).
Definition comv (j : nat) (S0 : strategy E) : F := nth j (sg_commitment S0) fzero.
Definition fine_at (i : nat) (St : strategy E) (Ss : list (strategy E)) (T1 Pub : list (G1 E)) : Prop :=
  xi i St = fzero \/
  (xi i St = fone /\ ka i St <> fzero /\ (forall j, (j < n)%nat -> comv j St +f xsum n (skipn Q1 (sg_commitment St)) Ss (comv j) = comv j (nth i Ss dS)) /\
   dot (sg_a St) T1 = ka i St [*] dot (sg_a (nth i Ss dS)) Pub /\
   forall l, (l < length Ss)%nat -> l <> i -> dot (sg_a St) T1 <> ka l St [*] dot (sg_a (nth l Ss dS)) Pub).
Lemma geq_dec' (x y : G1 E) : {x = y} + {x <> y}.
Proof. destruct (geqb x y) eqn:Z; [left; apply geqb_spec; exact Z|right; intros Y; apply geqb_spec in Y; congruence]. Qed.
Lemma all_dec (P : nat -> Prop) (dec : forall i, {P i} + {~ P i}) k : {forall i, (i < k)%nat -> P i} + {~ forall i, (i < k)%nat -> P i}.
Proof.
  induction k as [|k [IH|IH]]; [left; lia| |right; intros Z; apply IH; intros i Hi; apply Z; lia].
  destruct (dec k) as [Hp|Hp]; [left; intros i Hi; destruct (Nat.eq_dec i k) as [->|]; [exact Hp|apply IH; lia]|right; intros Z; apply Hp, Z; lia].
Qed.
Lemma imp_dec (P Q : Prop) : {P} + {~ P} -> {Q} + {~ Q} -> {P -> Q} + {~ (P -> Q)}.
Proof. intros [p0|p0] [q|q]; [left; tauto|right; tauto|left; tauto|left; tauto]. Qed.
Lemma and_dec (P Q : Prop) : {P} + {~ P} -> {Q} + {~ Q} -> {P /\ Q} + {~ (P /\ Q)}.
Proof. intros [p0|p0] [q|q]; [left; tauto|right; tauto|right; tauto|right; tauto]. Qed.
Lemma or_dec (P Q : Prop) : {P} + {~ P} -> {Q} + {~ Q} -> {P \/ Q} + {~ (P \/ Q)}.
Proof. intros [p0|p0] [q|q]; [left; tauto|left; tauto|left; tauto|right; tauto]. Qed.
Lemma not_dec (P : Prop) : {P} + {~ P} -> {~ P} + {~ ~ P}.
Proof. intros [p0|p0]; [right; tauto|left; tauto]. Qed.
Lemma fine_dec i St Ss T1 Pub : {fine_at i St Ss T1 Pub} + {~ fine_at i St Ss T1 Pub}.
Proof.
  unfold fine_at. apply or_dec; [apply feq_dec|]. apply and_dec; [apply feq_dec|]. apply and_dec; [apply not_dec, feq_dec|]. apply and_dec.
  - apply (all_dec (fun j => comv j St +f xsum n (skipn Q1 (sg_commitment St)) Ss (comv j) = comv j (nth i Ss dS))). intros j. apply feq_dec.
  - apply and_dec; [apply geq_dec'|]. apply (all_dec (fun l => l <> i -> dot (sg_a St) T1 <> ka l St [*] dot (sg_a (nth l Ss dS)) Pub)).
    intros l. apply imp_dec; [apply not_dec, Nat.eq_dec|apply not_dec, geq_dec'].
Qed.

(* one execution, seen from the coins *)
Definition accepted_run (msgs : list F) (P : prover E) (c : list F) (post : proving_key E -> F -> encryption_key E -> decryption_key E -> strategy E -> list (strategy E) -> list (G1 E) -> list (G2 E) -> Prop) : Prop :=
  exists pk sk ek dk, setup_for_groth16 B (replay_rng E) b gens c = Ok (pk, sk, ek, dk, skipn (3 * n + 7) c) /\
  let Ss := hons msgs (skipn (3 * n + 7) c) in let cps := map (forged gens pk ek dk) Ss in
  let T1 := table_g1 gens pk ek cps in let T2 := table_g2 gens pk ek dk cps in let St := play P T1 T2 in
  verify_commitment_and_proof (ciphertext_from St T1) (proof_from St T1 T2) (prepare_verifying_key (gpk_vk (pk_pk pk))) (prepare_ek ek) (prepare_gens gens) = Ok tt /\
  post pk sk ek dk St Ss T1 T2.
Definition bad_at (i : nat) msgs P c := accepted_run msgs P c (fun pk sk ek dk St Ss T1 T2 => ~ fine_at i St Ss T1 (public_g1 gens pk ek)).

Definition av (i : nat) (Ss : list (strategy E)) (St : strategy E) : list (list F) :=
  map (fun l => map (fmul (ka l St)) (sg_a (nth l Ss dS))) (filter (fun l => negb (Nat.eqb l i)) (seq 0 (length Ss))).
Lemma filter_le {A} (f : A -> bool) l : (length (filter f l) <= length l)%nat.
Proof. induction l as [|a l IH]; cbn [filter length]; [lia|]. destruct (f a); cbn [length]; lia. Qed.
Lemma hok_a (S0 : strategy E) : hok S0 -> length (sg_a S0) = Q1.
Proof. intros (_ & HL & _). apply HL. unfold blk. apply in_or_app. right. apply in_or_app. right. right. left. reflexivity. Qed.
Lemma pub_lengths c pk sk ek dk st : (3 * n + 7 <= length c)%nat -> vanishing_at xs (e 4 c) <> fzero -> setup_for_groth16 B (replay_rng E) b gens c = Ok (pk, sk, ek, dk, st) ->
  length (public_g1 gens pk ek) = Q1 /\ length (public_g2 gens pk ek dk) = Q2.
Proof.
  intros Hl Hv Hs. pose proof (setup_tape_rest n cs xs pf domain fuel b gens Hcount Hcs Hdomain Hni c pk sk ek dk st Hl Hv Hs)
    as (_ & _ & _ & _ & _ & _ & _ & _ & _ & X1 & X2 & _). rewrite X1, X2, !map_length. unfold g1e, g2e. rewrite g1b_length, g2b_length. split; reflexivity.
Qed.

(* the fiber of one ciphertext: everything else on the table is a fixed combination of the published elements *)
Section Fiber.
Variables (before after : list F) (m : F) (cb ca : list F) (P : prover E).
Hypothesis Lb : length cb = (3 * length before)%nat.
Hypothesis La : length ca = (3 * length after)%nat.
Let i := length before.
Let Sb := hons before cb.
Let Sa := hons after ca.
Let R1 := rows1 n Q1 Sb Sa.
Let R2 := rows2 Q2 Sb Sa.
Let ms := before ++ m :: after.
Let k := length ms.
Let mm := mv (E:=E) (ds_of pf b m).
Let zz := zv cs (sp_of n cs pf b m).
Lemma fiber_run c0 c3 : length c0 = (3 * n + 7)%nat -> length c3 = 3%nat -> vanishing_at xs (e 4 c0) <> fzero -> bad_at i ms P (c0 ++ cb ++ c3 ++ ca) ->
  let env := c0 ++ c3 in let St := play1 n cs xs mm zz R1 R2 P env in let S0 := pull_strategy R1 R2 St in
  length env = (3 * n + 10)%nat /\ e 3 env <> fzero /\ length (sg_chunks S0) = n /\ f_com1 n cs xs mm zz S0 env = fzero /\ f_qap1 n cs xs mm zz S0 env = fzero /\
  ~ fine1 n cs xs mm zz S0 (av i (Sb ++ dS :: Sa) St) env.
Proof.
  intros L0 L3 Hv (pk & sk & ek & dk & Hset & Hacc & Hbad). cbv zeta in Hacc, Hbad. cbv zeta.
  rewrite skipn_app, skipn_all2, L0, Nat.sub_diag in Hset, Hacc, Hbad by lia. cbn [app skipn] in Hset, Hacc, Hbad.
  assert (Hset0 : forall x, setup_for_groth16 B (replay_rng E) b gens (c0 ++ x) = Ok (pk, sk, ek, dk, x)).
  { destruct (setup_local n cs xs pf domain fuel b gens Hb HbM Hcount Hn0 Hcs Hdomain c0 L0 Hv) as [(pk' & sk' & ek' & dk' & Hx)|Hx]; [|destruct (Hx _ _ Hset)].
    rewrite Hx in Hset. injection Hset as -> -> -> ->. exact Hx. }
  set (env := c0 ++ c3). assert (Lenv : length env = (3 * n + 10)%nat) by (unfold env; rewrite app_length; lia).
  assert (Hve : vanishing_at xs (e 4 env) <> fzero) by (unfold env; rewrite app_nth1 by lia; exact Hv).
  assert (Hg : good_setup n xs pf domain fuel b gens pk ek dk). { exists c0, sk. split; [exact L0|]. split; [exact Hv|]. rewrite <- (Hset0 []), app_nil_r. reflexivity. }
  destruct c3 as [|r [|rr [|ss [|? ?]]]]; try discriminate L3.
  destruct (hs_run n cs xs pf domain fuel b gens Hdom_ok Hb HbM Hcomp Hcount Hcs Hdomain m) as (Ld & Hd & Hsp & _ & HR).
  specialize (HR r rr ss pk ek dk [] Hg). set (S1 := hs m r rr ss) in *.
  assert (Ess : hons ms (cb ++ [r; rr; ss] ++ ca) = Sb ++ S1 :: Sa).
  { unfold ms. rewrite (hons_app n cs xs pf b Hb HbM Hn0 Hcs before (m :: after) cb _ Lb). reflexivity. }
  rewrite Ess in Hacc, Hbad.
  assert (HSb : Forall hok Sb) by apply hons_ok. assert (HSa : Forall hok Sa) by apply hons_ok. assert (HS1 : hok S1) by apply hs_ok.
  destruct (run_seen n cs xs pf domain fuel b gens HH Hdom_ok Hb HbM Hcomp Hcount Hn0 Hcs Hdomain env pk sk ek dk [r; rr; ss] m _ _ _ _ _ _ Lenv Hve Hd Hsp (Hset0 _) HR) as (Hga & Hde & T1e & T2e).
  destruct (pub_lengths env pk sk ek dk [r; rr; ss] ltac:(lia) Hve (Hset0 _)) as [LP1 LP2].
  set (ct1 := forge_ciphertext S1 gens pk ek) in *. set (q1 := forge_proof S1 gens pk ek dk) in *.
  assert (Lct : length (ct_enc_chunks ct1) = n) by (unfold ct1; cbn [forge_ciphertext ct_enc_chunks]; rewrite map_length; apply HS1).
  rewrite map_app in Hacc, Hbad. cbn [map] in Hacc, Hbad. change (forged gens pk ek dk S1) with (ct1, q1) in Hacc, Hbad.
  rewrite (table1_g1 n Q1 Q2 Sb Sa gens pk ek dk (ct1, q1) HSb HSa LP1 Lct) in Hacc, Hbad. rewrite (table1_g2 n Q1 Q2 Sb Sa gens pk ek dk (ct1, q1) HSb HSa LP2) in Hacc, Hbad.
  fold R1 R2 in Hacc, Hbad. change (public_g1 gens pk ek ++ pair_g1 (ct1, q1)) with (seen_g1 gens pk ek ct1 q1) in Hacc, Hbad.
  change (public_g2 gens pk ek dk ++ [pr_b (snd (ct1, q1))]) with (seen_g2 gens pk ek dk q1) in Hacc, Hbad.
  fold mm zz in T1e, T2e. set (T1 := seen_g1 gens pk ek ct1 q1) in *. set (T2 := seen_g2 gens pk ek dk q1) in *.
  rewrite (play_play1 n cs xs pf domain fuel b gens HG HH Hb HbM Hcount Hn0 Hcs Hdomain env pk sk ek dk [r; rr; ss] T1 T2 mm zz Lenv Hve (Hset0 _) T1e T2e R1 R2 P) in Hacc, Hbad.
  set (St := play1 n cs xs mm zz R1 R2 P env) in *. rewrite <- (pull_ciphertext R1 R2 St), <- (pull_proof R1 R2 St) in Hacc. set (S0 := pull_strategy R1 R2 St) in *.
  destruct (accept1 n cs xs pf domain fuel b gens HG HH Hb HbM Hcount Hn0 Hcs Hdomain env pk sk ek dk [r; rr; ss] T1 T2 mm zz Lenv Hve (Hset0 _) T1e T2e S0 Hacc) as (A1 & A2 & A3).
  split; [exact Lenv|]. split; [exact Hde|]. split; [exact A1|]. split; [exact A2|]. split; [exact A3|]. intros Hfine. apply Hbad. clear Hbad Hacc A1 A2 A3.
  assert (LSb : length Sb = i) by exact (hons_length n cs xs pf b Hb HbM Hn0 Hcs before cb Lb).
  assert (Ex : hx n cs xs (sg_commitment S0) = xi i St).
  { unfold hx, S0. cbn [pull_strategy sg_commitment]. unfold R1. rewrite (high1 n Q1 Q2 HQ1 _ Sb Sa (1 + n) HSb HSa) by lia. unfold xi. rewrite LSb. f_equal. lia. }
  assert (Ea : ha n cs xs (sg_a S0) = ka i St).
  { unfold ha, S0. cbn [pull_strategy sg_a]. unfold R1. rewrite (high1 n Q1 Q2 HQ1 _ Sb Sa (2 + n) HSb HSa) by lia. unfold ka. rewrite LSb. f_equal. lia. }
  assert (Dot : forall c, dot c (combos R1 T1) = dot (row_mul c R1) T1) by (intros c; symmetry; apply dot_row_mul).
  assert (Nth : nth i (Sb ++ S1 :: Sa) dS = S1) by (rewrite app_nth2 by lia; rewrite LSb, Nat.sub_diag; reflexivity).
  unfold fine_at. rewrite Nth. destruct Hfine as [Z|(Z1 & Z2 & Z3 & Z4 & Z5)]; [left; congruence|right].
  rewrite Ex in Z1. rewrite Ea in Z2. split; [exact Z1|]. split; [exact Z2|]. split; [|split].
  - intros j Hj. specialize (Z3 j Hj). unfold S0 in Z3. cbn [pull_strategy sg_commitment] in Z3.
    pose proof (low1 n Q1 Q2 HQ1 (sg_commitment St) Sb S1 Sa j HSb HSa ltac:(lia)) as Y. fold R1 in Y. rewrite Z3, LSb in Y. fold (xi i St) in Y. rewrite Z1 in Y.
    change (nth j (sg_commitment S1) fzero) with (comv j S1) in Y. change (nth j (sg_commitment St) fzero) with (comv j St) in Y.
    change (fun S0 : strategy E => nth j (sg_commitment S0) fzero) with (comv j) in Y. rewrite <- Y. ring.
  - rewrite Dot. change (row_mul (sg_a St) R1) with (sg_a S0).
    apply (A_fine_dot n cs xs pf domain fuel b gens HG Hb HbM Hcount Hn0 Hcs Hdomain env pk sk ek dk [r; rr; ss] T1 mm zz Lenv Hve (Hset0 _) T1e S0) in Z4. rewrite Z4, Ea. f_equal.
    unfold T1, seen_g1. rewrite app_nth2 by lia. rewrite LP1. replace (Q1 + (2 + n) - Q1)%nat with (S (S n)) by lia. cbn [app nth]. rewrite app_nth2 by lia. rewrite Lct. replace (S n - n)%nat with 1%nat by lia. reflexivity.
  - intros l Hl Hli. rewrite Dot. change (row_mul (sg_a St) R1) with (sg_a S0). intros Y.
    assert (Lss : length (Sb ++ S1 :: Sa) = length (Sb ++ dS :: Sa)) by (rewrite !app_length; reflexivity).
    assert (Nl : nth l (Sb ++ S1 :: Sa) dS = nth l (Sb ++ dS :: Sa) dS).
    { destruct (Nat.lt_ge_cases l i) as [Hlt|Hge]; [rewrite !app_nth1 by lia; reflexivity|]. rewrite !app_nth2 by lia. destruct (l - length Sb)%nat as [|q] eqn:Eq; [lia|reflexivity]. }
    apply (Z5 (map (fmul (ka l St)) (sg_a (nth l (Sb ++ dS :: Sa) dS)))).
    + unfold av. apply in_map_iff. exists l. split; [reflexivity|]. apply filter_In. split; [apply in_seq; lia|]. destruct (Nat.eqb_spec l i); [contradiction|reflexivity].
    + apply (dot_T1_eq n cs xs pf domain fuel b gens HG Hb HbM Hcount Hn0 Hcs Hdomain env pk sk ek dk [r; rr; ss] T1 mm zz Lenv Hve (Hset0 _) T1e).
      rewrite Y, dot_map_fmul, <- Nl. f_equal. symmetry. apply dot_short. rewrite LP1.
      assert (HSl : hok (nth l (Sb ++ S1 :: Sa) dS)).
      { assert (Hall : Forall hok (Sb ++ S1 :: Sa)) by (apply Forall_app; split; [exact HSb|constructor; assumption]). rewrite Forall_forall in Hall. apply Hall, nth_In. exact Hl. }
      rewrite (hok_a _ HSl). lia.
Qed.
Lemma fiber_count (L : list (list F)) : NoDup L ->
  (forall env, In env L -> exists c0 c3, env = c0 ++ c3 /\ length c0 = (3 * n + 7)%nat /\ length c3 = 3%nat /\ vanishing_at xs (e 4 c0) <> fzero /\ bad_at i ms P (c0 ++ cb ++ c3 ++ ca)) ->
  Z.of_nat (length L) * p <= (Z.of_nat (tests P) * D1 + Z.of_nat k * D1) * p ^ Z.of_nat (3 * n + 10).
Proof.
  intros Hnd HL. pose proof (@modulus_gt1 K) as Hp.
  apply (adaptive1 n cs xs mm zz Hn0 (proj2 (Hdom_ok _ _ Hdomain)) R1 R2 (fun St env => e 3 env <> fzero /\ length (sg_chunks (pull_strategy R1 R2 St)) = n /\ f_com1 n cs xs mm zz (pull_strategy R1 R2 St) env = fzero /\
     f_qap1 n cs xs mm zz (pull_strategy R1 R2 St) env = fzero /\ ~ fine1 n cs xs mm zz (pull_strategy R1 R2 St) (av i (Sb ++ dS :: Sa) St) env) (Z.of_nat k * D1) P).
  - unfold D1. lia.
  - intros St L' Hnd' HL'.
    apply (fixed_bound n cs xs mm zz b (bits_of _ b Hb HbM) Hn0 Hcs (proj1 (Hdom_ok _ _ Hdomain)) (proj2 (Hdom_ok _ _ Hdomain)) (pull_strategy R1 R2 St) (av i (Sb ++ dS :: Sa) St) (Z.of_nat k) L').
    + unfold k, ms. rewrite app_length. cbn [length]. lia.
    + unfold av. rewrite map_length. pose proof (filter_le (fun l => negb (Nat.eqb l i)) (seq 0 (length (Sb ++ dS :: Sa)))) as X. rewrite seq_length in X.
      assert (Y : length (Sb ++ dS :: Sa) = k). { unfold k, ms. rewrite !app_length. cbn [length]. unfold Sb, Sa. rewrite (hons_length n cs xs pf b Hb HbM Hn0 Hcs before cb Lb), (hons_length n cs xs pf b Hb HbM Hn0 Hcs after ca La). reflexivity. } lia.
    + intros R HR j Hj. unfold av in HR. apply in_map_iff in HR. destruct HR as (l & <- & Hl). apply filter_In in Hl. destruct Hl as [Hl Hne]. apply in_seq in Hl. apply nth_overflow. rewrite map_length.
      assert (LSb : length Sb = i) by exact (hons_length n cs xs pf b Hb HbM Hn0 Hcs before cb Lb).
      assert (HSl : hok (nth l (Sb ++ dS :: Sa) dS)).
      { rewrite app_length in Hl. cbn [length] in Hl. pose proof (hons_ok before cb) as X1. pose proof (hons_ok after ca) as X2. rewrite Forall_forall in X1, X2.
        destruct (Nat.lt_ge_cases l i) as [Hlt|Hge]; [rewrite app_nth1 by lia; apply X1, nth_In; fold Sb; lia|]. rewrite app_nth2 by lia.
        destruct (l - length Sb)%nat as [|q] eqn:Eq; [destruct (Nat.eqb_spec l i); [discriminate Hne|lia]|]. cbn [nth]. apply X2, nth_In. fold Sa. lia. }
      rewrite (hok_a _ HSl). exact Hj.
    + exact Hnd'.
    + intros env He. destruct (HL' env He) as (X1 & X2 & X3 & X4 & X5 & X6). repeat split; assumption.
  - exact Hnd.
  - intros env He. destruct (HL env He) as (c0 & c3 & -> & L0 & L3 & Hv & Hbad). destruct (fiber_run c0 c3 L0 L3 Hv Hbad) as (Y1 & Y2). split; [exact Y1|exact Y2].
Qed.
End Fiber.
Lemma position_bad before m after P (L : list (list F)) : NoDup L ->
  (forall c, In c L -> length c = (3 * n + 7 + 3 * (length before + S (length after)))%nat /\ vanishing_at xs (e 4 c) <> fzero /\ bad_at (length before) (before ++ m :: after) P c) ->
  Z.of_nat (length L) * p <= ((Z.of_nat (tests P) + Z.of_nat (length before + S (length after))) * D1) * p ^ Z.of_nat (3 * n + 7 + 3 * (length before + S (length after))).
Proof.
  intros Hnd HL. set (i := length before) in *. set (l := length after) in *. pose proof (@modulus_gt1 K) as Hp.
  destruct (@all_tuples_exist K (3 * i)) as (Tb & Tb1 & Tb2). destruct (@all_tuples_exist K (3 * l)) as (Ta & Ta1 & Ta2).
  pose proof (all_tuples_count _ Tb Tb1 Tb2) as Cb. pose proof (all_tuples_count _ Ta Ta1 Ta2) as Ca.
  assert (dec : forall x y : list F * list F, {x = y} + {x <> y}) by (decide equality; apply (list_eq_dec feq_dec)).
  pose proof (fiber_bound dec (others n i) (list_prod Tb Ta) L p ((Z.of_nat (tests P) + Z.of_nat (i + S l)) * D1 * p ^ Z.of_nat (3 * n + 10)) ltac:(lia)) as FB.
  eapply Z.le_trans; [apply FB|].
  - intros c Hc. destruct (HL c Hc) as [Lc _]. destruct (coins_split n cs xs b Hn0 i l c Lc) as (c0 & cb & c3 & ca & Ec & L0 & Lb & L3 & La & Eo & _). rewrite Eo. apply in_prod_iff.
    split; [apply Tb2; exact Lb|apply Ta2; exact La].
  - intros [cb ca] Hy. apply in_prod_iff in Hy. destruct Hy as [Yb Ya]. apply Tb2 in Yb. apply Ta2 in Ya.
    set (L1 := filter _ L). rewrite <- (map_length (own n i) L1).
    assert (In1 : forall c, In c L1 -> In c L /\ others n i c = (cb, ca)).
    { intros c Hc. apply filter_In in Hc. destruct Hc as [Hc Hd]. split; [exact Hc|]. destruct (dec (others n i c) (cb, ca)); [assumption|discriminate]. }
    assert (Nd : NoDup L1) by (apply NoDup_filter; exact Hnd).
    pose proof (fiber_count before after m cb ca P Yb Ya (map (own n i) L1)) as FC. rewrite app_length in FC. cbn [length] in FC. fold i l in FC.
    rewrite Z.mul_add_distr_r. apply FC; clear FC.
    + clear FB. clearbody L1. induction L1 as [|c L1 IH]; cbn [map]; [constructor|]. inversion Nd as [|? ? Nc Nd']; subst. constructor.
      * intros Z. apply in_map_iff in Z. destruct Z as (d & Ed & Hd). apply Nc. replace c with d; [exact Hd|].
        destruct (In1 c (or_introl eq_refl)) as [Ic Oc]. destruct (In1 d (or_intror Hd)) as [Id Od].
        destruct (coins_split n cs xs b Hn0 i l c (proj1 (HL c Ic))) as (c0 & cb' & c3 & ca' & Ec & L0 & Lb & L3 & La & Eo & Ew).
        destruct (coins_split n cs xs b Hn0 i l d (proj1 (HL d Id))) as (d0 & db & d3 & da & Edd & M0 & Mb & M3 & Ma & Fo & Fw).
        rewrite Eo in Oc. rewrite Fo in Od. injection Oc as -> ->. injection Od as -> ->. rewrite Ew, Fw in Ed.
        assert (X : d0 = c0 /\ d3 = c3).
        { apply (app_eq_parts n cs xs b Hn0); [lia|exact Ed]. }
        destruct X as [-> ->]. rewrite Ec, Edd. reflexivity.
      * apply IH; [|exact Nd']. intros d Hd. apply In1. right. exact Hd.
    + intros w Hw. apply in_map_iff in Hw. destruct Hw as (c & <- & Hc). destruct (In1 c Hc) as [Ic Oc]. destruct (HL c Ic) as (Lc & Hv & Hne).
      destruct (coins_split n cs xs b Hn0 i l c Lc) as (c0 & cb' & c3 & ca' & Ec & L0 & Lb & L3 & La & Eo & Ew). rewrite Eo in Oc. injection Oc as -> ->. rewrite Ew.
      exists c0, c3. split; [reflexivity|]. split; [exact L0|]. split; [exact L3|]. split; [rewrite Ec, app_nth1 in Hv by lia; exact Hv|]. fold i. rewrite <- Ec. exact Hne.
  - rewrite prod_length, Nat2Z.inj_mul, Cb, Ca. apply Z.eq_le_incl.
    replace (Z.of_nat (3 * n + 7 + 3 * (i + S l))) with (Z.of_nat (3 * i) + Z.of_nat (3 * l) + Z.of_nat (3 * n + 10)) by lia. rewrite !Z.pow_add_r by lia. ring.
Qed.

(* ---------- the whole table as combinations of the published elements ---------- *)
Definition whole (St : strategy E) (Ss : list (strategy E)) : strategy E := pull_strategy (rows0 Q1 Ss) (rows0' Q2 Ss) St.
Definition bad0 msgs P c := accepted_run msgs P c (fun pk sk ek dk St Ss T1 T2 =>
  ~ (digits_ok b (extracted_chunks n (whole St Ss)) /\ exists g_i, get_gs_for_encryption (gpk_vk (pk_pk pk)) = Ok g_i /\
     encrypts ek g_i (extracted_chunks n (whole St Ss)) (ct_vec (ciphertext_from St T1)) (extracted_r n (whole St Ss)))).
Let D7 := 3 * Z.of_nat N + 7 * (3 * Z.of_nat n + 6).
Let D4 := 4 * Z.of_nat N + 7 * (3 * Z.of_nat n + 6).
Lemma whole_bad msgs P (L : list (list F)) : NoDup L ->
  (forall c, In c L -> length c = (3 * n + 7 + 3 * length msgs)%nat /\ vanishing_at xs (e 4 c) <> fzero /\ bad0 msgs P c) ->
  Z.of_nat (length L) * p <= (Z.of_nat (tests P) * D7 + D4) * p ^ Z.of_nat (3 * n + 7 + 3 * length msgs).
Proof.
  intros Hnd HL. pose proof (@modulus_gt1 K) as Hp. set (k := length msgs) in *.
  destruct (@all_tuples_exist K (3 * k)) as (Tk & Tk1 & Tk2). pose proof (all_tuples_count _ Tk Tk1 Tk2) as Ck.
  pose proof (fiber_bound (list_eq_dec feq_dec) (skipn (3 * n + 7)) Tk L p ((Z.of_nat (tests P) * D7 + D4) * p ^ Z.of_nat (3 * n + 7)) ltac:(lia)) as FB.
  eapply Z.le_trans; [apply FB|].
  - intros c Hc. destruct (HL c Hc) as [Lc _]. apply Tk2. rewrite skipn_length. lia.
  - intros ck Hy. apply Tk2 in Hy. set (L1 := filter _ L). rewrite <- (map_length (firstn (3 * n + 7)) L1).
    assert (In1 : forall c, In c L1 -> In c L /\ skipn (3 * n + 7) c = ck).
    { intros c Hc. apply filter_In in Hc. destruct Hc as [Hc Hd]. split; [exact Hc|]. destruct (list_eq_dec feq_dec (skipn (3 * n + 7) c) ck); [assumption|discriminate]. }
    assert (Nd : NoDup L1) by (apply NoDup_filter; exact Hnd).
    set (Ss := hons msgs ck). assert (HSs : Forall hok Ss) by apply hons_ok.
    pose proof (C68_adaptive_provers_know_what_they_encrypt E gens pf domain fuel n b cs xs (pull_prover (rows0 Q1 Ss) (rows0' Q2 Ss) P) (map (firstn (3 * n + 7)) L1) HG HH Hdom_ok (bits_of _ b Hb HbM) Hcount Hn0 Hcs Hdomain) as C.
    rewrite pull_tests in C. apply C; clear C.
    + clear FB. clearbody L1. induction L1 as [|c L1 IH]; cbn [map]; [constructor|]. inversion Nd as [|? ? Nc Nd']; subst. constructor.
      * intros Z. apply in_map_iff in Z. destruct Z as (d & Ed & Hd). apply Nc. replace c with d; [exact Hd|].
        destruct (In1 c (or_introl eq_refl)) as [Ic Oc]. destruct (In1 d (or_intror Hd)) as [Id Od].
        rewrite <- (firstn_skipn (3 * n + 7) c), <- (firstn_skipn (3 * n + 7) d), Ed, Oc, Od. reflexivity.
      * apply IH; [|exact Nd']. intros d Hd. apply In1. right. exact Hd.
    + intros w Hw. apply in_map_iff in Hw. destruct Hw as (c & <- & Hc). destruct (In1 c Hc) as [Ic Oc]. destruct (HL c Ic) as (Lc & Hv & (pk & sk & ek & dk & Hset & Hacc & Hbad)). cbv zeta in Hacc, Hbad.
      rewrite Oc in Hset, Hacc, Hbad. fold Ss in Hacc, Hbad. set (c0 := firstn (3 * n + 7) c). assert (L0 : length c0 = (3 * n + 7)%nat) by (unfold c0; rewrite firstn_length; lia).
      assert (Ec : c = c0 ++ ck) by (rewrite <- Oc; symmetry; apply firstn_skipn).
      assert (Hv0 : vanishing_at xs (e 4 c0) <> fzero) by (rewrite Ec, app_nth1 in Hv by lia; exact Hv).
      split; [exact L0|]. exists pk, sk, ek, dk, [].
      assert (Hset0 : setup_for_groth16 B (replay_rng E) b gens c0 = Ok (pk, sk, ek, dk, [])).
      { destruct (setup_local n cs xs pf domain fuel b gens Hb HbM Hcount Hn0 Hcs Hdomain c0 L0 Hv0) as [(pk' & sk' & ek' & dk' & Hx)|Hx]; [|rewrite Ec in Hset; destruct (Hx _ _ Hset)].
        rewrite Ec, Hx in Hset. injection Hset as -> -> -> ->. rewrite <- (Hx []), app_nil_r. reflexivity. }
      split; [exact Hset0|]. cbv zeta.
      destruct (pub_lengths c0 pk sk ek dk [] ltac:(lia) Hv0 Hset0) as [LP1 LP2].
      rewrite (table0_g1 n Q1 Q2 Ss gens pk ek dk HSs LP1), (table0_g2 n Q1 Q2 Ss gens pk ek dk HSs LP2) in Hacc, Hbad.
      rewrite pull_play. set (St := play P (combos (rows0 Q1 Ss) (public_g1 gens pk ek)) (combos (rows0' Q2 Ss) (public_g2 gens pk ek dk))) in *. fold (whole St Ss).
      change (forge_ciphertext (whole St Ss) gens pk ek) with (ciphertext_from (whole St Ss) (public_g1 gens pk ek)).
      change (forge_proof (whole St Ss) gens pk ek dk) with (proof_from (whole St Ss) (public_g1 gens pk ek) (public_g2 gens pk ek dk)).
      assert (X1 : ciphertext_from (whole St Ss) (public_g1 gens pk ek) = ciphertext_from St (combos (rows0 Q1 Ss) (public_g1 gens pk ek))) by apply pull_ciphertext.
      assert (X2 : proof_from (whole St Ss) (public_g1 gens pk ek) (public_g2 gens pk ek dk) = proof_from St (combos (rows0 Q1 Ss) (public_g1 gens pk ek)) (combos (rows0' Q2 Ss) (public_g2 gens pk ek dk))) by apply pull_proof.
      rewrite X1, X2. split; [exact Hacc|exact Hbad].
  - rewrite Ck. apply Z.eq_le_incl. rewrite (Nat2Z.inj_add (3 * n + 7)), Z.pow_add_r by lia. ring.
Qed.

(* ---------- assembly ---------- *)
Lemma combine_nth_map {A B} (f : nat -> A) (d : B) (l : list B) : combine (map f (seq 0 (length l))) l = map (fun j => (f j, nth j l d)) (seq 0 (length l)).
Proof.
  revert f. induction l as [|x l IH]; intros f; [reflexivity|]. cbn [length seq map combine nth]. f_equal. rewrite <- seq_shift, !map_map. apply (IH (fun j => f (S j))).
Qed.
Lemma rerandomized_formula ek g_i ds (rho r : F) : length (ek_X ek) = length ds -> ct_formula ek g_i ds (rho +f r) = rerandomized ek rho (ct_formula ek g_i ds r).
Proof.
  intros L. unfold rerandomized, ct_formula. cbn [ct_X_r ct_enc_chunks ct_commitment]. f_equal.
  - glin.
  - unfold body_formula. rewrite <- L. rewrite (combine_nth_map _ gzero), map_map. apply map_ext. intros j. cbn [fst snd]. glin.
  - unfold psi_formula. glin.
Qed.
Definition is_fresh St pk ek (T1 : list (G1 E)) : Prop := digits_ok b (extracted_chunks n St) /\ exists g_i, get_gs_for_encryption (gpk_vk (pk_pk pk)) = Ok g_i /\
  encrypts ek g_i (extracted_chunks n St) (ct_vec (ciphertext_from St T1)) (extracted_r n St).
Definition is_copy St ek (T1 : list (G1 E)) (T2 : list (G2 E)) (cps : list (ciphertext E * proof E)) : Prop :=
  exists ct0 q0, In (ct0, q0) cps /\ ciphertext_from St T1 = rerandomized ek (extracted_r n St) ct0 /\ exists kappa, kappa <> fzero /\ pr_a (proof_from St T1 T2) = kappa [*] pr_a q0.
(* all accepted outputs but few are of the kind that the coefficients of the commitment tell *)
Definition fresh_kind (kk : nat) (St : strategy E) : Prop := forall i, (i < kk)%nat -> xi i St = fzero.
Definition copy_kind (kk : nat) (St : strategy E) : Prop := exists i, (i < kk)%nat /\ xi i St <> fzero.
Lemma hs_r msg r rr ss : extracted_r n (hs msg r rr ss) = r.
Proof.
  destruct (hs_run n cs xs pf domain fuel b gens Hdom_ok Hb HbM Hcomp Hcount Hcs Hdomain msg) as (Ld & _).
  unfold extracted_r, NonmalLink.hs, honest_strategy. cbv zeta. cbn [sg_commitment]. rewrite g1_coeffs_nth by (rewrite ?map_length; lia). rewrite app_nth2; rewrite map_length; [|lia]. rewrite Ld, Nat.sub_diag. reflexivity.
Qed.
Lemma whole_com St Ss j : Forall hok Ss -> (j <= n)%nat -> comv j (whole St Ss) = comv j St +f xsum n (skipn Q1 (sg_commitment St)) Ss (comv j).
Proof. intros Hh Hj. unfold comv at 1, whole. cbn [pull_strategy sg_commitment]. rewrite (low0 n Q1 Q2 HQ1 _ Ss j Hh Hj). reflexivity. Qed.
Lemma chunks_ext S1 S2 : (forall j, (j < n)%nat -> comv j S1 = comv j S2) -> extracted_chunks n S1 = extracted_chunks n S2.
Proof. intros Hj. unfold extracted_chunks. apply map_ext_in. intros j Hin. apply in_seq in Hin. f_equal. apply Hj. lia. Qed.

Lemma assemble msgs P c : length c = (3 * n + 7 + 3 * length msgs)%nat -> vanishing_at xs (e 4 c) <> fzero ->
  accepted_run msgs P c (fun pk sk ek dk St Ss T1 T2 => ~ (fresh_kind (length msgs) St /\ is_fresh St pk ek T1) /\ ~ (copy_kind (length msgs) St /\ is_copy St ek T1 T2 (map (forged gens pk ek dk) Ss))) ->
  (exists i, (i < length msgs)%nat /\ bad_at i msgs P c) \/ bad0 msgs P c.
Proof.
  intros Lc Hv (pk & sk & ek & dk & Hset & Hacc & Hnf & Hnc). cbv zeta in Hacc, Hnf, Hnc.
  set (Ss := hons msgs (skipn (3 * n + 7) c)) in *. set (T1 := table_g1 _ _ _ _) in *. set (T2 := table_g2 _ _ _ _ _) in *. set (St := play P T1 T2) in *.
  assert (LSs : length Ss = length msgs) by (apply (hons_length n cs xs pf b Hb HbM Hn0 Hcs); rewrite skipn_length; lia).
  assert (HSs : Forall hok Ss) by apply hons_ok.
  destruct (search (fun i => ~ fine_at i St Ss T1 (public_g1 gens pk ek)) (fun i => not_dec _ (fine_dec i St Ss T1 (public_g1 gens pk ek))) (length msgs)) as [(i & Hi & Hbad)|Hfine].
  { left. exists i. split; [exact Hi|]. exists pk, sk, ek, dk. split; [exact Hset|]. split; [exact Hacc|exact Hbad]. }
  assert (Hf : forall i, (i < length msgs)%nat -> fine_at i St Ss T1 (public_g1 gens pk ek)).
  { intros i Hi. destruct (fine_dec i St Ss T1 (public_g1 gens pk ek)) as [Y|Y]; [exact Y|destruct (Hfine i Hi Y)]. }
  right. exists pk, sk, ek, dk. split; [exact Hset|]. split; [exact Hacc|]. intros (Hdig & g_i & Hg & Henc). fold Ss in Hdig, Henc. fold T1 T2 St in Hdig, Henc.
  destruct (search (fun i => xi i St <> fzero) (fun i => not_dec _ (feq_dec (xi i St) fzero)) (length msgs)) as [(i & Hi & Hx)|Hx0].
  - apply Hnc. split; [exists i; split; [exact Hi|exact Hx]|]. destruct (Hf i Hi) as [Z|(Z1 & Z2 & Z3 & Z4 & Z5)]; [contradiction|].
    assert (Others : forall l, (l < length Ss)%nat -> l <> i -> xi l St = fzero).
    { intros l Hl Hli. destruct (Hf l ltac:(lia)) as [Z|(_ & _ & _ & Y & _)]; [exact Z|]. destruct (Z5 l Hl Hli Y). }
    destruct (nth_split Ss dS (n := i) ltac:(lia)) as (Sb & Sa & Es & Lsb). set (S1 := nth i Ss dS) in *.
    assert (Hin : In S1 Ss) by (apply nth_In; lia).
    destruct (hons_in n cs xs pf b msgs _ S1 Hin) as (msg & r & rr & ss & _ & ES1).
    destruct (hs_run n cs xs pf domain fuel b gens Hdom_ok Hb HbM Hcomp Hcount Hcs Hdomain msg) as (Ld & _ & _ & Hxc & _).
    assert (X1 : extracted_chunks n (whole St Ss) = ds_of pf b msg).
    { rewrite <- (Hxc r rr ss), <- ES1. apply chunks_ext. intros j Hj. rewrite whole_com by (try exact HSs; lia). apply Z3. exact Hj. }
    assert (X2 : extracted_r n (whole St Ss) = extracted_r n St +f r).
    { change (extracted_r n (whole St Ss)) with (comv n (whole St Ss)). rewrite whole_com by (try exact HSs; lia). change (comv n St) with (extracted_r n St). f_equal.
      rewrite Es. rewrite (xsum_one n Q1 HQ1 Sb S1 Sa (comv n)).
      - rewrite ES1. apply hs_r.
      - rewrite Lsb. exact Z1.
      - intros l Hl Hli. rewrite <- Es in Hl. apply (Others l Hl). lia. }
    rewrite X1, X2 in Henc. apply encrypts_inv in Henc. destruct Henc as (n' & (_ & LX & _) & Ln' & _ & Hv2).
    assert (Hct : ciphertext_from St T1 = ct_formula ek g_i (ds_of pf b msg) (extracted_r n St +f r)).
    { apply (f_equal (@ct_of_vec E)) in Hv2. rewrite !ct_of_vec_ct_vec in Hv2. apply (f_equal (fun o => match o with Ok x => x | _ => ciphertext_from St T1 end)) in Hv2. exact Hv2. }
    rewrite rerandomized_formula in Hct by lia.
    exists (forge_ciphertext S1 gens pk ek), (forge_proof S1 gens pk ek dk). split; [apply (in_map (forged gens pk ek dk) Ss S1 Hin)|]. split.
    + rewrite Hct. f_equal. rewrite ES1. unfold NonmalLink.hs. apply (honest_ciphertext_is_forged n cs xs b gens (bits_of _ b Hb HbM) Hn0 Hcs pk ek g_i _ _ r rr ss); [|exact Ld|exact Hg].
      set (c0 := firstn (3 * n + 7) c). assert (L0 : length c0 = (3 * n + 7)%nat) by (unfold c0; rewrite firstn_length; lia).
      assert (Ec : c = c0 ++ skipn (3 * n + 7) c) by (symmetry; apply firstn_skipn).
      assert (Hv0 : vanishing_at xs (e 4 c0) <> fzero) by (rewrite Ec, app_nth1 in Hv by lia; exact Hv).
      destruct (setup_local n cs xs pf domain fuel b gens Hb HbM Hcount Hn0 Hcs Hdomain c0 L0 Hv0) as [(pk' & sk' & ek' & dk' & Hxx)|Hxx]; [|rewrite Ec in Hset at 1; destruct (Hxx _ _ Hset)].
      rewrite Ec in Hset at 1. rewrite Hxx in Hset. injection Hset as -> -> -> ->. specialize (Hxx []). rewrite app_nil_r in Hxx.
      exact (setup_shape n cs xs pf domain fuel b gens (bits_of _ b Hb HbM) Hcount Hn0 Hcs Hdomain c0 pk sk ek dk [] L0 Hv0 Hxx).
    + exists (ka i St). split; [exact Z2|]. exact Z4.
  - apply Hnf. assert (Zx : forall i, (i < length Ss)%nat -> xi i St = fzero).
    { intros i Hi. destruct (feq_dec (xi i St) fzero) as [Y|Y]; [exact Y|destruct (Hx0 i ltac:(lia) Y)]. }
    assert (Eq : forall j, (j <= n)%nat -> comv j (whole St Ss) = comv j St).
    { intros j Hj. rewrite whole_com by assumption. rewrite (xsum_zero n Q1 HQ1 Ss (comv j) (skipn Q1 (sg_commitment St))); [ring|]. intros i Hi. rewrite nth_skipn. apply (Zx i Hi). }
    assert (X1 : extracted_chunks n (whole St Ss) = extracted_chunks n St) by (apply chunks_ext; intros j Hj; apply Eq; lia).
    assert (X2 : extracted_r n (whole St Ss) = extracted_r n St) by (apply (Eq n); lia).
    rewrite X1 in Hdig. rewrite X1, X2 in Henc. split; [intros i Hi; apply Zx; lia|]. split; [exact Hdig|]. exists g_i. split; [exact Hg|exact Henc].
Qed.

Theorem nonmal_kind_bound msgs P (L : list (list F)) : NoDup L ->
  (forall c, In c L -> length c = (3 * n + 7 + 3 * length msgs)%nat /\ vanishing_at xs (e 4 c) <> fzero /\ exists pk sk ek dk rest cps st,
     setup_for_groth16 B (replay_rng E) b gens c = Ok (pk, sk, ek, dk, rest) /\ encrypt_all pf B (replay_rng E) msgs ek pk b rest = Ok (cps, st) /\
     let T1 := table_g1 gens pk ek cps in let T2 := table_g2 gens pk ek dk cps in let St := play P T1 T2 in
     verify_commitment_and_proof (ciphertext_from St T1) (proof_from St T1 T2) (prepare_verifying_key (gpk_vk (pk_pk pk))) (prepare_ek ek) (prepare_gens gens) = Ok tt /\
     ~ (fresh_kind (length msgs) St /\ is_fresh St pk ek T1) /\ ~ (copy_kind (length msgs) St /\ is_copy St ek T1 T2 cps)) ->
  Z.of_nat (length L) * p <= ((Z.of_nat (tests P) * D7 + D4) + Z.of_nat (length msgs) * (Z.of_nat (tests P) + Z.of_nat (length msgs)) * D1) * p ^ Z.of_nat (3 * n + 7 + 3 * length msgs).
Proof.
  intros Hnd HL. pose proof (@modulus_gt1 K) as Hp. 
  set (k := length msgs) in *. set (T := p ^ Z.of_nat (3 * n + 7 + 3 * k)). assert (HT : 0 < T) by (apply Z.pow_pos_nonneg; lia).
  destruct (cover2 (bad0 msgs P) (fun c => exists i, (i < k)%nat /\ bad_at i msgs P c) L Hnd) as (L1 & L2 & N1 & N2 & Len & I1 & I2).
  - intros c Hc. destruct (HL c Hc) as (Lc & Hv & pk & sk & ek & dk & rest & cps & st & Hset & Henc & Hrun). apply or_comm, assemble; [exact Lc|exact Hv|].
    set (c0 := firstn (3 * n + 7) c). assert (L0 : length c0 = (3 * n + 7)%nat) by (unfold c0; rewrite firstn_length; lia). set (ck := skipn (3 * n + 7) c) in *.
    assert (Ec : c = c0 ++ ck) by (symmetry; apply firstn_skipn). assert (Hv0 : vanishing_at xs (e 4 c0) <> fzero) by (rewrite Ec, app_nth1 in Hv by lia; exact Hv).
    destruct (setup_local n cs xs pf domain fuel b gens Hb HbM Hcount Hn0 Hcs Hdomain c0 L0 Hv0) as [(pk' & sk' & ek' & dk' & Hx)|Hx]; [|rewrite Ec in Hset; destruct (Hx _ _ Hset)].
    rewrite Ec, Hx in Hset. apply ok_pair5 in Hset. destruct Hset as (E1 & E2 & E3 & E4 & E5). subst pk' sk' ek' dk' rest.
    assert (Hg : good_setup n xs pf domain fuel b gens pk ek dk). { exists c0, sk. split; [exact L0|]. split; [exact Hv0|]. rewrite <- (Hx []), app_nil_r. reflexivity. }
    pose proof (hons_run n cs xs pf domain fuel b gens Hdom_ok Hb HbM Hcomp Hcount Hn0 Hcs Hdomain msgs ck ltac:(unfold ck; rewrite skipn_length; lia) pk ek dk [] Hg) as HR. rewrite app_nil_r in HR.
    rewrite HR in Henc. injection Henc as <- _. exists pk, sk, ek, dk. split; [rewrite Ec at 1; exact (Hx ck)|]. exact Hrun.
  - assert (B1 : Z.of_nat (length L1) * p <= (Z.of_nat (tests P) * D7 + D4) * T).
    { apply (whole_bad msgs P L1 N1). intros c Hc. destruct (I1 c Hc) as [Hi Hbad]. destruct (HL c Hi) as (Lc & Hv & _). split; [exact Lc|]. split; [exact Hv|exact Hbad]. }
    assert (B2 : Z.of_nat (length L2) * p <= Z.of_nat k * (((Z.of_nat (tests P) + Z.of_nat k) * D1) * T)).
    { apply (cover_many (fun i c => bad_at i msgs P c) _ p k L2); [lia|assert (0 <= D1) by (unfold D1; lia); nia| |exact N2|intros c Hc; apply I2; exact Hc].
      intros i L3 Hi Hnd3 HL3. destruct (nth_split msgs fzero (n := i) Hi) as (before & after & Em & Lbe).
      assert (Hk : k = (length before + S (length after))%nat) by (unfold k; rewrite Em, app_length; reflexivity).
      pose proof (position_bad before (nth i msgs fzero) after P L3 Hnd3) as PB. rewrite <- Em, <- Hk, Lbe in PB. apply PB. intros c Hc. destruct (HL3 c Hc) as [Hc2 Hbad].
      destruct (I2 c Hc2) as [Hi' _]. destruct (HL c Hi') as (Lc & Hv & _). split; [exact Lc|]. split; [exact Hv|exact Hbad]. }
    rewrite Len, Nat2Z.inj_add. rewrite Z.mul_add_distr_r.
    eapply Z.le_trans; [apply Z.add_le_mono; [exact B1|exact B2]|]. apply Z.eq_le_incl. ring.
Qed.
Theorem nonmal_bound_good msgs P (L : list (list F)) : NoDup L ->
  (forall c, In c L -> length c = (3 * n + 7 + 3 * length msgs)%nat /\ vanishing_at xs (e 4 c) <> fzero /\ exists pk sk ek dk rest cps st,
     setup_for_groth16 B (replay_rng E) b gens c = Ok (pk, sk, ek, dk, rest) /\ encrypt_all pf B (replay_rng E) msgs ek pk b rest = Ok (cps, st) /\
     let T1 := table_g1 gens pk ek cps in let T2 := table_g2 gens pk ek dk cps in let St := play P T1 T2 in
     verify_commitment_and_proof (ciphertext_from St T1) (proof_from St T1 T2) (prepare_verifying_key (gpk_vk (pk_pk pk))) (prepare_ek ek) (prepare_gens gens) = Ok tt /\
     ~ is_fresh St pk ek T1 /\ ~ is_copy St ek T1 T2 cps) ->
  Z.of_nat (length L) * p <= ((Z.of_nat (tests P) * D7 + D4) + Z.of_nat (length msgs) * (Z.of_nat (tests P) + Z.of_nat (length msgs)) * D1) * p ^ Z.of_nat (3 * n + 7 + 3 * length msgs).
Proof.
  intros Hnd HL. apply nonmal_kind_bound; [exact Hnd|]. intros c Hc. destruct (HL c Hc) as (Lc & Hv & Hr). split; [exact Lc|]. split; [exact Hv|].
  destruct Hr as (pk & sk & ek & dk & rest & cps & st & H1 & H2 & Hr). cbv zeta in Hr. destruct Hr as (H3 & H4 & H5). exists pk, sk, ek, dk, rest, cps, st. split; [exact H1|]. split; [exact H2|]. cbv zeta.
  split; [exact H3|]. split; [intros [_ Y]; exact (H4 Y)|intros [_ Y]; exact (H5 Y)].
Qed.
Theorem nonmal_bound msgs P (L : list (list F)) : NoDup L ->
  (forall c, In c L -> length c = (3 * n + 7 + 3 * length msgs)%nat /\ exists pk sk ek dk rest cps st,
     setup_for_groth16 B (replay_rng E) b gens c = Ok (pk, sk, ek, dk, rest) /\ encrypt_all pf B (replay_rng E) msgs ek pk b rest = Ok (cps, st) /\
     let T1 := table_g1 gens pk ek cps in let T2 := table_g2 gens pk ek dk cps in let St := play P T1 T2 in
     verify_commitment_and_proof (ciphertext_from St T1) (proof_from St T1 T2) (prepare_verifying_key (gpk_vk (pk_pk pk))) (prepare_ek ek) (prepare_gens gens) = Ok tt /\
     ~ is_fresh St pk ek T1 /\ ~ is_copy St ek T1 T2 cps) ->
  Z.of_nat (length L) * p <= (Z.of_nat N + ((Z.of_nat (tests P) * D7 + D4) + Z.of_nat (length msgs) * (Z.of_nat (tests P) + Z.of_nat (length msgs)) * D1)) * p ^ Z.of_nat (3 * n + 7 + 3 * length msgs).
Proof.
  intros Hnd HL. apply (split_tau n cs xs b HbM Hn0); [lia|exact Hnd|intros c Hc; apply HL; exact Hc|]. intros L' Hnd' HL'. apply nonmal_bound_good; [exact Hnd'|].
  intros c Hc. destruct (HL' c Hc) as [Hi Hv]. destruct (HL c Hi) as [Lc Hr]. split; [exact Lc|]. split; [exact Hv|exact Hr].
Qed.
End NCount.
