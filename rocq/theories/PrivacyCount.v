(* PrivacyCount.v -- counting the coins on which an observer tells two messages apart (for C64) *)
From Verif Require Import Base BaseFacts Algebra Utils UtilsFacts Setup Keygen Encryption Circuit CircuitFacts CircuitSat CommitmentFacts VecFacts KeySpec KeygenFacts
  EncryptFacts DecryptFacts Spec VerifyFacts Protocol ReencFacts DistFacts PropVerify Groth16 ArkGroth16 PolyFacts Groth16Spec ArkFacts Groth16Facts SchwartzZippel SoundCore SoundSpec
  SoundAlg SoundGame SoundLink SoundFacts SoundCount SoundHonest PropGroth16 PropZK PrivacySpec PrivacyAlg PrivacyGame PrivacyLink.

Lemma bits_of (K : prime_field) b : supported b -> 2 ^ b <= modulus K -> 0 < b <= modulus_bit_size K.
Proof. intros Hb HbM. assert (Hbp : 0 < b) by (destruct Hb as [->|[->| ->]]; lia). split; [exact Hbp|apply bits_ge; [lia|exact HbM]]. Qed.
(* the assignment of the circuit depends on the message only *)
Lemma message_assignment {E : pairing} (n : nat) (pf : profile) b (msg : Fr E) : supported b -> 2 ^ b <= modulus (K_of E) ->
  exists ds sp, decompose pf msg b = Ok ds /\
  generate_constraints (BitsizeCheckCircuit b (Z.of_nat n) (Some (map (fun m => of_Z m) ds)) true) (@cs_new (K_of E) Prove) = Ok sp.
Proof.
  intros Hb HbM. destruct (decompose_spec pf (K_of E) msg b Hb) as (ds & Hd & _). exists ds. pose proof (bits_of (K_of E) b Hb HbM) as Hbb.
  destruct (@generate_prove (K_of E) b (Z.of_nat n) true (map (fun m => of_Z m) ds) ltac:(lia)) as (sp & Hsp & _). exists sp. split; assumption.
Qed.

Section PCount.
Context {E : pairing}.
Notation K := (K_of E).
Notation F := (Fr E).
Add Ring Kr : (@scalar_ring_theory K).
Notation "x +f y" := (fadd x y) (at level 50, left associativity).
Notation "x *f y" := (fmul x y) (at level 40, left associativity).
Notation "x -f y" := (fsub x y) (at level 50, left associativity).
Notation e i env := (nth i env fzero).
Notation p := (modulus K).

Lemma pairing_product_exp q (c : F) us vs (P : G1 E) (Q : G2 E) :
  pairing_product q (map (fun x => (c *f x) [*] P) us) (map (fun x => x [*] Q) vs) = (c *f mdot q us vs) [*] pair P (prep Q).
Proof.
  revert us; induction q as [|row q IH]; intros [|u us]; cbn [map pairing_product mdot]; try (replace (c *f fzero) with (@fzero K) by ring; rewrite smul_0_l; reflexivity).
  rewrite IH, dot_smul_map, pair_smul_r, pair_smul_l. glin.
Qed.

Variables (n : nat) (cs : csys K) (xs : list F) (pf : profile) (domain : nat -> option (list F)) (fuel : nat) (b : Z) (gens : encryption_gens E).
Let ni := cs_num_inst cs.
Let nc := length (cs_cons cs).
Let N := length xs.
Let k := (3 * n + 10)%nat.
Notation G := (eg_G gens).
Notation H := (eg_H gens).
Hypothesis HG : G <> gzero.
Hypothesis HH : H <> gzero.
Hypothesis Hdom_ok : domain_ok domain.
Hypothesis Hb : supported b.
Hypothesis HbM : 2 ^ b <= modulus K.
Hypothesis Hcomp : chunk_compatible K b.
Hypothesis Hcount : chunks_count K b = Ok (Z.of_nat n).
Hypothesis Hn0 : (0 < n)%nat.
Hypothesis Hcs : generate_constraints (BitsizeCheckCircuit b (Z.of_nat n) None true) (@cs_new K Circuit.Setup) = Ok cs.
Hypothesis Hdomain : domain (nc + ni)%nat = Some xs.
Let D1 := 3 * Z.of_nat N + 9 * (3 * Z.of_nat n + 9).

(* the guess as a function of the coins *)
Fixpoint obsf (O : observer E) (m : nat -> F) (z env : list F) : bool :=
  match O with
  | Guess g => g
  | Ask q O1 O2 => if feqb (f_ans n cs xs q m z env) fzero then obsf O1 m z env else obsf O2 m z env
  end.
Lemma observe_obsf O (c : F) m z env : c <> fzero ->
  observe O (map (fun x => (c *f x) [*] G) (u_of n cs xs m z env)) (map (fun x => x [*] H) (v_of n cs xs z env)) = obsf O m z env.
Proof.
  intros Hc. induction O as [g|q O1 IH1 O2 IH2]; [reflexivity|]. cbn [observe obsf]. rewrite pairing_product_exp, IH1, IH2. fold (f_ans n cs xs q m z env).
  assert (X : geqb ((c *f f_ans n cs xs q m z env) [*] pair G (prep H)) gzero = feqb (f_ans n cs xs q m z env) fzero); [|rewrite X; reflexivity].
  apply eq_true_iff_eq. rewrite geqb_spec, feqb_spec. split.
  - intros Z. apply smul_eq_zero in Z. destruct Z as [Z|Z]; [apply fmul_integral in Z; destruct Z; [contradiction|assumption]|].
    apply pair_nondeg in Z. destruct Z; contradiction.
  - intros ->. replace (c *f fzero) with (@fzero K) by ring. apply smul_0_l.
Qed.

(* off a few hypersurfaces the guess is one and the same for both messages *)
Lemma obsf_agrees m z m' z' O : questions O = 0%nat \/ 8 < p ->
  exists fs ans, Forall (fun Df => small_zeros k (fst Df) (snd Df)) fs /\ 0 <= zsum (map fst fs) <= 2 * Z.of_nat (questions O) * D1 /\
  forall env, length env = k -> e 2 env <> fzero -> e 3 env <> fzero -> ~ Exists (fun Df => snd Df env = fzero) fs -> obsf O m z env = ans /\ obsf O m' z' env = ans.
Proof.
  induction O as [g|q O1 IH1 O2 IH2]; intros Hp8.
  - exists [], g. split; [constructor|]. split; [cbn; lia|]. intros env _ _ _ _. split; reflexivity.
  - destruct Hp8 as [Hp8|Hp8]; [discriminate Hp8|]. cbn [questions].
    assert (HD1 : 0 <= D1) by (unfold D1; lia).
    assert (Z12 : (forall env, length env = k -> e 2 env <> fzero -> e 3 env <> fzero -> f_ans n cs xs q m z env = fzero /\ f_ans n cs xs q m' z' env = fzero) \/
       small_zeros k D1 (f_ans n cs xs q m z) /\ small_zeros k D1 (f_ans n cs xs q m' z')).
    { destruct (zero_or_small n cs xs Hn0 q m z) as [Z|Z].
      - left. intros env Hl Hg Hd. split; [apply Z; assumption|]. exact (ans_independent n cs xs b (bits_of K b Hb HbM) Hn0 Hcs q m z m' z' Hp8 Z env Hg Hd).
      - destruct (zero_or_small n cs xs Hn0 q m' z') as [Z'|Z']; [left|right; split; assumption].
        intros env Hl Hg Hd. split; [exact (ans_independent n cs xs b (bits_of K b Hb HbM) Hn0 Hcs q m' z' m z Hp8 Z' env Hg Hd)|apply Z'; assumption]. }
    destruct Z12 as [Z|[Z Z']].
    + destruct (IH1 (or_intror Hp8)) as (fs & ans & F1 & F2 & F3). exists fs, ans. split; [exact F1|]. split; [nia|].
      intros env Hl Hg Hd Hx. destruct (Z env Hl Hg Hd) as [Q Q']. cbn [obsf]. rewrite Q, Q'. rewrite (proj2 (feqb_spec fzero fzero) eq_refl). apply F3; assumption.
    + destruct (IH2 (or_intror Hp8)) as (fs & ans & F1 & F2 & F3). exists ((D1, f_ans n cs xs q m z) :: (D1, f_ans n cs xs q m' z') :: fs), ans.
      split; [constructor; [exact Z|constructor; [exact Z'|exact F1]]|]. split; [cbn [map fst zsum]; nia|].
      intros env Hl Hg Hd Hx. cbn [obsf].
      destruct (feqb (f_ans n cs xs q m z env) fzero) eqn:E1; [exfalso; apply Hx; constructor 1; apply feqb_spec; exact E1|].
      destruct (feqb (f_ans n cs xs q m' z' env) fzero) eqn:E2; [exfalso; apply Hx; constructor 2; constructor 1; apply feqb_spec; exact E2|].
      apply F3; try assumption. intros X. apply Hx. do 2 constructor 2. exact X.
Qed.

(* coins whose tau falls into the domain *)
Lemma small_vanishing j : Z.of_nat N < p -> small_zeros (5 + j) (Z.of_nat N) (fun env : list F => vanishing_at xs (e 4 env)).
Proof.
  intros HN. pose proof (scalars_outside_length xs) as Ho. fold N in Ho. destruct (scalars_outside xs) as [|x l] eqn:Eo; [cbn in Ho; lia|].
  assert (Hx : ~ In x xs) by (apply scalars_outside_in; rewrite Eo; left; reflexivity).
  exists (dg N 0), (repeat fzero 4 ++ x :: repeat fzero j). split; [|split; [|split]].
  - apply (pfun_ext (5 + j) _ (fun env => peval (fold_right (fun x p => pmul [fneg x; fone] p) [fone] xs) (e 4 env))); [intros; apply prod_lin_eval|].
    apply pf_tau. rewrite prod_lin_length. fold N. lia.
  - rewrite app_length. cbn [length]. rewrite !repeat_length. lia.
  - cbn [repeat app nth]. intros Z. apply vanishing_zero in Z. contradiction.
  - rewrite deg_sum_dg. lia.
Qed.
Lemma tau_bound m (L : list (list F)) : (5 <= m)%nat -> NoDup L -> (forall c, In c L -> length c = m /\ vanishing_at xs (e 4 c) = fzero) ->
  Z.of_nat (length L) * p <= Z.of_nat N * p ^ Z.of_nat m.
Proof.
  intros Hm Hnd HL. pose proof (@modulus_gt1 K) as Hp. pose proof (tuples_bound m L Hnd ltac:(intros l Hl; apply HL; exact Hl)) as HT.
  assert (Pk : 0 < p ^ Z.of_nat m) by (apply Z.pow_pos_nonneg; lia).
  destruct (Z_le_gt_dec p (Z.of_nat N)) as [Hle|HN]; [nia|].
  pose proof (small_vanishing (m - 5) ltac:(lia)) as SV. replace (5 + (m - 5))%nat with m in SV by lia.
  pose proof (union_bound m [(Z.of_nat N, fun env => vanishing_at xs (e 4 env))] L ltac:(constructor; [exact SV|constructor]) Hnd) as U. cbn [map fst zsum] in U. rewrite Z.add_0_r in U. apply U.
  intros c Hc. destruct (HL c Hc) as [Lc Z]. split; [exact Lc|constructor 1; exact Z].
Qed.
(* counting separately the coins whose tau falls into the domain *)
Lemma split_tau m (L : list (list F)) D : (5 <= m)%nat -> NoDup L -> (forall c, In c L -> length c = m) ->
  (forall L', NoDup L' -> (forall c, In c L' -> In c L /\ vanishing_at xs (e 4 c) <> fzero) -> Z.of_nat (length L') * p <= D * p ^ Z.of_nat m) ->
  Z.of_nat (length L) * p <= (Z.of_nat N + D) * p ^ Z.of_nat m.
Proof.
  intros Hm Hnd HL HD. destruct (split_list (fun c => feqb (vanishing_at xs (e 4 c)) fzero) L Hnd) as (L1 & L2 & N1 & N2 & Len & I1 & I2).
  assert (B1 : Z.of_nat (length L1) * p <= Z.of_nat N * p ^ Z.of_nat m).
  { apply tau_bound; [exact Hm|exact N1|]. intros c Hc. destruct (I1 c Hc) as [Hi Hz]. split; [apply HL; exact Hi|apply feqb_spec; exact Hz]. }
  assert (B2 : Z.of_nat (length L2) * p <= D * p ^ Z.of_nat m).
  { apply HD; [exact N2|]. intros c Hc. destruct (I2 c Hc) as [Hi Hz]. split; [exact Hi|]. intros Z. apply feqb_spec in Z. congruence. }
  rewrite Len. nia.
Qed.

Lemma run_ok msg coins pk sk ek dk st : setup_for_groth16 (ark_backend pf domain fuel) (replay_rng E) b gens coins = Ok (pk, sk, ek, dk, st) ->
  exists ct r q st2, encrypt_with_proof pf (ark_backend pf domain fuel) (replay_rng E) msg ek pk b st = Ok (ct, r, q, st2).
Proof.
  intros Hset'. unfold setup_for_groth16 in Hset'. apply bind_Ok_inv in Hset'. destruct Hset' as (circ & Hcirc & Hset').
  apply bind_Ok_inv in Hset'. destruct Hset' as ([pk0 st1] & Hsrs & Hset'). apply bind_Ok_inv in Hset'. destruct Hset' as (g_i & Hgs & Hset').
  apply bind_Ok_inv in Hset'. destruct Hset' as ([[[sk0 ek0] dk0] st3] & Hk & Hset'). injection Hset' as -> -> -> -> _.
  assert (Hk' : honest_key b gens g_i (gpk_delta_g1 (pk_pk pk)) (pk_gamma_g1 pk) ek) by (left; exists sk, dk, (replay_rng E), st1, st3; exact Hk).
  assert (Hs' : from_srs (ark_backend pf domain fuel) (generate_constraints circ) gens pk) by (exists (replay_rng E), coins, st1; exact Hsrs).
  destruct (with_proof_any_key pf E (ark_backend pf domain fuel) (replay_rng E) b circ gens pk g_i ek msg st (ark_backend_correct pf domain fuel Hdom_ok) Hb HbM Hcomp Hcirc Hs' Hgs Hk')
    as (ct1 & r1 & p1 & s1 & s2 & Hrun1 & _). exists ct1, r1, p1, s2. exact Hrun1.
Qed.
Lemma experiment_obsf O msg ds sp coins : length coins = k -> vanishing_at xs (e 4 coins) <> fzero -> decompose pf msg b = Ok ds ->
  generate_constraints (BitsizeCheckCircuit b (Z.of_nat n) (Some (map (fun m => of_Z m) ds)) true) (@cs_new K Prove) = Ok sp ->
  forall r, setup_for_groth16 (ark_backend pf domain fuel) (replay_rng E) b gens coins = Ok r ->
  e 2 coins <> fzero /\ e 3 coins <> fzero /\ experiment pf (ark_backend pf domain fuel) gens b O msg coins = obsf O (mv ds) (zv cs sp) coins.
Proof.
  intros Hl Hv Hds Hsp [[[[pk sk] ek] dk] st] Hset. destruct (run_ok msg coins pk sk ek dk st Hset) as (ct & r & q & st2 & Hrun).
  destruct (run_seen n cs xs pf domain fuel b gens HH Hdom_ok Hb HbM Hcomp Hcount Hn0 Hcs Hdomain coins pk sk ek dk st msg ds sp ct r q st2 Hl Hv Hds Hsp Hset Hrun) as (Hg & Hd & S1 & S2).
  split; [exact Hg|]. split; [exact Hd|]. unfold experiment. rewrite Hset, Hrun, S1, S2. apply observe_obsf.
  assert (Hdg : e 3 coins *f (e 2 coins *f e 3 coins) <> fzero).
  { intros Z. apply fmul_integral in Z. destruct Z as [Z|Z]; [contradiction|]. apply fmul_integral in Z. destruct Z; contradiction. }
  intros Z. apply (@fneq01 K). rewrite <- (finv_r _ Hdg), Z. ring.
Qed.

(* on coins whose tau is outside the domain *)
Theorem distinguish_bound_good O msg msg' (L : list (list F)) : NoDup L ->
  (forall coins, In coins L -> length coins = k /\ vanishing_at xs (e 4 coins) <> fzero /\
     experiment pf (ark_backend pf domain fuel) gens b O msg coins <> experiment pf (ark_backend pf domain fuel) gens b O msg' coins) ->
  Z.of_nat (length L) * p <= 2 * Z.of_nat (questions O) * D1 * p ^ Z.of_nat k.
Proof.
  intros Hnd HL. pose proof (@modulus_gt1 K) as Hp. pose proof (tuples_bound k L Hnd ltac:(intros l Hl; apply HL; exact Hl)) as HT.
  assert (Pk : 0 < p ^ Z.of_nat k) by (apply Z.pow_pos_nonneg; lia).
  set (D := 2 * Z.of_nat (questions O) * D1).
  destruct (Z_le_gt_dec p D) as [Hle|HD]; [nia|].
  assert (HD1 : 9 <= D1) by (unfold D1; lia).
  assert (Hp8 : questions O = 0%nat \/ 8 < p) by (destruct (questions O) as [|q]; [left; reflexivity|right; unfold D in HD; nia]).
  destruct (message_assignment n pf b msg Hb HbM) as (ds & sp & Hds & Hsp). destruct (message_assignment n pf b msg' Hb HbM) as (ds' & sp' & Hds' & Hsp').
  destruct (obsf_agrees (mv ds) (zv cs sp) (mv ds') (zv cs sp') O Hp8) as (fs & ans & F1 & F2 & F3).
  pose proof (union_bound k fs L F1 Hnd) as U.
  eapply Z.le_trans; [apply U|apply Z.mul_le_mono_nonneg_r; [lia|unfold D; lia]].
  intros l Hin. destruct (HL l Hin) as (Hl & Hv & Hne). split; [exact Hl|].
  destruct (Exists_dec (fun Df => snd Df l = fzero) fs (fun Df => feq_dec (snd Df l) fzero)) as [X|X]; [exact X|exfalso]. apply Hne.
  destruct (setup_for_groth16 (ark_backend pf domain fuel) (replay_rng E) b gens l) as [r|err|] eqn:Hset.
  - destruct (experiment_obsf O msg ds sp l Hl Hv Hds Hsp r Hset) as (Hg & Hd & E1). destruct (experiment_obsf O msg' ds' sp' l Hl Hv Hds' Hsp' r Hset) as (_ & _ & E2).
    destruct (F3 l Hl Hg Hd X) as [A1 A2]. rewrite E1, E2, A1, A2. reflexivity.
  - unfold experiment. rewrite Hset. reflexivity.
  - unfold experiment. rewrite Hset. reflexivity.
Qed.
Theorem distinguish_bound O msg msg' (L : list (list F)) : NoDup L ->
  (forall coins, In coins L -> length coins = k /\ experiment pf (ark_backend pf domain fuel) gens b O msg coins <> experiment pf (ark_backend pf domain fuel) gens b O msg' coins) ->
  Z.of_nat (length L) * p <= (Z.of_nat N + 2 * Z.of_nat (questions O) * D1) * p ^ Z.of_nat k.
Proof.
  intros Hnd HL. apply split_tau; [unfold k; lia|exact Hnd|intros c Hc; apply HL; exact Hc|]. intros L' Hnd' HL'. apply (distinguish_bound_good O msg msg'); [exact Hnd'|].
  intros c Hc. destruct (HL' c Hc) as [Hi Hv]. destruct (HL c Hi) as [Lc Hne]. split; [exact Lc|]. split; assumption.
Qed.
End PCount.

(* how often two boolean functions differ bounds how far apart they count *)
Lemma count_difference {A} (f g : A -> bool) (l : list A) :
  Z.abs (Z.of_nat (length (filter f l)) - Z.of_nat (length (filter g l))) <= Z.of_nat (length (filter (fun x => negb (Bool.eqb (f x) (g x))) l)).
Proof. induction l as [|a l IH]; cbn [filter]; [cbn; lia|]. destruct (f a), (g a); cbn [negb Bool.eqb length]; lia. Qed.
Lemma NoDup_app_intro {A} (l m : list A) : NoDup l -> NoDup m -> (forall x, In x l -> In x m -> False) -> NoDup (l ++ m).
Proof.
  intros Hl Hm D. induction Hl as [|a l Ha Hl IH]; [exact Hm|]. cbn [app]. constructor.
  - rewrite in_app_iff. intros [Z|Z]; [contradiction|]. apply (D a); [left; reflexivity|exact Z].
  - apply IH. intros x H1 H2. apply (D x); [right; exact H1|exact H2].
Qed.
Lemma nodup_prod {A B} (l : list A) (m : list B) : NoDup l -> NoDup m -> NoDup (list_prod l m).
Proof.
  intros Hl Hm. induction Hl as [|a l Ha Hl IH]; cbn [list_prod]; [constructor|]. apply NoDup_app_intro.
  - apply FinFun.Injective_map_NoDup; [intros x y Z; congruence|exact Hm].
  - exact IH.
  - intros [x y] H1 H2. apply in_map_iff in H1. destruct H1 as (y' & Z & _). apply in_prod_iff in H2. destruct H2 as [H2 _]. apply Ha. congruence.
Qed.
Lemma all_tuples_count {K : prime_field} k (All : list (list (scalar K))) : NoDup All -> (forall c, In c All <-> length c = k) -> Z.of_nat (length All) = modulus K ^ Z.of_nat k.
Proof.
  intros Hnd HA. pose proof (@modulus_gt1 K) as Hp. apply Z.le_antisymm; [apply tuples_bound; [exact Hnd|intros l Hl; apply HA; exact Hl]|].
  assert (X : exists T, NoDup T /\ (forall c : list (scalar K), In c T -> length c = k) /\ Z.of_nat (length T) = modulus K ^ Z.of_nat k).
  { clear All Hnd HA. induction k as [|k (T & T1 & T2 & T3)].
    - exists [[]]. split; [constructor; [intros []|constructor]|]. split; [intros c [<-|[]]; reflexivity|reflexivity].
    - exists (map (fun '(x, c) => x :: c) (list_prod all_scalars T)). split; [|split].
      + apply FinFun.Injective_map_NoDup; [intros [x c] [y d] Z; congruence|]. apply nodup_prod; [apply all_scalars_nodup|exact T1].
      + intros c Hc. apply in_map_iff in Hc. destruct Hc as ([x c'] & <- & Hc). apply in_prod_iff in Hc. cbn. f_equal. apply T2. apply Hc.
      + rewrite map_length, prod_length, Nat2Z.inj_mul, T3, all_scalars_length. rewrite Nat2Z.inj_succ, Z.pow_succ_r by lia. reflexivity. }
  destruct X as (T & T1 & T2 & T3). rewrite <- T3. apply inj_le. apply NoDup_incl_length; [exact T1|]. intros c Hc. apply HA, T2, Hc.
Qed.
Lemma all_tuples_exist {K : prime_field} k : exists T : list (list (scalar K)), NoDup T /\ (forall c, In c T <-> length c = k).
Proof.
  induction k as [|k (T & T1 & T2)].
  - exists [[]]. split; [constructor; [intros []|constructor]|]. intros c. split; [intros [<-|[]]; reflexivity|]. destruct c; [left; reflexivity|discriminate].
  - exists (map (fun '(x, c) => x :: c) (list_prod all_scalars T)). split.
    + apply FinFun.Injective_map_NoDup; [intros [x c] [y d] Z; congruence|]. apply nodup_prod; [apply all_scalars_nodup|exact T1].
    + intros c. rewrite in_map_iff. split.
      * intros ([x c'] & <- & Hc). apply in_prod_iff in Hc. cbn. f_equal. apply T2. apply Hc.
      * destruct c as [|x c]; [discriminate|]. intros [= Hc]. exists (x, c). split; [reflexivity|]. apply in_prod_iff. split; [apply all_scalars_in|apply T2; exact Hc].
Qed.
(* counting by fibers *)
Lemma fiber_bound {X Y} (dec : forall x y : Y, {x = y} + {x <> y}) (f : X -> Y) (T : list Y) (L : list X) (p m : Z) : 0 <= p -> 
  (forall x, In x L -> In (f x) T) -> (forall y, In y T -> Z.of_nat (length (filter (fun x => if dec (f x) y then true else false) L)) * p <= m) ->
  Z.of_nat (length L) * p <= Z.of_nat (length T) * m.
Proof.
  intros Hp. revert L; induction T as [|y T IH]; intros L HL Hm.
  - destruct L as [|x L]; [cbn; lia|]. destruct (HL x (or_introl eq_refl)).
  - set (L1 := filter (fun x => if dec (f x) y then true else false) L). set (L2 := filter (fun x => if dec (f x) y then false else true) L).
    assert (Len : (length L <= length L1 + length L2)%nat).
    { subst L1 L2. clear. induction L as [|x L IH]; cbn [filter length]; [lia|]. destruct (dec (f x) y); cbn [length]; lia. }
    assert (A1 : Z.of_nat (length L1) * p <= m) by (apply Hm; left; reflexivity).
    assert (A2 : Z.of_nat (length L2) * p <= Z.of_nat (length T) * m).
    { apply IH.
      - intros x Hx. apply filter_In in Hx. destruct Hx as [Hx Hy]. destruct (HL x Hx) as [Z|Z]; [|exact Z]. destruct (dec (f x) y); [discriminate|congruence].
      - intros y' Hy'. eapply Z.le_trans; [|apply (Hm y'); right; exact Hy']. apply Z.mul_le_mono_nonneg_r; [exact Hp|]. apply inj_le. subst L2. clear.
        induction L as [|x L IH]; cbn [filter length]; [lia|]. destruct (dec (f x) y), (dec (f x) y'); cbn [filter length]; try destruct (dec (f x) y'); cbn [length]; try lia; contradiction. }
    cbn [length]. nia.
Qed.
