(* ArkFacts.v -- the transcription of ark-groth16 is a correct Groth16 backend: setup shape and completeness *)
From Verif Require Import Base BaseFacts Algebra Utils Setup Keygen Encryption Circuit CircuitSat CommitmentFacts VecFacts EncryptFacts Spec Groth16 ArkGroth16
  PolyFacts Groth16Spec.

(* D::new: at least n pairwise different points, the same at setup and when proving *)
Definition domain_ok {K} (domain : nat -> option (list (scalar K))) : Prop :=
  forall n xs, domain n = Some xs -> NoDup xs /\ (n <= length xs)%nat.

Section Q.
Context {K : prime_field}.
Add Ring Kr : (@scalar_ring_theory K).

Lemma fsum_delta0 (f : nat -> scalar K) n j : (j < n)%nat ->
  fsum (map (fun i => fmul (f i) (if Nat.eqb j i then fone else fzero)) (seq 0 n)) = f j.
Proof.
  intros H. etransitivity; [|exact (fsum_delta f n 0 j H)]. f_equal. apply map_ext. intros i. rewrite Nat.eqb_sym. reflexivity.
Qed.
Lemma nth_inst_wit (inst wit : list (scalar K)) v : nth 0 inst fzero = fone -> var_ok (length inst) (length wit) v -> inst <> [] ->
  nth (var_index (length inst) v) (inst ++ wit) fzero = var_value inst wit v /\ (var_index (length inst) v < length inst + length wit)%nat.
Proof.
  intros H1 Hv Hne. assert (L : (0 < length inst)%nat) by (destruct inst; [contradiction|cbn; lia]).
  destruct v as [|i|j]; cbn [var_index var_value var_ok] in *.
  - rewrite app_nth1 by exact L. split; [exact H1|lia].
  - rewrite app_nth1 by exact Hv. split; [reflexivity|lia].
  - rewrite app_nth2 by lia. replace (length inst + j - length inst)%nat with j by lia. split; [reflexivity|lia].
Qed.
End Q.

Section QE.
Context {E : pairing}.
Notation K := (K_of E).
Add Ring Kr2 : (@scalar_ring_theory K).

Lemma lc_columns (inst wit : list (Fr E)) (l : lincomb K) : nth 0 inst fzero = fone -> inst <> [] -> lc_ok (length inst) (length wit) l ->
  lc_value inst wit l = fsum (map (fun j => fmul (nth j (inst ++ wit) fzero) (row_coeff (length inst) l j)) (seq 0 (length inst + length wit))).
Proof.
  intros H1 Hne Hl. induction Hl as [|[c v] l Hv Hl IH].
  - cbn. etransitivity; [symmetry; apply (fsum_map_zero (seq 0 (length inst + length wit)))|]. f_equal. apply map_ext. intros j. unfold row_coeff. cbn. ring.
  - unfold lc_value in *. cbn [map]. rewrite fsum_cons, IH. cbn [snd] in Hv.
    destruct (nth_inst_wit inst wit v H1 Hv Hne) as [<- Hlt].
    rewrite <- (fsum_delta0 (fun j => fmul c (nth j (inst ++ wit) fzero)) _ _ Hlt). rewrite <- fsum_map_add. f_equal. apply map_ext. intros j.
    unfold row_coeff. cbn [map]. rewrite fsum_cons. destruct (Nat.eqb (var_index (length inst) v) j); ring.
Qed.

Lemma column_sum (inst wit : list (Fr E)) (rows : list (lincomb K)) (u : list (Fr E)) :
  nth 0 inst fzero = fone -> inst <> [] -> Forall (lc_ok (length inst) (length wit)) rows ->
  fsum (map (fun j => fmul (nth j (inst ++ wit) fzero) (column (length inst) rows u j)) (seq 0 (length inst + length wit)))
  = fdot (map (lc_value inst wit) rows) u.
Proof.
  intros H1 Hne Hr. revert u. induction Hr as [|l rows Hl Hr IH]; intros u.
  - cbn. etransitivity; [|apply (fsum_map_zero (seq 0 (length inst + length wit)))]. f_equal. apply map_ext. intros j. unfold column. cbn. ring.
  - destruct u as [|u0 u].
    + cbn. etransitivity; [|apply (fsum_map_zero (seq 0 (length inst + length wit)))]. f_equal. apply map_ext. intros j. unfold column. cbn. ring.
    + cbn [map fdot]. rewrite <- (IH u). rewrite (lc_columns inst wit l H1 Hne Hl).
      replace (fmul (fsum (map (fun j => fmul (nth j (inst ++ wit) fzero) (row_coeff (length inst) l j)) (seq 0 (length inst + length wit)))) u0)
        with (fsum (map (fun j => fmul u0 (fmul (nth j (inst ++ wit) fzero) (row_coeff (length inst) l j))) (seq 0 (length inst + length wit))))
        by (rewrite fsum_map_mul; ring).
      rewrite <- fsum_map_add. f_equal. apply map_ext. intros j. unfold column. cbn [combine map]. rewrite fsum_cons. ring.
Qed.

Lemma fdot_seq (a u : list (Fr E)) : (length a <= length u)%nat ->
  fdot a u = fsum (map (fun i => fmul (nth i a fzero) (nth i u fzero)) (seq 0 (length u))).
Proof.
  revert a; induction u as [|u0 u IH]; intros [|a0 a] H; cbn [length] in H; try lia; [reflexivity| |].
  - cbn [fdot]. symmetry. etransitivity; [|apply (fsum_map_zero (seq 0 (length (u0 :: u))))]. f_equal. apply map_ext. intros i.
    replace (nth i [] fzero) with (@fzero K) by (destruct i; reflexivity). ring.
  - cbn [fdot length seq map nth]. rewrite fsum_cons. cbn [nth]. rewrite (IH a) by lia. rewrite <- seq_shift, map_map. reflexivity.
Qed.

Lemma fdot_app (a b u : list (Fr E)) : fdot (a ++ b) u = fadd (fdot a u) (fdot b (skipn (length a) u)).
Proof.
  revert u; induction a as [|a0 a IH]; intros u; cbn [app fdot length skipn]; [ring|].
  destruct u as [|u0 u]; [destruct b; cbn [fdot]; ring|]. rewrite IH. ring.
Qed.

(* u are the values of the Lagrange polynomials at t *)
Lemma interp_fdot xs (vs : list (Fr E)) t : (length vs <= length xs)%nat ->
  peval (interpolate xs vs) t = fdot vs (map (fun i => peval (lagrange xs i) t) (seq 0 (length xs))).
Proof.
  intros H. rewrite fdot_seq by (rewrite map_length, seq_length; exact H). rewrite map_length, seq_length, interpolate_eval.
  f_equal. apply map_ext_in. intros i Hi. apply in_seq in Hi.
  rewrite (map_seq_nth (fun i => peval (lagrange xs i) t) (length xs) i fzero) by lia. reflexivity.
Qed.

Lemma msm_exp {G : group K} (ks zs : list (Fr E)) (g : G) :
  msm_bigint (map (fun x => x [*] g) ks) (map into_bigint zs) = fdot ks zs [*] g.
Proof.
  revert zs; induction ks as [|k ks IH]; intros [|z zs]; cbn [map fdot]; try (unfold msm_bigint; cbn; now rewrite smul_0_l).
  rewrite msm_cons, IH. change (mul_bigint (k [*] g) (into_bigint z)) with (z [*] (k [*] g)). glin.
Qed.

Lemma calculate_coeff_exp {G : group K} (init : G) (k : Fr E) ks v zs (g : G) :
  calculate_coeff init (map (fun x => x [*] g) (k :: ks)) v zs = Ok (init [+] (k [*] g) [+] (fdot ks zs [*] g) [+] v).
Proof.
  unfold calculate_coeff. cbn [map idx nth_error bind]. unfold slice_from. cbn [length Nat.leb skipn bind]. rewrite msm_exp. reflexivity.
Qed.

Lemma fdot_peval (h : @poly K) t n : (length h <= n)%nat ->
  fdot (map (fpow t) (seq 0 n)) h = peval h t.
Proof.
  assert (Gn : forall (h : @poly K) n k, (length h <= n)%nat -> fdot (map (fpow t) (seq k n)) h = fmul (fpow t k) (peval h t)).
  { clear h n. induction h as [|c h IH]; intros n k Hn; [destruct n; cbn; ring|].
    destruct n as [|n]; [cbn in Hn; lia|]. cbn [seq map fdot]. rewrite IH by (cbn in Hn; lia). rewrite peval_cons, fpow_S. ring. }
  intros H. rewrite Gn by exact H. change (fpow t 0) with (@fone K). ring.
Qed.

Lemma fdot_map_scale (k : Fr E) (a b : list (Fr E)) : fdot a (map (fun x => fmul x k) b) = fmul (fdot a b) k.
Proof. revert b; induction a as [|x a IH]; intros [|y b]; cbn [map fdot]; try ring. rewrite IH. ring. Qed.
Lemma fdot_map_scale_l (k : Fr E) (a b : list (Fr E)) : fdot (map (fun x => fmul x k) a) b = fmul (fdot a b) k.
Proof. rewrite fdot_comm, fdot_map_scale, fdot_comm. reflexivity. Qed.
Lemma fdot_firstn (a b : list (Fr E)) : fdot a (firstn (length a) b) = fdot a b.
Proof. revert b; induction a as [|x a IH]; intros [|y b]; cbn [firstn length fdot]; try reflexivity. rewrite IH. reflexivity. Qed.

Lemma fdot_map_seq (z : list (Fr E)) (f : nat -> Fr E) n : length z = n ->
  fdot z (map f (seq 0 n)) = fsum (map (fun j => fmul (nth j z fzero) (f j)) (seq 0 n)).
Proof.
  intros <-. rewrite fdot_seq by (rewrite map_length, seq_length; lia). rewrite map_length, seq_length. f_equal. apply map_ext_in.
  intros i Hi. apply in_seq in Hi. rewrite (map_seq_nth f (length z) i fzero) by lia. reflexivity.
Qed.

(* the instance map evaluated on a full assignment gives the interpolated polynomials at t *)
Lemma instance_map_eval (s : csys K) (inst wit xs : list (Fr E)) t : nth 0 inst fzero = fone -> inst <> [] -> cs_ok s ->
  length inst = cs_num_inst s -> length wit = cs_num_wit s -> (length (cs_cons s) + cs_num_inst s <= length xs)%nat ->
  let u := map (fun i => peval (lagrange xs i) t) (seq 0 (length xs)) in
  let '(a, b, c) := instance_map s u in
  let z := inst ++ wit in
  length a = length z /\ length b = length z /\ length c = length z /\
  fdot z a = peval (interpolate xs (map (fun k => lc_value inst wit (c_a k)) (cs_cons s) ++ inst)) t /\
  fdot z b = peval (interpolate xs (map (fun k => lc_value inst wit (c_b k)) (cs_cons s))) t /\
  fdot z c = peval (interpolate xs (map (fun k => lc_value inst wit (c_c k)) (cs_cons s))) t.
Proof.
  intros H1 Hne Hok Li Lw Lx u. unfold instance_map. cbv zeta.
  assert (Lu : length u = length xs) by (unfold u; rewrite map_length, seq_length; reflexivity).
  rewrite <- Li, <- Lw in *.
  assert (Hcol : forall (sel : constraint K -> lincomb K), (forall c, In c (cs_cons s) -> lc_ok (length inst) (length wit) (sel c)) ->
    fsum (map (fun j => fmul (nth j (inst ++ wit) fzero) (column (length inst) (map sel (cs_cons s)) u j)) (seq 0 (length inst + length wit)))
    = fdot (map (fun k => lc_value inst wit (sel k)) (cs_cons s)) u).
  { intros sel Hsel. rewrite (column_sum inst wit (map sel (cs_cons s)) u H1 Hne).
    - rewrite map_map. reflexivity.
    - rewrite Forall_map. apply Forall_forall. exact Hsel. }
  unfold cs_ok in Hok. rewrite <- Li, <- Lw in Hok. rewrite Forall_forall in Hok.
  split; [rewrite map_length, seq_length, app_length; reflexivity|].
  split; [rewrite map_length, seq_length, app_length; reflexivity|].
  split; [rewrite map_length, seq_length, app_length; reflexivity|].
  rewrite !fdot_map_seq by apply app_length. split; [|split].
  - rewrite interp_fdot by (rewrite app_length, map_length; lia). fold u. rewrite fdot_app, map_length.
    rewrite <- (Hcol (@c_a K)) by (intros c Hc; apply Hok; exact Hc).
    assert (HI : fdot inst (skipn (length (cs_cons s)) u) =
       fsum (map (fun j => fmul (nth j (inst ++ wit) fzero) (if (j <? length inst)%nat then nth (length (cs_cons s) + j) u fzero else fzero)) (seq 0 (length inst + length wit)))).
    { rewrite seq_app, map_app, fsum_app. cbn [Nat.add].
      replace (fsum (map _ (seq (length inst) (length wit)))) with (@fzero K).
      2:{ symmetry. etransitivity; [|exact (fsum_map_zero (seq (length inst) (length wit)))]. f_equal. apply map_ext_in. intros j Hj. apply in_seq in Hj.
          destruct (Nat.ltb_spec j (length inst)); [lia|]. ring. }
      rewrite <- (fdot_firstn inst). rewrite fdot_seq by (rewrite firstn_length, skipn_length; lia).
      rewrite firstn_length, skipn_length. replace (Nat.min (length inst) (length u - length (cs_cons s))) with (length inst) by lia.
      replace (fadd (fsum (map _ (seq 0 (length inst)))) fzero) with
        (fsum (map (fun j => fmul (nth j (inst ++ wit) fzero) (if (j <? length inst)%nat then nth (length (cs_cons s) + j) u fzero else fzero)) (seq 0 (length inst)))) by ring.
      f_equal. apply map_ext_in. intros j Hj. apply in_seq in Hj. destruct (Nat.ltb_spec j (length inst)) as [Hl|]; [|lia].
      rewrite app_nth1 by exact Hl. f_equal.
      assert (N : nth j (skipn (length (cs_cons s)) u) fzero = nth (length (cs_cons s) + j) u fzero).
      { rewrite <- (firstn_skipn (length (cs_cons s)) u) at 2. rewrite app_nth2; rewrite firstn_length; [f_equal; lia|lia]. }
      rewrite <- N. rewrite <- (firstn_skipn (length inst) (skipn (length (cs_cons s)) u)) at 2.
      rewrite app_nth1; [reflexivity|]. rewrite firstn_length, skipn_length. lia. }
    rewrite HI, <- fsum_map_add. f_equal. apply map_ext. intros j. ring.
  - rewrite interp_fdot by (rewrite map_length; lia). fold u. apply Hcol. intros c Hc; apply Hok; exact Hc.
  - rewrite interp_fdot by (rewrite map_length; lia). fold u. apply Hcol. intros c Hc; apply Hok; exact Hc.
Qed.

(* the quotient computed by the prover *)
Lemma witness_map_spec xs (s : csys K) t : NoDup xs -> (length (cs_cons s) + length (cs_inst s) <= length xs)%nat -> is_satisfied s = true ->
  let val := lc_value (cs_inst s) (cs_wit s) in
  fsub (fmul (peval (interpolate xs (map (fun k => val (c_a k)) (cs_cons s) ++ cs_inst s)) t)
             (peval (interpolate xs (map (fun k => val (c_b k)) (cs_cons s))) t))
       (peval (interpolate xs (map (fun k => val (c_c k)) (cs_cons s))) t)
  = fmul (vanishing_at xs t) (peval (witness_map xs s) t) /\ (length (witness_map xs s) <= length xs - 1)%nat.
Proof.
  intros Hnd Hl Hsat val. unfold witness_map. cbv zeta. fold val.
  set (A := interpolate xs (map (fun c => val (c_a c)) (cs_cons s) ++ cs_inst s)).
  set (Bp := interpolate xs (map (fun c => val (c_b c)) (cs_cons s))).
  set (C := interpolate xs (map (fun c => val (c_c c)) (cs_cons s))).
  assert (Hz : forall x, In x xs -> peval (psub (pmul A Bp) C) x = fzero).
  { intros x Hx. destruct (In_nth xs x fzero Hx) as (j & Hj & <-). rewrite peval_psub, peval_pmul. unfold A, Bp, C. rewrite !interpolate_at by assumption.
    destruct (le_lt_dec (length (cs_cons s)) j) as [H|H].
    - rewrite (nth_overflow (map (fun c => val (c_b c)) (cs_cons s))), (nth_overflow (map (fun c => val (c_c c)) (cs_cons s))) by (rewrite map_length; exact H). ring.
    - rewrite app_nth1 by (rewrite map_length; exact H).
      set (c0 := @Constraint K [] [] []).
      rewrite (nth_indep _ fzero (val (c_a c0))) by (rewrite map_length; exact H). rewrite (map_nth (fun c => val (c_a c))).
      rewrite (nth_indep (map (fun c => val (c_b c)) (cs_cons s)) fzero (val (c_b c0))) by (rewrite map_length; exact H). rewrite (map_nth (fun c => val (c_b c))).
      rewrite (nth_indep (map (fun c => val (c_c c)) (cs_cons s)) fzero (val (c_c c0))) by (rewrite map_length; exact H). rewrite (map_nth (fun c => val (c_c c))).
      apply is_satisfied_iff in Hsat. rewrite Forall_forall in Hsat. specialize (Hsat (nth j (cs_cons s) c0) (nth_In _ _ H)). unfold constraint_holds in Hsat.
      fold val in Hsat. rewrite Hsat. ring. }
  split.
  - rewrite <- (div_vanishing_spec xs _ Hnd Hz t). rewrite peval_psub, peval_pmul. reflexivity.
  - rewrite div_vanishing_length. unfold psub. rewrite padd_length, pscale_length.
    pose proof (interpolate_length xs (map (fun c => val (c_a c)) (cs_cons s) ++ cs_inst s)) as LA.
    pose proof (interpolate_length xs (map (fun c => val (c_b c)) (cs_cons s))) as LB.
    pose proof (interpolate_length xs (map (fun c => val (c_c c)) (cs_cons s))) as LC. fold A in LA. fold Bp in LB. fold C in LC.
    destruct (pmul_length A Bp) as [H|H].
    + destruct A as [|a0 A]; [cbn [pmul length] in *; lia|]. destruct Bp; cbn [length] in *; lia.
    + assert (P0 : forall q : @poly K, (length (pmul q []) <= length q)%nat).
      { clear. induction q as [|c q IH]; [cbn; lia|]. cbn [pmul]. rewrite padd_length. cbn. lia. }
      rewrite H. specialize (P0 A). lia.
Qed.

(* what a successful parameter generation computed *)
Definition abc_of (alpha beta : Fr E) (a b c : list (Fr E)) (n : nat) : list (Fr E) :=
  map (fun j => fadd (fadd (fmul beta (nth j a fzero)) (fmul alpha (nth j b fzero))) (nth j c fzero)) (seq 0 n).

Lemma abc_of_fdot alpha beta (a b c z : list (Fr E)) n : length z = n -> length a = n -> length b = n -> length c = n ->
  fdot z (abc_of alpha beta a b c n) = fadd (fadd (fmul beta (fdot z a)) (fmul alpha (fdot z b))) (fdot z c).
Proof.
  intros Lz La Lb Lc. unfold abc_of. rewrite fdot_map_seq by exact Lz.
  assert (P : forall w : list (Fr E), length w = n -> fdot z w = fsum (map (fun j => fmul (nth j z fzero) (nth j w fzero)) (seq 0 n))).
  { intros w Lw. rewrite fdot_seq by lia. rewrite Lw. reflexivity. }
  rewrite (P a La), (P b Lb), (P c Lc). rewrite <- !fsum_map_mul, <- !fsum_map_add. f_equal. apply map_ext. intros j. ring.
Qed.

Lemma ark_generate_inv domain fuel R circ alpha beta gamma delta G H st pk st' :
  ark_generate domain fuel R circ alpha beta gamma delta G H st = Ok (pk, st') ->
  exists s xs t, circ (cs_new Circuit.Setup) = Ok s /\ domain (length (cs_cons s) + cs_num_inst s)%nat = Some xs /\
    vanishing_at xs t <> fzero /\ gamma <> fzero /\ delta <> fzero /\
    let u := map (fun i => peval (lagrange xs i) t) (seq 0 (length xs)) in
    let '(a, b, c) := instance_map s u in
    let abc := abc_of alpha beta a b c (cs_num_inst s + cs_num_wit s) in
    pk = Groth16ProvingKey
      (VerifyingKey (alpha [*] G) (beta [*] H) (gamma [*] H) (delta [*] H)
         (map (fun x => x [*] G) (map (fun x => fmul x (finv gamma)) (firstn (cs_num_inst s) abc))))
      (beta [*] G) (delta [*] G) (map (fun x => x [*] G) a) (map (fun x => x [*] G) b) (map (fun x => x [*] H) b)
      (map (fun x => x [*] G) (map (fun i => fmul (fmul (vanishing_at xs t) (finv delta)) (fpow t i)) (seq 0 (length xs - 1))))
      (map (fun x => x [*] G) (map (fun x => fmul x (finv delta)) (skipn (cs_num_inst s) abc))).
Proof.
  unfold ark_generate. intros Hg. apply bind_Ok_inv in Hg. destruct Hg as (s & Hs & Hg). apply bind_Ok_inv in Hg. destruct Hg as (xs & Hx & Hg).
  apply bind_Ok_inv in Hg. destruct Hg as ([t st1] & Ht & Hg).
  exists s, xs, t. split; [exact Hs|]. split.
  { unfold domain_or_err in Hx. destruct (domain _); congruence. }
  assert (Hv : vanishing_at xs t <> fzero).
  { clear -Ht. revert st Ht. induction fuel as [|f IH]; intros st Ht; [discriminate|]. cbn [sample_outside] in Ht.
    destruct (rand_scalar R st) as [t' st2]. destruct (feqb (vanishing_at xs t') fzero) eqn:Ef; [exact (IH _ Ht)|].
    injection Ht as <- _. intros Hz. apply feqb_spec in Hz. congruence. }
  split; [exact Hv|]. cbv zeta in *. destruct (instance_map s _) as [[a b] c].
  unfold inverse_or_err in Hg. destruct (feqb gamma fzero) eqn:Eg; [discriminate|]. cbn [bind] in Hg. destruct (feqb delta fzero) eqn:Ed; [discriminate|]. cbn [bind] in Hg.
  split; [intros Hz; apply feqb_spec in Hz; congruence|]. split; [intros Hz; apply feqb_spec in Hz; congruence|].
  injection Hg as <- _. reflexivity.
Qed.

Theorem ark_backend_correct pf domain fuel : domain_ok domain -> backend_correct (@ark_backend E pf domain fuel).
Proof.
  intros Hdom. constructor.
  - intros R circ alpha beta gamma delta G H st pk st' Hg. cbn [ark_backend generate_parameters_with_qap] in Hg.
    apply ark_generate_inv in Hg. destruct Hg as (s & xs & t & Hs & Hx & Hv & Hg0 & Hd0 & Hpk). cbv zeta in Hpk.
    unfold instance_map in Hpk. subst pk. cbn [gpk_vk vk_alpha_g1 vk_beta_g2 vk_gamma_g2 vk_delta_g2 gpk_delta_g1 vk_gamma_abc_g1].
    repeat (split; [assumption || reflexivity|]). exists s. split; [exact Hs|]. rewrite !map_length, firstn_length. unfold abc_of. rewrite map_length, seq_length. lia.
  - intros R circ alpha beta gamma delta G H st pk st' s circ' sp ins r1 r2 Hg Hs Hsp (Hok & Hcons & Hni & Hinst & Li & Lw & Hsat).
    cbn [ark_backend generate_parameters_with_qap create_proof_with_reduction] in *.
    apply ark_generate_inv in Hg. destruct Hg as (s' & xs & t & Hs' & Hx & Hv & Hg0 & Hd0 & Hpk). rewrite Hs in Hs'. injection Hs' as <-.
    destruct (Hdom _ _ Hx) as [Hnd Hlen]. cbv zeta in Hpk.
    assert (H1 : nth 0 (cs_inst sp) fzero = fone) by (rewrite Hinst; reflexivity).
    assert (Hne : cs_inst sp <> []) by (rewrite Hinst; discriminate).
    pose proof (instance_map_eval s (cs_inst sp) (cs_wit sp) xs t H1 Hne Hok Li Lw Hlen) as Hev. cbv zeta in Hev.
    destruct (instance_map s (map (fun i => peval (lagrange xs i) t) (seq 0 (length xs)))) as [[a b] c].
    destruct Hev as (La & Lb & Lc & Ha & Hb & Hc).
    destruct (witness_map_spec xs sp t Hnd ltac:(rewrite Hcons, Li; exact Hlen) Hsat) as [Hq Lh]. cbv zeta in Hq.
    rewrite Hcons, <- Ha, <- Hb, <- Hc in Hq.
    set (z := cs_inst sp ++ cs_wit sp) in *. set (h := witness_map xs sp) in *.
    assert (Lz : length z = (cs_num_inst s + cs_num_wit s)%nat) by (unfold z; rewrite app_length; lia).
    set (abc := abc_of alpha beta a b c (cs_num_inst s + cs_num_wit s)) in *.
    pose proof (abc_of_fdot alpha beta a b c z (cs_num_inst s + cs_num_wit s) Lz ltac:(congruence) ltac:(congruence) ltac:(congruence)) as Habc. fold abc in Habc.
    unfold z in Habc at 1. rewrite fdot_app, Li in Habc. rewrite <- (fdot_firstn (cs_inst sp)), Li in Habc.
    set (inn := firstn (cs_num_inst s) abc) in *. set (l := skipn (cs_num_inst s) abc) in *.
    assert (Lin : length inn = cs_num_inst s) by (unfold inn; rewrite firstn_length; unfold abc, abc_of; rewrite map_length, seq_length; lia).
    assert (Ez : z = fone :: (ins ++ cs_wit sp)) by (unfold z; rewrite Hinst; reflexivity).
    destruct a as [|a0 ar]; [rewrite Ez in La; discriminate|]. destruct b as [|b0 br]; [rewrite Ez in Lb; discriminate|].
    rewrite Ez in Ha, Hb, Hq. rewrite Ez in Habc.
    unfold ark_prove. rewrite Hsp. cbn [bind]. rewrite Hsat.
    replace (match pf with Debug => Ok tt | Release => Ok tt end) with (Ok tt) by (destruct pf; reflexivity). cbn [bind].
    rewrite Hcons, Hni, Hx. cbn [domain_or_err bind]. rewrite Hinst. unfold slice_from at 1. cbn [length Nat.leb skipn bind]. fold h.
    rewrite Hpk. cbn [gpk_vk vk_alpha_g1 vk_beta_g2 vk_gamma_g2 vk_delta_g2 gpk_delta_g1 gpk_beta_g1 gpk_a_query gpk_b_g1_query gpk_b_g2_query gpk_h_query gpk_l_query vk_gamma_abc_g1].
    rewrite !calculate_coeff_exp. cbn [bind].
    set (At := fdot (fone :: ins ++ cs_wit sp) (a0 :: ar)) in *. set (Bt := fdot (fone :: ins ++ cs_wit sp) (b0 :: br)) in *.
    set (Ct := fdot (fone :: ins ++ cs_wit sp) c) in *.
    assert (EA : At = fadd a0 (fdot ar (ins ++ cs_wit sp))) by (unfold At; cbn [fdot]; rewrite (fdot_comm ar); ring).
    assert (EB : Bt = fadd b0 (fdot br (ins ++ cs_wit sp))) by (unfold Bt; cbn [fdot]; rewrite (fdot_comm br); ring).
    rewrite !msm_exp. rewrite fdot_map_scale_l.
    assert (EH : fdot (map (fun i => fmul (fmul (vanishing_at xs t) (finv delta)) (fpow t i)) (seq 0 (length xs - 1))) h = fmul (fmul (vanishing_at xs t) (finv delta)) (peval h t)).
    { rewrite <- (fdot_peval h t (length xs - 1) Lh). rewrite (fdot_comm (map (fpow t) _)), (fdot_comm (map _ _)).
      replace (map (fun i => fmul (fmul (vanishing_at xs t) (finv delta)) (fpow t i)) (seq 0 (length xs - 1)))
         with (map (fun x => fmul x (fmul (vanishing_at xs t) (finv delta))) (map (fpow t) (seq 0 (length xs - 1)))).
      - rewrite fdot_map_scale. ring.
      - rewrite map_map. apply map_ext. intros i. ring. }
    rewrite EH.
    assert (Egb : exists gb : G1 E, (if feqb r1 fzero then Ok gzero else Ok ((r2 [*] (delta [*] G)) [+] (b0 [*] G) [+] (fdot br (ins ++ cs_wit sp) [*] G) [+] (beta [*] G))) = Ok gb /\
       r1 [*] gb = fmul r1 (fadd (fadd beta Bt) (fmul r2 delta)) [*] G).
    { destruct (feqb r1 fzero) eqn:Er.
      - apply feqb_spec in Er. subst r1. exists gzero. split; [reflexivity|]. rewrite smul_0_l. 
        replace (fmul fzero (fadd (fadd beta Bt) (fmul r2 delta))) with (@fzero K) by ring. rewrite smul_0_l. reflexivity.
      - eexists. split; [reflexivity|]. rewrite EB. glin. }
    destruct Egb as (gb & Egb & Egb'). rewrite Egb. cbn [bind]. eexists. split; [reflexivity|].
    unfold groth16_accepts. cbn [pr_a pr_b pr_c vk_alpha_g1 vk_beta_g2 vk_gamma_g2 vk_delta_g2 vk_gamma_abc_g1].
    split. { rewrite !map_length, Lin, <- Li, Hinst. reflexivity. }
    rewrite dot_smul_map, fdot_map_scale, <- Hinst.
    set (Lw' := fdot (cs_wit sp) l) in *. set (Li' := fdot (cs_inst sp) inn) in *. rewrite (fdot_comm l). fold Lw'.
    replace ((r1 [*] (delta [*] G)) [+] (a0 [*] G) [+] (fdot ar (ins ++ cs_wit sp) [*] G) [+] (alpha [*] G))
      with (fadd (fadd alpha At) (fmul r1 delta) [*] G) by (rewrite EA; glin).
    replace ((r2 [*] (delta [*] H)) [+] (b0 [*] H) [+] (fdot br (ins ++ cs_wit sp) [*] H) [+] (beta [*] H))
      with (fadd (fadd beta Bt) (fmul r2 delta) [*] H) by (rewrite EB; glin).
    rewrite Egb'.
    set (di := finv delta) in *. assert (Hdi : fmul delta di = fone) by (apply finv_r; exact Hd0).
    set (gi := finv gamma) in *. assert (Hgi : fmul gamma gi = fone) by (apply finv_r; exact Hg0).
    set (zt := vanishing_at xs t) in *. set (ht := peval h t) in *.
    rewrite !pair_smul_r, !pair_add_l, !pair_neg_l, !pair_smul_l. set (e := pair G (prep H)).
    assert (Key : fmul (fadd (fadd beta Bt) (fmul r2 delta)) (fadd (fadd alpha At) (fmul r1 delta)) =
       fadd (fadd (fmul beta alpha) (fmul gamma (fmul Li' gi)))
         (fmul delta (fadd (fadd (fsub (fadd (fmul r2 (fadd (fadd alpha At) (fmul r1 delta))) (fmul r1 (fadd (fadd beta Bt) (fmul r2 delta)))) (fmul (fmul r1 r2) delta)) (fmul Lw' di)) (fmul (fmul zt di) ht)))).
    { assert (HC : fmul At Bt = fadd Ct (fmul zt ht)) by (rewrite <- Hq; ring).
      transitivity (fadd (fadd (fmul beta alpha) Li') (fadd (fadd (fmul delta (fsub (fadd (fmul r2 (fadd (fadd alpha At) (fmul r1 delta))) (fmul r1 (fadd (fadd beta Bt) (fmul r2 delta)))) (fmul (fmul r1 r2) delta))) Lw') (fmul zt ht))).
      - transitivity (fadd (fadd (fadd (fmul beta alpha) (fadd (fmul beta At) (fmul alpha Bt))) (fmul At Bt)) (fmul delta (fsub (fadd (fmul r2 (fadd (fadd alpha At) (fmul r1 delta))) (fmul r1 (fadd (fadd beta Bt) (fmul r2 delta)))) (fmul (fmul r1 r2) delta)))); [ring|].
        rewrite HC. transitivity (fadd (fadd (fadd (fmul beta alpha) (fadd (fadd (fmul beta At) (fmul alpha Bt)) Ct)) (fmul zt ht)) (fmul delta (fsub (fadd (fmul r2 (fadd (fadd alpha At) (fmul r1 delta))) (fmul r1 (fadd (fadd beta Bt) (fmul r2 delta)))) (fmul (fmul r1 r2) delta)))); [ring|].
        rewrite <- Habc. ring.
      - transitivity (fadd (fadd (fmul beta alpha) (fmul Li' fone)) (fadd (fadd (fmul delta (fsub (fadd (fmul r2 (fadd (fadd alpha At) (fmul r1 delta))) (fmul r1 (fadd (fadd beta Bt) (fmul r2 delta)))) (fmul (fmul r1 r2) delta))) (fmul Lw' fone)) (fmul (fmul zt ht) fone))); [ring|].
        rewrite <- Hgi at 1. rewrite <- Hdi. ring. }
    transitivity (fmul (fadd (fadd beta Bt) (fmul r2 delta)) (fadd (fadd alpha At) (fmul r1 delta)) [*] e); [glin|]. rewrite Key. glin.
Qed.
End QE.
