(* ArkCoset.v -- the prover of ark-groth16 0.4 with the quotient polynomial computed the way the library does it, on a coset of the
   evaluation domain (r1cs_to_qap.rs, LibsnarkReduction::witness_map_from_matrices; called from /repo/src/saver_groth16.rs:93), and
   what the prover returns for assignments that do not satisfy the constraints (used for C75). *)
From Coq Require Import Permutation.
From Verif Require Import Base BaseFacts Algebra Utils Setup Keygen Encryption Circuit CircuitSat CommitmentFacts VecFacts EncryptFacts Spec Groth16 ArkGroth16
  PolyFacts Groth16Spec ArkFacts SchwartzZippel.

Section Model.
Context {E : pairing}.
Notation K := (K_of E).

(* ark_prove (ArkGroth16.v) with the computation of the quotient as an argument *)
Definition ark_prove_h (quotient : list (Fr E) -> csys K -> @poly K) (pf : profile) (domain : nat -> option (list (Fr E)))
    (circ : synthesizer E) (pk : groth16_proving_key E) (r s : Fr E) : outcome (proof E) :=
  cs <- circ (cs_new Prove) ;;
  _ <- match pf with Debug => if is_satisfied cs then Ok tt else Panic | Release => Ok tt end ;;
  xs <- domain_or_err (domain (length (cs_cons cs) + cs_num_inst cs)%nat) ;;
  let h := quotient xs cs in
  let h_acc := msm_bigint (gpk_h_query pk) (map into_bigint h) in
  let l_aux_acc := msm_bigint (gpk_l_query pk) (map into_bigint (cs_wit cs)) in
  let r_s_delta_g1 := fmul r s [*] gpk_delta_g1 pk in
  inputs <- slice_from (cs_inst cs) 1 ;;
  let assignment := inputs ++ cs_wit cs in
  g_a <- calculate_coeff (r [*] gpk_delta_g1 pk) (gpk_a_query pk) (vk_alpha_g1 (gpk_vk pk)) assignment ;;
  g1_b <- (if feqb r fzero then Ok gzero
           else calculate_coeff (s [*] gpk_delta_g1 pk) (gpk_b_g1_query pk) (gpk_beta_g1 pk) assignment) ;;
  g2_b <- calculate_coeff (s [*] vk_delta_g2 (gpk_vk pk)) (gpk_b_g2_query pk) (vk_beta_g2 (gpk_vk pk)) assignment ;;
  let g_c := (s [*] g_a) [+] (r [*] g1_b) [+] [-] r_s_delta_g1 [+] l_aux_acc [+] h_acc in
  Ok (Proof g_a g2_b g_c).

(* witness_map_from_matrices: a, b, c are interpolated on the domain (ifft), evaluated on the coset g*domain (coset fft), combined
   pointwise to (a*b - c) / Z(g) and interpolated back (coset ifft).  g is F::GENERATOR; the result has as many coefficients as the
   domain has points, and the multi-scalar multiplication with the shorter h_query drops the last one. *)
Definition witness_map_coset (g : Fr E) (xs : list (Fr E)) (s : csys K) : @poly K :=
  let val := lc_value (cs_inst s) (cs_wit s) in
  let a := interpolate xs (map (fun c => val (c_a c)) (cs_cons s) ++ cs_inst s) in
  let b := interpolate xs (map (fun c => val (c_b c)) (cs_cons s)) in
  let c := interpolate xs (map (fun c => val (c_c c)) (cs_cons s)) in
  let coset := map (fmul g) xs in
  let i := finv (vanishing_at xs g) in
  interpolate coset (map (fun y => fmul (fsub (fmul (peval a y) (peval b y)) (peval c y)) i) coset).

Definition ark_prove_coset (g : Fr E) := ark_prove_h (witness_map_coset g).
(* the backend with the coset computation *)
Definition ark_backend_coset (g : Fr E) (pf : profile) (domain : nat -> option (list (Fr E))) (fuel : nat) : groth16_backend E :=
  Groth16Backend E (ark_generate domain fuel) (ark_prove_coset g pf domain).
End Model.

(* ---------- specification: what the evaluation domains of arkworks are ---------- *)
(* a finite multiplicative group of field elements (a subgroup of the units), listed without repetition *)
Definition mult_group {K} (xs : list (scalar K)) : Prop :=
  NoDup xs /\ xs <> [] /\ ~ In fzero xs /\ forall x y, In x xs -> In y xs -> In (fmul x y) xs.

Section Facts.
Context {E : pairing}.
Notation K := (K_of E).
Add Ring Kr : (@scalar_ring_theory (K_of E)).

Lemma ark_prove_is pf domain circ (pk : groth16_proving_key E) r s : ark_prove pf domain circ pk r s = ark_prove_h witness_map pf domain circ pk r s.
Proof. reflexivity. Qed.

(* ---- multiplicative groups ---- *)
Lemma mult_perm (xs : list (Fr E)) x : mult_group xs -> In x xs -> Permutation (map (fmul x) xs) xs.
Proof.
  intros (Hnd & _ & H0 & Hc) Hx. apply NoDup_Permutation_bis.
  - apply nodup_map_in; [|exact Hnd]. intros a b _ _ He. assert (Hd : fmul x (fsub a b) = fzero).
    { replace (fmul x (fsub a b)) with (fsub (fmul x a) (fmul x b)) by ring. rewrite He. ring. }
    apply fmul_integral in Hd. destruct Hd as [Hd|Hd]; [subst; contradiction|]. apply fsub_zero_eq. exact Hd.
  - rewrite map_length. lia.
  - intros y Hy. apply in_map_iff in Hy. destruct Hy as (z & <- & Hz). apply Hc; assumption.
Qed.
Definition fprod (l : list (Fr E)) : Fr E := fold_right fmul fone l.
Lemma fprod_perm l l' : Permutation l l' -> fprod l = fprod l'.
Proof. induction 1; cbn [fprod fold_right] in *; [reflexivity|unfold fprod in *; cbn; congruence|unfold fprod; cbn; ring|congruence]. Qed.
Lemma fprod_scale x l : fprod (map (fmul x) l) = fmul (fpow x (length l)) (fprod l).
Proof.
  induction l as [|a l IH]; [cbn; change (fpow x 0) with (@fone K); ring|]. cbn [map length fprod fold_right] in *. unfold fprod in IH. rewrite IH, fpow_S.
  fold (fprod l). ring.
Qed.
Lemma fprod_nonzero l : ~ In fzero l -> fprod l <> fzero.
Proof.
  induction l as [|a l IH]; intros H Hz; [exact (fneq01 Hz)|]. cbn [fprod fold_right] in Hz. apply fmul_integral in Hz.
  destruct Hz as [Hz|Hz]; [apply H; left; exact Hz|]. apply IH; [|exact Hz]. intros Hi; apply H; right; exact Hi.
Qed.
Lemma mult_power (xs : list (Fr E)) x : mult_group xs -> In x xs -> fpow x (length xs) = fone.
Proof.
  intros Hg Hx. pose proof (fprod_perm _ _ (mult_perm xs x Hg Hx)) as P. rewrite fprod_scale in P.
  destruct Hg as (_ & _ & H0 & _). pose proof (fprod_nonzero xs H0) as N.
  assert (Hd : fmul (fsub (fpow x (length xs)) fone) (fprod xs) = fzero).
  { replace (fmul (fsub (fpow x (length xs)) fone) (fprod xs)) with (fsub (fmul (fpow x (length xs)) (fprod xs)) (fprod xs)) by ring. rewrite P. ring. }
  apply fmul_integral in Hd. destruct Hd as [Hd|Hd]; [|contradiction]. apply fsub_zero_eq. exact Hd.
Qed.
Lemma vanishing_fprod xs (t : Fr E) : vanishing_at xs t = fprod (map (fsub t) xs).
Proof. induction xs as [|x xs IH]; [reflexivity|]. cbn [vanishing_at fold_right map fprod] in *. unfold vanishing_at in IH. rewrite IH. reflexivity. Qed.
(* the vanishing polynomial is constant on a coset *)
Lemma vanishing_coset (xs : list (Fr E)) g x : mult_group xs -> In x xs -> vanishing_at xs (fmul g x) = vanishing_at xs g.
Proof.
  intros Hg Hx. rewrite !vanishing_fprod. rewrite (fprod_perm (map (fsub (fmul g x)) xs) (map (fsub (fmul g x)) (map (fmul x) xs)))
    by (apply Permutation_map, Permutation_sym, mult_perm; assumption).
  rewrite map_map. replace (map (fun y => fsub (fmul g x) (fmul x y)) xs) with (map (fmul x) (map (fsub g) xs)).
  - rewrite fprod_scale, map_length, (mult_power xs x Hg Hx). ring.
  - rewrite map_map. apply map_ext. intros y. ring.
Qed.

(* ---- equal coefficients give equal sums ---- *)
Lemma msm_zeros {G : group K} (q : list G) (l : list (Fr E)) : Forall (fun c => c = fzero) l -> msm_bigint q (map into_bigint l) = gzero.
Proof.
  intros H. revert q. induction H as [|c l -> H IH]; intros [|g q]; try reflexivity. cbn [map]. rewrite msm_cons, IH.
  change (mul_bigint g (into_bigint fzero)) with (@fzero K [*] g). rewrite smul_0_l, gadd_0_l. reflexivity.
Qed.
Lemma nth_psub (h : @poly K) : forall h' i, nth i (psub h h') fzero = fsub (nth i h fzero) (nth i h' fzero).
Proof.
  unfold psub. induction h as [|c h IH]; intros h' i.
  - cbn [padd]. replace (nth i (@nil (scalar K)) fzero) with (@fzero K) by (destruct i; reflexivity).
    unfold pscale. replace (nth i (map (fmul (fneg fone)) h') fzero) with (nth i (map (fmul (fneg fone)) h') (fmul (fneg fone) fzero)) by (f_equal; ring).
    rewrite map_nth. ring.
  - destruct h' as [|c' h'].
    + cbn [pscale map padd]. replace (nth i (@nil (scalar K)) fzero) with (@fzero K) by (destruct i; reflexivity). ring.
    + destruct i as [|i]; cbn [pscale map padd nth]; [ring|]. apply IH.
Qed.
Lemma msm_same_coeffs {G : group K} (q : list G) : forall (h h' : @poly K), (forall i, nth i h fzero = nth i h' fzero) ->
  msm_bigint q (map into_bigint h) = msm_bigint q (map into_bigint h').
Proof.
  assert (Z : forall l : @poly K, (forall i, nth i l fzero = fzero) -> Forall (fun c => c = fzero) l).
  { intros l H. apply Forall_forall. intros x Hx. destruct (In_nth l x fzero Hx) as (j & _ & <-). apply H. }
  assert (N : forall l : list G, msm_bigint l (map into_bigint (@nil (scalar K))) = gzero) by (intros [|? ?]; reflexivity).
  induction q as [|g q IH]; intros h h' He; [reflexivity|]. destruct h as [|c h].
  - rewrite N. symmetry. apply msm_zeros, Z. intros i. rewrite <- He. destruct i; reflexivity.
  - destruct h' as [|c' h'].
    + rewrite N. apply msm_zeros, Z. intros i. rewrite He. destruct i; reflexivity.
    + cbn [map]. rewrite !msm_cons. rewrite (IH h h') by (intros i; exact (He (S i))). f_equal. f_equal. f_equal. exact (He 0%nat).
Qed.
Lemma msm_same_values {G : group K} (q : list G) (h h' : @poly K) (ys : list (Fr E)) : NoDup ys -> (length h <= length ys)%nat -> (length h' <= length ys)%nat ->
  (forall y, In y ys -> peval h y = peval h' y) -> msm_bigint q (map into_bigint h) = msm_bigint q (map into_bigint h').
Proof.
  intros Hnd L L' He. assert (Z : Forall (fun c => c = fzero) (psub h h')).
  { apply (coeffs_zero ys); [exact Hnd| |unfold psub; rewrite padd_length, pscale_length; lia]. intros y Hy. rewrite peval_psub, (He y Hy). ring. }
  apply msm_same_coeffs. intros i. apply fsub_zero_eq. rewrite <- nth_psub. rewrite Forall_forall in Z.
  destruct (le_lt_dec (length (psub h h')) i) as [Hi|Hi]; [apply nth_overflow; exact Hi|apply Z, nth_In; exact Hi].
Qed.

(* On satisfied constraints the coset computation gives the same proof, from any proving key. *)
Theorem coset_agrees (g : Fr E) pf domain circ (pk : groth16_proving_key E) r s cs xs : circ (cs_new Prove) = Ok cs -> is_satisfied cs = true ->
  domain (length (cs_cons cs) + cs_num_inst cs)%nat = Some xs -> (length (cs_cons cs) + length (cs_inst cs) <= length xs)%nat ->
  mult_group xs -> ~ In g xs -> g <> fzero ->
  ark_prove_coset g pf domain circ pk r s = ark_prove pf domain circ pk r s.
Proof.
  intros Hc Hsat Hd Hl Hgr Hg Hg0. rewrite ark_prove_is. unfold ark_prove_coset, ark_prove_h. rewrite Hc. cbn [bind]. rewrite Hsat.
  replace (match pf with Debug => Ok tt | Release => Ok tt end) with (Ok tt) by (destruct pf; reflexivity). cbn [bind]. rewrite Hd. cbn [domain_or_err bind]. cbv zeta.
  assert (Q : msm_bigint (gpk_h_query pk) (map into_bigint (witness_map_coset g xs cs)) = msm_bigint (gpk_h_query pk) (map into_bigint (witness_map xs cs))).
  { pose proof Hgr as (Hnd & _ & H0 & _).
    assert (Hny : NoDup (map (fmul g) xs)).
    { apply nodup_map_in; [|exact Hnd]. intros a b _ _ He. assert (Hx : fmul g (fsub a b) = fzero).
      { replace (fmul g (fsub a b)) with (fsub (fmul g a) (fmul g b)) by ring. rewrite He. ring. }
      apply fmul_integral in Hx. destruct Hx as [Hx|Hx]; [contradiction|]. apply fsub_zero_eq. exact Hx. }
    assert (Hv : vanishing_at xs g <> fzero) by (intros Hz; apply vanishing_zero in Hz; contradiction).
    destruct (witness_map_spec xs cs fzero Hnd Hl Hsat) as [_ Lw].
    apply (msm_same_values _ _ _ (map (fmul g) xs)); [exact Hny|unfold witness_map_coset; apply interpolate_length|rewrite map_length; lia|].
    intros y Hy. destruct (In_nth _ y fzero Hy) as (j & Hj & <-). set (y := nth j (map (fmul g) xs) fzero) in *.
    unfold witness_map_coset. cbv zeta. unfold y at 1. rewrite (interpolate_at (map (fmul g) xs)) by assumption.
    set (f := fun y => fmul _ (finv (vanishing_at xs g))). rewrite (nth_indep _ fzero (f fzero)) by (rewrite map_length; exact Hj). rewrite map_nth. fold y. unfold f.
    destruct (witness_map_spec xs cs y Hnd Hl Hsat) as [W _]. cbv zeta in W. rewrite W.
    apply in_map_iff in Hy. destruct Hy as (x & Hx & Hin). rewrite <- Hx at 1. rewrite (vanishing_coset xs g x Hgr Hin).
    set (v := vanishing_at xs g) in *. set (p := peval (witness_map xs cs) y). 
    transitivity (fmul p (fmul v (finv v))); [ring|]. rewrite finv_r by exact Hv. ring. }
  rewrite Q. reflexivity.
Qed.
End Facts.

(* ---------- the proof returned for an arbitrary assignment ---------- *)
Section Exact.
Context {E : pairing}.
Notation K := (K_of E).
Add Ring Kr2 : (@scalar_ring_theory (K_of E)).

(* interpolated values of the three sides of the constraints (the instance is appended on the left side) *)
Definition poly_a (xs : list (Fr E)) (s : csys K) (inst wit : list (Fr E)) : @poly K :=
  interpolate xs (map (fun k => lc_value inst wit (c_a k)) (cs_cons s) ++ inst).
Definition poly_b (xs : list (Fr E)) (s : csys K) (inst wit : list (Fr E)) : @poly K :=
  interpolate xs (map (fun k => lc_value inst wit (c_b k)) (cs_cons s)).
Definition poly_c (xs : list (Fr E)) (s : csys K) (inst wit : list (Fr E)) : @poly K :=
  interpolate xs (map (fun k => lc_value inst wit (c_c k)) (cs_cons s)).

Lemma ark_generate_at domain fuel (R : rng_impl E) circ alpha beta gamma delta G H st pk st' s xs t st1 :
  ark_generate domain fuel R circ alpha beta gamma delta G H st = Ok (pk, st') ->
  circ (cs_new Circuit.Setup) = Ok s -> domain (length (cs_cons s) + cs_num_inst s)%nat = Some xs ->
  rand_scalar R st = (t, st1) -> ~ In t xs ->
  gamma <> fzero /\ delta <> fzero /\
  let u := map (fun i => peval (lagrange xs i) t) (seq 0 (length xs)) in
  let '(a, b, c) := instance_map s u in
  let abc := abc_of alpha beta a b c (cs_num_inst s + cs_num_wit s) in
  pk = Groth16ProvingKey
    (VerifyingKey (alpha [*] G) (beta [*] H) (gamma [*] H) (delta [*] H)
       (map (fun x => x [*] G) (map (fun x => fmul x (finv gamma)) (firstn (cs_num_inst s) abc))))
    (beta [*] G) (delta [*] G) (map (fun x => x [*] G) a) (map (fun x => x [*] G) b) (map (fun x => x [*] H) b)
    (map (fun x => x [*] G) (map (fun i => fmul (fmul (vanishing_at xs t) (finv delta)) (fpow t i)) (seq 0 (length xs - 1))))
    (map (fun x => x [*] G) (map (fun x => fmul x (finv delta)) (skipn (cs_num_inst s) abc))).
Proof.
  unfold ark_generate. intros Hg Hs Hx Ht Hn. rewrite Hs in Hg. cbn [bind] in Hg. rewrite Hx in Hg. cbn [domain_or_err bind] in Hg.
  destruct fuel as [|f]; [discriminate|]. cbn [sample_outside] in Hg. rewrite Ht in Hg.
  destruct (feqb (vanishing_at xs t) fzero) eqn:Ef; [apply feqb_spec in Ef; apply vanishing_zero in Ef; contradiction|]. cbn [bind] in Hg.
  cbv zeta in *. destruct (instance_map s _) as [[a b] c].
  unfold inverse_or_err in Hg. destruct (feqb gamma fzero) eqn:Eg; [discriminate|]. cbn [bind] in Hg. destruct (feqb delta fzero) eqn:Ed; [discriminate|]. cbn [bind] in Hg.
  split; [intros Hz; apply feqb_spec in Hz; congruence|]. split; [intros Hz; apply feqb_spec in Hz; congruence|].
  injection Hg as <- _. reflexivity.
Qed.

Lemma smul_e_iff (e : GT E) (x y : Fr E) : e <> gzero -> (x [*] e = y [*] e <-> x = y).
Proof. intros He. split; [apply smul_inj_scalar; exact He|intros ->; reflexivity]. Qed.
Lemma fsub_iff (a b c d : Fr E) : fsub a b = fsub c d -> (a = b <-> c = d).
Proof. intros He. split; intros ->; apply fsub_zero_eq; [rewrite <- He|rewrite He]; ring. Qed.

(* For every quotient the prover may compute: the proof is accepted for the inputs x exactly when one equation between values of
   polynomials at the evaluation point of the setup holds. *)
Theorem ark_prove_exact (quo : list (Fr E) -> csys K -> @poly K) domain fuel (R : rng_impl E) circ alpha beta gamma delta G H st pk st' s xs t st1 circ' sp v x r1 r2 :
  domain_ok domain -> ark_generate domain fuel R circ alpha beta gamma delta G H st = Ok (pk, st') ->
  circ (cs_new Circuit.Setup) = Ok s -> domain (length (cs_cons s) + cs_num_inst s)%nat = Some xs ->
  rand_scalar R st = (t, st1) -> ~ In t xs ->
  circ' (cs_new Prove) = Ok sp -> cs_ok s -> cs_cons sp = cs_cons s -> cs_num_inst sp = cs_num_inst s ->
  cs_inst sp = fone :: v -> S (length v) = cs_num_inst s -> length (cs_wit sp) = cs_num_wit s -> length x = length v ->
  exists p, ark_prove_h quo Release domain circ' pk r1 r2 = Ok p /\ (pair G (prep H) <> gzero ->
    let A i := peval (poly_a xs s (fone :: i) (cs_wit sp)) t in
    let B i := peval (poly_b xs s (fone :: i) (cs_wit sp)) t in
    let C i := peval (poly_c xs s (fone :: i) (cs_wit sp)) t in
    (groth16_accepts (gpk_vk pk) x p <->
     fsub (fmul (A v) (B v)) (fmul (vanishing_at xs t) (peval (firstn (length xs - 1) (quo xs sp)) t)) =
     fadd (fadd (fmul beta (fsub (A x) (A v))) (fmul alpha (fsub (B x) (B v)))) (C x))).
Proof.
  intros Hdom Hg Hs Hx Ht Hn Hsp Hok Hcons Hni Hinst Hlv Lw Lx.
  destruct (ark_generate_at _ _ _ _ _ _ _ _ _ _ _ _ _ _ _ _ _ Hg Hs Hx Ht Hn) as (Hg0 & Hd0 & Hpk). cbv zeta in Hpk.
  destruct (Hdom _ _ Hx) as [Hnd Hlen].
  pose proof (instance_map_eval s (fone :: v) (cs_wit sp) xs t eq_refl ltac:(discriminate) Hok Hlv Lw Hlen) as Hev. cbv zeta in Hev.
  pose proof (instance_map_eval s (fone :: x) (cs_wit sp) xs t eq_refl ltac:(discriminate) Hok ltac:(cbn [length]; lia) Lw Hlen) as Hex. cbv zeta in Hex.
  destruct (instance_map s (map (fun i => peval (lagrange xs i) t) (seq 0 (length xs)))) as [[a b] c].
  destruct Hev as (La & Lb & Lc & Ha & Hb & Hc). destruct Hex as (_ & _ & _ & Ha' & Hb' & Hc').
  fold (poly_a xs s (fone :: v) (cs_wit sp)) in Ha. fold (poly_b xs s (fone :: v) (cs_wit sp)) in Hb. fold (poly_c xs s (fone :: v) (cs_wit sp)) in Hc.
  fold (poly_a xs s (fone :: x) (cs_wit sp)) in Ha'. fold (poly_b xs s (fone :: x) (cs_wit sp)) in Hb'. fold (poly_c xs s (fone :: x) (cs_wit sp)) in Hc'.
  set (z := (fone :: x) ++ cs_wit sp) in *.
  assert (Lz : length z = (cs_num_inst s + cs_num_wit s)%nat) by (unfold z; rewrite app_length; cbn [length]; lia).
  assert (Lz' : length ((fone :: v) ++ cs_wit sp) = (cs_num_inst s + cs_num_wit s)%nat) by (rewrite app_length; cbn [length]; lia).
  set (abc := abc_of alpha beta a b c (cs_num_inst s + cs_num_wit s)) in *.
  pose proof (abc_of_fdot alpha beta a b c z (cs_num_inst s + cs_num_wit s) Lz ltac:(congruence) ltac:(congruence) ltac:(congruence)) as Habc. fold abc in Habc.
  unfold z in Habc at 1. rewrite fdot_app in Habc. replace (length (fone :: x)) with (cs_num_inst s) in Habc by (cbn [length]; lia).
  rewrite <- (fdot_firstn (fone :: x)) in Habc. replace (length (fone :: x)) with (cs_num_inst s) in Habc by (cbn [length]; lia).
  set (inn := firstn (cs_num_inst s) abc) in *. set (l := skipn (cs_num_inst s) abc) in *.
  assert (Lin : length inn = cs_num_inst s) by (unfold inn; rewrite firstn_length; unfold abc, abc_of; rewrite map_length, seq_length; lia).
  destruct a as [|a0 ar]; [cbn [app length] in La; discriminate|]. destruct b as [|b0 br]; [cbn [app length] in Lb; discriminate|].
  rewrite Ha', Hb', Hc' in Habc. cbn [app] in Ha, Hb.
  unfold ark_prove_h. rewrite Hsp. cbn [bind]. rewrite Hcons, Hni, Hx. cbn [domain_or_err bind]. rewrite Hinst. unfold slice_from at 1. cbn [length Nat.leb skipn bind].
  rewrite Hpk. cbn [gpk_vk vk_alpha_g1 vk_beta_g2 vk_gamma_g2 vk_delta_g2 gpk_delta_g1 gpk_beta_g1 gpk_a_query gpk_b_g1_query gpk_b_g2_query gpk_h_query gpk_l_query vk_gamma_abc_g1].
  rewrite !calculate_coeff_exp. cbn [bind].
  set (At := peval (poly_a xs s (fone :: v) (cs_wit sp)) t) in *. set (Bt := peval (poly_b xs s (fone :: v) (cs_wit sp)) t) in *.
  set (Ax := peval (poly_a xs s (fone :: x) (cs_wit sp)) t) in *. set (Bx := peval (poly_b xs s (fone :: x) (cs_wit sp)) t) in *.
  set (Cx := peval (poly_c xs s (fone :: x) (cs_wit sp)) t) in *.
  assert (EA : At = fadd a0 (fdot ar (v ++ cs_wit sp))) by (rewrite <- Ha; cbn [fdot]; rewrite (fdot_comm ar); ring).
  assert (EB : Bt = fadd b0 (fdot br (v ++ cs_wit sp))) by (rewrite <- Hb; cbn [fdot]; rewrite (fdot_comm br); ring).
  rewrite !msm_exp. rewrite fdot_map_scale_l.
  set (h := firstn (length xs - 1) (quo xs sp)) in *.
  assert (EH : fdot (map (fun i => fmul (fmul (vanishing_at xs t) (finv delta)) (fpow t i)) (seq 0 (length xs - 1))) (quo xs sp) = fmul (fmul (vanishing_at xs t) (finv delta)) (peval h t)).
  { rewrite <- (fdot_firstn (map _ _) (quo xs sp)). rewrite map_length, seq_length. fold h.
    rewrite <- (fdot_peval h t (length xs - 1)) by (unfold h; rewrite firstn_length; lia). rewrite (fdot_comm (map (fpow t) _)), (fdot_comm (map _ _)).
    replace (map (fun i => fmul (fmul (vanishing_at xs t) (finv delta)) (fpow t i)) (seq 0 (length xs - 1)))
       with (map (fun x => fmul x (fmul (vanishing_at xs t) (finv delta))) (map (fpow t) (seq 0 (length xs - 1)))).
    - rewrite fdot_map_scale. ring.
    - rewrite map_map. apply map_ext. intros i. ring. }
  rewrite EH.
  assert (Egb : exists gb : G1 E, (if feqb r1 fzero then Ok gzero else Ok ((r2 [*] (delta [*] G)) [+] (b0 [*] G) [+] (fdot br (v ++ cs_wit sp) [*] G) [+] (beta [*] G))) = Ok gb /\
     r1 [*] gb = fmul r1 (fadd (fadd beta Bt) (fmul r2 delta)) [*] G).
  { destruct (feqb r1 fzero) eqn:Er.
    - apply feqb_spec in Er. subst r1. exists gzero. split; [reflexivity|]. rewrite smul_0_l.
      replace (fmul fzero (fadd (fadd beta Bt) (fmul r2 delta))) with (@fzero K) by ring. rewrite smul_0_l. reflexivity.
    - eexists. split; [reflexivity|]. rewrite EB. glin. }
  destruct Egb as (gb & Egb & Egb'). rewrite Egb. cbn [bind]. eexists. split; [reflexivity|]. intros He. cbv zeta.
  unfold groth16_accepts. cbn [pr_a pr_b pr_c vk_alpha_g1 vk_beta_g2 vk_gamma_g2 vk_delta_g2 vk_gamma_abc_g1].
  rewrite !map_length, Lin. rewrite dot_smul_map, fdot_map_scale.
  set (Lw' := fdot (cs_wit sp) l) in *. set (Li' := fdot (fone :: x) inn) in *. rewrite (fdot_comm l). fold Lw'.
  replace ((r1 [*] (delta [*] G)) [+] (a0 [*] G) [+] (fdot ar (v ++ cs_wit sp) [*] G) [+] (alpha [*] G))
    with (fadd (fadd alpha At) (fmul r1 delta) [*] G) by (rewrite EA; glin).
  replace ((r2 [*] (delta [*] H)) [+] (b0 [*] H) [+] (fdot br (v ++ cs_wit sp) [*] H) [+] (beta [*] H))
    with (fadd (fadd beta Bt) (fmul r2 delta) [*] H) by (rewrite EB; glin).
  rewrite Egb'.
  set (di := finv delta) in *. assert (Hdi : fmul delta di = fone) by (apply finv_r; exact Hd0).
  set (gi := finv gamma) in *. assert (Hgi : fmul gamma gi = fone) by (apply finv_r; exact Hg0).
  set (zt := vanishing_at xs t) in *. set (ht := peval h t) in *.
  rewrite !pair_smul_r, !pair_add_l, !pair_neg_l, !pair_smul_l. set (e := pair G (prep H)) in *.
  set (lhs := fmul (fadd (fadd beta Bt) (fmul r2 delta)) (fadd (fadd alpha At) (fmul r1 delta))).
  set (rhs := fadd (fadd (fmul beta alpha) (fmul gamma (fmul Li' gi)))
       (fmul delta (fadd (fadd (fsub (fadd (fmul r2 (fadd (fadd alpha At) (fmul r1 delta))) (fmul r1 (fadd (fadd beta Bt) (fmul r2 delta)))) (fmul (fmul r1 r2) delta)) (fmul Lw' di)) (fmul (fmul zt di) ht)))).
  assert (Key : fsub lhs rhs = fsub (fsub (fmul At Bt) (fmul zt ht)) (fadd (fadd (fmul beta (fsub Ax At)) (fmul alpha (fsub Bx Bt))) Cx)).
  { unfold rhs. transitivity (fsub lhs (fadd (fadd (fmul beta alpha) (fmul (fmul gamma gi) Li')) (fadd (fadd (fmul delta (fsub (fadd (fmul r2 (fadd (fadd alpha At) (fmul r1 delta))) (fmul r1 (fadd (fadd beta Bt) (fmul r2 delta)))) (fmul (fmul r1 r2) delta))) (fmul (fmul delta di) Lw')) (fmul (fmul delta di) (fmul zt ht))))); [ring|].
    rewrite Hgi, Hdi. unfold lhs.
    transitivity (fsub (fsub (fadd (fadd (fmul At Bt) (fmul beta At)) (fmul alpha Bt)) (fmul zt ht)) (fadd Li' Lw')); [ring|].
    rewrite Habc. ring. }
  etransitivity; [|apply (fsub_iff _ _ _ _ Key)].
  match goal with |- (_ /\ ?u = ?w) <-> _ => assert (EL : u = lhs [*] e) by (unfold lhs; glin); assert (ER : w = rhs [*] e) by (unfold rhs; glin) end.
  rewrite EL, ER. rewrite (smul_e_iff e lhs rhs He). split; [intros [_ R0]; exact R0|intros R0; split; [cbn [length]; lia|exact R0]].
Qed.
End Exact.

(* ---------- the evaluation points for which a wrong proof is accepted ---------- *)
Section Bad.
Context {E : pairing}.
Notation K := (K_of E).
Add Ring Kr3 : (@scalar_ring_theory (K_of E)).

Lemma roots_list (p : @poly K) y : peval p y <> fzero -> exists bad : list (Fr E), (length bad < length p)%nat /\ forall t, peval p t = fzero -> In t bad.
Proof.
  intros Hy. exists (filter (fun t => feqb (peval p t) fzero) all_scalars).
  assert (Hin : forall t, In t (filter (fun t => feqb (peval p t) fzero) all_scalars) <-> peval p t = fzero).
  { intros t. rewrite filter_In. split; [intros [_ Hz]; apply feqb_spec; exact Hz|]. intros Hz. split; [apply all_scalars_in|apply feqb_spec; exact Hz]. }
  split; [|intros t Hz; apply Hin; exact Hz].
  match goal with |- (length ?l < _)%nat => destruct (le_lt_dec (length p) (length l)) as [Hl|Hl]; [|exact Hl] end.
  exfalso. apply Hy. eapply roots_bound; [|intros r Hr; apply Hin; exact Hr|exact Hl]. apply NoDup_filter, all_scalars_nodup.
Qed.

Lemma pmul_len (p q : @poly K) a b : (1 <= a)%nat -> (1 <= b)%nat -> (length p <= a)%nat -> (length q <= b)%nat -> (length (pmul p q) <= a + b - 1)%nat.
Proof.
  intros Ha Hb Hp Hq. destruct (pmul_length p q) as [H|H].
  - lia.
  - assert (P0 : forall q : @poly K, (length (pmul q []) <= length q)%nat).
    { clear. induction q as [|c q IH]; [cbn; lia|]. cbn [pmul]. rewrite padd_length. cbn. lia. }
    rewrite H. specialize (P0 p). lia.
Qed.

Definition bad_poly (h : @poly K) (xs : list (Fr E)) (s : csys K) (alpha beta : Fr E) (v x wit : list (Fr E)) : @poly K :=
  let A i := poly_a xs s (fone :: i) wit in
  let B i := poly_b xs s (fone :: i) wit in
  let C i := poly_c xs s (fone :: i) wit in
  psub (psub (pmul (A v) (B v)) (pmul (fold_right (fun x p => pmul [fneg x; fone] p) [fone] xs) (firstn (length xs - 1) h)))
       (padd (padd (pscale beta (psub (A x) (A v))) (pscale alpha (psub (B x) (B v)))) (C x)).

Lemma bad_poly_length h xs s alpha beta v x wit : (1 < length xs)%nat -> (length (bad_poly h xs s alpha beta v x wit) <= 2 * length xs - 1)%nat.
Proof.
  intros Hx. unfold bad_poly. cbv zeta. unfold psub. repeat (rewrite padd_length || rewrite pscale_length). unfold poly_a, poly_b, poly_c.
  repeat match goal with |- context [length (interpolate ?a ?b)] => lazymatch goal with H : (length (interpolate a b) <= _)%nat |- _ => fail | _ => pose proof (interpolate_length a b) end end.
  match goal with |- context [length (pmul ?p ?q)] => pose proof (pmul_len p q (length xs) (length xs) ltac:(lia) ltac:(lia) ltac:(apply interpolate_length) ltac:(apply interpolate_length)) end.
  match goal with |- context [length (pmul (fold_right ?f ?a ?l) ?q)] =>
    pose proof (pmul_len (fold_right f a l) q (S (length xs)) (length xs - 1) ltac:(lia) ltac:(lia) ltac:(rewrite prod_lin_length; lia) ltac:(rewrite firstn_length; lia)) end.
  lia.
Qed.
Lemma bad_poly_eval h xs s alpha beta v x wit t :
  let A i := peval (poly_a xs s (fone :: i) wit) t in
  let B i := peval (poly_b xs s (fone :: i) wit) t in
  let C i := peval (poly_c xs s (fone :: i) wit) t in
  peval (bad_poly h xs s alpha beta v x wit) t = fzero <->
  fsub (fmul (A v) (B v)) (fmul (vanishing_at xs t) (peval (firstn (length xs - 1) h) t)) =
     fadd (fadd (fmul beta (fsub (A x) (A v))) (fmul alpha (fsub (B x) (B v)))) (C x).
Proof.
  cbv zeta. unfold bad_poly. cbv zeta. rewrite !peval_psub, !peval_padd, !peval_pscale, !peval_pmul, !peval_psub, prod_lin_eval.
  set (l := fsub (fmul _ _) (fmul _ _)). set (r := fadd _ (peval (poly_c _ _ _ _) t)). split; [intros H; apply fsub_zero_eq; exact H|intros ->; ring].
Qed.

(* wrong inputs: non-zero at the point of that input *)
Lemma bad_poly_inputs h xs s alpha beta v x wit j : NoDup xs -> (length (cs_cons s) + S (length v) <= length xs)%nat -> length x = length v -> (j < length v)%nat ->
  nth j x fzero <> nth j v fzero -> beta <> fzero ->
  peval (bad_poly h xs s alpha beta v x wit) (nth (length (cs_cons s) + S j) xs fzero) <> fzero.
Proof.
  intros Hnd Hl Lx Hj Hne Hb Hz. apply bad_poly_eval in Hz. cbv zeta in Hz. unfold poly_a, poly_b, poly_c in Hz.
  rewrite !interpolate_at in Hz by (assumption || lia).
  assert (O : forall f : constraint K -> Fr E, nth (length (cs_cons s) + S j) (map f (cs_cons s)) fzero = fzero) by (intros f; apply nth_overflow; rewrite map_length; lia).
  rewrite !O in Hz.
  assert (I : forall (f : constraint K -> Fr E) (i : list (Fr E)), nth (length (cs_cons s) + S j) (map f (cs_cons s) ++ fone :: i) fzero = nth j i fzero).
  { intros f i. rewrite app_nth2 by (rewrite map_length; lia). rewrite map_length. replace (length (cs_cons s) + S j - length (cs_cons s))%nat with (S j) by lia. reflexivity. }
  rewrite !I in Hz.
  assert (V : vanishing_at xs (nth (length (cs_cons s) + S j) xs fzero) = fzero) by (apply vanishing_zero, nth_In; lia).
  rewrite V in Hz. apply Hne. apply fsub_zero_eq.
  assert (Q : fmul beta (fsub (nth j x fzero) (nth j v fzero)) = fzero).
  { symmetry. etransitivity; [|etransitivity; [exact Hz|ring]]. ring. }
  apply fmul_integral in Q. destruct Q as [Q|Q]; [contradiction|exact Q].
Qed.
(* violated constraint: non-zero at the point of that constraint *)
Lemma bad_poly_unsat h xs s alpha beta v wit : NoDup xs -> (length (cs_cons s) + S (length v) <= length xs)%nat ->
  ~ Forall (constraint_holds (fone :: v) wit) (cs_cons s) -> exists y, peval (bad_poly h xs s alpha beta v v wit) y <> fzero.
Proof.
  intros Hnd Hl Hu.
  destruct (Forall_Exists_dec (constraint_holds (fone :: v) wit) ) with (l := cs_cons s) as [Hf|Hex].
  { intros c. unfold constraint_holds. apply feq_dec. }
  { contradiction. }
  apply Exists_exists in Hex. destruct Hex as (c & Hc & Hn). destruct (In_nth _ c (@Constraint K [] [] []) Hc) as (j & Hj & Ej).
  exists (nth j xs fzero). intros Hz. apply Hn. apply bad_poly_eval in Hz. cbv zeta in Hz. unfold poly_a, poly_b, poly_c in Hz.
  rewrite !interpolate_at in Hz by (assumption || lia).
  assert (V : vanishing_at xs (nth j xs fzero) = fzero) by (apply vanishing_zero, nth_In; lia). rewrite V in Hz.
  assert (O : forall f : constraint K -> Fr E, nth j (map f (cs_cons s)) fzero = f c).
  { intros f. rewrite (nth_indep _ fzero (f (@Constraint K [] [] []))) by (rewrite map_length; exact Hj). rewrite map_nth, Ej. reflexivity. }
  rewrite !O in Hz. rewrite app_nth1 in Hz by (rewrite map_length; exact Hj). rewrite O in Hz.
  unfold constraint_holds. etransitivity; [|etransitivity; [exact Hz|ring]]. ring.
Qed.
End Bad.
