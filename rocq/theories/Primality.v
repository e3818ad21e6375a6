(* Primality.v -- Pocklington primality certificates, used only to build concrete instances (Instance.v). *)
From Coq Require Import ZArith List Lia Znumtheory Bool Permutation FinFun.
Import ListNotations.
Open Scope Z_scope.

(* ---------- trial division ---------- *)
Fixpoint no_divisor (fuel : nat) (d n : Z) : bool :=
  match fuel with
  | O => n <? d * d
  | S f => if n <? d * d then true else negb (n mod d =? 0) && no_divisor f (d + 1) n
  end.

Lemma no_divisor_correct fuel d n : 2 <= d -> no_divisor fuel d n = true ->
  forall k, d <= k -> k * k <= n -> ~ (k | n).
Proof.
  revert d; induction fuel as [|f IH]; intros d Hd H k Hk Hkk; cbn in H.
  - apply Z.ltb_lt in H. nia.
  - destruct (Z.ltb_spec n (d * d)); [nia|].
    apply andb_prop in H. destruct H as [Hm Hr].
    destruct (Z.eq_dec k d) as [->|Hne].
    + intros Hdiv. apply Z.mod_divide in Hdiv; [|lia]. rewrite Hdiv in Hm. discriminate.
    + apply (IH (d + 1)); try lia; assumption.
Qed.

Lemma trial_division n : 1 < n -> no_divisor (Z.to_nat (Z.sqrt n)) 2 n = true -> prime n.
Proof.
  intros Hn H. apply prime_alt. split; [exact Hn|].
  intros k Hk Hd. destruct Hd as [q Hq].
  destruct (Z_le_gt_dec k q) as [Hle|Hgt].
  - apply (no_divisor_correct _ 2 n ltac:(lia) H k); [lia | nia | exists q; exact Hq].
  - apply (no_divisor_correct _ 2 n ltac:(lia) H q); [nia | nia | exists k; lia].
Qed.

(* ---------- Pocklington's criterion: only part of n - 1 has to be factored ---------- *)
Lemma prime_factor n : 1 < n -> exists p, prime p /\ (p | n).
Proof.
  intros Hn. revert n Hn. refine (fun n Hn => Z_lt_induction (fun n => 1 < n -> exists p, prime p /\ (p | n)) _ n ltac:(lia) Hn).
  clear. intros n IH Hn. destruct (prime_dec n) as [Hp|Hp].
  - exists n. split; [exact Hp|apply Z.divide_refl].
  - apply not_prime_divide in Hp; [|exact Hn]. destruct Hp as (m & Hm & Hd). destruct (IH m ltac:(lia) ltac:(lia)) as (p & Hp1 & Hp2).
    exists p. split; [exact Hp1|]. eapply Z.divide_trans; eassumption.
Qed.
Lemma composite_small_factor n : 1 < n -> ~ prime n -> exists p, prime p /\ (p | n) /\ p * p <= n.
Proof.
  intros Hn Hp. apply not_prime_divide in Hp; [|exact Hn]. destruct Hp as (k & Hk & [m Hm]).
  assert (Hm1 : 1 < m) by nia.
  assert (X : forall k m, 1 < k -> k <= m -> n = m * k -> exists p, prime p /\ (p | n) /\ p * p <= n).
  { clear. intros k m Hk Hle Hn. destruct (prime_factor k Hk) as (p & Hp & [c Hc]). exists p. split; [exact Hp|].
    split; [exists (m * c); rewrite Hn, Hc; ring|]. assert (1 < p) by (destruct Hp; assumption). assert (p <= k) by (apply Z.divide_pos_le; [lia|exists c; exact Hc]). nia. }
  destruct (Z_le_gt_dec k m) as [H|H]; [apply (X k m); [lia|lia|exact Hm]|apply (X m k); [lia|lia|rewrite Hm; ring]].
Qed.

Definition zprod (l : list Z) : Z := fold_right Z.mul 1 l.
Lemma zprod_perm l l' : Permutation l l' -> zprod l = zprod l'.
Proof. induction 1 as [|x l l' _ IH|x y l|l l' l'' _ IH1 _ IH2]; cbn; [reflexivity|unfold zprod in IH; rewrite IH; reflexivity|ring|congruence]. Qed.
Lemma zprod_scale a p l : p <> 0 -> zprod (map (fun x => a * x mod p) l) mod p = (a ^ Z.of_nat (length l) * zprod l) mod p.
Proof.
  intros Hp. induction l as [|x l IH]; [reflexivity|]. cbn [map zprod fold_right]. fold (zprod l). fold (zprod (map (fun x => a * x mod p) l)).
  rewrite Zmult_mod, IH, Zmod_mod, <- Zmult_mod. f_equal. cbn [length]. rewrite Nat2Z.inj_succ, Z.pow_succ_r by lia. ring.
Qed.
Lemma fermat p a : prime p -> ~ (p | a) -> (a ^ (p - 1)) mod p = 1.
Proof.
  intros Hp Ha. assert (Hp1 : 1 < p) by (destruct Hp; assumption).
  set (l := map Z.of_nat (seq 1 (Z.to_nat (p - 1)))).
  assert (Hl : forall x, In x l <-> 1 <= x < p).
  { intros x. unfold l. rewrite in_map_iff. split.
    - intros (i & <- & Hi). apply in_seq in Hi. lia.
    - intros Hx. exists (Z.to_nat x). split; [lia|]. apply in_seq. lia. }
  assert (Hnd : NoDup l) by (unfold l; apply FinFun.Injective_map_NoDup; [intros i j; lia|apply seq_NoDup]).
  assert (Hlen : Z.of_nat (length l) = p - 1) by (unfold l; rewrite map_length, seq_length; lia).
  assert (Hnd' : NoDup (map (fun x => a * x mod p) l)).
  { assert (G : forall l', (forall x, In x l' -> 1 <= x < p) -> NoDup l' -> NoDup (map (fun x => a * x mod p) l')).
    { intros l' Hin Hn. induction Hn as [|x l' Hx Hn IH]; [constructor|]. cbn [map]. constructor; [|apply IH; intros y Hy; apply Hin; right; exact Hy].
      rewrite in_map_iff. intros (y & Hy & Hyin). apply Hx.
      assert (D : (p | a * (y - x))). { apply Z.mod_divide; [lia|]. rewrite Z.mul_sub_distr_l, Zminus_mod, Hy, Z.sub_diag. apply Zmod_0_l. }
      apply prime_mult in D; [|exact Hp]. destruct D as [D|D]; [contradiction|].
      pose proof (Hin x (or_introl eq_refl)). pose proof (Hin y (or_intror Hyin)).
      destruct D as [c Hc]. assert (c = 0) by nia. replace x with y by nia. exact Hyin. }
    apply G; [intros x Hx; apply Hl; exact Hx|exact Hnd]. }
  assert (Hperm : Permutation (map (fun x => a * x mod p) l) l).
  { apply NoDup_Permutation_bis; [exact Hnd'|rewrite map_length; lia|]. intros y Hy. apply in_map_iff in Hy. destruct Hy as (x & <- & Hx).
    apply Hl in Hx. apply Hl. pose proof (Z.mod_pos_bound (a * x) p ltac:(lia)). assert (a * x mod p <> 0); [|lia].
    intros E. apply Z.mod_divide in E; [|lia]. apply prime_mult in E; [|exact Hp]. destruct E as [E|E]; [contradiction|].
    apply Z.divide_pos_le in E; lia. }
  assert (Hcop : rel_prime p (zprod l)).
  { assert (G : forall l', (forall x, In x l' -> 1 <= x < p) -> rel_prime p (zprod l')).
    { intros l' Hin. induction l' as [|x l' IH]; cbn; [apply rel_prime_sym, rel_prime_1|].
      apply rel_prime_mult; [|apply IH; intros y Hy; apply Hin; right; exact Hy]. apply prime_rel_prime; [exact Hp|].
      intros D. pose proof (Hin x (or_introl eq_refl)). apply Z.divide_pos_le in D; lia. }
    apply G. intros x Hx. apply Hl; exact Hx. }
  pose proof (zprod_scale a p l ltac:(lia)) as S. rewrite (zprod_perm _ _ Hperm), Hlen in S.
  assert (D : (p | zprod l * (a ^ (p - 1) - 1))).
  { apply Z.mod_divide; [lia|]. replace (zprod l * (a ^ (p - 1) - 1)) with (a ^ (p - 1) * zprod l - zprod l) by ring.
    rewrite Zminus_mod, <- S, Z.sub_diag. apply Zmod_0_l. }
  apply Gauss in D; [|exact Hcop]. destruct D as [c Hc]. replace (a ^ (p - 1)) with (1 + c * p) by lia. rewrite Z_mod_plus_full. apply Z.mod_small; lia.
Qed.

Lemma pow_one_gcd a p k m : 1 < p -> 0 < k -> 0 < m -> (a ^ k) mod p = 1 -> (a ^ m) mod p = 1 -> (a ^ Z.gcd k m) mod p = 1.
Proof.
  intros Hp Hk Hm H1 H2. set (g := Z.gcd k m).
  assert (Hg : 0 < g). { pose proof (Z.gcd_nonneg k m). destruct (Z.eq_dec g 0) as [E|E]; [apply Z.gcd_eq_0 in E; lia | fold g in H; lia]. }
  destruct (Z.gcd_bezout k m g eq_refl) as (u & v & Huv).
  set (t := Z.abs u + Z.abs v). set (u' := u + t * m). set (v' := - v + t * k).
  assert (Ht : 0 <= t /\ - t <= u /\ v <= t) by (unfold t; clear; lia).
  assert (Hu' : 0 <= u') by (unfold u'; assert (t * 1 <= t * m) by (apply Z.mul_le_mono_nonneg_l; clear -Ht Hm; lia); clear -H Ht; lia).
  assert (Hv' : 0 <= v') by (unfold v'; assert (t * 1 <= t * k) by (apply Z.mul_le_mono_nonneg_l; clear -Ht Hk; lia); clear -H Ht; lia).
  assert (Heq : g + v' * m = u' * k) by (rewrite <- Huv; unfold u', v'; clear; ring).
  assert (P : forall j, 0 <= j -> forall x, 0 <= x -> (a ^ x) mod p = 1 -> (a ^ (x * j)) mod p = 1).
  { intros j Hj x Hx H. rewrite Z.pow_mul_r by lia. revert j Hj. apply natlike_ind; [rewrite Z.pow_0_r; apply Z.mod_small; lia|].
    intros j Hj IH. rewrite Z.pow_succ_r by exact Hj. rewrite Zmult_mod, H, IH. apply Z.mod_small; lia. }
  assert (A1 : (a ^ (k * u')) mod p = 1) by (apply P; try lia; exact H1).
  assert (A2 : (a ^ (m * v')) mod p = 1) by (apply P; try lia; exact H2).
  rewrite Z.mul_comm, <- Heq, Z.pow_add_r in A1 by (try apply Z.mul_nonneg_nonneg; clear -Hg Hv' Hm; lia).
  rewrite Zmult_mod, (Z.mul_comm v'), A2, Z.mul_1_r, Zmod_mod in A1. exact A1.
Qed.
Lemma pow_one_mul a p k j : 1 < p -> 0 <= k -> 0 <= j -> (a ^ k) mod p = 1 -> (a ^ (k * j)) mod p = 1.
Proof.
  intros Hp Hk Hj H. rewrite Z.pow_mul_r by lia. revert j Hj. apply natlike_ind; [rewrite Z.pow_0_r; apply Z.mod_small; lia|].
  intros j Hj IH. rewrite Z.pow_succ_r by exact Hj. rewrite Zmult_mod, H, IH. apply Z.mod_small; lia.
Qed.

(* one prime power q^e of n - 1, with a witness a *)
Lemma pocklington_step n p q e a : 1 < n -> prime p -> (p | n) -> prime q -> 0 <= e -> (q ^ e | n - 1) ->
  (q | n - 1) -> (a ^ (n - 1)) mod n = 1 -> Z.gcd (a ^ ((n - 1) / q) - 1) n = 1 -> (q ^ e | p - 1).
Proof.
  intros Hn Hp Hpn Hq He Hqe Hqn H1 Hg. assert (Hp1 : 1 < p) by (destruct Hp; assumption). assert (Hq1 : 1 < q) by (destruct Hq; assumption).
  destruct Hpn as [c Hc].
  assert (H1p : (a ^ (n - 1)) mod p = 1).
  { pose proof (Z_div_mod_eq_full (a ^ (n - 1)) n) as X. rewrite H1 in X. rewrite X. replace (n * (a ^ (n - 1) / n) + 1) with (1 + (c * (a ^ (n - 1) / n)) * p) by (rewrite Hc at 3; ring).
    rewrite Z_mod_plus_full. apply Z.mod_small; lia. }
  assert (Hpa : ~ (p | a)).
  { intros [d Hd]. assert (D : (p | a ^ (n - 1))).
    { replace (n - 1) with (Z.succ (n - 2)) by lia. rewrite Z.pow_succ_r by lia. exists (d * a ^ (n - 2)). rewrite Hd at 1. ring. }
    apply Z.mod_divide in D; lia. }
  pose proof (fermat p a Hp Hpa) as H2.
  pose proof (pow_one_gcd a p (n - 1) (p - 1) Hp1 ltac:(lia) ltac:(lia) H1p H2) as H3.
  set (g := Z.gcd (n - 1) (p - 1)) in *.
  destruct (Z.gcd_divide_l (n - 1) (p - 1)) as [m Hm]. fold g in Hm.
  assert (Hg0 : 0 < g). { pose proof (Z.gcd_nonneg (n - 1) (p - 1)) as Q. fold g in Q. destruct (Z.eq_dec g 0); [rewrite e0 in Hm; lia|lia]. }
  destruct (Zdivide_dec q m) as [[m' Hm']|Hnd].
  - exfalso. assert (Hm0 : 0 <= m') by nia.
    assert (E : (n - 1) / q = g * m') by (rewrite Hm, Hm'; replace (m' * q * g) with (g * m' * q) by ring; apply Z.div_mul; lia).
    assert (H4 : (a ^ ((n - 1) / q)) mod p = 1) by (rewrite E; apply pow_one_mul; try lia; exact H3).
    assert (D : (p | Z.gcd (a ^ ((n - 1) / q) - 1) n)).
    { apply Z.gcd_greatest; [|exists c; exact Hc]. apply Z.mod_divide; [lia|]. rewrite Zminus_mod, H4, (Z.mod_small 1 p) by lia. reflexivity. }
    rewrite Hg in D. apply Z.divide_1_r_nonneg in D; lia.
  - apply Z.divide_trans with g; [|apply Z.gcd_divide_r].
    assert (R : rel_prime (q ^ e) m).
    { clear -Hq Hnd He. revert e He. apply natlike_ind; [rewrite Z.pow_0_r; apply rel_prime_1|].
      intros e He IH. rewrite Z.pow_succ_r by exact He. apply rel_prime_sym, rel_prime_mult; apply rel_prime_sym; [apply prime_rel_prime; assumption|exact IH]. }
    rewrite Hm in Hqe. apply Gauss with m; assumption.
Qed.

Theorem pocklington n (parts : list (Z * Z * Z)) : 1 < n ->
  n < (zprod (map (fun '(q, e, a) => q ^ e) parts) + 1) * (zprod (map (fun '(q, e, a) => q ^ e) parts) + 1) ->
  0 < zprod (map (fun '(q, e, a) => q ^ e) parts) ->
  NoDup (map (fun '(q, e, a) => q) parts) ->
  Forall (fun '(q, e, a) => prime q /\ 0 <= e /\ (q ^ e | n - 1) /\ (q | n - 1) /\ (a ^ (n - 1)) mod n = 1 /\ Z.gcd (a ^ ((n - 1) / q) - 1) n = 1) parts ->
  prime n.
Proof.
  intros Hn Hsq HF0 Hnd Hall. destruct (prime_dec n) as [Hp|Hp]; [exact Hp|exfalso].
  destruct (composite_small_factor n Hn Hp) as (p & Hpp & Hpn & Hle). assert (Hp1 : 1 < p) by (destruct Hpp; assumption).
  assert (HF : (zprod (map (fun '(q, e, a) => q ^ e) parts) | p - 1)).
  { clear Hsq Hle HF0. induction Hall as [|[[q e] a] parts (Hq & He & Hqe & Hqn & H1 & Hg) Hall IH]; [apply Z.divide_1_l|].
    cbn [map zprod fold_right]. fold (zprod (map (fun '(q, e, a) => q ^ e) parts)). inversion Hnd as [|? ? Hnin Hnd']; subst.
    pose proof (pocklington_step n p q e a Hn Hpp Hpn Hq He Hqe Hqn H1 Hg) as D1. specialize (IH Hnd').
    destruct D1 as [x Hx].
    assert (R : rel_prime (zprod (map (fun '(q, e, a) => q ^ e) parts)) (q ^ e)).
    { clear -Hq He Hall Hnin. induction Hall as [|[[q' e'] a'] parts (Hq' & He' & _) Hall IH]; [apply rel_prime_1|].
      cbn [map zprod fold_right]. apply rel_prime_sym, rel_prime_mult; [|apply rel_prime_sym, IH; intros H; apply Hnin; right; exact H].
      assert (Hne : q <> q') by (intros ->; apply Hnin; left; reflexivity).
      assert (B : rel_prime q q').
      { apply prime_rel_prime; [exact Hq|]. intros D. apply Hne. apply prime_div_prime in D; assumption. }
      assert (G : forall k, 0 <= k -> rel_prime q (q' ^ k)).
      { apply natlike_ind; [rewrite Z.pow_0_r; apply rel_prime_sym, rel_prime_1|]. intros k Hk IHk. rewrite Z.pow_succ_r by exact Hk. apply rel_prime_mult; assumption. }
      specialize (G e' He'). clear -He G. revert e He. apply natlike_ind; [rewrite Z.pow_0_r; apply rel_prime_1|].
      intros k Hk IHk. rewrite Z.pow_succ_r by exact Hk. apply rel_prime_sym, rel_prime_mult; apply rel_prime_sym; assumption. }
    rewrite Hx in IH |- *. rewrite Z.mul_comm in IH. apply Gauss in IH; [|exact R].
    destruct IH as [y Hy]. exists y. rewrite Hy. ring. }
  apply Z.divide_pos_le in HF; [|lia]. set (F := zprod (map (fun '(q, e, a) => q ^ e) parts)) in *. clearbody F. clear -HF Hle Hsq HF0. nia.
Qed.

(* ---------- cheap modular powers: a Barrett-style reduction; only the congruence matters, so any quotient is sound ---------- *)
Definition red (n k mu t : Z) : Z := t - Z.shiftr (Z.shiftr t (k - 1) * mu) (k + 9) * n.
Fixpoint pw (n k mu b : Z) (e : positive) : Z :=
  match e with
  | xH => b
  | xO e' => pw n k mu (red n k mu (b * b)) e'
  | xI e' => red n k mu (b * pw n k mu (red n k mu (b * b)) e')
  end.
Lemma red_mod n k mu t : red n k mu t mod n = t mod n.
Proof. unfold red. rewrite <- Z.add_opp_r, <- Z.mul_opp_l. apply Z_mod_plus_full. Qed.
Lemma pow_mod_base a n e : 0 <= e -> ((a mod n) ^ e) mod n = (a ^ e) mod n.
Proof.
  revert e. apply natlike_ind; [reflexivity|]. intros e He IH. rewrite !Z.pow_succ_r by exact He.
  rewrite Zmult_mod, IH, Zmod_mod, <- Zmult_mod. reflexivity.
Qed.
Lemma pw_mod n k mu b e : pw n k mu b e mod n = (b ^ Zpos e) mod n.
Proof.
  revert b; induction e as [e IH|e IH|]; intros b; cbn [pw].
  - rewrite red_mod, Zmult_mod, IH, <- (pow_mod_base _ n), red_mod, pow_mod_base, <- Zmult_mod by lia.
    rewrite Pos2Z.inj_xI, Z.pow_add_r, Z.pow_mul_r, Z.pow_1_r, Z.pow_2_r by lia. f_equal. ring.
  - rewrite IH, <- (pow_mod_base _ n), red_mod, pow_mod_base by lia.
    rewrite Pos2Z.inj_xO, Z.pow_mul_r, Z.pow_2_r by lia. reflexivity.
  - rewrite Z.pow_1_r. reflexivity.
Qed.
Lemma bezout_gcd n x y u : 1 < n -> x mod n = y mod n -> (u * (y - 1)) mod n = 1 -> Z.gcd (x - 1) n = 1.
Proof.
  intros Hn Hxy Hu. apply Zgcd_1_rel_prime, bezout_rel_prime.
  assert (H : (u * (x - 1)) mod n = 1) by (rewrite Zmult_mod, Zminus_mod, Hxy, <- Zminus_mod, <- Zmult_mod; exact Hu).
  pose proof (Z_div_mod_eq_full (u * (x - 1)) n) as E. rewrite H in E.
  set (d := u * (x - 1) / n) in *. clearbody d. apply Bezout_intro with u (- d). lia.
Qed.

(* a certificate with three primes p1, p2, p3 of n - 1 = p1*p2*p3*e, one witness a shared by all, and inverses u1, u2, u3 *)
Definition cert3 (n k mu a : Z) (p1 p2 p3 e : positive) (u1 u2 u3 : Z) : bool :=
  (n - 1 =? Zpos (p1 * p2 * p3 * e)) &&
  (let b := pw n k mu a e in
   let a1 := pw n k mu b (p2 * p3) in
   let a2 := pw n k mu b (p1 * p3) in
   let a3 := pw n k mu b (p1 * p2) in
   ((pw n k mu a1 p1) mod n =? 1) && ((u1 * (a1 - 1)) mod n =? 1) && ((u2 * (a2 - 1)) mod n =? 1) && ((u3 * (a3 - 1)) mod n =? 1)).
Lemma pw_pw n k mu a e f : pw n k mu (pw n k mu a e) f mod n = (a ^ Zpos (e * f)) mod n.
Proof. rewrite pw_mod, <- pow_mod_base, pw_mod, pow_mod_base by lia. rewrite Pos2Z.inj_mul, Z.pow_mul_r by lia. reflexivity. Qed.
Lemma cert3_prime n k mu a p1 p2 p3 e u1 u2 u3 e1 e2 e3 :
  1 < n -> prime (Zpos p1) -> prime (Zpos p2) -> prime (Zpos p3) -> p1 <> p2 -> p1 <> p3 -> p2 <> p3 -> 0 <= e1 -> 0 <= e2 -> 0 <= e3 ->
  cert3 n k mu a p1 p2 p3 e u1 u2 u3 = true ->
  ((n - 1) mod (Zpos p1 ^ e1 * (Zpos p2 ^ e2 * Zpos p3 ^ e3)) =? 0) &&
  (n <? (Zpos p1 ^ e1 * (Zpos p2 ^ e2 * Zpos p3 ^ e3) + 1) * (Zpos p1 ^ e1 * (Zpos p2 ^ e2 * Zpos p3 ^ e3) + 1)) = true -> prime n.
Proof.
  intros Hn Hp1 Hp2 Hp3 H12 H13 H23 He1 He2 He3 C D. unfold cert3 in C. apply andb_prop in C. destruct C as [Ce C]. apply Z.eqb_eq in Ce.
  apply andb_prop in C. destruct C as [C C3]. apply andb_prop in C. destruct C as [C C2]. apply andb_prop in C. destruct C as [C0 C1].
  apply Z.eqb_eq in C0, C1, C2, C3. apply andb_prop in D. destruct D as [D1 D2]. apply Z.eqb_eq in D1. apply Z.ltb_lt in D2.
  assert (Pos1 : 0 < Zpos p1 ^ e1) by (apply Z.pow_pos_nonneg; lia). assert (Pos2 : 0 < Zpos p2 ^ e2) by (apply Z.pow_pos_nonneg; lia).
  assert (Pos3 : 0 < Zpos p3 ^ e3) by (apply Z.pow_pos_nonneg; lia).
  set (x1 := Zpos p1 ^ e1) in *. set (x2 := Zpos p2 ^ e2) in *. set (x3 := Zpos p3 ^ e3) in *.
  assert (PP : 0 < x1 * (x2 * x3)) by (repeat apply Z.mul_pos_pos; assumption).
  apply Z.mod_divide in D1; [|lia].
  assert (A0 : (a ^ (n - 1)) mod n = 1).
  { rewrite Ce. replace (p1 * p2 * p3 * e)%positive with (e * (p2 * p3) * p1)%positive by lia.
    rewrite pw_mod, <- pow_mod_base, pw_pw, pow_mod_base in C0 by lia. rewrite Pos2Z.inj_mul, Z.pow_mul_r by lia. exact C0. }
  assert (G : forall p r u, (p * r * e)%positive = (p1 * p2 * p3 * e)%positive -> (u * (pw n k mu (pw n k mu a e) r - 1)) mod n = 1 ->
     (Zpos p | n - 1) /\ Z.gcd (a ^ ((n - 1) / Zpos p) - 1) n = 1).
  { intros p r u Hpr Hu. split; [exists (Zpos (r * e)); rewrite Ce; lia|].
    assert (E : (n - 1) / Zpos p = Zpos (e * r)) by (rewrite Ce, <- Hpr; replace (p * r * e)%positive with (e * r * p)%positive by lia; rewrite (Pos2Z.inj_mul (e * r) p); apply Z.div_mul; lia).
    rewrite E. apply (bezout_gcd n _ (pw n k mu (pw n k mu a e) r) u Hn); [symmetry; apply pw_pw|exact Hu]. }
  destruct (G p1 (p2 * p3)%positive u1 ltac:(lia) C1) as [V1 W1]. destruct (G p2 (p1 * p3)%positive u2 ltac:(lia) C2) as [V2 W2].
  destruct (G p3 (p1 * p2)%positive u3 ltac:(lia) C3) as [V3 W3].
  apply (pocklington n [(Zpos p1, e1, a); (Zpos p2, e2, a); (Zpos p3, e3, a)] Hn); cbn [map zprod fold_right]; fold x1 x2 x3; rewrite ?Z.mul_1_r; [exact D2|exact PP| |].
  - repeat constructor; cbn; intuition congruence.
  - constructor; [refine (conj Hp1 (conj He1 (conj _ (conj V1 (conj A0 W1)))))|].
    { eapply Z.divide_trans; [|exact D1]. exists (x2 * x3). unfold x1; ring. }
    constructor; [refine (conj Hp2 (conj He2 (conj _ (conj V2 (conj A0 W2)))))|].
    { eapply Z.divide_trans; [|exact D1]. exists (x1 * x3). unfold x2; ring. }
    constructor; [refine (conj Hp3 (conj He3 (conj _ (conj V3 (conj A0 W3)))))|constructor].
    eapply Z.divide_trans; [|exact D1]. exists (x1 * x2). unfold x3; ring.
Qed.

(* one prime q, exactly dividing once, checked on its own *)
Definition part_ok (n k mu a : Z) (q m : positive) (u : Z) : bool :=
  (n - 1 =? Zpos (q * m)) && (let b := pw n k mu a m in ((pw n k mu b q) mod n =? 1) && ((u * (b - 1)) mod n =? 1)).
Lemma part_ok_correct n k mu a q m u : 1 < n -> prime (Zpos q) -> part_ok n k mu a q m u = true ->
  prime (Zpos q) /\ 0 <= 1 /\ (Zpos q ^ 1 | n - 1) /\ (Zpos q | n - 1) /\ (a ^ (n - 1)) mod n = 1 /\ Z.gcd (a ^ ((n - 1) / Zpos q) - 1) n = 1.
Proof.
  intros Hn Hq C. unfold part_ok in C. apply andb_prop in C. destruct C as [Ce C]. apply Z.eqb_eq in Ce. apply andb_prop in C. destruct C as [C0 C1].
  apply Z.eqb_eq in C0, C1. assert (D : (Zpos q | n - 1)) by (exists (Zpos m); rewrite Ce; lia).
  split; [exact Hq|]. split; [lia|]. split; [rewrite Z.pow_1_r; exact D|]. split; [exact D|]. split.
  - rewrite Ce, Pos.mul_comm, <- pw_pw with (k := k) (mu := mu). exact C0.
  - assert (E : (n - 1) / Zpos q = Zpos m) by (rewrite Ce, Pos.mul_comm, Pos2Z.inj_mul; apply Z.div_mul; lia).
    rewrite E. apply (bezout_gcd n _ (pw n k mu a m) u Hn); [symmetry; apply pw_mod|exact C1].
Qed.
