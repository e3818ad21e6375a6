(* UtilsFacts.v -- proofs about decompose, compose, chunks_count (C01-C04) *)
From Coq Require Import Znumtheory.
From Verif Require Import Base BaseFacts Algebra Utils Spec.

(* ---------- Horner evaluation ---------- *)
Definition horner (r : Z) (acc : Z) (ds : list Z) : Z := fold_left (fun a d => a * r + d) ds acc.

Lemma horner_app r acc l1 l2 : horner r acc (l1 ++ l2) = horner r (horner r acc l1) l2.
Proof. unfold horner; apply fold_left_app. Qed.

Lemma horner_acc r acc ds : horner r acc ds = acc * r ^ Z.of_nat (length ds) + horner r 0 ds.
Proof.
  revert acc; induction ds as [|d ds IH]; intros acc.
  - cbn. ring.
  - cbn [horner fold_left length]. fold (horner r (acc * r + d) ds). fold (horner r (0 * r + d) ds).
    rewrite IH, (IH (0 * r + d)). rewrite Nat2Z.inj_succ, Z.pow_succ_r by lia. ring.
Qed.

Lemma horner_bound r ds : 0 < r -> Forall (fun d => 0 <= d < r) ds -> 0 <= horner r 0 ds < r ^ Z.of_nat (length ds).
Proof.
  intros Hr H. induction H as [|d ds Hd Hds IH].
  - cbn. lia.
  - cbn [horner fold_left length]. fold (horner r (0 * r + d) ds). rewrite horner_acc.
    rewrite Nat2Z.inj_succ, Z.pow_succ_r by lia.
    assert (0 < r ^ Z.of_nat (length ds)) by (apply Z.pow_pos_nonneg; lia). nia.
Qed.

(* digits are determined by value and length *)
Lemma horner_inj r ds1 ds2 : 0 < r ->
  Forall (fun d => 0 <= d < r) ds1 -> Forall (fun d => 0 <= d < r) ds2 ->
  length ds1 = length ds2 -> horner r 0 ds1 = horner r 0 ds2 -> ds1 = ds2.
Proof.
  intros Hr H1; revert ds2; induction H1 as [|d ds1 Hd Hds IH]; intros ds2 H2 Hl H.
  - destruct ds2; [reflexivity|discriminate].
  - destruct ds2 as [|e ds2]; [discriminate|]. inversion H2 as [|? ? He Hes]; subst.
    cbn [horner fold_left] in H. fold (horner r (0*r+d) ds1) in H. fold (horner r (0*r+e) ds2) in H.
    rewrite (horner_acc r (0*r+d)), (horner_acc r (0*r+e)) in H.
    assert (Hlen : length ds1 = length ds2) by (cbn in Hl; lia). rewrite Hlen in H.
    pose proof (horner_bound r ds1 Hr Hds) as B1. pose proof (horner_bound r ds2 Hr Hes) as B2.
    rewrite Hlen in B1.
    set (P := r ^ Z.of_nat (length ds2)) in *.
    assert (d = e) by nia. subst e.
    f_equal. apply IH; [exact Hes | exact Hlen | lia].
Qed.

Lemma radix_value_horner b ds : radix_value b ds = horner (2 ^ b) 0 ds.
Proof. reflexivity. Qed.

(* ---------- bytes ---------- *)
Lemma bytes_le_length n z : length (bytes_le n z) = n.
Proof. revert z; induction n as [|n IH]; intros z; cbn; [reflexivity | now rewrite IH]. Qed.

Lemma bytes_le_range n z : Forall (fun d => 0 <= d < 256) (bytes_le n z).
Proof.
  revert z; induction n as [|n IH]; intros z; cbn; constructor; [apply Z.mod_pos_bound; lia | apply IH].
Qed.

Lemma bytes_le_value n z : horner 256 0 (rev (bytes_le n z)) = z mod 256 ^ Z.of_nat n.
Proof.
  revert z; induction n as [|n IH]; intros z.
  - cbn. now rewrite Z.mod_1_r.
  - cbn [bytes_le rev]. rewrite horner_app, IH. cbn [horner fold_left].
    rewrite Nat2Z.inj_succ, Z.pow_succ_r by lia.
    rewrite Z.rem_mul_r by (try lia; apply Z.pow_pos_nonneg; lia). ring.
Qed.

Lemma to_bytes_be_length K z : length (to_bytes_be K z) = (8 * limbs K)%nat.
Proof. unfold to_bytes_be; rewrite rev_length; apply bytes_le_length. Qed.

Lemma to_bytes_be_range K z : Forall (fun d => 0 <= d < 256) (to_bytes_be K z).
Proof. unfold to_bytes_be; apply Forall_rev, bytes_le_range. Qed.

Lemma to_bytes_be_value K (m : scalar K) : horner 256 0 (to_bytes_be K (into_bigint m)) = sval m.
Proof.
  unfold to_bytes_be, into_bigint. rewrite bytes_le_value.
  apply Z.mod_small. pose proof (sval_range m). pose proof (modulus_fits K).
  replace (256 ^ Z.of_nat (8 * limbs K)) with (2 ^ (64 * Z.of_nat (limbs K))); [lia|].
  change 256 with (2 ^ 8). rewrite <- Z.pow_mul_r by lia. f_equal; lia.
Qed.

Lemma from_be_bytes_horner K bytes : @from_be_bytes_mod_order K bytes = of_Z (horner 256 0 bytes).
Proof. reflexivity. Qed.

(* ---------- 4-bit digits ---------- *)
Lemma shiftr4 b : Z.shiftr b 4 = b / 16.
Proof. rewrite Z.shiftr_div_pow2 by lia. reflexivity. Qed.
Lemma land15 b : Z.land b 15 = b mod 16.
Proof. change 15 with (Z.ones 4). rewrite Z.land_ones by lia. reflexivity. Qed.
Lemma shiftr8 b : Z.shiftr b 8 = b / 256.
Proof. rewrite Z.shiftr_div_pow2 by lia. reflexivity. Qed.
Lemma land255 b : Z.land b 255 = b mod 256.
Proof. change 255 with (Z.ones 8). rewrite Z.land_ones by lia. reflexivity. Qed.

Definition nibbles (bytes : list Z) : list Z := flat_map (fun b => [Z.shiftr b 4; Z.land b 15]) bytes.

Lemma nibbles_value bytes acc : horner 16 acc (nibbles bytes) = horner 256 acc bytes.
Proof.
  revert acc; induction bytes as [|b bytes IH]; intros acc; [reflexivity|].
  unfold nibbles; cbn [flat_map app horner fold_left].
  fold (nibbles bytes). fold (horner 16 ((acc * 16 + Z.shiftr b 4) * 16 + Z.land b 15) (nibbles bytes)).
  fold (horner 256 (acc * 256 + b) bytes). rewrite IH. f_equal.
  rewrite shiftr4, land15. pose proof (Z_div_mod_eq_full b 16). lia.
Qed.
Lemma nibbles_range bytes : Forall (fun d => 0 <= d < 256) bytes -> Forall (fun d => 0 <= d < 16) (nibbles bytes).
Proof.
  induction 1 as [|b bytes Hb Hbs IH]; [constructor|].
  unfold nibbles; cbn [flat_map app]. constructor; [|constructor; [|exact IH]].
  - rewrite shiftr4. split; [apply Z.div_pos; lia | apply Z.div_lt_upper_bound; lia].
  - rewrite land15. apply Z.mod_pos_bound; lia.
Qed.
Lemma nibbles_length bytes : length (nibbles bytes) = (2 * length bytes)%nat.
Proof. induction bytes as [|b bytes IH]; [reflexivity|]. change (nibbles (b::bytes)) with (Z.shiftr b 4 :: Z.land b 15 :: nibbles bytes); cbn [length]; rewrite IH; lia. Qed.

(* lists of even length, two elements at a time *)
Lemma list_ind2 {A} (P : list A -> Prop) :
  P [] -> (forall a, P [a]) -> (forall a b l, P l -> P (a :: b :: l)) -> forall l, P l.
Proof.
  intros H0 H1 H2. fix F 1. intros [|a [|b l]]; [exact H0 | apply H1 | apply H2, F].
Qed.

Lemma add_u16_Ok pf a b : a + b < 65536 -> add_u16 pf a b = Ok (a + b).
Proof. intros H; unfold add_u16. change (2 ^ 16) with 65536. destruct (Z.ltb_spec (a + b) 65536); [reflexivity|lia]. Qed.

(* ---------- 16-bit digits ---------- *)
Lemma decompose16_step_pair pf a b : 0 <= a < 256 -> 0 <= b < 256 ->
  decompose16_step pf [a; b] = Ok (a * 256 + b).
Proof.
  intros Ha Hb. unfold decompose16_step; cbn [idx nth_error bind length Nat.ltb Nat.leb].
  unfold shl_u16. rewrite as_u16_small by lia. rewrite add_u16_Ok by lia. reflexivity.
Qed.

Lemma decompose16_correct pf bytes : Nat.Even (length bytes) -> Forall (fun d => 0 <= d < 256) bytes ->
  exists ds, mapM (decompose16_step pf) (chunks2 bytes) = Ok ds /\
    (forall acc, horner 65536 acc ds = horner 256 acc bytes) /\
    Forall (fun d => 0 <= d < 65536) ds /\ (2 * length ds = length bytes)%nat.
Proof.
  intros He. induction bytes as [|a|a b l IH] using list_ind2; [| destruct He as [k Hk]; cbn in Hk; lia |].
  - intros _. exists []. repeat split; constructor.
  - intros H. inversion H as [|? ? Ha H']; subst. inversion H' as [|? ? Hb Hl]; subst.
    assert (He' : Nat.Even (length l)) by (destruct He as [k Hk]; exists (k - 1)%nat; cbn in Hk; lia).
    destruct (IH He' Hl) as (ds & Hm & Hv & Hr & Hlen).
    exists (a * 256 + b :: ds). cbn [chunks2 mapM]. rewrite decompose16_step_pair by assumption.
    cbn [bind]. rewrite Hm. cbn [bind]. split; [reflexivity|]. split; [|split].
    + intros acc. cbn [horner fold_left].
      fold (horner 65536 (acc * 65536 + (a * 256 + b)) ds). rewrite Hv.
      unfold horner. f_equal. lia.
    + constructor; [lia | exact Hr].
    + cbn [length]. lia.
Qed.

(* ---------- decompose ---------- *)
Lemma supported_pos b : supported b -> 0 < b.
Proof. intros [->|[->| ->]]; lia. Qed.

Theorem decompose_spec pf K (m : scalar K) b : supported b ->
  exists ds, decompose pf m b = Ok ds /\ digits_ok b ds /\ radix_value b ds = sval m /\
             b * Z.of_nat (length ds) = 64 * Z.of_nat (limbs K).
Proof.
  pose proof (to_bytes_be_length K (into_bigint m)) as HL.
  pose proof (to_bytes_be_range K (into_bigint m)) as HR.
  pose proof (to_bytes_be_value K m) as HV.
  unfold decompose. set (bytes := to_bytes_be K (into_bigint m)) in *.
  intros [->|[->| ->]]; cbn [Z.eqb Pos.eqb].
  - exists (nibbles bytes). split; [reflexivity|]. split; [apply nibbles_range, HR|].
    split; [unfold radix_value; change (2 ^ 4) with 16; fold (horner 16 0 (nibbles bytes)); rewrite nibbles_value; exact HV|].
    rewrite nibbles_length, HL. lia.
  - exists bytes. repeat split; [exact HR | exact HV | rewrite HL; lia].
  - destruct (decompose16_correct pf bytes) as (ds & Hm & Hv & Hr & Hlen); [rewrite HL; exists (4 * limbs K)%nat; lia | exact HR |].
    exists ds. repeat split; [exact Hm | exact Hr | | lia].
    unfold radix_value; change (2 ^ 16) with 65536. fold (horner 65536 0 ds). rewrite Hv. exact HV.
Qed.

Theorem decompose_unsupported pf K (m : scalar K) b : ~ supported b -> decompose pf m b = Err (UnexpectedBase b).
Proof.
  intros H; unfold decompose, supported in *.
  destruct (Z.eqb_spec b 4); [tauto|]. destruct (Z.eqb_spec b 8); [tauto|]. destruct (Z.eqb_spec b 16); [tauto|reflexivity].
Qed.

Theorem compose_unsupported pf K ds b : ~ supported b -> @compose pf K ds b = Err (UnexpectedBase b).
Proof.
  intros H; unfold compose, supported in *.
  destruct (Z.eqb_spec b 4); [tauto|]. destruct (Z.eqb_spec b 8); [tauto|]. destruct (Z.eqb_spec b 16); [tauto|reflexivity].
Qed.

(* ---------- compose ---------- *)
Lemma compose4_step_pair pf a b : 0 <= a < 16 -> 0 <= b < 16 -> compose4_step pf [a; b] = Ok (a * 16 + b).
Proof.
  intros Ha Hb. unfold compose4_step; cbn [idx nth_error bind]. unfold shl_u16.
  change (2 ^ 4) with 16. rewrite as_u16_small by lia. rewrite add_u16_Ok by lia. cbn [bind].
  rewrite as_u8_small by lia. reflexivity.
Qed.

Lemma compose4_correct pf ds : Nat.Even (length ds) -> Forall (fun d => 0 <= d < 16) ds ->
  exists bytes, mapM (compose4_step pf) (chunks2 ds) = Ok bytes /\
    (forall acc, horner 256 acc bytes = horner 16 acc ds).
Proof.
  intros He. induction ds as [|a|a b l IH] using list_ind2; [| destruct He as [k Hk]; cbn in Hk; lia |].
  - intros _. exists []. split; reflexivity.
  - intros H. inversion H as [|? ? Ha H']; subst. inversion H' as [|? ? Hb Hl]; subst.
    assert (He' : Nat.Even (length l)) by (destruct He as [k Hk]; exists (k - 1)%nat; cbn in Hk; lia).
    destruct (IH He' Hl) as (bytes & Hm & Hv).
    exists (a * 16 + b :: bytes). cbn [chunks2 mapM]. rewrite compose4_step_pair by assumption.
    cbn [bind]. rewrite Hm. cbn [bind]. split; [reflexivity|].
    intros acc. cbn [horner fold_left].
    fold (horner 256 (acc * 256 + (a * 16 + b)) bytes). rewrite Hv.
    unfold horner. f_equal. lia.
Qed.

Lemma map_as_u8_id ds : Forall (fun d => 0 <= d < 256) ds -> map as_u8 ds = ds.
Proof. induction 1 as [|d ds Hd Hds IH]; [reflexivity|]. cbn. rewrite IH, as_u8_small by lia. reflexivity. Qed.

Lemma compose16_bytes ds acc : Forall (fun d => 0 <= d < 65536) ds ->
  horner 256 acc (flat_map (fun d => [as_u8 (Z.shiftr d 8); as_u8 (Z.land d 255)]) ds) = horner 65536 acc ds.
Proof.
  intros H; revert acc; induction H as [|d ds Hd Hds IH]; intros acc; [reflexivity|].
  cbn [flat_map app horner fold_left].
  match goal with |- fold_left _ ?l ?a = _ => fold (horner 256 a l) end.
  fold (horner 65536 (acc * 65536 + d) ds). rewrite IH. f_equal.
  rewrite shiftr8, land255.
  rewrite as_u8_small by (split; [apply Z.div_pos; lia | apply Z.div_lt_upper_bound; lia]).
  rewrite as_u8_small by (apply Z.mod_pos_bound; lia).
  pose proof (Z_div_mod_eq_full d 256). lia.
Qed.

Theorem compose_in_range pf K ds b : supported b -> digits_ok b ds -> (b = 4 -> Nat.Even (length ds)) ->
  @compose pf K ds b = Ok (of_Z (radix_value b ds)).
Proof.
  unfold compose, digits_ok. intros [->|[->| ->]] Hd He; cbn [Z.eqb Pos.eqb].
  - specialize (He eq_refl).
    assert (Hm : (length ds mod 2 = 0)%nat) by (destruct He as [k ->]; rewrite Nat.mul_comm; apply Nat.mod_mul; lia).
    rewrite Hm. cbn [Nat.eqb].
    destruct (compose4_correct pf ds He Hd) as (bytes & -> & Hv). cbn [bind].
    rewrite from_be_bytes_horner, Hv. reflexivity.
  - rewrite map_as_u8_id by exact Hd. reflexivity.
  - rewrite from_be_bytes_horner, compose16_bytes by exact Hd. reflexivity.
Qed.

Theorem compose_odd4 pf K ds : Nat.Odd (length ds) -> @compose pf K ds 4 = Err InvalidDecomposition.
Proof.
  intros [k Hk]. unfold compose; cbn [Z.eqb Pos.eqb].
  assert (Hm : (length ds mod 2 = 1)%nat) by (rewrite Hk, Nat.mul_comm, Nat.add_comm, Nat.mod_add; [reflexivity|lia]).
  rewrite Hm. reflexivity.
Qed.

Theorem decompose_compose pf pf' K (m : scalar K) b : supported b ->
  exists ds, decompose pf m b = Ok ds /\ compose pf' ds b = Ok m.
Proof.
  intros Hb. destruct (decompose_spec pf K m b Hb) as (ds & Hd & Hr & Hv & Hl).
  exists ds. split; [exact Hd|]. rewrite compose_in_range; [rewrite Hv, of_Z_sval; reflexivity | exact Hb | exact Hr |].
  intros ->. exists (8 * limbs K)%nat. lia.
Qed.

(* decompose does not depend on the build profile *)
Lemma decompose_profile pf pf' K (m : scalar K) b : decompose pf m b = decompose pf' m b.
Proof.
  assert (Hdec : supported b \/ ~ supported b) by (unfold supported; lia).
  destruct Hdec as [Hb|Hb]; [|rewrite !decompose_unsupported by exact Hb; reflexivity].
  destruct (decompose_spec pf K m b Hb) as (ds & -> & Hr & Hv & Hl).
  destruct (decompose_spec pf' K m b Hb) as (ds' & -> & Hr' & Hv' & Hl').
  f_equal. apply (horner_inj (2 ^ b)); try assumption.
  - apply Z.pow_pos_nonneg; pose proof (supported_pos b Hb); lia.
  - pose proof (supported_pos b Hb). nia.
  - unfold radix_value in *. unfold horner. congruence.
Qed.

Lemma compose_profile_in_range pf pf' K ds b : supported b -> digits_ok b ds ->
  @compose pf K ds b = compose pf' ds b.
Proof.
  intros Hb Hd. destruct (Nat.Even_or_Odd (length ds)) as [He|Ho].
  - rewrite !compose_in_range; auto.
  - destruct Hb as [->|Hb]; [rewrite !compose_odd4 by exact Ho; reflexivity|].
    rewrite !compose_in_range; unfold supported; try tauto; lia.
Qed.

(* ---------- chunks_count ---------- *)
Lemma modulus_bit_size_pos K : 1 < modulus_bit_size K.
Proof.
  unfold modulus_bit_size. pose proof (@modulus_gt1 K). pose proof (Z.log2_pos (modulus K)). lia.
Qed.

Lemma modulus_bit_size_bounds K : 2 ^ (modulus_bit_size K - 1) <= modulus K < 2 ^ modulus_bit_size K.
Proof.
  unfold modulus_bit_size. pose proof (@modulus_gt1 K). pose proof (Z.log2_spec (modulus K)).
  replace (Z.log2 (modulus K) + 1 - 1) with (Z.log2 (modulus K)) by lia.
  replace (Z.log2 (modulus K) + 1) with (Z.succ (Z.log2 (modulus K))) by lia. lia.
Qed.

Lemma modulus_bit_size_le K : modulus_bit_size K <= 64 * Z.of_nat (limbs K).
Proof.
  pose proof (modulus_fits K). pose proof (modulus_bit_size_bounds K). pose proof (modulus_bit_size_pos K).
  destruct (Z_le_gt_dec (modulus_bit_size K) (64 * Z.of_nat (limbs K))) as [H'|H']; [exact H'|].
  assert (2 ^ (64 * Z.of_nat (limbs K)) <= 2 ^ (modulus_bit_size K - 1)) by (apply Z.pow_le_mono_r; lia).
  lia.
Qed.

Lemma ceil_div_spec a b : 0 < b -> is_ceil_div a b ((a + b - 1) / b).
Proof.
  intros Hb. unfold is_ceil_div. pose proof (Z_div_mod_eq_full (a + b - 1) b).
  pose proof (Z.mod_pos_bound (a + b - 1) b Hb). nia.
Qed.

Lemma is_ceil_div_unique a b q q' : 0 < b -> is_ceil_div a b q -> is_ceil_div a b q' -> q = q'.
Proof. unfold is_ceil_div. intros. nia. Qed.

Theorem chunks_count_exact K b : 0 < b -> exists q,
  is_ceil_div (modulus_bit_size K) b q /\ 0 < q /\ chunks_count K b = Ok (q mod 256).
Proof.
  intros Hb. exists ((modulus_bit_size K + b - 1) / b).
  pose proof (ceil_div_spec (modulus_bit_size K) b Hb) as Hc. split; [exact Hc|].
  pose proof (modulus_bit_size_pos K). split; [unfold is_ceil_div in Hc; nia|].
  unfold chunks_count. destruct (Z.eqb_spec b 0); [lia|]. reflexivity.
Qed.

Lemma chunks_count_zero K : chunks_count K 0 = Panic.
Proof. reflexivity. Qed.

Lemma chunks_count_range K b n : chunks_count K b = Ok n -> 0 <= n < 256.
Proof.
  unfold chunks_count. destruct (b =? 0); [discriminate|]. intros H; injection H as <-.
  unfold as_u8. apply Z.mod_pos_bound. lia.
Qed.

(* the number of chunks produced by decompose is chunks_count iff the field fills its limbs up to less than one chunk
   (as long as the count fits the u8) *)
Theorem chunks_count_matches pf K (m : scalar K) b ds : supported b -> 64 * Z.of_nat (limbs K) < 256 * b ->
  decompose pf m b = Ok ds ->
  (chunks_count K b = Ok (Z.of_nat (length ds)) <-> 64 * Z.of_nat (limbs K) - b < modulus_bit_size K).
Proof.
  intros Hb Hfit Hd. pose proof (supported_pos b Hb) as Hpos.
  destruct (decompose_spec pf K m b Hb) as (ds' & Hd' & _ & _ & Hl).
  rewrite Hd in Hd'; injection Hd' as <-.
  destruct (chunks_count_exact K b Hpos) as (q & Hq & Hq0 & Hc). rewrite Hc.
  pose proof (modulus_bit_size_le K) as Hle. unfold is_ceil_div in Hq.
  set (n := Z.of_nat (length ds)) in *.
  assert (Hn : n < 256) by nia.
  assert (Hqn : q - 1 < n) by nia.
  rewrite Z.mod_small by lia. split; intros H.
  - injection H as ->. nia.
  - f_equal. nia.
Qed.
