(* PropHash.v -- C40: generators derived from a label by hashing *)
From Coq Require Import String Ascii.
From Verif Require Import Base BaseFacts Algebra Utils UtilsFacts Setup Instance.
Open Scope list_scope.

(* ---------- specification ---------- *)
(* the bytes of an ASCII string *)
Fixpoint ascii_bytes (s : string) : list Z :=
  match s with EmptyString => [] | String c s' => Z.of_N (N_of_ascii c) :: ascii_bytes s' end.
(* the eight bytes of a u64, least significant first *)
Definition le64 (j : Z) : list Z := map (fun i => j / 2 ^ (8 * Z.of_nat i) mod 256) (seq 0 8).
(* what is hashed in attempt number j: label-tag, then label-tag-attempt-j *)
Definition hashed (label : list Z) (tag : string) (j : nat) : list Z :=
  if Nat.eqb j 0 then label ++ ascii_bytes tag else label ++ ascii_bytes tag ++ ascii_bytes "-attempt-" ++ le64 (Z.of_nat j).
(* attempt k is the first one that decodes, and decodes to x *)
Definition first_success {T} (digest : list Z -> list Z) (decode : list Z -> option T) (label : list Z) (tag : string) (k : nat) (x : T) : Prop :=
  decode (digest (hashed label tag k)) = Some x /\ forall k', (k' < k)%nat -> decode (digest (hashed label tag k')) = None.

(* ---------- facts ---------- *)
Lemma le64_bytes j : u64_to_le_bytes j = le64 j.
Proof.
  unfold u64_to_le_bytes, le64. assert (G : forall n z k, (forall i, z / 2 ^ (8 * Z.of_nat i) = j / 2 ^ (8 * Z.of_nat (k + i))) ->
    bytes_le n z = map (fun i => j / 2 ^ (8 * Z.of_nat i) mod 256) (seq k n)).
  { induction n as [|n IH]; intros z k H; [reflexivity|]. cbn [bytes_le seq map]. f_equal.
    - specialize (H 0%nat). change (2 ^ (8 * Z.of_nat 0)) with 1 in H. rewrite Z.div_1_r, Nat.add_0_r in H. rewrite H. reflexivity.
    - apply IH. intros i. change 256 with (2 ^ 8). rewrite Z.div_div by (try apply Z.pow_pos_nonneg; lia). rewrite <- Z.pow_add_r by lia.
      replace (8 + 8 * Z.of_nat i) with (8 * Z.of_nat (S i)) by lia. rewrite H. do 3 f_equal. lia. }
  apply (G 8%nat j 0%nat). intros i. reflexivity.
Qed.
Lemma le64_inj j j' : 0 <= j < 2 ^ 64 -> 0 <= j' < 2 ^ 64 -> le64 j = le64 j' -> j = j'.
Proof.
  intros Hj Hj' H. rewrite <- !le64_bytes in H. unfold u64_to_le_bytes in H.
  pose proof (bytes_le_value 8 j) as V. pose proof (bytes_le_value 8 j') as V'. rewrite H, V' in V.
  change (256 ^ Z.of_nat 8) with (2 ^ 64) in V. rewrite !Z.mod_small in V by assumption. congruence.
Qed.

Lemma suffix_inj {A} (l1 l2 s1 s2 : list A) : l1 ++ s1 = l2 ++ s2 -> length s1 = length s2 -> l1 = l2 /\ s1 = s2.
Proof.
  revert l2; induction l1 as [|a l1 IH]; intros [|b l2] H Hl; cbn [app] in H.
  - split; [reflexivity|exact H].
  - subst s1. cbn [length] in Hl. rewrite app_length in Hl. lia.
  - subst s2. cbn [length] in Hl. rewrite app_length in Hl. lia.
  - injection H as -> H. destruct (IH l2 H Hl) as [-> ->]. split; reflexivity.
Qed.

Lemma loop_spec {T} digest (decode : list Z -> option T) label tag fuel : forall j g,
  (forall k', (k' < S j)%nat -> g = None -> decode (digest (hashed label tag k')) = None) ->
  match try_and_incr_loop digest decode (label ++ ascii_bytes tag) fuel g (Z.of_nat (S j)) with
  | Some x => g = Some x \/ (g = None /\ exists k, (j < k <= j + fuel)%nat /\ first_success digest decode label tag k x)
  | None => g = None /\ forall k, (k <= j + fuel)%nat -> decode (digest (hashed label tag k)) = None
  end.
Proof.
  induction fuel as [|fuel IH]; intros j g Hprev; cbn [try_and_incr_loop].
  - destruct g as [x|]; [left; reflexivity|]. split; [reflexivity|]. intros k Hk. apply Hprev; [lia|reflexivity].
  - destruct g as [x|]; [left; reflexivity|]. 
    assert (Hin : (label ++ ascii_bytes tag) ++ attempt_tag ++ u64_to_le_bytes (Z.of_nat (S j)) = hashed label tag (S j)).
    { unfold hashed. cbn [Nat.eqb]. rewrite le64_bytes, <- app_assoc. reflexivity. }
    rewrite Hin. replace (Z.of_nat (S j) + 1) with (Z.of_nat (S (S j))) by lia.
    specialize (IH (S j) (decode (digest (hashed label tag (S j))))).
    destruct (try_and_incr_loop _ _ _ fuel _ _) as [x|].
    + right. split; [reflexivity|]. destruct IH as [H|(H & k & Hk & Hf)].
      * intros k' Hk' Hn. destruct (Nat.eq_dec k' (S j)) as [->|]; [exact Hn|]. apply Hprev; [lia|reflexivity].
      * exists (S j). split; [lia|]. split; [exact H|]. intros k' Hk'. apply Hprev; [lia|reflexivity].
      * exists k. split; [lia|exact Hf].
    + destruct IH as [H1 H2].
      * intros k' Hk' Hn. destruct (Nat.eq_dec k' (S j)) as [->|]; [exact Hn|]. apply Hprev; [lia|reflexivity].
      * split; [reflexivity|]. intros k Hk. apply H2. lia.
Qed.
Lemma first_success_unique {T} digest (decode : list Z -> option T) label tag k k' x x' :
  first_success digest decode label tag k x -> first_success digest decode label tag k' x' -> k = k' /\ x = x'.
Proof.
  intros [H1 H2] [H1' H2']. destruct (Nat.lt_trichotomy k k') as [H|[->|H]].
  - rewrite (H2' k H) in H1. discriminate.
  - split; congruence.
  - rewrite (H2 k' H) in H1'. discriminate.
Qed.
Lemma search_exact {T} digest (decode : list Z -> option T) label tag fuel :
  let r := try_and_incr_loop digest decode (label ++ ascii_bytes tag) fuel (decode (digest (label ++ ascii_bytes tag))) 1 in
  (forall x, r = Some x <-> exists k, (k <= fuel)%nat /\ first_success digest decode label tag k x) /\
  (r = None <-> forall k, (k <= fuel)%nat -> decode (digest (hashed label tag k)) = None).
Proof.
  intros r.
  pose proof (loop_spec digest decode label tag fuel 0 (decode (digest (hashed label tag 0)))) as L.
  change (try_and_incr_loop digest decode (label ++ ascii_bytes tag) fuel (decode (digest (hashed label tag 0))) (Z.of_nat 1)) with r in L.
  assert (P : forall k', (k' < 1)%nat -> decode (digest (hashed label tag 0)) = None -> decode (digest (hashed label tag k')) = None)
    by (intros k' Hk' H; replace k' with 0%nat by lia; exact H).
  specialize (L P). clearbody r. destruct r as [x|].
  - assert (F : exists k, (k <= fuel)%nat /\ first_success digest decode label tag k x).
    { destruct L as [H|(_ & k & Hk & Hf)]; [exists 0%nat; split; [lia|split; [exact H|intros; lia]]|exists k; split; [lia|exact Hf]]. }
    split; [intros x'; split|split].
    + intros H. injection H as <-. exact F.
    + intros (k' & _ & Hk'). destruct F as (k & _ & Hk). destruct (first_success_unique _ _ _ _ _ _ _ _ Hk Hk') as [_ ->]. reflexivity.
    + discriminate.
    + intros H. destruct F as (k & Hk & Hs & _). rewrite (H k Hk) in Hs. discriminate.
  - destruct L as [_ L]. split; [intros x'; split|split].
    + discriminate.
    + intros (k & Hk & Hs & _). rewrite L in Hs by lia. discriminate.
    + intros _ k Hk. apply L. lia.
    + reflexivity.
Qed.

(* ===== C40 ===== *)
(* The search: `fuel` further attempts are made.  It returns x exactly when x is the point of the first attempt that decodes
   (and there is one among them); otherwise it is still searching. *)
Theorem C40_hash_to_group_first_success :
  forall T U (digest : list Z -> list Z) (decode : list Z -> option T) (clear : T -> U) fuel label tag,
  let r := affine_group_elem_from_try_and_incr digest decode clear fuel (label ++ ascii_bytes tag) in
  (forall y, r = Some y <-> exists k x, (k <= fuel)%nat /\ first_success digest decode label tag k x /\ y = clear x) /\
  (r = None <-> forall k, (k <= fuel)%nat -> decode (digest (hashed label tag k)) = None).
Proof.
  intros T U digest decode clear fuel label tag r. unfold r, affine_group_elem_from_try_and_incr.
  destruct (search_exact digest decode label tag fuel) as [S N]. cbv zeta in S, N.
  destruct (try_and_incr_loop _ _ _ _ _ _) as [x|]; (split; [intros y; split|]).
  - intros H. injection H as <-. destruct (proj1 (S x) eq_refl) as (k & Hk & Hf). exists k, x. auto.
  - intros (k & x' & Hk & Hf & ->). assert (H : Some x = Some x') by (apply S; exists k; split; assumption). congruence.
  - split; [discriminate|]. intros H. apply N in H. discriminate.
  - discriminate.
  - intros (k & x' & Hk & Hf & ->). assert (H : None = Some x') by (apply S; exists k; split; assumption). discriminate.
  - split; [intros _; apply N; reflexivity|reflexivity].
Qed.
Theorem C40_hash_to_field_first_success :
  forall T (digest : list Z -> list Z) (decode : list Z -> option T) fuel label tag,
  let r := field_elem_from_try_and_incr digest decode fuel (label ++ ascii_bytes tag) in
  (forall x, r = Some x <-> exists k, (k <= fuel)%nat /\ first_success digest decode label tag k x) /\
  (r = None <-> forall k, (k <= fuel)%nat -> decode (digest (hashed label tag k)) = None).
Proof. intros T digest decode fuel label tag. exact (search_exact digest decode label tag fuel). Qed.

(* EncryptionGens::new: G from the tag " : G" in the first group, H from the tag " : H" in the second *)
Theorem C40_encryption_gens :
  forall (E : pairing) T1 T2 digest (decode1 : list Z -> option T1) (clear1 : T1 -> G1 E) (decode2 : list Z -> option T2) (clear2 : T2 -> G2 E) fuel label gens,
  encryption_gens_new digest decode1 clear1 decode2 clear2 fuel label = Some gens <->
  exists k1 x1 k2 x2, (k1 <= fuel)%nat /\ (k2 <= fuel)%nat /\
    first_success digest decode1 label " : G" k1 x1 /\ first_success digest decode2 label " : H" k2 x2 /\
    gens = EncryptionGens (clear1 x1) (clear2 x2).
Proof.
  intros E T1 T2 digest decode1 clear1 decode2 clear2 fuel label gens. unfold encryption_gens_new.
  change tag_G with (ascii_bytes " : G"). change tag_H with (ascii_bytes " : H").
  destruct (C40_hash_to_group_first_success T1 (G1 E) digest decode1 clear1 fuel label " : G") as [S1 _].
  destruct (C40_hash_to_group_first_success T2 (G2 E) digest decode2 clear2 fuel label " : H") as [S2 _]. cbv zeta in S1, S2.
  destruct (affine_group_elem_from_try_and_incr digest decode1 _ _ _) as [g|].
  - destruct (affine_group_elem_from_try_and_incr digest decode2 _ _ _) as [h|].
    + destruct (proj1 (S1 g) eq_refl) as (k1 & x1 & K1 & F1 & ->). destruct (proj1 (S2 h) eq_refl) as (k2 & x2 & K2 & F2 & ->). split.
      * intros H. injection H as <-. exists k1, x1, k2, x2. auto.
      * intros (k1' & x1' & k2' & x2' & _ & _ & F1' & F2' & ->). destruct (first_success_unique _ _ _ _ _ _ _ _ F1 F1') as [_ ->].
        destruct (first_success_unique _ _ _ _ _ _ _ _ F2 F2') as [_ ->]. reflexivity.
    + split; [discriminate|]. intros (k1' & x1' & k2' & x2' & _ & K2 & _ & F2' & _). 
      assert (H : None = Some (clear2 x2')) by (apply S2; eauto). discriminate.
  - split; [discriminate|]. intros (k1' & x1' & k2' & x2' & K1 & _ & F1' & _ & _).
    assert (H : None = Some (clear1 x1')) by (apply S1; eauto). discriminate.
Qed.
Theorem C40_chunked_commitment_gens :
  forall K (G : group K) T digest (decode : list Z -> option T) (clear : T -> G) fuel label gens,
  chunked_commitment_gens_new digest decode clear fuel label = Some gens <->
  exists k1 x1 k2 x2, (k1 <= fuel)%nat /\ (k2 <= fuel)%nat /\
    first_success digest decode label " : G" k1 x1 /\ first_success digest decode label " : H" k2 x2 /\
    gens = ChunkedCommitmentGens (clear x1) (clear x2).
Proof.
  intros K G T digest decode clear fuel label gens. unfold chunked_commitment_gens_new.
  change tag_G with (ascii_bytes " : G"). change tag_H with (ascii_bytes " : H").
  destruct (C40_hash_to_group_first_success T G digest decode clear fuel label " : G") as [S1 _].
  destruct (C40_hash_to_group_first_success T G digest decode clear fuel label " : H") as [S2 _]. cbv zeta in S1, S2.
  destruct (affine_group_elem_from_try_and_incr digest decode _ _ (label ++ ascii_bytes " : G")) as [g|].
  - destruct (affine_group_elem_from_try_and_incr digest decode _ _ _) as [h|].
    + destruct (proj1 (S1 g) eq_refl) as (k1 & x1 & K1 & F1 & ->). destruct (proj1 (S2 h) eq_refl) as (k2 & x2 & K2 & F2 & ->). split.
      * intros H. injection H as <-. exists k1, x1, k2, x2. auto.
      * intros (k1' & x1' & k2' & x2' & _ & _ & F1' & F2' & ->). destruct (first_success_unique _ _ _ _ _ _ _ _ F1 F1') as [_ ->].
        destruct (first_success_unique _ _ _ _ _ _ _ _ F2 F2') as [_ ->]. reflexivity.
    + split; [discriminate|]. intros (k1' & x1' & k2' & x2' & _ & K2 & _ & F2' & _). 
      assert (H : None = Some (clear x2')) by (apply S2; eauto). discriminate.
  - split; [discriminate|]. intros (k1' & x1' & k2' & x2' & K1 & _ & F1' & _ & _).
    assert (H : None = Some (clear x1')) by (apply S1; eauto). discriminate.
Qed.

(* Domain separation: below 2^56 attempts no two different (label, tag, attempt) hash the same bytes. *)
Theorem C40_hash_inputs_distinct :
  forall label label' tag tag' (j j' : nat), In tag [" : G"; " : H"]%string -> In tag' [" : G"; " : H"]%string ->
  Z.of_nat j < 2 ^ 56 -> Z.of_nat j' < 2 ^ 56 ->
  hashed label tag j = hashed label' tag' j' -> label = label' /\ tag = tag' /\ j = j'.
Proof.
  assert (TL : forall t, In t [" : G"; " : H"]%string -> length (ascii_bytes t) = 4%nat) by (intros t [<-|[<-|[]]]; reflexivity).
  assert (TI : forall t t', In t [" : G"; " : H"]%string -> In t' [" : G"; " : H"]%string -> ascii_bytes t = ascii_bytes t' -> t = t').
  { intros t t' [<-|[<-|[]]] [<-|[<-|[]]] H; vm_compute in H; try reflexivity; discriminate. }
  assert (LL : forall z, length (le64 z) = 8%nat) by reflexivity.
  assert (top : forall z, 0 <= z < 2 ^ 56 -> last (le64 z) 1 = 0).
  { intros z Hz. change (last (le64 z) 1) with (z / 2 ^ (8 * Z.of_nat 7) mod 256). change (8 * Z.of_nat 7) with 56. rewrite Z.div_small by lia. reflexivity. }
  assert (last_app : forall (a b : list Z) d, b <> [] -> last (a ++ b) d = last b d).
  { intros a b d Hb. induction a as [|x a IH]; [reflexivity|]. cbn [app]. destruct (a ++ b) eqn:E; [|cbn [last]; rewrite <- IH; reflexivity].
    apply app_eq_nil in E. destruct E; contradiction. }
  assert (tagn : forall t, In t [" : G"; " : H"]%string -> ascii_bytes t <> [] /\ last (ascii_bytes t) 1 <> 0) by (intros t [<-|[<-|[]]]; split; discriminate).
  assert (mixed : forall l t l' t' k, In t [" : G"; " : H"]%string -> In t' [" : G"; " : H"]%string -> Z.of_nat (S k) < 2 ^ 56 -> hashed l t 0 <> hashed l' t' (S k)).
  { intros l t l' t' k Ht Ht' Hk H. unfold hashed in H. cbn [Nat.eqb] in H. apply (f_equal (fun b => last b 1)) in H.
    destruct (tagn t Ht) as [Hn Hl]. rewrite last_app in H by exact Hn. rewrite !app_assoc, last_app, top in H; [contradiction|lia|discriminate]. }
  intros label label' tag tag' j j' Ht Ht' Hj Hj' H. destruct j as [|j], j' as [|j'].
  - unfold hashed in H. cbn [Nat.eqb] in H. apply suffix_inj in H; [|rewrite (TL _ Ht), (TL _ Ht'); reflexivity]. destruct H as [-> H]. auto.
  - exfalso. exact (mixed _ _ _ _ _ Ht Ht' Hj' H).
  - exfalso. exact (mixed _ _ _ _ _ Ht' Ht Hj (eq_sym H)).
  - unfold hashed in H. cbn [Nat.eqb] in H. apply suffix_inj in H; [|rewrite !app_length, (TL _ Ht), (TL _ Ht'), !LL; reflexivity]. destruct H as [-> H].
    apply suffix_inj in H; [|rewrite (TL _ Ht), (TL _ Ht') || rewrite !app_length, !LL; reflexivity]. destruct H as [H1 H]. apply suffix_inj in H; [|rewrite !LL; reflexivity]. destruct H as [_ H].
    apply le64_inj in H; [|lia|lia]. split; [reflexivity|]. split; [apply TI; assumption|]. lia.
Qed.
(* The bound matters: attempt 0x473a20... of one label hashes the same bytes as attempt 0 of another. *)
Theorem C40_hash_inputs_distinct_without_bound_refuted :
  exists label label' j, 2 ^ 56 <= Z.of_nat j < 2 ^ 64 /\ hashed label " : G" j = hashed label' " : G" 0.
Proof.
  assert (X : exists n : nat, Z.of_nat n = 71 * 2 ^ 56 + 32 * 2 ^ 48 + 58 * 2 ^ 40 + 32 * 2 ^ 32 + 1)
    by (eexists; apply Z2Nat.id; discriminate).
  destruct X as [n Hn]. exists [], (ascii_bytes " : G-attempt-" ++ [1; 0; 0; 0]), n.
  split; [rewrite Hn; split; [discriminate|reflexivity]|]. unfold hashed.
  destruct n as [|n]; [discriminate Hn|]. cbn [Nat.eqb]. rewrite Hn. vm_compute. reflexivity.
Qed.

(* a concrete search: G comes from attempt 9, H from attempt 8 *)
Definition h_digest (l : list Z) : list Z := [fold_left Z.add l 0].
Definition h_decode (l : list Z) : option (scalar M61) := match l with [z] => if z mod 11 =? 3 then Some (of_Z z) else None | _ => None end.
Example C40_case : exists gens, @encryption_gens_new E61 _ _ h_digest h_decode (fun x => x) h_decode (fun x => x) 50 [104; 105] = Some gens /\
  first_success h_digest h_decode [104; 105] " : G" 9 (eg_G gens) /\ first_success h_digest h_decode [104; 105] " : H" 8 (eg_H gens).
Proof.
  assert (D : forall z, z mod 11 <> 3 -> h_decode [z] = None) by (intros z Hz; unfold h_decode; destruct (Z.eqb_spec (z mod 11) 3); [contradiction|reflexivity]).
  assert (D' : forall z, z mod 11 = 3 -> h_decode [z] = Some (of_Z z)) by (intros z Hz; unfold h_decode; rewrite Hz; reflexivity).
  assert (F1 : exists x, first_success h_digest h_decode [104; 105] " : G" 9 x).
  { eexists. split; [apply D'; vm_compute; reflexivity|]. intros k Hk. apply D. do 9 (destruct k as [|k]; [vm_compute; discriminate|]). lia. }
  assert (F2 : exists x, first_success h_digest h_decode [104; 105] " : H" 8 x).
  { eexists. split; [apply D'; vm_compute; reflexivity|]. intros k Hk. apply D. do 8 (destruct k as [|k]; [vm_compute; discriminate|]). lia. }
  destruct F1 as [x1 F1], F2 as [x2 F2]. exists (@EncryptionGens E61 x1 x2). split; [|split; assumption].
  apply (proj2 (C40_encryption_gens E61 _ _ h_digest h_decode (fun x => x) h_decode (fun x => x) 50 [104; 105] _)).
  exists 9%nat, x1, 8%nat, x2. split; [lia|]. split; [lia|]. auto.
Qed.
