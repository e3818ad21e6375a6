(* SerdeFacts.v -- lemmas about the codecs of Serde.v *)
From Coq Require Import String Permutation.
From Verif Require Import Base BaseFacts Algebra Utils UtilsFacts Setup Commitment Keygen Encryption Circuit Groth16 Serde.
Open Scope list_scope.

Definition is_bytes (bs : list Z) : Prop := Forall (fun b => 0 <= b < 256) bs.

(* reading back, reading from a longer stream, emitting bytes *)
Record lawful_on {T} (c : codec T) (P : T -> Prop) : Prop := Lawful {
  law_read : forall x rest, P x -> dec c (enc c x ++ rest) = Some (x, rest);
  law_stream : forall bs x r s, dec c bs = Some (x, r) -> dec c (bs ++ s) = Some (x, r ++ s);
  law_bytes : forall x, P x -> is_bytes (enc c x) }.

Lemma lawful_weaken {T} (c : codec T) (P Q : T -> Prop) : (forall x, Q x -> P x) -> lawful_on c P -> lawful_on c Q.
Proof. intros H [A B C]. constructor; intros; eauto. Qed.

Lemma bytes_app a b : is_bytes a -> is_bytes b -> is_bytes (a ++ b).
Proof. intros; apply Forall_app; split; assumption. Qed.

Lemma read_exact_app a r : read_exact (length a) (a ++ r) = Some (a, r).
Proof.
  unfold read_exact. rewrite app_length. destruct (Nat.ltb_spec (length a + length r) (length a)); [lia|].
  f_equal. f_equal.
  - rewrite firstn_app, firstn_all, Nat.sub_diag. apply app_nil_r.
  - rewrite skipn_app, skipn_all, Nat.sub_diag. reflexivity.
Qed.
Lemma read_exact_inv n bs w r : read_exact n bs = Some (w, r) -> bs = w ++ r /\ length w = n.
Proof.
  unfold read_exact. destruct (Nat.ltb_spec (length bs) n); [discriminate|]. intros X; injection X as <- <-.
  rewrite firstn_skipn, firstn_length. split; [reflexivity|lia].
Qed.
Lemma read_exact_stream n bs w r s : read_exact n bs = Some (w, r) -> read_exact n (bs ++ s) = Some (w, r ++ s).
Proof.
  intros H. apply read_exact_inv in H. destruct H as [-> <-]. rewrite <- app_assoc. apply read_exact_app.
Qed.

Lemma le_value_bytes n z : le_value (bytes_le n z) = z mod 256 ^ Z.of_nat n.
Proof.
  revert z; induction n as [|n IH]; intros z; [cbn; now rewrite Z.mod_1_r|].
  cbn [bytes_le le_value fold_right]. change (fold_right _ 0 (bytes_le n (z / 256))) with (le_value (bytes_le n (z / 256))). rewrite IH.
  rewrite Nat2Z.inj_succ, Z.pow_succ_r by lia. rewrite Z.rem_mul_r by (try lia; apply Z.pow_pos_nonneg; lia). reflexivity.
Qed.
Lemma le_value_range w : is_bytes w -> 0 <= le_value w < 256 ^ Z.of_nat (length w).
Proof.
  induction w as [|b w IH]; intros H; [cbn; lia|]. inversion H as [|b' w' Hb Hw]; subst. specialize (IH Hw).
  cbn [le_value fold_right length]. change (fold_right _ 0 w) with (le_value w). rewrite Nat2Z.inj_succ, Z.pow_succ_r by lia. nia.
Qed.
Lemma bytes_le_of_value w : is_bytes w -> bytes_le (length w) (le_value w) = w.
Proof.
  induction w as [|b w IH]; intros H; [reflexivity|]. inversion H as [|b' w' Hb Hw]; subst.
  cbn [le_value fold_right length bytes_le]. change (fold_right _ 0 w) with (le_value w).
  replace (b + 256 * le_value w) with (le_value w * 256 + b) by ring.
  rewrite Z.div_add_l by lia. rewrite (Z.div_small b 256) by exact Hb. rewrite Z.add_0_r, IH by exact Hw.
  f_equal. rewrite Z.add_comm, Z_mod_plus_full. apply Z.mod_small; exact Hb.
Qed.

Lemma u64_lawful : lawful_on u64_codec (fun n => Z.of_nat n < 2 ^ 64).
Proof.
  constructor; cbn [u64_codec enc dec].
  - intros n rest Hn. replace 8%nat with (length (bytes_le 8 (Z.of_nat n))) at 1 by apply bytes_le_length.
    rewrite read_exact_app, le_value_bytes. change (256 ^ Z.of_nat 8) with (2 ^ 64). rewrite Z.mod_small by lia. rewrite Nat2Z.id. reflexivity.
  - intros bs x r s H. destruct (read_exact 8 bs) as [[w r']|] eqn:R; [|discriminate H].
    rewrite (read_exact_stream _ _ _ _ s R). injection H as <- <-. reflexivity.
  - intros x _. apply bytes_le_range.
Qed.

Lemma fr_bytes_fit K : modulus K <= 256 ^ Z.of_nat (fr_bytes K).
Proof.
  unfold fr_bytes, modulus_bit_size. pose proof (@modulus_gt1 K). pose proof (Z.log2_nonneg (modulus K)).
  rewrite Z2Nat.id by (apply Z.div_pos; lia). change 256 with (2 ^ 8). rewrite <- Z.pow_mul_r by (try apply Z.div_pos; lia).
  destruct (Z.log2_spec (modulus K)) as [_ U]; [lia|]. unfold Z.succ in U.
  apply Z.lt_le_incl. eapply Z.lt_le_trans; [exact U|]. apply Z.pow_le_mono_r; [lia|].
  pose proof (Z.div_mod (Z.log2 (modulus K) + 1 + 7) 8). pose proof (Z.mod_pos_bound (Z.log2 (modulus K) + 1 + 7) 8). lia.
Qed.
Lemma fr_lawful K : lawful_on (fr_codec K) (fun _ => True).
Proof.
  constructor; cbn [fr_codec enc dec].
  - intros a rest _. replace (fr_bytes K) with (length (bytes_le (fr_bytes K) (into_bigint a))) at 1 by apply bytes_le_length.
    rewrite read_exact_app, le_value_bytes. pose proof (sval_range a). pose proof (fr_bytes_fit K). unfold into_bigint.
    rewrite Z.mod_small by lia. destruct (Z.ltb_spec (sval a) (modulus K)); [|lia]. rewrite of_Z_sval. reflexivity.
  - intros bs x r s H. destruct (read_exact _ bs) as [[w r']|] eqn:R; [|discriminate H].
    rewrite (read_exact_stream _ _ _ _ s R). destruct (_ <? _); [|discriminate H]. injection H as <- <-. reflexivity.
  - intros x _. apply bytes_le_range.
Qed.

Lemma dec_many_stream {T} (c : codec T) P n : lawful_on c P -> forall bs x r s, dec_many c n bs = Some (x, r) -> dec_many c n (bs ++ s) = Some (x, r ++ s).
Proof.
  intros L. induction n as [|n IH]; intros bs x r s H; cbn [dec_many] in *.
  - injection H as <- <-. reflexivity.
  - destruct (dec c bs) as [[y bs']|] eqn:D; [|discriminate H]. rewrite (law_stream c P L _ _ _ s D).
    destruct (dec_many c n bs') as [[ys r']|] eqn:M; [|discriminate H]. rewrite (IH _ _ _ s M). injection H as <- <-. reflexivity.
Qed.
Lemma dec_many_read {T} (c : codec T) P : lawful_on c P -> forall l rest, Forall P l -> dec_many c (length l) (concat (map (enc c) l) ++ rest) = Some (l, rest).
Proof.
  intros L. induction l as [|x l IH]; intros rest H; [reflexivity|]. inversion H; subst.
  cbn [length dec_many map concat]. rewrite <- app_assoc, (law_read c P L) by assumption. rewrite IH by assumption. reflexivity.
Qed.
Definition short {T} (l : list T) : Prop := Z.of_nat (length l) < 2 ^ 64.
Lemma vec_lawful {T} (c : codec T) P : lawful_on c P -> lawful_on (vec_codec c) (fun l => short l /\ Forall P l).
Proof.
  intros L. constructor.
  - intros l rest [Hs HP]. cbn [vec_codec enc dec]. rewrite <- app_assoc. rewrite (law_read _ _ u64_lawful) by exact Hs.
    apply (dec_many_read c P L); exact HP.
  - cbn [vec_codec enc dec]. intros bs x r s H. destruct (dec u64_codec bs) as [[n bs']|] eqn:D; [|discriminate H].
    rewrite (law_stream _ _ u64_lawful _ _ _ s D). apply (dec_many_stream c P n L). exact H.
  - intros l [Hs HP]. cbn [vec_codec enc]. apply bytes_app; [apply (law_bytes _ _ u64_lawful); exact Hs|].
    clear Hs. induction HP as [|x l Hx HP IH]; [constructor|]. cbn [map concat]. apply bytes_app; [apply (law_bytes c P L); exact Hx|exact IH].
Qed.
Lemma pair_lawful {A B} (a : codec A) (b : codec B) P Q : lawful_on a P -> lawful_on b Q -> lawful_on (pair_codec a b) (fun p => P (fst p) /\ Q (snd p)).
Proof.
  intros La Lb. constructor; cbn [pair_codec enc dec].
  - intros [x y] rest [Hx Hy]; cbn [fst snd] in *. rewrite <- app_assoc, (law_read a P La) by exact Hx. rewrite (law_read b Q Lb) by exact Hy. reflexivity.
  - intros bs x r s H. destruct (dec a bs) as [[u bs']|] eqn:D; [|discriminate H]. rewrite (law_stream a P La _ _ _ s D).
    destruct (dec b bs') as [[v r']|] eqn:D'; [|discriminate H]. rewrite (law_stream b Q Lb _ _ _ s D'). injection H as <- <-. reflexivity.
  - intros [x y] [Hx Hy]. apply bytes_app; [apply (law_bytes a P La); exact Hx|apply (law_bytes b Q Lb); exact Hy].
Qed.
Lemma struct_lawful {T U} (f : T -> U) (g : U -> T) (c : codec U) (P : U -> Prop) (Q : T -> Prop) :
  (forall t, g (f t) = t) -> (forall t, Q t -> P (f t)) -> lawful_on c P -> lawful_on (struct_codec f g c) Q.
Proof.
  intros Hgf HQ L. constructor; cbn [struct_codec enc dec].
  - intros x rest Hx. rewrite (law_read c P L) by (apply HQ; exact Hx). rewrite Hgf. reflexivity.
  - intros bs x r s H. destruct (dec c bs) as [[u r']|] eqn:D; [|discriminate H]. rewrite (law_stream c P L _ _ _ s D). injection H as <- <-. reflexivity.
  - intros x Hx. apply (law_bytes c P L). apply HQ; exact Hx.
Qed.

Lemma truncated {T} (c : codec T) P x p s : lawful_on c P -> P x -> enc c x = p ++ s -> s <> [] -> dec c p = None.
Proof.
  intros L Hx He Hs. destruct (dec c p) as [[y r]|] eqn:D; [|reflexivity]. exfalso.
  pose proof (law_stream c P L _ _ _ s D) as D'. rewrite <- He in D'. pose proof (law_read c P L x [] Hx) as R. rewrite app_nil_r, D' in R.
  injection R as _ R. apply app_eq_nil in R. destruct R; contradiction.
Qed.

(* canonical readers: the bytes read are the ones that would have been written *)
Definition canonical {T} (c : codec T) : Prop := forall bs x rest, is_bytes bs -> dec c bs = Some (x, rest) -> bs = enc c x ++ rest.
Lemma bytes_tail a b : is_bytes (a ++ b) -> is_bytes a /\ is_bytes b.
Proof. apply Forall_app. Qed.
Lemma u64_canonical : canonical u64_codec.
Proof.
  intros bs x rest Hb H. cbn [u64_codec enc dec] in *. destruct (read_exact 8 bs) as [[w r]|] eqn:R; [|discriminate H]. injection H as <- <-.
  apply read_exact_inv in R. destruct R as [-> Hl]. apply bytes_tail in Hb. destruct Hb as [Hw _].
  pose proof (le_value_range w Hw). rewrite Z2Nat.id by lia. rewrite <- Hl, bytes_le_of_value by exact Hw. reflexivity.
Qed.
Lemma fr_canonical K : canonical (fr_codec K).
Proof.
  intros bs x rest Hb H. cbn [fr_codec enc dec] in *. destruct (read_exact _ bs) as [[w r]|] eqn:R; [|discriminate H].
  destruct (Z.ltb_spec (le_value w) (modulus K)) as [Hm|Hm]; [|discriminate H]. injection H as <- <-.
  apply read_exact_inv in R. destruct R as [-> Hl]. apply bytes_tail in Hb. destruct Hb as [Hw _].
  pose proof (le_value_range w Hw). unfold into_bigint. rewrite of_Z_small by lia. rewrite <- Hl, bytes_le_of_value by exact Hw. reflexivity.
Qed.
Lemma dec_many_canonical {T} (c : codec T) n : canonical c -> forall bs l rest, is_bytes bs -> dec_many c n bs = Some (l, rest) -> bs = concat (map (enc c) l) ++ rest /\ length l = n.
Proof.
  intros C. induction n as [|n IH]; intros bs l rest Hb H; cbn [dec_many] in H.
  - injection H as <- <-. split; reflexivity.
  - destruct (dec c bs) as [[x bs']|] eqn:D; [|discriminate H]. destruct (dec_many c n bs') as [[xs r]|] eqn:M; [|discriminate H]. injection H as <- <-.
    pose proof (C _ _ _ Hb D) as ->. apply bytes_tail in Hb. destruct Hb as [_ Hb]. destruct (IH _ _ _ Hb M) as [-> <-].
    cbn [map concat length]. rewrite <- app_assoc. split; reflexivity.
Qed.
Lemma vec_canonical {T} (c : codec T) : canonical c -> canonical (vec_codec c).
Proof.
  intros C bs l rest Hb H. cbn [vec_codec enc dec] in *. destruct (dec u64_codec bs) as [[n bs']|] eqn:D; [|discriminate H].
  pose proof (u64_canonical _ _ _ Hb D) as ->. apply bytes_tail in Hb. destruct Hb as [_ Hb].
  destruct (dec_many_canonical c n C _ _ _ Hb H) as [-> <-]. rewrite app_assoc. reflexivity.
Qed.
Lemma pair_canonical {A B} (a : codec A) (b : codec B) : canonical a -> canonical b -> canonical (pair_codec a b).
Proof.
  intros Ca Cb bs p rest Hb H. cbn [pair_codec enc dec] in *. destruct (dec a bs) as [[x bs']|] eqn:D; [|discriminate H].
  destruct (dec b bs') as [[y r]|] eqn:D'; [|discriminate H]. injection H as <- <-. cbn [fst snd].
  pose proof (Ca _ _ _ Hb D) as ->. apply bytes_tail in Hb. destruct Hb as [_ Hb]. pose proof (Cb _ _ _ Hb D') as ->. rewrite app_assoc. reflexivity.
Qed.
Lemma struct_canonical {T U} (f : T -> U) (g : U -> T) (c : codec U) : (forall u, f (g u) = u) -> canonical c -> canonical (struct_codec f g c).
Proof.
  intros Hfg C bs t rest Hb H. cbn [struct_codec enc dec] in *. destruct (dec c bs) as [[u r]|] eqn:D; [|discriminate H]. injection H as <- <-.
  rewrite Hfg. apply C; assumption.
Qed.

(* serde *)
Lemma opt_map_ok {A B} (f : A -> option B) (g : B -> A) l : (forall b, In b l -> f (g b) = Some b) -> opt_map f (map g l) = Some l.
Proof.
  induction l as [|b l IH]; intros H; [reflexivity|]. cbn [map opt_map]. rewrite (H b) by (left; reflexivity).
  rewrite IH by (intros; apply H; right; assumption). reflexivity.
Qed.
Lemma bytes_of_values bs : is_bytes bs -> opt_map u8_of_value (map VNum bs) = Some bs.
Proof.
  intros H. apply opt_map_ok. intros b Hb. unfold is_bytes in H. rewrite Forall_forall in H. specialize (H b Hb). cbn [u8_of_value].
  destruct (Z.leb_spec 0 b), (Z.ltb_spec b 256); try lia; reflexivity.
Qed.
Lemma as_canonical_prefix {T} (c : codec T) P x extra : lawful_on c P -> P x -> is_bytes extra ->
  of_value (as_canonical c) (VSeq (map VNum (enc c x ++ extra))) = Some x.
Proof.
  intros L Hx He. cbn [as_canonical of_value]. rewrite bytes_of_values by (apply bytes_app; [apply (law_bytes c P L); exact Hx|exact He]).
  rewrite (law_read c P L) by exact Hx. reflexivity.
Qed.
Definition serde_ok {T} (s : serde T) (P : T -> Prop) : Prop := forall x, P x -> of_value s (to_value s x) = Some x.
Lemma as_canonical_ok {T} (c : codec T) P : lawful_on c P -> serde_ok (as_canonical c) P.
Proof. intros L x Hx. pose proof (as_canonical_prefix c P x [] L Hx (Forall_nil _)) as H. rewrite app_nil_r in H. exact H. Qed.
Lemma as_vec_ok {T} (s : serde T) P : serde_ok s P -> serde_ok (as_vec s) (Forall P).
Proof. intros H l Hl. rewrite Forall_forall in Hl. cbn [as_vec of_value to_value]. apply opt_map_ok. intros b Hb. apply H, Hl, Hb. Qed.
Lemma usize_ok : serde_ok usize_serde (fun n => Z.of_nat n < 2 ^ 64).
Proof.
  intros n Hn. cbn [usize_serde of_value to_value]. destruct (Z.leb_spec 0 (Z.of_nat n)), (Z.ltb_spec (Z.of_nat n) (2 ^ 64)); try lia.
  cbn [andb]. rewrite Nat2Z.id. reflexivity.
Qed.

Lemma filter_perm {A} (f : A -> bool) l l' : Permutation l l' -> Permutation (filter f l) (filter f l').
Proof.
  induction 1; cbn [filter]; repeat match goal with |- context [f ?x] => destruct (f x) end; eauto using Permutation; try (etransitivity; eassumption).
Qed.
Lemma lookup_perm l l' n : Permutation l l' -> lookup_one l n = lookup_one l' n.
Proof.
  intros H. unfold lookup_one. apply (filter_perm (fun kv => String.eqb (fst kv) n)) in H. remember (filter _ l) as a. remember (filter _ l') as b. clear Heqa Heqb.
  destruct a as [|x [|y a]].
  - apply Permutation_nil in H. subst; reflexivity.
  - apply Permutation_length_1_inv in H. subst; reflexivity.
  - apply Permutation_length in H. destruct b as [|x' [|y' b]]; cbn [length] in H; [lia|lia|reflexivity].
Qed.
Lemma lookup_unknown l k v n : k <> n -> lookup_one ((k, v) :: l) n = lookup_one l n.
Proof. intros H. unfold lookup_one. cbn [filter fst]. destruct (String.eqb_spec k n); [contradiction|reflexivity]. Qed.
Lemma opt_map_ext {A B} (f g : A -> option B) l : (forall a, In a l -> f a = g a) -> opt_map f l = opt_map g l.
Proof. induction l as [|a l IH]; intros H; [reflexivity|]. cbn [opt_map]. rewrite (H a) by (left; reflexivity). rewrite IH by (intros; apply H; right; assumption). reflexivity. Qed.
Lemma struct_fields_perm names l l' : Permutation l l' -> struct_fields names (VMap l) = struct_fields names (VMap l').
Proof. intros H. cbn [struct_fields]. apply opt_map_ext. intros n _. apply lookup_perm; exact H. Qed.
Lemma struct_fields_unknown names l k v : ~ In k names -> struct_fields names (VMap ((k, v) :: l)) = struct_fields names (VMap l).
Proof. intros H. cbn [struct_fields]. apply opt_map_ext. intros n Hn. apply lookup_unknown. intros ->. contradiction. Qed.
