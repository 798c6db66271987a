(** Double hashing has few patterns: proofs. *)
From Coq Require Import ZifyBool ZifyNat.
From stdpp Require Import list numbers.
From Verif Require Import Base BaseProofs FnvModel FnvSpec FnvProofs BitbucketModel BitbucketSpec BitbucketProofs BloomModel BloomSpec BloomProofs BloomFloorSpec.
Local Open Scope Z_scope.

(** ** sums and counts *)
Definition lsum {A} (h : A → Z) (l : list A) : Z := fold_right (λ x s, h x + s) 0 l.
Definition zcount {A} (g : A → bool) (l : list A) : Z := Z.of_nat (length (List.filter g l)).
Lemma zcount_cons {A} (g : A → bool) x l : zcount g (x :: l) = (if g x then 1 else 0) + zcount g l.
Proof. unfold zcount. cbn [List.filter]. destruct (g x); cbn [length]; lia. Qed.
Lemma zcount_app {A} (g : A → bool) l k : zcount g (l ++ k) = zcount g l + zcount g k.
Proof. induction l as [|x l IH]; [done|]. rewrite <- app_comm_cons, !zcount_cons, IH. lia. Qed.
Lemma zcount_map {A B} (g : B → bool) (h : A → B) l : zcount g (map h l) = zcount (λ x, g (h x)) l.
Proof. induction l as [|x l IH]; [done|]. cbn [map]. rewrite !zcount_cons, IH. done. Qed.
Lemma zcount_prod {A} (g : A * A → bool) l k : zcount g (list_prod l k) = lsum (λ v, zcount (λ w, g (v, w)) k) l.
Proof. induction l as [|x l IH]; [done|]. cbn [list_prod lsum fold_right]. rewrite zcount_app, zcount_map. f_equal. exact IH. Qed.
Lemma lsum_ext {A} (h h' : A → Z) l : (∀ x, x ∈ l → h x = h' x) → lsum h l = lsum h' l.
Proof.
  intros H. induction l as [|x l IH]; [done|]. cbn [lsum fold_right]. rewrite (H x) by left. f_equal. apply IH. intros y Hy. apply H. by right.
Qed.
Lemma lsum_le {A} (h h' : A → Z) l : (∀ x, x ∈ l → h x ≤ h' x) → lsum h l ≤ lsum h' l.
Proof.
  intros H. induction l as [|x l IH]; [done|]. cbn [lsum fold_right]. pose proof (H x ltac:(left)).
  assert (lsum h l ≤ lsum h' l) by (apply IH; intros y Hy; apply H; by right). unfold lsum in *. lia.
Qed.
Lemma lsum_add {A} (h h' : A → Z) l : lsum (λ x, h x + h' x) l = lsum h l + lsum h' l.
Proof. induction l as [|x l IH]; [done|]. unfold lsum in *. cbn [fold_right]. lia. Qed.
Lemma lsum_mul {A} a (h : A → Z) l : lsum (λ x, a * h x) l = a * lsum h l.
Proof. induction l as [|x l IH]; [unfold lsum; simpl; lia|]. unfold lsum in *. cbn [fold_right]. lia. Qed.
Lemma lsum_const {A} a (l : list A) : lsum (λ _, a) l = a * Z.of_nat (length l).
Proof. induction l as [|x l IH]; [unfold lsum; simpl; lia|]. unfold lsum in *. cbn [fold_right length]. lia. Qed.
Lemma lsum_nonneg {A} (h : A → Z) l : (∀ x, 0 ≤ h x) → 0 ≤ lsum h l.
Proof. intros H. induction l as [|x l IH]; [done|]. unfold lsum in *. cbn [fold_right]. pose proof (H x). lia. Qed.
Lemma lsum_pick (g : Z → Z) x L : NoDup L → x ∈ L → lsum (λ c, g c * (if x =? c then 1 else 0)) L = g x.
Proof.
  induction 1 as [|c L Hc HL IH]; intros Hx; [by apply elem_of_nil in Hx|]. cbn [lsum fold_right].
  destruct (Z.eqb_spec x c) as [->|Hne].
  - assert (lsum (λ c0, g c0 * (if c =? c0 then 1 else 0)) L = 0) as E; [|unfold lsum in E; lia].
    rewrite (lsum_ext _ (λ _, 0)); [rewrite lsum_const; lia|]. intros y Hy. destruct (Z.eqb_spec c y) as [->|]; [done|lia].
  - apply elem_of_cons in Hx. destruct Hx as [->|Hx]; [done|]. specialize (IH Hx). unfold lsum in IH. lia.
Qed.
Lemma lsum_swap {A} (g : Z → Z) (f : A → Z) l C : (∀ v, v ∈ l → 0 ≤ f v < C) →
  lsum (λ c, g c * zcount (λ v, f v =? c) l) (seqZ 0 C) = lsum (λ v, g (f v)) l.
Proof.
  intros H. induction l as [|v l IH].
  - rewrite (lsum_ext _ (λ _, 0)); [rewrite lsum_const; done|]. intros x _. unfold zcount. simpl. lia.
  - rewrite (lsum_ext _ (λ c, g c * (if f v =? c then 1 else 0) + g c * zcount (λ v, f v =? c) l)).
    2:{ intros c _. rewrite zcount_cons. lia. }
    rewrite lsum_add, IH by (intros w Hw; apply H; by right). rewrite (lsum_pick g (f v)); [done|apply NoDup_seqZ|].
    apply elem_of_seqZ. specialize (H v ltac:(left)). lia.
Qed.
(** values in C classes: the pairs within a class are at least N^2/C *)
Lemma class_pairs {A} (f : A → Z) l C : 0 < C → (∀ v, v ∈ l → 0 ≤ f v < C) →
  Z.of_nat (length l) * Z.of_nat (length l) ≤ C * lsum (λ v, zcount (λ w, f w =? f v) l) l.
Proof.
  intros HC H. set (N := Z.of_nat (length l)). set (n := λ c, zcount (λ v, f v =? c) l).
  pose proof (lsum_swap (λ _, 1) f l C H) as H1. cbv beta in H1. rewrite (lsum_const 1 l), Z.mul_1_l in H1. fold N in H1.
  pose proof (lsum_swap n f l C H) as H2. fold n in H2. change (lsum (λ v, n (f v)) l) with (lsum (λ v, zcount (λ w, f w =? f v) l) l) in H2.
  set (S := lsum (λ v, zcount (λ w, f w =? f v) l) l) in *.
  assert (lsum n (seqZ 0 C) = N) as H1'. { rewrite <- H1. apply lsum_ext. intros c _. unfold n. lia. }
  pose proof (lsum_nonneg (λ c, (C * n c - N) * (C * n c - N)) (seqZ 0 C) ltac:(intros x; apply Z.square_nonneg)) as H3.
  rewrite (lsum_ext _ (λ c, (C * C) * (n c * n c) + ((- 2 * C * N) * n c + N * N))) in H3 by (intros c _; ring).
  rewrite !lsum_add, !lsum_mul, H1', lsum_const, seqZ_length in H3. change (λ x, n x * n x) with (λ c, n c * n c) in H3.
  change (lsum (λ c, n c * zcount (λ v, f v =? c) l) (seqZ 0 C)) with (lsum (λ c, n c * n c) (seqZ 0 C)) in H2. rewrite H2 in H3.
  rewrite Z2Nat.id in H3 by lia. assert (0 ≤ C * (C * S - N * N)) as H4 by lia. apply Z.mul_nonneg_cancel_l in H4; lia.
Qed.

(** ** the pattern of a value *)
Definition step_class (M b : Z) : Z := if b <=? 2 ^ 64 - M then b mod M else M + (b - (2 ^ 64 - M)) - 1.
Definition pattern (M a b : Z) : Z := ((a mod M) * 2 + (if 2 ^ 64 <=? a + b then 1 else 0)) * (2 * M) + step_class M b.
Lemma step_class_range M b : 1 ≤ M < 2 ^ 63 → 0 ≤ b < 2 ^ 64 → 0 ≤ step_class M b < 2 * M.
Proof.
  intros HM Hb. unfold step_class. pose proof (Z.mod_pos_bound b M ltac:(lia)). destruct (Z.leb_spec b (2 ^ 64 - M)); lia.
Qed.
Lemma pattern_range M a b : 1 ≤ M < 2 ^ 63 → 0 ≤ b < 2 ^ 64 → 0 ≤ pattern M a b < 4 * M * M.
Proof.
  intros HM Hb. unfold pattern. pose proof (step_class_range M b HM Hb) as Hs. pose proof (Z.mod_pos_bound a M ltac:(lia)) as Ha.
  set (x := a mod M) in *. set (s := step_class M b) in *. destruct (2 ^ 64 <=? a + b); nia.
Qed.
Lemma step_class_residue M b b' : 1 ≤ M < 2 ^ 63 → 0 ≤ b < 2 ^ 64 → 0 ≤ b' < 2 ^ 64 → step_class M b = step_class M b' →
  b = b' ∨ (b ≤ 2 ^ 64 - M ∧ b' ≤ 2 ^ 64 - M ∧ b mod M = b' mod M).
Proof.
  intros HM Hb Hb'. unfold step_class. pose proof (Z.mod_pos_bound b M ltac:(lia)). pose proof (Z.mod_pos_bound b' M ltac:(lia)).
  destruct (Z.leb_spec b (2 ^ 64 - M)), (Z.leb_spec b' (2 ^ 64 - M)); intros E; [by right|lia|lia|left; lia].
Qed.
Lemma add_residue M a b b' : 1 ≤ M → b mod M = b' mod M → (a + b) mod M = (a + b') mod M.
Proof. intros HM H. rewrite (Z.add_mod a b), (Z.add_mod a b'), H by lia. done. Qed.
Lemma seq_class M b b' k : 1 ≤ M < 2 ^ 63 → 0 ≤ b < 2 ^ 64 → 0 ≤ b' < 2 ^ 64 → step_class M b = step_class M b' →
  ∀ a, 0 ≤ a < M → bloom_seq a b M k = bloom_seq a b' M k.
Proof.
  intros HM Hb Hb' E. destruct (step_class_residue M b b' HM Hb Hb' E) as [->|(H1 & H2 & H3)]; [done|].
  induction k as [|k IH]; intros a Ha; [done|]. cbn [bloom_seq]. f_equal.
  rewrite !(Z.mod_small _ (2 ^ 64)) by lia. rewrite (add_residue M a b b') by (done || lia). apply IH. apply Z.mod_pos_bound. lia.
Qed.
Lemma seq_pattern M a b a' b' k : 1 ≤ M < 2 ^ 63 → 0 ≤ a < 2 ^ 64 → 0 ≤ a' < 2 ^ 64 → 0 ≤ b < 2 ^ 64 → 0 ≤ b' < 2 ^ 64 →
  pattern M a b = pattern M a' b' → bloom_seq a b M k = bloom_seq a' b' M k.
Proof.
  intros HM Ha Ha' Hb Hb' E. unfold pattern in E.
  pose proof (step_class_range M b HM Hb) as Hs. pose proof (step_class_range M b' HM Hb') as Hs'.
  assert (∀ x y s t, 0 ≤ s < 2 * M → 0 ≤ t < 2 * M → x * (2 * M) + s = y * (2 * M) + t → x = y ∧ s = t) as Hdiv.
  { intros x y s t Hs0 Ht0 E0. assert (x = y) as ->; [|lia]. nia. }
  apply Hdiv in E; [|done|done]. destruct E as [E Es].
  assert (a mod M = a' mod M ∧ (2 ^ 64 <=? a + b) = (2 ^ 64 <=? a' + b')) as [Ea Ew].
  { destruct (2 ^ 64 <=? a + b), (2 ^ 64 <=? a' + b'); split; (done || lia). }
  destruct k as [|k]; [done|]. cbn [bloom_seq]. f_equal; [done|].
  assert (b mod M = b' mod M) as Eb by (destruct (step_class_residue M b b' HM Hb Hb' Es) as [->|(_ & _ & H)]; done).
  assert (((a + b) mod 2 ^ 64) mod M = ((a' + b') mod 2 ^ 64) mod M) as ->.
  { assert (∀ x, 0 ≤ x < 2 * 2 ^ 64 → x mod 2 ^ 64 = x + (if 2 ^ 64 <=? x then - 2 ^ 64 else 0)) as Hm.
    { intros x Hx. destruct (Z.leb_spec (2 ^ 64) x); [|rewrite Z.mod_small; lia]. symmetry. apply Z.mod_unique with 1; lia. }
    rewrite !Hm by lia. rewrite Ew. set (w := if _ : bool then - 2 ^ 64 else 0).
    rewrite (Z.add_mod (a + b)), (Z.add_mod (a' + b')), (Z.add_mod a b), (Z.add_mod a' b'), Ea, Eb by lia. done. }
  apply seq_class; [done|done|done|done|]. apply Z.mod_pos_bound. lia.
Qed.
Definition odd_up (b : Z) : Z := if Z.even b then b + 1 else b.
Definition pattern_of (m : Z) (v : bytes) : Z := pattern (bloom_mod m) (fnv1_spec v) (odd_up (fnv1a_spec v)).
Lemma odd_up_range b : 0 ≤ b < 2 ^ 64 → 0 ≤ odd_up b < 2 ^ 64.
Proof.
  intros Hb. unfold odd_up. destruct (Z.even b) eqn:E; [|done]. apply Z.even_spec in E. destruct E as [x ->]. change (2 ^ 64) with (2 * 2 ^ 63) in *. lia.
Qed.
Lemma hash_ranges v : is_bytes v → 0 ≤ fnv1_spec v < 2 ^ 64 ∧ 0 ≤ odd_up (fnv1a_spec v) < 2 ^ 64.
Proof.
  intros Hv. split; [rewrite <- Sum64_spec; apply Sum64_range; done|]. apply odd_up_range. rewrite <- Sum64a_spec. apply Sum64a_range.
Qed.
Lemma pattern_of_range m v : 1 ≤ m < 2 ^ 63 → is_bytes v → 0 ≤ pattern_of m v < 4 * m * m.
Proof.
  intros Hm Hv. pose proof (bloom_mod_range m ltac:(lia)) as HM. destruct (hash_ranges v Hv) as [_ Hb].
  pose proof (pattern_range (bloom_mod m) (fnv1_spec v) _ ltac:(lia) Hb) as Hp. unfold pattern_of. nia.
Qed.
Lemma same_positions m k v w : 1 ≤ m < 2 ^ 63 → is_bytes v → is_bytes w → pattern_of m v = pattern_of m w → bloom_positions m k v = bloom_positions m k w.
Proof.
  intros Hm Hv Hw E. destruct (hash_ranges v Hv) as [Ha Hb]. destruct (hash_ranges w Hw) as [Ha' Hb']. pose proof (bloom_mod_range m ltac:(lia)) as HM.
  unfold bloom_positions. apply seq_pattern; (done || lia).
Qed.
Lemma reports_same b m k v w : bloom_wf b m k → is_bytes v → is_bytes w → v ≠ w → pattern_of (Z.of_nat m) w = pattern_of (Z.of_nat m) v → reports_other b v w = true.
Proof.
  intros Hb Hv Hw Hne E. unfold reports_other. rewrite bool_decide_true by done. cbn [andb].
  destruct (bstate_Add _ _ _ _ v Hv (bstate_any b m k Hb)) as (b' & -> & Hs). rewrite (bstate_Has _ _ _ _ w Hw Hs). apply bool_decide_eq_true_2.
  rewrite (same_positions (Z.of_nat m) (Z.to_nat k) w v (m_range _ _ _ Hb) Hw Hv E). apply Forall_forall. intros x Hx. apply elem_of_app. by right.
Qed.
Lemma count_self (v : bytes) l : NoDup l → zcount (λ w, bool_decide (v = w)) l ≤ 1.
Proof.
  induction 1 as [|x l Hx Hl IH]; [done|]. rewrite zcount_cons. case_bool_decide as E; [|lia]. subst x.
  assert (zcount (λ w, bool_decide (v = w)) l = 0); [|lia]. clear IH Hl. induction l as [|y l IH]; [done|]. rewrite zcount_cons.
  apply not_elem_of_cons in Hx. rewrite IH by tauto. rewrite bool_decide_false by tauto. done.
Qed.
Lemma floor b m k vs : bloom_wf b m k → Forall is_bytes vs → NoDup vs →
  Z.of_nat (length vs) * Z.of_nat (length vs) ≤ 4 * Z.of_nat m * Z.of_nat m * (false_positives b vs + Z.of_nat (length vs)).
Proof.
  intros Hb Hvs Hnd. pose proof (m_range _ _ _ Hb) as Hm. rewrite Forall_forall in Hvs.
  eapply Z.le_trans; [apply (class_pairs (pattern_of (Z.of_nat m)) vs (4 * Z.of_nat m * Z.of_nat m)); [nia|intros v Hv; apply pattern_of_range; [done|by apply Hvs]]|].
  apply Z.mul_le_mono_nonneg_l; [lia|]. unfold false_positives. change (Z.of_nat (length (List.filter ?g ?l))) with (zcount g l).
  rewrite zcount_prod. rewrite <- (Z.mul_1_l (Z.of_nat (length vs))), <- lsum_const, <- lsum_add. apply lsum_le. intros v Hv.
  pose proof (count_self v vs Hnd) as H1. cbn [fst snd].
  assert (zcount (λ w, pattern_of (Z.of_nat m) w =? pattern_of (Z.of_nat m) v) vs ≤ zcount (λ w, reports_other b v w) vs + zcount (λ w, bool_decide (v = w)) vs); [|lia].
  clear H1 Hnd. assert (∀ l, (∀ w, w ∈ l → is_bytes w) → zcount (λ w, pattern_of (Z.of_nat m) w =? pattern_of (Z.of_nat m) v) l ≤ zcount (λ w, reports_other b v w) l + zcount (λ w, bool_decide (v = w)) l) as H; [|by apply H].
  intros l Hl. induction l as [|w l IH]; [done|]. rewrite !zcount_cons. specialize (IH ltac:(intros x Hx; apply Hl; by right)).
  destruct (Z.eqb_spec (pattern_of (Z.of_nat m) w) (pattern_of (Z.of_nat m) v)) as [E|E].
  - case_bool_decide as Hvw; [destruct (reports_other b v w); lia|]. rewrite (reports_same b m k v w Hb); [lia|by apply Hvs|apply Hl; left|done|done].
  - destruct (reports_other b v w), (bool_decide (v = w)); lia.
Qed.
