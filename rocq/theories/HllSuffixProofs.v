(** Registers reached by values with a common prefix: proofs. *)
From Coq Require Import ZifyBool ZifyNat.
From stdpp Require Import list numbers.
From Verif Require Import Base BaseProofs FnvSpec BitbucketModel BitbucketSpec HllModel HllSpec HllProofs HllCountModel HllCountSpec HllSuffixSpec.
Local Open Scope Z_scope.
Definition mulp (h : Z) : Z := (h * 1099511628211) mod 2^64.
Definition prime : Z := 1099511628211.
Lemma mod_div x w m : 0 < w → 0 < m → (x mod (w * m)) / w = (x / w) mod m.
Proof.
  intros Hw Hm. rewrite Z.rem_mul_r by lia. rewrite (Z.mul_comm w), Z.div_add by lia. rewrite Z.div_small by (by apply Z.mod_pos_bound). done.
Qed.
(** hashes in an interval no longer than a register's share reach two registers *)
Lemma two_buckets p B e : 4 ≤ p ≤ 18 → 0 ≤ e < 2 ^ (64 - p) →
  hll_bucket p ((B + e) mod 2 ^ 64) ∈ [(B / 2 ^ (64 - p)) mod 2 ^ p; (B / 2 ^ (64 - p) + 1) mod 2 ^ p].
Proof.
  intros Hp He. unfold hll_bucket. replace (2 ^ 64) with (2 ^ (64 - p) * 2 ^ p) by (rewrite <- Z.pow_add_r by lia; f_equal; lia).
  set (w := 2 ^ (64 - p)) in *. assert (0 < w) by lia. rewrite mod_div by lia.
  pose proof (Z.div_mod B w ltac:(lia)) as E. pose proof (Z.mod_pos_bound B w ltac:(lia)) as Hr.
  destruct (Z.lt_ge_cases (B mod w + e) w) as [Hlt|Hge].
  - replace ((B + e) / w) with (B / w); [left|]. apply Z.div_unique with (B mod w + e); lia.
  - replace ((B + e) / w) with (B / w + 1); [right; left|]. apply Z.div_unique with (B mod w + e - w); lia.
Qed.
Lemma lxor_div y a k : 0 ≤ k → Z.lxor y a / 2 ^ k = Z.lxor (y / 2 ^ k) (a / 2 ^ k).
Proof. intros Hk. rewrite <- !Z.shiftr_div_pow2 by done. apply Z.shiftr_lxor. Qed.
(** the last byte does not matter *)
Lemma drop_last p pre a : 4 ≤ p ≤ 18 → is_bytes pre → is_byte a → hll_bucket p (fnv1_spec (pre ++ [a])) = hll_bucket p (mulp (fnv1_spec pre)).
Proof.
  intros Hp Hpre Ha. rewrite (same_last_byte_register p pre a 0 Hp Hpre Ha) by (unfold is_byte; lia).
  f_equal. unfold fnv1_spec. rewrite fold_left_app. cbn [fold_left]. rewrite Z.lxor_0_r. done.
Qed.
Lemma fnv_snoc pre a : fnv1_spec (pre ++ [a]) = Z.lxor (mulp (fnv1_spec pre)) a.
Proof. unfold fnv1_spec. rewrite fold_left_app. reflexivity. Qed.
Lemma mulp_mod x : mulp (x mod 2 ^ 64) = mulp x.
Proof. unfold mulp. apply Z.mul_mod_idemp_l. lia. Qed.

(** ** two free bytes *)
Definition base2 (pre : bytes) : Z := 256 * (mulp (fnv1_spec pre) / 256) * prime.
Lemma two_bytes p pre a b : 4 ≤ p ≤ 16 → is_bytes pre → is_byte a → is_byte b →
  hll_bucket p (fnv1_spec (pre ++ [a; b])) ∈ [(base2 pre / 2 ^ (64 - p)) mod 2 ^ p; (base2 pre / 2 ^ (64 - p) + 1) mod 2 ^ p].
Proof.
  intros Hp Hpre Ha Hb. change [a; b] with ([a] ++ [b]). rewrite app_assoc, drop_last; [|lia|apply Forall_app; split; [done|by apply Forall_singleton]|done].
  rewrite fnv_snoc. set (y := mulp (fnv1_spec pre)).
  pose proof (lxor_div y a 8 ltac:(lia)) as E. change (2 ^ 8) with 256 in E. unfold is_byte in Ha. rewrite (Z.div_small a) in E by lia. rewrite Z.lxor_0_r in E.
  pose proof (Z.div_mod (Z.lxor y a) 256 ltac:(lia)) as D. pose proof (Z.mod_pos_bound (Z.lxor y a) 256 ltac:(lia)) as Hx. rewrite E in D.
  set (x := Z.lxor y a mod 256) in *.
  assert (mulp (Z.lxor y a) = (base2 pre + x * prime) mod 2 ^ 64) as ->.
  { unfold mulp at 1. f_equal. rewrite D. unfold base2, prime. fold y. ring. }
  apply two_buckets; [lia|]. assert (2 ^ 48 ≤ 2 ^ (64 - p)) by (apply Z.pow_le_mono_r; lia). unfold prime. lia.
Qed.

(** hashes in an interval of 2^58 reach 2^(p-6)+1 registers *)
Lemma many_buckets p B e : 6 ≤ p ≤ 18 → 0 ≤ e < 2 ^ 58 →
  hll_bucket p ((B + e) mod 2 ^ 64) ∈ map (λ i, (B / 2 ^ (64 - p) + i) mod 2 ^ p) (seqZ 0 (2 ^ (p - 6) + 1)).
Proof.
  intros Hp He. unfold hll_bucket. replace (2 ^ 64) with (2 ^ (64 - p) * 2 ^ p) by (rewrite <- Z.pow_add_r by lia; f_equal; lia).
  replace (2 ^ 58) with (2 ^ (64 - p) * 2 ^ (p - 6)) in He by (rewrite <- Z.pow_add_r by lia; f_equal; lia).
  set (w := 2 ^ (64 - p)) in *. set (q := 2 ^ (p - 6)) in *. assert (0 < w) by lia. rewrite mod_div by lia.
  pose proof (Z.div_mod B w ltac:(lia)) as E. pose proof (Z.mod_pos_bound B w ltac:(lia)) as Hr. set (r := B mod w) in *. set (b := B / w) in *.
  apply elem_of_list_fmap. exists ((r + e) / w). split.
  - f_equal. rewrite E. replace (w * b + r + e) with ((r + e) + b * w) by ring. rewrite Z.div_add by lia. lia.
  - apply elem_of_seqZ. split; [apply Z.div_pos; lia|]. apply Z.div_lt_upper_bound; lia.
Qed.
(** ** three digits *)
Definition prime2 : Z := 956575116354345.
Definition base3 (pre : bytes) : Z := 16 * Z.lxor (mulp (fnv1_spec pre) / 16) 3 * prime2 - 64 * prime.
Lemma three_digits p pre a b c : 4 ≤ p ≤ 10 → is_bytes pre → is_digit a → is_digit b → is_byte c →
  hll_bucket p (fnv1_spec (pre ++ [a; b; c])) ∈ [(base3 pre / 2 ^ (64 - p)) mod 2 ^ p; (base3 pre / 2 ^ (64 - p) + 1) mod 2 ^ p].
Proof.
  intros Hp Hpre Ha Hb Hc. unfold is_digit in Ha, Hb. change [a; b; c] with ([a] ++ [b] ++ [c]). rewrite !app_assoc, drop_last; [|lia| |done].
  2:{ apply Forall_app; split; [apply Forall_app; split; [done|]|]; apply Forall_singleton; unfold is_byte; lia. }
  rewrite !fnv_snoc. set (y := mulp (fnv1_spec pre)).
  pose proof (lxor_div y a 4 ltac:(lia)) as E. change (2 ^ 4) with 16 in E. assert (a / 16 = 3) as Ea by (symmetry; apply Z.div_unique with (a - 48); lia). rewrite Ea in E.
  pose proof (Z.div_mod (Z.lxor y a) 16 ltac:(lia)) as D. pose proof (Z.mod_pos_bound (Z.lxor y a) 16 ltac:(lia)) as Hx. rewrite E in D.
  set (x := Z.lxor y a mod 16) in *. set (h1 := Z.lxor y a) in *.
  set (z := mulp h1). pose proof (lxor_div z b 6 ltac:(lia)) as E6. change (2 ^ 6) with 64 in E6. rewrite (Z.div_small b) in E6 by lia. rewrite Z.lxor_0_r in E6.
  pose proof (Z.div_mod (Z.lxor z b) 64 ltac:(lia)) as D6. pose proof (Z.mod_pos_bound (Z.lxor z b) 64 ltac:(lia)) as H6. rewrite E6 in D6.
  pose proof (Z.div_mod z 64 ltac:(lia)) as D7. pose proof (Z.mod_pos_bound z 64 ltac:(lia)) as H7.
  set (h2 := Z.lxor z b) in *. set (d := h2 - z). assert (-64 < d < 64) as Hd by lia.
  assert (mulp h2 = (base3 pre + (x * prime2 + (d + 64) * prime)) mod 2 ^ 64) as ->.
  { replace h2 with (z + d) by lia. unfold mulp. rewrite Z.mul_add_distr_r. unfold z at 1, mulp.
    rewrite <- Z.add_mod_idemp_l by lia. rewrite Z.mul_mod_idemp_l by lia. rewrite Z.add_mod_idemp_l by lia.
    rewrite D. set (q := Z.lxor (y / 16) 3). unfold base3, prime. fold y q.
    replace ((16 * q + x) * 1099511628211 * 1099511628211 + d * 1099511628211)
      with (16 * q * prime2 - 64 * 1099511628211 + (x * prime2 + (d + 64) * 1099511628211) + ((16 * q + x) * 65536) * 2 ^ 64 + (16 * q + x) * (1099511628211 * 1099511628211 - prime2 - 65536 * 2 ^ 64)) by ring.
    change (1099511628211 * 1099511628211 - prime2 - 65536 * 2 ^ 64) with 0. rewrite Z.mul_0_r, Z.add_0_r. apply Z.mod_add. lia. }
  apply two_buckets; [lia|]. assert (2 ^ 54 ≤ 2 ^ (64 - p)) by (apply Z.pow_le_mono_r; lia). unfold prime, prime2. lia.
Qed.
(** ** three free bytes *)
Definition base256 (pre : bytes) : Z := 256 * (mulp (fnv1_spec pre) / 256) * prime2 - 256 * prime.
Lemma three_bytes p pre a b c : 6 ≤ p ≤ 18 → is_bytes pre → is_byte a → is_byte b → is_byte c →
  hll_bucket p (fnv1_spec (pre ++ [a; b; c])) ∈ map (λ i, (base256 pre / 2 ^ (64 - p) + i) mod 2 ^ p) (seqZ 0 (2 ^ (p - 6) + 1)).
Proof.
  intros Hp Hpre Ha Hb Hc. unfold is_byte in Ha, Hb. change [a; b; c] with ([a] ++ [b] ++ [c]). rewrite !app_assoc, drop_last; [|lia| |done].
  2:{ apply Forall_app; split; [apply Forall_app; split; [done|]|]; apply Forall_singleton; unfold is_byte; lia. }
  rewrite !fnv_snoc. set (y := mulp (fnv1_spec pre)).
  pose proof (lxor_div y a 8 ltac:(lia)) as E. change (2 ^ 8) with 256 in E. rewrite (Z.div_small a) in E by lia. rewrite Z.lxor_0_r in E.
  pose proof (Z.div_mod (Z.lxor y a) 256 ltac:(lia)) as D. pose proof (Z.mod_pos_bound (Z.lxor y a) 256 ltac:(lia)) as Hx. rewrite E in D.
  set (x := Z.lxor y a mod 256) in *. set (h1 := Z.lxor y a) in *.
  set (z := mulp h1). pose proof (lxor_div z b 8 ltac:(lia)) as E6. change (2 ^ 8) with 256 in E6. rewrite (Z.div_small b) in E6 by lia. rewrite Z.lxor_0_r in E6.
  pose proof (Z.div_mod (Z.lxor z b) 256 ltac:(lia)) as D6. pose proof (Z.mod_pos_bound (Z.lxor z b) 256 ltac:(lia)) as H6. rewrite E6 in D6.
  pose proof (Z.div_mod z 256 ltac:(lia)) as D7. pose proof (Z.mod_pos_bound z 256 ltac:(lia)) as H7.
  set (h2 := Z.lxor z b) in *. set (d := h2 - z). assert (-256 < d < 256) as Hd by lia.
  assert (mulp h2 = (base256 pre + (x * prime2 + (d + 256) * prime)) mod 2 ^ 64) as ->.
  { replace h2 with (z + d) by lia. unfold mulp. rewrite Z.mul_add_distr_r. unfold z at 1, mulp.
    rewrite <- Z.add_mod_idemp_l by lia. rewrite Z.mul_mod_idemp_l by lia. rewrite Z.add_mod_idemp_l by lia.
    rewrite D. set (q := y / 256). unfold base256, prime. fold y q.
    replace ((256 * q + x) * 1099511628211 * 1099511628211 + d * 1099511628211)
      with (256 * q * prime2 - 256 * 1099511628211 + (x * prime2 + (d + 256) * 1099511628211) + ((256 * q + x) * 65536) * 2 ^ 64 + (256 * q + x) * (1099511628211 * 1099511628211 - prime2 - 65536 * 2 ^ 64)) by ring.
    change (1099511628211 * 1099511628211 - prime2 - 65536 * 2 ^ 64) with 0. rewrite Z.mul_0_r, Z.add_0_r. apply Z.mod_add. lia. }
  apply many_buckets; [lia|]. unfold prime, prime2. lia.
Qed.

(** ** from single values to lists *)
Lemma buckets_incl p vs L : (∀ v, v ∈ vs → hll_bucket p (fnv1_spec v) ∈ L) → buckets_hit p vs ≤ Z.of_nat (length L).
Proof.
  intros H. unfold buckets_hit. apply Nat2Z.inj_le, submseteq_length, NoDup_submseteq; [apply NoDup_remove_dups|].
  intros x Hx. apply elem_of_remove_dups, elem_of_list_fmap in Hx. destruct Hx as (v & -> & Hv). by apply H.
Qed.
Lemma two_bytes_hit p pre vs : 4 ≤ p ≤ 16 → is_bytes pre → Forall (λ v, ∃ a b, is_byte a ∧ is_byte b ∧ v = pre ++ [a; b]) vs → buckets_hit p vs ≤ 2.
Proof.
  intros Hp Hpre Hvs. rewrite Forall_forall in Hvs. change 2 with (Z.of_nat (length [(base2 pre / 2 ^ (64 - p)) mod 2 ^ p; (base2 pre / 2 ^ (64 - p) + 1) mod 2 ^ p])).
  apply buckets_incl. intros v Hv. destruct (Hvs v Hv) as (a & b & Ha & Hb & ->). by apply two_bytes.
Qed.
Lemma three_bytes_hit p pre vs : 6 ≤ p ≤ 18 → is_bytes pre → Forall (λ v, ∃ a b c, is_byte a ∧ is_byte b ∧ is_byte c ∧ v = pre ++ [a; b; c]) vs → buckets_hit p vs ≤ 2 ^ (p - 6) + 1.
Proof.
  intros Hp Hpre Hvs. rewrite Forall_forall in Hvs.
  replace (2 ^ (p - 6) + 1) with (Z.of_nat (length (map (λ i, (base256 pre / 2 ^ (64 - p) + i) mod 2 ^ p) (seqZ 0 (2 ^ (p - 6) + 1))))).
  2:{ rewrite map_length, seqZ_length. assert (0 < 2 ^ (p - 6)) by lia. lia. }
  apply buckets_incl. intros v Hv. destruct (Hvs v Hv) as (a & b & c & Ha & Hb & Hc & ->). by apply three_bytes.
Qed.
Lemma digit_in d : is_digit d → d ∈ [48; 49; 50; 51; 52; 53; 54; 55; 56; 57].
Proof. unfold is_digit. intros H. rewrite !elem_of_cons. lia. Qed.
Lemma strings_in L ds : Forall (λ d, d ∈ L) ds → ds ∈ strings L (length ds).
Proof.
  induction 1 as [|d ds Hd Hds IH]; cbn [length strings]; [left|]. apply elem_of_list_In, in_flat_map. exists d.
  split; apply elem_of_list_In; [done|]. by apply elem_of_list_fmap_1.
Qed.
Lemma strings_ok L k ds : ds ∈ strings L k → length ds = k ∧ Forall (λ d, d ∈ L) ds.
Proof.
  revert ds. induction k as [|k IH]; intros ds H; cbn [strings] in H.
  - apply elem_of_list_singleton in H. subst. split; [done|apply Forall_nil_2].
  - apply elem_of_list_In, in_flat_map in H. destruct H as (d & Hd & H). apply elem_of_list_In, elem_of_list_fmap in H. destruct H as (ds' & -> & H).
    destruct (IH _ H) as [<- Hf]. split; [done|]. apply Forall_cons. split; [|done]. by apply elem_of_list_In.
Qed.
Lemma digit_strings_in ds : Forall is_digit ds → ds ∈ digit_strings (length ds).
Proof. intros H. apply strings_in. eapply Forall_impl; [exact H|]. intros d. apply digit_in. Qed.
Lemma digit_strings_ok k ds : ds ∈ digit_strings k → length ds = k ∧ Forall is_digit ds.
Proof.
  intros H. destruct (strings_ok _ _ _ H) as [Hl Hd]. split; [done|]. eapply Forall_impl; [exact Hd|]. intros d Hx. unfold is_digit. apply elem_of_list_In in Hx. cbn in Hx. lia.
Qed.
Lemma byte_strings_ok k ds : ds ∈ byte_strings k → length ds = k ∧ is_bytes ds.
Proof.
  intros H. destruct (strings_ok _ _ _ H) as [Hl Hd]. split; [done|]. eapply Forall_impl; [exact Hd|]. intros d Hx. apply elem_of_seqZ in Hx. unfold is_byte. lia.
Qed.
Lemma flat_map_const {A B} (f : A → list B) n l : (∀ x, length (f x) = n) → length (flat_map f l) = (length l * n)%nat.
Proof. intros H. induction l as [|x l IH]; [done|]. cbn [flat_map length]. rewrite app_length, H, IH. lia. Qed.
Lemma strings_length L k : Z.of_nat (length (strings L k)) = Z.of_nat (length L) ^ Z.of_nat k.
Proof.
  induction k as [|k IH]; [done|]. cbn [strings]. rewrite (flat_map_const _ (length (strings L k))); [|intros x; by rewrite map_length].
  rewrite Nat2Z.inj_mul, IH, Nat2Z.inj_succ, Z.pow_succ_r by lia. done.
Qed.
Lemma digit_strings_length k : Z.of_nat (length (digit_strings k)) = 10 ^ Z.of_nat k.
Proof. apply strings_length. Qed.
Lemma byte_strings_length k : Z.of_nat (length (byte_strings k)) = 256 ^ Z.of_nat k.
Proof. unfold byte_strings. rewrite strings_length, seqZ_length. done. Qed.
Lemma NoDup_flat_map_cons (L : list Z) (M : list bytes) : NoDup L → NoDup M → NoDup (flat_map (λ d, map (cons d) M) L).
Proof.
  intros HL HM. induction HL as [|d L Hd HL IH]; cbn [flat_map]; [constructor|]. apply NoDup_app. split; [|split; [|done]].
  - apply NoDup_fmap_2; [|done]. by intros ?? [= ->].
  - intros x Hx Hy. apply elem_of_list_fmap in Hx. destruct Hx as (m & -> & _). apply elem_of_list_In, in_flat_map in Hy. destruct Hy as (d' & Hd' & Hy).
    apply elem_of_list_In, elem_of_list_fmap in Hy. destruct Hy as (m' & [= <- _] & _). apply Hd. by apply elem_of_list_In.
Qed.
Lemma strings_NoDup L k : NoDup L → NoDup (strings L k).
Proof. intros HL. induction k as [|k IH]; [apply NoDup_singleton|]. by apply NoDup_flat_map_cons. Qed.
Lemma digit_strings_NoDup k : NoDup (digit_strings k).
Proof. apply strings_NoDup. apply (bool_decide_eq_true_1 _). vm_compute. done. Qed.
Lemma byte_strings_NoDup k : NoDup (byte_strings k).
Proof. apply strings_NoDup, NoDup_seqZ. Qed.
Lemma all_numbered_NoDup pre k : NoDup (all_numbered pre k).
Proof. apply NoDup_fmap_2; [|apply digit_strings_NoDup]. intros x y H. by apply app_inv_head in H. Qed.
Lemma all_numbered_length pre k : Z.of_nat (length (all_numbered pre k)) = 10 ^ Z.of_nat k.
Proof. unfold all_numbered. rewrite map_length. apply digit_strings_length. Qed.
Lemma all_numbered_ok pre k : Forall (numbered pre k) (all_numbered pre k).
Proof.
  apply Forall_forall. intros v Hv. apply elem_of_list_fmap in Hv. destruct Hv as (ds & -> & Hds). destruct (digit_strings_ok _ _ Hds). by exists ds.
Qed.
Lemma digits_are_bytes ds : Forall is_digit ds → is_bytes ds.
Proof. intros H. eapply Forall_impl; [exact H|]. unfold is_digit, is_byte. lia. Qed.
Lemma numbered_bytes pre k v : is_bytes pre → numbered pre k v → is_bytes v.
Proof. intros Hpre (ds & _ & Hd & ->). apply Forall_app. split; [done|by apply digits_are_bytes]. Qed.
(** numbers of k+3 digits after any prefix reach at most 2*10^k registers *)
Lemma numbered_hit p pre k vs : 4 ≤ p ≤ 10 → is_bytes pre → Forall (numbered pre (k + 3)) vs → buckets_hit p vs ≤ 2 * 10 ^ Z.of_nat k.
Proof.
  intros Hp Hpre Hvs. rewrite Forall_forall in Hvs.
  set (two := λ ds, [(base3 (pre ++ ds) / 2 ^ (64 - p)) mod 2 ^ p; (base3 (pre ++ ds) / 2 ^ (64 - p) + 1) mod 2 ^ p]).
  assert (2 * 10 ^ Z.of_nat k = Z.of_nat (length (flat_map two (digit_strings k)))) as ->.
  { rewrite (flat_map_const _ 2) by done. rewrite Nat2Z.inj_mul, digit_strings_length. lia. }
  apply buckets_incl. intros v Hv. destruct (Hvs v Hv) as (ds & Hl & Hd & ->).
  rewrite <- (take_drop k ds) in *. set (d1 := take k ds) in *. assert (length d1 = k) as H1.
  { unfold d1. rewrite take_length. rewrite app_length in Hl. unfold d1 in Hl. rewrite take_length, drop_length in Hl. lia. }
  assert (length (drop k ds) = 3%nat) as H3 by (rewrite app_length in Hl; lia).
  apply Forall_app in Hd as [Hd1 Hd2]. destruct (drop k ds) as [|a [|b [|c [|? ?]]]]; try (cbn in H3; lia).
  rewrite !Forall_cons in Hd2. destruct Hd2 as (Ha & Hb & Hc & _). rewrite app_assoc.
  apply elem_of_list_In, in_flat_map. exists d1. split; apply elem_of_list_In; [rewrite <- H1; by apply digit_strings_in|].
  apply three_digits; [done|apply Forall_app; split; [done|by apply digits_are_bytes]|done|done|]. unfold is_digit in Hc. unfold is_byte. lia.
Qed.
