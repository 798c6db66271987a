(** Properties C78 - C81: sizing, Count and ErrorRate of internal/summary/bloom. *)
From Verif Require Import Base FnvSpec Float64 Float64Spec Float64Proofs FloatMore FloatRel BitbucketModel BitbucketSpec BitbucketProofs BloomModel BloomSpec BloomProofs HllCountModel HllCountTop HllCountMore BloomSizeModel BloomSizeSpec BloomSizeReal BloomSizeProofs BloomSizeTop BloomSizeEst BloomSizeMore.
From Coq Require Import Reals Lra ZifyBool ZifyNat.
From Flocq Require Import Core.
Notation float := Float64.float.
Open Scope Z_scope.

(** C78: for n >= 1 items and a rate 0 < p < 1, New returns a filter with the
    optimal number of bits rounded up, and the optimal number of hash functions
    for that many bits rounded up (at most 255); Len(n, p) is the length of its
    serialisation; and it has no false negatives. *)
Theorem C78_sizing glog n p : log_all_ok glog → 1 ≤ n ≤ 2 ^ 50 → ffinite p = true → (0 < f2r p < 1)%R →
  ∃ b m, Bloom_New glog n p = Ok b ∧ Bloom_NewBits (Z.of_nat m) (bl_k b) = Ok b ∧ bloom_wf b m (bl_k b) ∧
    Bloom_LenOf glog n p = Bloom_Len b ∧
    (optimal_bits (IZR n) (f2r p) * (1 - / 2 ^ 49) <= IZR (Z.of_nat m) < optimal_bits (IZR n) (f2r p) * (1 + / 2 ^ 49) + 1)%R ∧
    1 ≤ bl_k b ≤ 255 ∧
    (IZR (bl_k b) < optimal_hashes (IZR (Z.of_nat m)) (IZR n) * (1 + / 2 ^ 50) + 1)%R ∧
    (optimal_hashes (IZR (Z.of_nat m)) (IZR n) * (1 - / 2 ^ 50) <= IZR (bl_k b) ∨
      bl_k b = 255%Z ∧ 254 < optimal_hashes (IZR (Z.of_nat m)) (IZR n) * (1 + / 2 ^ 50))%R ∧
    ∀ os v, Forall blop_ok os → v ∈ bloom_members os → ∃ b', bloom_ops b os = Ok b' ∧ Bloom_Has b' v = Ok true.
Proof.
  intros Hl Hn Fp Hp. destruct (New_ok glog Hl n p Hn Fp Hp) as (b & m & E & Hwf & Hk & EL & Hs & EN & Em & Ek).
  destruct (size_m_ok glog Hl n p Hn Fp Hp) as [Hm _]. destruct (size_k_ok glog Hl n p Hn Fp Hp) as (_ & Hk1 & Hk2).
  exists b, m. rewrite Em at 2 3 4 5 6. rewrite Ek at 3 4 5 6 7. split_and!; try done; try (apply Hm); try lia.
  intros os v Hos Hv. destruct (no_false_negatives m (bl_k b) os v) as (b0 & b' & E0 & E1 & E2); [unfold bloom_wf in Hwf; lia|done|lia|done|done|].
  exists b'. rewrite EN in E0. injection E0 as <-. done.
Qed.
Print Assumptions C78_sizing.
(** C78 fails for n = 0: New returns a filter (0 bits, 255 hash functions) on which every Add panics. *)
Theorem C78_zero_items_refuted glog p : log_all_ok glog → ffinite p = true → (0 < f2r p)%R →
  ∃ b, Bloom_New glog 0 p = Ok b ∧ ∀ v, Bloom_Add b v = Panic.
Proof.
  intros Hl Fp Hp. unfold Bloom_New. rewrite (mk_zero glog p Hl Fp Hp). eexists. split; [vm_compute; reflexivity|].
  intros v. apply Add_zero_panics; done.
Qed.
Print Assumptions C78_zero_items_refuted.

(** C79: a filter sized by New(n, p) has a textbook false positive rate of at
    most 2p once it holds n items (p >= 2^-253: below that the number of hash
    functions is capped). *)
Theorem C79_false_positive_rate glog n p : log_all_ok glog → 1 ≤ n ≤ 2 ^ 50 → ffinite p = true → (/ 2 ^ 253 <= f2r p < 1)%R →
  ∃ b, Bloom_New glog n p = Ok b ∧
    (false_positive_rate (IZR (bl_m b)) (Z.to_nat (bl_k b)) (IZR n) <= 2 * f2r p * (1 + / 2 ^ 38))%R.
Proof.
  intros Hl Hn Fp Hp. assert (0 < f2r p < 1)%R as Hp'. { assert (0 < / 2 ^ 253)%R by (apply Rinv_0_lt_compat, pow_lt; lra). lra. }
  destruct (New_ok glog Hl n p Hn Fp Hp') as (b & m & E & Hwf & Hk & EL & Hs & EN & Em & Ek).
  exists b. split; [done|]. destruct Hwf as (_ & _ & Hm & _). rewrite Hm, Ek, Em. apply New_rate; [done|done|done|done|lra].
Qed.
Print Assumptions C79_false_positive_rate.

(** C80: Count is -(m/k) ln(1 - x/m) for x set bits, rounded up; 0 for an empty
    filter and at least 1 otherwise (up to 2^24 bits, and while a bit is clear). *)
Theorem C80_count_partial glog b m k : log_all_ok glog → bloom_wf b m k → 1 ≤ k → Z.of_nat m ≤ 2 ^ 24 → set_bits b m < Z.of_nat m →
  ∃ c, Bloom_Count glog b = Ok c ∧ (set_bits b m = 0 → c = 0) ∧ (0 < set_bits b m → 1 ≤ c) ∧
   (fill_estimate (IZR (Z.of_nat m)) (IZR k) (IZR (set_bits b m)) - / 8 <= IZR c <
    fill_estimate (IZR (Z.of_nat m)) (IZR k) (IZR (set_bits b m)) + 1 + / 8)%R.
Proof.
  intros Hl Hwf Hk Hm Hx. pose proof (set_bits_range _ _ _ Hwf) as Hr. assert (1 ≤ k ≤ 255) as Hk' by (unfold bloom_wf in Hwf; lia).
  destruct (decide (set_bits b m = 0)) as [E|E].
  - exists 0. split; [apply (Count_zero glog Hl b m k Hwf); [done|lia|done]|]. split; [done|]. split; [lia|]. rewrite E.
    assert (fill_estimate (IZR (Z.of_nat m)) (IZR k) 0 = 0)%R as ->; [|lra].
    unfold fill_estimate. unfold Rdiv. rewrite Rmult_0_l, Rminus_0_r, ln_1. lra.
  - destruct (Count_mid glog Hl b m k Hwf Hk' Hm ltac:(lia)) as (c & E1 & E2 & E3). exists c. split_and!; [done|lia|lia|apply E3|apply E3].
Qed.
Print Assumptions C80_count_partial.
(** C80: Count is -2^63 once every bit is set. *)
Theorem C80_full_refuted glog b m k : log_all_ok glog → log_zero glog → bloom_wf b m k → 1 ≤ k → Z.of_nat m ≤ 2 ^ 53 →
  set_bits b m = Z.of_nat m → Bloom_Count glog b = Ok (- 2 ^ 63).
Proof. intros Hl Hz Hwf Hk Hm Hx. apply (Count_full glog b m k Hwf); [unfold bloom_wf in Hwf; lia|done|done|done]. Qed.
Print Assumptions C80_full_refuted.
(** That never happens to a filter with an odd number of bits >= 3. *)
Theorem C80_odd_never_full m k os : (3 ≤ m)%nat → Z.odd (Z.of_nat m) = true → size_ok m 1 → 0 ≤ k < 256 → Forall blop_ok os →
  ∃ b0 b, Bloom_NewBits (Z.of_nat m) k = Ok b0 ∧ bloom_ops b0 os = Ok b ∧ bloom_wf b m k ∧ set_bits b m < Z.of_nat m.
Proof. exact (odd_not_full m k os). Qed.
Print Assumptions C80_odd_never_full.

(** C81: ErrorRate is a number between 0 and 1: the textbook rate of a filter
    holding x items, where x is the number of set bits (not of items). *)
Theorem C81_error_rate_partial gexp gpow b m k : exp_ok gexp → pow_ok gpow → bloom_wf b m (Z.of_nat k) → Z.of_nat m ≤ 2 ^ 40 →
  ∃ r, Bloom_ErrorRate gexp gpow b = Ok r ∧ ffinite r = true ∧ (0 <= f2r r <= 1)%R ∧
    (Rabs (f2r r - false_positive_rate (IZR (Z.of_nat m)) k (IZR (set_bits b m))) <= / 2 ^ 32)%R.
Proof. intros He Hp Hwf Hm. exact (ErrorRate_ok gexp gpow He Hp b m k Hwf Hm). Qed.
Print Assumptions C81_error_rate_partial.
(** So it is not the false positive rate: a filter with 7 hash functions and half
    of its bits set (1 combination of bits in 128 is covered) reports over 80%. *)
Theorem C81_half_full_refuted gexp gpow b m : exp_ok gexp → pow_ok gpow → bloom_wf b m 7 → Z.of_nat m ≤ 2 ^ 40 →
  2 * set_bits b m = Z.of_nat m →
  ((IZR (set_bits b m) / IZR (Z.of_nat m)) ^ 7 = / 128)%R ∧
  ∃ r, Bloom_ErrorRate gexp gpow b = Ok r ∧ (4 / 5 <= f2r r)%R.
Proof.
  intros He Hp Hwf Hm Hx. destruct (C81_error_rate_partial gexp gpow b m 7 He Hp Hwf Hm) as (r & E & _ & _ & Hr).
  assert (1 ≤ m)%nat as Hm1 by (unfold bloom_wf in Hwf; lia). assert (1 <= IZR (Z.of_nat m))%R as HM by (apply (IZR_le 1); lia).
  assert (IZR (set_bits b m) = IZR (Z.of_nat m) / 2)%R as EX by (rewrite <- Hx, mult_IZR; lra). rewrite EX in *.
  split; [replace (IZR (Z.of_nat m) / 2 / IZR (Z.of_nat m))%R with (/ 2)%R by (field; lra); lra|].
  exists r. split; [done|]. unfold false_positive_rate in Hr. change (INR 7) with (1 + 1 + 1 + 1 + 1 + 1 + 1)%R in Hr.
  replace (- ((1 + 1 + 1 + 1 + 1 + 1 + 1) * (IZR (Z.of_nat m) / 2) / IZR (Z.of_nat m)))%R with (- (7 / 2))%R in Hr by (field; lra).
  pose proof rate_half as H1. assert (/ 2 ^ 32 <= / 1000)%R as H2. { apply Rinv_le_contravar; [lra|]. simpl. lra. }
  apply Rabs_le_inv in Hr. lra.
Qed.
Print Assumptions C81_half_full_refuted.
(** And a full filter with one hash function, for which every Has is true, reports under 65%. *)
Theorem C81_full_refuted gexp gpow b m : exp_ok gexp → pow_ok gpow → bloom_wf b m 1 → Z.of_nat m ≤ 2 ^ 40 →
  set_bits b m = Z.of_nat m →
  (∀ v, is_bytes v → Bloom_Has b v = Ok true) ∧ ∃ r, Bloom_ErrorRate gexp gpow b = Ok r ∧ (f2r r <= 65 / 100)%R.
Proof.
  intros He Hp Hwf Hm Hx. split; [intros v; exact (full_Has b m 1 v Hwf Hx)|].
  destruct (C81_error_rate_partial gexp gpow b m 1 He Hp Hwf Hm) as (r & E & _ & _ & Hr).
  assert (1 ≤ m)%nat as Hm1 by (unfold bloom_wf in Hwf; lia). assert (1 <= IZR (Z.of_nat m))%R as HM by (apply (IZR_le 1); lia).
  exists r. split; [done|]. unfold false_positive_rate in Hr. rewrite Hx in Hr. change (INR 1) with 1%R in Hr.
  replace (- (1 * IZR (Z.of_nat m) / IZR (Z.of_nat m)))%R with (- (1))%R in Hr by (field; lra). rewrite pow_1 in Hr.
  pose proof rate_full1 as H1. assert (/ 2 ^ 32 <= / 1000)%R as H2. { apply Rinv_le_contravar; [lra|]. simpl. lra. }
  change (-1)%R with (- (1))%R in H1. apply Rabs_le_inv in Hr. lra.
Qed.
Print Assumptions C81_full_refuted.

(** Non-vacuity: the correctly rounded functions satisfy the assumptions; 1/100
    is a rate; one item in 14 bits with 7 hash functions sets exactly half of
    them; two items fill 2 bits with one hash function. *)
Definition log_rounded_0 (x : float) : float := if feq x f_zero then Binary.B754_infinity 53 1024 true else log_rounded x.
Example bloom_size_nonvacuous : (∃ glog, log_all_ok glog ∧ log_zero glog) ∧ (∃ gexp, exp_ok gexp) ∧ (∃ gpow, pow_ok gpow) ∧
  (ffinite (f_lit 1 128) = true ∧ / 2 ^ 253 <= f2r (f_lit 1 128) < 1)%R ∧
  (∃ b, (let! b := Bloom_NewBits 14 7 in bloom_ops b [BAdd [97]]) = Ok b ∧ bloom_wf b 14 7 ∧ 2 * set_bits b 14 = 14) ∧
  (∃ b, (let! b := Bloom_NewBits 2 1 in bloom_ops b [BAdd [97]; BAdd [98]]) = Ok b ∧ bloom_wf b 2 1 ∧ set_bits b 2 = 2).
Proof.
  assert (ffinite (f_lit 1 128) = true ∧ / 2 ^ 253 <= f2r (f_lit 1 128) < 1)%R as (H1 & H2 & H3).
  { change 128 with (2 ^ 7). destruct (f_lit_pow 1 7) as [F E]; [lia|lia|]. split; [done|].
    rewrite E. change (IZR (2 ^ 7)) with 128%R. split; [|lra]. apply (Rle_trans _ (/ 2 ^ 7)); [|lra]. apply Rinv_le_contravar; [lra|]. apply Rle_pow; [lra|lia]. }
  split_and!; [| | |done|done|done| |].
  - destruct f_zero_ok as (Fz & Ez & _). exists log_rounded_0. split.
    + intros x Fx Hx. unfold log_rounded_0. rewrite (feq_false x f_zero) by (done || lra). by apply log_rounded_all_ok.
    + intros x Fx Hx. unfold log_rounded_0. replace (feq x f_zero) with true; [done|]. symmetry. apply feq_ok; [done|done|lra].
  - exists exp_rounded. apply exp_rounded_ok.
  - exists pow_rounded. apply pow_rounded_ok.
  - eexists. split; [vm_compute; reflexivity|]. split; [|vm_compute; reflexivity].
    unfold bloom_wf. split_and!; try (done || lia). constructor; [done|unfold size_ok; simpl; lia|repeat constructor; unfold is_byte; lia|reflexivity].
  - eexists. split; [vm_compute; reflexivity|]. split; [|vm_compute; reflexivity].
    unfold bloom_wf. split_and!; try (done || lia). constructor; [done|unfold size_ok; simpl; lia|repeat constructor; unfold is_byte; lia|reflexivity].
Qed.
