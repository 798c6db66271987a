(** C80, large filters: Bloom.Count on filters of up to 2^50 bits of which at
    least one in 1024 is clear. *)
From Verif Require Import Base FnvSpec Float64 Float64Spec Float64Proofs BitbucketModel BitbucketSpec BitbucketProofs BloomModel BloomSpec BloomProofs
  BloomSizeModel BloomSizeSpec BloomSizeReal BloomSizeProofs BloomSizeEst BloomSizeProps BloomLargeProofs.
From Coq Require Import Reals Lra ZifyBool ZifyNat.
Open Scope Z_scope.

(** Count is the estimate -(m/k) ln(1 - x/m) for x set bits rounded up, with an
    error that grows with m: for y = 1 - x/m it is (m/k) (3/y + 100) 2^-53. *)
Theorem C80_large_partial glog b m k (y := (1 - IZR (set_bits b m) / IZR (Z.of_nat m))%R) (d := (IZR (Z.of_nat m) / IZR k * (3 / y + 100) / 2 ^ 53)%R) :
  log_all_ok glog → bloom_wf b m k → 1 ≤ k → Z.of_nat m ≤ 2 ^ 50 → (/ 1024 <= y)%R →
  ∃ c, Bloom_Count glog b = Ok c ∧ (set_bits b m = 0 → c = 0) ∧ (0 < set_bits b m → 1 ≤ c) ∧
   (fill_estimate (IZR (Z.of_nat m)) (IZR k) (IZR (set_bits b m)) - d <= IZR c <
    fill_estimate (IZR (Z.of_nat m)) (IZR k) (IZR (set_bits b m)) + 1 + d)%R.
Proof.
  intros Hl Hwf Hk Hm Hy. pose proof (set_bits_range _ _ _ Hwf) as Hr. assert (1 ≤ k ≤ 255) as Hk' by (unfold bloom_wf in Hwf; lia).
  assert (Hm1 : 1 ≤ Z.of_nat m) by (unfold bloom_wf in Hwf; lia).
  assert (HM : (1 <= IZR (Z.of_nat m))%R) by (apply (IZR_le 1); lia). assert (HK : (1 <= IZR k)%R) by (apply (IZR_le 1); lia).
  assert (Hd : (0 <= d)%R).
  { unfold d. assert (0 < / y)%R by (apply Rinv_0_lt_compat; lra). assert (0 < / IZR k)%R by (apply Rinv_0_lt_compat; lra).
    assert (0 < / 2 ^ 53)%R by (apply Rinv_0_lt_compat, pow_lt; lra). unfold Rdiv. repeat apply Rmult_le_pos; lra. }
  destruct (decide (set_bits b m = 0)) as [E|E].
  - exists 0. split; [apply (Count_zero glog Hl b m k Hwf); [done|lia|done]|]. split; [done|]. split; [lia|]. rewrite E.
    assert (fill_estimate (IZR (Z.of_nat m)) (IZR k) 0 = 0)%R as ->; [|lra].
    unfold fill_estimate. unfold Rdiv. rewrite Rmult_0_l, Rminus_0_r, ln_1. lra.
  - assert (Hx : set_bits b m < Z.of_nat m).
    { assert (set_bits b m ≠ Z.of_nat m); [|lia]. intros Ex. unfold y in Hy. rewrite Ex in Hy. unfold Rdiv in Hy. rewrite Rinv_r in Hy by lra. lra. }
    destruct (Count_large glog Hl b m k Hwf Hk' Hm ltac:(lia) Hy) as (c & E1 & E2 & E3). exists c. split_and!; [done|lia|lia|apply E3|apply E3].
Qed.
Print Assumptions C80_large_partial.

(** A filter of up to 2^40 bits (128 GiB) with a quarter of them clear: within 1/64. *)
Theorem C80_quarter_partial glog b m k : log_all_ok glog → bloom_wf b m k → 1 ≤ k → Z.of_nat m ≤ 2 ^ 40 → 4 * set_bits b m ≤ 3 * Z.of_nat m →
  ∃ c, Bloom_Count glog b = Ok c ∧ (set_bits b m = 0 → c = 0) ∧ (0 < set_bits b m → 1 ≤ c) ∧
   (fill_estimate (IZR (Z.of_nat m)) (IZR k) (IZR (set_bits b m)) - / 64 <= IZR c <
    fill_estimate (IZR (Z.of_nat m)) (IZR k) (IZR (set_bits b m)) + 1 + / 64)%R.
Proof.
  intros Hl Hwf Hk Hm Hx. assert (Hm1 : 1 ≤ Z.of_nat m) by (unfold bloom_wf in Hwf; lia).
  assert (HM : (1 <= IZR (Z.of_nat m) <= 1099511627776)%R) by (split; [apply (IZR_le 1)|apply IZR_le]; lia).
  assert (HK : (1 <= IZR k)%R) by (apply (IZR_le 1); lia).
  assert (Hx' : (4 * IZR (set_bits b m) <= 3 * IZR (Z.of_nat m))%R) by (rewrite <- !mult_IZR; apply IZR_le; lia).
  set (y := (1 - IZR (set_bits b m) / IZR (Z.of_nat m))%R).
  assert (Hy : (/ 4 <= y)%R).
  { unfold y. assert (IZR (set_bits b m) / IZR (Z.of_nat m) <= 3 / 4)%R; [|lra]. apply (Rmult_le_reg_r (IZR (Z.of_nat m))); [lra|].
    unfold Rdiv at 1. rewrite Rmult_assoc, Rinv_l by lra. lra. }
  destruct (C80_large_partial glog b m k Hl Hwf Hk ltac:(lia)) as (c & E & E0 & E1 & E2); [fold y; lra|].
  exists c. split; [done|]. split; [done|]. split; [done|]. fold y in E2.
  assert (0 < / y <= 4)%R as Hyi. { split; [apply Rinv_0_lt_compat; lra|]. rewrite <- (Rinv_inv 4). apply Rinv_le_contravar; lra. }
  assert (0 < / IZR k <= 1)%R as HKi. { split; [apply Rinv_0_lt_compat; lra|]. rewrite <- Rinv_1. apply Rinv_le_contravar; lra. }
  assert (HW : (0 <= IZR (Z.of_nat m) / IZR k <= 1099511627776)%R) by (unfold Rdiv; split; nra).
  assert (HD : (IZR (Z.of_nat m) / IZR k * (3 / y + 100) / 2 ^ 53 <= / 64)%R).
  { replace (2 ^ 53)%R with 9007199254740992%R by lra. unfold Rdiv at 1 3. 
    assert (IZR (Z.of_nat m) / IZR k * (3 / y + 100) <= 1099511627776 * 112)%R by (apply Rmult_le_compat; unfold Rdiv in *; lra). lra. }
  lra.
Qed.
Print Assumptions C80_quarter_partial.

(** Non-vacuity: 14 bits, 7 hash functions, one item, 7 bits set. *)
Example bloom_large_nonvacuous : ∃ b, (let! b := Bloom_NewBits 14 7 in bloom_ops b [BAdd [97]]) = Ok b ∧ bloom_wf b 14 7 ∧ 4 * set_bits b 14 ≤ 3 * 14 ∧ 0 < set_bits b 14.
Proof.
  destruct bloom_size_nonvacuous as (_ & _ & _ & _ & (b & E & Hwf & Hs) & _). exists b. split; [exact E|]. split; [exact Hwf|lia].
Qed.
