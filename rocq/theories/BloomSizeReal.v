(** The textbook false positive rate at the computed sizes. *)
From Verif Require Import Base BaseProofs RealBounds.
From Coq Require Import Reals Lra.
Open Scope R_scope.

Lemma exp_INR n y : exp y ^ n = exp (INR n * y).
Proof.
  induction n as [|n IH]; [simpl; rewrite Rmult_0_l; symmetry; apply exp_0|].
  rewrite S_INR, Rmult_plus_distr_r, Rmult_1_l, exp_plus. simpl. rewrite IH. ring.
Qed.
Lemma exp_le_compat x y : x <= y → exp x <= exp y.
Proof. intros [H| ->]; [left; by apply exp_increasing|lra]. Qed.
Lemma exp_opp_ln2 : exp (- ln 2) = / 2.
Proof. rewrite exp_Ropp, exp_ln by lra. done. Qed.
Lemma rate_bound K k e : 0 < K → 0 <= e < 1 → K * (1 - e) <= INR k < K * (1 + e) + 1 →
  (1 - exp (- (INR k / K * ln 2))) ^ k <= 2 * exp (- (K * (1 - e) * ln 2)).
Proof.
  intros HK He Hk. set (l := ln 2). assert (0 < l) as Hl. { unfold l. rewrite <- ln_1. apply ln_increasing; lra. }
  set (x := INR k / K). assert (INR k = x * K) as Ex by (unfold x; field; lra). rewrite Ex in Hk.
  assert (0 < x) as Hx by nra.
  assert (exp (- (x * l)) <= 1) as He1 by (rewrite <- exp_0; apply exp_le_compat; nra).
  assert (exp (- l) = / 2) as E2 by apply exp_opp_ln2.
  destruct (Rlt_le_dec x 1) as [H1|H1]; [|destruct (Rle_lt_dec 2 x) as [H2|H2]].
  - assert (1 - exp (- (x * l)) <= exp (- l)) as Hb.
    { assert (exp (- l) <= exp (- (x * l))) by (apply exp_le_compat; nra). lra. }
    apply (Rle_trans _ (exp (- l) ^ k)); [apply pow_incr; lra|]. rewrite exp_INR, Ex.
    assert (exp (x * K * - l) <= exp (- (K * (1 - e) * l))) by (apply exp_le_compat; nra).
    pose proof (exp_pos (- (K * (1 - e) * l))). lra.
  - apply (Rle_trans _ 1).
    + rewrite <- (pow1 k) at 2. apply pow_incr. pose proof (exp_pos (- (x * l))). lra.
    + assert (exp (- l) <= exp (- (K * (1 - e) * l))); [|lra]. apply exp_le_compat. assert (K * (1 - e) <= 1) by nra. nra.
  - assert (1 - exp (- (x * l)) <= exp (- l + 2 * l * (x - 1) / x)) as Hb.
    { rewrite exp_plus, E2. pose proof (exp_ineq1_le (2 * l * (x - 1) / x)) as HA.
      assert (exp (- (x * l)) = / 2 * exp (- (x - 1) * l)) as ->. { rewrite <- E2, <- exp_plus. f_equal. ring. }
      pose proof (exp_ineq1_le (- (x - 1) * l)) as HB.
      assert (l * (x - 1) <= 2 * l * (x - 1) / x) as HC; [|lra].
      apply (Rmult_le_reg_r x); [lra|]. replace (2 * l * (x - 1) / x * x) with (2 * l * (x - 1)) by (field; lra).
      assert (0 <= l * (x - 1)) by (apply Rmult_le_pos; lra). nra. }
    apply (Rle_trans _ (exp (- l + 2 * l * (x - 1) / x) ^ k)); [apply pow_incr; lra|]. rewrite exp_INR, Ex.
    replace (x * K * (- l + 2 * l * (x - 1) / x)) with (- (l * (2 * K - x * K))) by (field; lra).
    apply (Rle_trans _ (exp (l + - (K * (1 - e) * l)))).
    + apply exp_le_compat. assert (K * (1 - e) - 1 <= 2 * K - x * K) by lra. nra.
    + rewrite exp_plus. unfold l at 1. rewrite exp_ln by lra. lra.
Qed.
Lemma pow_lipschitz a b k : 0 <= a <= 1 → 0 <= b <= 1 → Rabs (a ^ k - b ^ k) <= INR k * Rabs (a - b).
Proof.
  intros Ha Hb. induction k as [|k IH]; [simpl; rewrite Rminus_eq_0, Rabs_R0; lra|]. rewrite S_INR. simpl.
  replace (a * a ^ k - b * b ^ k) with (a * (a ^ k - b ^ k) + (a - b) * b ^ k) by ring.
  assert (0 <= b ^ k <= 1). { split; [apply pow_le; lra|]. rewrite <- (pow1 k). apply pow_incr. lra. }
  eapply Rle_trans; [apply Rabs_triang|]. rewrite !Rabs_mult, (Rabs_pos_eq a), (Rabs_pos_eq (b ^ k)) by lra.
  pose proof (Rabs_pos (a ^ k - b ^ k)). pose proof (Rabs_pos (a - b)). nra.
Qed.
(** exp is 1-Lipschitz below 0 *)
Lemma exp_lipschitz x y : x <= 0 → y <= 0 → Rabs (exp x - exp y) <= Rabs (x - y).
Proof.
  assert (∀ x y, x <= y → y <= 0 → Rabs (exp x - exp y) <= Rabs (x - y)) as H.
  { intros a b Hab Hb. assert (exp a <= exp b) by (by apply exp_le_compat). rewrite (Rabs_left1 (exp a - exp b)), (Rabs_left1 (a - b)) by lra.
    assert (exp b <= 1) by (rewrite <- exp_0; by apply exp_le_compat). pose proof (exp_pos b).
    assert (exp a = exp b * exp (a - b)) as -> by (rewrite <- exp_plus; f_equal; lra).
    pose proof (exp_ineq1_le (a - b)). nra. }
  intros Hx Hy. destruct (Rle_lt_dec x y) as [Hxy|Hxy]; [by apply H|]. rewrite (Rabs_minus_sym (exp x)), (Rabs_minus_sym x). apply H; lra.
Qed.
