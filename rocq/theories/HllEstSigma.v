(** The loop of sigma computes the published series, up to rounding. *)
From Verif Require Import Base BaseProofs Float64 Float64Spec Float64Proofs HllCountModel FloatMore FloatRel HllCountLoops HllEstSpec HllEstArith.
From Coq Require Import Reals Lra.
From Flocq Require Import Core Relative.
Notation float := Float64.float.
Open Scope R_scope.

(** term k of the series and the partial sums *)
Definition sterm (x : R) (k : nat) : R := x ^ (2 ^ S k) * 2 ^ k.
Fixpoint spart (x : R) (k : nat) : R := match k with O => x | S k => spart x k + sterm x k end.
Lemma spart_sum x n : x + sum_f_R0 (sterm x) n = spart x (S n).
Proof. induction n as [|n IH]; [done|]. cbn [sum_f_R0]. rewrite <- Rplus_assoc, IH. done. Qed.
Lemma pow2_S k : (2 ^ S k = 2 ^ k + 2 ^ k)%nat.
Proof. cbn. lia. Qed.
Lemma sq_pow (x : R) k : x ^ (2 ^ S k) = x ^ (2 ^ k) * x ^ (2 ^ k).
Proof. rewrite pow2_S, pow_add. done. Qed.
Lemma xpow_range x k : 0 <= x <= 1 → 0 <= x ^ k <= 1.
Proof. intros H. induction k as [|k IH]; cbn; [lra|]. nra. Qed.
Lemma sterm_nonneg x k : 0 <= x <= 1 → 0 <= sterm x k.
Proof. intros H. unfold sterm. apply Rmult_le_pos; [by apply xpow_range|]. apply pow_le. lra. Qed.
Lemma spart_mono x k n : 0 <= x <= 1 → (k <= n)%nat → spart x k <= spart x n.
Proof. intros H Hk. induction Hk as [|n Hk IH]; [lra|]. cbn. pose proof (sterm_nonneg x n H). lra. Qed.
(** once x^(2^(k+1)) <= 1/4 the terms at least halve *)
Lemma sterm_half x k : 0 <= x <= 1 → x ^ (2 ^ S k) <= / 4 → sterm x (S k) <= / 2 * sterm x k ∧ x ^ (2 ^ S (S k)) <= / 4.
Proof.
  intros H H4. unfold sterm. rewrite (sq_pow x (S k)). pose proof (xpow_range x (2 ^ S k) H) as Hr. set (a := x ^ (2 ^ S k)) in *.
  assert (0 < 2 ^ k) by (apply pow_lt; lra). change (2 ^ S k) with (2 * 2 ^ k). split; [|nra].
  replace (a * a * (2 * 2 ^ k)) with (2 * a * (a * 2 ^ k)) by ring. apply Rmult_le_compat_r; [apply Rmult_le_pos; lra|]. lra.
Qed.
Lemma spart_tail x k : 0 <= x <= 1 → x ^ (2 ^ S k) <= / 4 → ∀ n, spart x (k + n)%nat <= spart x k + 2 * sterm x k.
Proof.
  intros H H4 n. cut (spart x (k + n)%nat + 2 * sterm x (k + n)%nat <= spart x k + 2 * sterm x k ∧ x ^ (2 ^ S (k + n)) <= / 4).
  { intros [Hc _]. pose proof (sterm_nonneg x (k + n) H). lra. }
  induction n as [|n [IH1 IH2]]; [rewrite Nat.add_0_r; split; [lra|done]|].
  rewrite Nat.add_succ_r. destruct (sterm_half x (k + n) H IH2) as [H1 H2]. split; [|done]. cbn [spart]. lra.
Qed.
Lemma Un_cv_le U l b N : Un_cv U l → (∀ n, (N <= n)%nat → U n <= b) → l <= b.
Proof.
  intros HU Hb. destruct (Rle_lt_dec l b) as [|Hl]; [done|]. destruct (HU (l - b)) as [n0 Hn]; [lra|].
  specialize (Hn (Nat.max N n0) ltac:(lia)). specialize (Hb (Nat.max N n0) ltac:(lia)). unfold R_dist in Hn. apply Rabs_def2 in Hn. lra.
Qed.
Lemma Un_cv_ge U l b N : Un_cv U l → (∀ n, (N <= n)%nat → b <= U n) → b <= l.
Proof.
  intros HU Hb. destruct (Rle_lt_dec b l) as [|Hl]; [done|]. destruct (HU (b - l)) as [n0 Hn]; [lra|].
  specialize (Hn (Nat.max N n0) ltac:(lia)). specialize (Hb (Nat.max N n0) ltac:(lia)). unfold R_dist in Hn. apply Rabs_def2 in Hn. lra.
Qed.
Lemma sigma_bounds x s k : 0 <= x <= 1 → is_sigma x s → x ^ (2 ^ S k) <= / 4 → spart x k <= s <= spart x k + 2 * sterm x k.
Proof.
  intros H Hs H4. assert (Un_cv (λ n, spart x (S n)) s) as HU.
  { intros e He. destruct (Hs e He) as [N HN]. exists N. intros n Hn. rewrite <- spart_sum. by apply HN. }
  split.
  - apply (Un_cv_ge _ _ _ k HU). intros n Hn. apply spart_mono; [done|lia].
  - apply (Un_cv_le _ _ _ k HU). intros n Hn. replace (S n) with (k + (S n - k))%nat by lia. by apply spart_tail.
Qed.
(** the series converges for x < 1 *)
Lemma sigma_exists x : 0 <= x < 1 → ∃ s, is_sigma x s.
Proof.
  intros H. destruct (pow_lt_1_zero x ltac:(rewrite Rabs_pos_eq; lra) (/ 4) ltac:(lra)) as [N HN].
  assert (x ^ (2 ^ S N) <= / 4) as H4.
  { specialize (HN (2 ^ S N)%nat). rewrite Rabs_pos_eq in HN by (apply xpow_range; lra). left. apply HN.
    assert (N < 2 ^ N)%nat by (apply Nat.pow_gt_lin_r; lia). rewrite pow2_S. lia. }
  assert (Un_growing (λ n, x + sum_f_R0 (sterm x) n)) as Hg.
  { intros n. cbn [sum_f_R0]. pose proof (sterm_nonneg x (S n) ltac:(lra)). lra. }
  destruct (growing_cv _ Hg) as [s Hs]; [|by exists s].
  exists (spart x N + 2 * sterm x N). intros r [n ->]. rewrite spart_sum.
  destruct (le_lt_dec N (S n)) as [Hn|Hn].
  - replace (S n) with (N + (S n - N))%nat by lia. apply spart_tail; [lra|done].
  - pose proof (spart_mono x (S n) N ltac:(lra) ltac:(lia)). pose proof (sterm_nonneg x N ltac:(lra)). lra.
Qed.
Lemma is_sigma_unique x s s' : is_sigma x s → is_sigma x s' → s = s'.
Proof. apply UL_sequence. Qed.

(** what an addition absorbs is small: z + t rounds to z *)
Lemma absorbed z t : fmt z → pw (-900) <= z → 0 <= t → rnd (z + t) = z → t <= z * vv.
Proof.
  intros Fz Hz Ht E. pose proof (pw_pos (-900)) as P9. destruct (rnd_rel' (z + t)) as (d & Hd & Ed).
  { rewrite Rabs_pos_eq by lra. pose proof (bpow_le radix2 (-1000) (-900) ltac:(lia)). lra. }
  rewrite E in Ed. apply Rabs_le_inv in Hd. assert (uu = / 2 * vv) as Eu by (unfold uu, vv; rewrite (pw_P (-52)); change (-52 - 1)%Z with (-53)%Z; lra).
  pose proof vv_pos. assert ((z + t) * (1 - uu) <= z) by (rewrite Ed at 2; apply Rmult_le_compat_l; lra).
  rewrite Eu in *. rewrite vv_val in *. nra.
Qed.
Lemma pw_mid e : (-900 <= e <= 900)%Z → pw (-900) <= pw e <= pw 900.
Proof. intros H. split; apply bpow_le; lia. Qed.
Lemma pow_pw k : 2 ^ k = pw (Z.of_nat k).
Proof. symmetry. apply bpow_pow. Qed.
Lemma sigma_exit k z t X S0 : (k <= 27)%nat → 0 <= X <= 1 → ffinite z = true → ffinite t = true →
  ffinite (fadd z t) = true → af z (2 ^ S k * vv) (spart X k) → af t (2 ^ S k * vv) (sterm X k) →
  pw (-18) <= spart X k <= 2 ^ k → f2r (fadd z t) = f2r z → is_sigma X S0 → af (fadd z t) (pw (-22)) S0.
Proof.
  intros Hk HX Fz Ft Fzt Hz Ht Hzl Q HS. pose proof vv_pos as Hv.
  assert (1 <= 2 ^ k <= pw 27) as B2 by (rewrite pow_pw; split; [apply (bpow_le radix2 0); lia|apply bpow_le; lia]).
  assert (pw 27 * vv = / 33554432) as E27 by (unfold vv; rewrite <- bpow_plus; reflexivity).
  assert (2 ^ k * vv <= / 33554432) as B25 by (rewrite <- E27; apply Rmult_le_compat_r; lra).
  assert (0 <= 2 ^ k * vv) as B0 by (apply Rmult_le_pos; lra).
  change (2 ^ S k) with (2 * 2 ^ k) in *. set (r := 2 * 2 ^ k * vv) in *. assert (0 <= r <= / 16777216) as Br by (unfold r; lra).
  destruct (af_bounds _ _ _ Hz) as [Bz1 Bz2]; [lra|]. destruct (af_bounds _ _ _ Ht) as [Bt1 Bt2]; [lra|].
  pose proof (sterm_nonneg X k HX) as Ht0. pose proof (pw_pos (-18)) as P18.
  assert (0 <= f2r t) as Ht1 by nra. assert (0 <= f2r z) as Hz1 by nra.
  assert (sterm X k <= 2 ^ k) as Htu by (unfold sterm; pose proof (xpow_range X (2 ^ S k) HX); nra).
  assert (pw 27 = 134217728) as Ep27 by reflexivity. assert (pw 30 = 1073741824) as Ep30 by reflexivity.
  destruct (fadd_ok z t Fz Ft) as (_ & Ea & _). { apply (abs_max _ 30); [lia|]. split; [lra|].
    assert (spart X k * (1 + 2 * r) <= 2 ^ k * 2) by (apply Rmult_le_compat; lra). assert (sterm X k * (1 + 2 * r) <= 2 ^ k * 2) by (apply Rmult_le_compat; lra). lra. }
  assert (pw (-900) <= f2r z) as Mz.
  { assert (pw (-900) <= / 2 * pw (-18)) by (change (/ 2) with (pw (-1)); rewrite <- bpow_plus; apply bpow_le; lia). nra. }
  rewrite Q in Ea. pose proof (absorbed (f2r z) (f2r t) (fmt_f2r z) Mz Ht1 (eq_sym Ea)) as Hab.
  assert (0 <= vv * spart X k) as Hvs by (apply Rmult_le_pos; lra).
  assert (f2r t <= vv * spart X k * (1 + 2 * r)) as Htb by nra.
  assert (sterm X k <= 2 * (vv * spart X k)) as Hsm by nra.
  assert (X ^ (2 ^ S k) <= / 4) as H4.
  { unfold sterm in Hsm. assert (X ^ (2 ^ S k) * 2 ^ k <= 2 * vv * 2 ^ k) as Hq by nra. apply Rmult_le_reg_r in Hq; [|lra]. rewrite vv_val in Hq. lra. }
  pose proof (sigma_bounds X S0 k HX HS H4) as HS0.
  split; [done|]. rewrite Q. destruct Hz as [_ (_ & Hz3 & Hz4)].
  assert (pw (-22) = / 4194304) as E22 by reflexivity. rewrite E22. split; [lra|]. split.
  - assert (exp (- / 4194304) * (1 + 4 * vv) <= exp (- r)) as He.
    { assert (exp (- r) * exp (- / 8388608) >= exp (- / 4194304)) as H1 by (rewrite <- exp_plus; apply Rle_ge, exp_leq; lra).
      assert (exp (- / 8388608) * (1 + 4 * vv) <= 1) as H2.
      { pose proof (exp_ineq1_le (/ 8388608)). pose proof (exp_opp_r (/ 8388608)). pose proof (exp_m (- / 8388608)) as Hm.
        apply (Rle_trans _ (exp (- / 8388608) * exp (/ 8388608))); [apply Rmult_le_compat_l; [lra|]; rewrite vv_val; lra|lra]. }
      pose proof (exp_m (- r)). pose proof (exp_m (- / 8388608)). pose proof (exp_m (- / 4194304)).
      apply (Rle_trans _ (exp (- r) * exp (- / 8388608) * (1 + 4 * vv))); [apply Rmult_le_compat_r; lra|]. rewrite Rmult_assoc. rewrite <- (Rmult_1_r (exp (- r))) at 2. apply Rmult_le_compat_l; [lra|done]. }
    eapply Rle_trans; [|exact Hz3]. assert (S0 <= spart X k * (1 + 4 * vv)) as HSu by lra.
    eapply Rle_trans; [apply Rmult_le_compat_r; [left; apply exp_pos|exact HSu]|]. rewrite Rmult_assoc. apply Rmult_le_compat_l; [lra|]. lra.
  - eapply Rle_trans; [exact Hz4|]. apply Rmult_le_compat; [lra|left; apply exp_pos|lra|]. apply exp_leq. lra.
Qed.
Lemma sigma_loop_err n k x y z X s : (k + n = 27)%nat → pw (-18) <= X <= 1 →
  af x ((2 ^ k - 1) * vv) (X ^ (2 ^ k)) → pw (-150) <= X ^ (2 ^ k) → iv y (2 ^ k) (2 ^ k) →
  af z (2 ^ S k * vv) (spart X k) → spart X k <= 2 ^ k →
  sigma_loop (S n) x y z = Some s → ∀ S0, is_sigma X S0 → af s (pw (-22)) S0.
Proof.
  revert k x y z. induction n as [|n IH]; intros k x y z Hk HX Hx Hxl Hy Hz Hzu E S0 HS.
  all: assert (0 <= X <= 1) as HX' by (pose proof (pw_pos (-18)); lra).
  all: assert (1 <= 2 ^ k <= pw 27) as B2 by (rewrite pow_pw; split; [apply (bpow_le radix2 0); lia|apply bpow_le; lia]).
  all: pose proof vv_pos as Hv.
  all: assert (2 ^ S k = 2 * 2 ^ k) as E2 by reflexivity.
  all: assert (pw 27 * vv = / 33554432) as E27 by (unfold vv; rewrite <- bpow_plus; reflexivity).
  all: assert (2 ^ k * vv <= / 33554432) as B25 by (rewrite <- E27; apply Rmult_le_compat_r; lra).
  all: assert (0 <= 2 ^ k * vv) as B0 by (apply Rmult_le_pos; lra).
  all: assert (vv <= 2 ^ k * vv) as Bv by nra.
  all: pose proof (xpow_range X (2 ^ k) HX') as Hxr.
  all: assert (pw (-18) <= spart X k) as Hzl by (apply (Rle_trans _ X); [lra|]; apply (spart_mono X 0 k HX'); lia).
  all: cbn [sigma_loop] in E.
  all: assert (pw (-150) * pw (-150) = pw (-300)) as E300 by (rewrite <- bpow_plus; done).
  all: pose proof (pw_pos (-150)) as P150.
  all: assert (pw (-300) <= X ^ (2 ^ S k)) as Hxl2 by (rewrite sq_pow, <- E300; apply Rmult_le_compat; lra).
  all: pose proof (xpow_range X (2 ^ S k) HX') as Hxr2.
  all: pose proof (pw_mid (-300) ltac:(lia)) as M300.
  all: assert (1 <= pw 900) as M900 by (apply (bpow_le radix2 0); lia).
  all: assert (af (fmul x x) ((2 ^ S k - 1) * vv) (X ^ (2 ^ S k))) as Hxx by
    (eapply af_weaken; [rewrite sq_pow; apply af_mul; [exact Hx|exact Hx|right; rewrite <- sq_pow; lra|lra]|rewrite E2; lra]).
  all: assert (sterm X k <= 2 ^ k) as Ht1 by (unfold sterm; nra).
  all: assert (pw (-300) <= sterm X k) as Ht2 by (unfold sterm; pose proof (pw_pos (-300)); nra).
  all: assert (pw 27 <= pw 900 / 4) as M27 by (change 4 with (pw 2); unfold Rdiv; rewrite <- bpow_opp, <- bpow_plus; apply bpow_le; lia).
  all: assert (af (fmul (fmul x x) y) (2 ^ S k * vv) (sterm X k)) as Ht by
    (eapply af_weaken; [unfold sterm; apply af_mul; [exact Hxx|apply af_iv; [exact Hy|lra]|right; fold (sterm X k); lra|rewrite E2; lra]|rewrite E2; lra]).
  all: assert (af (fadd z (fmul (fmul x x) y)) (2 ^ S (S k) * vv) (spart X (S k))) as Hz' by
    (eapply af_weaken; [cbn [spart]; apply af_add; [exact Hz|exact Ht|right; pose proof (pw_pos (-18)); lra|rewrite E2; lra]|change (2 ^ S (S k)) with (2 * 2 ^ S k); rewrite E2; lra]).
  all: destruct (feq (fadd z (fmul (fmul x x) y)) z) eqn:Q.
  1, 3: injection E as <-; apply feq_ok in Q; [|apply Hz'|apply Hz]; eapply sigma_exit; [|exact HX'|apply Hz|apply Ht|apply Hz'|exact Hz|exact Ht|lra|exact Q|exact HS]; lia.
  - discriminate.
  - destruct (af_bounds _ _ _ Ht) as [Bt1 Bt2]; [rewrite E2; lra|].
    assert (pw (-80) <= f2r (fmul (fmul x x) y)) as Hbig.
    { (* else it would have been absorbed *)
      destruct (Rle_lt_dec (pw (-80)) (f2r (fmul (fmul x x) y))) as [|Hlt]; [done|]. exfalso.
      assert (feq (fadd z (fmul (fmul x x) y)) z = true); [|congruence].
      apply feq_ok; [apply Hz'|apply Hz|].
      destruct (af_bounds _ _ _ Hz) as [Bz1 Bz2]; [rewrite E2; lra|].
      assert (0 <= f2r (fmul (fmul x x) y)) by (pose proof (pw_pos (-300)); rewrite E2 in Bt1; nra).
      pose proof (pw_pos (-18)). assert (pw (-20) = / 4 * pw (-18)) as E20 by (change (/ 4) with (pw (-2)); rewrite <- bpow_plus; done).
      assert (pw (-20) <= f2r z) as Bzl by (rewrite E2 in Bz1; nra).
      assert (pw (-80) <= 1) by (apply (bpow_le radix2 (-80) 0); lia). assert (pw 27 = 134217728) as Ep27 by reflexivity. assert (pw 30 = 1073741824) as Ep30 by reflexivity.
      assert (pw (-80) <= pw (-20 - 54)) by (apply bpow_le; lia).
      destruct (fadd_ok z (fmul (fmul x x) y)) as (_ & Ea & _); [apply Hz|apply Ht|apply (abs_max _ 30); [lia|]; pose proof (pw_pos (-20)); rewrite E2 in Bz2; split; [lra|nra]|].
      rewrite Ea. apply (absorb _ _ (-20)); [apply fmt_f2r|done|lia|lra]. }
    assert (pw (-150) <= X ^ (2 ^ S k)) as Hxl3.
    { rewrite E2 in Bt2. assert (pw (-80) <= 2 * sterm X k) as H1 by (pose proof (pw_pos (-80)); pose proof (sterm_nonneg X k HX'); nra).
      assert (pw (-80) <= X ^ (2 ^ S k) * pw 28) as H2. { eapply Rle_trans; [exact H1|]. change 28%Z with (27 + 1)%Z. rewrite pw_S. unfold sterm. nra. }
      apply (Rmult_le_reg_r (pw 28)); [apply pw_pos|]. eapply Rle_trans; [|exact H2]. rewrite <- bpow_plus. apply bpow_le. lia. }
    apply (IH (S k) (fmul x x) (fmul (f_of_Z 2) y) (fadd z (fmul (fmul x x) y))); [lia|done|exact Hxx|done| |exact Hz'| |exact E|exact HS].
    + rewrite pow_pw in *. replace (Z.of_nat (S k)) with (Z.of_nat k + 1)%Z by lia. rewrite <- !pow_pw in *.
      eapply (fmul_iv _ _ _ _ _ _ _ _ 40); [exact two_iv|exact Hy|lra|lra|apply fmt_pw; lia|rewrite pw_S, <- pow_pw; lra|apply fmt_pw; lia|rewrite pw_S, <- pow_pw; lra|lia|apply bpow_le; lia].
    + cbn [spart]. rewrite E2. lra.
Qed.
Lemma sigma_err c p s S0 fuel : (0 <= c < 2 ^ p)%Z → (4 <= p <= 18)%Z → (40 <= fuel)%nat → Hll_sigma fuel c (2 ^ p) = Some s →
  is_sigma (IZR c * pw (- p)) S0 → af s (pw (-22)) S0.
Proof.
  intros Hc Hp Hf E HS. pose proof (ratio_iv c p ltac:(lia) ltac:(lia)) as Hx.
  pose proof (IZR_pw_lt c p ltac:(lia) ltac:(lia)) as Hlt. pose proof (pw_pos (- p)) as Hpp.
  unfold Hll_sigma in E. set (x := fdiv (f_of_Z c) (f_of_Z (2 ^ p))) in *.
  assert (feq x f_one = false) as Hne.
  { apply feq_false; [apply Hx|apply f_one_iv|]. rewrite (iv_eq _ _ Hx), (iv_eq _ _ f_one_iv). lra. }
  rewrite Hne in E.
  destruct (decide (c = 0)%Z) as [->|Hc0].
  - rewrite Rmult_0_l in *. assert (S0 = 0) as ->.
    { apply (is_sigma_unique 0); [done|]. intros e He. exists O. intros n _.
      assert (∀ n, sum_f_R0 (λ k, 0 ^ (2 ^ S k) * 2 ^ k) n = 0) as Hz.
      { clear. intros n. assert (∀ k, 0 ^ (2 ^ S k) * 2 ^ k = 0) as H0. { intros k. rewrite pow_i; [lra|]. assert (0 < 2 ^ k)%nat by (apply Nat.neq_0_lt_0, Nat.pow_nonzero; lia). rewrite pow2_S. lia. }
        induction n as [|n IH]; cbn [sum_f_R0]; rewrite H0; [done|]. rewrite IH. lra. }
      rewrite Hz. unfold R_dist. rewrite Rminus_0_r, Rplus_0_r, Rabs_R0. done. }
    assert (∀ x y z, iv x 0 0 → iv z 0 0 → iv y 1 1 → iv (fadd z (fmul (fmul x x) y)) 0 0) as Hst.
    { clear. intros x y z Hx Hz Hy.
      assert (iv (fmul x x) 0 0) as H1 by (eapply (fmul_iv x x 0 0 0 0 0 0 0); [done|done|lra|lra|apply generic_format_0|lra|apply generic_format_0|lra|lia|apply bpow_ge_0]).
      assert (iv (fmul (fmul x x) y) 0 0) as H2.
      { eapply (fmul_iv _ _ 0 0 1 1 0 0 0); [exact H1|exact Hy|lra|lra|apply generic_format_0|lra|apply generic_format_0|lra|lia|apply bpow_ge_0]. }
      eapply (fadd_iv _ _ 0 0 0 0 0 0 0); [exact Hz|exact H2|lra|lra|apply generic_format_0|lra|apply generic_format_0|lra|lia|apply bpow_ge_0]. }
    pose proof (Hst x f_one x Hx Hx f_one_iv) as H3. destruct fuel as [|fuel]; [lia|]. cbn [sigma_loop] in E.
    assert (feq (fadd x (fmul (fmul x x) f_one)) x = true) as Hq. { apply feq_ok; [apply H3|apply Hx|]. rewrite (iv_eq _ _ H3), (iv_eq _ _ Hx). done. }
    rewrite Hq in E. injection E as <-. eapply af_weaken; [apply af_iv; [exact H3|lra]|apply bpow_ge_0].
  - pose proof (IZR_pw_ge1 c p ltac:(lia)) as Hge.
    assert (pw (-18) <= pw (- p)) by (apply bpow_le; lia).
    destruct (sigma_total c p Hc Hp) as (s' & Es' & _). 
    assert (fmt (IZR c * pw (- p))) as Fc.
    { apply fmt_F2R; [|lia]. assert (2 ^ p <= 2 ^ 18)%Z by (apply Z.pow_le_mono_r; lia). lia. }
    destruct (sigma_loop_total 27 0 x f_one x (IZR c * pw (- p))) as (s2 & E2 & Hs2); [lia| | | |done|lra|].
    + destruct Hx as [Fx Hx]. split; [done|]. split; [lra|].
      pose proof (ratio_iv (2 ^ 18 - 1) 18 ltac:(lia) ltac:(lia)) as H1. change (Z.opp 18) with (-18)%Z in H1. cbn [xf]. rewrite (iv_eq _ _ H1).
      assert (IZR (2 ^ 18 - 1) * pw (-18) = 1 - pw (-18)) as ->.
      { rewrite minus_IZR, <- pw_IZR by lia. rewrite Rmult_minus_distr_r, <- bpow_plus. change (pw (18 + -18)) with 1. lra. }
      lra.
    + exact f_one_iv.
    + eapply iv_weaken; [exact Hx|lra|]. change (pw (Z.of_nat 0)) with 1. lra.
    + assert (s2 = s) as ->. { apply (sigma_loop_mono _ fuel) in E2; [congruence|lia]. }
      pose proof (iv_eq _ _ Hx) as Ex. assert (0 <= vv) as Hv by apply bpow_ge_0. set (X := IZR c * pw (- p)) in *.
      assert (af x 0 X) as Hax by (apply af_iv; [exact Hx|lra]).
      assert (pw (-150) <= pw (-18)) by (apply bpow_le; lia).
      apply (sigma_loop_err 27 0 x f_one x X s); [lia|lra| | |exact f_one_iv| | |exact E2|exact HS].
      * cbn [Nat.pow pow]. replace ((1 - 1) * vv) with 0 by lra. rewrite Rmult_1_r. exact Hax.
      * cbn [Nat.pow pow]. lra.
      * cbn [spart]. eapply af_weaken; [exact Hax|]. change (2 ^ 1) with (2 * 1). lra.
      * cbn [spart pow]. lra.
Qed.
