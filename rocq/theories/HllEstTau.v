(** The loop of tau computes the published series, up to rounding. *)
From Verif Require Import Base BaseProofs Float64 Float64Spec Float64Proofs HllCountModel FloatMore FloatRel HllCountLoops HllEstSpec HllEstArith HllEstSigma.
From Coq Require Import Reals Lra.
From Flocq Require Import Core Relative.
Notation float := Float64.float.
Open Scope R_scope.

Lemma root_S k x : root (S k) x = sqrt (root k x).
Proof. done. Qed.
Lemma root_range x k : 0 <= x <= 1 → x <= root k x <= 1.
Proof.
  intros H. induction k as [|k IH]; [cbn; lra|]. rewrite root_S. split.
  - apply (Rle_trans _ (root k x)); [lra|]. rewrite <- (sqrt_square (root k x)) at 1 by lra. apply sqrt_le_1_alt. nra.
  - rewrite <- sqrt_1. apply sqrt_le_1_alt. lra.
Qed.
Lemma root_sq x k : 0 <= x <= 1 → root (S k) x * root (S k) x = root k x.
Proof. intros H. rewrite root_S. apply sqrt_sqrt. pose proof (root_range x k H). lra. Qed.
Lemma root_1_le x k : 0 <= x <= 1 → root 1 x <= root (S k) x.
Proof. intros H. induction k as [|k IH]; [lra|]. eapply Rle_trans; [exact IH|]. rewrite (root_S (S k)). pose proof (root_range x (S k) H).
  rewrite <- (sqrt_square (root (S k) x)) at 1 by lra. apply sqrt_le_1_alt. nra. Qed.

(** what the program sums *)
Definition tterm (x : R) (k : nat) : R := (1 - root (S k) x) * root (S k) x * / 2 ^ S k.
Fixpoint tpart (x : R) (k : nat) : R := match k with O => 0 | S k => tpart x k + tterm x k end.
(** what Ertl sums *)
Definition eterm (x : R) (k : nat) : R := (1 - root (S k) x) ^ 2 / 2 ^ S k.
Fixpoint epart (x : R) (k : nat) : R := match k with O => 1 - x | S k => epart x k - eterm x k end.
Lemma epart_sum x n : / 3 * (1 - x - sum_f_R0 (eterm x) n) = / 3 * epart x (S n).
Proof. f_equal. induction n as [|n IH]; [done|]. cbn [sum_f_R0]. change (epart x (S (S n))) with (epart x (S n) - eterm x (S n)). rewrite <- IH. ring. Qed.
Lemma part_eq x k : 0 <= x <= 1 → epart x k = 3 * tpart x k + (1 - root k x) * / 2 ^ k.
Proof.
  intros H. induction k as [|k IH]; [cbn; lra|]. cbn [epart tpart]. rewrite IH. unfold eterm, tterm. rewrite <- (root_sq x k H).
  change (2 ^ S k) with (2 * 2 ^ k). assert (0 < 2 ^ k) by (apply pow_lt; lra). field. lra.
Qed.
Lemma tterm_nonneg x k : 0 <= x <= 1 → 0 <= tterm x k.
Proof.
  intros H. unfold tterm. pose proof (root_range x (S k) H). assert (0 < / 2 ^ S k) by (apply Rinv_0_lt_compat, pow_lt; lra).
  apply Rmult_le_pos; [apply Rmult_le_pos|]; lra.
Qed.
Lemma eterm_nonneg x k : 0 <= eterm x k.
Proof. unfold eterm, Rdiv. apply Rmult_le_pos; [apply pow2_ge_0|]. left. apply Rinv_0_lt_compat, pow_lt. lra. Qed.
Lemma tpart_mono x k n : 0 <= x <= 1 → (k <= n)%nat → tpart x k <= tpart x n.
Proof. intros H Hk. induction Hk as [|n Hk IH]; [lra|]. cbn. pose proof (tterm_nonneg x n H). lra. Qed.
Lemma epart_anti x k n : (k <= n)%nat → epart x n <= epart x k.
Proof. intros Hk. induction Hk as [|n Hk IH]; [lra|]. cbn. pose proof (eterm_nonneg x n). lra. Qed.
Lemma rest_nonneg x k : 0 <= x <= 1 → 0 <= (1 - root k x) * / 2 ^ k.
Proof. intros H. pose proof (root_range x k H). apply Rmult_le_pos; [lra|]. left. apply Rinv_0_lt_compat, pow_lt. lra. Qed.
Lemma tau_bounds x t k : 0 <= x <= 1 → is_tau x t → tpart x k <= t <= tpart x k + (1 - root k x) * / 2 ^ k * / 3.
Proof.
  intros H Ht. assert (Un_cv (λ n, / 3 * epart x (S n)) t) as HU.
  { intros e He. destruct (Ht e He) as [N HN]. exists N. intros n Hn. rewrite <- epart_sum. by apply HN. }
  split.
  - apply (Un_cv_ge _ _ _ k HU). intros n Hn. rewrite (part_eq x (S n) H). pose proof (rest_nonneg x (S n) H). pose proof (tpart_mono x k (S n) H ltac:(lia)). lra.
  - apply (Un_cv_le _ _ _ k HU). intros n Hn. pose proof (epart_anti x k (S n) ltac:(lia)). rewrite (part_eq x k H) in *. lra.
Qed.
Lemma tau_exists x : 0 <= x <= 1 → ∃ t, is_tau x t.
Proof.
  intros H. destruct (decreasing_cv (λ n, / 3 * (1 - x - sum_f_R0 (eterm x) n))) as [t Ht]; [| |by exists t].
  - intros n. cbn [sum_f_R0]. pose proof (eterm_nonneg x (S n)). lra.
  - exists 0. intros r [n ->]. unfold opp_seq. rewrite epart_sum, (part_eq x _ H). pose proof (rest_nonneg x (S n) H). pose proof (tpart_mono x 0 (S n) H ltac:(lia)) as Hm. change (tpart x 0) with 0 in Hm. lra.
Qed.
Lemma is_tau_unique x t t' : is_tau x t → is_tau x t' → t = t'.
Proof. apply UL_sequence. Qed.

Lemma uu_vv : uu = / 2 * vv.
Proof. unfold uu, vv. rewrite (pw_P (-52)). change (-52 - 1)%Z with (-53)%Z. lra. Qed.
(** absolute error of one rounding *)
Lemma rnd_abs e w : (-900 <= e)%Z → 0 <= w <= pw e → Rabs (rnd w - w) <= pw e * uu.
Proof.
  intros He Hw. destruct (Rle_lt_dec (pw (-1000)) w) as [H|H].
  - destruct (rnd_rel' w) as (d & Hd & ->); [rewrite Rabs_pos_eq; lra|]. replace (w * (1 + d) - w) with (w * d) by ring.
    rewrite Rabs_mult, (Rabs_pos_eq w) by lra. apply Rmult_le_compat; [lra|apply Rabs_pos|lra|done].
  - assert (rnd w <= pw (-1000)) by (apply rnd_le'; [apply fmt_pw; lia|lra]). pose proof (rnd_nonneg w ltac:(lra)).
    assert (pw (-1000) <= pw e * uu) by (unfold uu; rewrite <- bpow_plus; apply bpow_le; lia). apply Rabs_le. lra.
Qed.
Lemma rnd_01 w : 0 <= w <= 1 → Rabs (rnd w - w) <= / 2 * vv ∧ 0 <= rnd w <= 1.
Proof.
  intros H. pose proof (rnd_abs 0 w ltac:(lia) H) as H1. change (pw 0) with 1 in H1. rewrite uu_vv in H1. split; [lra|].
  split; [apply rnd_nonneg; lra|apply rnd_le'; [apply fmt1|lra]].
Qed.
(** one term *)
Lemma term_err x y a k : (k <= 100)%nat → af x (2 * vv) a → iv x 0 1 → 0 <= a <= 1 → iv y (/ 2 ^ k) (/ 2 ^ k) →
  ffinite (fmul (fmul (fsub f_one x) x) y) = true ∧ 0 <= f2r (fmul (fmul (fsub f_one x) x) y) <= 1 ∧
  Rabs (f2r (fmul (fmul (fsub f_one x) x) y) - (1 - a) * a * / 2 ^ k) <= 6 * vv * / 2 ^ k.
Proof.
  intros Hk Hx [Fx Hx1] Ha Hy. pose proof vv_pos as Hv. pose proof vv_val as Ev.
  destruct (af_bounds _ _ _ Hx) as [B1 B2]; [rewrite Ev; lra|].
  assert (Rabs (f2r x - a) <= 4 * vv) as Hxa. { apply Rabs_le. split; nra. }
  pose proof (iv_eq _ _ f_one_iv) as E1. pose proof (maxfloat_ge 0 ltac:(lia)) as M1. change (pw 0) with 1 in M1.
  destruct (fsub_ok f_one x) as (Fd & Ed); [apply f_one_iv|done|rewrite E1; apply Rabs_le; lra|]. rewrite E1 in Ed.
  destruct (rnd_01 (1 - f2r x) ltac:(lra)) as [D1 D2]. rewrite <- Ed in D1, D2. set (d := fsub f_one x) in *.
  assert (0 <= f2r d * f2r x <= 1) as W0 by nra.
  destruct (fmul_ok d x) as (Fw & Ew); [done|done|apply Rabs_le; lra|].
  destruct (rnd_01 _ W0) as [W1 W2]. rewrite <- Ew in W1, W2. set (w := fmul d x) in *.
  assert (/ 2 ^ k = pw (- Z.of_nat k)) as Eq by (rewrite bpow_opp, pow_pw; done).
  pose proof (iv_eq _ _ Hy) as Ey. pose proof (pw_pos (- Z.of_nat k)) as Hq.
  assert (/ 2 ^ k <= 1) as Hq1 by (rewrite Eq; apply (bpow_le radix2 _ 0); lia). rewrite <- Eq in Hq.
  destruct (fmul_ok w y) as (Ft & Et); [done|apply Hy|rewrite Ey; apply Rabs_le; split; nra|]. rewrite Ey in Et.
  assert (0 <= f2r w * / 2 ^ k <= / 2 ^ k) as T0 by nra.
  pose proof (rnd_abs (- Z.of_nat k) (f2r w * / 2 ^ k) ltac:(lia) ltac:(rewrite <- Eq; exact T0)) as T1. rewrite <- Et, <- Eq in T1.
  split; [done|]. split.
  { rewrite Et. split; [apply rnd_nonneg; lra|apply rnd_le'; [apply fmt1|lra]]. }
  assert (Rabs (f2r w - (1 - a) * a) <= / 2 * vv + / 2 * vv + 4 * vv) as HW.
  { replace (f2r w - (1 - a) * a) with ((f2r w - f2r d * f2r x) + (f2r d - (1 - f2r x)) * f2r x + (f2r x - a) * (1 - f2r x - a)) by ring.
    eapply Rle_trans; [apply Rabs_triang|]. apply Rplus_le_compat; [eapply Rle_trans; [apply Rabs_triang|]; apply Rplus_le_compat; [done|]|].
    - rewrite Rabs_mult, <- (Rmult_1_r (/ 2 * vv)). apply Rmult_le_compat; try apply Rabs_pos; [done|]. rewrite Rabs_pos_eq; lra.
    - rewrite Rabs_mult, <- (Rmult_1_r (4 * vv)). apply Rmult_le_compat; try apply Rabs_pos; [done|]. apply Rabs_le. lra. }
  set (t := f2r (fmul w y)) in *.
  replace (t - (1 - a) * a * / 2 ^ k) with ((t - f2r w * / 2 ^ k) + (f2r w - (1 - a) * a) * / 2 ^ k) by ring.
  eapply Rle_trans; [apply Rabs_triang|]. rewrite Rabs_mult, (Rabs_pos_eq (/ 2 ^ k)) by lra.
  assert (Rabs (f2r w - (1 - a) * a) * / 2 ^ k <= 5 * vv * / 2 ^ k) by (apply Rmult_le_compat_r; lra). rewrite uu_vv in T1. nra.
Qed.
(** the bound on the accumulated absolute error before step k *)
Definition terr (k : nat) : R := (6 * (1 - / 2 ^ k) + INR k) * vv.
Lemma terr_S k : terr (S k) = terr k + (6 * / 2 ^ S k + 1) * vv.
Proof. unfold terr. rewrite S_INR. change (2 ^ S k) with (2 * 2 ^ k). assert (0 < 2 ^ k) by (apply pow_lt; lra). field. lra. Qed.
Lemma half_pow k : 0 < / 2 ^ k <= 1.
Proof. split; [apply Rinv_0_lt_compat, pow_lt; lra|]. rewrite <- Rinv_1. apply Rinv_le_contravar; [lra|]. apply pow_R1_Rle. lra. Qed.
Lemma terr_range k : (k <= 100)%nat → 0 <= terr k <= 106 * vv.
Proof.
  intros H. unfold terr. pose proof (half_pow k). pose proof vv_pos. assert (0 <= INR k <= 100) as Hk by (split; [apply pos_INR|]; replace 100 with (INR 100) by (cbn; lra); by apply le_INR).
  split; [apply Rmult_le_pos; lra|]. apply Rmult_le_compat_r; lra.
Qed.
Lemma tau_loop_err n k x y z X s : (k + n <= 100)%nat → pw (-18) <= X <= 1 →
  af x (2 * vv) (root k X) → iv x (pw (-18)) 1 → iv y (/ 2 ^ k) (/ 2 ^ k) → ffinite z = true → 0 <= f2r z → Rabs (f2r z - tpart X k) <= terr k →
  tau_loop n x y z = Some s → ∀ t, is_tau X t → ffinite s = true ∧ Rabs (f2r s - t) <= (106 + 12 / root 1 X) * vv.
Proof.
  revert k x y z. induction n as [|n IH]; intros k x y z Hk HX Hx Hx1 Hy Fz Hz0 Hz E t Ht; [done|].
  cbn [tau_loop] in E. pose proof vv_pos as Hv. pose proof vv_val as Ev. pose proof (pw_pos (-18)) as P18.
  assert (0 <= X <= 1) as HX' by lra. pose proof (root_range X k HX') as Rk.
  assert (af (fsqrt x) (2 * vv) (root (S k) X)) as Hx'.
  { eapply af_weaken; [rewrite root_S; apply (af_sqrt _ (2 * vv)); [done|lra| |rewrite Ev; lra]|lra]. right.
    pose proof (bpow_le radix2 (-900) (-18) ltac:(lia)). pose proof (bpow_le radix2 0 900 ltac:(lia)). change (pw 0) with 1 in *. lra. }
  pose proof (tau_x x Hx1) as Hx1'. pose proof (root_range X (S k) HX') as RSk.
  assert (iv (fmul f_half y) (/ 2 ^ S k) (/ 2 ^ S k)) as Hy'.
  { assert (∀ j, / 2 ^ j = pw (- Z.of_nat j)) as Eq by (intros j; rewrite bpow_opp, pow_pw; done). rewrite Eq in *.
    replace (- Z.of_nat (S k))%Z with (- (Z.of_nat k + 1))%Z by lia. apply tau_y; [lia|done]. }
  destruct (term_err (fsqrt x) (fmul f_half y) (root (S k) X) (S k)) as (Ft & Ht0 & Hte); [lia|done|eapply iv_weaken; [exact Hx1'|lra|lra]|lra|done|].
  set (tt := fmul (fmul (fsub f_one (fsqrt x)) (fsqrt x)) (fmul f_half y)) in *. fold (tterm X k) in Hte.
  pose proof (tau_bounds X t k HX' Ht) as Tk. pose proof (tau_bounds X t (S k) HX' Ht) as TSk.
  pose proof (tau_bounds X t 0 HX' Ht) as T0. cbn [tpart pow] in T0. rewrite Rinv_1 in T0. change (root 0 X) with X in T0.
  pose proof (terr_range k ltac:(lia)) as Rt. pose proof (half_pow (S k)) as HSk.
  pose proof (Rabs_le_inv _ _ Hz) as Hz'. pose proof (Rabs_le_inv _ _ Hte) as Hte'.
  assert (6 * vv * / 2 ^ S k <= 6 * vv) as B6. { rewrite <- (Rmult_1_r (6 * vv)) at 2. apply Rmult_le_compat_l; lra. }
  assert (tpart X (S k) = tpart X k + tterm X k) as ES by reflexivity.
  assert (106 * vv <= / 100) as B106 by (rewrite Ev; lra). assert (6 * vv <= / 100) as B6' by (rewrite Ev; lra).
  assert (0 <= f2r z + f2r tt <= 1) as Hsum by lra.
  pose proof (maxfloat_ge 0 ltac:(lia)) as M1. change (pw 0) with 1 in M1.
  destruct (fadd_ok z tt) as (Fa & Ea & _); [done|done|apply Rabs_le; lra|].
  destruct (rnd_01 _ Hsum) as [A1 A2]. rewrite <- Ea in A1, A2.
  assert (Rabs (f2r (fadd z tt) - tpart X (S k)) <= terr (S k)) as Hz2.
  { rewrite terr_S, ES. apply Rabs_le_inv in A1. apply Rabs_le. lra. }
  destruct (feq (fadd z tt) z) eqn:Q.
  - injection E as <-. split; [done|]. apply feq_ok in Q; [|done|done]. apply Rabs_le_inv in A1. rewrite Q in A1.
    assert (tterm X k <= 7 * vv) as Hsm by lra.
    pose proof (root_1_le X k HX') as R1. pose proof (root_range X 1 HX') as R1'.
    set (b := root 1 X) in *. set (a := root (S k) X) in *.
    assert ((1 - root k X) * / 2 ^ k * / 3 <= 12 / b * vv) as Hrest.
    { rewrite <- (root_sq X k HX'). fold a. unfold tterm in Hsm. fold a in Hsm. change (2 ^ S k) with (2 * 2 ^ k) in Hsm. rewrite Rinv_mult in Hsm.
      set (q := / 2 ^ k) in *. assert (0 < q) by (apply half_pow).
      assert (b * ((1 - a * a) * q * / 3) <= 12 * vv) as H1.
      { assert (b * ((1 - a * a) * q * / 3) <= a * ((1 - a * a) * q * / 3)) as H1. { apply Rmult_le_compat_r; [|lra]. apply Rmult_le_pos; [apply Rmult_le_pos|]; nra. }
        replace (a * ((1 - a * a) * q * / 3)) with ((1 - a) * a * (/ 2 * q) * (2 / 3 * (1 + a))) in H1 by (field; lra).
        assert ((1 - a) * a * (/ 2 * q) * (2 / 3 * (1 + a)) <= 7 * vv * (4 / 3)) as H2.
        { apply Rmult_le_compat; [|lra|done|lra]. apply Rmult_le_pos; [nra|lra]. }
        lra. }
      apply (Rmult_le_reg_l b); [lra|]. eapply Rle_trans; [exact H1|]. right. field. lra. }
    rewrite Q. apply Rabs_le. rewrite Rmult_plus_distr_r. lra.
  - apply (IH (S k) (fsqrt x) (fmul f_half y) (fadd z tt)); try done; [lia|lra].
Qed.
Lemma tau_loop_S n x y z : tau_loop (S n) x y z =
  let t := fmul (fmul (fsub f_one (fsqrt x)) (fsqrt x)) (fmul f_half y) in
  if feq (fadd z t) z then Some (fadd z t) else tau_loop n (fsqrt x) (fmul f_half y) (fadd z t).
Proof. reflexivity. Qed.
Lemma tau_low X t : 0 < X < 1 → is_tau X t → / 2 * ((1 - root 1 X) * root 1 X) <= t.
Proof.
  intros HX Ht. pose proof (tau_bounds X t 1 ltac:(lra) Ht) as [H _]. cbn [tpart] in H. unfold tterm in H. rewrite pow_1 in H. lra.
Qed.
Lemma tau_err c p s t fuel : (0 <= c <= 2 ^ p)%Z → (4 <= p <= 18)%Z → (100 <= fuel)%nat → Hll_tau fuel c (2 ^ p) = Some s →
  is_tau (1 - IZR c * pw (- p)) t → af s (pw (-22)) t ∧ (t = 0 ∨ pw (-22) <= t) ∧ t <= 1.
Proof.
  intros Hc Hp Hf E Ht. pose proof (ratio_iv c p ltac:(lia) ltac:(lia)) as [Fx Hx].
  destruct (tau_total c p Hc Hp) as (s1 & Es1 & Hs1). pose proof (Es1 100%nat ltac:(lia)) as E100. pose proof (Es1 fuel Hf) as E'. rewrite E in E'. injection E' as <-. clear E Es1.
  unfold Hll_tau in E100. set (r := fdiv (f_of_Z c) (f_of_Z (2 ^ p))) in *.
  assert (2 ^ p <= 2 ^ 18)%Z by (apply Z.pow_le_mono_r; lia).
  assert (1 - IZR c * pw (- p) = IZR (2 ^ p - c) * pw (- p)) as E0.
  { rewrite minus_IZR, Rmult_minus_distr_r, <- (pw_IZR p) by lia. rewrite <- bpow_plus. replace (p + - p)%Z with 0%Z by lia. change (pw 0) with 1. lra. }
  pose proof (pw_pos (- p)) as Hpp.
  assert (0 <= IZR (2 ^ p - c) * pw (- p)) as G0 by (apply Rmult_le_pos; [apply (IZR_le 0); lia|lra]).
  assert (0 <= IZR c * pw (- p)) as G1 by (apply Rmult_le_pos; [apply (IZR_le 0); lia|lra]).
  assert (iv (fsub f_one r) (IZR (2 ^ p - c) * pw (- p)) (IZR (2 ^ p - c) * pw (- p))) as H0.
  { pose proof (iv_eq _ _ f_one_iv) as E1.
    pose proof (maxfloat_ge 0 ltac:(lia)). change (pw 0) with 1 in *.
    assert (fmt (IZR (2 ^ p - c) * pw (- p))) by (apply fmt_F2R; lia).
    apply fsub_iv; [apply f_one_iv|done|done|lra|done|lra|lra|lra]. }
  rewrite E0 in Ht. set (X := IZR (2 ^ p - c) * pw (- p)) in *. assert (0 <= X <= 1) as HX by lra.
  pose proof (tau_bounds X t 0 HX Ht) as T0. cbn [tpart pow] in T0. rewrite Rinv_1 in T0. change (root 0 X) with X in T0.
  pose proof vv_pos as Hv. pose proof vv_val as Ev.
  destruct (decide (c = 2 ^ p)%Z) as [Ec|Ec].
  - (* x = 0: both are 0 *)
    assert (X = 0) as EX by (unfold X; rewrite Ec, Z.sub_diag; lra). 
    assert (∀ k, root k X = 0) as Hr0. { rewrite EX. induction k as [|k IH]; [done|]. rewrite root_S, IH. apply sqrt_0. }
    assert (t = 0) as ->.
    { apply (is_tau_unique X); [done|]. intros e He. destruct (tau_exists X HX) as (t' & Ht').
      assert (∀ k, tpart X k = 0) as Hp0. { induction k as [|k IH]; [done|]. cbn [tpart]. rewrite IH. unfold tterm. rewrite Hr0. lra. }
      assert (t' = 0) as ->; [|by apply Ht'].
      apply Rle_antisym; [|pose proof (tau_bounds X t' 0 HX Ht') as [H1 _]; cbn in H1; lra].
      apply le_epsilon. intros d Hd. destruct (pow_lt_1_zero (/ 2) ltac:(rewrite Rabs_pos_eq; lra) d Hd) as [N HN]. specialize (HN N ltac:(lia)).
      pose proof (tau_bounds X t' N HX Ht') as [_ H2]. rewrite Hp0, Hr0 in H2. pose proof (half_pow N). rewrite pow_inv in HN. rewrite Rabs_pos_eq in HN by lra. lra. }
    split; [|split; [by left|lra]].
    assert (fsign (fsub f_one r) = false) as Hsg.
    { subst r c. clear -Hp. assert (p ∈ [4;5;6;7;8;9;10;11;12;13;14;15;16;17;18]%Z) as Hin by (rewrite !elem_of_cons; lia).
      repeat (apply elem_of_cons in Hin as [->|Hin]; [vm_compute; reflexivity|]). by apply elem_of_nil in Hin. }
    rewrite EX in H0. destruct H0 as [Fs Hs0]. destruct (fsqrt_ok (fsub f_one r)) as (F & Eq); [done|lra|done|].
    assert (f2r (fsub f_one r) = 0) as Ex by lra. rewrite Ex, sqrt_0, rnd_0 in Eq.
    assert (iv (fsqrt (fsub f_one r)) 0 0) as Hs by (split; [done|lra]).
    assert (iv (fsub f_one (fsqrt (fsub f_one r))) 0 1) as Hq1 by (apply one_minus; eapply iv_weaken; [exact Hs|lra|lra]).
    assert (iv (fmul f_half f_one) (/ 2) (/ 2)) as Hy1. { assert (pw (-1) = / 2) as E by reflexivity. rewrite <- E. apply (tau_y f_one 0); [lia|exact f_one_iv]. }
    assert (iv (fmul (fsub f_one (fsqrt (fsub f_one r))) (fsqrt (fsub f_one r))) 0 0) as Hq2.
    { eapply (fmul_iv _ _ 0 1 0 0 0 0 0); [exact Hq1|exact Hs|lra|lra|apply generic_format_0|lra|apply generic_format_0|lra|lia|apply bpow_ge_0]. }
    assert (iv (fmul (fmul (fsub f_one (fsqrt (fsub f_one r))) (fsqrt (fsub f_one r))) (fmul f_half f_one)) 0 0) as Hq3.
    { eapply (fmul_iv _ _ 0 0 _ _ 0 0 0); [exact Hq2|exact Hy1|lra|lra|apply generic_format_0|lra|apply generic_format_0|lra|lia|apply bpow_ge_0]. }
    destruct f_zero_ok as (Fz & Ez & _).
    rewrite (tau_loop_S 99) in E100. cbv zeta in E100. set (tt := fmul (fmul (fsub f_one (fsqrt (fsub f_one r))) (fsqrt (fsub f_one r))) (fmul f_half f_one)) in *.
    assert (iv (fadd f_zero tt) 0 0) as Hq4.
    { eapply (fadd_iv _ _ 0 0 0 0 0 0 0); [split; [done|lra]|exact Hq3|lra|lra|apply generic_format_0|lra|apply generic_format_0|lra|lia|apply bpow_ge_0]. }
    assert (feq (fadd f_zero tt) f_zero = true) as Hfe by (apply feq_ok; [apply Hq4|done|]; rewrite (iv_eq _ _ Hq4); lra).
    rewrite Hfe in E100. injection E100 as <-. eapply af_weaken; [apply af_iv; [exact Hq4|lra]|apply bpow_ge_0].
  - pose proof (IZR_pw_ge1 (2 ^ p - c) p ltac:(lia)) as Hge. fold X in Hge.
    assert (pw (-18) <= pw (- p)) as P18p by (apply bpow_le; lia). pose proof (pw_pos (-18)) as P18.
    assert (iv (fsub f_one r) (pw (-18)) 1) as Hx1 by (eapply iv_weaken; [exact H0|lra|lra]).
    destruct f_zero_ok as (Fz & Ez & _).
    destruct (tau_loop_err 100 0 (fsub f_one r) f_one f_zero X s) with (t := t) as (Fs & Hs); [lia|lra| |exact Hx1| |done|lra| |exact E100|done|].
    { change (root 0 X) with X. eapply af_weaken; [apply af_iv; [exact H0|lra]|lra]. }
    { cbn [pow]. rewrite Rinv_1. exact f_one_iv. }
    { rewrite Ez. cbn [tpart]. rewrite Rminus_0_r, Rabs_R0. apply terr_range. lia. }
    destruct (decide (c = 0)%Z) as [->|Hc0].
    + (* x = 1 *)
      assert (X = 1) as EX. { unfold X. rewrite Z.sub_0_r, <- pw_IZR by lia. rewrite <- bpow_plus. replace (p + - p)%Z with 0%Z by lia. done. }
      assert (t = 0) as -> by lra. split; [|split; [by left|lra]].
      rewrite EX in H0. assert (iv (fsqrt (fsub f_one r)) 1 1) as Hsq.
      { eapply (fsqrt_iv _ 1 1 1 1); [exact H0|lra|apply fmt1|lra|lra|apply fmt1|lra|lra]. }
      pose proof (maxfloat_ge 0 ltac:(lia)). change (pw 0) with 1 in *.
      assert (iv (fsub f_one (fsqrt (fsub f_one r))) 0 0) as Hq1.
      { apply fsub_iv; [apply f_one_iv|apply Hsq|apply generic_format_0| |apply generic_format_0| |lra|lra]; rewrite (iv_eq _ _ f_one_iv), (iv_eq _ _ Hsq); lra. }
      assert (iv (fmul f_half f_one) (/ 2) (/ 2)) as Hy1. { assert (pw (-1) = / 2) as E by reflexivity. rewrite <- E. apply (tau_y f_one 0); [lia|exact f_one_iv]. }
      assert (iv (fmul (fsub f_one (fsqrt (fsub f_one r))) (fsqrt (fsub f_one r))) 0 0) as Hq2.
      { eapply (fmul_iv _ _ 0 0 1 1 0 0 0); [exact Hq1|exact Hsq|lra|lra|apply generic_format_0|lra|apply generic_format_0|lra|lia|apply bpow_ge_0]. }
      assert (iv (fmul (fmul (fsub f_one (fsqrt (fsub f_one r))) (fsqrt (fsub f_one r))) (fmul f_half f_one)) 0 0) as Hq3.
      { eapply (fmul_iv _ _ 0 0 _ _ 0 0 0); [exact Hq2|exact Hy1|lra|lra|apply generic_format_0|lra|apply generic_format_0|lra|lia|apply bpow_ge_0]. }
      rewrite (tau_loop_S 99) in E100. cbv zeta in E100. set (tt := fmul (fmul (fsub f_one (fsqrt (fsub f_one r))) (fsqrt (fsub f_one r))) (fmul f_half f_one)) in *.
      assert (iv (fadd f_zero tt) 0 0) as Hq4.
      { eapply (fadd_iv _ _ 0 0 0 0 0 0 0); [split; [done|lra]|exact Hq3|lra|lra|apply generic_format_0|lra|apply generic_format_0|lra|lia|apply bpow_ge_0]. }
      assert (feq (fadd f_zero tt) f_zero = true) as Hfe by (apply feq_ok; [apply Hq4|done|]; rewrite (iv_eq _ _ Hq4); lra).
      rewrite Hfe in E100. injection E100 as <-. eapply af_weaken; [apply af_iv; [exact Hq4|lra]|apply bpow_ge_0].
    + pose proof (IZR_pw_lt (2 ^ p - c) p ltac:(lia) ltac:(lia)) as Hlt. fold X in Hlt.
      pose proof (tau_low X t ltac:(lra) Ht) as Hlow. pose proof (root_sq X 0 HX) as Rsq. change (root 0 X) with X in Rsq.
      pose proof (root_range X 1 HX) as R1. set (b := root 1 X) in *.
      assert (pw (-18) = / 262144) as E18 by reflexivity. rewrite E18 in *.
      assert (/ 524288 <= 1 - b) as Hb1 by nra.
      assert (/ 2097152 <= (1 - b) * (b * b)) as Hb2.
      { destruct (Rle_lt_dec b (/ 2)) as [Hb|Hb]; [rewrite Rsq; nra|]. assert (/ 4 <= b * b) by nra. nra. }
      assert (0 < b) as Hb0 by (apply (Rlt_le_trans _ X); lra).
      assert ((1 - b) * (b * b) <= (1 - b) * b) as Hb3 by nra.
      assert (pw (-22) = / 4194304) as E22 by reflexivity. rewrite E22.
      split; [|split; [right; lra|lra]].
      assert (12 / b * vv <= / 33554432 * t) as Hr1.
      { apply (Rmult_le_reg_l b); [done|]. replace (b * (12 / b * vv)) with (12 * vv) by (field; lra).
        assert (/ 4194304 <= b * t) as Hbt. { assert (b * (/ 2 * ((1 - b) * b)) <= b * t) by (apply Rmult_le_compat_l; lra). nra. }
        rewrite Ev. lra. }
      assert (106 * vv <= / 8900000 * t) as Hr2 by (rewrite Ev; lra).
      rewrite Rmult_plus_distr_r in Hs. apply Rabs_le_inv in Hs. split; [done|]. split; [lra|].
      pose proof (exp_ineq1_le (/ 4194304)). pose proof (exp_opp_r (/ 4194304)). pose proof (exp_m (- / 4194304)).
      assert (exp (- / 4194304) <= 1 - / 4200000) as He.
      { apply (Rmult_le_reg_l (exp (/ 4194304))); [apply exp_pos|]. rewrite exp_opp_r. nra. }
      assert (t * exp (- / 4194304) <= t * (1 - / 4200000)) by (apply Rmult_le_compat_l; lra).
      assert (t * (1 + / 4194304) <= t * exp (/ 4194304)) by (apply Rmult_le_compat_l; lra). split; lra.
Qed.
