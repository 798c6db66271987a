(** More facts about float64 operations: interval forms, ceil, int64. *)
From Verif Require Import Base Float64 Float64Spec Float64Proofs HllCountModel.
From Coq Require Import Reals Lra.
From Flocq Require Import Core Relative.
From Flocq Require IEEE754.Binary IEEE754.BinarySingleNaN IEEE754.Bits.
Notation float := Float64.float.
Local Transparent fadd fsub fmul fdiv fsqrt flt fle feq ffinite f_of_Z fceil f_to_int64.
Open Scope R_scope.

Notation pw e := (bpow radix2 e).
Lemma pw_pos e : 0 < pw e. Proof. apply bpow_gt_0. Qed.
Lemma pw_IZR e : (0 <= e)%Z → pw e = IZR (2 ^ e). Proof. intros H. by rewrite <- (IZR_Zpower radix2). Qed.
Lemma pw_S e : pw (e + 1) = 2 * pw e. Proof. rewrite bpow_plus. rewrite (pw_IZR 1) by lia. change (IZR (2 ^ 1)) with 2. lra. Qed.
Lemma pw_P e : pw e = 2 * pw (e - 1). Proof. rewrite <- pw_S. f_equal. lia. Qed.
Lemma fmt_pw e : (-1074 <= e)%Z → fmt (pw e).
Proof. intros H. apply generic_format_bpow. unfold fexp64, FLT_exp. lia. Qed.
(** n * 2^e *)
Lemma fmt_F2R n e : (Z.abs n < 2 ^ 53)%Z → (-1074 <= e)%Z → fmt (IZR n * pw e).
Proof. intros H1 H2. apply generic_format_FLT. exists (Float radix2 n e); [done|cbn; lia|done]. Qed.
Lemma maxfloat_ge e : (e <= 1023)%Z → pw e <= maxfloat.
Proof.
  intros H. unfold maxfloat. rewrite <- bpow1024. rewrite <- (bpow_pow 971). change (Z.of_nat 971) with 971%Z.
  rewrite (pw_P 1024). change (1024 - 1)%Z with 1023%Z. pose proof (bpow_le radix2 e 1023 H). pose proof (bpow_le radix2 971 1023 ltac:(lia)). lra.
Qed.
Lemma rnd_ge a r : fmt a → a <= r → a <= rnd r.
Proof. intros Ha H. rewrite <- (rnd_fmt a) by done. by apply rnd_le. Qed.
Lemma rnd_le' a r : fmt a → r <= a → rnd r <= a.
Proof. intros Ha H. rewrite <- (rnd_fmt a) by done. by apply rnd_le. Qed.

(** x is finite and lies in [a,b] *)
Definition iv (x : float) (a b : R) : Prop := ffinite x = true ∧ a <= f2r x <= b.
Lemma iv_weaken x a b a' b' : iv x a b → a' <= a → b <= b' → iv x a' b'.
Proof. intros [H1 H2] Ha Hb. split; [done|]. lra. Qed.
Lemma abs_max r e : (e <= 1023)%Z → 0 <= r <= pw e → Rabs r <= maxfloat.
Proof. intros He H. rewrite Rabs_pos_eq by lra. pose proof (maxfloat_ge e He). lra. Qed.
Lemma fadd_iv x y a b c d lo hi e : iv x a b → iv y c d → 0 <= a → 0 <= c → fmt lo → lo <= a + c → fmt hi → b + d <= hi →
  (e <= 1023)%Z → hi <= pw e → iv (fadd x y) lo hi.
Proof.
  intros [Fx Hx] [Fy Hy] Ha Hc Flo Hlo Fhi Hhi He Hb.
  destruct (fadd_ok x y) as (F & E & _); [done|done|apply (abs_max _ e); [done|lra]|].
  split; [done|]. rewrite E. split; [apply rnd_ge|apply rnd_le']; (done || lra).
Qed.
Lemma fmul_iv x y a b c d lo hi e : iv x a b → iv y c d → 0 <= a → 0 <= c → fmt lo → lo <= a * c → fmt hi → b * d <= hi →
  (e <= 1023)%Z → hi <= pw e → iv (fmul x y) lo hi.
Proof.
  intros [Fx Hx] [Fy Hy] Ha Hc Flo Hlo Fhi Hhi He Hb.
  assert (a * c <= f2r x * f2r y) by (apply Rmult_le_compat; lra).
  assert (f2r x * f2r y <= b * d) by (apply Rmult_le_compat; lra).
  assert (0 <= a * c) by (apply Rmult_le_pos; lra).
  destruct (fmul_ok x y) as (F & E); [done|done|apply (abs_max _ e); [done|lra]|].
  split; [done|]. rewrite E. split; [apply rnd_ge|apply rnd_le']; (done || lra).
Qed.
Lemma f_of_Z_iv n : (0 <= n <= 2 ^ 53)%Z → iv (f_of_Z n) (IZR n) (IZR n).
Proof. intros H. destruct (f_of_Z_exact n) as (F & E & _); [lia|]. split; [done|]. rewrite E. lra. Qed.
Lemma iv_eq x r : iv x r r → f2r x = r.
Proof. intros [_ H]. lra. Qed.
Lemma iv_refl x : ffinite x = true → iv x (f2r x) (f2r x).
Proof. intros H. split; [done|]. lra. Qed.
Lemma fdiv_iv x y a b c d lo hi e : iv x a b → iv y c d → 0 <= a → 0 < c → fmt lo → lo * d <= a → 0 <= lo → fmt hi → b <= hi * c →
  (e <= 1023)%Z → hi <= pw e → iv (fdiv x y) lo hi.
Proof.
  intros [Fx Hx] [Fy Hy] Ha Hc Flo Hlo Hl0 Fhi Hhi He Hb.
  assert (0 <= hi) by nra.
  assert (lo <= f2r x / f2r y <= hi) as Hq.
  { split.
    - apply (Rmult_le_reg_r (f2r y)); [lra|]. unfold Rdiv. rewrite Rmult_assoc, Rinv_l by lra. nra.
    - apply (Rmult_le_reg_r (f2r y)); [lra|]. unfold Rdiv. rewrite Rmult_assoc, Rinv_l by lra. nra. }
  destruct (fdiv_ok x y) as (F & E); [done|lra|apply (abs_max _ e); [done|lra]|].
  split; [done|]. rewrite E. split; [apply rnd_ge|apply rnd_le']; (done || lra).
Qed.
Lemma fsub_iv x y lo hi : ffinite x = true → ffinite y = true → fmt lo → lo <= f2r x - f2r y → fmt hi → f2r x - f2r y <= hi →
  - maxfloat <= lo → hi <= maxfloat → iv (fsub x y) lo hi.
Proof.
  intros Fx Fy Flo Hlo Fhi Hhi H1 H2.
  destruct (fsub_ok x y) as (F & E); [done|done|apply Rabs_le; lra|].
  split; [done|]. rewrite E. split; [apply rnd_ge|apply rnd_le']; (done || lra).
Qed.
Lemma fsqrt_ok x : ffinite x = true → 0 <= f2r x → (f2r x = 0 → fsign x = false) →
  ffinite (fsqrt x) = true ∧ f2r (fsqrt x) = rnd (sqrt (f2r x)).
Proof.
  intros Fx H0 Hs. pose proof (Binary.Bsqrt_correct 53 1024 eq_refl eq_refl Bits.unop_nan_pl64 BinarySingleNaN.mode_NE x) as (H1 & H2 & _).
  rewrite fexp_eq in H1. split; [|exact H1]. etrans; [exact H2|]. destruct x as [s|s| |[] m e He]; try done.
  exfalso. assert (f2r (Binary.B754_finite 53 1024 true m e He) < 0) as Hn; [|lra].
  apply (F2R_lt_0 radix2 (Float radix2 (Z.neg m) e)). apply Pos2Z.neg_is_neg.
Qed.
Lemma fsqrt_iv x a b lo hi : iv x a b → 0 < a → fmt lo → 0 <= lo → lo * lo <= a → fmt hi → 0 <= hi → b <= hi * hi → iv (fsqrt x) lo hi.
Proof.
  intros [Fx Hx] Ha Flo H0 Hlo Fhi Hh0 Hhi. destruct (fsqrt_ok x) as (F & E); [done|lra|intros; lra|].
  split; [done|]. rewrite E. split.
  - apply rnd_ge; [done|]. rewrite <- (sqrt_square lo) by done. apply sqrt_le_1_alt. lra.
  - apply rnd_le'; [done|]. rewrite <- (sqrt_square hi) by done. apply sqrt_le_1_alt. lra.
Qed.
Lemma feq_ok x y : ffinite x = true → ffinite y = true → (feq x y = true ↔ f2r x = f2r y).
Proof.
  intros Hx Hy. unfold feq, Bits.b64_compare. rewrite Binary.Bcompare_correct by done. unfold f2r.
  destruct (Rcompare_spec (Binary.B2R 53 1024 x) (Binary.B2R 53 1024 y)); split; try done; lra.
Qed.
Lemma feq_false x y : ffinite x = true → ffinite y = true → f2r x ≠ f2r y → feq x y = false.
Proof. intros Hx Hy H. destruct (feq x y) eqn:E; [|done]. by apply feq_ok in E. Qed.
Lemma fle_false x y : ffinite x = true → ffinite y = true → f2r y < f2r x → fle x y = false.
Proof. intros Hx Hy H. destruct (fle x y) eqn:E; [|done]. apply fle_ok in E; [lra|done|done]. Qed.

Lemma fceil_ok x : ffinite x = true → ffinite (fceil x) = true ∧ f2r (fceil x) = IZR (Zceil (f2r x)).
Proof.
  intros Fx. pose proof (Binary.Bnearbyint_correct 53 1024 eq_refl Bits.unop_nan_pl64 BinarySingleNaN.mode_UP x) as (H1 & H2 & _).
  rewrite round_FIX_IZR in H1. split; [etrans; [exact H2|exact Fx]|exact H1].
Qed.
Lemma f_to_int64_ok x n : ffinite x = true → f2r x = IZR n → (- 2 ^ 63 <= n < 2 ^ 63)%Z → f_to_int64 x = n.
Proof.
  intros Fx E Hn. unfold f_to_int64. rewrite Fx.
  pose proof (Binary.Btrunc_correct 53 1024 eq_refl x) as H. rewrite round_FIX_IZR in H. change (Binary.B2R 53 1024 x) with (f2r x) in H.
  rewrite E, Ztrunc_IZR in H. apply eq_IZR in H. rewrite H.
  replace ((- 2 ^ 63 <=? n) && (n <? 2 ^ 63))%Z with true; [done|]. symmetry. apply andb_true_intro. split; [apply Z.leb_le|apply Z.ltb_lt]; lia.
Qed.

(** adding a quantity below half an ulp changes nothing *)
Lemma absorb z t e : fmt z → pw e <= z → (-1000 <= e)%Z → 0 <= t <= pw (e - 54) → rnd (z + t) = z.
Proof.
  intros Fz Hz He Ht. apply Rle_antisym.
  - unfold rnd. apply round_N_le_midp; [apply valid64|done|].
    rewrite succ_eq_pos by (pose proof (pw_pos e); lra).
    assert (pw (e - 52) <= ulp radix2 fexp64 z) as HU.
    { apply (Rle_trans _ (ulp radix2 fexp64 (pw e))).
      - rewrite ulp_bpow. apply bpow_le. unfold fexp64, FLT_exp. lia.
      - apply ulp_le; [apply valid64|apply FLT_exp_monotone|]. rewrite !Rabs_pos_eq; [done| |]; pose proof (pw_pos e); lra. }
    pose proof (pw_P (e - 52)) as H1. pose proof (pw_P (e - 53)) as H2. pose proof (pw_pos (e - 54)).
    replace (e - 52 - 1)%Z with (e - 53)%Z in H1 by lia. replace (e - 53 - 1)%Z with (e - 54)%Z in H2 by lia. lra.
  - apply rnd_ge; [done|lra].
Qed.
