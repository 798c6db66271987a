From Verif Require Import Base BaseProofs Float64 Float64Spec Float64Proofs Stat64Model Stat64Spec Stat64RealSpec Stat64FloatSpec Stat64FloatProofs StatsUtilModel StatsUtilSpec StatsUtilProofs.
From Coq Require Import Reals Lra.
From Flocq Require Import Core.
From Flocq Require IEEE754.Binary IEEE754.BinarySingleNaN IEEE754.Bits.
Notation float := Float64.float.
Local Transparent fadd fsub fmul fdiv fsqrt flt feq fisnan ffinite f_of_Z f_zero.

Lemma seeR_many xs e : (3 ≤ length xs)%nat → seeR xs e = sqrt (Rdev2 e xs / (INR (length xs) - 2)).
Proof.
  intros H. unfold seeR, see, sqdev_loop. rewrite fold_sqdev, Rplus_0_l. do 2 f_equal. rewrite minus_IZR, <- INR_IZR_INZ. done.
Qed.
Lemma SumR_exact xs : sum_loop 0%R Rplus xs = Rsum xs.
Proof. unfold sum_loop. rewrite fold_Rplus. lra. Qed.
Lemma nn_fsqrt x : nn x → nn (fsqrt x).
Proof.
  intros [H|[H|[H1 H2]]].
  - left. by destruct x.
  - rewrite H. right. by left.
  - right. right. pose proof (Binary.Bsqrt_correct 53 1024 eq_refl eq_refl Bits.unop_nan_pl64 BinarySingleNaN.mode_NE x) as (E1 & E2 & _). split.
    + etrans; [exact E2|]. destruct x as [s|s| |[] m e He]; try done. exfalso.
      assert (f2r (Binary.B754_finite 53 1024 true m e He) < 0)%R as Hn; [|lra].
      apply (F2R_lt_0 radix2 (Float radix2 (Z.neg m) e)). apply Pos2Z.neg_is_neg.
    + unfold f2r. match type of E1 with ?l = _ => change (0 <= l)%R end. rewrite E1. rewrite fexp_eq. apply (rnd_nonneg (sqrt _)). apply sqrt_pos.
Qed.
Lemma See_never_negative vs e : (3 ≤ length vs)%nat → Z.of_nat (length vs) ≤ 2^53 → flt (Stats_See vs e) f_zero = false.
Proof.
  intros H1 H2. apply nn_not_neg. unfold Stats_See, see. apply nn_fsqrt. destruct (int_ok (Z.of_nat (length vs) - 2)) as [F1 E1]; [lia|].
  apply nn_fdiv; [apply nn_sqdev|done|]. rewrite E1. apply (IZR_lt 0). lia.
Qed.
Lemma of0 : f_of_Z 0 = Binary.B754_zero 53 1024 false.
Proof. vm_compute. reflexivity. Qed.
Lemma See_two a b e : ffinite (Stats_See [a; b] e) = false.
Proof.
  unfold Stats_See, see. generalize (sqdev_loop f_zero fadd fsub fmul e [a; b]). intros x. change (Z.of_nat (length [a; b]) - 2) with 0. rewrite of0.
  destruct x as [s|s| |s m ex He]; try done; [by destruct s|by destruct s].
Qed.
Lemma See_none e : feq (Stats_See [] e) f_zero = true.
Proof. vm_compute. reflexivity. Qed.
Lemma See_one v e : fisnan (Stats_See [v] e) = true ∨ feq (Stats_See [v] e) f_zero = true.
Proof.
  unfold Stats_See, see. pose proof (nn_sqdev e [v]) as Hn. revert Hn. generalize (sqdev_loop f_zero fadd fsub fmul e [v]). intros x Hn. change (Z.of_nat (length [v]) - 2) with (-1).
  destruct (ffinite x) eqn:F.
  - destruct x as [s|s| |s m ex He]; try done; [right; destruct s; vm_compute; reflexivity|]. left.
    destruct (f_of_Z_exact (-1)) as (F1 & E1 & _); [lia|].
    assert (s = false) as ->. { destruct s; [|done]. exfalso. destruct Hn as [?|[?|[_ H]]]; [done|done|]. assert (f2r (Binary.B754_finite 53 1024 true m ex He) < 0)%R as Hn; [|lra]. apply (F2R_lt_0 radix2 (Float radix2 (Z.neg m) ex)). apply Pos2Z.neg_is_neg. }
    set (x := Binary.B754_finite 53 1024 false m ex He) in *. assert (0 < f2r x)%R as Hp. { apply (F2R_gt_0 radix2 (Float radix2 (Z.pos m) ex)). apply Pos2Z.is_pos. }
    destruct (fdiv_ok x (f_of_Z (-1))) as (F2 & E2); [done|rewrite E1; lra| |].
    { rewrite E1. replace (f2r x / -1)%R with (- f2r x)%R by field. rewrite Rabs_Ropp. by apply f2r_bound. }
    assert (f2r (fdiv x (f_of_Z (-1))) < 0)%R as Hlt. { rewrite E2, E1. replace (f2r x / -1)%R with (- f2r x)%R by field. unfold rnd. rewrite round_generic; [lra|apply valid_rnd_N|]. apply generic_format_opp. apply fmt_f2r. }
    revert Hlt F2. generalize (fdiv x (f_of_Z (-1))). intros y Hlt F2. destruct y as [s|s| |[] m' e' He']; try done; [unfold f2r in Hlt; cbn in Hlt; lra|].
    exfalso. assert (0 < f2r (Binary.B754_finite 53 1024 false m' e' He'))%R as Hp2; [|lra]. apply (F2R_gt_0 radix2 (Float radix2 (Z.pos m') e')). apply Pos2Z.is_pos.
  - left. destruct x as [s|s| |s m ex He]; try done. destruct s; [|done]. destruct Hn as [?|[H|[? _]]]; [done| |done]. discriminate H.
Qed.
Lemma Sum_error vs : ffinite (Stats_Sum vs) = true →
  (Rabs (f2r (Stats_Sum vs) - Rsum (map f2r vs)) <= ((1 + / 2^53) ^ length vs - 1) * Rabssum (map f2r vs))%R.
Proof. rewrite Sum_is_fold. exact (sum_error vs). Qed.
