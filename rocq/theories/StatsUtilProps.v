(** Property C61: internal/stats. *)
From Verif Require Import Base Float64 Float64Spec Stat64Spec Stat64RealSpec StatsUtilModel StatsUtilSpec StatsUtilProofs.
From Coq Require Import Reals.

(** C61 is false: the variance of 0, 2 is reported as 1, the sample variance is 2. *)
Theorem C61_refuted : out_map (λ '(m, v), (fbits m, fbits v)) (Stats_Meanvar [f_of_Z 0; f_of_Z 2]) = Ok (fbits (f_of_Z 1), fbits (f_of_Z 1)) ∧
  Rvariance [0; 2]%R = 2%R.
Proof. split; [vm_compute; reflexivity|]. unfold Rvariance, Rmean. cbn. field. Qed.
Print Assumptions C61_refuted.
(** It is not a matter of rounding: in exact arithmetic the code's variance is
    below the sample variance of every sequence with two different values. *)
Theorem C61_exact_refuted nan xs x y : x ∈ xs → y ∈ xs → x ≠ y →
  ∃ v, meanvarR nan xs = Ok (Rmean xs, v) ∧ (v < Rvariance xs)%R.
Proof.
  intros Hx Hy Hxy. assert ((2 ≤ length xs)%nat).
  { destruct xs as [|a [|b xs]]; [by apply elem_of_nil in Hx| |cbn; lia]. apply elem_of_list_singleton in Hx, Hy. congruence. }
  eexists. split; [by apply meanvarR_many|]. by apply (biased xs x y).
Qed.
Print Assumptions C61_exact_refuted.
(** What it does return in exact arithmetic: the mean and the population variance. *)
Theorem C61_exact_partial nan xs : (2 ≤ length xs)%nat →
  meanvarR nan xs = Ok (Rmean xs, (Rdev2 (Rmean xs) xs / INR (length xs))%R).
Proof. exact (meanvarR_many nan xs). Qed.
Print Assumptions C61_exact_partial.
(** In float64: NaN for too few observations, ... *)
Theorem C61_few_partial v : Stats_Meanvar [] = Ok (f_nan, f_nan) ∧ Stats_Meanvar [v] = Ok (v, f_nan).
Proof. split; [exact Meanvar_none|exact (Meanvar_one v)]. Qed.
Print Assumptions C61_few_partial.
(** ... and the variance is never negative, whatever the observations (NaN,
    infinite or overflowing ones included). *)
Theorem C61_never_negative_partial vs m v : Z.of_nat (length vs) ≤ 2^53 → Stats_Meanvar vs = Ok (m, v) → flt v f_zero = false.
Proof. exact (Meanvar_never_negative vs m v). Qed.
Print Assumptions C61_never_negative_partial.
