(** Property C88: stats.See (the standard error of an estimate) and stats.Sum. *)
From Verif Require Import Base Float64 Float64Spec Stat64Spec Stat64RealSpec Stat64FloatSpec StatsUtilModel StatsUtilSpec StatsSeeProofs.
From Coq Require Import Reals Lra.

(** In exact arithmetic See is the square root of the squared distances from the
    estimate, summed and divided by n - 2 ... *)
Theorem C88_exact_partial xs e : (3 ≤ length xs)%nat → seeR xs e = sqrt (Rdev2 e xs / (INR (length xs) - 2)).
Proof. exact (seeR_many xs e). Qed.
Print Assumptions C88_exact_partial.
(** ... and in float64 it is never negative, whatever the observations. *)
Theorem C88_never_negative_partial vs e : (3 ≤ length vs)%nat → (Z.of_nat (length vs) ≤ 2^53)%Z → flt (Stats_See vs e) f_zero = false.
Proof. exact (See_never_negative vs e). Qed.
Print Assumptions C88_never_negative_partial.
(** It has no sensible value for fewer than three observations: with two it is
    never a number, with one NaN or zero, with none zero. *)
Theorem C88_few_refuted a b v e : ffinite (Stats_See [a; b] e) = false ∧
  (fisnan (Stats_See [v] e) = true ∨ feq (Stats_See [v] e) f_zero = true) ∧ feq (Stats_See [] e) f_zero = true.
Proof. split; [exact (See_two a b e)|]. split; [exact (See_one v e)|exact (See_none e)]. Qed.
Print Assumptions C88_few_refuted.
(** Sum is the sum, in exact arithmetic, *)
Theorem C88_sum_exact xs : sum_loop 0%R Rplus xs = Rsum xs.
Proof. exact (SumR_exact xs). Qed.
Print Assumptions C88_sum_exact.
(** and in float64 within the accumulated rounding error of it. *)
Theorem C88_sum_error vs : ffinite (Stats_Sum vs) = true →
  (Rabs (f2r (Stats_Sum vs) - Rsum (map f2r vs)) <= ((1 + / 2^53) ^ length vs - 1) * Rabssum (map f2r vs))%R.
Proof. exact (Sum_error vs). Qed.
Print Assumptions C88_sum_error.
(** 1, 2, 3, 6 about 3: sqrt (14 / 2) *)
Example C88_nonvacuous : fbits (Stats_See (map f_of_Z [1; 2; 3; 6]) (f_of_Z 3)) = fbits (fsqrt (f_of_Z 7)) ∧ fbits (Stats_Sum (map f_of_Z [1; 2; 3; 6])) = fbits (f_of_Z 12).
Proof. split; vm_compute; reflexivity. Qed.
