(** The textbook statistics over the reals (property C20), and the update
    recurrence of the code evaluated without rounding. *)
From Verif Require Import Base Stat64Model.
From Coq Require Import Reals.

(** the code's recurrence (stats.go:90-96) with exact arithmetic *)
Definition observeR : acc R → R → acc R := observe Rplus Rminus Rmult Rdiv IZR.
Definition runR (xs : list R) : acc R := fold_left observeR xs (Acc 0 0%R 0%R 0%R).

Fixpoint Rsum (xs : list R) : R := match xs with [] => 0%R | x :: xs => (x + Rsum xs)%R end.
Definition Rmean (xs : list R) : R := (Rsum xs / INR (length xs))%R.
(** sum of squared deviations from c *)
Fixpoint Rdev2 (c : R) (xs : list R) : R :=
  match xs with [] => 0%R | x :: xs => ((x - c) * (x - c) + Rdev2 c xs)%R end.
Definition Rvariance (xs : list R) : R := (Rdev2 (Rmean xs) xs / (INR (length xs) - 1))%R.
