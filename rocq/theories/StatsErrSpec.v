(** Vocabulary of C110: the textbook values the package stats approximates, and
    the inputs for which it does. *)
From Verif Require Import Base Float64 Float64Spec Stat64RealSpec Stat64FloatSpec.
From Coq Require Import Reals.
Open Scope R_scope.
(** population variance: the mean squared deviation from the arithmetic mean *)
Definition Rpopvar (xs : list R) : R := Rdev2 (Rmean xs) xs / INR (length xs).
(** mean magnitude *)
Definition Rmeanabs (xs : list R) : R := Rabssum xs / INR (length xs).
(** finite float64s of magnitude at most B *)
Definition upto (B : R) (vs : list float) : Prop := ∀ v, v ∈ vs → ffinite v = true ∧ Rabs (f2r v) <= B.
(** equal to the estimate, or away from it by an amount whose square neither
    overflows nor underflows *)
Definition separated (e v : R) : Prop := v = e ∨ / 2 ^ 450 <= Rabs (v - e) <= 2 ^ 450.
