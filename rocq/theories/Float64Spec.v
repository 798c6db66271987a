(** The real number denoted by a float64 (0 for infinities and NaN), and the
    largest finite float64. *)
From Verif Require Import Base Float64.
From Coq Require Import Reals.
Definition f2r (x : float) : R := Binary.B2R 53 1024 x.
Definition maxfloat : R := (2^1024 - 2^971)%R.
Definition f_plus_inf (x : float) : Prop := x = Binary.B754_infinity 53 1024 false.
(** not NaN and >= 0 : a non-negative finite number or +inf *)
Definition f_nonneg (x : float) : Prop :=
  f_plus_inf x ∨ (ffinite x = true ∧ (0 <= f2r x)%R).
