(** Specification for testutil/float.go. *)
From Verif Require Import Base Float64.
(** a float64 lies strictly strictly_between a and b *)
Definition strictly_between (a c b : float) : Prop := (flt a c = true ∧ flt c b = true) ∨ (flt b c = true ∧ flt c a = true).
Definition is_inf (x : float) : Prop := ∃ s, x = Binary.B754_infinity 53 1024 s.
Definition is_nan (x : float) : Prop := fisnan x = true.
