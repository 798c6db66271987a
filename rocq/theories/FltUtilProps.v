(** Properties C89 and C90: the float comparisons of internal/testutil. *)
From Verif Require Import Base Float64 Float64Spec FltUtilModel FltUtilSpec FltUtilProofs.
From Coq Require Import Reals Lra.
From Flocq Require Core.Raux Core.Zaux.

(** ** C89 *)
(** AdjacentEqual64: no float64 lies strictly between (infinities included); never for NaN *)
Theorem C89_adjacent a b : fisnan a = false → fisnan b = false → AdjacentEqual64 a b = true ↔ ¬ ∃ c, strictly_between a c b.
Proof. exact (adjacent_between a b). Qed.
Print Assumptions C89_adjacent.
Theorem C89_adjacent_nan a b : fisnan a = true ∨ fisnan b = true → AdjacentEqual64 a b = false.
Proof. exact (adjacent_nan a b). Qed.
Print Assumptions C89_adjacent_nan.
(** Equiv64: both infinite, both NaN, or the same number *)
Theorem C89_equiv a b : Equiv64 a b = true ↔ (is_inf a ∧ is_inf b) ∨ (is_nan a ∧ is_nan b) ∨ (ffinite a = true ∧ ffinite b = true ∧ f2r a = f2r b).
Proof. exact (Equiv64_spec a b). Qed.
Print Assumptions C89_equiv.
(** an equivalence relation *)
Theorem C89_equivalence : (∀ a, Equiv64 a a = true) ∧ (∀ a b, Equiv64 a b = Equiv64 b a) ∧ (∀ a b c, Equiv64 a b = true → Equiv64 b c = true → Equiv64 a c = true).
Proof. exact Equiv64_equivalence. Qed.
Print Assumptions C89_equivalence.
Example C89_nonvacuous : AdjacentEqual64 (f_of_Z 1) (f_frombits (fbits (f_of_Z 1) + 1)) = true ∧ AdjacentEqual64 (f_of_Z 1) (f_frombits (fbits (f_of_Z 1) + 2)) = false ∧
  AdjacentEqual64 f_inf f_max = true ∧ AdjacentEqual64 (fneg f_zero) (f_frombits 1) = true ∧ Equiv64 f_inf (fneg f_inf) = true.
Proof. repeat split; vm_compute; reflexivity. Qed.

(** ** C90: Close64 *)
(** Refuted for negative a: the code divides by a, not by its magnitude, and
    then any two numbers are close. *)
Theorem C90_negative_refuted a b tol : ffinite a = true → ffinite b = true → (f2r a < 0)%R → fle f_zero tol = true → Close64 a b tol = true.
Proof. exact (close_neg a b tol). Qed.
Print Assumptions C90_negative_refuted.
(** For positive a: adjacent, or relatively as close as asked, up to rounding; *)
Theorem C90_sound_partial a b tol : ffinite a = true → ffinite b = true → ffinite tol = true → (0 < f2r a)%R → Close64 a b tol = true →
  AdjacentEqual64 a b = true ∨ (Rabs (f2r a - f2r b) <= (f2r tol + Raux.bpow Zaux.radix2 (-1074)) * (1 + / 2^51) * f2r a)%R.
Proof. exact (close_sound a b tol). Qed.
Print Assumptions C90_sound_partial.
(** and numbers that are clearly as close as asked are reported close. *)
Theorem C90_complete_partial a b tol : ffinite a = true → ffinite b = true → ffinite tol = true → (0 < f2r a)%R → (Rabs (f2r a - f2r b) <= maxfloat)%R →
  (Rabs (f2r a - f2r b) * (1 + / 2^53) <= f2r tol * f2r a)%R → Close64 a b tol = true.
Proof. exact (close_complete a b tol). Qed.
Print Assumptions C90_complete_partial.
(** EquivOrCloseFloat64 is one or the other *)
Theorem C90_equiv_or_close a b tol : EquivOrCloseFloat64 a b tol = true ↔ Equiv64 a b = true ∨ Close64 a b tol = true.
Proof. exact (equiv_or_close a b tol). Qed.
Print Assumptions C90_equiv_or_close.
(** -1 and 1000000 are close; 1 and 2 are not within 1/2 of each other, 2 and 1 are *)
Example C90_nonvacuous : Close64 (f_of_Z (-1)) (f_of_Z 1000000) f_zero = true ∧ Close64 (f_of_Z 1) (f_of_Z 2) (fdiv (f_of_Z 1) (f_of_Z 2)) = false ∧
  Close64 (f_of_Z 2) (f_of_Z 1) (fdiv (f_of_Z 1) (f_of_Z 2)) = true ∧ EquivOrCloseFloat64 f_nan f_nan f_zero = true ∧ Close64 f_nan f_nan f_zero = false.
Proof. repeat split; vm_compute; reflexivity. Qed.
