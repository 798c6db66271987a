(** Vocabulary for the rounding properties of the statistical summary. *)
From Verif Require Import Base Float64 Float64Spec.
From Coq Require Import Reals.
Local Open Scope Z_scope.
Definition Zsum (ns : list Z) : Z := fold_left Z.add ns 0.
(** the float v is the integer n *)
Definition is_int (v : float) (n : Z) : Prop := ffinite v = true ∧ f2r v = IZR n.
(** any two observations differ by at most the largest finite float64 *)
Definition spread_ok (vs : list float) : Prop :=
  ∀ v w, v ∈ vs → w ∈ vs → (Rabs (f2r v - f2r w) <= maxfloat)%R.
Fixpoint Rabssum (xs : list R) : R := match xs with [] => 0%R | x :: xs => (Rabs x + Rabssum xs)%R end.
