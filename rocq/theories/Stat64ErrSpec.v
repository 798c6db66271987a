(** Vocabulary of C109: a set of observations with known magnitude and spread. *)
From Verif Require Import Base Float64 Float64Spec.
From Coq Require Import Reals.
(** every observation is a finite float64 of magnitude at most M, and no two of
    them differ by more than D *)
Definition within (M D : R) (vs : list float) : Prop :=
  (∀ v, v ∈ vs → ffinite v = true ∧ (Rabs (f2r v) <= M)%R) ∧
  (∀ v w, v ∈ vs → w ∈ vs → (Rabs (f2r v - f2r w) <= D)%R).
