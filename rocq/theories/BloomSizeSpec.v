(** What is assumed of math.Log, Exp and Pow, and the textbook formulas for bloom filters. *)
From Verif Require Import Base Float64 Float64Spec BitbucketModel BitbucketSpec BloomModel BloomSpec BloomSizeModel.
From Coq Require Import Reals.
Open Scope R_scope.

(** math.Log is accurate to a relative error of 2^-50 on all positive finite arguments *)
Definition log_all_ok (glog : float → float) : Prop := ∀ x, ffinite x = true → 0 < f2r x →
  ffinite (glog x) = true ∧ Rabs (f2r (glog x) - ln (f2r x)) <= / 2 ^ 50 * Rabs (ln (f2r x)).
(** documented special case: Log(0) = -Inf *)
Definition log_zero (glog : float → float) : Prop := ∀ x, ffinite x = true → f2r x = 0 →
  glog x = Binary.B754_infinity 53 1024 true.
(** math.Exp on x <= 0: between 0 and 1, absolute error at most 2^-45 *)
Definition exp_ok (gexp : float → float) : Prop := ∀ x, ffinite x = true → f2r x <= 0 →
  ffinite (gexp x) = true ∧ 0 <= f2r (gexp x) <= 1 ∧ Rabs (f2r (gexp x) - exp (f2r x)) <= / 2 ^ 45.
(** math.Pow(x, k) on 0 <= x <= 1 and small integers k: between 0 and 1, absolute error at most 2^-40 *)
Definition pow_ok (gpow : float → float → float) : Prop := ∀ x (k : nat), ffinite x = true → 0 <= f2r x <= 1 → (k ≤ 255)%nat →
  ffinite (gpow x (f_of_Z (Z.of_nat k))) = true ∧ 0 <= f2r (gpow x (f_of_Z (Z.of_nat k))) <= 1 ∧
  Rabs (f2r (gpow x (f_of_Z (Z.of_nat k))) - f2r x ^ k) <= / 2 ^ 40.

(** the optimal number of bits for n items at a false positive rate p: -n ln p / (ln 2)^2 *)
Definition optimal_bits (n p : R) : R := - (n * ln p) / (ln 2 * ln 2).
(** the optimal number of hash functions for m bits and n items: (m/n) ln 2 *)
Definition optimal_hashes (m n : R) : R := m / n * ln 2.
(** the textbook false positive rate of m bits and k hash functions holding n items *)
Definition false_positive_rate (m : R) (k : nat) (n : R) : R := (1 - exp (- (INR k * n / m))) ^ k.

(** number of set bits *)
Definition set_bits (b : Bloom) (m : nat) : Z :=
  count_eq 1 (map (λ i, match BB_Get (bl_bits b) (Z.of_nat i) with Ok v => v | _ => 0%Z end) (seq 0 m)).
(** the estimate of the number of items in a filter with x of m bits set: -(m/k) ln(1 - x/m) *)
Definition fill_estimate (m k x : R) : R := - (m / k) * ln (1 - x / m).
