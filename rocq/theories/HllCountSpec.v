(** What is assumed of math.Log, when Count returns, and what linear counting is. *)
From Verif Require Import Base FnvSpec Float64 Float64Spec BitbucketModel BitbucketSpec HllModel HllSpec HllCountModel.
From Coq Require Import Reals.

(** math.Log is accurate to a relative error of 2^-50 on finite arguments >= 1
    (the documented error of Go's implementation is below one ulp, 2^-52). *)
Definition log_ok (glog : float → float) : Prop := ∀ x, ffinite x = true → (1 <= f2r x)%R →
  ffinite (glog x) = true ∧ (Rabs (f2r (glog x) - ln (f2r x)) <= / 2 ^ 50 * ln (f2r x))%R.
(** Count() returns n: it neither panics nor loops for ever *)
Definition Count_returns (glog : float → float) (c : Counter) (n : Z) : Prop :=
  ∃ fuel0, ∀ fuel, (fuel0 ≤ fuel)%nat → Hll_Count glog fuel c = Ok (Some n).
Definition PoissonCount_returns (c : Counter) (n : Z) : Prop :=
  ∃ fuel0, ∀ fuel, (fuel0 ≤ fuel)%nat → Hll_PoissonCount fuel c = Ok (Some n).
(** register j of c *)
Definition register (c : Counter) (j : nat) : Z :=
  match BB_Get (hc_bits c) (Z.of_nat j) with Ok r => r | _ => 0 end.
Definition registers (c : Counter) (p : Z) : list Z := map (register c) (seq 0 (hll_size p)).
(** number of registers that hold 0 *)
Definition empty_registers (c : Counter) (p : Z) : Z := count_eq 0 (registers c p).
(** the linear counting estimate m ln(m/v) *)
Definition linear_counting (p v : Z) : R := (IZR (2 ^ p) * ln (IZR (2 ^ p) / IZR v))%R.
(** the largest estimate for which Count trusts linear counting (the table of
    Heule, Nunkesser, Hall 2013, "HyperLogLog in practice") *)
Definition linear_limit (p : Z) : Z :=
  nth (Z.to_nat (p - 4)) [10; 20; 40; 80; 220; 400; 900; 1800; 3100; 6500; 11500; 20000; 50000; 120000; 350000] 0.
(** number of different registers the items of vs fall into *)
Definition buckets_hit (p : Z) (vs : list bytes) : Z :=
  Z.of_nat (length (remove_dups (map (λ v, hll_bucket p (fnv1_spec v)) vs))).
(** Count() after adding vs to a new counter of precision p returns n *)
Definition Count_after (glog : float → float) (p : Z) (vs : list bytes) (n : Z) : Prop :=
  ∃ c0 c, Hll_New p = Ok c0 ∧ Hll_Adds c0 vs = Ok c ∧ Count_returns glog c n.
