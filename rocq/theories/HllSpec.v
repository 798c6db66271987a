(** Specification of a HyperLogLog sketch: register j holds the largest rank
    among the items whose hash starts with the bits of j. *)
From Verif Require Import Base FnvSpec BitbucketModel BitbucketSpec HllModel.

(** the top p bits of a 64 bit hash *)
Definition hll_bucket (p h : Z) : Z := h / 2 ^ (64 - p).
(** number of leading zeros of x seen as a word of [n] bits *)
Fixpoint leading_zeros (n : nat) (x : Z) : Z :=
  match n with
  | O => 0
  | S n => if Z.testbit x (Z.of_nat n) then 0 else 1 + leading_zeros n x
  end.
(** 1 + number of leading zeros in the remaining 64-p bits *)
Definition hll_rank (p h : Z) : Z := 1 + leading_zeros (Z.to_nat (64 - p)) h.
Definition hll_register (p : Z) (vs : list bytes) (j : Z) : Z :=
  fold_right Z.max 0 (map (hll_rank p) (filter (λ h, hll_bucket p h = j) (map fnv1_spec vs))).

Fixpoint Hll_Adds (c : Counter) (vs : list bytes) : outcome Counter :=
  match vs with [] => Ok c | v :: vs => let! c := Hll_Add c v in Hll_Adds c vs end.

Definition hll_size (p : Z) : nat := Z.to_nat (2 ^ p).
(** a counter of precision p with arbitrary 6 bit registers *)
Definition hll_wf (c : Counter) (p : Z) : Prop :=
  4 ≤ p ≤ 18 ∧ hc_p c = p ∧ hc_mask c = hll_mask p ∧ wf (hc_bits c) (hll_size p) ∧ bb_w (hc_bits c) = 6.
Definition hll_serial (p : Z) (data : bytes) : bytes := [1; p] ++ bb_serial (hll_size p) 6 data.
