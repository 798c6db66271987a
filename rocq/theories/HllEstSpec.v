(** The published cardinality estimators, over the real numbers.
    Flajolet, Fusy, Gandouet, Meunier (2007): E = alpha_m m^2 / sum_j 2^-M_j.
    Ertl (2016): E = alpha m^2 / (m sigma(C_0/m) + sum_k C_k 2^-k + m tau(1 - C_{q+1}/m) 2^-q),
    C_k the number of registers that hold k, q = 64 - p. *)
From Verif Require Import Base BitbucketSpec HllSpec.
From Coq Require Import Reals.

(** the constant in front: the table of Flajolet et al. up to m = 256 registers,
    7 digits of 1/(2 ln 2) above *)
Definition alpha (p : Z) : R :=
  (if p =? 4 then 0.673 else if p =? 5 then 0.697 else if p =? 6 then 0.709
   else if p <=? 8 then 0.7213 / (1 + 1.079 / 2 ^ Z.to_nat p) else 0.7213475)%R.
Definition Rsum_over {A} (f : A → R) (l : list A) : R := fold_right (λ x s, (f x + s)%R) 0%R l.
(** 2^-M *)
Definition flajolet_weight (r : Z) : R := (/ 2 ^ Z.to_nat r)%R.
(** the same, but an empty register weighs 1/2 *)
Definition half_weight (r : Z) : R := if r =? 0 then (1 / 2)%R else flajolet_weight r.
(** alpha m^2 / z *)
Definition estimate (p : Z) (z : R) : R := (alpha p * 2 ^ Z.to_nat p * 2 ^ Z.to_nat p / z)%R.

(** sigma(x) = x + sum_{k>=1} x^(2^k) 2^(k-1) *)
Definition is_sigma (x s : R) : Prop :=
  Un_cv (λ n, (x + sum_f_R0 (λ k, x ^ (2 ^ S k) * 2 ^ k) n)%R) s.
(** tau(x) = 1/3 (1 - x - sum_{k>=1} (1 - x^(2^-k))^2 2^-k), x^(2^-k) being k square roots *)
Definition root (k : nat) (x : R) : R := Nat.iter k sqrt x.
Definition is_tau (x t : R) : Prop :=
  Un_cv (λ n, (/ 3 * (1 - x - sum_f_R0 (λ k, (1 - root (S k) x) ^ 2 / 2 ^ S k) n))%R) t.
(** z is Ertl's indicator for the register values l of a counter of precision p *)
Definition is_ertl (p : Z) (l : list Z) (z : R) : Prop :=
  let m := (2 ^ Z.to_nat p)%R in
  ∃ s t, is_sigma (IZR (count_eq 0 l) / m) s ∧ is_tau (1 - IZR (count_eq (65 - p) l) / m) t ∧
    z = (m * s + Rsum_over (λ k, IZR (count_eq (Z.of_nat k) l) / 2 ^ k) (seq 1 (Z.to_nat (64 - p)))
         + m * t / 2 ^ Z.to_nat (64 - p))%R.
(** n is e rounded up to a whole number, but for a relative error of one in a million *)
Definition rounded_up (n : Z) (e : R) : Prop := (e * (1 - / 10 ^ 6) <= IZR n < e * (1 + / 10 ^ 6) + 1)%R.
(** what the registers hold after the items vs *)
Definition hll_values (p : Z) (vs : list bytes) : list Z := map (λ j, hll_register p vs (Z.of_nat j)) (seq 0 (hll_size p)).
(** the size of the estimate at which Count turns from Ertl's estimator to Flajolet's: 7 m *)
Definition harmonic_limit (p : Z) : R := (alpha p * 2 ^ Z.to_nat p / 7)%R.
