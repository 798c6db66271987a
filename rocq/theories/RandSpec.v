(** The contract of Intn (rand.go:4-5 and math/rand) and a source that answers
    a prescribed sequence of numbers. *)
From Verif Require Import Base RandModel.
Definition rand_ok (rng : Rand) : Prop := ∀ s n,
  (0 < n → ∃ r s', r_intn rng s n = Ok (r, s') ∧ 0 ≤ r < n) ∧ (n ≤ 0 → r_intn rng s n = Panic).
(** plays [js]; afterwards (or when a number is out of range) it answers 0 *)
Definition playback : Rand := MkRand (list Z) (λ js n,
  if 0 <? n then
    match js with
    | j :: js => Ok (if (0 <=? j) && (j <? n) then j else 0, js)
    | [] => Ok (0, [])
    end
  else Panic).
(** the numbers a shuffle of n elements asks for: one below n, one below n-1, ... one below 1 *)
Fixpoint choices (n : nat) (js : list Z) : Prop :=
  match n, js with
  | O, [] => True
  | S n, j :: js => 0 ≤ j < Z.of_nat n + 1 ∧ choices n js
  | _, _ => False
  end.
