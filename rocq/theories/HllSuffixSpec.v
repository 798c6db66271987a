(** Values that share a beginning and differ at the end, such as numbered identifiers. *)
From stdpp Require Import list numbers.
From Verif Require Import Base.
Local Open Scope Z_scope.
(** the ASCII digits *)
Definition is_digit (c : Z) : Prop := 48 ≤ c ≤ 57.
(** pre followed by k decimal digits *)
Definition numbered (pre : bytes) (k : nat) (v : bytes) : Prop := ∃ ds, length ds = k ∧ Forall is_digit ds ∧ v = pre ++ ds.
(** all the strings of k characters of an alphabet *)
Fixpoint strings (L : list Z) (k : nat) : list bytes :=
  match k with
  | O => [[]]
  | S k => flat_map (λ d, map (cons d) (strings L k)) L
  end.
Definition digit_strings : nat → list bytes := strings [48; 49; 50; 51; 52; 53; 54; 55; 56; 57].
Definition byte_strings : nat → list bytes := strings (seqZ 0 256).
(** pre followed by every string of k digits: pre000, pre001 ... *)
Definition all_numbered (pre : bytes) (k : nat) : list bytes := map (app pre) (digit_strings k).
