(** Specification of fair schedules of the server. *)
From Verif Require Import Base CollationModel BufconcModel BufconcSpec ServerConcModel.

(** every update makes finitely many accesses, whatever it reads *)
Definition finite_updates (impl : nat → Row → bool → prog) : Prop := ∀ i r init, ∃ q, bounded q (impl i r init).
(** a stretch of a schedule in which each of n goroutines gets at least one turn (its
    arrival, if the request has not arrived yet; actions that cannot happen do nothing).
    A schedule is fair if it consists of infinitely many such stretches. *)
Definition round (n : nat) (acts : list vaction) : Prop := ∀ t, t < n → VArrive t ∈ acts ∧ VStep t ∈ acts.
