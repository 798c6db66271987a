(** No posted row of another key can take the home slot of record k. *)
From Verif Require Import Base CollationModel CollationSpec BufmapModel BufmapSpec.
Local Open Scope Z_scope.
Definition undisturbed (l : Z) (s : Schema) (k : Z) (rows : list Row) : Prop :=
  ∀ r k', r ∈ rows → record_key (s_keys s) (row_data r) = Some k' → k' ≠ k → home l k ∉ probe_slots l k'.
(** the first n bytes of a record of key k in its home slot can be read (see C33 and C34) *)
Definition home_readable (l size n k : Z) : Prop := n ≤ home l k ∧ home l k * (size + 1) ≤ l * size.
