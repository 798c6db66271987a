(** Specification of what a query can see of a record that lies in slot x of a store
    with l slots, for every x. *)
From Verif Require Import Base Float64 HllModel CollationModel CollationSpec BufmapModel BufmapSpec QueryModel BufconcModel BufconcSpec ServerModel ServerSpec ServerHomeSpec StoreConcModel StoreConcSpec ServerConcModel ServerConcSpec.
Local Open Scope Z_scope.

Section spec.
Context (est : Counter → Z) (ff : float → bytes) (et : error → bytes).
(** the first x bytes of the record, the others zero *)
Definition first_bytes (x : Z) (size : Z) (d : bytes) : bytes := take (Z.to_nat x) d ++ replicate (Z.to_nat (size - x)) 0.
(** r is the answer to q if the record is d and lies in slot x: from the first x bytes
    of the record; near the end of the store the connection is closed instead *)
Definition from_slot (l : Z) (s : Schema) (x : Z) (q : Query) (d : bytes) (r : response) : Prop :=
  let size := c_size (Compile s) in
  if decide (x * (size + 1) ≤ l * size) then r = respond ff et q (Coll_Read est (Compile s) (q_fms q) (first_bytes x size d)) else r = Aborted.
(** the first n bytes of a record of key k can be read where it lies (compare
    [whole_readable]) *)
Definition front_readable (l : Z) (s : Schema) (n k : Z) (rows : list Row) : Prop :=
  let size := c_size (Compile s) in readable l size n k ∨ (undisturbed l s k rows ∧ home_readable l size n k).
(** the query count( * ) for the rows whose field key is val, and the answer m *)
Definition count_text (key val : bytes) : bytes := str "select count(*) where " ++ key ++ str "='" ++ val ++ str "'".
Definition count_is (key val : bytes) (m : nat) (r : response) : Prop :=
  r = Resp 200 (key ++ str "=" ++ val ++ [10] ++ str "count(*)=" ++ ff (f_of_Z (Z.of_nat m)) ++ [10]) ∨ (m = 0%nat ∧ r = Resp 200 (key ++ str "=" ++ val ++ [10])).
End spec.
