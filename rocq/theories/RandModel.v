(** Model of /repo/internal/testutil/rand.go (all of it). *)
From Verif Require Import Base.

(** rand.go:3-6: a source of random numbers is a state and a transition.  Its
    Intn may panic (math/rand panics for n <= 0). *)
Record Rand := MkRand { r_state : Type; r_intn : r_state → Z → outcome (Z * r_state) }.

Section rng.
  Context (rng : Rand).
  Notation S := (r_state rng).
  Notation Intn := (r_intn rng).

  (** rand.go:16-20: [k] bytes left, [i] the next index *)
  Fixpoint fill_loop (buf : bytes) (i : Z) (k : nat) (s : S) : outcome (bytes * S) :=
    match k with
    | O => Ok (buf, s)
    | Datatypes.S k =>
        let! '(r, s) := Intn s 256 in
        let! buf := store buf i (u8 r) in
        fill_loop buf (i + 1) k s
    end.
  Definition FillRandomByteSlice (buf : bytes) (s : S) : outcome (bytes * S) := fill_loop buf 0 (length buf) s.
  (** rand.go:9-13; make panics on a negative length *)
  Definition RandomByteSlice (n : Z) (s : S) : outcome (bytes * S) :=
    if n <? 0 then Panic else FillRandomByteSlice (replicate (Z.to_nat n) 0) s.
  (** rand.go:23-25: uint8 arithmetic *)
  Definition Printable (s : S) : outcome (Z * S) :=
    let! '(r, s) := Intn s 95 in Ok (u8 (32 + u8 r), s).
  (** rand.go:28-35 *)
  Fixpoint slices_loop (k : nat) (n : Z) (s : S) : outcome (list bytes * S) :=
    match k with
    | O => Ok ([], s)
    | Datatypes.S k =>
        let! '(b, s) := RandomByteSlice n s in
        let! '(bs, s) := slices_loop k n s in Ok (b :: bs, s)
    end.
  Definition RandomByteSlices (m n : Z) (s : S) : outcome (list bytes * S) :=
    if m <? 0 then Panic else slices_loop (Z.to_nat m) n s.

  (** rand.go:54-59: [i+1] iterations left; the slice elements are swapped in place. *)
  Fixpoint shuffle_loop {A} (buf : list A) (i : nat) (s : S) : outcome (list A * S) :=
    match i with
    | O => Ok (buf, s)
    | Datatypes.S i =>
        let! '(j, s) := Intn s (Z.of_nat i + 1) in
        let! x := index buf (Z.of_nat i) in
        let! y := index buf j in
        let! buf := store buf (Z.of_nat i) y in
        let! buf := store buf j x in
        shuffle_loop buf i s
    end.
  Definition Shuffle {A} (buf : list A) (s : S) : outcome (list A * S) := shuffle_loop buf (length buf) s.

  (** rand.go:44-48: [k] cells left to draw *)
  Fixpoint draw_loop {A} (src dest : list A) (i : Z) (k : nat) (s : S) : outcome (list A * S) :=
    match k with
    | O => Ok (dest, s)
    | Datatypes.S k =>
        let! '(r, s) := Intn s (Z.of_nat (length src)) in
        let! x := index src r in
        let! dest := store dest i x in
        draw_loop src dest (i + 1) k s
    end.
  (** rand.go:40-52.  The elements are slices; copying an element copies the
      reference, so dest shares the bytes of src.  [nil] is the zero value. *)
  Definition ShuffleRepeated {A} (nil : A) (n : Z) (src : list A) (s : S) : outcome (list A * S) :=
    if n <? 0 then Panic
    else
      let dest := gocopy (replicate (Z.to_nat n) nil) src in
      let! '(dest, s) := draw_loop src dest (Z.of_nat (length src)) (Z.to_nat n - length src) s in
      Shuffle dest s.
End rng.
