(** Model of /repo/internal/summary/stat64/stats.go (all of it). *)
From Verif Require Import Base Float64.

(** stats.go:12 *)
Definition statSize : Z := 32.
(** stats.go:20 *)
Definition zeroStats64 : bytes := replicate 32 0.
(** stats.go:23-26 and 129-132: Reset as a function and as a method *)
Definition Stat_Reset (buf : bytes) : bytes := gocopy buf zeroStats64.
(** stats.go:33-36 *)
Definition Stat_New : bytes := replicate 32 0.
(** stats.go:40-42: a Summary is the buffer itself. *)
Definition Stat_WithBytes (buf : bytes) : bytes := buf.
(** stats.go:45-47, 50-52 *)
Definition Stat_Len : Z := statSize.

(** binary.LittleEndian.Uint64(s[lo:lo+8]) and the float64 stored there *)
Definition stat_u64 (s : bytes) (lo : Z) : outcome Z :=
  let! b := slice s lo (lo + 8) in Ok (get64 b).
Definition stat_f64 (s : bytes) (lo : Z) : outcome float :=
  let! b := slice s lo (lo + 8) in Ok (getf b).
(** binary.LittleEndian.PutUint64(s[lo:lo+8], x) *)
Definition stat_put (s : bytes) (lo : Z) (x : bytes) : outcome bytes :=
  let! _ := slice s lo (lo + 8) in Ok (splice s (Z.to_nat lo) x).

(** stats.go:55-57 *)
Definition Stat_Count (s : bytes) : outcome Z := stat_u64 s 0.
(** stats.go:60-62 *)
Definition Stat_Mean (s : bytes) : outcome float := stat_f64 s 16.
(** stats.go:65-73 *)
Definition Stat_Variance (s : bytes) : outcome float :=
  let! count := stat_u64 s 0 in
  if count <? 2 then Ok f_nan
  else
    let! ss := stat_f64 s 24 in
    Ok (fdiv ss (f_of_Z (u64 (count - 1)))).
(** stats.go:76-78 *)
Definition Stat_Sum (s : bytes) : outcome float := stat_f64 s 8.

(** The four accumulators of stats.go:82-96 and 107-121, and one observation.
    The arithmetic is a parameter so that the same recurrence can be evaluated
    in float64 (the code) and in exact arithmetic (property C20). *)
Record acc (A : Type) := Acc { a_count : Z; a_sum : A; a_mean : A; a_ss : A }.
Arguments Acc {A}. Arguments a_count {A}. Arguments a_sum {A}. Arguments a_mean {A}. Arguments a_ss {A}.
Section step.
  Context {A : Type} (add sub mul div : A → A → A) (ofcount : Z → A).
  (** stats.go:90-96 / 115-121 *)
  Definition observe (a : acc A) (v : A) : acc A :=
    let count := u64 (a_count a + 1) in
    let sum := add (a_sum a) v in
    let delta := sub v (a_mean a) in
    let mean := add (a_mean a) (div delta (ofcount count)) in
    let ss := add (a_ss a) (mul delta (sub v mean)) in
    Acc count sum mean ss.
End step.
Definition observe64 : acc float → float → acc float := observe fadd fsub fmul fdiv f_of_Z.

(** stats.go:82-87 / 107-112 *)
Definition stat_load (s : bytes) : outcome (acc float) :=
  let! count := stat_u64 s 0 in
  let! sum := stat_f64 s 8 in
  let! mean := stat_f64 s 16 in
  let! ss := stat_f64 s 24 in
  Ok (Acc count sum mean ss).
(** stats.go:98-101 / 123-126 *)
Definition stat_save (s : bytes) (a : acc float) : outcome bytes :=
  let! s := stat_put s 0 (put64 (a_count a)) in
  let! s := stat_put s 8 (putf (a_sum a)) in
  let! s := stat_put s 16 (putf (a_mean a)) in
  let! s := stat_put s 24 (putf (a_ss a)) in
  Ok s.
(** stats.go:81-102 *)
Definition Stat_Update (s : bytes) (v : float) : outcome bytes :=
  let! a := stat_load s in stat_save s (observe64 a v).
(** stats.go:104-127 *)
Definition Stat_UpdateMulti (s : bytes) (vs : list float) : outcome bytes :=
  let! a := stat_load s in stat_save s (fold_left observe64 vs a).
