(** Model of /repo/internal/stats/stats.go (all of it).  The arithmetic is a
    parameter so that the same text can be evaluated in float64 (the code) and
    in exact arithmetic. *)
From Verif Require Import Base Float64.

Section arith.
  Context {A : Type} (zero nan : A) (add sub mul div : A → A → A) (sqrt : A → A) (eqb : A → A → bool) (ofint : Z → A).
  (** stats.go:28-34 *)
  Definition sum_loop (vals : list A) : A := fold_left add vals zero.
  (** the loops of stats.go:20-22 (around the mean) and 38-41 (around e) *)
  Definition sqdev_loop (c : A) (vals : list A) : A :=
    fold_left (λ acc v, add acc (mul (sub v c) (sub v c))) vals zero.
  (** stats.go:8-25 *)
  Definition meanvar (vals : list A) : outcome (A * A) :=
    let count := ofint (Z.of_nat (length vals)) in
    if eqb count (ofint 0) then Ok (nan, nan)
    else if eqb count (ofint 1) then let! v := index vals 0 in Ok (v, nan)
    else
      let mean := div (sum_loop vals) count in
      Ok (mean, div (sqdev_loop mean vals) count).
  (** stats.go:37-43 *)
  Definition see (vals : list A) (e : A) : A :=
    sqrt (div (sqdev_loop e vals) (ofint (Z.of_nat (length vals) - 2))).
End arith.
(** stats.go:8, 28, 37 in float64 *)
Definition Stats_Meanvar : list float → outcome (float * float) := meanvar f_zero f_nan fadd fsub fmul fdiv feq f_of_Z.
Definition Stats_Sum : list float → float := sum_loop f_zero fadd.
Definition Stats_See : list float → float → float := see f_zero fadd fsub fmul fdiv fsqrt f_of_Z.
