(** Model of /repo/internal/testutil/float.go (all of it). *)
From Verif Require Import Base Float64.
Local Open Scope Z_scope.

(** math.MaxFloat64 *)
Definition f_max : float := f_frombits 0x7FEFFFFFFFFFFFFF.
(** math.IsInf(x, 0): x > MaxFloat64 || x < -MaxFloat64 *)
Definition fisinf (x : float) : bool := fgt x f_max || flt x (fneg f_max).
(** math.Signbit, math.Copysign: on the sign bit, bit 63 *)
Definition signbit (x : float) : bool := Z.testbit (fbits x) 63.
Definition copysign (x y : float) : float :=
  f_frombits (Z.lor (Z.land (fbits x) (2^63 - 1)) (if signbit y then 2^63 else 0)).
(** math.Nextafter (Go's math/nextafter.go), with uint64 wrap-around *)
Definition nextafter (x y : float) : float :=
  if fisnan x || fisnan y then f_nan
  else if feq x y then x
  else if feq x f_zero then copysign (f_frombits 1) y
  else if Bool.eqb (fgt y x) (fgt x f_zero) then f_frombits (u64 (fbits x + 1))
  else f_frombits (u64 (fbits x - 1)).
(** float.go:37-39 *)
Definition AdjacentEqual64 (a b : float) : bool := feq a b || feq a (nextafter b f_max) || feq b (nextafter a f_max).
(** float.go:8-10 *)
Definition Close64 (a b tolerance : float) : bool := AdjacentEqual64 a b || fle (fdiv (fabs (fsub a b)) a) tolerance.
(** float.go:14-22 *)
Definition Equiv64 (a b : float) : bool :=
  if fisinf a && fisinf b then true else if fisnan a && fisnan b then true else feq a b.
(** float.go:26-34 *)
Definition EquivOrCloseFloat64 (a b tolerance : float) : bool :=
  if fisinf a && fisinf b then true else if fisnan a && fisnan b then true else Close64 a b tolerance.
