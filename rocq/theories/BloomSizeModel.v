(** Model of the floating point parts of /repo/internal/summary/bloom/bloom.go:
    sizing (lines 32-36 and 61-70), the package function Len (107-112), Count
    (114-118) and ErrorRate (120-124).  math.Log, math.Exp and math.Pow are the
    parameters [glog], [gexp], [gpow]; the other float64 operations are IEEE 754. *)
From Verif Require Import Base Float64 BitbucketModel BloomModel HllCountModel.

(** math.Ln2 and the constant expression math.Ln2*math.Ln2 (bloom.go:62-63).  Go
    evaluates constant expressions exactly and rounds the result once to
    float64; these are the rounded values as exact quotients. *)
Definition f_ln2 : float := f_lit 6243314768165359 (2^53).
Definition f_ln2sq : float := f_lit 8655072057804175 (2^54).

(** uint8(x) of a float64 on amd64: conversion to int32 (CVTTSD2SL, -2^31 when
    it does not fit), then the low eight bits *)
Definition f_to_uint8 (x : float) : Z :=
  let t := f_to_int64 x in
  (if (- 2^31 <=? t) && (t <? 2^31) then t else - 2^31) mod 256.

Section log.
  Context (glog : float → float).
  (** bloom.go:61-70 *)
  Definition Bloom_mk (n : Z) (p : float) : Z * Z :=
    let m := f_to_int64 (fceil (fdiv (fmul (fneg (f_of_Z n)) (glog p)) f_ln2sq)) in
    let kraw := fceil (fdiv (fmul f_ln2 (f_of_Z m)) (f_of_Z n)) in
    let k := 255 in
    let k := if flt kraw (f_of_Z 255) then f_to_uint8 kraw else k in
    (m, k).
  (** bloom.go:33-36 *)
  Definition Bloom_New (n : Z) (p : float) : outcome Bloom :=
    let '(m, k) := Bloom_mk n p in Bloom_NewBits m k.
  (** bloom.go:109-112 *)
  Definition Bloom_LenOf (n : Z) (p : float) : Z :=
    let '(m, _) := Bloom_mk n p in BloomHdrLen + BB_LenOf m 1.
  (** bloom.go:115-118 *)
  Definition Bloom_Count (b : Bloom) : outcome Z :=
    let! x := BB_CountN (bl_bits b) 1 in
    Ok (f_to_int64 (fceil (fdiv (fmul (fneg (glog (fsub f_one (fdiv (f_of_Z x) (f_of_Z (bl_m b)))))) (f_of_Z (bl_m b))) (f_of_Z (bl_k b))))).
End log.

Section exp.
  Context (gexp : float → float) (gpow : float → float → float).
  (** bloom.go:121-124 *)
  Definition Bloom_ErrorRate (b : Bloom) : outcome float :=
    let! x := BB_CountN (bl_bits b) 1 in
    Ok (gpow (fsub f_one (gexp (fdiv (fmul (fneg (f_of_Z (bl_k b))) (f_of_Z x)) (f_of_Z (bl_m b))))) (f_of_Z (bl_k b))).
End exp.
