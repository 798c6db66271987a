(** Go's float64: IEEE 754 binary64 with round-to-nearest-even, from Flocq.
    Trusted: every Go operation rounds individually (amd64; no fused
    multiply-add), and the payload and sign of a NaN result are not observed. *)
From Verif Require Import Base.
From Flocq Require IEEE754.Binary IEEE754.BinarySingleNaN IEEE754.Bits.

Definition float : Type := Bits.binary64.
Definition fadd : float → float → float := Bits.b64_plus BinarySingleNaN.mode_NE.
Definition fsub : float → float → float := Bits.b64_minus BinarySingleNaN.mode_NE.
Definition fmul : float → float → float := Bits.b64_mult BinarySingleNaN.mode_NE.
Definition fdiv : float → float → float := Bits.b64_div BinarySingleNaN.mode_NE.
Definition fsqrt : float → float := Bits.b64_sqrt BinarySingleNaN.mode_NE.
Definition fneg : float → float := Bits.b64_opp.
Definition fabs : float → float := Bits.b64_abs.
(** x < y, x <= y, x == y: false when an operand is NaN *)
Definition flt (x y : float) : bool := match Bits.b64_compare x y with Some Lt => true | _ => false end.
Definition fle (x y : float) : bool := match Bits.b64_compare x y with Some (Lt | Eq) => true | _ => false end.
Definition feq (x y : float) : bool := match Bits.b64_compare x y with Some Eq => true | _ => false end.
Definition fgt (x y : float) : bool := flt y x.
Definition fisnan (x : float) : bool := Binary.is_nan 53 1024 x.
Definition ffinite (x : float) : bool := Binary.is_finite 53 1024 x.
(** conversion of an integer: float64(n) *)
Definition f_of_Z (n : Z) : float :=
  Binary.binary_normalize 53 1024 eq_refl eq_refl BinarySingleNaN.mode_NE n 0 false.
(** math.Float64bits, math.Float64frombits *)
Definition fbits (x : float) : Z := Bits.bits_of_b64 x.
Definition f_frombits (n : Z) : float := Bits.b64_of_bits n.
(** math.NaN(), math.Inf(1) *)
Definition f_nan : float := f_frombits 0x7FF8000000000001.
Definition f_inf : float := f_frombits 0x7FF0000000000000.
Definition f_zero : float := f_of_Z 0.
(** PutUint64(b, Float64bits(x)) and Float64frombits(Uint64(b)) *)
Definition putf (x : float) : bytes := put64 (fbits x).
Definition getf (l : bytes) : float := f_frombits (get64 l).
Global Opaque fadd fsub fmul fdiv fsqrt fneg fabs flt fle feq fgt fisnan ffinite f_of_Z fbits f_frombits f_nan f_inf f_zero.
