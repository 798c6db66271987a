(** Model of the estimators of /repo/internal/summary/hll/hll.go (lines 63-80
    and 111-244, 329-351).  math.Log is the parameter [glog]; the other float64
    operations are IEEE 754 (Float64.v).  The two unbounded loops (sigma, tau)
    take fuel; [None] means that the fuel ran out. *)
From Verif Require Import Base Float64 BitbucketModel HllModel.
From Flocq Require IEEE754.Binary IEEE754.BinarySingleNaN IEEE754.Bits.

(** math.Ceil *)
Definition fceil (x : float) : float := Binary.Bnearbyint 53 1024 eq_refl Bits.unop_nan_pl64 BinarySingleNaN.mode_UP x.
(** int64(x) on amd64 (CVTTSD2SQ): truncation, and -2^63 for NaN and values that do not fit *)
Definition f_to_int64 (x : float) : Z :=
  if ffinite x then
    let t := Binary.Btrunc 53 1024 x in
    if (- 2^63 <=? t) && (t <? 2^63) then t else - 2^63
  else - 2^63.
Global Opaque fceil f_to_int64.

(** a decimal literal num/den: both are exact in float64, so the division is
    the correctly rounded literal *)
Definition f_lit (num den : Z) : float := fdiv (f_of_Z num) (f_of_Z den).
Definition f_half : float := f_lit 1 2.
Definition f_one : float := f_of_Z 1.

(** hll.go:64, 113, 140, 167, 181, 200: int(uint(1) << uint(p)) *)
Definition hll_m (p : Z) : Z := s64 (shl64 1 p).
(** hll.go:67 and 329-351: a missing map key reads 0 *)
Definition hll_threshold (p : Z) : float :=
  f_of_Z match p with
  | 4 => 10 | 5 => 20 | 6 => 40 | 7 => 80 | 8 => 220 | 9 => 400 | 10 => 900 | 11 => 1800 | 12 => 3100
  | 13 => 6500 | 14 => 11500 | 15 => 20000 | 16 => 50000 | 17 => 120000 | 18 => 350000
  | _ => 0
  end.
(** hll.go:69-79 *)
Definition hll_alpha (p : Z) : float :=
  let m := hll_m p in
  if m <=? 16 then f_lit 673 1000
  else if m <=? 32 then f_lit 697 1000
  else if m <=? 64 then f_lit 709 1000
  else if 256 <? m then f_lit 7213475 10000000
  else fdiv (f_lit 7213 10000) (fadd f_one (fdiv (f_lit 1079 1000) (f_of_Z m))).

(** hll.go:150-164: [k] registers left, [i] the next one *)
Fixpoint harmonic_loop (c : Counter) (k : nat) (i : Z) (z : float) : outcome float :=
  match k with
  | O => Ok z
  | S k =>
      let! reg := BB_Get (hc_bits c) i in
      if reg =? 0 then harmonic_loop c k (i + 1) (fadd z f_half)
      else
        let delta := fdiv f_one (f_of_Z (shl64 1 reg)) in
        harmonic_loop c k (i + 1) (fadd z delta)
  end.
Definition Hll_harmonic (c : Counter) (m : Z) : outcome float := harmonic_loop c (Z.to_nat m) 0 f_zero.

(** hll.go:214-223 *)
Fixpoint sigma_loop (fuel : nat) (x y z : float) : option float :=
  match fuel with
  | O => None
  | S fuel =>
      let x := fmul x x in
      let z1 := z in
      let z := fadd z (fmul x y) in
      let y := fmul (f_of_Z 2) y in
      if feq z z1 then Some z else sigma_loop fuel x y z
  end.
(** hll.go:207-226 *)
Definition Hll_sigma (fuel : nat) (c m : Z) : option float :=
  let x := fdiv (f_of_Z c) (f_of_Z m) in
  if feq x f_one then Some f_inf else sigma_loop fuel x f_one x.
(** hll.go:233-241 *)
Fixpoint tau_loop (fuel : nat) (x y z : float) : option float :=
  match fuel with
  | O => None
  | S fuel =>
      let x := fsqrt x in
      let z1 := z in
      let y := fmul f_half y in
      let z := fadd z (fmul (fmul (fsub f_one x) x) y) in
      if feq z z1 then Some z else tau_loop fuel x y z
  end.
(** hll.go:229-244 *)
Definition Hll_tau (fuel : nat) (c m : Z) : option float :=
  tau_loop fuel (fsub f_one (fdiv (f_of_Z c) (f_of_Z m))) f_one f_zero.

(** hll.go:190-192: k runs from q down to 1 *)
Fixpoint fold_hist (cn : list Z) (k : nat) (z : float) : outcome float :=
  match k with
  | O => Ok z
  | S k' =>
      let! x := index cn (Z.of_nat k) in
      fold_hist cn k' (fmul f_half (fadd z (f_of_Z x)))
  end.
(** hll.go:178-197 *)
Definition Hll_poisson (fuel : nat) (c : Counter) : outcome (option float) :=
  let m := hll_m (hc_p c) in
  let q := 64 - hc_p c in
  let! cn := hll_hist_loop c (Z.to_nat m) 0 (replicate 64 0) in
  let! ct := index cn (q + 1) in
  match Hll_tau fuel ct m with
  | None => Ok None
  | Some t =>
      let! z := fold_hist cn (Z.to_nat q) (fmul (f_of_Z m) t) in
      let! c0 := index cn 0 in
      match Hll_sigma fuel c0 m with
      | None => Ok None
      | Some s => Ok (Some (fadd z (fmul (f_of_Z m) s)))
      end
  end.
(** hll.go:133-134, 169-170, 202-203: alpha * m * m / z, rounded up, as an int64 *)
Definition hll_normalize (p : Z) (z : float) : Z :=
  let m := hll_m p in
  f_to_int64 (fceil (fdiv (fmul (fmul (hll_alpha p) (f_of_Z m)) (f_of_Z m)) z)).

Section log.
  Context (glog : float → float).
  (** hll.go:119 and 141-142 *)
  Definition linear_estimate (m v : Z) : float :=
    fceil (fmul (f_of_Z m) (glog (fdiv (f_of_Z m) (f_of_Z v)))).
  (** hll.go:111-135 *)
  Definition Hll_Count (fuel : nat) (c : Counter) : outcome (option Z) :=
    let p := hc_p c in
    let m := hll_m p in
    let! v := BB_CountN (hc_bits c) 0 in
    let h := linear_estimate m v in
    if (0 <? v) && fle h (hll_threshold p) then Ok (Some (f_to_int64 h))
    else
      let! z := Hll_harmonic c m in
      if fle (fdiv (fmul (hll_alpha p) (f_of_Z m)) (f_of_Z 7)) z then
        let! z := Hll_poisson fuel c in
        Ok (option_map (hll_normalize p) z)
      else Ok (Some (hll_normalize p z)).
  (** hll.go:138-143 *)
  Definition Hll_LinearCount (c : Counter) : outcome Z :=
    let! v := BB_CountN (hc_bits c) 0 in
    Ok (f_to_int64 (linear_estimate (hll_m (hc_p c)) v)).
End log.
(** hll.go:166-171 *)
Definition Hll_HarmonicCount (c : Counter) : outcome Z :=
  let! z := Hll_harmonic c (hll_m (hc_p c)) in Ok (hll_normalize (hc_p c) z).
(** hll.go:199-204 *)
Definition Hll_PoissonCount (fuel : nat) (c : Counter) : outcome (option Z) :=
  let! z := Hll_poisson fuel c in Ok (option_map (hll_normalize (hc_p c)) z).
