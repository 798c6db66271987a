(** Model of /repo/internal/summary/hll/hll.go: the register part.  The
    estimators (Count, LinearCount, HarmonicCount, PoissonCount, harmonic,
    poisson, sigma, tau: lines 111-244) are in HllCountModel.v. *)
From Verif Require Import Base FnvModel BitbucketModel.

(** hll.go:17-19 *)
Definition HllVersion : Z := 1.
Definition HllHdrLen : Z := 2.

(** hll.go:82-89.  alpha and threshold are functions of p assigned by
    initParams together with mask (hll.go:63-80); they are only read by the
    estimators and modelled there. *)
Record Counter := HC { hc_p : Z; hc_mask : Z; hc_bits : BitBucket }.

(** uint64 shift by an uint8 amount *)
Definition shl64 (x s : Z) : Z := u64 (Z.shiftl x s).
(** hll.go:66: ((1 << c.p) - 1) << (64 - c.p) on uint64; the shift amount
    64 - c.p is a uint8 and wraps for p > 64. *)
Definition hll_mask (p : Z) : Z := shl64 (u64 (shl64 1 p - 1)) (u8 (64 - p)).
(** hll.go:25-37 *)
Definition Hll_New (p : Z) : outcome Counter :=
  if (p <? 4) || (18 <? p) then Panic
  else
    let m := Z.shiftl 1 p in
    let! bits := BB_New m 6 in
    Ok (HC p (hll_mask p) bits).

(** hll.go:43-61 *)
Definition Hll_WithBytes (buf : bytes) : outcome Counter :=
  let! version := index buf 0 in
  if negb (version =? HllVersion) then Err ErrHllVersion
  else
    let! p := index buf 1 in
    let! sub := slice buf 2 (Z.of_nat (length buf)) in
    let! bits := BB_WithBytes sub in
    Ok (HC p (hll_mask p) bits).
(** the caller's buffer once the counter returned by [Hll_WithBytes buf] has become [c] *)
Definition Hll_flush (buf : bytes) (c : Counter) : bytes :=
  take 2 buf ++ BB_flush (drop 2 buf) (hc_bits c).

(** hll.go:95-104: the loop counting leading zeros, [n] iterations left. *)
Fixpoint hll_rho (h t rho : Z) (n : nat) : Z :=
  match n with
  | O => rho
  | S n => if negb (Z.land h t =? 0) then rho else hll_rho h (Z.shiftr t 1) (u8 (rho + 1)) n
  end.
(** hll.go:91-108 *)
Definition Hll_Add (c : Counter) (v : bytes) : outcome Counter :=
  let h := Sum64 v in
  let idx := s64 (Z.shiftr (Z.land h (hc_mask c)) (u8 (64 - hc_p c))) in
  let t := shl64 1 (u8 (63 - hc_p c)) in
  let rho := hll_rho h t 1 (Z.to_nat (64 - hc_p c)) in
  let! r := BB_Get (hc_bits c) idx in
  if r <? rho then
    let! bits := BB_Set (hc_bits c) idx rho in
    Ok (HC (hc_p c) (hc_mask c) bits)
  else Ok c.

(** hll.go:249-266 *)
Definition Hll_WriteTo (c : Counter) (w : writer) : Z * option error * writer :=
  match write w [HllVersion; hc_p c] with
  | (n, Some e, w) => (Z.of_nat n, Some e, w)
  | (n, None, w) =>
      match BB_WriteTo (hc_bits c) w with
      | (n0, Some e, w) => (Z.of_nat n + n0, Some e, w)
      | (n0, None, w) => (Z.of_nat n + n0, None, w)
      end
  end.

(** hll.go:273-309 *)
Definition Hll_ReadFrom (c : Counter) (r : reader) : outcome (Z * option error * Counter * reader) :=
  match read_full r 2 with
  | (h, Some e, r) => Ok (Z.of_nat (length h), Some (noEOF e), c, r)
  | (h, None, r) =>
      let n := Z.of_nat (length h) in
      let! version := index h 0 in
      if negb (version =? HllVersion) then Ok (n, Some ErrHllVersion, c, r)
      else
        let! p := index h 1 in
        let! '(n0, e, bits, r) := BB_ReadFrom (hc_bits c) r in
        let n := n + n0 in
        let c := HC p (hll_mask p) bits in
        match e with
        | Some e => Ok (n, Some (noEOF e), c, r)
        | None =>
            let '(t, e, r) := read 2 r in
            let n := n + Z.of_nat (length t) in
            match e with
            | Some ErrEOF => Ok (n, None, c, r)
            | _ => Ok (n, Some ErrShortBuffer, c, r)
            end
        end
  end.

(** hll.go:312-314 *)
Definition Hll_Len (c : Counter) : Z := HllHdrLen + BB_Len (hc_bits c).
(** hll.go:317-319 *)
Definition Hll_Reset (c : Counter) : Counter := HC (hc_p c) (hc_mask c) (BB_Reset (hc_bits c)).
(** hll.go:323-326: int(1 << p) is 0 for p > 63 and negative for p = 63. *)
Definition Hll_LenOf (p : Z) : Z := HllHdrLen + BB_LenOf (s64 (u64 (Z.shiftl 1 p))) 6.

(** hll.go:179-186: the histogram loop of poisson: cn is a [64]int array. *)
Fixpoint hll_hist_loop (c : Counter) (k : nat) (i : Z) (cn : list Z) : outcome (list Z) :=
  match k with
  | O => Ok cn
  | S k =>
      let! reg := BB_Get (hc_bits c) i in
      let! x := index cn reg in
      let! cn := store cn reg (x + 1) in
      hll_hist_loop c k (i + 1) cn
  end.
(** [poisson] then reads cn[q+1], cn[q..1] and cn[0], with q = 64 - p. *)
Definition hll_hist (c : Counter) : outcome (list Z) :=
  hll_hist_loop c (Z.to_nat (Z.shiftl 1 (hc_p c))) 0 (replicate 64 0).
