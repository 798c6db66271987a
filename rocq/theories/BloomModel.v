(** Model of /repo/internal/summary/bloom/bloom.go.  The floating point parts
    (mk, New, Count, ErrorRate, the package function Len: lines 33-36, 61-70,
    107-123) are in BloomSizeModel.v. *)
From Verif Require Import Base FnvModel BitbucketModel.

(** bloom.go:16-18 *)
Definition BloomVersion : Z := 1.
Definition BloomHdrLen : Z := 2.

(** bloom.go:26-30 *)
Record Bloom := BL { bl_bits : BitBucket; bl_m : Z; bl_k : Z }.

(** bloom.go:73-79 *)
Definition Bloom_NewBits (m k : Z) : outcome Bloom :=
  let! bits := BB_New m 1 in Ok (BL bits m k).

(** bloom.go:42-59.  Indexing buf[0], buf[1] and slicing buf[2:] panic on a
    short buffer. *)
Definition Bloom_WithBytes (buf : bytes) : outcome Bloom :=
  let! version := index buf 0 in
  if negb (version =? BloomVersion) then Err ErrBloomVersion
  else
    let! k := index buf 1 in
    let! sub := slice buf 2 (Z.of_nat (length buf)) in
    let! bits := BB_WithBytes sub in
    Ok (BL bits (BB_Count bits) k).
(** The caller's buffer once the filter returned by [Bloom_WithBytes buf] has become [b]. *)
Definition Bloom_flush (buf : bytes) (b : Bloom) : bytes :=
  take 2 buf ++ BB_flush (drop 2 buf) (bl_bits b).

(** bloom.go:202-206: the field n is never used. *)
Record hasher := Hasher { h_a : Z; h_b : Z; h_m : Z }.
(** bloom.go:211-243: m&1 on an int is its parity; b++ on a uint64 wraps. *)
Definition newHasher (data : bytes) (m : Z) : hasher :=
  let h1 := New64 in
  let h1 := fst (Fnv64_Write h1 data) in
  let a := Fnv64_Sum64 h1 in
  let h2 := New64a in
  let h2 := fst (Fnv64a_Write h2 data) in
  let b := Fnv64a_Sum64 h2 in
  if Z.land m 1 =? 0 then
    let b := if Z.land b 1 =? 0 then u64 (b + 1) else b in
    Hasher a b m
  else
    let m := if 2 <? m then s64 (m - 1) else m in
    let b := if Z.land b 1 =? 0 then u64 (b + 1) else b in
    Hasher a b m.
(** bloom.go:245-249: % by uint64(h.m) panics when that is zero. *)
Definition h_next (h : hasher) : outcome (Z * hasher) :=
  if u64 (h_m h) =? 0 then Panic
  else
    let v := h_a h mod u64 (h_m h) in
    let a := u64 (h_a h + h_b h) mod u64 (h_m h) in
    Ok (v, Hasher a (h_b h) (h_m h)).

(** bloom.go:82-88: [n] iterations left; int(h.next()) wraps. *)
Fixpoint bloom_add_loop (bits : BitBucket) (h : hasher) (n : nat) : outcome BitBucket :=
  match n with
  | O => Ok bits
  | S n =>
      let! '(v, h) := h_next h in
      let! bits := BB_Set bits (s64 v) 1 in
      bloom_add_loop bits h n
  end.
Definition Bloom_Add (b : Bloom) (v : bytes) : outcome Bloom :=
  let! bits := bloom_add_loop (bl_bits b) (newHasher v (bl_m b)) (Z.to_nat (bl_k b)) in
  Ok (BL bits (bl_m b) (bl_k b)).

(** bloom.go:92-100 *)
Fixpoint bloom_has_loop (bits : BitBucket) (h : hasher) (n : nat) : outcome bool :=
  match n with
  | O => Ok true
  | S n =>
      let! '(v, h) := h_next h in
      let! x := BB_Get bits (s64 v) in
      if negb (x =? 1) then Ok false else bloom_has_loop bits h n
  end.
Definition Bloom_Has (b : Bloom) (v : bytes) : outcome bool :=
  bloom_has_loop (bl_bits b) (newHasher v (bl_m b)) (Z.to_nat (bl_k b)).

(** bloom.go:103-105 *)
Definition Bloom_Len (b : Bloom) : Z := BloomHdrLen + BB_Len (bl_bits b).

(** bloom.go:129-146 *)
Definition Bloom_WriteTo (b : Bloom) (w : writer) : Z * option error * writer :=
  match write w [BloomVersion; bl_k b] with
  | (n, Some e, w) => (Z.of_nat n, Some e, w)
  | (n, None, w) =>
      match BB_WriteTo (bl_bits b) w with
      | (n0, Some e, w) => (Z.of_nat n + n0, Some e, w)
      | (n0, None, w) => (Z.of_nat n + n0, None, w)
      end
  end.

(** bloom.go:153-189: bytes read, error, receiver and reader afterwards. *)
Definition Bloom_ReadFrom (b : Bloom) (r : reader) : outcome (Z * option error * Bloom * reader) :=
  match read_full r 2 with
  | (h, Some e, r) => Ok (Z.of_nat (length h), Some (noEOF e), b, r)
  | (h, None, r) =>
      let n := Z.of_nat (length h) in
      let! version := index h 0 in
      if negb (version =? BloomVersion) then Ok (n, Some ErrBloomVersion, b, r)
      else
        let! k := index h 1 in
        let! '(n0, e, bits, r) := BB_ReadFrom (BB [] 0 0) r in
        let n := n + n0 in
        match e with
        | Some e => Ok (n, Some (noEOF e), BL bits (bl_m b) k, r)
        | None =>
            let b := BL bits (BB_Count bits) k in
            let '(t, e, r) := read 2 r in
            let n := n + Z.of_nat (length t) in
            match e with
            | Some ErrEOF => Ok (n, None, b, r)
            | _ => Ok (n, Some ErrShortBuffer, b, r)
            end
        end
  end.

(** bloom.go:193-195 *)
Definition Bloom_Reset (b : Bloom) : Bloom := BL (BB_Reset (bl_bits b)) (bl_m b) (bl_k b).
