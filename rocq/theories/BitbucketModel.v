(** Model of /repo/internal/bitbucket/bitbucket.go (all of it).

    A BitBucket's [data] slice is the list of its bytes.  A method that mutates
    the receiver returns the new value; [Panic] is an index-out-of-range or
    makeslice panic.  Aliasing (WithBytes adopts the caller's buffer) is
    represented by [BB_flush], which gives the content of the caller's buffer
    after the bucket's data has been changed. *)
From Verif Require Import Base.

(** bitbucket.go:13-16 *)
Definition BBVersion : Z := 1.
Definition BBhdrLen : Z := 10.

(** bitbucket.go:23-27 *)
Record BitBucket := BB { bb_data : bytes; bb_n : Z; bb_w : Z }.

(** bitbucket.go:76-78, length: int arithmetic wraps, / truncates. *)
Definition bb_length (n w : Z) : Z := Z.quot (s64 (s64 (n * w) + 7)) 8.

(** bitbucket.go:31-40, New.  make panics on a negative length; running out of
    memory is not modelled. *)
Definition BB_New (n w : Z) : outcome BitBucket :=
  if 8 <? w then Panic
  else if bb_length n w <? 0 then Panic
  else Ok (BB (replicate (Z.to_nat (bb_length n w)) 0) n w).

(** bitbucket.go:46-73, WithBytes. *)
Definition BB_WithBytes (buf : bytes) : outcome BitBucket :=
  if Z.of_nat (length buf) <? BBhdrLen then Err ErrShortBuffer
  else
    let! version := index buf 0 in
    if negb (version =? BBVersion) then Err ErrBBVersion
    else
      let! w := index buf 1 in
      if 8 <? w then Err ErrBBWidth
      else
        let! nb := slice buf 2 BBhdrLen in
        let n := s64 (get64 nb) in
        let buflen := bb_length n w in
        if Z.of_nat (length buf) <? BBhdrLen + buflen then Err ErrShortBuffer
        else
          let! data := slice buf BBhdrLen (BBhdrLen + buflen) in
          Ok (BB data n w).
(** The caller's buffer once the bucket returned by [BB_WithBytes buf] has
    become [b] (bitbucket.go:71: data is the sub-slice buf[10:10+buflen]). *)
Definition BB_flush (buf : bytes) (b : BitBucket) : bytes := splice buf 10 (bb_data b).

(** bitbucket.go:140-153, extract: the 16 bit window, shift, mask and byte index. *)
Definition bb_extract (b : BitBucket) (o l : Z) : outcome (Z * Z * Z * Z) :=
  let idx := Z.quot o 8 in
  let offset := u8 (Z.rem o 8) in
  let! d0 := index (bb_data b) idx in
  let data := u16 (Z.shiftl d0 8) in
  let! data :=
    if idx <? Z.of_nat (length (bb_data b)) - 1 then
      let! d1 := index (bb_data b) (idx + 1) in Ok (Z.lor data d1)
    else Ok data in
  let shift := u8 (u8 (16 - offset) - l) in
  let mask := u16 (Z.shiftl (u16 (u16 (Z.shiftl 1 l) - 1)) shift) in
  Ok (data, shift, mask, idx).

(** bitbucket.go:102-105, get *)
Definition bb_get (b : BitBucket) (o l : Z) : outcome Z :=
  let! '(data, shift, mask, _) := bb_extract b o l in
  Ok (u8 (Z.shiftr (Z.land data mask) shift)).

(** The two stores shared by set and incn (bitbucket.go:116-119, 134-137). *)
Definition bb_put (b : BitBucket) (idx data : Z) : outcome BitBucket :=
  let! d := store (bb_data b) idx (u8 (Z.shiftr (Z.land data 0xff00) 8)) in
  let! d :=
    if idx <? Z.of_nat (length d) - 1 then store d (idx + 1) (u8 (Z.land data 0x00ff)) else Ok d in
  Ok (BB d (bb_n b) (bb_w b)).

(** uint8(1<<b.w - 1), as in bitbucket.go:94, 108, 231 *)
Definition bb_max8 (w : Z) : Z := u8 (u8 (Z.shiftl 1 w) - 1).

(** bitbucket.go:107-120, set *)
Definition bb_set (b : BitBucket) (o l v : Z) : outcome BitBucket :=
  let max := bb_max8 (bb_w b) in
  let v := if max <? v then max else v in
  let! '(data, shift, mask, idx) := bb_extract b o l in
  let data := Z.lor (Z.ldiff data mask) (u16 (Z.shiftl v shift)) in
  bb_put b idx data.

(** bitbucket.go:122-138, incn *)
Definition bb_incn (b : BitBucket) (o l v : Z) : outcome BitBucket :=
  let! '(data, shift, mask, idx) := bb_extract b o l in
  let value := Z.shiftr (Z.land data mask) shift in
  let max := u16 (u16 (Z.shiftl 1 (bb_w b)) - 1) in
  let value := u16 (value + v) in
  let value := if max <? value then max else value in
  let data := Z.lor (Z.ldiff data mask) (u16 (Z.shiftl value shift)) in
  bb_put b idx data.

(** bitbucket.go:81-83, Get *)
Definition BB_Get (b : BitBucket) (i : Z) : outcome Z := bb_get b (s64 (i * bb_w b)) (bb_w b).
(** bitbucket.go:87-89, Set *)
Definition BB_Set (b : BitBucket) (i v : Z) : outcome BitBucket := bb_set b (s64 (i * bb_w b)) (bb_w b) v.
(** bitbucket.go:93-99, IncN *)
Definition BB_IncN (b : BitBucket) (i v : Z) : outcome BitBucket :=
  let max := bb_max8 (bb_w b) in
  let v := if max <? v then max else v in
  bb_incn b (s64 (i * bb_w b)) (bb_w b) v.

(** The 10 byte header (bitbucket.go:159-162): uint64(b.n) of a negative n wraps. *)
Definition bb_header (b : BitBucket) : bytes := [BBVersion; bb_w b] ++ put64 (u64 (bb_n b)).
(** bitbucket.go:158-176, WriteTo: bytes reported, error, writer afterwards. *)
Definition BB_WriteTo (b : BitBucket) (w : writer) : Z * option error * writer :=
  match write w (bb_header b) with
  | (n, Some e, w) => (Z.of_nat n, Some e, w)
  | (n, None, w) =>
      match write w (bb_data b) with
      | (n0, Some e, w) => (Z.of_nat n + Z.of_nat n0, Some e, w)
      | (n0, None, w) => (Z.of_nat n + Z.of_nat n0, None, w)
      end
  end.

(** io.EOF is reported as io.ErrUnexpectedEOF (bitbucket.go:188-190, 206-208). *)
Definition noEOF (e : error) : error := match e with ErrEOF => ErrUnexpectedEOF | e => e end.

(** bitbucket.go:183-220, ReadFrom: bytes read, error, the receiver and the
    reader afterwards.  Panics if make is given a negative length. *)
Definition BB_ReadFrom (b : BitBucket) (r : reader) : outcome (Z * option error * BitBucket * reader) :=
  match read_full r 10 with
  | (h, Some e, r) => Ok (Z.of_nat (length h), Some (noEOF e), b, r)
  | (h, None, r) =>
      let n := Z.of_nat (length h) in
      let! version := index h 0 in
      if negb (version =? BBVersion) then Ok (n, Some ErrBBVersion, b, r)
      else
        let! w := index h 1 in
        let! nb := slice h 2 BBhdrLen in
        let bn := s64 (get64 nb) in
        if bb_length bn w <? 0 then Panic
        else
          let len := Z.to_nat (bb_length bn w) in
          match read_full r len with
          | (d, Some e, r) =>
              (* the receiver's data holds the bytes read so far, then zeroes *)
              Ok (n + Z.of_nat (length d), Some (noEOF e), BB (d ++ replicate (len - length d) 0) bn w, r)
          | (d, None, r) =>
              let n := n + Z.of_nat (length d) in
              match read 10 r with
              | (t, e, r) =>
                  let n := n + Z.of_nat (length t) in
                  match e with
                  | Some ErrEOF => Ok (n, None, BB d bn w, r)
                  | _ => Ok (n, Some ErrShortBuffer, BB d bn w, r)
                  end
              end
          end
  end.

(** bitbucket.go:223-227, Reset *)
Definition BB_Reset (b : BitBucket) : BitBucket := BB (map (λ _, 0) (bb_data b)) (bb_n b) (bb_w b).
(** bitbucket.go:230-232, Max *)
Definition BB_Max (b : BitBucket) : Z := bb_max8 (bb_w b).
(** bitbucket.go:235-237, Len *)
Definition BB_Len (b : BitBucket) : Z := 1 + 1 + 8 + Z.of_nat (length (bb_data b)).
(** bitbucket.go:240-242, Count *)
Definition BB_Count (b : BitBucket) : Z := bb_n b.
(** bitbucket.go:246-254, CountN: [k] iterations left, loop variable [i]. *)
Fixpoint bb_countN_loop (b : BitBucket) (v : Z) (k : nat) (i n : Z) : outcome Z :=
  match k with
  | O => Ok n
  | S k =>
      let! x := BB_Get b i in
      bb_countN_loop b v k (i + 1) (if x =? v then n + 1 else n)
  end.
Definition BB_CountN (b : BitBucket) (v : Z) : outcome Z := bb_countN_loop b v (Z.to_nat (bb_n b)) 0 0.
(** bitbucket.go:257-259, Width *)
Definition BB_Width (b : BitBucket) : Z := bb_w b.
(** bitbucket.go:262-264, package function Len *)
Definition BB_LenOf (n w : Z) : Z := 1 + 1 + 8 + bb_length n w.
