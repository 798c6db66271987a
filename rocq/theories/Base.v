(** Shared vocabulary of the model: outcomes, machine words, byte slices,
    little/big-endian codecs, readers and writers. *)
From Coq Require Export ZArith Lia List Bool.
From stdpp Require Export base list list_numbers.
Export ListNotations.
Global Open Scope Z_scope.

(** ** Outcomes
    A Go call either returns normally, returns a non-nil [error], or panics.
    The error values are the package level variables of the repository and the
    standard library errors the code returns. *)
Inductive error :=
  | ErrShortBuffer            (* io.ErrShortBuffer *)
  | ErrEOF                    (* io.EOF *)
  | ErrUnexpectedEOF          (* io.ErrUnexpectedEOF *)
  | ErrRead                   (* some other error returned by an io.Reader *)
  | ErrWrite                  (* some error returned by an io.Writer *)
  | ErrBBVersion              (* internal/bitbucket/bitbucket.go:18 *)
  | ErrBBWidth                (* internal/bitbucket/bitbucket.go:19 *)
  | ErrBloomVersion           (* internal/summary/bloom/bloom.go:21 *)
  | ErrHllVersion             (* internal/summary/hll/hll.go:22 *)
  | ErrInvalidKey             (* internal/bufmap/bufmap.go:14 *)
  | ErrOutOfSlots             (* internal/bufmap/bufmap.go:15 *)
  | ErrParseFloat             (* any error of strconv.ParseFloat *)
  | ErrCtx                    (* ctx.Err() *)
  | ErrNoTimestamp            (* internal/server/server.go:226 *)
  | ErrAtoi                   (* any error of strconv.Atoi *)
  | ErrSyntax                 (* internal/query/rough.go:22 *)
  | ErrTooLong                (* bufio.ErrTooLong *)
  | ErrUser.                  (* an error produced by a caller supplied function *)

Global Instance error_eq_dec : EqDecision error.
Proof. solve_decision. Defined.

Inductive outcome (A : Type) :=
  | Ok (a : A)
  | Err (e : error)
  | Panic.
Arguments Ok {A} a.
Arguments Err {A} e.
Arguments Panic {A}.
Global Instance outcome_eq_dec {A} `{EqDecision A} : EqDecision (outcome A).
Proof. solve_decision. Defined.

Definition obind {A B} (o : outcome A) (f : A → outcome B) : outcome B :=
  match o with Ok a => f a | Err e => Err e | Panic => Panic end.
Definition out_map {A B} (f : A → B) (o : outcome A) : outcome B :=
  match o with Ok a => Ok (f a) | Err e => Err e | Panic => Panic end.
Notation "'let!' x ':=' o 'in' k" := (obind o (λ x, k))
  (at level 200, x binder, o at level 100, k at level 200, right associativity).
Notation "'let!' ' p ':=' o 'in' k" := (obind o (λ x, let 'p := x in k))
  (at level 200, p strict pattern, o at level 100, k at level 200, right associativity).

(** ** Machine words.  Values of type uint8/uint16/uint32/uint64 and int are
    mathematical integers; arithmetic wraps explicitly.  [int] is 64 bits wide
    (the repository is built for 64 bit platforms). *)
Definition u8 (x : Z) : Z := x mod 2^8.
Definition u16 (x : Z) : Z := x mod 2^16.
Definition u32 (x : Z) : Z := x mod 2^32.
Definition u64 (x : Z) : Z := x mod 2^64.
Definition s64 (x : Z) : Z := (x + 2^63) mod 2^64 - 2^63.

(** A byte slice is the list of its bytes. *)
Notation byte := Z (only parsing).
Notation bytes := (list Z) (only parsing).
Definition is_byte (b : Z) : Prop := 0 ≤ b < 256.
Definition is_bytes (l : bytes) : Prop := Forall is_byte l.
Definition is_byteb (b : Z) : bool := (0 <=? b) && (b <? 256).

(** Indexing and slicing with Go's bounds checks. *)
Definition index {A} (l : list A) (i : Z) : outcome A :=
  if (0 <=? i) && (i <? Z.of_nat (length l)) then
    match l !! Z.to_nat i with Some a => Ok a | None => Panic end
  else Panic.
Definition store {A} (l : list A) (i : Z) (a : A) : outcome (list A) :=
  if (0 <=? i) && (i <? Z.of_nat (length l)) then Ok (<[Z.to_nat i := a]> l) else Panic.
(** [l[lo:hi]] of a slice whose capacity equals its length. *)
Definition slice {A} (l : list A) (lo hi : Z) : outcome (list A) :=
  if (0 <=? lo) && (lo <=? hi) && (hi <=? Z.of_nat (length l)) then
    Ok (take (Z.to_nat (hi - lo)) (drop (Z.to_nat lo) l))
  else Panic.
(** Writing [p] over [l] starting at [lo] (callers guarantee it fits). *)
Definition splice {A} (l : list A) (lo : nat) (p : list A) : list A :=
  take lo l ++ p ++ drop (lo + length p) l.
(** Go's builtin copy(dst, src): overwrites a prefix of dst. *)
Definition gocopy {A} (dst src : list A) : list A :=
  let n := Nat.min (length dst) (length src) in take n src ++ drop n dst.

(** ** encoding/binary little endian, and big endian byte strings *)
Fixpoint le_enc (k : nat) (x : Z) : bytes :=
  match k with O => [] | S k => x mod 256 :: le_enc k (x / 256) end.
Fixpoint le_dec (l : bytes) : Z :=
  match l with [] => 0 | b :: l => b + 256 * le_dec l end.
Definition put64 (x : Z) : bytes := le_enc 8 x.   (* PutUint64 *)
Definition get64 (l : bytes) : Z := le_dec l.     (* Uint64, on exactly 8 bytes *)
Definition be_dec (l : bytes) : Z := fold_left (λ acc b, 256 * acc + b) l 0.

(** ** io.Reader
    The behaviour of a reader is the list of the events it will produce.
    [EvData c]: the bytes [c] become available and are returned with a nil
    error (possibly over several calls when the caller's buffer is short; a
    chunk may be empty, Read may return 0,nil).  [EvDataEOF c]: likewise but
    the call returning the last byte of [c] also returns io.EOF, which the
    io.Reader contract permits.  [EvErr]: the call fails.  After the list is
    exhausted every call returns 0,io.EOF. *)
Inductive event :=
  | EvData (c : bytes)
  | EvDataEOF (c : bytes)
  | EvErr.
Definition reader := list event.

(** [delivers r l]: the reader yields exactly the bytes [l] and then io.EOF, in
    any fragmentation, the last fragment possibly together with io.EOF.  Reads
    of (0, nil), which the io.Reader contract discourages, are excluded. *)
Inductive delivers : reader → bytes → Prop :=
  | dl_nil : delivers [] []
  | dl_eof c r : delivers (EvDataEOF c :: r) c
  | dl_data c r l : c ≠ [] → delivers r l → delivers (EvData c :: r) (c ++ l).

(** One call r.Read(p) with len(p) = k: bytes delivered, error, new reader. *)
Definition read (k : nat) (r : reader) : bytes * option error * reader :=
  match r with
  | [] => ([], Some ErrEOF, [])
  | EvErr :: _ => ([], Some ErrRead, r)
  | EvData c :: r' =>
      if (length c <=? k)%nat then (c, None, r')
      else (take k c, None, EvData (drop k c) :: r')
  | EvDataEOF c :: r' =>
      if (length c <=? k)%nat then (c, Some ErrEOF, [])
      else (take k c, None, EvDataEOF (drop k c) :: r')
  end.

(** The loop of io.ReadAtLeast(r, buf, len(buf)): read until k bytes or error. *)
Fixpoint read_loop (r : reader) (k : nat) : bytes * option error * reader :=
  match k with
  | O => ([], None, r)
  | S _ =>
    match r with
    | [] => ([], Some ErrEOF, [])
    | EvErr :: _ => ([], Some ErrRead, r)
    | EvData c :: r' =>
        if (length c <=? k)%nat then
          let '(d, e, r'') := read_loop r' (k - length c) in (c ++ d, e, r'')
        else (take k c, None, EvData (drop k c) :: r')
    | EvDataEOF c :: r' =>
        if (length c <? k)%nat then (c, Some ErrEOF, [])
        else if (length c =? k)%nat then (c, None, [])   (* n >= min: error dropped *)
        else (take k c, None, EvDataEOF (drop k c) :: r')
    end
  end.
(** io.ReadFull: io.EOF after some but not all bytes becomes ErrUnexpectedEOF. *)
Definition read_full (r : reader) (k : nat) : bytes * option error * reader :=
  let '(d, e, r') := read_loop r k in
  match e with
  | Some ErrEOF => if (0 <? length d)%nat then (d, Some ErrUnexpectedEOF, r') else (d, e, r')
  | _ => (d, e, r')
  end.

(** ** io.Writer: accepted bytes and the number of bytes it will still accept
    before failing ([None]: never fails, like bytes.Buffer). *)
Record writer := Writer { w_out : bytes; w_room : option nat }.
Definition write (w : writer) (p : bytes) : nat * option error * writer :=
  match w_room w with
  | None => (length p, None, Writer (w_out w ++ p) None)
  | Some k =>
      if (length p <=? k)%nat then (length p, None, Writer (w_out w ++ p) (Some (k - length p)%nat))
      else (k, Some ErrWrite, Writer (w_out w ++ take k p) (Some O))
  end.

(** ** Go string literals as byte lists *)
From Coq Require String Ascii.
Export String.StringSyntax.
Fixpoint str (s : String.string) : list Z :=
  match s with
  | String.EmptyString => []
  | String.String a s => Z.of_nat (Ascii.nat_of_ascii a) :: str s
  end.
Arguments str s%string_scope.
