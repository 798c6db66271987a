(** Model of /repo/internal/hash/fnv/fnv.go (all of it). *)
From Verif Require Import Base.

(** fnv.go:13-16 *)
Definition offset64 : Z := 14695981039346656037.
Definition prime64 : Z := 1099511628211.

(** One step "hash *= prime64" / "hash ^= c" on a uint64 (fnv.go:53-54, 145-146).
    The receiver's value (a uint64) is the whole state of Fnv64 and Fnv64a. *)
Definition mul64 (h : Z) : Z := u64 (h * prime64).
Definition xor64 (h c : Z) : Z := Z.lxor h c.

(** fnv.go:19-22, 111-114 *)
Definition New64 : Z := offset64.
Definition New64a : Z := offset64.
(** fnv.go:25-27, 117-119: Reset ignores the old state. *)
Definition Fnv64_Reset (s : Z) : Z := offset64.
Definition Fnv64a_Reset (s : Z) : Z := offset64.
(** fnv.go:30-32, 40-42, 122-124, 132-134 *)
Definition Fnv64_Size : Z := 8.
Definition Fnv64_BlockSize : Z := 1.
Definition Fnv64a_Size : Z := 8.
Definition Fnv64a_BlockSize : Z := 1.
(** fnv.go:35-37, 127-129 *)
Definition Fnv64_Sum64 (s : Z) : Z := s.
Definition Fnv64a_Sum64 (s : Z) : Z := s.

(** The range loops of fnv.go:52-55 and 144-147. *)
Fixpoint fnv1_loop (hash : Z) (data : bytes) : Z :=
  match data with
  | [] => hash
  | c :: data => fnv1_loop (xor64 (mul64 hash) c) data
  end.
Fixpoint fnv1a_loop (hash : Z) (data : bytes) : Z :=
  match data with
  | [] => hash
  | c :: data => fnv1a_loop (mul64 (xor64 hash c)) data
  end.

(** fnv.go:50-58, 142-150: new state, returned count (the error is always nil). *)
Definition Fnv64_Write (s : Z) (data : bytes) : Z * Z := (fnv1_loop s data, Z.of_nat (length data)).
Definition Fnv64a_Write (s : Z) (data : bytes) : Z * Z := (fnv1a_loop s data, Z.of_nat (length data)).
(** fnv.go:61-65, 153-157 *)
Definition Fnv64_WriteByte (s b : Z) : Z := xor64 (mul64 s) b.
Definition Fnv64a_WriteByte (s b : Z) : Z := mul64 (xor64 s b).
(** The indexed loops "for i := 0; i < len(str); i++" of fnv.go:71-74, 163-166,
    209-212, 219-222: [i] counts up to len(str), [n] is the number of
    iterations left. *)
Fixpoint str1_loop (str : bytes) (n i : nat) (hash : Z) : Z :=
  match n with
  | O => hash
  | S n => str1_loop str n (S i) (xor64 (mul64 hash) (str !!! i))
  end.
Fixpoint str1a_loop (str : bytes) (n i : nat) (hash : Z) : Z :=
  match n with
  | O => hash
  | S n => str1a_loop str n (S i) (mul64 (xor64 hash (str !!! i)))
  end.
(** fnv.go:69-77, 161-169 *)
Definition Fnv64_WriteString (s : Z) (str : bytes) : Z * Z := (str1_loop str (length str) 0 s, Z.of_nat (length str)).
Definition Fnv64a_WriteString (s : Z) (str : bytes) : Z * Z := (str1a_loop str (length str) 0 s, Z.of_nat (length str)).
(** fnv.go:80-108 *)
Definition Fnv64_WriteUint64 (s n : Z) : Z :=
  let hash := s in
  let hash := mul64 hash in let hash := xor64 hash (Z.shiftr n 56) in
  let hash := mul64 hash in let hash := xor64 hash (Z.land (Z.shiftr n 48) 255) in
  let hash := mul64 hash in let hash := xor64 hash (Z.land (Z.shiftr n 40) 255) in
  let hash := mul64 hash in let hash := xor64 hash (Z.land (Z.shiftr n 32) 255) in
  let hash := mul64 hash in let hash := xor64 hash (Z.land (Z.shiftr n 24) 255) in
  let hash := mul64 hash in let hash := xor64 hash (Z.land (Z.shiftr n 16) 255) in
  let hash := mul64 hash in let hash := xor64 hash (Z.land (Z.shiftr n 8) 255) in
  let hash := mul64 hash in let hash := xor64 hash (Z.land n 255) in
  hash.
(** fnv.go:172-200 *)
Definition Fnv64a_WriteUint64 (s n : Z) : Z :=
  let hash := s in
  let hash := xor64 hash (Z.shiftr n 56) in let hash := mul64 hash in
  let hash := xor64 hash (Z.land (Z.shiftr n 48) 255) in let hash := mul64 hash in
  let hash := xor64 hash (Z.land (Z.shiftr n 40) 255) in let hash := mul64 hash in
  let hash := xor64 hash (Z.land (Z.shiftr n 32) 255) in let hash := mul64 hash in
  let hash := xor64 hash (Z.land (Z.shiftr n 24) 255) in let hash := mul64 hash in
  let hash := xor64 hash (Z.land (Z.shiftr n 16) 255) in let hash := mul64 hash in
  let hash := xor64 hash (Z.land (Z.shiftr n 8) 255) in let hash := mul64 hash in
  let hash := xor64 hash (Z.land n 255) in let hash := mul64 hash in
  hash.
(** fnv.go:202-204; byte(x) is x mod 256. *)
Definition fnv_sum (n : Z) (buf : bytes) : bytes :=
  buf ++ [u8 (Z.shiftr n 56); u8 (Z.shiftr n 48); u8 (Z.shiftr n 40); u8 (Z.shiftr n 32);
          u8 (Z.shiftr n 24); u8 (Z.shiftr n 16); u8 (Z.shiftr n 8); u8 n].
(** fnv.go:45-47, 137-139 *)
Definition Fnv64_Sum (s : Z) (buf : bytes) : bytes := fnv_sum s buf.
Definition Fnv64a_Sum (s : Z) (buf : bytes) : bytes := fnv_sum s buf.
(** fnv.go:207-214, 217-224 *)
Definition String64 (str : bytes) : Z := str1_loop str (length str) 0 offset64.
Definition String64a (str : bytes) : Z := str1a_loop str (length str) 0 offset64.
(** fnv.go:227-234, 237-244: the loops of 229-232 and 239-242 are the ones of Write. *)
Definition Sum64 (buf : bytes) : Z := fnv1_loop offset64 buf.
Definition Sum64a (buf : bytes) : Z := fnv1a_loop offset64 buf.
