(** Specification of FNV-1 and FNV-1a (64 bit) as published, and the calls a
    client can make on a hash.  Only [call64]/[call64a], which play a client's calls against the model,
    mention the model. *)
From Verif Require Import Base FnvModel.

(** FNV-1: hash := offset basis; for each octet: hash := hash * prime mod 2^64; hash := hash xor octet. *)
Definition fnv1_spec (data : bytes) : Z :=
  fold_left (λ h c, Z.lxor ((h * 1099511628211) mod 2^64) c) data 14695981039346656037.
(** FNV-1a: xor first, then multiply. *)
Definition fnv1a_spec (data : bytes) : Z :=
  fold_left (λ h c, (Z.lxor h c * 1099511628211) mod 2^64) data 14695981039346656037.

(** A client's write calls, and the bytes each contributes. *)
Inductive wcall :=
  | CWrite (data : bytes)
  | CWriteString (str : bytes)
  | CWriteByte (b : Z)
  | CWriteUint64 (n : Z)
  | CReset.
(** the 8 bytes of n, most significant first *)
Definition be64 (n : Z) : bytes :=
  map (λ i, (n / 2 ^ (8 * i)) mod 256) [7; 6; 5; 4; 3; 2; 1; 0].
Definition wcall_bytes (c : wcall) : bytes :=
  match c with
  | CWrite d => d
  | CWriteString d => d
  | CWriteByte b => [b]
  | CWriteUint64 n => be64 n
  | CReset => []
  end.
(** what has been written since the last Reset *)
Definition written (calls : list wcall) : bytes :=
  fold_left (λ acc c, match c with CReset => [] | _ => acc ++ wcall_bytes c end) calls [].
(** calls whose arguments have the Go types: bytes and uint64s *)
Definition wcall_ok (c : wcall) : Prop :=
  match c with
  | CWrite d | CWriteString d => is_bytes d
  | CWriteByte b => is_byte b
  | CWriteUint64 n => 0 ≤ n < 2^64
  | CReset => True
  end.

(** executing a client's calls on the model *)
Definition call64 (s : Z) (c : wcall) : Z :=
  match c with
  | CWrite d => fst (Fnv64_Write s d)
  | CWriteString d => fst (Fnv64_WriteString s d)
  | CWriteByte b => Fnv64_WriteByte s b
  | CWriteUint64 n => Fnv64_WriteUint64 s n
  | CReset => Fnv64_Reset s
  end.
Definition call64a (s : Z) (c : wcall) : Z :=
  match c with
  | CWrite d => fst (Fnv64a_Write s d)
  | CWriteString d => fst (Fnv64a_WriteString s d)
  | CWriteByte b => Fnv64a_WriteByte s b
  | CWriteUint64 n => Fnv64a_WriteUint64 s n
  | CReset => Fnv64a_Reset s
  end.

