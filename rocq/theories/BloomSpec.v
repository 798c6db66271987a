(** Specification of a Bloom filter: the set of bit positions its members hash to. *)
From Verif Require Import Base FnvSpec BitbucketModel BitbucketSpec BloomModel.

(** The k positions of a value in a filter of m bits: double hashing with FNV-1
    and FNV-1a (made odd), modulo m, or modulo m-1 when m is odd and above 2;
    the running sum is a 64 bit word. *)
Definition bloom_mod (m : Z) : Z := if Z.odd m && (2 <? m) then m - 1 else m.
Fixpoint bloom_seq (a b m : Z) (k : nat) : list Z :=
  match k with
  | O => []
  | S k => a mod m :: bloom_seq (((a + b) mod 2^64) mod m) b m k
  end.
Definition bloom_positions (m : Z) (k : nat) (v : bytes) : list Z :=
  let b := fnv1a_spec v in
  bloom_seq (fnv1_spec v) (if Z.even b then b + 1 else b) (bloom_mod m) k.

(** client operations and the positions covered since the last Reset *)
Inductive blop := BAdd (v : bytes) | BReset.
Definition blop_ok (o : blop) : Prop := match o with BAdd v => is_bytes v | BReset => True end.
Definition bloom_members (os : list blop) : list bytes :=
  fold_left (λ acc o, match o with BAdd v => acc ++ [v] | BReset => [] end) os [].
Definition bloom_covered (m : Z) (k : nat) (vs : list bytes) : list Z :=
  concat (map (bloom_positions m k) vs).

Definition bloom_op (b : Bloom) (o : blop) : outcome Bloom :=
  match o with BAdd v => Bloom_Add b v | BReset => Ok (Bloom_Reset b) end.
Fixpoint bloom_ops (b : Bloom) (os : list blop) : outcome Bloom :=
  match os with [] => Ok b | o :: os => let! b := bloom_op b o in bloom_ops b os end.

(** a filter of m bits and k hash functions with arbitrary content *)
Definition bloom_wf (b : Bloom) (m : nat) (k : Z) : Prop :=
  wf (bl_bits b) m ∧ bb_w (bl_bits b) = 1 ∧ bl_m b = Z.of_nat m ∧ bl_k b = k ∧ 0 ≤ k < 256 ∧ (1 ≤ m)%nat.
Definition bloom_serial (m : nat) (k : Z) (data : bytes) : bytes := [1; k] ++ bb_serial m 1 data.
