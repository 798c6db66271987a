(** Specification of a bit bucket collection: an array of saturating counters. *)
From Verif Require Import Base BitbucketModel.

(** the largest value a counter of w bits can hold *)
Definition cap (w : Z) : Z := 2 ^ w - 1.

(** client operations; bucket numbers are natural numbers, amounts are uint8 *)
Inductive bop :=
  | OpSet (i : nat) (v : Z)
  | OpInc (i : nat) (v : Z)
  | OpReset.
Definition bop_ok (n : nat) (o : bop) : Prop :=
  match o with
  | OpSet i v | OpInc i v => (i < n)%nat ∧ 0 ≤ v < 256
  | OpReset => True
  end.

(** effect on an array of counters *)
Definition arr_op (w : Z) (a : list Z) (o : bop) : list Z :=
  match o with
  | OpSet i v => <[i := Z.min v (cap w)]> a
  | OpInc i v => alter (λ x, Z.min (x + v) (cap w)) i a
  | OpReset => map (λ _, 0) a
  end.
Definition count_eq (v : Z) (a : list Z) : Z := Z.of_nat (length (filter (λ x, x = v) a)).

(** the same operations played against the model *)
Definition bb_op (b : BitBucket) (o : bop) : outcome BitBucket :=
  match o with
  | OpSet i v => BB_Set b (Z.of_nat i) v
  | OpInc i v => BB_IncN b (Z.of_nat i) v
  | OpReset => Ok (BB_Reset b)
  end.
Fixpoint bb_ops (b : BitBucket) (os : list bop) : outcome BitBucket :=
  match os with
  | [] => Ok b
  | o :: os => let! b := bb_op b o in bb_ops b os
  end.

(** sizes the Go program can allocate (n*w must not overflow an int) *)
Definition size_ok (n : nat) (w : Z) : Prop := 1 ≤ w ≤ 8 ∧ Z.of_nat n * w + 7 < 2 ^ 63.

(** [repr b a]: every observation of [b] is that of the array [a]. *)
Definition repr (w : Z) (b : BitBucket) (a : list Z) : Prop :=
  (∀ i, (i < length a)%nat → ∃ v, a !! i = Some v ∧ 0 ≤ v ≤ cap w ∧ BB_Get b (Z.of_nat i) = Ok v) ∧
  (∀ v, BB_CountN b v = Ok (count_eq v a)) ∧
  BB_Count b = Z.of_nat (length a) ∧ BB_Width b = w ∧ BB_Max b = cap w ∧
  BB_Len b = BB_LenOf (Z.of_nat (length a)) w ∧
  BB_Len b = 10 + (Z.of_nat (length a) * w + 7) / 8.

(** The shape of a collection of n buckets: what New and WithBytes produce and
    every operation preserves.  The content of [bb_data] is arbitrary. *)
Definition dlen (n : nat) (w : Z) : nat := Z.to_nat ((Z.of_nat n * w + 7) / 8).
Record wf (b : BitBucket) (n : nat) : Prop := {
  wf_n : bb_n b = Z.of_nat n;
  wf_size : size_ok n (bb_w b);
  wf_bytes : is_bytes (bb_data b);
  wf_len : length (bb_data b) = dlen n (bb_w b) }.

(** the serialised form documented by WriteTo *)
Definition bb_serial (n : nat) (w : Z) (data : bytes) : bytes :=
  [1; w] ++ put64 (Z.of_nat n) ++ data.

(** The header of [buf] announces a size that can exist in memory: a width of
    1 to 8 bits and a bucket count whose bits can be counted by an int. *)
Definition sane_header (buf : bytes) : Prop :=
  ∃ w nb, take 10 buf = [1; w] ++ nb ∧ length nb = 8%nat ∧ size_ok (Z.to_nat (get64 nb)) w.
