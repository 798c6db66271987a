(** Specification of the seqlock, over histories. *)
From Verif Require Import Base SeqlockModel.
Local Open Scope Z_scope.

(** all executions of n goroutines on a new seqlock *)
Definition execution (n : nat) (acts : list action) (c : cfg) (h : list event) : Prop := exec (MkCfg New (replicate n None)) acts = (c, h).
(** blocks have 1024 bytes: by their type for Put, and functions cannot change the
    length of the slice they are given *)
Definition op_ok (o : op) : Prop :=
  match o with OGet => True | OPut v => length v = blk | OUpdate fn => ∀ d, length d = blk → length (fn d).1 = blk end.
Definition action_ok (a : action) : Prop := match a with ACall _ o => op_ok o | AStep _ => True end.
Definition quiescent (c : cfg) : Prop := ∀ t p, c_threads c !! t = Some p → p = None.

(** what one call does to the block, and what it returns, if it runs alone *)
Definition effect (o : op) (d : bytes) : bytes * outcome unit :=
  match o with
  | OGet => (d, Ok ())
  | OPut v => (v, Ok ())
  | OUpdate fn => match fn d with (d', Ok u) => (d', Ok u) | (_, r) => (d, r) end
  end.
(** the block after the writes completed so far, one at a time in the order of
    their completion *)
Definition stored (h : list event) : bytes :=
  fold_left (λ d e, match e with EDone _ o => (effect o d).1 | _ => d end) h (replicate blk 0).
(** the number of writes completed in a stretch of history *)
Definition writes (h : list event) : Z := Z.of_nat (length (omap (λ e, match e with EDone _ _ => Some () | _ => None end) h)).
(** no call of goroutine t begins or ends *)
Definition quiet (t : nat) (h : list event) : Prop := Forall (λ e, match e with EInv t' _ | ERet t' _ _ => t' ≠ t | _ => True end) h.
(** the writes completed by goroutine t *)
Definition done_by (t : nat) (h : list event) : list op := omap (λ e, match e with EDone t' o => if decide (t' = t) then Some o else None | _ => None end) h.
(** how many steps of goroutine t there are in a schedule *)
Fixpoint steps_of (t : nat) (acts : list action) : nat :=
  match acts with
  | [] => 0
  | AStep t' :: acts => if decide (t' = t) then S (steps_of t acts) else steps_of t acts
  | ACall _ _ :: acts => steps_of t acts
  end.
