(** Specification of the concurrent record map, over histories. *)
From Verif Require Import Base BufmapModel BufmapSpec BufconcModel.
Local Open Scope Z_scope.

(** all executions of n goroutines on a new map *)
Definition execution (l s : Z) (n : nat) (acts : list action) (c : cfg) (h : list event) : Prop :=
  ∃ m, New l s = Ok m ∧ exec (MkCfg m (replicate n None)) acts = (c, h).
(** keys are 64 bit words *)
Definition action_ok (a : action) : Prop := match a with ACall _ (OGet k _ | OUpdate k _) => 0 ≤ k < 2^64 | AStep _ => True end.
Definition quiescent (c : cfg) : Prop := ∀ t p, c_threads c !! t = Some p → p = None.

(** what a function given to Update does to a record if nobody interferes; an
    access outside the slice panics *)
Fixpoint run (p : prog) (d : bytes) : bytes * outcome unit :=
  match p with
  | PDone r => (d, r)
  | PRead i g => if (0 <=? i) && (i <? Z.of_nat (length d)) then run (g (default 0 (d !! Z.to_nat i))) d else (d, Panic)
  | PWrite i v g => if (0 <=? i) && (i <? Z.of_nat (length d)) then run g (<[Z.to_nat i := v]> d) else (d, Panic)
  end.
(** the record of key k after the updates completed so far, one at a time in the
    order of their completion, each with the flag it was given *)
Definition content (s : Z) (k : Z) (h : list event) : bytes :=
  fold_left (λ d e, match e with EDone _ k' fn init => if decide (k' = k) then (run (fn init) d).1 else d | _ => d end) h (zeros s).
(** the number of updates of key k completed in a stretch of history *)
Definition writes (k : Z) (h : list event) : Z :=
  Z.of_nat (length (omap (λ e, match e with EDone _ k' _ _ => if decide (k' = k) then Some () else None | _ => None end) h)).
(** no call of goroutine t begins or ends *)
Definition quiet (t : nat) (h : list event) : Prop := Forall (λ e, match e with EInv t' _ | ERet t' _ _ => t' ≠ t | _ => True end) h.
(** the critical sections finished by goroutine t: completed or panicked *)
Definition done_by (t : nat) (h : list event) : list event := omap (λ e, match e with EDone t' _ _ _ | EPanic t' _ _ _ => if decide (t' = t) then Some e else None | _ => None end) h.
(** somebody has completed an update of key k, or panicked in one, or has found it *)
Definition seen (k : Z) (h : list event) : Prop := writes k h ≠ 0 ∨ (∃ t fn init, EPanic t k fn init ∈ h) ∨ ∃ t b b', ERet t (OGet k b) (RGet b' true) ∈ h.
(** how many steps of goroutine t there are in a schedule *)
Fixpoint steps_of (t : nat) (acts : list action) : nat :=
  match acts with
  | [] => 0
  | AStep t' :: acts => if decide (t' = t) then S (steps_of t acts) else steps_of t acts
  | ACall _ _ :: acts => steps_of t acts
  end.
(** how many times Update of key k has been called *)
Definition calls (k : Z) (h : list event) : nat := length (omap (λ e, match e with EInv _ (OUpdate k' _) => if decide (k' = k) then Some () else None | _ => None end) h).
(** a Go function that computes with the whole slice, as in the sequential model,
    is the program that reads every byte, then writes every byte *)
Fixpoint read_all (n i : nat) (acc : bytes) (g : bytes → prog) : prog :=
  match n with O => g acc | S n => PRead (Z.of_nat i) (λ v, read_all n (S i) (acc ++ [v]) g) end.
Fixpoint write_all (d : bytes) (i : nat) (r : outcome unit) : prog :=
  match d with [] => PDone r | v :: d => PWrite (Z.of_nat i) v (write_all d (S i) r) end.
Definition as_prog (s : Z) (fn : update_fn) (init : bool) : prog := read_all (Z.to_nat s) 0 [] (λ d, let '(d', r) := fn d init in write_all d' 0 r).
(** a function that makes fewer than n accesses, whatever it reads *)
Fixpoint bounded (n : nat) (p : prog) : Prop :=
  match n with
  | O => False
  | S n => match p with PDone _ => True | PRead _ g => ∀ v, bounded n (g v) | PWrite _ _ g => bounded n g end
  end.
(** the key of a call *)
Definition on_key (k : Z) (o : op) : Prop := match o with OGet k' _ | OUpdate k' _ => k' = k end.
