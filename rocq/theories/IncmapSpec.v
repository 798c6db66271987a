(** Specification of the concurrent counter map, over histories. *)
From Verif Require Import Base IncmapModel.
Local Open Scope Z_scope.

(** all executions: a map with l slots, n goroutines, any schedule *)
Definition execution (l : Z) (n : nat) (acts : list action) (c : cfg) (h : list event) : Prop :=
  ∃ m, New l = Ok m ∧ exec (MkCfg m (replicate n None)) acts = (c, h).
Definition size_ok (l : Z) : Prop := 0 < l < 2^63.
(** keys and amounts are 64 bit words *)
Definition action_ok (a : action) : Prop :=
  match a with ACall _ (Inc k d) => 0 ≤ k < 2^64 ∧ 0 ≤ d < 2^64 | ACall _ (Get k) => 0 ≤ k < 2^64 | AStep _ => True end.
(** nobody is inside a call *)
Definition quiescent (c : cfg) : Prop := ∀ t p, c_threads c !! t = Some p → p = None.

Definition zsum (l : list Z) : Z := foldr Z.add 0 l.
(** the amounts of the Inc calls of key k that returned true *)
Definition succeeded (k : Z) (h : list event) : list Z :=
  omap (λ e, match e with ERet _ (Inc k' d) (RInc true) => if decide (k' = k) then Some d else None | _ => None end) h.
(** the amounts added to key k so far: each successful Inc adds at one moment
    between its call and its return (C44_moment) *)
Definition added (k : Z) (h : list event) : list Z :=
  omap (λ e, match e with EAdd _ k' d => if decide (k' = k) then Some d else None | _ => None end) h.
(** no event of goroutine t's calls beginning or ending *)
Definition quiet (t : nat) (h : list event) : Prop := Forall (λ e, match e with EInv t' _ | ERet t' _ _ => t' ≠ t | EAdd _ _ _ => True end) h.
(** the additions made by goroutine t *)
Definition adds_by (t : nat) (h : list event) : list (Z * Z) :=
  omap (λ e, match e with EAdd t' k d => if decide (t' = t) then Some (k, d) else None | _ => None end) h.
(** the slots a key may occupy *)
Definition probe_slots (l k : Z) : list Z := map (λ i, (k + Z.of_nat i) mod l) (seq 0 11).
Definition key_at (m : Map) (x : Z) : Z := default 0 (m_keys m !! Z.to_nat x).
(** how many steps of goroutine t there are in a schedule *)
Fixpoint steps_of (t : nat) (acts : list action) : nat :=
  match acts with
  | [] => 0
  | AStep t' :: acts => if decide (t' = t) then S (steps_of t acts) else steps_of t acts
  | ACall _ _ :: acts => steps_of t acts
  end.
