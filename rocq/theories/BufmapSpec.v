(** Specification of the record map: its history is a list of updates, its
    contents a record of s bytes per key. *)
From Verif Require Import Base BufmapModel.
Local Open Scope Z_scope.

(** the slots a key may occupy: 11 consecutive ones, cyclically, from k mod l *)
Definition probe_slots (l k : Z) : list Z := map (λ i, (k + Z.of_nat i) mod l) (seq 0 11).
Definition home (l k : Z) : Z := k mod l.
(** key stored in slot x, 0 if none *)
Definition key_at (m : Map) (x : Z) : Z := match m_keys m !! Z.to_nat x with Some sl => sl_key sl | None => 0 end.
(** bytes of slot x *)
Definition bytes_at (m : Map) (x : Z) : bytes := take (Z.to_nat (m_s m)) (drop (Z.to_nat (x * m_s m)) (m_values m)).
(** the slots holding key k, anywhere in the map *)
Definition slots_of (m : Map) (k : Z) : list Z :=
  filter (λ x, key_at m x = k) (map Z.of_nat (seq 0 (length (m_keys m)))).
(** the record of a key: the bytes of the one slot that holds it *)
Definition record (m : Map) (k : Z) : option bytes :=
  match slots_of m k with [x] => Some (bytes_at m x) | _ => None end.

(** keys are 64 bit, and update functions cannot change the length of the slice they are given *)
Definition is_key (k : Z) : Prop := 0 < k < 2^64.
Definition fn_ok (fn : update_fn) : Prop := ∀ d init, length (fn d init).1 = length d.
(** dimensions New accepts without overflow and with at least one slot *)
Definition dims_ok (l s : Z) : Prop := 0 < l ∧ 0 ≤ s ∧ l * (s + 1) < 2^63.

(** states after any sequence of updates of a new map *)
Inductive reach (l s : Z) : Map → Prop :=
  | reach_new m : New l s = Ok m → reach l s m
  | reach_upd m k fn m' r : reach l s m → 0 ≤ k < 2^64 → fn_ok fn → Update m k fn = (m', r) → reach l s m'.

(** a history that reports each call: applies the updates in order and lists what they returned *)
Fixpoint run (m : Map) (us : list (Z * update_fn)) : Map * list (call (outcome unit)) :=
  match us with
  | [] => (m, [])
  | (k, fn) :: us => let '(m, r) := Update m k fn in let '(m, rs) := run m us in (m, r :: rs)
  end.

(** a record whose writer died: its lock is held for ever *)
Definition wedged (m : Map) (k : Z) : Prop := ∃ n sl, m_keys m !! n = Some sl ∧ sl_key sl = k ∧ sl_mu sl = true.
Definition never_panics (fn : update_fn) : Prop := ∀ d init, (fn d init).2 ≠ Panic.

(** the update functions addressed to key k, in order, and what those calls returned *)
Definition updates_of (k : Z) (us : list (Z * update_fn)) : list update_fn :=
  omap (λ u, if decide (u.1 = k) then Some u.2 else None) us.
Definition results_of (k : Z) (us : list (Z * update_fn)) (rs : list (call (outcome unit))) : list (call (outcome unit)) :=
  omap (λ p, if decide (p.1.1 = k) then Some p.2 else None) (zip us rs).
(** applying update functions one after the other to a record, with their init flags *)
Fixpoint apply_fns (d : bytes) (fs : list (update_fn * bool)) : bytes * list (outcome unit) :=
  match fs with
  | [] => (d, [])
  | (fn, init) :: fs => let '(d, r) := fn d init in let '(d, rs) := apply_fns d fs in (d, r :: rs)
  end.
Definition zeros (s : Z) : bytes := replicate (Z.to_nat s) 0.
