(** Model of /repo/internal/bufmap/bufmap.go, sequential part: one call at a
    time.  BufmapConc* model the interleaving of calls. *)
From Verif Require Import Base.
Local Open Scope Z_scope.

(** bufmap.go:38-42.  [sl_mu] is whether the mutex is held. *)
Record slot := Slot { sl_key : Z; sl_seq : Z; sl_mu : bool }.
(** bufmap.go:21-26 *)
Record Map := MkMap { m_l : Z; m_s : Z; m_keys : list slot; m_values : bytes }.

(** bufmap.go:29-36: make panics on a negative length. *)
Definition New (l s : Z) : outcome Map :=
  if (l <? 0) || (s64 (l * s) <? 0) then Panic
  else Ok (MkMap l s (replicate (Z.to_nat l) (Slot 0 0 false)) (replicate (Z.to_nat (s64 (l * s))) 0)).

(** bufmap.go:45 *)
Definition maxReprobe : nat := 10.
(** bufmap.go:159-161.  Unsigned modulo by zero panics. *)
Definition pos (l k : Z) (i : nat) : outcome Z :=
  if u64 l =? 0 then Panic else Ok (s64 (u64 (k mod u64 l + Z.of_nat i) mod u64 l)).

(** What a call does: it returns, it panics (the panic unwinds the caller), or
    it never returns (it waits for a lock or a sequence number that nothing
    will release). *)
Inductive call (A : Type) := Ret (a : A) | Panics | Hangs.
Arguments Ret {A} a.
Arguments Panics {A}.
Arguments Hangs {A}.

(** bufmap.go:51-64: the probe loop of Get.  [n] is the number of probes left
    (maxReprobe + 1 at the start); None: key not found. *)
Fixpoint get_probe (m : Map) (k : Z) (i n : nat) : outcome (option Z) :=
  match n with
  | O => Ok None
  | S n =>
      let! x := pos (m_l m) k i in
      let! sl := index (m_keys m) x in
      if sl_key sl =? k then Ok (Some x) else get_probe m k (S i) n
  end.
(** bufmap.go:49-89.  Result: None for false, Some buf' for true with the
    caller's buffer changed to buf'.  A reader that finds an odd sequence number
    spins until a writer changes it: in a sequential history, for ever. *)
Definition Get (m : Map) (k : Z) (buf : bytes) : call (option bytes) :=
  match get_probe m k 0 (S maxReprobe) with
  | Ok None => Ret None
  | Ok (Some x) =>
      match index (m_keys m) x with
      | Ok sl =>
          if sl_seq sl mod 2 =? 1 then Hangs
          else match slice (m_values m) (s64 (x * m_s m)) (s64 (x * (m_s m + 1))) with
               | Ok src => Ret (Some (gocopy buf src))
               | _ => Panics
               end
      | _ => Panics
      end
  | _ => Panics
  end.

(** bufmap.go:102-135: the probe loop of Update, without interference: the CAS
    on a slot just read as 0 succeeds, and a slot just read as another key
    still holds it.  Result: (slot, init, new key written), None: out of slots. *)
Fixpoint upd_probe (m : Map) (k : Z) (init : bool) (i n : nat) : outcome (option (Z * bool * bool)) :=
  match n with
  | O => Ok None
  | S n =>
      let! x := pos (m_l m) k i in
      let! sl := index (m_keys m) x in
      if sl_key sl =? k then Ok (Some (x, init, false))
      else if sl_key sl =? 0 then Ok (Some (x, true, true))
      else upd_probe m k true (S i) n
  end.

(** An update function: from the slot's bytes and the init flag to the bytes it
    leaves (also when it fails) and its result. *)
Definition update_fn := bytes → bool → bytes * outcome unit.

(** bufmap.go:96-154.  Result: the map left by the call and what the call did;
    [Ret (Ok ())] is a nil error.  There is no defer: a panic of fn leaves the
    mutex held and seq odd (:140-152). *)
Definition Update (m : Map) (k : Z) (fn : update_fn) : Map * call (outcome unit) :=
  if k =? 0 then (m, Ret (Err ErrInvalidKey))
  else match upd_probe m k false 0 (S maxReprobe) with
  | Ok None => (m, Ret (Err ErrOutOfSlots))
  | Ok (Some (x, init, fresh)) =>
      match index (m_keys m) x with
      | Ok sl =>
          let key := if fresh then k else sl_key sl in
          let with_slot s vs := MkMap (m_l m) (m_s m) (<[Z.to_nat x := s]> (m_keys m)) vs in
          if sl_mu sl then (with_slot (Slot key (sl_seq sl) true) (m_values m), Hangs)
          else
            let seq1 := u32 (sl_seq sl + 1) in
            match slice (m_values m) (s64 (x * m_s m)) (s64 ((x + 1) * m_s m)) with
            | Ok data =>
                let '(data', r) := fn data init in
                let vs := splice (m_values m) (Z.to_nat (s64 (x * m_s m))) data' in
                match r with
                | Panic => (with_slot (Slot key seq1 true) vs, Panics)
                | r => (with_slot (Slot key (u32 (seq1 + 1)) false) vs, Ret r)
                end
            | _ => (with_slot (Slot key seq1 true) (m_values m), Panics)
            end
      | _ => (m, Panics)
      end
  | _ => (m, Panics)
  end.
