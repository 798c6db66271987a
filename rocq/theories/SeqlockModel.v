(** Model of /repo/internal/seqlock/seqlock.go: any number of goroutines calling
    Get, Put and Update, interleaved at every atomic operation, every lock
    operation and every single byte read from or written to the shared block.
    Memory is sequentially consistent (the plain byte accesses race with the
    readers' copies; Go gives no guarantee for them, see DESIGN.md). *)
From Verif Require Import Base.
Local Open Scope Z_scope.

(** seqlock.go:16 *)
Definition blk : nat := Z.to_nat 1024.
(** seqlock.go:13-17.  [s_mu]: whether the mutex is held. *)
Record Seqlock := MkSeq { s_seq : Z; s_mu : bool; s_data : bytes }.
(** seqlock.go:19-21 *)
Definition New : Seqlock := MkSeq 0 false (replicate blk 0).

(** Calls.  The function given to Update works on a private copy (:170-171): it
    maps the block to the block it leaves and its result. *)
Inductive op := OGet | OPut (v : bytes) | OUpdate (fn : bytes → bytes * outcome unit).
(** RWrite: the result of Put (always Ok) or Update; Panic: the function panicked *)
Inductive res := RGet (v : bytes) | RWrite (r : outcome unit).

(** Where a goroutine is inside a call: in front of which shared access *)
Inductive pc :=
  | GSeq1                                   (* seqlock.go:27 *)
  | GCopy (seq1 : Z) (i : nat) (ret : bytes)  (* seqlock.go:34, byte i *)
  | GSeq2 (seq1 : Z) (ret : bytes)          (* seqlock.go:37 *)
  | WLock                                   (* seqlock.go:49, 65 *)
  | WSeq1                                   (* seqlock.go:52, 68 *)
  | PCopy (i : nat)                         (* seqlock.go:54, byte i *)
  | URead (i : nat) (d : bytes)             (* seqlock.go:71, byte i *)
  | UFn (d : bytes)                         (* seqlock.go:72 *)
  | UWrite (i : nat) (d : bytes)            (* seqlock.go:74, byte i *)
  | WSeq2 (r : outcome unit)                (* seqlock.go:57, 78 *)
  | WUnlock (r : outcome unit)              (* seqlock.go:58, 79 *)
  | PRet (r : res).

(** What happens: calls, the two increments of the sequence number by a writer,
    returns *)
Inductive event := EInv (t : nat) (o : op) | EBegin (t : nat) (o : op) | EDone (t : nat) (o : op) | ERet (t : nat) (o : op) (r : res).

Definition start (o : op) : pc := match o with OGet => GSeq1 | _ => WLock end.
Definition byte_at (d : bytes) (i : nat) : Z := default 0 (d !! i).
(** one access to shared memory and the local computation behind it *)
Definition step_call (s : Seqlock) (t : nat) (o : op) (p : pc) : Seqlock * pc * list event :=
  match o, p with
  | OGet, GSeq1 => (s, (if s_seq s mod 2 =? 0 then GCopy (s_seq s) 0 (replicate blk 0) else GSeq1), [])
  | OGet, GCopy q i ret =>
      let ret := <[i := byte_at (s_data s) i]> ret in
      (s, (if (S i <? blk)%nat then GCopy q (S i) ret else GSeq2 q ret), [])
  | OGet, GSeq2 q ret => (s, (if q =? s_seq s then PRet (RGet ret) else GSeq1), [])
  | (OPut _ | OUpdate _), WLock => if s_mu s then (s, WLock, []) else (MkSeq (s_seq s) true (s_data s), WSeq1, [])
  | OPut v, WSeq1 => (MkSeq (u32 (s_seq s + 1)) (s_mu s) (s_data s), PCopy 0, [EBegin t o])
  | OPut v, PCopy i =>
      (MkSeq (s_seq s) (s_mu s) (<[i := byte_at v i]> (s_data s)), (if (S i <? blk)%nat then PCopy (S i) else WSeq2 (Ok ())), [])
  | OUpdate fn, WSeq1 => (MkSeq (u32 (s_seq s + 1)) (s_mu s) (s_data s), URead 0 (replicate blk 0), [EBegin t o])
  | OUpdate fn, URead i d =>
      let d := <[i := byte_at (s_data s) i]> d in
      (s, (if (S i <? blk)%nat then URead (S i) d else UFn d), [])
  | OUpdate fn, UFn d =>
      match fn d with
      | (d, Ok _) => (s, UWrite 0 d, [])
      | (_, Err e) => (s, WSeq2 (Err e), [])
      | (_, Panic) => (s, PRet (RWrite Panic), [])     (* no defer: the mutex stays held, seq odd *)
      end
  | OUpdate fn, UWrite i d =>
      (MkSeq (s_seq s) (s_mu s) (<[i := byte_at d i]> (s_data s)), (if (S i <? blk)%nat then UWrite (S i) d else WSeq2 (Ok ())), [])
  | (OPut _ | OUpdate _), WSeq2 r => (MkSeq (u32 (s_seq s + 1)) (s_mu s) (s_data s), WUnlock r, [EDone t o])
  | (OPut _ | OUpdate _), WUnlock r => (MkSeq (s_seq s) false (s_data s), PRet (RWrite r), [])
  | _, p => (s, p, [])   (* no such combination: see SeqlockProofs.inv *)
  end.

(** The machine, as in IncmapModel *)
Record cfg := MkCfg { c_sh : Seqlock; c_threads : list (option (op * pc)) }.
Inductive action := ACall (t : nat) (o : op) | AStep (t : nat).
Definition step (c : cfg) (a : action) : cfg * list event :=
  match a with
  | ACall t o =>
      match c_threads c !! t with
      | Some None => (MkCfg (c_sh c) (<[t := Some (o, start o)]> (c_threads c)), [EInv t o])
      | _ => (c, [])
      end
  | AStep t =>
      match c_threads c !! t with
      | Some (Some (o, PRet r)) => (MkCfg (c_sh c) (<[t := None]> (c_threads c)), [ERet t o r])
      | Some (Some (o, p)) =>
          let '(s, p, es) := step_call (c_sh c) t o p in
          (MkCfg s (<[t := Some (o, p)]> (c_threads c)), es)
      | _ => (c, [])
      end
  end.
Fixpoint exec (c : cfg) (l : list action) : cfg * list event :=
  match l with
  | [] => (c, [])
  | a :: l => let '(c, e1) := step c a in let '(c, e2) := exec c l in (c, e1 ++ e2)
  end.
