(** Model of /repo/internal/bufmap/bufmap.go with any number of goroutines calling
    Get and Update, interleaved at every atomic operation, every lock operation
    and every single byte read from or written to the shared buffers, including
    those made by the functions given to Update.  Memory is sequentially
    consistent (the plain byte accesses race with the readers' copies; Go gives
    no guarantee for them, see DESIGN.md).  The state and [New], [pos] are those
    of BufmapModel. *)
From Verif Require Import Base BufmapModel.
Local Open Scope Z_scope.

(** A function given to Update, as the accesses it makes to the slice it is given
    (bufmap.go:145), in order, each depending on what was read before, and its
    result. *)
Inductive prog := PDone (r : outcome unit) | PRead (i : Z) (k : Z → prog) | PWrite (i v : Z) (k : prog).
(** Calls: Get(k, buf), Update(k, fn) *)
Inductive op := OGet (k : Z) (buf : bytes) | OUpdate (k : Z) (fn : bool → prog).
(** RGet: the buffer after the call, and the result; RPanic: the call panicked *)
Inductive res := RGet (buf : bytes) (found : bool) | RUpdate (r : outcome unit) | RPanic.

(** Where a goroutine is inside a call: in front of which shared access *)
Inductive pc :=
  | GLoad (i : nat)                              (* bufmap.go:55 *)
  | GSeq1 (x : Z) (buf : bytes)                  (* bufmap.go:69 *)
  | GCopy (x seq1 : Z) (j : nat) (buf : bytes)   (* bufmap.go:76, byte j *)
  | GSeq2 (x seq1 : Z) (buf : bytes)             (* bufmap.go:79 *)
  | ULoad (i : nat) (init : bool)                (* bufmap.go:109 *)
  | UCas (i : nat) (x : Z)                       (* bufmap.go:119 *)
  | UReload (i : nat) (x : Z)                    (* bufmap.go:126 *)
  | ULock (x : Z) (init : bool)                  (* bufmap.go:141 *)
  | USeq1 (x : Z) (init : bool)                  (* bufmap.go:144 *)
  | UFn (x : Z) (init : bool) (p : prog)         (* bufmap.go:146, next access of fn *)
  | USeq2 (x : Z) (init : bool) (r : outcome unit)  (* bufmap.go:149 *)
  | UUnlock (x : Z) (r : outcome unit)           (* bufmap.go:152 *)
  | PRet (r : res).

(** What happens: calls, begin and end of the critical section of an update (with
    the flag its function was given), a panic inside it, returns *)
Inductive event :=
  | EInv (t : nat) (o : op) | EBegin (t : nat) (k : Z) | EDone (t : nat) (k : Z) (fn : bool → prog) (init : bool) | EPanic (t : nat) (k : Z) (fn : bool → prog) (init : bool) | ERet (t : nat) (o : op) (r : res).

Definition start (o : op) : pc :=
  match o with
  | OGet k buf => GLoad 0
  | OUpdate k fn => if k =? 0 then PRet (RUpdate (Err ErrInvalidKey)) else ULoad 0 false     (* bufmap.go:99-104 *)
  end.
(** bufmap.go:59-63 *)
Definition greprobe (i : nat) (buf : bytes) : pc := if (maxReprobe <? S i)%nat then PRet (RGet buf false) else GLoad (S i).
(** bufmap.go:132-136 *)
Definition reprobe (i : nat) : pc := if (maxReprobe <? S i)%nat then PRet (RUpdate (Err ErrOutOfSlots)) else ULoad (S i) true.
Definition set_slot (m : Map) (x : Z) (sl : slot) : Map := MkMap (m_l m) (m_s m) (<[Z.to_nat x := sl]> (m_keys m)) (m_values m).
Definition set_byte (m : Map) (a : Z) (v : Z) : Map := MkMap (m_l m) (m_s m) (m_keys m) (<[Z.to_nat a := v]> (m_values m)).
Definition byte_at (d : bytes) (a : Z) : Z := default 0 (d !! Z.to_nat a).
(** one access to shared memory and the local computation behind it *)
Definition step_call (m : Map) (t : nat) (o : op) (p : pc) : Map * pc * list event :=
  match o, p with
  | OGet k buf, GLoad i =>
      match (let! x := pos (m_l m) k i in let! sl := index (m_keys m) x in Ok (x, sl)) with
      | Ok (x, sl) => (m, (if sl_key sl =? k then GSeq1 x buf else greprobe i buf), [])
      | _ => (m, PRet RPanic, [])
      end
  | OGet k _, GSeq1 x buf =>
      match index (m_keys m) x with
      | Ok sl =>
          if sl_seq sl mod 2 =? 0 then
            match slice (m_values m) (s64 (x * m_s m)) (s64 (x * (m_s m + 1))) with    (* bufmap.go:76 *)
            | Ok src => (m, (if (0 <? Nat.min (length buf) (length src))%nat then GCopy x (sl_seq sl) 0 buf else GSeq2 x (sl_seq sl) buf), [])
            | _ => (m, PRet RPanic, [])
            end
          else (m, GSeq1 x buf, [])
      | _ => (m, PRet RPanic, [])
      end
  | OGet k _, GCopy x q j buf =>
      let buf := <[j := byte_at (m_values m) (s64 (x * m_s m) + Z.of_nat j)]> buf in
      (m, (if (Z.of_nat (S j) <? Z.min (Z.of_nat (length buf)) (s64 (x * (m_s m + 1)) - s64 (x * m_s m))) then GCopy x q (S j) buf else GSeq2 x q buf), [])
  | OGet k _, GSeq2 x q buf =>
      match index (m_keys m) x with
      | Ok sl => (m, (if q =? sl_seq sl then PRet (RGet buf true) else GSeq1 x buf), [])
      | _ => (m, PRet RPanic, [])
      end
  | OUpdate k fn, ULoad i init =>
      match (let! x := pos (m_l m) k i in let! sl := index (m_keys m) x in Ok (x, sl)) with
      | Ok (x, sl) => (m, (if sl_key sl =? k then ULock x init else if sl_key sl =? 0 then UCas i x else UReload i x), [])
      | _ => (m, PRet RPanic, [])
      end
  | OUpdate k fn, UCas i x =>                      (* init is true from here on: bufmap.go:114 *)
      match index (m_keys m) x with
      | Ok sl => if sl_key sl =? 0 then (set_slot m x (Slot k (sl_seq sl) (sl_mu sl)), ULock x true, []) else (m, UReload i x, [])
      | _ => (m, PRet RPanic, [])
      end
  | OUpdate k fn, UReload i x =>
      match index (m_keys m) x with
      | Ok sl => (m, (if sl_key sl =? k then ULock x true else reprobe i), [])
      | _ => (m, PRet RPanic, [])
      end
  | OUpdate k fn, ULock x init =>
      match index (m_keys m) x with
      | Ok sl => if sl_mu sl then (m, ULock x init, []) else (set_slot m x (Slot (sl_key sl) (sl_seq sl) true), USeq1 x init, [])
      | _ => (m, PRet RPanic, [])
      end
  | OUpdate k fn, USeq1 x init =>
      match index (m_keys m) x with
      | Ok sl => (set_slot m x (Slot (sl_key sl) (u32 (sl_seq sl + 1)) (sl_mu sl)), UFn x init (fn init), [EBegin t k])
      | _ => (m, PRet RPanic, [])
      end
  | OUpdate k fn, UFn x init p =>
      match slice (m_values m) (s64 (x * m_s m)) (s64 ((x + 1) * m_s m)) with          (* bufmap.go:146 *)
      | Ok data =>
          match p with
          | PDone Panic => (m, PRet RPanic, [EPanic t k fn init])
          | PDone r => (m, USeq2 x init r, [])
          | PRead i g => if (0 <=? i) && (i <? Z.of_nat (length data)) then (m, UFn x init (g (byte_at (m_values m) (s64 (x * m_s m) + i))), []) else (m, PRet RPanic, [EPanic t k fn init])
          | PWrite i v g => if (0 <=? i) && (i <? Z.of_nat (length data)) then (set_byte m (s64 (x * m_s m) + i) v, UFn x init g, []) else (m, PRet RPanic, [EPanic t k fn init])
          end
      | _ => (m, PRet RPanic, [EPanic t k fn init])
      end
  | OUpdate k fn, USeq2 x init r =>
      match index (m_keys m) x with
      | Ok sl => (set_slot m x (Slot (sl_key sl) (u32 (sl_seq sl + 1)) (sl_mu sl)), UUnlock x r, [EDone t k fn init])
      | _ => (m, PRet RPanic, [])
      end
  | OUpdate k fn, UUnlock x r =>
      match index (m_keys m) x with
      | Ok sl => (set_slot m x (Slot (sl_key sl) (sl_seq sl) false), PRet (RUpdate r), [])
      | _ => (m, PRet RPanic, [])
      end
  | _, p => (m, p, [])   (* no such combination: see BufconcProofs.inv *)
  end.

(** The machine, as in IncmapModel *)
Record cfg := MkCfg { c_map : Map; c_threads : list (option (op * pc)) }.
Inductive action := ACall (t : nat) (o : op) | AStep (t : nat).
Definition step (c : cfg) (a : action) : cfg * list event :=
  match a with
  | ACall t o =>
      match c_threads c !! t with
      | Some None => (MkCfg (c_map c) (<[t := Some (o, start o)]> (c_threads c)), [EInv t o])
      | _ => (c, [])
      end
  | AStep t =>
      match c_threads c !! t with
      | Some (Some (o, PRet r)) => (MkCfg (c_map c) (<[t := None]> (c_threads c)), [ERet t o r])
      | Some (Some (o, p)) =>
          let '(m, p, es) := step_call (c_map c) t o p in
          (MkCfg m (<[t := Some (o, p)]> (c_threads c)), es)
      | _ => (c, [])
      end
  end.
Fixpoint exec (c : cfg) (l : list action) : cfg * list event :=
  match l with
  | [] => (c, [])
  | a :: l => let '(c, e1) := step c a in let '(c, e2) := exec c l in (c, e1 ++ e2)
  end.
