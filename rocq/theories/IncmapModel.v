(** Model of /repo/internal/incmap/incmap.go: any number of goroutines calling
    Inc and Get, interleaved at every atomic operation.  sync/atomic operations
    are sequentially consistent (Go memory model). *)
From Verif Require Import Base.
Local Open Scope Z_scope.

(** incmap.go:11-15 *)
Record Map := MkMap { m_l : Z; m_keys : list Z; m_values : list Z }.
(** incmap.go:18-24: make panics on a negative length *)
Definition New (l : Z) : outcome Map :=
  if l <? 0 then Panic else Ok (MkMap l (replicate (Z.to_nat l) 0) (replicate (Z.to_nat l) 0)).
(** incmap.go:26 *)
Definition maxReprobe : nat := 10.
(** incmap.go:99-101.  Unsigned modulo by zero panics. *)
Definition pos (l k : Z) (i : nat) : outcome Z :=
  if u64 l =? 0 then Panic else Ok (s64 (u64 (k mod u64 l + Z.of_nat i) mod u64 l)).

(** The calls: Inc(k, d) and Get(k), and what they return. *)
Inductive op := Inc (k d : Z) | Get (k : Z).
Inductive res := RInc (ok : bool) | RGet (v : Z) (found : bool) | RPanic.

(** Where a goroutine is inside a call: in front of which atomic operation, with
    the local variables i and x.  [PRet]: about to return. *)
Inductive pc :=
  | PLoad (i : nat)             (* incmap.go:43 *)
  | PCas (i : nat) (x : Z)      (* incmap.go:51 *)
  | PReload (i : nat) (x : Z)   (* incmap.go:58 *)
  | PAdd (x : Z)                (* incmap.go:70 *)
  | PGLoad (i : nat)            (* incmap.go:82 *)
  | PGVal (x : Z)               (* incmap.go:93 *)
  | PRet (r : res).

(** What happens, in order: calls, successful atomic additions, returns. *)
Inductive event := EInv (t : nat) (o : op) | EAdd (t : nat) (k d : Z) | ERet (t : nat) (o : op) (r : res).

(** incmap.go:34-38 and 78-79: from the call to the first atomic operation *)
Definition start (o : op) : pc :=
  match o with
  | Inc k d => if k =? 0 then PRet (RInc false) else PLoad 0
  | Get k => PGLoad 0
  end.
(** incmap.go:63-67 *)
Definition reprobe (i : nat) : pc := if (maxReprobe <? S i)%nat then PRet (RInc false) else PLoad (S i).
(** incmap.go:86-90 *)
Definition greprobe (i : nat) : pc := if (maxReprobe <? S i)%nat then PRet (RGet 0 false) else PGLoad (S i).
(** one atomic operation and the local computation behind it *)
Definition step_call (m : Map) (t : nat) (o : op) (p : pc) : Map * pc * list event :=
  match o, p with
  | Inc k d, PLoad i =>
      match (let! x := pos (m_l m) k i in let! kx := index (m_keys m) x in Ok (x, kx)) with
      | Ok (x, kexist) => (m, (if kexist =? k then PAdd x else if kexist =? 0 then PCas i x else PReload i x), [])
      | _ => (m, PRet RPanic, [])
      end
  | Inc k d, PCas i x =>
      match index (m_keys m) x with
      | Ok kx => if kx =? 0 then (MkMap (m_l m) (<[Z.to_nat x := k]> (m_keys m)) (m_values m), PAdd x, []) else (m, PReload i x, [])
      | _ => (m, PRet RPanic, [])
      end
  | Inc k d, PReload i x =>
      match index (m_keys m) x with
      | Ok kexist => (m, (if kexist =? k then PAdd x else reprobe i), [])
      | _ => (m, PRet RPanic, [])
      end
  | Inc k d, PAdd x =>
      match index (m_values m) x with
      | Ok v => (MkMap (m_l m) (m_keys m) (<[Z.to_nat x := u64 (v + d)]> (m_values m)), PRet (RInc true), [EAdd t k d])
      | _ => (m, PRet RPanic, [])
      end
  | Get k, PGLoad i =>
      match (let! x := pos (m_l m) k i in let! kx := index (m_keys m) x in Ok (x, kx)) with
      | Ok (x, kx) => (m, (if kx =? k then PGVal x else greprobe i), [])
      | _ => (m, PRet RPanic, [])
      end
  | Get k, PGVal x =>
      match index (m_values m) x with
      | Ok v => (m, PRet (RGet v true), [])
      | _ => (m, PRet RPanic, [])
      end
  | _, p => (m, p, [])   (* no such combination: see IncmapProofs.inv *)
  end.

(** The machine: memory and goroutines, each idle or inside a call. *)
Record cfg := MkCfg { c_map : Map; c_threads : list (option (op * pc)) }.
(** A schedule is a list of: goroutine t calls o; goroutine t makes a step.
    Actions that are impossible (calling while inside a call, stepping while
    idle) do nothing. *)
Inductive action := ACall (t : nat) (o : op) | AStep (t : nat).
Definition step (c : cfg) (a : action) : cfg * list event :=
  match a with
  | ACall t o =>
      match c_threads c !! t with
      | Some None => (MkCfg (c_map c) (<[t := Some (o, start o)]> (c_threads c)), [EInv t o])
      | _ => (c, [])
      end
  | AStep t =>
      match c_threads c !! t with
      | Some (Some (o, PRet r)) => (MkCfg (c_map c) (<[t := None]> (c_threads c)), [ERet t o r])
      | Some (Some (o, p)) =>
          let '(m, p, es) := step_call (c_map c) t o p in
          (MkCfg m (<[t := Some (o, p)]> (c_threads c)), es)
      | _ => (c, [])
      end
  end.
Fixpoint exec (c : cfg) (l : list action) : cfg * list event :=
  match l with
  | [] => (c, [])
  | a :: l => let '(c, e1) := step c a in let '(c, e2) := exec c l in (c, e1 ++ e2)
  end.
