(** Model of /repo/internal/storage/storage.go shared by any number of goroutines
    (every HTTP request runs in its own, server.go): calls of Store.Write and
    Store.Read interleaved at every shared access of the record map, on top of the
    interleaving machine of BufconcModel.  Hashing the key, and turning the bytes
    read into values, touch no shared memory.

    [impl r] is the sequence of byte accesses that Collator.Update makes for row r
    inside the critical section; it is a parameter, so that nothing depends on their
    order.  Simplification: the context given to Write is never cancelled. *)
From Verif Require Import Base Float64 HllModel CollationModel BufmapModel QueryModel BufconcModel ServerModel.
Local Open Scope Z_scope.

Section store.
Context (est : Counter → Z) (c : Collator) (impl : Row → bool → prog).
(** storage.go:26, storage.go:47 *)
Inductive scall := CWrite (r : Row) | CRead (q : Query).
(** storage.go:27-30, 39-43 and storage.go:48-56: the call made of the record map, if any *)
Definition op_of (sc : scall) : option op :=
  match sc with
  | CWrite r => let '(k, found) := Row_KeyValue r (c_keys c) in if found then Some (OUpdate k (impl r)) else None
  | CRead q => let '(k, found) := Query_KeyValue q (c_keys c) in if found then Some (OGet k (replicate (Z.to_nat (c_size c)) 0)) else None
  end.
(** storage.go:30, 44 and storage.go:51, 57-62: the result, given that of the call of the map *)
Inductive sreply := AWrite (o : call (outcome unit)) | ARead (a : call (outcome (list FMV))).
Definition reply (sc : scall) (r : option res) : sreply :=
  match sc, r with
  | CWrite _, None => AWrite (Ret (Ok ()))
  | CWrite _, Some (RUpdate o) => AWrite (Ret o)
  | CWrite _, Some _ => AWrite Panics
  | CRead _, None => ARead (Ret (Ok []))
  | CRead _, Some (RGet _ false) => ARead (Ret (Ok []))
  | CRead q, Some (RGet buf true) => ARead (match Coll_Read est c (q_fms q) buf with Panic => Panics | a => Ret a end)
  | CRead _, Some _ => ARead Panics
  end.

(** What happens, for the user of the store: calls and returns (SRet: with what the
    call of the map returned, if it was made), and in between begin and end of the
    change of a record by a row, or a panic in it *)
Inductive sevent :=
  | SInv (t : nat) (sc : scall) | SBegin (t : nat) (k : Z) | SDone (t : nat) (k : Z) (r : Row) (init : bool)
  | SPanic (t : nat) (k : Z) (r : Row) (init : bool) | SRet (t : nat) (sc : scall) (r : option res).
Record scfg := MkS { g_cfg : cfg; g_calls : list (option scall) }.
Inductive saction := SCall (t : nat) (sc : scall) | SStep (t : nat).
Definition tag (sc : scall) (e : event) : list sevent :=
  match e, sc with
  | EBegin t k, _ => [SBegin t k]
  | EDone t k _ init, CWrite r => [SDone t k r init]
  | EPanic t k _ init, CWrite r => [SPanic t k r init]
  | ERet t _ r, _ => [SRet t sc (Some r)]
  | _, _ => []
  end.
Definition is_ret (e : event) : bool := match e with ERet _ _ _ => true | _ => false end.
Definition sstep (g : scfg) (a : saction) : scfg * list sevent :=
  match a with
  | SCall t sc =>
      match g_calls g !! t with
      | Some None =>
          match op_of sc with
          | Some o => (MkS (step (g_cfg g) (ACall t o)).1 (<[t := Some sc]> (g_calls g)), [SInv t sc])
          | None => (g, [SInv t sc; SRet t sc None])
          end
      | _ => (g, [])
      end
  | SStep t =>
      match g_calls g !! t with
      | Some (Some sc) =>
          let '(c', es) := step (g_cfg g) (AStep t) in
          (MkS c' (if existsb is_ret es then <[t := None]> (g_calls g) else g_calls g), es ≫= tag sc)
      | _ => (g, [])
      end
  end.
Fixpoint sexec (g : scfg) (l : list saction) : scfg * list sevent :=
  match l with
  | [] => (g, [])
  | a :: l => let '(g, e1) := sstep g a in let '(g, e2) := sexec g l in (g, e1 ++ e2)
  end.
End store.
