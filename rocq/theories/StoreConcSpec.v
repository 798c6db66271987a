(** Specification of the store shared by many goroutines, over histories. *)
From Verif Require Import Base Float64 HllModel CollationModel CollationSpec BufmapModel BufmapSpec QueryModel BufconcModel BufconcSpec ServerModel StoreConcModel.
Local Open Scope Z_scope.

Section spec.
Context (pf : bytes → option float) (s : Schema) (impl : Row → bool → prog).
Notation c := (Compile s).
(** whatever its accesses, the effect of a row's update when nobody interferes is
    that of Collator.Update *)
Definition impl_ok : Prop := ∀ r init d, length d = Z.to_nat (c_size c) → run (impl r init) d = Coll_Update pf c r d init.
(** all executions of n goroutines on a new store of l slots *)
Definition sexecution (l : Z) (n : nat) (acts : list saction) (g : scfg) (h : list sevent) : Prop :=
  ∃ m, New l (c_size c) = Ok m ∧ sexec c impl (MkS (MkCfg m (replicate n None)) (replicate n None)) acts = (g, h).
(** field names and values are bytes *)
Definition call_ok (sc : scall) : Prop :=
  match sc with
  | CWrite r => Forall (λ fv, is_bytes (fv_F fv) ∧ is_bytes (fv_V fv)) (row_data r)
  | CRead q => Forall (λ fv, is_bytes (fv_F fv) ∧ is_bytes (fv_V fv)) (q_crit q)
  end.
Definition saction_ok (a : saction) : Prop := match a with SCall _ sc => call_ok sc | SStep _ => True end.
(** nobody is inside a call *)
Definition squiescent (g : scfg) : Prop := ∀ t sc, g_calls g !! t = Some sc → sc = None.
(** the record key of a row *)
Definition row_key (r : Row) : option Z := record_key (s_keys s) (row_data r).

(** the rows written to record k: those of the calls of Write ... *)
Definition called (k : Z) (h : list sevent) : list Row :=
  omap (λ e, match e with SInv _ (CWrite r) => if decide (row_key r = Some k) then Some r else None | _ => None end) h.
(** ... those of the calls that have returned nil ... *)
Definition succeeded (k : Z) (h : list sevent) : list Row :=
  omap (λ e, match e with SRet _ (CWrite r) (Some (RUpdate (Ok _))) => if decide (row_key r = Some k) then Some r else None | _ => None end) h.
(** ... and those that have been applied to the record, in that order, with the flag they were given *)
Definition applied (k : Z) (h : list sevent) : list (bool * Row) :=
  omap (λ e, match e with SDone _ k' r init => if decide (k' = k) then Some (init, r) else None | _ => None end) h.
(** no Write has failed: each that returned, returned nil *)
Definition no_failures (h : list sevent) : Prop := ∀ t r res, SRet t (CWrite r) res ∈ h → reply (λ _, 0) c (CWrite r) res = AWrite (Ret (Ok ())).
(** no call of goroutine t begins or ends *)
Definition squiet (t : nat) (h : list sevent) : Prop := Forall (λ e, match e with SInv t' _ | SRet t' _ _ => t' ≠ t | _ => True end) h.
(** the record of key k with the rows applied so far in it, one after another *)
Definition contents (k : Z) (h : list sevent) : bytes :=
  fold_left (λ d ir, (Coll_Update pf c ir.2 d ir.1).1) (applied k h) (replicate (Z.to_nat (c_size c)) 0).
End spec.
