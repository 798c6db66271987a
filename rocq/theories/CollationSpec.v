(** Specification of collations: what a record should contain after a history
    of rows, in terms of the schema and the rows only. *)
From Verif Require Import Base Float64 FnvSpec HllModel HllSpec Stat64Model Stat64Spec CollationModel.
Local Open Scope Z_scope.

(** ** record keys *)
(** value of the first field called k *)
Fixpoint value_of (k : bytes) (fvs : list FV) : option bytes :=
  match fvs with
  | [] => None
  | fv :: fvs => if decide (fv_F fv = k) then Some (fv_V fv) else value_of k fvs
  end.
(** the bytes hashed for the key fields: name then value, without separators *)
Fixpoint key_text (keys : list bytes) (fvs : list FV) : option bytes :=
  match keys with
  | [] => Some []
  | k :: keys =>
      match value_of k fvs, key_text keys fvs with
      | Some v, Some t => Some (k ++ v ++ t)
      | _, _ => None
      end
  end.
(** the record key: FNV-1 of that text *)
Definition record_key (keys : list bytes) (fvs : list FV) : option Z := option_map fnv1_spec (key_text keys fvs).

(** ** histories of a record *)
Section driver.
Context (parse_float : bytes → option float).
(** apply rows one after another, each with its init flag; stops at the first failure *)
Fixpoint apply_rows (c : Collator) (buf : bytes) (rows : list (bool * Row)) : outcome bytes :=
  match rows with
  | [] => Ok buf
  | (init, r) :: rows =>
      match Coll_Update parse_float c r buf init with
      | (buf, Ok _) => apply_rows c buf rows
      | (_, Err e) => Err e
      | (_, Panic) => Panic
      end
  end.
(** a record is created zeroed; init is set for the first row only *)
Definition first_init (rows : list Row) : list (bool * Row) :=
  match rows with [] => [] | r :: rows => (true, r) :: map (pair false) rows end.
Definition record_after (s : Schema) (rows : list Row) : outcome bytes :=
  apply_rows (Compile s) (replicate (Z.to_nat (c_size (Compile s))) 0) (first_init rows).

(** every record buffer that can arise: created zeroed, then updated by any rows
    with any init flags, including rows that failed half way *)
Inductive reachable (s : Schema) : bytes → Prop :=
  | reach_new : reachable s (replicate (Z.to_nat (c_size (Compile s))) 0)
  | reach_row buf r init buf' o : reachable s buf → Forall (λ fv, is_bytes (fv_V fv)) (row_data r) →
      Coll_Update parse_float (Compile s) r buf init = (buf', o) → reachable s buf'.

(** the values of field f carried by the rows, in order *)
Definition field_values (f : bytes) (rows : list Row) : list bytes :=
  r ← rows; map fv_V (filter (λ fv, fv_F fv = f) (row_data r)).
Definition field_floats (f : bytes) (rows : list Row) : list float :=
  omap parse_float (field_values f rows).
End driver.

(** precisions are restricted to 4..18 (measure.go:228) *)
Definition precision_ok (m : measure) : Prop := match m with MCardinality p => 4 ≤ p ≤ 18 | _ => True end.
Definition schema_ok (s : Schema) : Prop := Forall (λ ms, Forall precision_ok (ms_measures ms)) (s_measures s).

(** measure m is declared for field f by the field level part of the schema *)
Definition field_measure (s : Schema) (f : bytes) (m : measure) : Prop :=
  ∃ ms, ms ∈ s_measures s ∧ ms_field ms = f ∧ m ∈ ms_measures ms.
(** (field, measure name) pairs that can be queried.  count is a record level
    measure only: declared for a field it is ignored (see DESIGN.md). *)
Definition declared (s : Schema) (f n : bytes) : Prop :=
  (f = str "*" ∧ n = str "count" ∧ s_rows s ≠ []) ∨
  (∃ m, field_measure s f m ∧ m ≠ MCount ∧ n = m_name m).

(** ** layout of a record *)
(** writers of a collator: of the whole row, of a field as a number, of a field as text *)
Inductive kind := KRow | KCont (f : bytes) | KDisc (f : bytes).
Global Instance kind_eq_dec : EqDecision kind.
Proof. solve_decision. Defined.
Definition writers_of (c : Collator) (k : kind) : list range :=
  match k with
  | KRow => c_writers c
  | KCont f => default [] (c_cont c !! f)
  | KDisc f => default [] (c_disc c !! f)
  end.
Definition reader_of (c : Collator) (f n : bytes) : option range := c_read c !! f ≫= λ rs, rs !! n.
(** a writer of kind k and measure m' maintains what measure m of field f reads:
    count reads a row counter, sum/mean/var read a statistical summary of the
    same field, the others their own cell of the same field *)
Definition feeds (k : kind) (m' : measure) (f : bytes) (m : measure) : Prop :=
  match k with
  | KRow => f = RowPseudoField ∧ m' = MCount ∧ m = MCount
  | KCont f' => f = f' ∧ is_cont_input m = true ∧ is_cont_input m' = true ∧ ((is_stat m = true ∧ is_stat m' = true) ∨ m = m')
  | KDisc f' => f = f' ∧ is_disc_input m = true ∧ m = m'
  end.

(** the answer to "select n(f)" from a record *)
Definition answer (est : Counter → Z) (s : Schema) (buf f n : bytes) : outcome (list FMV) :=
  Coll_Read est (Compile s) [MkFM f [n]] buf.

(** a float that occurs in vs and is >= (<=) all of them *)
Definition is_max (m : float) (vs : list float) : Prop := m ∈ vs ∧ ∀ v, v ∈ vs → fle v m = true.
Definition is_min (m : float) (vs : list float) : Prop := m ∈ vs ∧ ∀ v, v ∈ vs → fle m v = true.

(** the row carries field f exactly once *)
Definition has_once (f : bytes) (r : Row) : Prop := length (filter (λ fv, fv_F fv = f) (row_data r)) = 1%nat.
