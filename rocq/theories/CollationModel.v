(** Model of /repo/internal/collation: schema.go, measure.go, compile.go. *)
From stdpp Require Export gmap.
From Verif Require Import Base Float64 FnvModel BitbucketModel HllModel Stat64Model.
Local Open Scope Z_scope.

(** schema.go:57-62 *)
Record FV := MkFV { fv_F : bytes; fv_V : bytes }.
(** schema.go:51-55.  The receive time is not modelled: nothing reads it.
    DataTime is kept as nanoseconds since the epoch. *)
Record Row := MkRow { row_time : Z; row_data : list FV }.
(** schema.go:103-112 *)
Record FM := MkFM { fm_F : bytes; fm_M : list bytes }.
Record Query := MkQuery { q_fms : list FM; q_crit : list FV }.
(** schema.go:130-143.  V is always a float64: no measure implements DiscreteOutput. *)
Record FMV := MkFMV { r_F : bytes; r_M : bytes; r_V : float }.

(** schema.go:74-81: the inner search loop for one key: the first field of that name *)
Fixpoint find_field (k : bytes) (fvs : list FV) : option FV :=
  match fvs with
  | [] => None
  | fv :: fvs => if bool_decide (k = fv_F fv) then Some fv else find_field k fvs
  end.
(** schema.go:69-85.  [h] is the state of the fnv.Fnv64 hash; the result is
    (key, found). *)
Fixpoint key_loop (h : Z) (keys : list bytes) (fvs : list FV) : Z * bool :=
  match keys with
  | [] => (Fnv64_Sum64 h, true)
  | k :: keys =>
      match find_field k fvs with
      | Some fv =>
          let h := (Fnv64_Write h (fv_F fv)).1 in
          let h := (Fnv64_Write h (fv_V fv)).1 in
          key_loop h keys fvs
      | None => (0, false)
      end
  end.
Definition KeyValue (fvs : list FV) (keys : list bytes) : Z * bool := key_loop New64 keys fvs.
(** schema.go:91-93, 119-121 *)
Definition Row_KeyValue (r : Row) (keys : list bytes) : Z * bool := KeyValue (row_data r) keys.
Definition Query_KeyValue (q : Query) (keys : list bytes) : Z * bool := KeyValue (q_crit q) keys.

(** ** Measures (measure.go)
    Cardinality carries its Precision, an int. *)
Inductive measure := MCount | MSum | MMean | MVariance | MMax | MMin | MCardinality (precision : Z).
(** measure.go:50, 75, 99, 123, 146, 175, 266-268 *)
Definition m_size (m : measure) : Z :=
  match m with
  | MCount => 8
  | MSum | MMean | MVariance => Stat_Len
  | MMax | MMin => 8
  | MCardinality p => Hll_LenOf (u8 p)
  end.
(** measure.go:52, 77, 101, 125, 148, 177, 270 *)
Definition m_name (m : measure) : bytes :=
  match m with
  | MCount => str "count" | MSum => str "sum" | MMean => str "mean" | MVariance => str "var"
  | MMax => str "max" | MMin => str "min" | MCardinality _ => str "uniquecount"
  end.
(** The interfaces each type implements, i.e. which methods it declares. *)
Definition is_cont_input (m : measure) : bool :=    (* ContWriter: 79, 103, 127, 150, 179 *)
  match m with MSum | MMean | MVariance | MMax | MMin => true | _ => false end.
Definition is_cont_output (m : measure) : bool :=   (* ContReader: 63, 87, 111, 134, 163, 192, 256 *)
  true.
Definition is_disc_input (m : measure) : bool :=    (* DiscWriter: 234 *)
  match m with MCardinality _ => true | _ => false end.
(** No type declares DiscReader, so Collator.discReaders is always empty and
    the branches of compile.go and schema.go that use it never run; they are
    not modelled.  Only Count declares RowWriter (measure.go:54). *)
Inductive row_measure := RCount.
Definition rm_measure (r : row_measure) : measure := match r with RCount => MCount end.

(** measure.go:54-61 on its sub-slice *)
Definition count_write (buf : bytes) : outcome bytes :=
  let! b := slice buf 0 8 in
  let c := u64 (get64 b + 1) in
  Ok (splice buf 0 (put64 c)).
(** measure.go:150-161 *)
Definition max_write (buf : bytes) (init : bool) (v : float) : outcome bytes :=
  let! b := slice buf 0 8 in   (* Uint64 / PutUint64 both require 8 bytes *)
  if negb init && fle v (getf b) then Ok buf else Ok (splice buf 0 (putf v)).
(** measure.go:179-190 *)
Definition min_write (buf : bytes) (init : bool) (v : float) : outcome bytes :=
  let! b := slice buf 0 8 in
  if negb init && fle (getf b) v then Ok buf else Ok (splice buf 0 (putf v)).
(** measure.go:79-85, 103-109, 127-133: the ContWriter of each ContinuousInput *)
Definition cont_write (m : measure) (buf : bytes) (init : bool) (v : float) : outcome bytes :=
  match m with
  | MSum | MMean | MVariance => Stat_Update (Stat_WithBytes buf) v
  | MMax => max_write buf init v
  | MMin => min_write buf init v
  | _ => Panic   (* not a ContinuousInput: never called *)
  end.
(** measure.go:234-254.  bytes.Buffer never fails. *)
Definition disc_write (m : measure) (buf : bytes) (init : bool) (v : bytes) : outcome bytes :=
  match m with
  | MCardinality p =>
      if init then
        let! s := Hll_New (u8 p) in
        let! s := Hll_Add s v in
        match Hll_WriteTo s (Writer [] None) with
        | (_, None, w) => Ok (gocopy buf (w_out w))
        | (_, Some e, _) => Err e
        end
      else
        let! s := Hll_WithBytes buf in
        let! s := Hll_Add s v in
        Ok (Hll_flush buf s)
  | _ => Panic   (* not a DiscreteInput: never called *)
  end.

Section collation.
(** [parse_float] is strconv.ParseFloat(_, 64) (None: it returned an error) and
    [hll_estimate] is (hll.Counter).Count: the model is for every such function. *)
Context (parse_float : bytes → option float) (hll_estimate : Counter → Z).

(** the ContReader of each measure: measure.go:63-68, 87-92, 111-116, 134-139,
    163-168, 192-197, 256-264 *)
Definition cont_read (m : measure) (buf : bytes) : outcome float :=
  match m with
  | MCount => let! b := slice buf 0 8 in Ok (f_of_Z (get64 b))
  | MSum => Stat_Sum (Stat_WithBytes buf)
  | MMean => Stat_Mean (Stat_WithBytes buf)
  | MVariance => Stat_Variance (Stat_WithBytes buf)
  | MMax | MMin => let! b := slice buf 0 8 in Ok (getf b)
  | MCardinality _ => let! s := Hll_WithBytes buf in Ok (f_of_Z (hll_estimate s))
  end.

(** ** Schemas and collators *)
(** schema.go:45-48; FieldSpec is its Pattern *)
Record MeasureSpec := MkMS { ms_field : bytes; ms_measures : list measure }.
(** schema.go:22-28; Filter is an empty struct *)
Record Schema := MkSchema {
  s_name : bytes; s_keys : list bytes;
  s_measures : list MeasureSpec; s_rows : list row_measure }.
(** anyWriter, contWriter, discWriter, contReader (schema.go:251-285): the
    range and the measure whose function Fn is. *)
Record range := Rg { g_low : Z; g_high : Z; g_m : measure }.
(** schema.go:145-154 *)
Record Collator := Coll {
  c_name : bytes; c_keys : list bytes;
  c_writers : list range;
  c_cont : gmap (list Z) (list range);
  c_disc : gmap (list Z) (list range);
  c_read : gmap (list Z) (gmap (list Z) range);
  c_size : Z }.
(** schema.go:18 *)
Definition RowPseudoField : bytes := str "*".

(** m[f][n] = r *)
Definition add_reader (rs : gmap (list Z) (gmap (list Z) range)) (f n : bytes) (r : range) :=
  <[f := <[n := r]> (default ∅ (rs !! f))]> rs.
Definition add_writer (ws : gmap (list Z) (list range)) (f : bytes) (r : range) :=
  <[f := (default [] (ws !! f)) ++ [r]]> ws.

(** compile.go:20-57.  The state is (collator, pos); pos and size are ints (a
    schema whose record does not fit in 2^63 bytes is not modelled). *)
Definition compile_row (st : Collator * Z) (rm : row_measure) : Collator * Z :=
  let '(c, pos) := st in
  let m := rm_measure rm in
  let size := m_size m in
  let rg := Rg pos (pos + size) m in
  (Coll (c_name c) (c_keys c) (c_writers c ++ [rg]) (c_cont c) (c_disc c)
     (if is_cont_output m then add_reader (c_read c) RowPseudoField (m_name m) rg else c_read c)
     (c_size c + size), pos + size).

(** compile.go:72: the type switch *)
Definition is_stat (m : measure) : bool :=
  match m with MCount | MSum | MMean | MVariance => true | _ => false end.
(** compile.go:64-160: one field level measure.  [stat] is Some (low, hi) once
    a stat64 range exists for this MeasureSpec. *)
Definition compile_measure (f : bytes) (st : Collator * Z * option (Z * Z)) (m : measure) : Collator * Z * option (Z * Z) :=
  let '(c, pos, stat) := st in
  let size := m_size m in
  let '(c, pos, stat) :=
    if is_cont_input m then
      let '(low, hi, skip, stat) :=
        if is_stat m then
          match stat with
          | Some (l, h) => (l, h, true, stat)
          | None => (pos, pos + size, false, Some (pos, pos + size))
          end
        else (pos, pos + size, false, stat) in
      let rg := Rg low hi m in
      (Coll (c_name c) (c_keys c) (c_writers c)
        (if skip then c_cont c else add_writer (c_cont c) f rg) (c_disc c)
        (if is_cont_output m then add_reader (c_read c) f (m_name m) rg else c_read c)
        (c_size c + size), pos + size, stat)
    else (c, pos, stat) in
  if is_disc_input m then
    let rg := Rg pos (pos + size) m in
    (Coll (c_name c) (c_keys c) (c_writers c) (c_cont c) (add_writer (c_disc c) f rg)
       (if is_cont_output m then add_reader (c_read c) f (m_name m) rg else c_read c)
       (c_size c + size), pos + size, stat)
  else (c, pos, stat).
(** compile.go:59-161: one MeasureSpec; stat64 starts false *)
Definition compile_spec (st : Collator * Z) (ms : MeasureSpec) : Collator * Z :=
  (fold_left (compile_measure (ms_field ms)) (ms_measures ms) (st, None)).1.
(** compile.go:3-165: never returns an error *)
Definition Compile (s : Schema) : Collator :=
  let c0 := Coll (s_name s) (s_keys s) [] ∅ ∅ ∅ 0 in
  let st := fold_left compile_row (s_rows s) (c0, 0) in
  (fold_left compile_spec (s_measures s) st).1.

(** ** Collator.Update
    The result is the buffer as left by the call and its status: a failing
    writer leaves earlier writes in place. *)
(** schema.go:256-258, 265-267, 274-276: run Fn on buf[Low:High] in place *)
Definition on_range (buf : bytes) (g : range) (fn : bytes → outcome bytes) : bytes * outcome unit :=
  match slice buf (g_low g) (g_high g) with
  | Ok sub =>
      match fn sub with
      | Ok sub' => (splice buf (Z.to_nat (g_low g)) sub', Ok ())
      | Err e => (buf, Err e)
      | Panic => (buf, Panic)
      end
  | _ => (buf, Panic)
  end.
(** the range loops of schema.go:164-168, 177-181, 186-190 *)
Fixpoint run_writers (buf : bytes) (gs : list range) (fn : measure → bytes → outcome bytes) : bytes * outcome unit :=
  match gs with
  | [] => (buf, Ok ())
  | g :: gs =>
      match on_range buf g (fn (g_m g)) with
      | (buf, Ok _) => run_writers buf gs fn
      | r => r
      end
  end.
(** schema.go:171-191: one field value *)
Definition update_fv (c : Collator) (buf : bytes) (init : bool) (fv : FV) : bytes * outcome unit :=
  let r :=
    match c_cont c !! fv_F fv with
    | Some ws =>
        match parse_float (fv_V fv) with
        | None => (buf, Err ErrParseFloat)
        | Some v => run_writers buf ws (λ m b, cont_write m b init v)
        end
    | None => (buf, Ok ())
    end in
  match r with
  | (buf, Ok _) =>
      match c_disc c !! fv_F fv with
      | Some ws => run_writers buf ws (λ m b, disc_write m b init (fv_V fv))
      | None => (buf, Ok ())
      end
  | r => r
  end.
Fixpoint update_fvs (c : Collator) (buf : bytes) (init : bool) (fvs : list FV) : bytes * outcome unit :=
  match fvs with
  | [] => (buf, Ok ())
  | fv :: fvs =>
      match update_fv c buf init fv with
      | (buf, Ok _) => update_fvs c buf init fvs
      | r => r
      end
  end.
(** schema.go:162-195 *)
Definition Coll_Update (c : Collator) (r : Row) (buf : bytes) (init : bool) : bytes * outcome unit :=
  match run_writers buf (c_writers c) (λ _ b, count_write b) with
  | (buf, Ok _) => update_fvs c buf init (row_data r)
  | r => r
  end.

(** ** Collator.Read *)
(** schema.go:204-216 *)
Fixpoint read_measures (buf f : bytes) (rs : gmap (list Z) range) (ms : list bytes) : outcome (list FMV) :=
  match ms with
  | [] => Ok []
  | n :: ms =>
      match rs !! n with
      | Some g =>
          let! sub := slice buf (g_low g) (g_high g) in
          let! v := cont_read (g_m g) sub in
          let! l := read_measures buf f rs ms in
          Ok (MkFMV f n v :: l)
      | None => read_measures buf f rs ms
      end
  end.
(** schema.go:198-237; on error the partial result is returned too, but every
    caller ignores it, so only the error is kept. *)
Fixpoint Coll_Read (c : Collator) (fml : list FM) (buf : bytes) : outcome (list FMV) :=
  match fml with
  | [] => Ok []
  | fm :: fml =>
      let! l := match c_read c !! fm_F fm with
                | Some rs => read_measures buf (fm_F fm) rs (fm_M fm)
                | None => Ok []
                end in
      let! l' := Coll_Read c fml buf in
      Ok (l ++ l')
  end.
End collation.
