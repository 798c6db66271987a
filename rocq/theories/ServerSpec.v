(** Specification of the server: lines of a body, text rows, batches. *)
From Verif Require Import Base Float64 HllModel CollationModel CollationSpec BufmapModel BufmapSpec QueryModel ServerModel.
Local Open Scope Z_scope.

(** ** Bodies *)
(** what a reader yields: all its bytes, then io.EOF or a failure, in any
    fragmentation (reads of (0, nil) excluded) *)
Inductive yields : reader → bytes → error → Prop :=
  | y_nil : yields [] [] ErrEOF
  | y_eof c r : yields (EvDataEOF c :: r) c ErrEOF
  | y_err r : yields (EvErr :: r) [] ErrRead
  | y_data c r l e : c ≠ [] → yields r l e → yields (EvData c :: r) (c ++ l) e.

(** the text of lines: each line followed by LF or CR LF, the last one possibly
    by nothing (then it must not be empty) *)
Definition no_cr_end (l : bytes) : Prop := last l ≠ Some 13.
Inductive text_of : list bytes → bytes → Prop :=
  | tx_nil : text_of [] []
  | tx_last l : l ≠ [] → 10 ∉ l → no_cr_end l → text_of [l] l
  | tx_last_cr l : 10 ∉ l → text_of [l] (l ++ [13])
  | tx_lf l ls b : 10 ∉ l → no_cr_end l → text_of ls b → text_of (l :: ls) (l ++ [10] ++ b)
  | tx_crlf l ls b : 10 ∉ l → text_of ls b → text_of (l :: ls) (l ++ [13; 10] ++ b).

(** bufio's limit *)
Definition line_limit : Z := 65536.
(** all stretches between line feeds are shorter than the limit *)
Definition short_lines (b : bytes) : Prop := ∀ x y z, b = x ++ y ++ z → 10 ∉ y → Z.of_nat (length y) < line_limit.

(** the last line is unterminated and has exactly as many bytes as the limit *)
Definition edge_body (b : bytes) : Prop := ∃ pre seg, b = pre ++ seg ∧ (pre = [] ∨ last pre = Some 10) ∧ 10 ∉ seg ∧ Z.of_nat (length seg) = line_limit.

(** ** Rows as text *)
(** decimal digits and their value *)
Definition is_digit (c : Z) : Prop := 48 ≤ c ≤ 57.
Fixpoint decimal (ds : bytes) (v : Z) : Prop :=   (* most significant first *)
  match ds with
  | [] => v = 0
  | d :: ds => ∃ v', decimal ds v' ∧ is_digit d ∧ v = (d - 48) * 10 ^ Z.of_nat (length ds) + v'
  end.
(** name=value *)
Definition fv_text (fv : FV) : bytes := fv_F fv ++ str "=" ++ fv_V fv.
(** items separated by a delimiter byte *)
Fixpoint joined (d : Z) (items : list bytes) : bytes :=
  match items with
  | [] => []
  | [x] => x
  | x :: items => x ++ [d] ++ joined d items
  end.

(** ** Batches *)
Section spec.
Context (pf : bytes → option float) (est : Counter → Z) (ff : float → bytes) (et : error → bytes) (pm : bytes → option bytes) (order : list FM → list FM).
(** a store takes a row without complaint *)
Definition store_takes (r : Row) (st st' : Store) : Prop := Store_Write pf None st r = (st', None, Ret (Ok ())).
(** a line is a row and every store takes it *)
Definition line_accepted (sts : list Store) (line : bytes) (sts' : list Store) : Prop :=
  ∃ r, parseRow line = Ok r ∧ Forall2 (store_takes r) sts sts'.
Inductive lines_accepted : list Store → list bytes → list Store → Prop :=
  | la_nil sts : lines_accepted sts [] sts
  | la_cons sts line sts1 lines sts' : line_accepted sts line sts1 → lines_accepted sts1 lines sts' → lines_accepted sts (line :: lines) sts'.
(** a line that is not accepted: it is not a row, and nothing changes; or it is
    a row that the stores before some store take, that store does not, and the
    stores behind it do not see *)
Inductive line_refused (sts : list Store) (line : bytes) : list Store → Prop :=
  | lr_parse e : parseRow line = Err e → line_refused sts line sts
  | lr_store r a st b a' st' res : parseRow line = Ok r → sts = a ++ st :: b → Forall2 (store_takes r) a a' →
      Store_Write pf None st r = (st', None, res) → res ≠ Ret (Ok ()) → line_refused sts line (a' ++ st' :: b).

(** ** Requests *)
(** POST /obs with the text b, whole, and a client that stays *)
Definition obs_post (rq : request) (b : bytes) : Prop :=
  rq_method rq = str "POST" ∧ rq_path rq = str "/obs" ∧ rq_star rq = false ∧ rq_ctx rq = None ∧ short_lines b ∧
  ((contentType pm rq = Some (str "application/x-www-form-urlencoded") ∧ rq_form rq (str "data") = b ∧ b ≠ []) ∨
   (contentType pm rq ∈ [Some (str "text/plain"); Some (str "application/octet-stream")] ∧ yields (rq_body rq) b ErrEOF)).
(** a query of a collation *)
Definition coll_query (rq : request) (name q : bytes) : Prop :=
  rq_method rq ∈ [str "GET"; str "POST"] ∧ rq_path rq = str "/collation/" ++ name ∧ rq_star rq = false ∧ rq_form rq (str "q") = q.
(** names that reach their collation: a path element that cleaning leaves alone *)
Definition plain_name (name : bytes) : Prop := name ≠ [] ∧ 47 ∉ name ∧ name ≠ str "." ∧ name ≠ str "..".

(** ** Servers: one collation per (slots, schema), as addDemoCollation builds them *)
Definition initial (c : list (Z * Schema)) (sts : list Store) : Prop := Forall2 (λ ls st, add_collation ls.1 ls.2 = Ok st) c sts.
Definition cfg_ok (c : list (Z * Schema)) : Prop := Forall (λ ls, schema_ok ls.2 ∧ dims_ok ls.1 (c_size (Compile ls.2))) c.
(** the bytes of a request are bytes *)
Definition request_ok (rq : request) : Prop :=
  Forall (λ ev, match ev with EvData b | EvDataEOF b => is_bytes b | EvErr => True end) (rq_body rq) ∧ ∀ n, is_bytes (rq_form rq n).
Notation serve := (ServeHTTP pf est ff et pm order).
Notation serve_all := (serve_all pf est ff et pm order).
(** the states a server can be in *)
Definition served (c : list (Z * Schema)) (sts : list Store) : Prop :=
  ∃ sts0 rqs rs, initial c sts0 ∧ Forall request_ok rqs ∧ serve_all sts0 rqs = (sts, rs).

(** the rows posted by a list of requests: those of whole posts that were
    answered 200; requests that are not POSTs to /obs post nothing *)
Inductive posted : list request → list response → list Row → Prop :=
  | po_nil : posted [] [] []
  | po_post rq b ls new rqs rs rows : obs_post rq b → text_of ls b → Forall2 (λ l r, parseRow l = Ok r) ls new → posted rqs rs rows →
      posted (rq :: rqs) (Resp 200 [] :: rs) (new ++ rows)
  | po_other rq r rqs rs rows : rq_method rq ≠ str "POST" ∨ rq_path rq ≠ str "/obs" → posted rqs rs rows → posted (rq :: rqs) (r :: rs) rows.
(** the rows whose key fields have the values asked for *)
Definition matching (keys : list bytes) (crit : list FV) (rows : list Row) : list Row :=
  filter (λ r, Forall (λ k, value_of k (row_data r) = value_of k crit) keys) rows.
End spec.
(** a row matches the criteria of a query on the key fields *)
Definition same_key (keys : list bytes) (crit : list FV) (r : Row) : Prop := Forall (λ k, value_of k (row_data r) = value_of k crit) keys.
(** no row with other key values has the same 64 bit record key *)
Definition no_collision (keys : list bytes) (crit : list FV) (rows : list Row) : Prop :=
  ∀ r, r ∈ rows → record_key keys (row_data r) = record_key keys crit → same_key keys crit r.
(** the first n bytes of a record of key k, in a map of l slots of the given
    size, can be read wherever the record was put (see C33 and C34) *)
Definition readable (l size n k : Z) : Prop := n ≤ k mod l ∧ k mod l + 10 < l ∧ (k mod l + 10) * (size + 1) ≤ l * size.
(** (l, s) is the first collation of that name *)
Definition installed (c : list (Z * Schema)) (l : Z) (s : Schema) : Prop :=
  ∃ a b, c = a ++ (l, s) :: b ∧ Forall (λ ls, s_name ls.2 ≠ s_name s) a.
