(** Specification of the server with any number of requests at the same time. *)
From Verif Require Import Base Float64 HllModel CollationModel CollationSpec BufmapModel BufmapSpec QueryModel BufconcModel BufconcSpec ServerModel ServerSpec ServerHomeSpec StoreConcModel StoreConcSpec ServerConcModel.
Local Open Scope Z_scope.

Section spec.
Context (pf : bytes → option float) (est : Counter → Z) (ff : float → bytes) (et : error → bytes) (pm : bytes → option bytes) (order : list FM → list FM).
Context (c : list (Z * Schema)) (impl : nat → Row → bool → prog).
(** whatever the accesses of the updates (see StoreConcSpec) *)
Definition impls_ok : Prop := ∀ i l s, c !! i = Some (l, s) → impl_ok pf s (impl i).
(** all executions of a new server, with one goroutine per request, any schedule *)
Definition new_stores (n : nat) (gs : list scfg) : Prop :=
  Forall2 (λ ls g, ∃ m, New ls.1 (c_size (Compile ls.2)) = Ok m ∧ g = MkS (MkCfg m (replicate n None)) (replicate n None)) c gs.
Definition vexecution (rqs : list request) (acts : list vaction) (v : vcfg) (h : list vevent) : Prop :=
  ∃ gs, new_stores (length rqs) gs ∧
    vexec est ff et pm order (map (λ ls, Compile ls.2) c) impl rqs (MkV gs (replicate (length rqs) RWait)) acts = (v, h).
(** every request has been answered *)
Definition answered (v : vcfg) (rs : list response) : Prop := v_reqs v = map RAnswered rs.
(** the bytes of the record of key k in the store of number i *)
Definition stored (v : vcfg) (i : nat) (k : Z) : option bytes := v_stores v !! i ≫= λ g, record (c_map (g_cfg g)) k.
(** the requests that have been answered, and those that have arrived *)
Definition finished (h : list vevent) : list nat := omap (λ e, match e with VAnswer t _ => Some t | _ => None end) h.
Definition arrived (h : list vevent) : list nat := omap (λ e, match e with VBegin t => Some t | _ => None end) h.
(** request t sends the rows [sent t]: posts are whole and answered 200; other requests send nothing *)
Definition accepted (rqs : list request) (rs : list response) (sent : nat → list Row) : Prop :=
  ∀ t rq, rqs !! t = Some rq → (rq_method rq ≠ str "POST" ∨ rq_path rq ≠ str "/obs") ∧ sent t = [] ∨
    rs !! t = Some (Resp 200 []) ∧ ∃ b ls, obs_post pm rq b ∧ text_of ls b ∧ Forall2 (λ l r, parseRow l = Ok r) ls (sent t).
(** the rows sent by some of the requests *)
Definition rows_of (sent : nat → list Row) (ts : list nat) : list Row := mjoin (map sent ts).
(** the rows with record key k *)
Definition of_key (s : Schema) (k : Z) (rows : list Row) : list Row := filter (λ r, record_key (s_keys s) (row_data r) = Some k) rows.
(** the whole record of key k can be read: whatever its slot; or it has its home slot,
    as no other key comes by there, and can be read there *)
Definition whole_readable (l : Z) (s : Schema) (k : Z) (rows : list Row) : Prop :=
  let size := c_size (Compile s) in readable l size size k ∨ (undisturbed l s k rows ∧ home_readable l size size k).
(** r is the answer to q from a record that the given rows were applied to, one after
    another (each with the flag telling whether it found a new record) -- or there is
    no record yet *)
Definition respond (q : Query) (a : outcome (list FMV)) : response :=
  match a with Ok res => Resp 200 (query_body ff q res) | Err e => http_error 500 (et e) | Panic => Aborted end.
Definition answers_from (s : Schema) (q : Query) (rows : list (bool * Row)) (r : response) : Prop :=
  (∃ buf, apply_rows pf (Compile s) (replicate (Z.to_nat (c_size (Compile s))) 0) rows = Ok buf ∧ r = respond q (Coll_Read est (Compile s) (q_fms q) buf)) ∨
  (rows = [] ∧ r = Resp 200 (query_body ff q [])).
(** before h1 was over, a post with rows selected by P, the first of them r0, had been
    answered, and no other post with such rows had arrived before that *)
Definition opened (sent : nat → list Row) (P : list Row → list Row) (h1 : list vevent) (r0 : Row) : Prop :=
  ∃ ha t0 r hb rest, h1 = ha ++ VAnswer t0 r :: hb ∧ P (sent t0) = r0 :: rest ∧ ∀ t, t ∈ arrived ha → t ≠ t0 → P (sent t) = [].
End spec.
