(** Specification of runs of the server in which posts may fail half way. *)
From Verif Require Import Base Float64 HllModel CollationModel CollationSpec BufmapModel BufmapSpec QueryModel BufconcModel BufconcSpec ServerModel ServerSpec ServerHomeSpec StoreConcModel StoreConcSpec ServerConcModel ServerConcSpec.
Local Open Scope Z_scope.

Section spec.
Context (pf : bytes → option float) (ff : float → bytes) (et : error → bytes) (pm : bytes → option bytes).
(** rows applied to a record one after another, also when some cannot be applied
    completely: what the record becomes, and of each row whether its update succeeded *)
Fixpoint apply_all (cl : Collator) (d : bytes) (rows : list (bool * Row)) : bytes * list (Row * bool) :=
  match rows with
  | [] => (d, [])
  | (init, r) :: rows =>
      let '(d1, o) := Coll_Update pf cl r d init in
      let '(d2, l) := apply_all cl d1 rows in
      (d2, (r, match o with Ok _ => true | _ => false end) :: l)
  end.
(** the lines that reach the server with a request: those of the text of a POST to
    /obs, of a body that arrives completely or breaks off (e), from a client that
    stays or goes away; up to the first line that is too long.  Other requests carry
    none.  [whole]: those are all the lines, and the body did not break off. *)
Definition lines_before (b : bytes) (ls : list bytes) (whole : bool) : Prop :=
  if whole then text_of ls b ∧ short_lines b else
  ∃ b1 long rest, b = b1 ++ long ++ rest ∧ text_of ls b1 ∧ (b1 = [] ∨ last b1 = Some 10) ∧ short_lines b1 ∧ 10 ∉ long ∧ line_limit < Z.of_nat (length long).
Definition to_obs (rq : request) : Prop := rq_method rq = str "POST" ∧ rq_path rq = str "/obs" ∧ rq_star rq = false.
Definition by_form (rq : request) : Prop := contentType pm rq = Some (str "application/x-www-form-urlencoded").
Definition by_body (rq : request) : Prop := contentType pm rq ∈ [Some (str "text/plain"); Some (str "application/octet-stream")].
Inductive carries (rq : request) : list bytes → bool → Prop :=
  | ca_none : ¬ (to_obs rq ∧ (by_form rq ∨ by_body rq)) → carries rq [] true
  | ca_form ls w : to_obs rq → by_form rq → lines_before (rq_form rq (str "data")) ls w → carries rq ls w
  | ca_body ls w b : to_obs rq → by_body rq → yields (rq_body rq) b ErrEOF → lines_before b ls w → carries rq ls w
  | ca_broken ls w b : to_obs rq → by_body rq → yields (rq_body rq) b ErrRead → lines_before b ls w → carries rq ls false.
(** the rows on the first lines, up to the first line that is not a row *)
Inductive leading : list bytes → list Row → Prop :=
  | ld_nil : leading [] []
  | ld_stop l ls : (∀ r, parseRow l ≠ Ok r) → leading (l :: ls) []
  | ld_row l r ls rows : parseRow l = Ok r → leading ls rows → leading (l :: ls) (r :: rows).
(** request t carries the lines [lines t], with the rows [rows t] on the first of them *)
Definition brought (rqs : list request) (lines : nat → list bytes) (whole : nat → bool) (rows : nat → list Row) : Prop :=
  ∀ t rq, rqs !! t = Some rq → carries rq (lines t) (whole t) ∧ leading (lines t) (rows t).
(** Of the rows of a request, a collation takes the first [took] and then perhaps
    part of the next one, [cut]: then the request is answered with an error.  A
    client that stays and is answered 200 has sent whole lines, all of them rows, and
    has had all its rows taken. *)
Definition share (rq : request) (resp : response) (lines : list bytes) (whole : bool) (rows : list Row) (took : nat) (cut : option Row) : Prop :=
  (took ≤ length rows)%nat ∧
  (∀ r, cut = Some r → rows !! took = Some r ∧ ∃ e, resp = http_error 500 (et e)) ∧
  (resp = Resp 200 [] → rq_ctx rq = None → whole = true ∧ Forall2 (λ l r, parseRow l = Ok r) lines rows ∧ took = length rows).
(** the rows that a request leaves something of in the collation *)
Definition touched (rows : nat → list Row) (took : nat → nat) (cut : nat → option Row) (t : nat) : list Row :=
  take (took t) (rows t) ++ match cut t with Some r => [r] | None => [] end.
End spec.
