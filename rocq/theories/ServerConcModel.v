(** Model of /repo/internal/server/server.go serving any number of requests at the
    same time: net/http runs the handler of every request in a goroutine of its own,
    and all of them share the stores (server.go:73-78, 186, 285).  The handlers of
    ServerModel, cut at their calls of the stores: what they do in between -- routing,
    reading and parsing the request, composing the answer -- touches nothing shared.
    Inside the calls of the stores, StoreConcModel interleaves the goroutines at every
    shared access.  Not modelled: connections (requests of one connection come one
    after the other: those are some of the schedules here). *)
From Verif Require Import Base Float64 HllModel CollationModel BufmapModel RegexpModel QueryModel BufconcModel ServerModel StoreConcModel.
Local Open Scope Z_scope.

(** a handler up to its next call of a store: the answer, or the number of the
    store, the call, and what happens with its result *)
Inductive handler := HRet (r : response) | HCall (i : nat) (sc : scall) (k : sreply → handler).

Section conc.
Context (est : Counter → Z) (ff : float → bytes) (et : error → bytes) (pm : bytes → option bytes) (order : list FM → list FM).
(** the collations of the stores, in the order of s.Stores, and the accesses that the
    update of a record makes in each (see StoreConcModel) *)
Context (cs : list Collator) (impl : nat → Row → bool → prog).

(** server.go:186-191 with storage.go:26-30: the look at ctx.Done() happens only when
    the row has the key fields of the store.  [i] is the number of the first of [cs]. *)
Fixpoint h_write (cs : list Collator) (i : nat) (cx : ctx) (r : Row) (k : ctx → call (outcome unit) → handler) : handler :=
  match cs with
  | [] => k cx (Ret (Ok ()))
  | c :: cs =>
      let '(done, cx) := if (Row_KeyValue r (c_keys c)).2 then ctx_done cx else (false, cx) in
      if done then k cx (Ret (Err ErrCtx))
      else HCall i (CWrite r) (λ rep,
        match rep with
        | AWrite (Ret (Ok _)) => h_write cs (S i) cx r k
        | AWrite o => k cx o
        | ARead _ => HRet Aborted   (* never: a Write returns no result of a Read *)
        end)
  end.
(** server.go:170-196 *)
Fixpoint h_lines (cx : ctx) (lines : list bytes) (serr : option error) : handler :=
  match lines with
  | [] => HRet (match serr with Some e => http_error 500 (et e) | None => Resp 200 [] end)
  | line :: lines =>
      let '(done, cx) := ctx_done cx in
      if done then HRet (Resp 200 [])
      else match parseRow line with
      | Err e => HRet (http_error 500 (et e))
      | Panic => HRet Aborted
      | Ok row =>
          h_write cs 0 cx row (λ cx o,
            match o with
            | Ret (Ok _) => h_lines cx lines serr
            | Ret (Err e) => HRet (http_error 500 (et e))
            | Ret Panic | Panics => HRet Aborted
            | Hangs => HRet Hung
            end)
      end
  end.
(** server.go:168-196 *)
Definition h_body (cx : ctx) (r : reader) : handler :=
  match tokens r with
  | Some (lines, e) => h_lines cx lines e
  | None => HRet Hung
  end.
(** server.go:144-197 *)
Definition h_recv (rq : request) : handler :=
  match contentType pm rq with
  | None => HRet (http_error 400 (et ErrUser))
  | Some ct =>
      if decide (ct = str "application/x-www-form-urlencoded") then
        let data := rq_form rq (str "data") in
        if decide (data = []) then HRet (http_error 400 (str "no data supplied"))
        else h_body (rq_ctx rq) [EvData data]
      else if decide (ct = str "text/plain" ∨ ct = str "application/octet-stream") then h_body (rq_ctx rq) (rq_body rq)
      else HRet (http_error 415 (str "unknown media type"))
  end.
(** server.go:285-308 *)
Fixpoint h_stores (cname : bytes) (q : Query) (cs : list Collator) (i : nat) : handler :=
  match cs with
  | [] => HRet not_found
  | c :: cs =>
      if decide (c_name c = cname) then
        HCall i (CRead q) (λ rep, HRet
          match rep with
          | ARead (Ret (Ok res)) => Resp 200 (query_body ff q res)
          | ARead (Ret (Err e)) => http_error 500 (et e)
          | ARead (Ret Panic) | ARead Panics => Aborted
          | ARead Hangs => Hung
          | AWrite _ => Aborted   (* never *)
          end)
      else h_stores cname q cs (S i)
  end.
(** server.go:276-309 *)
Definition h_query (cname : bytes) (rq : request) : handler :=
  match RoughParse order (rq_form rq (str "q")) with
  | Err e => HRet (http_error 400 (et e))
  | Panic => HRet Aborted
  | Ok q => h_stores cname q cs 0
  end.
(** server.go:105-141 and 311-316 *)
Definition handle (rq : request) : handler :=
  if rq_star rq then HRet (Resp 400 [])
  else match mux_route (bool_decide (rq_method rq = str "CONNECT")) (rq_path rq) with
  | RRedirect => HRet (Resp 301 [])
  | RNotFound => HRet not_found
  | RObs =>
      if decide (rq_method rq = str "POST") then h_recv rq
      else HRet (http_error 405 (str "method not allowed"))
  | RColl path =>
      if decide (path = []) then HRet not_found
      else if decide (47 ∈ path) then HRet not_found
      else if decide (rq_method rq ≠ str "POST" ∧ rq_method rq ≠ str "GET") then HRet (http_error 405 (str "method not allowed"))
      else h_query path rq
  end.

(** where the handling of a request is: not begun, between calls, inside a call of
    store i, or over *)
Inductive rstate := RWait | RRun (h : handler) | RIn (i : nat) (k : sreply → handler) | RAnswered (r : response).
(** request number t is served by goroutine t *)
Record vcfg := MkV { v_stores : list scfg; v_reqs : list rstate }.
Inductive vaction := VArrive (t : nat) | VStep (t : nat).
(** what happens: requests arrive and are answered; in between, events of the stores *)
Inductive vevent := VBegin (t : nat) | VStore (i : nat) (e : sevent) | VAnswer (t : nat) (r : response).
(** the return among the events of a step of a store, if any *)
Definition returned (es : list sevent) : option (scall * option res) :=
  head (omap (λ e, match e with SRet _ sc r => Some (sc, r) | _ => None end) es).
Definition after (c : Collator) (i : nat) (k : sreply → handler) (es : list sevent) : rstate :=
  match returned es with Some (sc, r) => RRun (k (reply est c sc r)) | None => RIn i k end.
(** one step of store i by goroutine t *)
Definition store_step (v : vcfg) (t i : nat) (a : saction) (k : sreply → handler) : vcfg * list vevent :=
  match v_stores v !! i, cs !! i with
  | Some g, Some c =>
      let '(g', es) := sstep c (impl i) g a in
      (MkV (<[i := g']> (v_stores v)) (<[t := after c i k es]> (v_reqs v)), map (VStore i) es)
  | _, _ => (v, [])
  end.
Definition vstep (rqs : list request) (v : vcfg) (a : vaction) : vcfg * list vevent :=
  match a with
  | VArrive t =>
      match v_reqs v !! t, rqs !! t with
      | Some RWait, Some rq => (MkV (v_stores v) (<[t := RRun (handle rq)]> (v_reqs v)), [VBegin t])
      | _, _ => (v, [])
      end
  | VStep t =>
      match v_reqs v !! t with
      | Some (RRun (HRet r)) => (MkV (v_stores v) (<[t := RAnswered r]> (v_reqs v)), [VAnswer t r])
      | Some (RRun (HCall i sc k)) => store_step v t i (SCall t sc) k
      | Some (RIn i k) => store_step v t i (SStep t) k
      | _ => (v, [])
      end
  end.
Fixpoint vexec (rqs : list request) (v : vcfg) (l : list vaction) : vcfg * list vevent :=
  match l with
  | [] => (v, [])
  | a :: l => let '(v, e1) := vstep rqs v a in let '(v, e2) := vexec rqs v l in (v, e1 ++ e2)
  end.
End conc.
