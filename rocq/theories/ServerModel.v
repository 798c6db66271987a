(** Model of /repo/internal/storage/storage.go and /repo/internal/server/server.go,
    with the parts of the Go standard library they lean on (bufio.Scanner,
    http.ServeMux).  One request at a time; BufmapConc* cover interleavings. *)
From Verif Require Import Base Float64 HllModel CollationModel BufmapModel RegexpModel QueryModel.
Local Open Scope Z_scope.

(** ** context.Context
    [Some n]: alive for the next n looks at Done(), cancelled afterwards for
    ever; [None]: never cancelled. *)
Definition ctx := option nat.
Definition ctx_done (c : ctx) : bool * ctx :=
  match c with
  | None => (false, None)
  | Some O => (true, Some O)
  | Some (S n) => (false, Some n)
  end.

(** ** bufio.Scanner with the default ScanLines split function
    (Go standard library, bufio/scan.go), used at server.go:169-170. *)
(** bytes.IndexByte *)
Fixpoint index_byte (l : bytes) (c : Z) : option nat :=
  match l with
  | [] => None
  | b :: l => if b =? c then Some O else option_map S (index_byte l c)
  end.
(** dropCR *)
Definition drop_cr (l : bytes) : bytes :=
  match last l with Some 13 => removelast l | _ => l end.
(** ScanLines: (advance, token) *)
Definition scan_lines (data : bytes) (at_eof : bool) : nat * option bytes :=
  if at_eof && (length data =? 0)%nat then (O, None)
  else match index_byte data 10 with
       | Some i => (S i, Some (drop_cr (take i data)))
       | None => if at_eof then (length data, Some (drop_cr data)) else (O, None)
       end.
(** The scanner: len(buf), start, buf[start:end] and the error met, if any. *)
Record scanner := Scanner { sc_len : nat; sc_start : nat; sc_data : bytes; sc_err : option error; sc_rd : reader }.
Definition NewScanner (r : reader) : scanner := Scanner 0 0 [] None r.
Definition max_token : nat := Z.to_nat 65536.       (* bufio.MaxScanTokenSize *)
Definition start_buf : nat := Z.to_nat 4096.        (* startBufSize *)
Definition max_empty_reads : nat := 100.   (* maxConsecutiveEmptyReads *)
(** the inner read loop: calls Read with a buffer of [k] bytes until it gets
    data or an error; gives up after more than 100 empty reads.  io.ErrNoProgress
    is represented by ErrRead. *)
Fixpoint fill (n k : nat) (rd : reader) : bytes * option error * reader :=
  let '(d, e, rd') := read k rd in
  match e with
  | Some _ => (d, e, rd')
  | None =>
      match d with
      | [] => match n with O => ([], Some ErrRead, rd') | S n => fill n k rd' end
      | _ => (d, None, rd')
      end
  end.
(** one iteration of the loop in Scan.  [inl sc]: go round again; [inr (Some t,
    sc)]: Scan returns true with token t; [inr (None, sc)]: Scan returns false.
    ScanLines never returns an error and never advances too far, and a token with
    the error set always advances, so those checks of Scan never fire. *)
Definition scan_step (sc : scanner) : scanner + (option bytes * scanner) :=
  let has_err := match sc_err sc with Some _ => true | None => false end in
  let '(adv, tok) := if (0 <? length (sc_data sc))%nat || has_err then scan_lines (sc_data sc) has_err else (O, None) in
  match tok with
  | Some t => inr (Some t, Scanner (sc_len sc) (sc_start sc + adv) (drop adv (sc_data sc)) (sc_err sc) (sc_rd sc))
  | None =>
      if has_err then inr (None, Scanner (sc_len sc) 0 [] (sc_err sc) (sc_rd sc))
      else
        let stop := (sc_start sc + length (sc_data sc))%nat in
        let start := if (0 <? sc_start sc)%nat && ((stop =? sc_len sc)%nat || (sc_len sc / 2 <? sc_start sc)%nat) then O else sc_start sc in
        let stop := (start + length (sc_data sc))%nat in
        let full := (stop =? sc_len sc)%nat in
        if full && (max_token <=? sc_len sc)%nat then inr (None, Scanner (sc_len sc) start (sc_data sc) (Some ErrTooLong) (sc_rd sc))
        else
          let '(len, start) :=
            if full then (Nat.min (if (sc_len sc =? 0)%nat then start_buf else 2 * sc_len sc) max_token, O)%nat else (sc_len sc, start) in
          let '(d, e, rd) := fill max_empty_reads (len - (start + length (sc_data sc))) (sc_rd sc) in
          inl (Scanner len start (sc_data sc ++ d) e rd)
  end.
(** Scan called until it returns false: the tokens and Err() at the end (io.EOF
    is reported as nil).  What the caller does with a token does not influence
    the scanner, so the whole list can be computed first.  [n] bounds the number
    of iterations; tokens_fuel suffices (ServerProofs.tokens_total). *)
Definition scan_error (e : option error) : option error := match e with Some ErrEOF => None | e => e end.
Fixpoint tokens_loop (n : nat) (sc : scanner) : option (list bytes * option error) :=
  match n with
  | O => None
  | S n =>
      match scan_step sc with
      | inl sc => tokens_loop n sc
      | inr (Some t, sc) => option_map (λ '(ts, e), (t :: ts, e)) (tokens_loop n sc)
      | inr (None, sc) => Some ([], scan_error (sc_err sc))
      end
  end.
(** two iterations per byte or event, and some more *)
Definition event_size (e : event) : nat := match e with EvData c | EvDataEOF c => S (length c) | EvErr => 1%nat end.
Definition tokens_fuel (r : reader) : nat := (3 * sum_list_with event_size r + 10)%nat.
Definition tokens (r : reader) : option (list bytes * option error) := tokens_loop (tokens_fuel r) (NewScanner r).

(** ** server.go:261-273 *)
Definition parseFV (data : bytes) : FV :=
  match index_byte data 61 with
  | None => MkFV data []
  | Some eq => MkFV (take eq data) (drop (eq + 1) data)
  end.
(** server.go:218-222: [n] is pmax - p *)
Fixpoint ts_loop (data : bytes) (p n : nat) : outcome nat :=
  match n with
  | O => Ok p
  | S n =>
      let! b := index data (Z.of_nat p) in
      if (b <? 48) || (57 <? b) then Ok p else ts_loop data (S p) n
  end.
(** strconv.Atoi on a string of decimal digits *)
Definition digits_value (l : bytes) : Z := fold_left (λ acc b, 10 * acc + (b - 48)) l 0.
Definition Atoi (l : bytes) : outcome Z :=
  let v := digits_value l in if v <? 2^63 then Ok v else Err ErrAtoi.
(** server.go:247-256; every round advances by at least one byte, so [fuel]
    beyond the length of the data is never used up *)
Fixpoint fields_loop (fuel : nat) (data : bytes) (p : Z) (delim : Z) : outcome (list FV) :=
  match fuel with
  | O => Panic
  | S fuel =>
      let! rest := slice data p (Z.of_nat (length data)) in
      match index_byte rest delim with
      | None => Ok [parseFV rest]
      | Some off =>
          let! f := slice data p (p + Z.of_nat off) in
          let! l := fields_loop fuel data (p + Z.of_nat off + 1) delim in
          Ok (parseFV f :: l)
      end
  end.
(** server.go:210-259.  The result keeps the time in nanoseconds, as time.Unix
    (0, ts*1000) does, with the wrap-around of the multiplication. *)
Definition parseRow (data : bytes) : outcome Row :=
  let pmax := Nat.min 20 (length data) in
  let! p := ts_loop data 0 pmax in
  if (p =? 0)%nat then Err ErrNoTimestamp
  else
    let! digits := slice data 0 (Z.of_nat p) in
    let! ts := Atoi digits in
    let time := s64 (ts * 1000) in
    if (p =? length data)%nat then Ok (MkRow time [])
    else
      let! delim := index data (Z.of_nat p) in
      let! fvs := fields_loop (S (length data)) data (Z.of_nat p + 1) delim in
      Ok (MkRow time fvs).

(** ** http.ServeMux (net/http/server.go) with the two patterns of server.go:105-141 *)
(** path.Clean of a rooted path, then the trailing slash restored (cleanPath) *)
Fixpoint split_on (c : Z) (l : bytes) : list bytes :=
  match l with
  | [] => [[]]
  | b :: l =>
      match split_on c l with
      | [] => [[b]]   (* never: split_on is not empty *)
      | w :: ws => if b =? c then [] :: w :: ws else (b :: w) :: ws
      end
  end.
Definition clean_step (stack : list bytes) (w : bytes) : list bytes :=
  if decide (w = [] ∨ w = str ".") then stack
  else if decide (w = str "..") then tail stack
  else w :: stack.
Definition path_clean (p : bytes) : bytes :=
  match rev (fold_left clean_step (split_on 47 p) []) with
  | [] => str "/"
  | ws => mjoin (map (λ w, str "/" ++ w) ws)
  end.
Definition clean_path (p : bytes) : bytes :=
  match p with
  | [] => str "/"
  | c :: _ =>
      let p := if c =? 47 then p else 47 :: p in
      let np := path_clean p in
      if bool_decide (last p = Some 47) && bool_decide (np ≠ str "/") then np ++ str "/" else np
  end.
(** strings.HasPrefix / TrimPrefix *)
Fixpoint strip_prefix (pre l : bytes) : option bytes :=
  match pre, l with
  | [], l => Some l
  | a :: pre, b :: l => if a =? b then strip_prefix pre l else None
  | _ :: _, [] => None
  end.
(** What the mux does with a request path: answer 301, answer 404, or run the
    handler of /obs, or that of /collation/ on the rest of the path.  URL.RawPath
    is taken to be empty (no unusual percent-encoding). *)
Inductive route := RRedirect | RNotFound | RObs | RColl (rest : bytes).
Definition mux_route (connect : bool) (path : bytes) : route :=
  let p := if connect then path else clean_path path in
  if decide (p = str "/collation") then RRedirect       (* redirectToPathSlash *)
  else if decide (p ≠ path) then RRedirect              (* path was not clean *)
  else if decide (p = str "/obs") then RObs
  else match strip_prefix (str "/collation/") p with
       | Some rest => RColl rest
       | None => RNotFound
       end.

(** ** Storage and server *)
Section server.
(** strconv.ParseFloat, (hll.Counter).Count, fmt's %v of a float64, the text of
    an error, mime.ParseMediaType (None: error) and the order in which RoughParse
    ranges over its map: the model is for all of them.  The text of an error is
    taken to depend on its kind only. *)
Context (parse_float : bytes → option float) (hll_estimate : Counter → Z) (fmt_float : float → bytes)
  (error_text : error → bytes) (parse_media : bytes → option bytes) (order : list FM → list FM).

(** storage.go:21-24 with the backend demo.go:57 installs *)
Record Store := MkStore { st_map : Map; st_coll : Collator }.
(** storage.go:65-72: Transaction.Do *)
Definition transaction (c : Collator) (r : Row) : update_fn := λ data init, Coll_Update parse_float c r data init.
(** storage.go:26-45 *)
Definition Store_Write (cx : ctx) (st : Store) (r : Row) : Store * ctx * call (outcome unit) :=
  let '(key, found) := Row_KeyValue r (c_keys (st_coll st)) in
  if negb found then (st, cx, Ret (Ok ()))
  else
    let '(done, cx) := ctx_done cx in
    if done then (st, cx, Ret (Err ErrCtx))
    else
      let '(m, res) := Update (st_map st) key (transaction (st_coll st) r) in
      (MkStore m (st_coll st), cx, res).
(** storage.go:47-63; the result is the list Result.FieldMeasureValues *)
Definition Store_Read (st : Store) (q : Query) : call (outcome (list FMV)) :=
  let '(key, found) := Query_KeyValue q (c_keys (st_coll st)) in
  if negb found then Ret (Ok [])
  else
    match Get (st_map st) key (replicate (Z.to_nat (c_size (st_coll st))) 0) with
    | Ret None => Ret (Ok [])
    | Ret (Some buf) =>
        match Coll_Read hll_estimate (st_coll st) (q_fms q) buf with
        | Panic => Panics
        | r => Ret r
        end
    | Panics => Panics
    | Hangs => Hangs
    end.

(** What the client sees: a status and a body; a connection closed without
    answer (net/http recovers a panic of a handler and drops the connection); or
    no answer ever. *)
Inductive response := Resp (status : Z) (body : bytes) | Aborted | Hung.
(** http.Error, http.NotFound *)
Definition http_error (status : Z) (msg : bytes) : response := Resp status (msg ++ [10]).
Definition not_found : response := http_error 404 (str "404 page not found").

(** server.go:186-191 *)
Fixpoint write_stores (cx : ctx) (sts : list Store) (r : Row) : list Store * ctx * call (outcome unit) :=
  match sts with
  | [] => ([], cx, Ret (Ok ()))
  | st :: sts =>
      match Store_Write cx st r with
      | (st, cx, Ret (Ok _)) => let '(sts, cx, res) := write_stores cx sts r in (st :: sts, cx, res)
      | (st, cx, res) => (st :: sts, cx, res)
      end
  end.
(** server.go:170-196 on the lines of the body *)
Fixpoint recv_lines (cx : ctx) (sts : list Store) (lines : list bytes) (serr : option error) : list Store * response :=
  match lines with
  | [] => (sts, match serr with Some e => http_error 500 (error_text e) | None => Resp 200 [] end)
  | line :: lines =>
      let '(done, cx) := ctx_done cx in
      if done then (sts, Resp 200 [])
      else match parseRow line with
      | Err e => (sts, http_error 500 (error_text e))
      | Panic => (sts, Aborted)
      | Ok row =>
          match write_stores cx sts row with
          | (sts, cx, Ret (Ok _)) => recv_lines cx sts lines serr
          | (sts, _, Ret (Err e)) => (sts, http_error 500 (error_text e))
          | (sts, _, Ret Panic) | (sts, _, Panics) => (sts, Aborted)
          | (sts, _, Hangs) => (sts, Hung)
          end
      end
  end.

(** A request.  [rq_star]: the request target is "*".  [rq_ctype]: the first
    Content-Type header or the empty string.  [rq_form]: what FormValue returns
    for a name (parsing of the URL query and of form bodies is not modelled). *)
Record request := MkRequest {
  rq_method : bytes; rq_path : bytes; rq_star : bool; rq_ctype : bytes;
  rq_form : bytes → bytes; rq_body : reader; rq_ctx : ctx }.

(** server.go:199-207 *)
Definition contentType (rq : request) : option bytes :=
  if decide (rq_ctype rq = []) then Some (str "application/octet-stream") else parse_media (rq_ctype rq).
(** server.go:168-196 *)
Definition recv_body (cx : ctx) (sts : list Store) (r : reader) : list Store * response :=
  match tokens r with
  | Some (lines, e) => recv_lines cx sts lines e
  | None => (sts, Hung)   (* never: tokens_total *)
  end.
(** server.go:144-197 *)
Definition recvObservation (sts : list Store) (rq : request) : list Store * response :=
  match contentType rq with
  | None => (sts, http_error 400 (error_text ErrUser))
  | Some ct =>
      if decide (ct = str "application/x-www-form-urlencoded") then
        let data := rq_form rq (str "data") in
        if decide (data = []) then (sts, http_error 400 (str "no data supplied"))
        else recv_body (rq_ctx rq) sts [EvData data]      (* strings.NewReader *)
      else if decide (ct = str "text/plain" ∨ ct = str "application/octet-stream") then recv_body (rq_ctx rq) sts (rq_body rq)
      else (sts, http_error 415 (str "unknown media type"))
  end.

(** schema.go:137-139 *)
Definition FMV_String (f : FMV) : bytes := r_M f ++ str "(" ++ r_F f ++ str ")=" ++ fmt_float (r_V f).
(** server.go:293-303 *)
Definition query_body (q : Query) (res : list FMV) : bytes :=
  mjoin (map (λ c, fv_F c ++ [61] ++ fv_V c ++ [10]) (q_crit q)) ++ mjoin (map (λ f, FMV_String f ++ [10]) res).
(** server.go:285-308 *)
Fixpoint query_stores (cname : bytes) (q : Query) (sts : list Store) : response :=
  match sts with
  | [] => not_found
  | st :: sts =>
      if decide (c_name (st_coll st) = cname) then
        match Store_Read st q with
        | Ret (Ok res) => Resp 200 (query_body q res)
        | Ret (Err e) => http_error 500 (error_text e)
        | Ret Panic | Panics => Aborted
        | Hangs => Hung
        end
      else query_stores cname q sts
  end.
(** server.go:276-309 *)
Definition queryCollation (cname : bytes) (sts : list Store) (rq : request) : list Store * response :=
  match RoughParse order (rq_form rq (str "q")) with
  | Err e => (sts, http_error 400 (error_text e))
  | Panic => (sts, Aborted)
  | Ok q => (sts, query_stores cname q sts)
  end.

(** server.go:105-141 and 311-316: one request.  The body of a redirect is not modelled. *)
Definition ServeHTTP (sts : list Store) (rq : request) : list Store * response :=
  if rq_star rq then (sts, Resp 400 [])
  else match mux_route (bool_decide (rq_method rq = str "CONNECT")) (rq_path rq) with
  | RRedirect => (sts, Resp 301 [])
  | RNotFound => (sts, not_found)
  | RObs =>
      if decide (rq_method rq = str "POST") then recvObservation sts rq
      else (sts, http_error 405 (str "method not allowed"))
  | RColl path =>
      if decide (path = []) then (sts, not_found)
      else if decide (47 ∈ path) then (sts, not_found)
      else if decide (rq_method rq ≠ str "POST" ∧ rq_method rq ≠ str "GET") then (sts, http_error 405 (str "method not allowed"))
      else queryCollation path sts rq
  end.
(** any number of requests, one after the other *)
Fixpoint serve_all (sts : list Store) (rqs : list request) : list Store * list response :=
  match rqs with
  | [] => (sts, [])
  | rq :: rqs => let '(sts, r) := ServeHTTP sts rq in let '(sts, rs) := serve_all sts rqs in (sts, r :: rs)
  end.
(** demo.go:50-63 with the number of slots as a parameter; demo.go:57 has 5000 *)
Definition add_collation (slots : Z) (s : Schema) : outcome Store :=
  let! m := New slots (c_size (Compile s)) in Ok (MkStore m (Compile s)).
End server.
