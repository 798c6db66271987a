(** Model of the program from its start to its end: /repo/starbow.go,
    /repo/internal/server/server.go:40-96 (New, Serve, waitSignal) and 311-316
    (ServeHTTP), with the requests of ServerConcModel served in between.
    The main goroutine runs statement by statement; operating system signals and the
    goroutines of requests come in between at any point.
    Simplified: net.Listen succeeds or fails, given its arguments; hs.Serve accepts
    connections for as long as the process lives (its result is ignored,
    server.go:78); of the signals, the two that the program asks for and SIGHUP, which
    ends a Go program that does not ask for it; log output is the text of the message
    without its time stamp. *)
From Verif Require Import Base Float64 HllModel CollationModel BufmapModel QueryModel BufconcModel ServerModel StoreConcModel ServerConcModel DemoModel.
Local Open Scope Z_scope.

Inductive signal := SIGINT | SIGTERM | SIGHUP.
(** what Serve returns *)
Inductive serve_result := ServedNil | ListenError.
(** the next statement of the main goroutine *)
Inductive main_pc :=
  | AtDefaults                  (* server.go:51-61 *)
  | AtListen                    (* server.go:63-66 *)
  | AtLog                       (* server.go:67 *)
  | AtRegister                  (* server.go:69-71, 105-141 *)
  | AtGo                        (* server.go:73-78 *)
  | AtNotify                    (* server.go:87-88, with make(chan os.Signal): no buffer *)
  | AtReceive                   (* server.go:91, about to receive *)
  | Waiting                     (* server.go:91, waiting for a sender *)
  | AtReturn (r : serve_result) (* server.go:65, 81 and starbow.go:14 *)
  | Ended (status : Z)          (* main has returned *)
  | Killed (s : signal).        (* ended by a signal *)
(** the fields of server.Server (server.go:30-37) other than Stores, and whether they
    have been set; whether the accepting goroutine runs; whether signals are sent to
    the channel; the requests and the stores *)
Record proc := MkP { p_pc : main_pc; p_addr : bytes; p_net : bytes; p_logger : bool; p_mux : bool; p_accepting : bool; p_notified : bool; p_v : vcfg }.
Inductive paction := AMain | ASignal (s : signal) | ARequest (a : vaction).
Inductive pevent := PLog (msg : bytes) | PReturned (r : serve_result) | PExit (status : Z) | PKilled (s : signal) | PRequest (e : vevent).
Definition over (pc : main_pc) : bool := match pc with Ended _ | Killed _ => true | _ => false end.

Section process.
Context (listen : bytes → bytes → bool).
Context (est : Counter → Z) (ff : float → bytes) (et : error → bytes) (pm : bytes → option bytes) (order : list FM → list FM).
Context (cs : list Collator) (impl : nat → Row → bool → prog) (rqs : list request).

Definition set_pc (p : proc) (pc : main_pc) : proc := MkP pc (p_addr p) (p_net p) (p_logger p) (p_mux p) (p_accepting p) (p_notified p) (p_v p).
(** the next statement of main and Serve *)
Definition main_step (p : proc) : proc * list pevent :=
  match p_pc p with
  | AtDefaults =>
      (MkP AtListen (if decide (p_addr p = []) then str ":2525" else p_addr p) (if decide (p_net p = []) then str "tcp" else p_net p) true (p_mux p) (p_accepting p) (p_notified p) (p_v p), [])
  | AtListen => (set_pc p (if listen (p_net p) (p_addr p) then AtLog else AtReturn ListenError), [])
  | AtLog => (set_pc p AtRegister, [PLog (str "listening on " ++ p_addr p)])
  | AtRegister => (MkP AtGo (p_addr p) (p_net p) (p_logger p) true (p_accepting p) (p_notified p) (p_v p), [])
  | AtGo => (MkP AtNotify (p_addr p) (p_net p) (p_logger p) (p_mux p) true (p_notified p) (p_v p), [])
  | AtNotify => (MkP AtReceive (p_addr p) (p_net p) (p_logger p) (p_mux p) (p_accepting p) true (p_v p), [])
  | AtReceive => (set_pc p Waiting, [])
  | Waiting => (p, [])
  | AtReturn r => (set_pc p (Ended 0), [PReturned r; PExit 0])   (* starbow.go:14-15: the result is not looked at *)
  | Ended _ | Killed _ => (p, [])
  end.
(** os/signal: before Notify, a signal has its default action and ends the process;
    after Notify it is sent to the channel without blocking, so that it is dropped
    unless a receiver waits.  server.go:91-96: both signals break the loop. *)
Definition signal_step (p : proc) (s : signal) : proc * list pevent :=
  if over (p_pc p) then (p, [])
  else match s with
  | SIGHUP => (set_pc p (Killed s), [PKilled s])
  | SIGINT | SIGTERM =>
      if p_notified p then (match p_pc p with Waiting => set_pc p (AtReturn ServedNil) | _ => p end, [])
      else (set_pc p (Killed s), [PKilled s])
  end.
(** a step of a request.  server.go:311-316: without a mux ServeHTTP panics (a call of
    a method of a nil *http.ServeMux) *)
Definition request_step (p : proc) (a : vaction) : proc * list pevent :=
  if over (p_pc p) || negb (p_accepting p) then (p, [])
  else
    let '(v, es) :=
      match a, p_mux p with
      | VArrive t, false =>
          match v_reqs (p_v p) !! t with
          | Some RWait => (MkV (v_stores (p_v p)) (<[t := RRun (HRet Aborted)]> (v_reqs (p_v p))), [VBegin t])
          | _ => (p_v p, [])
          end
      | _, _ => vstep est ff et pm order cs impl rqs (p_v p) a
      end in
    (MkP (p_pc p) (p_addr p) (p_net p) (p_logger p) (p_mux p) (p_accepting p) (p_notified p) v, map PRequest es).
Definition pstep (p : proc) (a : paction) : proc * list pevent :=
  match a with AMain => main_step p | ASignal s => signal_step p s | ARequest a => request_step p a end.
Fixpoint pexec (p : proc) (l : list paction) : proc * list pevent :=
  match l with
  | [] => (p, [])
  | a :: l => let '(p, e1) := pstep p a in let '(p, e2) := pexec p l in (p, e1 ++ e2)
  end.
End process.

(** server.go:40-47: New; with fields changed by the caller before Serve *)
Definition at_serve (addr net : bytes) (logger : bool) (v : vcfg) : proc := MkP AtDefaults addr net logger false false false v.
(** starbow.go:9-15 with demo.go:10-63: New's fields, and the two collations of the demo *)
Definition demo_cfg : list (Z * Schema) := [(demo_slots, country_schema); (demo_slots, tz_schema)].
Definition at_main (v : vcfg) : proc := at_serve (str ":2525") (str "tcp") true v.
