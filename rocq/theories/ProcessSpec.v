(** Specification of the program as a process. *)
From Verif Require Import Base Float64 HllModel CollationModel CollationSpec BufmapModel BufmapSpec QueryModel BufconcModel BufconcSpec ServerModel ServerSpec StoreConcModel StoreConcSpec ServerConcModel ServerConcSpec ProcessModel.
Local Open Scope Z_scope.

Section spec.
Context (listen : bytes → bytes → bool).
Context (est : Counter → Z) (ff : float → bytes) (et : error → bytes) (pm : bytes → option bytes) (order : list FM → list FM).
Context (c : list (Z * Schema)) (impl : nat → Row → bool → prog).
(** all runs of a process that calls Serve on a server with these fields and
    collations: any interleaving of the main goroutine, of signals and of requests *)
Definition pexecution (addr net : bytes) (logger : bool) (rqs : list request) (acts : list paction) (p : proc) (h : list pevent) : Prop :=
  ∃ gs, new_stores c (length rqs) gs ∧
    pexec listen est ff et pm order (map (λ ls, Compile ls.2) c) impl rqs (at_serve addr net logger (MkV gs (replicate (length rqs) RWait))) acts = (p, h).
(** what happened with requests *)
Definition requests (h : list pevent) : list vevent := omap (λ e, match e with PRequest e => Some e | _ => None end) h.
(** the process has ended: main returned, or a signal killed it *)
Definition gone (h : list pevent) : Prop := ∃ e, e ∈ h ∧ match e with PExit _ | PKilled _ => True | _ => False end.
(** what the process printed *)
Definition output (h : list pevent) : list bytes := omap (λ e, match e with PLog m => Some m | _ => None end) h.
(** no signals among the actions *)
Definition no_signal (acts : list paction) : Prop := ∀ s, ASignal s ∉ acts.
(** turns of the main goroutine *)
Definition main_turns (acts : list paction) : nat := length (omap (λ a, match a with AMain => Some () | _ => None end) acts).
(** the address that is listened on: the fields, with their defaults *)
Definition address (addr : bytes) : bytes := match addr with [] => str ":2525" | _ => addr end.
Definition network (net : bytes) : bytes := match net with [] => str "tcp" | _ => net end.
End spec.
