(** Proofs about the program as a process. *)
From Coq Require Import ZifyBool ZifyNat.
From Verif Require Import Base BaseProofs Float64 HllModel CollationModel CollationSpec BufmapModel BufmapSpec QueryModel BufconcModel BufconcSpec ServerModel ServerSpec StoreConcModel StoreConcSpec ServerConcModel ServerConcSpec ServerConcProofs ServerConcFair ProcessModel ProcessSpec.
Local Open Scope Z_scope.

Section proofs.
Context (listen : bytes → bytes → bool).
Context (est : Counter → Z) (ff : float → bytes) (et : error → bytes) (pm : bytes → option bytes) (order : list FM → list FM).
Context (c : list (Z * Schema)) (impl : nat → Row → bool → prog) (rqs : list request).
Notation cs := (map (λ ls : Z * Schema, Compile ls.2) c).
Notation pstep := (pstep listen est ff et pm order cs impl rqs).
Notation pexec := (pexec listen est ff et pm order cs impl rqs).
Notation vstep := (vstep est ff et pm order cs impl rqs).
Notation vexec := (vexec est ff et pm order cs impl rqs).

Lemma pexec_app p a b : pexec p (a ++ b) = let '(p1, e1) := pexec p a in let '(p2, e2) := pexec p1 b in (p2, e1 ++ e2).
Proof.
  revert p. induction a as [|x a IH]; intros p; cbn [app ProcessModel.pexec]; [by destruct (pexec p b)|]. destruct (pstep p x) as [p0 e0]. rewrite IH. destruct (pexec p0 a) as [p1 e1]. destruct (pexec p1 b) as [p2 e2]. by rewrite app_assoc.
Qed.
Lemma requests_app h1 h2 : requests (h1 ++ h2) = requests h1 ++ requests h2.
Proof. apply omap_app. Qed.
Lemma output_app h1 h2 : output (h1 ++ h2) = output h1 ++ output h2.
Proof. apply omap_app. Qed.
Lemma main_turns_app a b : main_turns (a ++ b) = (main_turns a + main_turns b)%nat.
Proof. unfold main_turns. by rewrite omap_app, app_length. Qed.
Lemma requests_map es : requests (map PRequest es) = es.
Proof. unfold requests. induction es as [|e es IH]; [done|]. cbn. by rewrite IH. Qed.
Lemma output_map es : output (map PRequest es) = [].
Proof. unfold output. induction es as [|e es IH]; [done|]. cbn. done. Qed.

(** what the state of the main goroutine says about the rest of the state and the history *)
Section run.
Context (addr net : bytes).
Notation ok := (listen (network net) (address addr)).
Notation msg := (PLog (str "listening on " ++ address addr)).
Definition flags (p : proc) (m a n : bool) : Prop := p_mux p = m ∧ p_accepting p = a ∧ p_notified p = n.
Definition running (h : list pevent) : Prop := ∃ es, h = msg :: map PRequest es.
Definition stop_signal (acts : list paction) : Prop := ASignal SIGINT ∈ acts ∨ ASignal SIGTERM ∈ acts.
Definition shape (acts : list paction) (p : proc) (h : list pevent) : Prop :=
  match p_pc p with
  | AtDefaults => flags p false false false ∧ p_addr p = addr ∧ p_net p = net ∧ h = []
  | AtListen => flags p false false false ∧ p_addr p = address addr ∧ p_net p = network net ∧ h = []
  | AtLog => flags p false false false ∧ p_addr p = address addr ∧ ok = true ∧ h = []
  | AtRegister => flags p false false false ∧ ok = true ∧ h = [msg]
  | AtGo => flags p true false false ∧ ok = true ∧ h = [msg]
  | AtNotify => flags p true true false ∧ ok = true ∧ running h
  | AtReceive | Waiting => flags p true true true ∧ ok = true ∧ running h
  | AtReturn ServedNil => flags p true true true ∧ ok = true ∧ running h ∧ stop_signal acts
  | AtReturn ListenError => flags p false false false ∧ ok = false ∧ h = []
  | Ended st => st = 0 ∧ ((ok = true ∧ stop_signal acts ∧ ∃ h0, running h0 ∧ h = h0 ++ [PReturned ServedNil; PExit 0]) ∨ (ok = false ∧ h = [PReturned ListenError; PExit 0]))
  | Killed s => ASignal s ∈ acts ∧ ∃ h0, (h0 = [] ∨ running h0) ∧ h = h0 ++ [PKilled s]
  end.
Lemma running_app h es : running h → running (h ++ map PRequest es).
Proof. intros [es0 ->]. exists (es0 ++ es). cbn. by rewrite map_app. Qed.
Lemma stop_app acts b : stop_signal acts → stop_signal (acts ++ b).
Proof. unfold stop_signal. rewrite !elem_of_app. naive_solver. Qed.
Lemma address_eq : (if decide (addr = []) then str ":2525" else addr) = address addr.
Proof. by destruct addr. Qed.
Lemma network_eq : (if decide (net = []) then str "tcp" else net) = network net.
Proof. by destruct net. Qed.
Lemma shape_step acts p h a p' es : shape acts p h → pstep p a = (p', es) → shape (acts ++ [a]) p' (h ++ es).
Proof.
  intros H E. destruct a as [|s|a]; cbn [ProcessModel.pstep] in E.
  - unfold main_step in E. unfold shape in H. destruct (p_pc p) as [| | | | | | | |[]|st|s] eqn:Epc; injection E as <- <-; unfold shape; cbn [p_pc set_pc].
    + destruct H as ((Hm & Ha & Hn) & -> & -> & ->). split; [done|]. split; [exact address_eq|]. split; [exact network_eq|done].
    + destruct H as (Hf & Ha & Hn & ->). rewrite Ha, Hn. destruct ok eqn:Eok; [|done]. by split_and!.
    + destruct H as (Hf & Ha & Ho & ->). rewrite Ha. by split_and!.
    + destruct H as ((Hm & Ha & Hn) & Ho & ->). done.
    + destruct H as ((Hm & Ha & Hn) & Ho & ->). split; [done|]. split; [done|]. by exists [].
    + destruct H as ((Hm & Ha & Hn) & Ho & Hr). split; [done|]. split; [done|]. by rewrite app_nil_r.
    + destruct H as (Hf & Ho & Hr). by rewrite app_nil_r.
    + destruct H as (Hf & Ho & Hr). rewrite Epc. by rewrite app_nil_r.
    + destruct H as (Hf & Ho & Hr & Hs). split; [done|]. left. split; [done|]. split; [by apply stop_app|]. by exists h.
    + destruct H as (Hf & Ho & ->). split; [done|]. by right.
    + rewrite Epc, app_nil_r. destruct H as [-> [(Ho & Hs & H)|H]]; (split; [done|]); [left|right; done]. split; [done|]. split; [by apply stop_app|done].
    + rewrite Epc, app_nil_r. destruct H as [Hs H]. split; [|done]. apply elem_of_app. by left.
  - unfold signal_step in E. destruct (over (p_pc p)) eqn:Eo.
    + injection E as <- <-. unfold shape in *. rewrite app_nil_r. destruct (p_pc p) as [| | | | | | | |[]|st|s']; try done.
      * destruct H as [-> [(Ho & Hs & H)|H]]; (split; [done|]); [left|right; done]. split; [done|]. split; [by apply stop_app|done].
      * destruct H as [Hs H]. split; [|done]. apply elem_of_app. by left.
    + assert (h = [] ∨ running h) as Hh. { unfold shape in H. destruct (p_pc p) as [| | | | | | | |[]|st|s']; try done; destruct_and?; subst; try (by left); try (by right); right; by exists []. }
      assert (shape (acts ++ [ASignal s]) (set_pc p (Killed s)) (h ++ [PKilled s])) as Hk. { unfold shape. cbn [p_pc set_pc]. split; [apply elem_of_app; right; left|]. by exists h. }
      destruct s; [..|by injection E as <- <-].
      all: destruct (p_notified p) eqn:En; [|by injection E as <- <-]; injection E as <- <-; rewrite app_nil_r; unfold shape in H |- *; destruct (p_pc p) as [| | | | | | | |[]|st|s'] eqn:Epc; cbn [p_pc set_pc]; rewrite ?Epc; try done; unfold flags in *; cbn [p_mux p_accepting p_notified set_pc]; destruct_and?; try (split_and!; try done; by apply stop_app).
      all: split_and!; try done; unfold stop_signal; rewrite !elem_of_app; (left + right); right; left.
  - unfold request_step in E. destruct (over (p_pc p)) eqn:Eo; cbn [orb] in E.
    + injection E as <- <-. unfold shape in *. rewrite app_nil_r. destruct (p_pc p) as [| | | | | | | |[]|st|s']; try done.
      * destruct H as [-> [(Ho & Hs & H)|H]]; (split; [done|]); [left|right; done]. split; [done|]. split; [by apply stop_app|done].
      * destruct H as [Hs H]. split; [|done]. apply elem_of_app. by left.
    + destruct (p_accepting p) eqn:Ea; cbn [negb] in E.
      * destruct (match a with VArrive t => _ | VStep _ => _ end) as [v vs]. injection E as <- <-. unfold shape, flags in *. cbn [p_pc p_mux p_accepting p_notified].
        destruct (p_pc p) as [| | | | | | | |[]|st|s']; try done; destruct_and?; try congruence; split_and!; try done; try (by apply running_app); by apply stop_app.
      * injection E as <- <-. unfold shape, flags in *. rewrite app_nil_r. destruct (p_pc p) as [| | | | | | | |[]|st|s']; try done; destruct_and?; congruence.
Qed.
Lemma shape_exec acts0 p h acts p' es : shape acts0 p h → pexec p acts = (p', es) → shape (acts0 ++ acts) p' (h ++ es).
Proof.
  revert acts0 p h p' es. induction acts as [|a acts IH]; intros acts0 p h p' es H E; cbn in E.
  - injection E as <- <-. by rewrite !app_nil_r.
  - destruct (pstep p a) as [p1 e1] eqn:E1. destruct (pexec p1 acts) as [p2 e2] eqn:E2. injection E as <- <-. rewrite (app_assoc h).
    change (a :: acts) with ([a] ++ acts). rewrite app_assoc. eapply IH; [|exact E2]. by eapply shape_step.
Qed.
Lemma shape_run logger acts p h : pexecution listen est ff et pm order c impl addr net logger rqs acts p h → shape acts p h.
Proof.
  intros (gs & _ & E). change h with ([] ++ h). change acts with ([] ++ acts). eapply shape_exec; [|exact E]. done.
Qed.
(** requests: when they are served the mux is there *)
Lemma requests_step acts p h a p' es : shape acts p h → pstep p a = (p', es) → ∃ vacts, vexec (p_v p) vacts = (p_v p', requests es).
Proof.
  intros H E. destruct a as [|s|a]; cbn [ProcessModel.pstep] in E.
  - exists []. unfold main_step in E. destruct (p_pc p); injection E as <- <-; done.
  - exists []. unfold signal_step in E. destruct (over (p_pc p)); [by injection E as <- <-|]. destruct s; [destruct (p_notified p); [destruct (p_pc p)|]..|]; injection E as <- <-; done.
  - unfold request_step in E. destruct (over (p_pc p)) eqn:Eo; cbn [orb] in E; [exists []; by injection E as <- <-|]. destruct (p_accepting p) eqn:Ea; cbn [negb] in E; [|exists []; by injection E as <- <-].
    assert (p_mux p = true) as Hm. { unfold shape, flags in H. destruct (p_pc p) as [| | | | | | | |[]|st|s']; try done; destruct_and?; congruence. }
    rewrite Hm in E. exists [a]. cbn [ServerConcModel.vexec].
    assert ((let '(v, es0) := vstep (p_v p) a in (MkP (p_pc p) (p_addr p) (p_net p) (p_logger p) true true (p_notified p) v, map PRequest es0)) = (p', es)) as E' by (rewrite <- E; by destruct a).
    destruct (vstep (p_v p) a) as [v vs]. injection E' as <- <-. cbn [p_v]. by rewrite requests_map, app_nil_r.
Qed.
Lemma requests_exec acts0 p h acts p' es : shape acts0 p h → pexec p acts = (p', es) → ∃ vacts, vexec (p_v p) vacts = (p_v p', requests es).
Proof.
  revert acts0 p h p' es. induction acts as [|a acts IH]; intros acts0 p h p' es H E; cbn in E.
  - injection E as <- <-. by exists [].
  - destruct (pstep p a) as [p1 e1] eqn:E1. destruct (pexec p1 acts) as [p2 e2] eqn:E2. injection E as <- <-. destruct (requests_step _ _ _ _ _ _ H E1) as [va Hva]. destruct (IH _ _ _ _ _ (shape_step _ _ _ _ _ _ H E1) E2) as [vb Hvb].
    exists (va ++ vb). rewrite vexec_app, Hva, Hvb. by rewrite requests_app.
Qed.
Lemma requests_run logger acts p h : pexecution listen est ff et pm order c impl addr net logger rqs acts p h → ∃ vacts, vexecution est ff et pm order c impl rqs vacts (p_v p) (requests h).
Proof.
  intros (gs & Hgs & E). assert (shape [] (at_serve addr net logger (MkV gs (replicate (length rqs) RWait))) []) as H0 by done.
  destruct (requests_exec _ _ _ _ _ _ H0 E) as [va Hva]. exists va. by exists gs.
Qed.

(** how far the main goroutine has come, without signals *)
Definition rank (pc : main_pc) : nat := match pc with AtDefaults => 0 | AtListen => 1 | AtLog => 2 | AtRegister => 3 | AtGo => 4 | AtNotify => 5 | AtReceive => 6 | Waiting => 7 | _ => 10 end.
Definition timely (acts : list paction) (p : proc) : Prop :=
  if ok then rank (p_pc p) = Nat.min (main_turns acts) 7 else p_pc p = match main_turns acts with 0%nat => AtDefaults | 1%nat => AtListen | 2%nat => AtReturn ListenError | _ => Ended 0 end.
Lemma timely_step acts h p a p' es : shape acts p h → timely acts p → (∀ s, a ≠ ASignal s) → pstep p a = (p', es) → timely (acts ++ [a]) p'.
Proof.
  intros H T Hs E. unfold timely in *. rewrite main_turns_app. destruct a as [|s|a]; cbn [ProcessModel.pstep] in E; [|by destruct (Hs s)|].
  - change (main_turns [AMain]) with 1%nat. rewrite Nat.add_1_r. unfold main_step in E. unfold shape in H. destruct ok eqn:Eok.
    + destruct (p_pc p) as [| | | | | | | |r|st|s] eqn:Epc; injection E as <- <-; cbn [p_pc set_pc rank] in T |- *; rewrite ?Epc; cbn [rank]; try lia. destruct H as (_ & -> & -> & _). rewrite Eok. cbn [rank]. lia.
    + rewrite T in H, E. destruct (main_turns acts) as [|[|[|n]]]; injection E as <- <-; try done. cbn [p_pc set_pc]. destruct H as (_ & -> & -> & _). by rewrite Eok.
  - change (main_turns [ARequest a]) with 0%nat. rewrite Nat.add_0_r. assert (p_pc p' = p_pc p) as ->; [|done]. unfold request_step in E. destruct (_ || _); [by injection E as <- <-|]. destruct (match a with VArrive t => _ | VStep _ => _ end) as [v vs]. by injection E as <- <-.
Qed.
Lemma no_signal_app a b : no_signal (a ++ b) → no_signal a ∧ no_signal b.
Proof. unfold no_signal. intros H. split; intros s Hs; apply (H s), elem_of_app; auto. Qed.
Lemma timely_exec acts0 p h acts p' es : shape acts0 p h → timely acts0 p → no_signal acts → pexec p acts = (p', es) → timely (acts0 ++ acts) p'.
Proof.
  revert acts0 p h p' es. induction acts as [|a acts IH]; intros acts0 p h p' es H T Hn E; cbn in E.
  - injection E as <- <-. by rewrite app_nil_r.
  - destruct (pstep p a) as [p1 e1] eqn:E1. destruct (pexec p1 acts) as [p2 e2] eqn:E2. injection E as <- <-. change (a :: acts) with ([a] ++ acts) in Hn |- *. apply no_signal_app in Hn as [Ha Hn]. rewrite app_assoc.
    eapply IH; [by eapply shape_step| |done|exact E2]. eapply timely_step; [done..| |exact E1]. intros s ->. apply (Ha s). left.
Qed.
(** once the process is over nothing happens any more *)
Lemma over_exec p acts : over (p_pc p) = true → pexec p acts = (p, []).
Proof.
  intros Ho. induction acts as [|a acts IH]; [done|]. cbn. assert (pstep p a = (p, [])) as ->; [|by rewrite IH].
  destruct a as [|s|a]; cbn [ProcessModel.pstep]; unfold main_step, signal_step, request_step; rewrite ?Ho; try done. by destruct (p_pc p).
Qed.
End run.
End proofs.
