(** Properties C99-C102: the program as a process -- from its start, through signals and
    requests at any time, to its end. *)
From Coq Require Import ZifyBool ZifyNat.
From Verif Require Import Base BaseProofs Float64 HllModel CollationModel CollationSpec CollationProofs BufmapModel BufmapSpec BufmapProofs QueryModel BufconcModel BufconcSpec ServerModel ServerSpec StoreConcModel StoreConcSpec StoreConcProps ServerConcModel ServerConcSpec ServerConcProps DemoModel ServerMixedSpec ServerMixedProps
  ProcessModel ProcessSpec ProcessProofs.
Local Open Scope Z_scope.

Section props.
Context (listen : bytes → bytes → bool).
Context (est : Counter → Z) (ff : float → bytes) (et : error → bytes) (pm : bytes → option bytes) (order : list FM → list FM).
Context (c : list (Z * Schema)) (impl : nat → Row → bool → prog) (rqs : list request).
Notation pexecution := (pexecution listen est ff et pm order c impl).
Notation can_listen addr net := (listen (network net) (address addr)).

Lemma running_gone addr h : running addr h → ¬ gone h.
Proof. intros [es ->] (e & He & Hm). apply elem_of_cons in He as [->|He]; [done|]. apply elem_of_list_In, in_map_iff in He as (e' & <- & _). done. Qed.
Lemma over_gone addr net acts p h : shape listen addr net acts p h → over (p_pc p) = true ↔ gone h.
Proof.
  intros H. unfold shape in H. split.
  - intros Ho. destruct (p_pc p) as [| | | | | | | |[]|st|s]; try done.
    + destruct H as [_ [(_ & _ & h0 & _ & ->)|[_ ->]]]; exists (PExit 0); (split; [|done]); [apply elem_of_app; right|]; right; left.
    + destruct H as (_ & h0 & _ & ->). exists (PKilled s). split; [|done]. apply elem_of_app. right. left.
  - intros Hg. destruct (p_pc p) as [| | | | | | | |[]|st|s]; try done; destruct_and?; subst; exfalso; try (by eapply running_gone); destruct Hg as (e & He & Hm); repeat (apply elem_of_cons in He as [->|He]; [done|]); by apply elem_of_nil in He.
Qed.

(** Requests are served by a server whose handlers are registered, and only after it
    has said that it listens: what happens with the requests in a run of the program is
    a run of the server that C84-C98 speak of. *)
Theorem C99_requests addr net logger acts p h : pexecution addr net logger rqs acts p h →
  (∃ vacts, vexecution est ff et pm order c impl rqs vacts (p_v p) (requests h)) ∧
  (∀ h1 e h2, h = h1 ++ PRequest e :: h2 → output h1 = [str "listening on " ++ address addr]).
Proof.
  intros Ex. split; [exact (requests_run listen est ff et pm order c impl rqs addr net logger acts p h Ex)|].
  pose proof (shape_run listen est ff et pm order c impl rqs addr net logger acts p h Ex) as H. intros h1 e h2 Eh.
  assert (∀ h0 tl, running addr h0 → h0 ++ tl = h1 ++ PRequest e :: h2 → (∀ e', PRequest e' ∉ tl) → output h1 = [str "listening on " ++ address addr]) as Hrun.
  { intros h0 tl [es ->] E Htl. destruct h1 as [|e1 h1]; [discriminate E|]. injection E as <- E. cbn. f_equal. clear -E Htl. revert es E. induction h1 as [|e1 h1 IH]; intros es E; [done|].
    destruct es as [|e2 es]; cbn in E.
    - subst tl. destruct (Htl e). right. apply elem_of_app. right. left.
    - injection E as <- E. cbn. by eapply IH. }
  unfold shape in H. assert (∀ l : list pevent, l = h1 ++ PRequest e :: h2 → PRequest e ∈ l) as Hin by (intros l ->; apply elem_of_app; right; left). specialize (Hin h Eh).
  destruct (p_pc p) as [| | | | | | | |[]|st|s]; try (destruct_and?; subst h; repeat (apply elem_of_cons in Hin as [Hin|Hin]; [discriminate Hin|]); by apply elem_of_nil in Hin).
  1-4: destruct_and?; eapply (Hrun h []); [done|by rewrite app_nil_r|]; intros e' He'; by apply elem_of_nil in He'.
  - destruct H as [_ [(_ & _ & h0 & Hr & E)|[_ E]]]; [eapply (Hrun h0); [done|by rewrite <- E|]|]; [intros e' He'|rewrite E in Hin]; [|rename Hin into He']; repeat (apply elem_of_cons in He' as [He'|He']; [discriminate He'|]); by apply elem_of_nil in He'.
  - destruct H as (_ & h0 & [->|Hr] & E); [|eapply (Hrun h0); [done|by rewrite <- E|]]; [rewrite E in Hin; rename Hin into He'|intros e' He']; repeat (apply elem_of_cons in He' as [He'|He']; [discriminate He'|]); by apply elem_of_nil in He'.
Qed.

(** ** The end of the process *)
(** The process ends by a signal, or because it cannot listen; Serve returns nil only
    after SIGINT or SIGTERM, and an error only when it cannot listen. *)
Theorem C100_ends_only addr net logger acts p h : pexecution addr net logger rqs acts p h →
  (gone h → can_listen addr net = false ∨ ∃ s, ASignal s ∈ acts) ∧
  (PReturned ServedNil ∈ h → can_listen addr net = true ∧ (ASignal SIGINT ∈ acts ∨ ASignal SIGTERM ∈ acts)) ∧
  (PReturned ListenError ∈ h → can_listen addr net = false) ∧
  (∀ s, PKilled s ∈ h → ASignal s ∈ acts).
Proof.
  intros Ex. pose proof (shape_run listen est ff et pm order c impl rqs addr net logger acts p h Ex) as H. pose proof (over_gone _ _ _ _ _ H) as Hg.
  assert (∀ e h0, running addr h0 → (∀ v, e ≠ PRequest v) → (∀ m, e ≠ PLog m) → e ∉ h0) as Hrun.
  { intros e h0 [es ->] H1 H2 He. apply elem_of_cons in He as [He|He]; [by eapply H2|]. apply elem_of_list_In, in_map_iff in He as (e' & <- & _). by eapply H1. }
  assert (∀ e h0, running addr h0 → match e with PRequest _ | PLog _ => False | _ => True end → e ∈ h0 → False) as Hrun'. { intros e h0 Hr0 He Hi. apply (Hrun e h0 Hr0); [intros v ->; done..|done]. }
  unfold shape in H. destruct (p_pc p) as [| | | | | | | |[]|st|s] eqn:Epc; cbn [over] in Hg.
  all: try (assert (∀ e, e ∈ h → match e with PRequest _ | PLog _ => True | _ => False end) as Hno by (intros e He;
    first [assert (h = []) as Eh by apply H; rewrite Eh in He; by apply elem_of_nil in He|assert (h = [PLog (str "listening on " ++ address addr)]) as Eh by apply H; rewrite Eh in He; apply elem_of_list_singleton in He as ->; exact I|
      assert (running addr h) as Hr by apply H; destruct e; try exact I; refine (Hrun' _ h Hr _ He); exact I]);
    split; [intros Hgo; apply Hg in Hgo; discriminate Hgo|]; split; [intros Hi; destruct (Hno _ Hi)|]; split; [intros Hi; destruct (Hno _ Hi)|intros s Hi; destruct (Hno _ Hi)]).
  - destruct H as [_ [(Ho & Hs & h0 & Hr & ->)|[Ho ->]]].
    + split; [intros _; right; destruct Hs; eauto|]. split; [done|]. split; [|intros s]; intros Hi; exfalso; apply elem_of_app in Hi as [Hi|Hi]; try (refine (Hrun' _ _ Hr _ Hi); exact I); repeat (apply elem_of_cons in Hi as [Hi|Hi]; [discriminate Hi|]); by apply elem_of_nil in Hi.
    + split; [by left|]. split; [|split; [done|intros s]]; intros Hi; exfalso; repeat (apply elem_of_cons in Hi as [Hi|Hi]; [discriminate Hi|]); by apply elem_of_nil in Hi.
  - destruct H as (Hs & h0 & Hr & ->). split; [eauto|].
    assert (∀ e, e ∈ h0 ++ [PKilled s] → (∀ v, e ≠ PRequest v) → (∀ m, e ≠ PLog m) → e = PKilled s) as Hk. { intros e He H1 H2. apply elem_of_app in He as [He|He]; [|by apply elem_of_list_singleton in He]. exfalso. destruct Hr as [->|Hr]; [by apply elem_of_nil in He|exact (Hrun _ _ Hr H1 H2 He)]. }
    split_and!; [intros Hi; apply Hk in Hi; discriminate..|]. intros s' Hi. apply Hk in Hi; [|discriminate..]. by injection Hi as ->.
Qed.
Section signalled.
Context (addr net : bytes) (logger : bool) (a1 a2 : list paction) (s : signal) (p : proc) (h : list pevent).
Context (Hl : can_listen addr net = true) (Hs : s = SIGINT ∨ s = SIGTERM) (H1 : no_signal a1) (Ex : pexecution addr net logger rqs (a1 ++ ASignal s :: a2) p h).
Lemma split_run : ∃ p1 e1 p2 e2 p' e3, shape listen addr net a1 p1 e1 ∧ rank (p_pc p1) = Nat.min (main_turns a1) 7 ∧ signal_step p1 s = (p2, e2) ∧ shape listen addr net (a1 ++ [ASignal s]) p2 (e1 ++ e2) ∧
  pexec listen est ff et pm order (map (λ ls : Z * Schema, Compile ls.2) c) impl rqs p2 a2 = (p', e3) ∧ p = p' ∧ h = e1 ++ e2 ++ e3.
Proof.
  destruct Ex as (gs & Hgs & E). set (p0 := at_serve _ _ _ _) in E. assert (shape listen addr net [] p0 []) as S0 by done. assert (timely listen addr net [] p0) as T0. { unfold timely. rewrite Hl. done. }
  rewrite pexec_app in E. destruct (pexec _ _ _ _ _ _ _ _ _ p0 a1) as [p1 e1] eqn:E1. cbn [pexec pstep] in E. destruct (signal_step p1 s) as [p2 e2] eqn:E2. destruct (pexec _ _ _ _ _ _ _ _ _ p2 a2) as [p3 e3] eqn:E3. injection E as <- <-.
  pose proof (shape_exec _ _ _ _ _ _ _ _ _ _ _ [] p0 [] a1 p1 e1 S0 E1) as S1. pose proof (timely_exec _ _ _ _ _ _ _ _ _ _ _ [] p0 [] a1 p1 e1 S0 T0 H1 E1) as T1. cbn [app] in S1, T1. unfold timely in T1. rewrite Hl in T1.
  exists p1, e1, p2, e2, p3, e3. split_and!; try done. exact (shape_step listen est ff et pm order c impl rqs addr net a1 p1 e1 (ASignal s) p2 e2 S1 E2).
Qed.
End signalled.

(** A SIGINT or SIGTERM ends the process, whenever the main goroutine is already waiting
    for it (it has had 7 turns) and gets another turn; or if it has not asked for
    signals yet.  Partial: not in between, see C100_lost_refuted. *)
Theorem C100_signal_ends_partial addr net logger a1 a2 s p h : can_listen addr net = true → s = SIGINT ∨ s = SIGTERM → no_signal a1 → pexecution addr net logger rqs (a1 ++ ASignal s :: a2) p h →
  (7 ≤ main_turns a1 ∧ 1 ≤ main_turns a2)%nat ∨ (main_turns a1 ≤ 5)%nat → gone h.
Proof.
  intros Hl Hs H1 Ex Ht. destruct (split_run addr net logger a1 a2 s p h Hl H1 Ex) as (p1 & e1 & p2 & e2 & p' & e3 & S1 & R1 & E2 & S2 & E3 & -> & ->).
  pose proof (shape_run listen est ff et pm order c impl rqs addr net logger _ _ _ Ex) as S. apply (over_gone addr net _ _ _ S). clear S.
  destruct Ht as [[Ht Ht2]|Ht].
  - assert (p_pc p1 = Waiting) as Ew. { destruct (p_pc p1); cbn [rank] in R1; first [lia|done]. } unfold signal_step in E2. rewrite Ew in E2. cbn [over] in E2. unfold shape in S1. rewrite Ew in S1. destruct S1 as ((_ & _ & Hn) & _). rewrite Hn in E2.
    assert (p_pc p2 = AtReturn ServedNil) as Er by (destruct Hs as [-> | ->]; by injection E2 as <- <-). clear -Er E3 Ht2. revert p2 Er e3 E3. induction a2 as [|a a2 IH]; intros p2 Er e3 E3; [cbn in Ht2; lia|].
    cbn [pexec] in E3. destruct (pstep _ _ _ _ _ _ _ _ _ p2 a) as [p3 e] eqn:Ea. destruct (pexec _ _ _ _ _ _ _ _ _ p3 a2) as [p4 e4] eqn:E4. injection E3 as <- <-.
    assert (over (p_pc p3) = true → over (p_pc p4) = true) as Hov. { intros Ho. rewrite (over_exec _ _ _ _ _ _ _ _ _ p3 a2 Ho) in E4. by injection E4 as <- <-. }
    destruct a as [|s'|a]; cbn [pstep] in Ea.
    + unfold main_step in Ea. rewrite Er in Ea. injection Ea as <- <-. by apply Hov.
    + unfold signal_step in Ea. rewrite Er in Ea. cbn [over] in Ea. destruct s'; [destruct (p_notified p2)..|]; injection Ea as <- <-; try (by apply Hov); by eapply IH.
    + assert (p_pc p3 = AtReturn ServedNil) as Er3. { unfold request_step in Ea. destruct (_ || _); [by injection Ea as <- <-|]. destruct (match a with VArrive t => _ | VStep _ => _ end) as [v vs]. by injection Ea as <- <-. } by eapply IH.
  - assert (p_notified p1 = false ∧ over (p_pc p1) = false) as [Hn Ho]. { unfold shape, flags in S1. destruct (p_pc p1); cbn [rank] in R1; try lia; destruct_and?; done. }
    unfold signal_step in E2. rewrite Ho, Hn in E2. assert (over (p_pc p2) = true) as Ho2 by (destruct Hs as [-> | ->]; by injection E2 as <- <-). rewrite (over_exec _ _ _ _ _ _ _ _ _ p2 a2 Ho2) in E3. by injection E3 as <- <-.
Qed.
(** ... but one that comes between asking for signals and waiting for them (6 turns) is
    lost: the process goes on, whatever happens, until the next signal. *)
Theorem C100_lost_refuted addr net logger a1 a2 s p h : can_listen addr net = true → s = SIGINT ∨ s = SIGTERM → no_signal a1 → no_signal a2 → main_turns a1 = 6%nat →
  pexecution addr net logger rqs (a1 ++ ASignal s :: a2) p h → ¬ gone h.
Proof.
  intros Hl Hs H1 H2 Ht Ex. destruct (split_run addr net logger a1 a2 s p h Hl H1 Ex) as (p1 & e1 & p2 & e2 & p' & e3 & S1 & R1 & E2 & S2 & E3 & -> & ->).
  pose proof (shape_run listen est ff et pm order c impl rqs addr net logger _ _ _ Ex) as S. intros Hg. apply (over_gone addr net _ _ _ S) in Hg. clear S.
  assert (p_pc p1 = AtReceive) as Ew. { rewrite Ht in R1. destruct (p_pc p1); cbn [rank] in R1; first [lia|done]. } unfold signal_step in E2. rewrite Ew in E2. cbn [over] in E2. unfold shape in S1. rewrite Ew in S1. destruct S1 as ((_ & _ & Hn) & _). rewrite Hn in E2.
  assert (p2 = p1) as -> by (destruct Hs as [-> | ->]; by injection E2 as <- <-).
  assert (timely listen addr net a1 p1) as T1. { unfold timely. rewrite Hl. by rewrite R1. }
  assert (shape listen addr net a1 p1 e1) as S1'. { unfold shape in S2 |- *. rewrite Ew in S2 |- *. destruct Hs as [-> | ->]; injection E2 as <-; by rewrite app_nil_r in S2. }
  pose proof (timely_exec _ _ _ _ _ _ _ _ _ _ _ a1 p1 e1 a2 p' e3 S1' T1 H2 E3) as T. unfold timely in T. rewrite Hl in T. destruct (p_pc p'); cbn [rank over] in T, Hg; first [discriminate|lia].
Qed.

(** ** Failure to listen *)
(** Serve returns an error exactly if it cannot listen, and before any request; *)
Theorem C101_serve_error addr net logger acts p h : no_signal acts → (3 ≤ main_turns acts)%nat → pexecution addr net logger rqs acts p h → PReturned ListenError ∈ h ↔ can_listen addr net = false.
Proof.
  intros Hn Ht Ex. split; [apply (C100_ends_only addr net logger acts p h Ex)|]. intros Hl.
  pose proof (shape_run listen est ff et pm order c impl rqs addr net logger acts p h Ex) as S. destruct Ex as (gs & Hgs & E). set (p0 := at_serve _ _ _ _) in E. assert (shape listen addr net [] p0 []) as S0 by done. assert (timely listen addr net [] p0) as T0. { unfold timely. rewrite Hl. done. }
  pose proof (timely_exec _ _ _ _ _ _ _ _ _ _ _ [] p0 [] acts p h S0 T0 Hn E) as T. cbn [app] in T. unfold timely in T. rewrite Hl in T. destruct (main_turns acts) as [|[|[|n]]]; [lia..|]. unfold shape in S. rewrite T in S. destruct S as [_ [(Hl' & _)|[_ ->]]]; [congruence|left].
Qed.
(** ... but the program does not look at it: if it cannot listen it ends with status 0,
    without having printed anything. *)
Theorem C101_silent_refuted addr net logger acts p h : can_listen addr net = false → no_signal acts → (3 ≤ main_turns acts)%nat → pexecution addr net logger rqs acts p h →
  output h = [] ∧ PExit 0 ∈ h ∧ (∀ st, PExit st ∈ h → st = 0).
Proof.
  intros Hl Hn Ht Ex. pose proof (shape_run listen est ff et pm order c impl rqs addr net logger acts p h Ex) as S. destruct Ex as (gs & Hgs & E). set (p0 := at_serve _ _ _ _) in E. assert (shape listen addr net [] p0 []) as S0 by done. assert (timely listen addr net [] p0) as T0. { unfold timely. rewrite Hl. done. }
  pose proof (timely_exec _ _ _ _ _ _ _ _ _ _ _ [] p0 [] acts p h S0 T0 Hn E) as T. cbn [app] in T. unfold timely in T. rewrite Hl in T. destruct (main_turns acts) as [|[|[|n]]]; [lia..|]. unfold shape in S. rewrite T in S. destruct S as [_ [(Hl' & _)|[_ ->]]]; [congruence|].
  split; [done|]. split; [right; left|]. intros st He. repeat (apply elem_of_cons in He as [He|He]; [first [discriminate He|by injection He]|]). by apply elem_of_nil in He.
Qed.

(** ** Requests in progress at the end *)
(** No request is answered after the process has been told to end by a signal that it
    waits for and its main goroutine has had one more turn: requests that have arrived
    and have not been answered by then never are, whatever happens. *)
Theorem C102_dropped_refuted addr net logger a1 a2 s p1 h1 p h : can_listen addr net = true → s = SIGINT ∨ s = SIGTERM → no_signal a1 → (7 ≤ main_turns a1)%nat →
  pexecution addr net logger rqs a1 p1 h1 → pexecution addr net logger rqs (a1 ++ [ASignal s; AMain] ++ a2) p h →
  requests h = requests h1 ∧ p_v p = p_v p1.
Proof.
  intros Hl Hs H1 Ht (gs & Hgs & E) (gs' & Hgs' & E').
  assert (gs' = gs) as ->. { clear -Hgs Hgs'. unfold new_stores in *. revert gs' Hgs'. induction Hgs as [|x y l k (m & Em & ->) _ IH]; intros gs' H'; inversion H' as [|? ? ? ? (m' & Em' & ->) H'']; subst; [done|]. rewrite Em in Em'. injection Em' as <-. f_equal. by apply IH. }
  set (p0 := at_serve _ _ _ _) in E, E'. assert (shape listen addr net [] p0 []) as S0 by done. assert (timely listen addr net [] p0) as T0. { unfold timely. rewrite Hl. done. }
  pose proof (timely_exec _ _ _ _ _ _ _ _ _ _ _ [] p0 [] a1 p1 h1 S0 T0 H1 E) as T. pose proof (shape_exec _ _ _ _ _ _ _ _ _ _ _ [] p0 [] a1 p1 h1 S0 E) as S. cbn [app] in T, S. unfold timely in T. rewrite Hl in T.
  assert (p_pc p1 = Waiting) as Ew. { destruct (p_pc p1); cbn [rank] in T; first [lia|done]. }
  rewrite pexec_app, E in E'. cbn [app pexec pstep] in E'. unfold signal_step at 1 in E'. rewrite Ew in E'. cbn [over] in E'. unfold shape in S. rewrite Ew in S. destruct S as ((_ & _ & Hn) & _). rewrite Hn in E'.
  assert ((let '(p2, e2) := main_step listen (set_pc p1 (AtReturn ServedNil)) in let '(p3, e3) := pexec listen est ff et pm order (map (λ ls : Z * Schema, Compile ls.2) c) impl rqs p2 a2 in (p3, h1 ++ e2 ++ e3)) = (p, h)) as E2.
  { destruct Hs as [-> | ->]; cbn [main_step set_pc p_pc] in E' |- *; destruct (pexec _ _ _ _ _ _ _ _ _ _ a2) as [p3 e3]; injection E' as <- <-; done. }
  cbn [main_step set_pc p_pc] in E2. rewrite over_exec in E2 by done. injection E2 as <- <-. split; [|done]. unfold requests. rewrite omap_app. cbn. by rewrite app_nil_r.
Qed.
End props.

(** ** The program that is shipped *)
Lemma demo_cfg_ok : cfg_ok demo_cfg.
Proof.
  unfold cfg_ok, demo_cfg. apply Forall_cons. split; [|apply Forall_cons; split; [|constructor]]; (split; [repeat constructor; simpl; lia|]); vm_compute; split_and!; congruence.
Qed.
Section shipped.
Context (listen : bytes → bytes → bool).
Context (pf : bytes → option float) (est : Counter → Z) (ff : float → bytes) (et : error → bytes) (pm : bytes → option bytes) (order : list FM → list FM).
Context (impl : nat → Row → bool → prog) (Himpl : impls_ok pf demo_cfg impl).
(** starbow.go with the collations of demo.go, in every run, signals and failing posts
    included, that has answered all requests: each of the two collations has taken the
    first rows of every post, each exactly once (see C98). *)
Theorem C99_starbow rqs acts p h rs lines whole rows i l s : Forall request_ok rqs →
  pexecution listen est ff et pm order demo_cfg impl (str ":2525") (str "tcp") true rqs acts p h → answered (p_v p) rs → brought pm rqs lines whole rows → demo_cfg !! i = Some (l, s) →
  ∃ took cut, (∀ t rq r, rqs !! t = Some rq → rs !! t = Some r → share et rq r (lines t) (whole t) (rows t) (took t) (cut t)) ∧
  ∀ k, k ≠ 0 → ∃ ord d outs, apply_all pf (Compile s) (replicate (Z.to_nat (c_size (Compile s))) 0) ord = (d, outs) ∧ (stored (p_v p) i k = Some d ∨ (stored (p_v p) i k = None ∧ ord = [])) ∧
    outs ≡ₚ map (λ r, (r, true)) (of_key s k (rows_of (λ t, take (took t) (rows t)) (seq 0 (length rqs)))) ++ map (λ r, (r, false)) (of_key s k (omap cut (seq 0 (length rqs)))) ∧
    answer est s d (str "*") (str "count") = Ok [MkFMV (str "*") (str "count") (f_of_Z (Z.of_nat (length outs) mod 2^64))].
Proof.
  intros Hrq Ex A B Li. destruct (C99_requests _ _ _ _ _ _ _ _ _ _ _ _ _ _ _ Ex) as [[vacts Hv] _].
  destruct (C98_mixed pf est ff et pm order demo_cfg impl demo_cfg_ok Himpl rqs vacts (p_v p) (requests h) rs lines whole rows i l s Hrq Hv A B Li) as (took & cut & Hsh & Hk). exists took, cut. split; [exact Hsh|].
  intros k H0. destruct (Hk k H0) as (ord & d & outs & H1 & H2 & H3 & _ & H5 & _). exists ord, d, outs. split; [exact H1|]. split; [exact H2|]. split; [exact H3|]. apply H5. destruct i as [|[|i]]; [injection Li as <- <-; discriminate..|done].
Qed.
End shipped.
Print Assumptions C99_requests.
Print Assumptions C99_starbow.
Print Assumptions C100_ends_only.
Print Assumptions C100_signal_ends_partial.
Print Assumptions C100_lost_refuted.
Print Assumptions C101_serve_error.
Print Assumptions C101_silent_refuted.
Print Assumptions C102_dropped_refuted.
