(** Requests that overlap are all answered. *)
From Coq Require Import ZifyBool ZifyNat.
From Verif Require Import Base BaseProofs Float64 FnvSpec HllModel CollationModel CollationSpec CollationProofs BufmapModel BufmapSpec QueryModel
  BufconcModel BufconcSpec ServerModel ServerSpec ScanProofs ParseRowProofs ServerTop StoreConcModel StoreConcSpec StoreConcTop StoreConcProps
  ServerConcModel ServerConcSpec ServerConcProofs ServerFairSpec ServerConcFair2.
Local Open Scope Z_scope.

Section props.
Context (pf : bytes → option float) (est : Counter → Z) (ff : float → bytes) (et : error → bytes) (pm : bytes → option bytes) (order : list FM → list FM).
Context (c : list (Z * Schema)) (impl : nat → Row → bool → prog) (Hc : cfg_ok c) (Himpl : impls_ok pf c impl).
Notation cs := (map (λ ls : Z * Schema, Compile ls.2) c).
Notation handle := (handle ff et pm order cs).
Notation vexecution := (vexecution est ff et pm order c impl).
Notation runs := (runs est c).

(** ** handlers *)
Fixpoint hwait (h : handler) : Prop :=
  match h with HRet r => r ≠ Hung | HCall i sc k => ∀ s res, hwait (k (reply est (Compile s) sc res)) end.
Lemma hwait_write r k : (∀ cx o, o ≠ Hangs → hwait (k cx o)) → ∀ cs' i cx, hwait (h_write cs' i cx r k).
Proof.
  intros Hk cs'. induction cs' as [|c0 cs' IH]; intros i cx; cbn [h_write]; [by apply Hk|].
  destruct (if (Row_KeyValue r (c_keys c0)).2 then ctx_done cx else (false, cx)) as [[] cx']; [by apply Hk|]. cbn [hwait]. intros s [[b f|[u|e|]|]|]; cbn [reply]; try (by apply Hk); apply IH.
Qed.
Lemma hwait_lines lines serr : ∀ cx, hwait (h_lines et cs cx lines serr).
Proof.
  induction lines as [|line lines IH]; intros cx; cbn [h_lines]; [by destruct serr|]. destruct (ctx_done cx) as [[] cx']; [done|]. destruct (parseRow line) as [row|e|]; [|done..].
  apply hwait_write. intros cx1 [[u|e|]| |] Ho; try done.
Qed.
Lemma hwait_handle rq : hwait (handle rq).
Proof.
  assert (∀ cx r, hwait (h_body et cs cx r)) as Hbody. { intros cx r. unfold h_body. destruct (tokens_total r) as [[lines e] Et]. rewrite Et. apply hwait_lines. }
  unfold ServerConcModel.handle. destruct (rq_star rq); [done|]. destruct (mux_route _ _) as [| | |rest]; [done..| |].
  - destruct (decide _); [|done]. unfold h_recv. destruct (contentType pm rq) as [ct|]; [|done]. destruct (decide _); [by destruct (decide _)|by destruct (decide _)].
  - destruct (decide _); [done|]. destruct (decide _); [done|]. destruct (decide _); [done|]. unfold h_query. destruct (RoughParse _ _) as [q|e|]; [|done..].
    generalize 0%nat. generalize cs at 1. intros cs'. induction cs' as [|c0 cs' IH]; intros i; cbn [h_stores]; [done|]. destruct (decide _); [|apply IH]. cbn [hwait]. intros s [[b []|o|]|]; cbn [reply]; try done. by destruct (Coll_Read _ _ _ _).
Qed.
Lemma runs_wait tr : ∀ h h', runs h tr h' → hwait h → hwait h'.
Proof. induction tr as [|[[i sc] r] tr IH]; intros h h'; cbn [ServerConcProofs.runs]; [by intros ->|]. intros (l & s & k & -> & _ & Hr) Hw. eapply IH; [exact Hr|]. apply Hw. Qed.
(** the answer of a handler if no Write panics *)
Fixpoint hstat (h : handler) : Prop :=
  match h with
  | HRet r => ∃ st b, r = Resp st b
  | HCall i sc k => ∀ s res, match reply est (Compile s) sc res with AWrite (Ret Panic) | AWrite Panics | ARead _ => True | rep => hstat (k rep) end
  end.
Lemma hstat_write r k : (∀ cx o, match o with Ret (Ok _) | Ret (Err _) => hstat (k cx o) | _ => True end) → ∀ cs' i cx, hstat (h_write cs' i cx r k).
Proof.
  intros Hk cs'. induction cs' as [|c0 cs' IH]; intros i cx; cbn [h_write]; [apply (Hk cx (Ret (Ok ())))|].
  destruct (if (Row_KeyValue r (c_keys c0)).2 then ctx_done cx else (false, cx)) as [[] cx']; [apply (Hk cx' (Ret (Err ErrCtx)))|]. cbn [hstat].
  intros s [[b f|[u|e|]|]|]; cbn [reply]; try exact I; try apply IH; apply (Hk cx' (Ret (Err e))).
Qed.
Lemma hstat_lines lines serr : ∀ cx, hstat (h_lines et cs cx lines serr).
Proof.
  induction lines as [|line lines IH]; intros cx; cbn [h_lines]; [cbn; destruct serr; eauto|]. destruct (ctx_done cx) as [[] cx']; [cbn; eauto|]. pose proof (parseRow_total line) as Hp. destruct (parseRow line) as [row|e|]; [|cbn; eauto|done].
  apply hstat_write. intros cx1 [[u|e|]| |]; try done; cbn; eauto.
Qed.
Lemma hstat_post rq : rq_path rq = str "/obs" → hstat (handle rq).
Proof.
  intros Hp. assert (∀ cx r, hstat (h_body et cs cx r)) as Hbody. { intros cx r. unfold h_body. destruct (tokens_total r) as [[lines e] Et]. rewrite Et. apply hstat_lines. }
  unfold ServerConcModel.handle. destruct (rq_star rq); [cbn; eauto|]. rewrite Hp. assert (∀ b, mux_route b (str "/obs") = RObs) as -> by (intros []; reflexivity). destruct (decide _); [|cbn; eauto].
  unfold h_recv. destruct (contentType pm rq) as [ct|]; [|cbn; eauto]. destruct (decide _); [destruct (decide _); [cbn; eauto|done]|destruct (decide _); [done|cbn; eauto]].
Qed.
Lemma runs_stat tr : ∀ h h', runs h tr h' → Forall (λ x, match x with (i, CWrite r, res) => ∀ l s, c !! i = Some (l, s) → reply est (Compile s) (CWrite r) res ≠ AWrite Panics ∧ reply est (Compile s) (CWrite r) res ≠ AWrite (Ret Panic) | _ => False end) tr → hstat h → hstat h'.
Proof.
  induction tr as [|[[i sc] r] tr IH]; intros h h'; cbn [ServerConcProofs.runs]; [by intros ->|]. intros (l & s & k & -> & Lc & Hr) HF Hw. inversion_clear HF as [|? ? Hg HF']. destruct sc as [row|q]; [|done]. destruct (Hg l s Lc) as [G1 G2].
  eapply IH; [exact Hr|done|]. specialize (Hw s r). destruct r as [[b f|[u|e|]|]|]; cbn [reply] in *; done.
Qed.
(** a post only writes *)
Fixpoint writes_only (h : handler) : Prop := match h with HRet _ => True | HCall i sc k => (∃ r, sc = CWrite r) ∧ ∀ rep, writes_only (k rep) end.
Lemma writes_only_write r k : (∀ cx o, writes_only (k cx o)) → ∀ cs' i cx, writes_only (h_write cs' i cx r k).
Proof.
  intros Hk cs'. induction cs' as [|c0 cs' IH]; intros i cx; cbn [h_write]; [apply Hk|].
  destruct (if (Row_KeyValue r (c_keys c0)).2 then ctx_done cx else (false, cx)) as [[] cx']; [apply Hk|]. cbn [writes_only]. split; [eauto|]. intros [[[u|e|]| |]|a]; try apply Hk; [apply IH|done].
Qed.
Lemma writes_only_lines lines serr : ∀ cx, writes_only (h_lines et cs cx lines serr).
Proof.
  induction lines as [|line lines IH]; intros cx; cbn [h_lines]; [done|]. destruct (ctx_done cx) as [[] cx']; [done|]. destruct (parseRow line) as [row|e|]; [|done..].
  apply writes_only_write. intros cx1 [[u|e|]| |]; try done.
Qed.
Lemma writes_only_post rq : rq_path rq = str "/obs" → writes_only (handle rq).
Proof.
  intros Hp. assert (∀ cx r, writes_only (h_body et cs cx r)) as Hbody. { intros cx r. unfold h_body. destruct (tokens r) as [[lines e]|]; [apply writes_only_lines|done]. }
  unfold ServerConcModel.handle. destruct (rq_star rq); [done|]. rewrite Hp. assert (∀ b, mux_route b (str "/obs") = RObs) as -> by (intros []; reflexivity). destruct (decide _); [|done].
  unfold h_recv. destruct (contentType pm rq) as [ct|]; [|done]. destruct (decide _); [by destruct (decide _)|by destruct (decide _)].
Qed.
Lemma runs_writes tr : ∀ h h', runs h tr h' → writes_only h → Forall (λ x, ∃ i r res, x = (i, CWrite r, res)) tr.
Proof.
  induction tr as [|[[i sc] r] tr IH]; intros h h'; cbn [ServerConcProofs.runs]; [constructor|]. intros (l & s & k & -> & _ & Hr) [[row ->] Hw]. constructor; [eauto|]. eapply IH; [exact Hr|apply Hw].
Qed.

(** ** C96: every request is answered *)
(** However many requests overlap and in whatever way: there is a number of turns after
    which all of them have been answered, under every schedule in which every goroutine
    gets that many turns -- in any order, and after any beginning of the schedule.  So
    the goroutines never block each other for ever, and no reader is starved. *)
Theorem C96_all_answered rqs : Forall request_ok rqs → finite_updates impl → ∃ N, ∀ acts rounds v h, (N ≤ length rounds)%nat → Forall (round (length rqs)) rounds →
  vexecution rqs (acts ++ mjoin rounds) v h → ∃ rs, answered v rs ∧ Forall (λ r, r ≠ Hung) rs.
Proof.
  intros Hrq Hfin. destruct (all_answered pf est ff et pm order c impl Hc Himpl Hfin rqs Hrq) as [N HN]. exists N. intros acts rounds v h Hle HF Ex. destruct (HN acts rounds v h Hle HF Ex) as [rs A]. exists rs. split; [done|].
  pose proof (vexecution_inv pf est ff et pm order c impl Hc rqs Hrq _ v h Ex) as V. apply Forall_lookup. intros t r Lr.
  assert (v_reqs v !! t = Some (RAnswered r)) as Lx by (unfold answered in A; by rewrite A, list_lookup_fmap, Lr).
  assert (t < length rqs)%nat as Ht. { rewrite <- (vi_rlen _ _ _ _ _ _ _ _ _ _ V). by eapply lookup_lt_Some. } destruct (lookup_lt_is_Some_2 rqs t Ht) as [rq Lq].
  destruct (vi_req _ _ _ _ _ _ _ _ _ _ V t rq _ Lq Lx) as (Hr & _). exact (runs_wait _ _ _ Hr (hwait_handle rq)).
Qed.
(** and a post of observations is answered with a status: its connection is never just
    dropped, however the requests overlap and at every moment of a run *)
Theorem C96_posts_get_a_status rqs acts v h t rq r : Forall request_ok rqs → vexecution rqs acts v h → rqs !! t = Some rq → rq_path rq = str "/obs" → VAnswer t r ∈ h → ∃ status body, r = Resp status body.
Proof.
  intros Hrq Ex Lq Hp Hin. pose proof (vexecution_inv pf est ff et pm order c impl Hc rqs Hrq _ v h Ex) as V.
  assert (t < length (v_reqs v))%nat as Ht. { rewrite (vi_rlen _ _ _ _ _ _ _ _ _ _ V). by eapply lookup_lt_Some. } destruct (lookup_lt_is_Some_2 (v_reqs v) t Ht) as [x Lx].
  pose proof (vi_req _ _ _ _ _ _ _ _ _ _ V t rq _ Lq Lx) as Hx. assert (VAnswer t r ∈ th t h) as Hth by (by apply elem_of_list_filter).
  assert (∀ mid, store_only mid → VAnswer t r ∉ mid) as Hso. { intros mid Hs Hm. unfold store_only in Hs. rewrite Forall_forall in Hs. by specialize (Hs _ Hm). }
  assert (∀ mid, th t h = VBegin t :: mid → store_only mid → False) as Hno. { intros mid E Hs. rewrite E in Hth. apply elem_of_cons in Hth as [[=]|Hth]. by apply (Hso mid). }
  assert (runs (handle rq) (rets t h) (HRet r)) as Hr.
  { destruct x as [|hd|i k|r0].
    - destruct Hx as [E _]. rewrite E in Hth. by apply elem_of_nil in Hth.
    - destruct Hx as (_ & _ & _ & (mid & E & Hs) & _). by destruct (Hno mid).
    - destruct Hx as (sc & _ & _ & _ & (mid & E & Hs) & _). by destruct (Hno mid).
    - destruct Hx as (Hr & _ & (mid & E & Hs) & _). rewrite E in Hth. apply elem_of_cons in Hth as [[=]|Hth]. apply elem_of_app in Hth as [Hth|Hth]; [by destruct (Hso mid)|]. apply elem_of_list_singleton in Hth. injection Hth as ->. done. }
  pose proof (runs_writes _ _ _ Hr (writes_only_post rq Hp)) as HF. refine (runs_stat _ _ _ Hr _ (hstat_post rq Hp)). rewrite Forall_forall in HF. apply Forall_forall. intros y Hy. destruct (HF y Hy) as (i & row & res & ->). intros l s Lc.
  assert (SRet t (CWrite row) res ∈ proj i h) as Hret.
  { unfold rets in Hy. apply elem_of_list_omap in Hy as (e & He & Ee). apply elem_of_list_filter in He as [Et He]. destruct e as [t'|j e|t' r']; try done. destruct e as [| | | |t' sc' res']; try done. cbn in Ee, Et. injection Ee as -> -> ->. subst t'.
    unfold proj. apply elem_of_list_omap. eexists. split; [exact He|]. cbn. by rewrite decide_True. }
  destruct (vi_stores _ _ _ _ _ _ _ _ _ _ V i l s Lc) as (g & acts' & Lg & HF' & Exs). destruct (dims_at c Hc i l s Lc) as [Hs Hd].
  exact (proj2 (C84_never_panics pf est s (impl i) l Hs Hd (Himpl i l s Lc) _ acts' g _ HF' Exs) t row res Hret).
Qed.
End props.
Print Assumptions C96_all_answered.
Print Assumptions C96_posts_get_a_status.
