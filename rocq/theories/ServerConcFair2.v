From Coq Require Import ZifyBool ZifyNat.
From Verif Require Import Base BaseProofs Float64 FnvSpec HllModel CollationModel CollationSpec CollationProofs CollationTop CollationTop2 BufmapModel BufmapSpec RegexpModel RegexpProofs QueryModel Probe
  BufconcModel BufconcSpec BufconcInv BufconcProofs BufconcStep BufconcTop BufconcLive BufconcFair ServerModel ServerSpec ScanProofs ParseRowProofs ServerProofs StoreProofs ServerInv ServerTop StoreConcModel StoreConcSpec StoreConcProofs StoreConcTop StoreConcTop2 StoreConcTop3 StoreConcProps
  ServerConcModel ServerConcSpec ServerConcProofs ServerConcTop2 ServerFairSpec ServerConcFair.
Local Open Scope Z_scope.

Lemma bounded_mono q q' p : bounded q p → (q ≤ q')%nat → bounded q' p.
Proof.
  revert q' p. induction q as [|q IH]; intros q' p; [done|]. intros H Hle. destruct q' as [|q']; [lia|]. destruct p as [r|i g|i v g]; cbn [bounded] in *; [done| |].
  - intros v. apply IH; [done|lia].
  - apply IH; [done|lia].
Qed.
Lemma costs_mono q q' fn : costs fn q → (q ≤ q')%nat → costs fn q'.
Proof. intros [? ?] Hle. split; by eapply bounded_mono. Qed.

Section fair.
Context (pf : bytes → option float) (est : Counter → Z) (ff : float → bytes) (et : error → bytes) (pm : bytes → option bytes) (order : list FM → list FM).
Context (c : list (Z * Schema)) (impl : nat → Row → bool → prog) (Hc : cfg_ok c) (Himpl : impls_ok pf c impl) (Hfin : finite_updates impl).
Notation cs := (map (λ ls : Z * Schema, Compile ls.2) c).
Notation handle := (handle ff et pm order cs).
Notation hbound := (hbound impl).

Lemma hbound_up q q' d d' h : hbound q d h → (q ≤ q')%nat → (d ≤ d')%nat → hbound q' d' h.
Proof.
  intros H Hq Hd. apply (hbound_mono impl q' d d'); [|done]. clear d' Hd. induction H as [d r|d i sc k H1 H2 IH]; [constructor|]. constructor; [|done]. intros r E. by eapply costs_mono; [apply H1|].
Qed.
Lemma row_cost r m : ∃ q, ∀ i, (i < m)%nat → costs (impl i r) q.
Proof.
  induction m as [|m (q & IH)]; [exists 0%nat; lia|]. destruct (Hfin m r true) as [q1 H1]. destruct (Hfin m r false) as [q2 H2]. exists (q + q1 + q2)%nat. intros i Hi.
  destruct (decide (i = m)) as [->|Hne]; [split; (eapply bounded_mono; [eassumption|lia])|]. eapply costs_mono; [apply IH|]; lia.
Qed.
Lemma write_bound q d r k : (∀ i, (i < length c)%nat → costs (impl i r) q) → (∀ cx o, hbound q d (k cx o)) → ∀ cs' i cx, (i + length cs' = length c)%nat → hbound q (length cs' + d) (h_write cs' i cx r k).
Proof.
  intros Hq Hk cs'. induction cs' as [|c0 cs' IH]; intros i cx Hi; cbn [h_write]; [apply Hk|]. change (length (c0 :: cs') + d)%nat with (S (length cs' + d)). cbn in Hi.
  destruct (if (Row_KeyValue r (c_keys c0)).2 then ctx_done cx else (false, cx)) as [[] cx']; [eapply hbound_mono; [apply Hk|lia]|]. constructor; [intros r0 [= <-]; apply Hq; lia|].
  intros [[[u|e|]| |]|a]; cbv beta iota; [apply IH; lia| | | | |apply hb_ret]; (eapply hbound_mono; [apply Hk|lia]).
Qed.
Lemma lines_bound lines serr : ∃ q d, ∀ cx, hbound q d (h_lines et cs cx lines serr).
Proof.
  induction lines as [|line lines (q & d & IH)]; cbn [h_lines]; [exists 0%nat, 0%nat; constructor|]. destruct (parseRow line) as [row|e|].
  - destruct (row_cost row (length c)) as (q1 & Hq1). exists (q + q1)%nat, (length c + d)%nat. intros cx. destruct (ctx_done cx) as [[] cx']; [constructor|]. rewrite <- (map_length (λ ls : Z * Schema, Compile ls.2) c) at 1. apply write_bound; [intros i Hi; eapply costs_mono; [by apply Hq1|lia]| |by rewrite map_length].
    intros cx1 [[u|e|]| |]; try constructor. eapply hbound_up; [apply IH|lia..].
  - exists 0%nat, 0%nat. intros cx. destruct (ctx_done cx) as [[] cx']; constructor.
  - exists 0%nat, 0%nat. intros cx. destruct (ctx_done cx) as [[] cx']; constructor.
Qed.
Lemma body_bound cx r : ∃ q d, hbound q d (h_body et cs cx r).
Proof. unfold h_body. destruct (tokens r) as [[lines e]|]; [|exists 0%nat, 0%nat; constructor]. destruct (lines_bound lines e) as (q & d & H). eauto. Qed.
Lemma stores_bound name q0 : ∀ cs' i, hbound 0 1 (h_stores ff et name q0 cs' i).
Proof. induction cs' as [|c0 cs' IH]; intros i; cbn [h_stores]; [constructor|]. destruct (decide _); [|apply IH]. constructor; [done|]. intros rep. constructor. Qed.
Lemma handle_bound rq : ∃ q d, hbound q d (handle rq).
Proof.
  assert (∀ r, ∃ q d, hbound q d (HRet r)) as Hret. { intros r. exists 0%nat, 0%nat. constructor. }
  unfold ServerConcModel.handle. destruct (rq_star rq); [done|]. destruct (mux_route _ _) as [| | |rest]; [done..| |].
  - destruct (decide _); [|done]. unfold h_recv. destruct (contentType pm rq) as [ct|]; [|done]. destruct (decide _).
    + destruct (decide _); [done|]. apply body_bound.
    + destruct (decide _); [|done]. apply body_bound.
  - destruct (decide _); [done|]. destruct (decide _); [done|]. destruct (decide _); [done|]. unfold h_query. destruct (RoughParse _ _) as [q|e|]; [|done..]. exists 0%nat, 1%nat. apply stores_bound.
Qed.
Lemma handles_bound (rqs : list request) : ∃ q d, ∀ rq, rq ∈ rqs → hbound q d (handle rq).
Proof.
  induction rqs as [|rq rqs (q & d & IH)]; [exists 0%nat, 0%nat; by intros ? ?%elem_of_nil|]. destruct (handle_bound rq) as (q1 & d1 & H1). exists (q + q1)%nat, (d + d1)%nat. intros rq' [->|Hin]%elem_of_cons; (eapply hbound_up; [eauto|lia..]).
Qed.
Lemma sizes_bound (c0 : list (Z * Schema)) : ∃ R, ∀ i l s, c0 !! i = Some (l, s) → (Z.to_nat (c_size (Compile s)) + 3 ≤ R)%nat.
Proof.
  induction c0 as [|[l0 s0] c0 (R & IH)]; [by exists 0%nat|]. exists (R + (Z.to_nat (c_size (Compile s0)) + 3))%nat. intros [|i] l s L; [injection L as <- <-; lia|]. specialize (IH i l s L). lia.
Qed.
Lemma all_answered rqs : Forall request_ok rqs → ∃ N, ∀ acts rounds v h, (N ≤ length rounds)%nat → Forall (round (length rqs)) rounds →
  vexecution est ff et pm order c impl rqs (acts ++ mjoin rounds) v h → ∃ rs, answered v rs.
Proof.
  intros Hrq. destruct (handles_bound rqs) as (q & d & Hb). destruct (sizes_bound c) as (R & HR). exists (S (sum_list_with (λ _, d * K rqs R q + 2)%nat (seq 0 (length rqs)))).
  intros acts rounds v h HN HF (gs & Hg & E). set (v0 := MkV gs _) in E. pose proof (vexecution_inv pf est ff et pm order c impl Hc rqs Hrq [] v0 []) as V0.
  assert (vinv est ff et pm order c impl rqs v0 []) as V by (apply V0; by exists gs). clear V0.
  assert (total ff et pm order c impl rqs R q v0 (sum_list_with (λ _, d * K rqs R q + 2)%nat (seq 0 (length rqs)))) as HT.
  { exists (λ _, d * K rqs R q + 2)%nat. split; [|done]. intros t x Lx. apply lookup_replicate in Lx as [-> Ht]. destruct (lookup_lt_is_Some_2 rqs t Ht) as [rq Lr]. exists rq, d. split; [done|]. split; [|done]. apply Hb. by eapply elem_of_list_lookup_2. }
  rewrite vexec_app in E. destruct (vexec est ff et pm order cs impl rqs v0 acts) as [v1 e1] eqn:E1. destruct (vexec est ff et pm order cs impl rqs v1 (mjoin rounds)) as [v2 e2] eqn:E2. injection E as <- <-.
  pose proof (vexec_inv pf est ff et pm order c impl Hc rqs Hrq acts v0 [] v1 e1 V E1) as V1.
  assert (∃ F', total ff et pm order c impl rqs R q v1 F' ∧ (F' < length rounds)%nat) as (F' & HT' & HF').
  { destruct (total_exec pf est ff et pm order c impl Hc rqs Hrq R q HR acts v0 [] v1 e1 _ V HT E1) as [[-> _]|(F' & HT' & Hlt)]; eexists; (split; [done|lia]). }
  by eapply (rounds_answer pf est ff et pm order c impl Hc Himpl rqs Hrq R q HR rounds v1 _ v2 e2 F' V1 HT' HF HF' E2).
Qed.
End fair.
