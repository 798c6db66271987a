From Coq Require Import ZifyBool ZifyNat.
From Verif Require Import Base BaseProofs Float64 FnvModel FnvSpec FnvProofs HllModel CollationModel CollationSpec CollationProofs CollationTop CollationTop2
  BufmapModel BufmapSpec BufmapProofs BufmapTop QueryModel ServerModel ServerSpec ScanProofs ParseRowProofs ServerProofs StoreProofs.
Local Open Scope Z_scope.

(** ** the lines of a body of bytes are bytes *)
Definition ev_ok (ev : event) : Prop := match ev with EvData b | EvDataEOF b => is_bytes b | EvErr => True end.
Lemma read_bytes k r d e r' : Forall ev_ok r → read k r = (d, e, r') → is_bytes d ∧ Forall ev_ok r'.
Proof.
  intros H. destruct H as [|ev r He H]; cbn [read]; [intros [= <- <- <-]; split; constructor|].
  destruct ev as [c|c|]; cbn [ev_ok] in He.
  - destruct (length c <=? k)%nat; intros [= <- <- <-]; [done|]. split; [by apply Forall_take|]. constructor; [by apply Forall_drop|done].
  - destruct (length c <=? k)%nat; intros [= <- <- <-]; [split; [done|constructor]|]. split; [by apply Forall_take|]. constructor; [by apply Forall_drop|done].
  - intros [= <- <- <-]. split; [constructor|]. by constructor.
Qed.
Lemma fill_bytes n k r d e r' : Forall ev_ok r → fill n k r = (d, e, r') → is_bytes d ∧ Forall ev_ok r'.
Proof.
  revert r. induction n as [|n IH]; intros r H; cbn [fill]; destruct (read k r) as [[d1 e1] r1] eqn:E; destruct (read_bytes _ _ _ _ _ H E) as [H1 H2].
  - destruct e1; [intros [= <- <- <-]; done|]. destruct d1; intros [= <- <- <-]; done.
  - destruct e1; [intros [= <- <- <-]; done|]. destruct d1; [by apply IH|]. intros [= <- <- <-]; done.
Qed.
Lemma drop_cr_bytes l : is_bytes l → is_bytes (drop_cr l).
Proof.
  intros H. unfold drop_cr. assert (is_bytes (removelast l)) as Hr. { induction H as [|b l Hb H IH]; [constructor|]. destruct l; [constructor|]. cbn [removelast]. by constructor. }
  destruct (last l) as [z|]; [|done]. repeat (case_match; try done).
Qed.
Lemma tokens_loop_bytes n : ∀ sc ts e, sc_wf sc → Forall ev_ok (sc_rd sc) → is_bytes (sc_data sc) → tokens_loop n sc = Some (ts, e) → Forall is_bytes ts.
Proof.
  induction n as [|n IH]; intros sc ts e W Hr Hd; [done|]. cbn [tokens_loop]. destruct (scan_step_case sc W) as [C H].
  destruct C as [sc' d e' rd He Hno (fn & k & Hk & Hf) Ed Ee Er|sc' seg rest' Hs Ed Ed' Ee Er|sc' e' He Hne Hno Ed' Ee Er|sc' e' He Ed Ee|sc' He Hno Hlen Ee].
  - destruct H as [W' _]. destruct (fill_bytes _ _ _ _ _ _ Hr Hf) as [H1 H2]. apply IH; [done|by rewrite Er|]. rewrite Ed. by apply Forall_app.
  - destruct H as [W' _]. rewrite Ed in Hd. apply Forall_app in Hd as [Hd1 Hd2]. inversion_clear Hd2 as [|? ? _ Hd3].
    destruct (tokens_loop n sc') as [[ts' x]|] eqn:E; [|done]. cbn. intros [= <- <-]. constructor; [by apply drop_cr_bytes|]. eapply IH; [done|by rewrite Er|by rewrite Ed'|done].
  - destruct H as [W' _]. destruct (tokens_loop n sc') as [[ts' x]|] eqn:E; [|done]. cbn. intros [= <- <-]. constructor; [by apply drop_cr_bytes|].
    eapply IH; [done|by rewrite Er|rewrite Ed'; constructor|done].
  - intros [= <- <-]. constructor.
  - intros [= <- <-]. constructor.
Qed.
Lemma tokens_bytes r ts e : Forall ev_ok r → tokens r = Some (ts, e) → Forall is_bytes ts.
Proof. intros H. apply tokens_loop_bytes; cbn; [split; cbn; unfold max_token; lia|done|constructor]. Qed.

Section inv.
Context (pf : bytes → option float) (est : Counter → Z) (ff : float → bytes) (et : error → bytes) (pm : bytes → option bytes) (order : list FM → list FM).
Definition srv_inv (c : list (Z * Schema)) (sts : list Store) : Prop := Forall2 (λ ls st, store_inv pf ls.1 ls.2 st) c sts.
Lemma initial_inv c sts : cfg_ok c → initial c sts → srv_inv c sts.
Proof.
  intros Hc Hi. induction Hi as [|ls st c sts H Hi IH]; [constructor|]. inversion_clear Hc as [|? ? [H1 H2] Hc']. constructor; [|by apply IH].
  by destruct (add_collation_inv pf _ _ _ H1 H2 H).
Qed.
Definition answered (r : response) : Prop := ∃ st b, r = Resp st b.
Lemma http_error_answered st m : answered (http_error st m).
Proof. unfold http_error. by do 2 eexists. Qed.
Lemma write_stores_inv c r : cfg_ok c → row_ok r → ∀ sts cx sts' cx' res, srv_inv c sts → write_stores pf cx sts r = (sts', cx', res) →
  srv_inv c sts' ∧ ∃ o, res = Ret o ∧ o ≠ Panic.
Proof.
  intros Hc Hr. induction Hc as [|ls c [H1 H2] Hc IH]; intros sts cx sts' cx' res Hi; inversion_clear Hi as [|? st ? sts0 Hst Hi']; cbn [write_stores].
  - intros [= <- <- <-]. split; [constructor|by eexists].
  - destruct (Store_Write pf cx st r) as [[st1 cx1] res1] eqn:E1. destruct (Store_Write_inv pf _ _ _ _ _ _ _ _ H1 Hst Hr E1) as (Hst1 & o & -> & Ho).
    destruct o as [[]|e|]; [| |done].
    + destruct (write_stores pf cx1 sts0 r) as [[sts2 cx2] res2] eqn:E2. intros [= <- <- <-]. destruct (IH _ _ _ _ _ Hi' E2) as [? ?]. split; [by constructor|done].
    + intros [= <- <- <-]. split; [by constructor|by eexists].
Qed.
Lemma recv_lines_inv c lines serr : cfg_ok c → Forall is_bytes lines → ∀ cx sts sts' resp, srv_inv c sts → recv_lines pf et cx sts lines serr = (sts', resp) →
  srv_inv c sts' ∧ answered resp.
Proof.
  intros Hc Hb. induction Hb as [|line lines Hl Hb IH]; intros cx sts sts' resp Hi; cbn [recv_lines].
  - intros [= <- <-]. split; [done|]. destruct serr; [apply http_error_answered|by do 2 eexists].
  - destruct (ctx_done cx) as [dn cx1]. destruct dn; [intros [= <- <-]; split; [done|by do 2 eexists]|].
    destruct (parseRow line) as [r|e|] eqn:Ep; [|intros [= <- <-]; split; [done|apply http_error_answered]|by apply parseRow_total in Ep].
    destruct (write_stores pf cx1 sts r) as [[sts1 cx2] res] eqn:Ew. pose proof (parseRow_bytes _ _ Hl Ep) as Hrow.
    destruct (write_stores_inv c r Hc Hrow _ _ _ _ _ Hi Ew) as (Hi1 & o & -> & Ho). destruct o as [[]|e|]; [| |done].
    + by apply IH.
    + intros [= <- <-]. split; [done|apply http_error_answered].
Qed.
Lemma recv_body_inv c cx r sts sts' resp : cfg_ok c → Forall ev_ok r → srv_inv c sts → recv_body pf et cx sts r = (sts', resp) → srv_inv c sts' ∧ answered resp.
Proof.
  intros Hc Hr Hi. unfold recv_body. destruct (tokens_total r) as [[lines e] Et]. rewrite Et. eapply recv_lines_inv; [done| |done]. by eapply tokens_bytes.
Qed.
Lemma recvObservation_inv c rq sts sts' resp : cfg_ok c → request_ok rq → srv_inv c sts → recvObservation pf et pm sts rq = (sts', resp) → srv_inv c sts' ∧ answered resp.
Proof.
  intros Hc [Hb Hf] Hi. unfold recvObservation. destruct (contentType pm rq) as [ct|]; [|intros [= <- <-]; split; [done|apply http_error_answered]].
  destruct (decide _); [destruct (decide _)|destruct (decide _)]; try (intros [= <- <-]; split; [done|apply http_error_answered]).
  - apply recv_body_inv; [done| |done]. constructor; [apply Hf|constructor].
  - by apply recv_body_inv.
Qed.
Lemma ServeHTTP_inv c rq sts sts' resp : cfg_ok c → request_ok rq → srv_inv c sts → ServeHTTP pf est ff et pm order sts rq = (sts', resp) → srv_inv c sts'.
Proof.
  intros Hc Hr Hi. unfold ServeHTTP. destruct (rq_star rq); [by intros [= <- <-]|]. destruct (mux_route _ _) as [| | |rest]; [by intros [= <- <-]..| |].
  - destruct (decide _); [|by intros [= <- <-]]. intros E. by destruct (recvObservation_inv _ _ _ _ _ Hc Hr Hi E).
  - destruct (decide _); [by intros [= <- <-]|]. destruct (decide _); [by intros [= <- <-]|]. destruct (decide _); [by intros [= <- <-]|].
    unfold queryCollation. destruct (RoughParse _ _); by intros [= <- <-].
Qed.
Lemma serve_all_inv c rqs : cfg_ok c → Forall request_ok rqs → ∀ sts sts' rs, srv_inv c sts → serve_all pf est ff et pm order sts rqs = (sts', rs) → srv_inv c sts'.
Proof.
  intros Hc Hr. induction Hr as [|rq rqs H Hr IH]; intros sts sts' rs Hi; cbn [serve_all]; [by intros [= <- <-]|].
  destruct (ServeHTTP pf est ff et pm order sts rq) as [sts1 r1] eqn:E1. destruct (serve_all pf est ff et pm order sts1 rqs) as [sts2 rs2] eqn:E2. intros [= <- <-].
  eapply IH; [|exact E2]. by eapply ServeHTTP_inv.
Qed.
Lemma served_inv c sts : cfg_ok c → served pf est ff et pm order c sts → srv_inv c sts.
Proof. intros Hc (sts0 & rqs & rs & H1 & H2 & H3). eapply serve_all_inv; [done..| |done]. by apply initial_inv. Qed.
End inv.
