From Coq Require Import ZifyBool ZifyNat.
From Verif Require Import Base BaseProofs Float64 FnvSpec HllModel CollationModel CollationSpec CollationProofs BufmapModel BufmapSpec QueryModel Probe
  BufconcModel BufconcSpec BufconcInv BufconcProofs BufconcStep BufconcTop BufconcSolo ServerModel ServerSpec ServerTop StoreConcModel StoreConcSpec StoreConcProofs StoreConcTop ServerConcModel ServerConcSpec ServerConcProofs ServerConcFair ServerSoloSpec.
Local Open Scope Z_scope.

Section alone.
Context (pf : bytes → option float) (est : Counter → Z) (ff : float → bytes) (et : error → bytes) (pm : bytes → option bytes) (order : list FM → list FM).
(** a call of a store, nobody interfering *)
Definition call_alone (st : Store) (sc : scall) : Store * sreply :=
  match sc with
  | CWrite r => let '(st, _, o) := Store_Write pf None st r in (st, AWrite o)
  | CRead q => (st, ARead (Store_Read est st q))
  end.
Fixpoint alone (h : handler) (sts : list Store) : list Store * response :=
  match h with
  | HRet r => (sts, r)
  | HCall i sc k => match sts !! i with Some st => let '(st, rep) := call_alone st sc in alone (k rep) (<[i := st]> sts) | None => (sts, Aborted) end
  end.
Lemma Store_Write_coll cx st r st' cx' o : Store_Write pf cx st r = (st', cx', o) → st_coll st' = st_coll st.
Proof. unfold Store_Write. destruct (Row_KeyValue _ _) as [key []]; cbn [negb]; [|by intros [= <- <- <-]]. destruct (ctx_done cx) as [[] cx1]; [by intros [= <- <- <-]|]. destruct (Update _ _ _) as [m res]. by intros [= <- <- <-]. Qed.
Lemma call_alone_coll st sc st' rep : call_alone st sc = (st', rep) → st_coll st' = st_coll st.
Proof. destruct sc as [r|q]; cbn [call_alone]; [|by intros [= <- <-]]. destruct (Store_Write pf None st r) as [[st1 cx] o] eqn:E. intros [= <- _]. by eapply Store_Write_coll. Qed.
Lemma ctx_done_None : ctx_done None = (false, None).
Proof. done. Qed.
Lemma write_alone r k : ∀ sts cs i cx pre, map st_coll sts = cs → length pre = i →
  alone (h_write cs i cx r k) (pre ++ sts) = let '(sts', cx', o) := write_stores pf cx sts r in alone (k cx' o) (pre ++ sts').
Proof.
  induction sts as [|st sts IH]; intros cs i cx pre <- Hi; cbn [map h_write write_stores]; [done|].
  unfold Store_Write at 1. destruct (Row_KeyValue r (c_keys (st_coll st))) as [key found] eqn:Ek. cbn [snd].
  assert (∀ cx1, alone (HCall i (CWrite r) (λ rep, match rep with AWrite (Ret (Ok _)) => h_write (map st_coll sts) (S i) cx1 r k | AWrite o => k cx1 o | ARead _ => HRet Aborted end)) (pre ++ st :: sts) =
    match (let '(st', _, o) := Store_Write pf None st r in (st', cx1, o)) with
    | (st', cx1, Ret (Ok _)) => let '(sts', cx', o) := write_stores pf cx1 sts r in alone (k cx' o) (pre ++ st' :: sts')
    | (st', cx1, o) => alone (k cx1 o) (pre ++ st' :: sts) end) as Hcall.
  { intros cx1. cbn [alone]. rewrite list_lookup_middle by done. cbn [call_alone]. destruct (Store_Write pf None st r) as [[st' cx2] o] eqn:Ew. rewrite <- (Nat.add_0_r i), <- Hi, insert_app_r. cbn [insert list_insert].
    destruct o as [[u|e|]| |]; try done. cbn [app]. rewrite (cons_middle st'), app_assoc. rewrite (IH _ _ cx1 (pre ++ [st'])); [|done|rewrite app_length; cbn; lia].
    destruct (write_stores pf cx1 sts r) as [[sts' cx'] o]. by rewrite <- app_assoc. }
  destruct found; cbn [negb].
  - destruct (ctx_done cx) as [[] cx1] eqn:Ec; [done|]. rewrite Hcall. unfold Store_Write. rewrite Ek, ctx_done_None. cbn [negb]. destruct (Update _ _ _) as [m o]. destruct o as [[u|e|]| |]; try done. by destruct (write_stores pf cx1 sts r) as [[sts' cx'] o'].
  - rewrite Hcall. unfold Store_Write. rewrite Ek. cbn [negb]. by destruct (write_stores pf cx sts r) as [[sts' cx'] o'].
Qed.
Lemma write_stores_coll r : ∀ sts cx sts' cx' o, write_stores pf cx sts r = (sts', cx', o) → map st_coll sts' = map st_coll sts.
Proof.
  induction sts as [|st sts IH]; intros cx sts' cx' o; cbn [write_stores]; [by intros [= <- <- <-]|]. destruct (Store_Write pf cx st r) as [[st1 cx1] o1] eqn:E. apply Store_Write_coll in E.
  destruct o1 as [[u|e|]| |]; [|intros [= <- <- <-]; cbn; by rewrite E..]. destruct (write_stores pf cx1 sts r) as [[sts2 cx2] o2] eqn:E2. intros [= <- <- <-]. cbn. rewrite E. f_equal. by eapply IH.
Qed.
Lemma lines_alone cs lines serr : ∀ cx sts, map st_coll sts = cs → alone (h_lines et cs cx lines serr) sts = recv_lines pf et cx sts lines serr.
Proof.
  induction lines as [|line lines IH]; intros cx sts Hcs; cbn [h_lines recv_lines]; [done|]. destruct (ctx_done cx) as [[] cx1]; [done|]. destruct (parseRow line) as [row|e|]; [|done..].
  rewrite (write_alone row _ sts cs 0 cx1 [] Hcs eq_refl). destruct (write_stores pf cx1 sts row) as [[sts' cx'] o] eqn:E. cbn [app]. destruct o as [[u|e|]| |]; try done. apply IH. rewrite <- Hcs. by eapply write_stores_coll.
Qed.
Lemma stores_alone name q : ∀ sts cs i pre, map st_coll sts = cs → length pre = i → alone (h_stores ff et name q cs i) (pre ++ sts) = (pre ++ sts, query_stores est ff et name q sts).
Proof.
  induction sts as [|st sts IH]; intros cs i pre <- Hi; cbn [map h_stores query_stores]; [done|]. destruct (decide _).
  - cbn [alone]. rewrite list_lookup_middle by done. cbn [call_alone alone]. f_equal. by apply list_insert_id, list_lookup_middle.
  - rewrite (cons_middle st), app_assoc. rewrite (IH _ _ (pre ++ [st])); [|done|rewrite app_length; cbn; lia]. done.
Qed.
Lemma body_alone cs cx r sts : map st_coll sts = cs → alone (h_body et cs cx r) sts = recv_body pf et cx sts r.
Proof. intros Hcs. unfold h_body, recv_body. destruct (tokens r) as [[lines e]|]; [by apply lines_alone|done]. Qed.
Lemma handle_alone cs rq sts : map st_coll sts = cs → alone (handle ff et pm order cs rq) sts = ServeHTTP pf est ff et pm order sts rq.
Proof.
  intros Hcs. unfold handle, ServeHTTP. destruct (rq_star rq); [done|]. destruct (mux_route _ _) as [| | |rest]; [done..| |].
  - destruct (decide _); [|done]. unfold h_recv, recvObservation. destruct (contentType pm rq) as [ct|]; [|done]. destruct (decide _); [destruct (decide _); [done|by apply body_alone]|destruct (decide _); [by apply body_alone|done]].
  - destruct (decide _); [done|]. destruct (decide _); [done|]. destruct (decide _); [done|]. unfold h_query, queryCollation. destruct (RoughParse _ _) as [q|e|]; [|done..]. by apply (stores_alone rest q sts cs 0 []).
Qed.
Lemma serve_coll rq sts : map st_coll (ServeHTTP pf est ff et pm order sts rq).1 = map st_coll sts.
Proof.
  rewrite <- (handle_alone _ rq sts eq_refl). generalize (handle ff et pm order (map st_coll sts) rq). intros h. revert sts. induction h as [r|i sc k IH]; intros sts; cbn [alone]; [done|].
  destruct (sts !! i) as [st|] eqn:L; [|done]. destruct (call_alone st sc) as [st' rep] eqn:E. rewrite IH. apply call_alone_coll in E. rewrite <- (list_insert_id (map st_coll sts) i (st_coll st)) by (by rewrite list_lookup_fmap, L). rewrite <- E. apply list_fmap_insert.
Qed.
Lemma serve_all_snoc rqs rq sts : serve_all pf est ff et pm order sts (rqs ++ [rq]) =
  let '(sts1, rs) := serve_all pf est ff et pm order sts rqs in let '(sts2, r) := ServeHTTP pf est ff et pm order sts1 rq in (sts2, rs ++ [r]).
Proof.
  revert sts. induction rqs as [|rq0 rqs IH]; intros sts; cbn [app serve_all]; [by destruct (ServeHTTP _ _ _ _ _ _ sts rq)|]. destruct (ServeHTTP _ _ _ _ _ _ sts rq0) as [sts0 r0]. rewrite IH. destruct (serve_all _ _ _ _ _ _ sts0 rqs) as [sts1 rs]. by destruct (ServeHTTP _ _ _ _ _ _ sts1 rq).
Qed.
End alone.
