From Coq Require Import ZifyBool ZifyNat.
From Verif Require Import Base BaseProofs Float64 FnvModel FnvSpec FnvProofs HllModel CollationModel CollationSpec CollationLayout CollationCells CollationProofs CollationTop CollationSafe CollationTop2
  BufmapModel BufmapSpec BufmapProofs BufmapTop QueryModel ServerModel ServerSpec ScanProofs ParseRowProofs.
Local Open Scope Z_scope.

Section batch.
Context (pf : bytes → option float) (est : Counter → Z) (ff : float → bytes) (et : error → bytes) (pm : bytes → option bytes) (order : list FM → list FM).
Lemma Store_Write_ctx st r st' cx res : Store_Write pf None st r = (st', cx, res) → cx = None.
Proof.
  unfold Store_Write. destruct (Row_KeyValue _ _) as [k []]; cbn; [|congruence]. destruct (Update _ _ _). congruence.
Qed.
Lemma write_stores_cases r sts sts' cx res : write_stores pf None sts r = (sts', cx, res) →
  cx = None ∧ ((res = Ret (Ok ()) ∧ Forall2 (store_takes pf r) sts sts') ∨
    (res ≠ Ret (Ok ()) ∧ ∃ a st b a' st', sts = a ++ st :: b ∧ sts' = a' ++ st' :: b ∧ Forall2 (store_takes pf r) a a' ∧ Store_Write pf None st r = (st', None, res))).
Proof.
  revert sts' cx res. induction sts as [|st sts IH]; intros sts' cx res; cbn [write_stores].
  - intros [= <- <- <-]. split; [done|]. left. done.
  - destruct (Store_Write pf None st r) as [[st1 cx1] res1] eqn:E1. pose proof (Store_Write_ctx _ _ _ _ _ E1) as ->.
    assert (res1 ≠ Ret (Ok ()) → (st1 :: sts, None, res1) = (sts', cx, res) → cx = None ∧ ((res = Ret (Ok ()) ∧ Forall2 (store_takes pf r) (st :: sts) sts') ∨
      (res ≠ Ret (Ok ()) ∧ ∃ a st0 b a' st', st :: sts = a ++ st0 :: b ∧ sts' = a' ++ st' :: b ∧ Forall2 (store_takes pf r) a a' ∧ Store_Write pf None st0 r = (st', None, res)))) as G.
    { intros Hn [= <- <- <-]. split; [done|]. right. split; [done|]. exists [], st, sts, [], st1. done. }
    destruct res1 as [[[]| |]| |]; try (intros HH; apply G in HH; [exact HH|done]). clear G.
    destruct (write_stores pf None sts r) as [[sts2 cx2] res2] eqn:E2. intros [= <- <- <-]. destruct (IH _ _ _ eq_refl) as (-> & [[-> H]|(Hn & a & st0 & b & a' & st' & -> & -> & H & E)]); (split; [done|]).
    + left. split; [done|]. by constructor.
    + right. split; [done|]. exists (st :: a), st0, b, (st1 :: a'), st'. split; [done|]. split; [done|]. split; [by constructor|done].
Qed.
Lemma takes_det r sts x y : Forall2 (store_takes pf r) sts x → Forall2 (store_takes pf r) sts y → x = y.
Proof.
  intros H. revert y. induction H as [|st st' sts x Hs H IH]; intros y Hy; inversion_clear Hy as [|? st2 ? y' Hs2 Hy']; [done|]. unfold store_takes in *. f_equal; [congruence|by apply IH].
Qed.
Lemma accepted_det sts line x y : line_accepted pf sts line x → line_accepted pf sts line y → x = y.
Proof. intros (r & E & H) (r' & E' & H'). rewrite E in E'. injection E' as <-. by eapply takes_det. Qed.

Lemma refused_not_accepted r sts a st b st' res sts' : sts = a ++ st :: b → Store_Write pf None st r = (st', None, res) → res ≠ Ret (Ok ()) → ¬ Forall2 (store_takes pf r) sts sts'.
Proof.
  intros -> E Hn H. apply Forall2_app_inv_l in H as (x & y & _ & H & ->). apply Forall2_cons_inv_l in H as (st2 & y' & H & _ & ->). unfold store_takes in H. congruence.
Qed.
(** everything about the loop over the lines, for a client that stays *)
Lemma recv_lines_cases lines : ∀ sts serr sts' resp, recv_lines pf et None sts lines serr = (sts', resp) →
  (lines_accepted pf sts lines sts' ∧ resp = (match serr with Some e => http_error 500 (et e) | None => Resp 200 [] end)) ∨
  (∃ pre line post sts1, lines = pre ++ line :: post ∧ lines_accepted pf sts pre sts1 ∧ line_refused pf sts1 line sts' ∧
     ((∃ e, resp = http_error 500 (et e)) ∨ resp = Aborted ∨ resp = Hung)).
Proof.
  induction lines as [|line lines IH]; intros sts serr sts' resp; cbn [recv_lines].
  - intros [= <- <-]. left. split; [constructor|done].
  - cbn [ctx_done]. destruct (parseRow line) as [r|e|] eqn:Ep; [|intros [= <- <-]|by apply parseRow_total in Ep].
    + destruct (write_stores pf None sts r) as [[sts1 cx1] res1] eqn:Ew. destruct (write_stores_cases _ _ _ _ _ Ew) as (-> & [[-> H]|(Hn & a & st & b & a' & st' & Ha & Hb & H & E)]).
      * intros Er. assert (line_accepted pf sts line sts1) as Hacc by (by exists r). destruct (IH _ _ _ _ Er) as [[HA Hr]|(pre & l2 & post & sts2 & -> & HA & HR & Hr)].
        -- left. split; [by econstructor|done].
        -- right. exists (line :: pre), l2, post, sts2. split; [done|]. split; [by econstructor|done].
      * assert (line_refused pf sts line sts1) as HR by (rewrite Hb; by eapply lr_store).
        intros Er. right. exists [], line, lines, sts. split; [done|]. split; [constructor|].
        destruct res1 as [[[]|e|]| |]; try done; injection Er as <- <-; (split; [done|]); [left; by eexists|right; by left|right; by left|right; by right].
    + right. exists [], line, lines, sts. split; [done|]. split; [constructor|]. split; [by eapply lr_parse|]. left. by eexists.
Qed.
Lemma lines_det sts lines x y : lines_accepted pf sts lines x → lines_accepted pf sts lines y → x = y.
Proof.
  intros H. revert y. induction H as [|sts line sts1 lines sts' H1 H2 IH]; intros y Hy; inversion_clear Hy as [|? ? sts2 ? ? K1 K2]; [done|].
  assert (sts1 = sts2) as <- by by eapply accepted_det. by apply IH.
Qed.
Lemma refuse_accept sts line x y : line_refused pf sts line x → ¬ line_accepted pf sts line y.
Proof.
  intros [e E|r a st b a' st' res E Hs Ha Hw Hn] (r' & E' & H); [congruence|]. rewrite E in E'. injection E' as <-. by eapply refused_not_accepted in H.
Qed.
Lemma lines_refused sts pre line post sts1 x y : lines_accepted pf sts pre sts1 → line_refused pf sts1 line x → ¬ lines_accepted pf sts (pre ++ line :: post) y.
Proof.
  intros H. induction H as [|sts l2 sts2 lines sts' H1 H2 IH]; intros HR HA; cbn [app] in HA; inversion_clear HA as [|? ? sts3 ? ? K1 K2].
  - by eapply refuse_accept in HR.
  - assert (sts2 = sts3) as <- by by eapply accepted_det. by eapply IH.
Qed.

(** ** a whole post *)
Lemma obs_body rq b sts : obs_post pm rq b → ∃ r, yields r b ErrEOF ∧ ServeHTTP pf est ff et pm order sts rq = recv_body pf et None sts r ∧
  (request_ok rq → Forall (λ ev, match ev with EvData b | EvDataEOF b => is_bytes b | EvErr => True end) r).
Proof.
  intros (Hm & Hp & Hs & Hc & Hb & Ht). unfold ServeHTTP. rewrite Hs, Hp, Hm. change (mux_route _ (str "/obs")) with RObs. cbn iota.
  rewrite decide_True by done. unfold recvObservation. rewrite Hc. destruct Ht as [(Hct & Hd & Hne)|(Hct & Hy)].
  - rewrite Hct. rewrite decide_True by done. rewrite Hd. rewrite decide_False by done. exists [EvData b]. split; [|split; [done|]].
    + rewrite <- (app_nil_r b) at 2. constructor; [done|constructor].
    + intros [_ Hf]. constructor; [rewrite <- Hd; apply Hf|constructor].
  - exists (rq_body rq). split; [done|]. split; [|by intros [? _]]. rewrite !elem_of_cons, elem_of_nil in Hct. destruct Hct as [->|[->|[]]]; reflexivity.
Qed.
Lemma post_lines rq b ls sts : obs_post pm rq b → text_of ls b → ServeHTTP pf est ff et pm order sts rq = recv_lines pf et None sts ls None.
Proof.
  intros H Ht. destruct (obs_body rq b sts H) as (r & Hy & -> & _). unfold recv_body. destruct H as (_ & _ & _ & _ & Hs & _).
  rewrite (tokens_out r b ErrEOF ls None Hy); [done|]. by apply (text_out ErrEOF ls b).
Qed.
Lemma post_accepts rq b ls sts sts' : obs_post pm rq b → text_of ls b →
  ServeHTTP pf est ff et pm order sts rq = (sts', Resp 200 []) ↔ lines_accepted pf sts ls sts'.
Proof.
  intros H Ht. rewrite (post_lines rq b ls sts H Ht). split.
  - intros E. destruct (recv_lines_cases _ _ _ _ _ E) as [[HA _]|(pre & l & post & sts1 & _ & _ & _ & [(e & Hr)|[Hr|Hr]])]; [done|unfold http_error in Hr; discriminate Hr|done..].
  - intros HA. destruct (recv_lines pf et None sts ls None) as [sts2 resp] eqn:E. destruct (recv_lines_cases _ _ _ _ _ E) as [[HA' ->]|(pre & l & post & sts1 & -> & HA1 & HR & _)].
    + f_equal. by eapply lines_det.
    + exfalso. exact (lines_refused _ _ _ _ _ _ _ HA1 HR HA).
Qed.
Lemma post_stops rq b ls sts sts' resp : obs_post pm rq b → text_of ls b → ServeHTTP pf est ff et pm order sts rq = (sts', resp) → resp ≠ Resp 200 [] →
  ∃ pre line post sts1, ls = pre ++ line :: post ∧ lines_accepted pf sts pre sts1 ∧ line_refused pf sts1 line sts' ∧
    ((∃ e, resp = http_error 500 (et e)) ∨ resp = Aborted ∨ resp = Hung).
Proof.
  intros H Ht E Hn. rewrite (post_lines rq b ls sts H Ht) in E. by destruct (recv_lines_cases _ _ _ _ _ E) as [[HA ->]|HR].
Qed.
End batch.

(** ** the stores of a server *)
Lemma Coll_Update_len pf c r d init : length (Coll_Update pf c r d init).1 = length d.
Proof.
  assert (Hr : ∀ fn, keeps fn → ∀ gs buf, length (run_writers buf gs fn).1 = length buf).
  { intros fn Hk gs. induction gs as [|g gs IH]; intros buf; cbn [run_writers]; [done|].
    assert (length (on_range buf g (fn (g_m g))).1 = length buf) as Ho.
    { unfold on_range. destruct (slice buf (g_low g) (g_high g)) as [sub| |] eqn:Es; [|done..]. destruct (fn (g_m g) sub) as [sub'| |] eqn:Ef; [|done..]. cbn.
      apply Hk in Ef. unfold slice in Es. destruct ((0 <=? g_low g) && (g_low g <=? g_high g) && (g_high g <=? Z.of_nat (length buf))) eqn:Eb; [|done]. injection Es as <-.
      rewrite take_length, drop_length in Ef. apply splice_len. lia. }
    destruct (on_range buf g (fn (g_m g))) as [buf1 [[]| |]]; cbn in Ho; [by rewrite IH|done..]. }
  assert (Hf : ∀ init fvs buf, length (update_fvs pf c buf init fvs).1 = length buf).
  { intros init' fvs. induction fvs as [|fv fvs IH]; intros buf; cbn [update_fvs]; [done|].
    assert (length (update_fv pf c buf init' fv).1 = length buf) as Hu.
    { unfold update_fv. set (r1 := match c_cont c !! fv_F fv with Some _ => _ | None => _ end).
      assert (length r1.1 = length buf) as H1. { unfold r1. destruct (c_cont c !! fv_F fv); [|done]. destruct (pf (fv_V fv)); [|done]. apply Hr. intros ????. by eapply cont_write_keeps. }
      destruct r1 as [buf1 [[]| |]]; cbn in H1; [|done..]. destruct (c_disc c !! fv_F fv); [|done]. rewrite Hr; [done|]. intros ????. by eapply disc_write_keeps. }
    destruct (update_fv pf c buf init' fv) as [buf1 [[]| |]]; cbn in Hu; [by rewrite IH|done..]. }
  unfold Coll_Update. assert (length (run_writers d (c_writers c) (λ _ b, count_write b)).1 = length d) as H1.
  { apply Hr. intros ????. by eapply count_write_keeps. }
  destruct (run_writers d (c_writers c) _) as [buf1 [[]| |]]; cbn in H1; [by rewrite Hf|done..].
Qed.
