From Coq Require Import ZifyBool ZifyNat.
From Verif Require Import Base BaseProofs Float64 FnvSpec HllModel CollationModel CollationSpec CollationProofs CollationTop CollationTop2 BufmapModel BufmapSpec RegexpModel QueryModel Probe
  BufconcModel BufconcSpec BufconcInv BufconcTop BufconcProps ServerModel ServerSpec ScanProofs ParseRowProofs ServerProofs StoreProofs ServerInv ServerTop ServerHomeSpec StoreConcModel StoreConcSpec StoreConcProofs StoreConcTop StoreConcTop2 StoreConcTop3 StoreConcProps
  ServerConcModel ServerConcSpec ServerConcProofs ServerConcTop ServerConcTop2 ServerMixedSpec StoreConcMixed.
Local Open Scope Z_scope.

(** ** the calls of one store *)
Definition at_store (i : nat) (tr : list (nat * scall * option res)) : list (scall * option res) := omap (λ x : nat * scall * option res, if decide (x.1.1 = i) then Some (x.1.2, x.2) else None) tr.
Lemma at_app i a b : at_store i (a ++ b) = at_store i a ++ at_store i b.
Proof. apply omap_app. Qed.
Lemma trets_proj t i h : trets t (proj i h) = at_store i (rets t h).
Proof.
  induction h as [|e h IH]; [done|]. change (e :: h) with ([e] ++ h). rewrite proj_app, rets_app, trets_app, at_app, IH. f_equal. clear IH.
  destruct e as [t'|j e|t' r]; [unfold rets, th; cbn; by destruct (decide _)| |unfold rets, th; cbn; by destruct (decide _)].
  unfold rets, th. rewrite filter_cons, filter_nil. unfold proj. cbn [omap list_omap]. destruct (decide (j = i)) as [->|Hne].
  - destruct e as [t' sc|t' k|t' k r init|t' k r init|t' sc res]; cbn [vthread sthread]; destruct (decide (t' = t)) as [->|Hn]; cbn; try done; rewrite ?decide_True, ?decide_False by done; cbn; try done; by rewrite decide_True.
  - destruct e as [t' sc|t' k|t' k r init|t' k r init|t' sc res]; cbn [vthread sthread]; destruct (decide (t' = t)) as [->|Hn]; cbn; try done. by rewrite decide_False.
Qed.
Lemma other_proj t i h : th t h = [] → other t (proj i h).
Proof.
  induction h as [|e h IH]; intros H; [constructor|]. unfold th in H. rewrite filter_cons in H. destruct (decide (vthread e = t)) as [|Hne]; [done|]. specialize (IH H). destruct e as [t'|j e|t' r]; [exact IH| |exact IH].
  unfold proj. cbn. destruct (decide (j = i)); [|exact IH]. by constructor.
Qed.
Lemma choose {X} (x0 : X) (P : nat → X → Prop) m : (∀ t, (t < m)%nat → ∃ x, P t x) → ∃ f, ∀ t, (t < m)%nat → P t (f t).
Proof.
  induction m as [|m IH]; intros H; [exists (λ _, x0); lia|]. destruct IH as [f Hf]; [intros t Ht; apply H; lia|]. destruct (H m ltac:(lia)) as [x Hx]. exists (λ t, if decide (t = m) then x else f t).
  intros t Ht. destruct (decide (t = m)) as [->|Hne]; [done|]. apply Hf. lia.
Qed.

Section mixed.
Context (pf : bytes → option float) (est : Counter → Z) (ff : float → bytes) (et : error → bytes) (pm : bytes → option bytes) (order : list FM → list FM).
Context (c : list (Z * Schema)) (impl : nat → Row → bool → prog) (Hc : cfg_ok c) (Himpl : impls_ok pf c impl) (rqs : list request) (Hrq : Forall request_ok rqs).
Notation cs := (map (λ ls : Z * Schema, Compile ls.2) c).
Notation n := (length rqs).
Notation handle := (handle ff et pm order cs).
Notation runs := (runs est c).
Notation vinv := (vinv est ff et pm order c impl rqs).
Notation good := (good est c).

(** ** what a post does *)
Definition failed (x : nat * scall * option res) (o : call (outcome unit)) : Prop := ∃ l s, c !! x.1.1 = Some (l, s) ∧ reply est (Compile s) x.1.2 x.2 = AWrite o ∧ o ≠ Ret (Ok ()).
Lemma mixed_write r k R : ∀ cs' i cx tr, runs (h_write cs' i cx r k) tr (HRet R) →
  ∃ m gd tl tr2 cx' o, tr = gd ++ tl ++ tr2 ∧ map fst gd = map (λ j, (j, CWrite r)) (seq i m) ∧ Forall good gd ∧ (m ≤ length cs')%nat ∧ runs (k cx' o) tr2 (HRet R) ∧ (cx = None → cx' = None) ∧
    ((tl = [] ∧ o = Ret (Ok ()) ∧ m = length cs') ∨ (tl = [] ∧ o = Ret (Err ErrCtx) ∧ cx ≠ None) ∨ ∃ res, tl = [((i + m)%nat, CWrite r, res)] ∧ failed ((i + m)%nat, CWrite r, res) o).
Proof.
  intros cs'. induction cs' as [|c0 cs' IH]; intros i cx tr; cbn [h_write].
  - intros H. exists 0%nat, [], [], tr, cx, (Ret (Ok ())). cbn. split_and!; try done. by left.
  - destruct (if (Row_KeyValue r (c_keys c0)).2 then ctx_done cx else (false, cx)) as [dn cx1] eqn:Ec. assert (cx = None → dn = false ∧ cx1 = None) as Hcx by (intros ->; destruct (Row_KeyValue r (c_keys c0)).2; cbn in Ec; by injection Ec as <- <-).
    destruct dn.
    + intros H. exists 0%nat, [], [], tr, cx1, (Ret (Err ErrCtx)). cbn. split_and!; try done; [lia|naive_solver|]. right. left. split_and!; try done. intros Hn. by apply Hcx in Hn as [? _].
    + destruct tr as [|[[j sc] res] tr]; [done|]. cbn [ServerConcProofs.runs]. intros (l & s & k' & [= <- <- <-] & Lc & Hr).
      assert (∃ o, reply est (Compile s) (CWrite r) res = AWrite o) as [o Eo]. { destruct res as [[]|]; cbn; eauto. } rewrite Eo in Hr. assert (o = Ret (Ok ()) ∨ o ≠ Ret (Ok ())) as [->|Hno] by (destruct o as [[[]|e|]| |]; [by left|by right..]).
      * destruct (IH (S i) cx1 tr Hr) as (m & gd & tl & tr2 & cx' & o & -> & H1 & H2 & H3 & H4 & H5 & H6). exists (S m), ((i, CWrite r, res) :: gd), tl, tr2, cx', o. split; [done|]. split; [cbn; by rewrite H1|]. split; [constructor; [exists l, s; done|done]|]. split; [cbn; lia|]. split; [done|]. split; [naive_solver|].
        destruct H6 as [(? & ? & ->)|[(? & ? & Hn)|(res' & E & Hf)]]; [by left|right; left; naive_solver|]. right. right. exists res'. by rewrite Nat.add_succ_r.
      * exists 0%nat, [], [(i, CWrite r, res)], tr, cx1, o. cbn [app seq map length]. split_and!; try done; [lia| |naive_solver|].
        { destruct o as [[[]|e|]| |]; done. }
        right. right. exists res. rewrite Nat.add_0_r. split; [done|]. exists l, s. done.
Qed.
(** the calls for one store among the calls with one row *)
Lemma at_seq i r m a gd : map fst gd = map (λ j, (j, CWrite r)) (seq a m) → Forall good gd →
  if decide (a ≤ i < a + m)%nat then ∃ res, at_store i gd = [(CWrite r, res)] ∧ good (i, CWrite r, res) else at_store i gd = [].
Proof.
  revert a gd. induction m as [|m IH]; intros a gd E HG; [destruct gd; [|done]; by rewrite decide_False by lia|]. destruct gd as [|[[j sc] res] gd]; [done|]. cbn [seq map fst] in E. injection E as -> -> E. apply Forall_cons in HG as [Hg HG]. specialize (IH _ _ E HG).
  unfold at_store. cbn [omap list_omap fst snd]. destruct (decide (a = i)) as [->|Hne].
  - rewrite (decide_False (P := (S i ≤ i < S i + m)%nat)) in IH by lia. rewrite (decide_True (P := (i ≤ i < i + S m)%nat)) by lia. exists res. split; [|done]. f_equal. exact IH.
  - destruct (decide (S a ≤ i < S a + m)%nat); [rewrite (decide_True (P := (a ≤ i < a + S m)%nat)) by lia|rewrite (decide_False (P := (a ≤ i < a + S m)%nat)) by lia]; exact IH.
Qed.
Definition fine (tr : list (nat * scall * option res)) : Prop := ∀ j r res l s, (j, CWrite r, res) ∈ tr → c !! j = Some (l, s) → reply est (Compile s) (CWrite r) res ≠ AWrite Panics ∧ reply est (Compile s) (CWrite r) res ≠ AWrite (Ret Panic).
Definition post_part (i : nat) (tr : list (nat * scall * option res)) (R : response) (rows : list Row) (took : nat) (oks tl : list (scall * option res)) : Prop :=
  at_store i tr = oks ++ tl ∧ Forall2 (λ r x, x.1 = CWrite r ∧ good (i, CWrite r, x.2)) (take took rows) oks ∧ (took ≤ length rows)%nat ∧
  (tl = [] ∨ ∃ r res e, tl = [(CWrite r, res)] ∧ rows !! took = Some r ∧ failed (i, CWrite r, res) (Ret (Err e)) ∧ R = http_error 500 (et e)).
Lemma post_none i R rows : post_part i [] R rows 0 [] [].
Proof. split; [done|]. split; [constructor|]. split; [lia|by left]. Qed.
Lemma mixed_lines i ls rows serr R : (i < length c)%nat → leading ls rows → ∀ cx tr, runs (h_lines et cs cx ls serr) tr (HRet R) → fine tr →
  ∃ took oks tl, post_part i tr R rows took oks tl ∧ (R = Resp 200 [] → cx = None → serr = None ∧ Forall2 (λ l r, parseRow l = Ok r) ls rows ∧ took = length rows).
Proof.
  intros Hi. induction 1 as [|line ls Hno|line r ls rows El HL IH]; intros cx tr; cbn [h_lines].
  - intros H _. apply runs_ret in H as [<- ->]. exists 0%nat, [], []. split; [apply post_none|]. destruct serr; [by intros [=]|]. intros _ _. split_and!; try done; constructor.
  - destruct (ctx_done cx) as [dn cx1] eqn:Ec. intros H _. assert (tr = [] ∧ (R = Resp 200 [] → cx = None → False)) as [-> HR].
    { destruct dn; [apply runs_ret in H as [<- ->]; split; [done|]; by intros _ ->|]. destruct (parseRow line) as [r|e|] eqn:El; [by destruct (Hno r)|..]; apply runs_ret in H as [<- ->]; by split. }
    exists 0%nat, [], []. split; [apply post_none|]. intros E1 E2. by destruct (HR E1 E2).
  - destruct (ctx_done cx) as [dn cx1] eqn:Ec. destruct dn.
    { intros H _. apply runs_ret in H as [<- ->]. exists 0%nat, [], []. split; [apply post_none|]. by intros _ ->. }
    assert (cx = None → cx1 = None) as Hcx by (intros ->; by injection Ec as <-). rewrite El. intros H Hf. apply mixed_write in H as (m & gd & tl & tr2 & cx' & o & -> & H1 & H2 & H3 & H4 & H5 & H6). rewrite map_length in H3.
    pose proof (at_seq i r m 0 gd H1 H2) as Hat. destruct H6 as [(-> & -> & ->)|[(-> & -> & Hn)|(res & -> & Hfl)]].
    + rewrite map_length in *. rewrite (decide_True (P := (0 ≤ i < 0 + length c)%nat)) in Hat by lia. destruct Hat as (res & Hat & Hg). destruct (IH _ _ H4) as (took & oks & tl & (P1 & P2 & P3 & P4) & HR).
      { intros j r0 res0 l0 s0 Hin. eapply Hf. apply elem_of_app. right. exact Hin. }
      exists (S took), ((CWrite r, res) :: oks), tl. split; [split_and!|].
      * rewrite !at_app, Hat, P1. done.
      * cbn [take]. by constructor.
      * cbn. lia.
      * exact P4.
      * intros E1 E2. destruct (HR E1) as (? & ? & ?); [auto|]. split; [done|]. split; [by constructor|]. cbn. lia.
    + apply runs_ret in H4 as [<- ->]. rewrite app_nil_r in *. destruct (decide (0 ≤ i < 0 + m)%nat) as [Hm|Hm].
      * destruct Hat as (res & Hat & Hg). exists 1%nat, [(CWrite r, res)], []. split; [split_and!|by intros [=]]; [by rewrite Hat|cbn; by repeat constructor|cbn; lia|by left].
      * exists 0%nat, [], []. split; [split_and!|by intros [=]]; [by rewrite Hat|constructor|lia|by left].
    + assert (∃ e, o = Ret (Err e)) as [e ->].
      { destruct Hfl as (l & s & Lc & Ep & Hok). cbn [fst snd] in *. destruct (Hf m r res l s) as [F1 F2]; [rewrite !elem_of_app; right; left; left|done|]. destruct o as [[[]|e|]| |]; [done|eauto|congruence|congruence|].
        destruct res as [[]|]; cbn in Ep; congruence. }
      apply runs_ret in H4 as [<- ->]. rewrite app_nil_r in *. destruct (decide (0 ≤ i < 0 + m)%nat) as [Hm|Hm].
      * destruct Hat as (res' & Hat & Hg). exists 1%nat, [(CWrite r, res')], []. split; [split_and!|by intros [=]]; [|cbn; by repeat constructor|cbn; lia|by left]. rewrite at_app, Hat. unfold at_store. cbn. by rewrite decide_False by lia.
      * destruct (decide (i = m)) as [->|Hne].
        -- exists 0%nat, [], [(CWrite r, res)]. split; [split_and!|by intros [=]]; [|constructor|lia|right; exists r, res, e; done]. rewrite at_app, Hat. unfold at_store. cbn. by rewrite decide_True by lia.
        -- exists 0%nat, [], []. split; [split_and!|by intros [=]]; [|constructor|lia|by left]. rewrite at_app, Hat. unfold at_store. cbn. by rewrite decide_False by lia.
Qed.

(** ** the handler of a request that carries lines *)
Lemma before_out e b ls w : lines_before b ls w → scan_out e b ls (if w then scan_error (Some e) else Some ErrTooLong).
Proof.
  unfold lines_before. destruct w.
  - intros [H1 H2]. by apply text_out.
  - intros (b1 & long & rest & -> & H1 & H2 & H3 & H4 & H5). apply long_out; try done; [|rewrite app_length; lia].
    rewrite take_app_le by lia. intros Hin. apply H4. rewrite <- (take_drop (Z.to_nat line_limit) long). apply elem_of_app. by left.
Qed.
Lemma handle_carries rq ls w : carries pm rq ls w →
  (∃ serr, handle rq = h_lines et cs (rq_ctx rq) ls serr ∧ (serr = None → w = true)) ∨
  (ls = [] ∧ w = true ∧ ∀ tr h', runs (handle rq) tr h' → reads_only tr).
Proof.
  assert (to_obs rq → handle rq = h_recv et pm cs rq) as Ho.
  { intros (Hm & Hp & Hs). unfold ServerConcModel.handle. rewrite Hs, Hp, Hm. change (mux_route _ (str "/obs")) with RObs. cbn iota. by rewrite decide_True. }
  intros [Hn|ls' w' H1 H2 H3|ls' w' b H1 H2 Hy H3|ls' w' b H1 H2 Hy H3].
  - right. split; [done|]. split; [done|]. intros tr h'. destruct (decide (rq_method rq = str "POST")) as [Hm|]; [|by apply handle_other; left]. destruct (decide (rq_path rq = str "/obs")) as [Hp|]; [|by apply handle_other; right].
    destruct (rq_star rq) eqn:Hs; [unfold ServerConcModel.handle; rewrite Hs; apply runs_nil|]. rewrite Ho by done. unfold h_recv. destruct (contentType pm rq) as [ct|] eqn:Ect; [|apply runs_nil].
    destruct (decide (ct = str "application/x-www-form-urlencoded")) as [->|Hf].
    { exfalso. apply Hn. split; [done|]. left. exact Ect. }
    destruct (decide (ct = str "text/plain" ∨ ct = str "application/octet-stream")) as [Hb|Hb]; [|apply runs_nil]. exfalso. apply Hn. split; [done|]. right. unfold by_body. rewrite Ect. destruct Hb as [->| ->]; rewrite !elem_of_cons; naive_solver.
  - rewrite (Ho H1). unfold h_recv. rewrite H2. rewrite decide_True by done. destruct (decide (rq_form rq (str "data") = [])) as [E|Hne].
    + right. rewrite E in H3. unfold lines_before in H3. destruct w'.
      * split; [|split; [done|]; intros tr h'; apply runs_nil]. destruct H3 as [H3 _]. inversion H3; subst; try done; by destruct l.
      * exfalso. destruct H3 as (b1 & long & rest & E1 & _ & _ & _ & _ & Hl). symmetry in E1. apply app_nil in E1 as [_ E1]. apply app_nil in E1 as [-> _]. cbn in Hl. unfold line_limit in Hl. lia.
    + left. unfold h_body. rewrite (tokens_out [EvData (rq_form rq (str "data"))] (rq_form rq (str "data")) ErrEOF ls' (if w' then None else Some ErrTooLong)).
      * eexists. split; [done|]. by destruct w'.
      * rewrite <- (app_nil_r (rq_form rq (str "data"))) at 2. constructor; [done|constructor].
      * apply (before_out ErrEOF) in H3. by destruct w'.
  - left. rewrite (Ho H1). unfold h_recv, by_body in *. rewrite !elem_of_cons, elem_of_nil in H2.
    assert (h_body et cs (rq_ctx rq) (rq_body rq) = h_lines et cs (rq_ctx rq) ls' (if w' then None else Some ErrTooLong)) as E.
    { unfold h_body. rewrite (tokens_out (rq_body rq) b ErrEOF ls' (if w' then None else Some ErrTooLong) Hy); [done|]. apply (before_out ErrEOF) in H3. by destruct w'. }
    exists (if w' then None else Some ErrTooLong). split; [|by destruct w']. destruct H2 as [->|[->|[]]]; (rewrite decide_False by done); (rewrite decide_True by auto); exact E.
  - left. rewrite (Ho H1). unfold h_recv, by_body in *. rewrite !elem_of_cons, elem_of_nil in H2.
    assert (h_body et cs (rq_ctx rq) (rq_body rq) = h_lines et cs (rq_ctx rq) ls' (if w' then Some ErrRead else Some ErrTooLong)) as E.
    { unfold h_body. rewrite (tokens_out (rq_body rq) b ErrRead ls' (if w' then Some ErrRead else Some ErrTooLong) Hy); [done|]. apply (before_out ErrRead) in H3. by destruct w'. }
    exists (if w' then Some ErrRead else Some ErrTooLong). split; [|by destruct w']. destruct H2 as [->|[->|[]]]; (rewrite decide_False by done); (rewrite decide_True by auto); exact E.
Qed.

(** ** what is left of a request in a store *)
Section answered.
Context (v : vcfg) (h : list vevent) (rs : list response) (V : vinv v h) (A : answered v rs).
Context (lines : nat → list bytes) (whole : nat → bool) (rows : nat → list Row) (B : brought pm rqs lines whole rows).
Context (i : nat) (l : Z) (s : Schema) (Lc : c !! i = Some (l, s)).
Notation marks := (marks pf s).
Notation tmarks := (tmarks pf s).
Notation zero := (zero s).
Lemma all_fine_calls t : (t < n)%nat → fine (rets t h).
Proof.
  intros Ht j r res l' s' Hin Lc'. destruct (vi_stores _ _ _ _ _ _ _ _ _ _ V j l' s' Lc') as (g & acts & Lg & HF & Ex). destruct (dims_at c Hc j l' s' Lc') as [Hs Hd].
  apply (proj2 (C84_never_panics pf est s' (impl j) l' Hs Hd (Himpl j l' s' Lc') n acts g (proj j h) HF Ex) t). exact (ret_event h t j _ _ Hin).
Qed.
Lemma thread_did t k : k ≠ 0 → did s k (at_store i (rets t h)) (tmarks t k zero (proj i h)).
Proof.
  intros H0. destruct (vi_stores _ _ _ _ _ _ _ _ _ _ V i l s Lc) as (g & acts & Lg & HF & Ex). destruct (dims_at c Hc i l s Lc) as [Hs Hd].
  pose proof (sexecution_tinv pf s (impl i) l Hs Hd (Himpl i l s Lc) k n acts g (proj i h) H0 HF Ex t) as Hi. rewrite <- trets_proj. unfold tst in Hi.
  destruct (g_calls g !! t) as [[sc|]|] eqn:L; [|exact Hi..]. by apply (all_quiet est ff et pm order c impl rqs v h rs i l s g V A Lc Lg) in L.
Qed.
Lemma did_empty k D : did s k [] D → D = [].
Proof.
  intros H. remember (@nil (scall * option res)) as R eqn:E. destruct H as [|R' ? ? ? ? ?|R' ? ? ? ?|R' ? ? ? ? ?|R' ? ? ? ?]; [done|by destruct R'..].
Qed.
Lemma did_last k R sc res D : did s k (R ++ [(sc, res)]) D →
  ((∀ r, sc = CWrite r → row_key s r ≠ Some k) ∧ did s k R D) ∨
  ∃ r, sc = CWrite r ∧ row_key s r = Some k ∧
    ((res = Some (RUpdate (Ok ())) ∧ ∃ D', D = D' ++ [(r, true)] ∧ did s k R D') ∨ (∃ e D', res = Some (RUpdate (Err e)) ∧ D = D' ++ [(r, false)] ∧ did s k R D') ∨ (res = Some (RUpdate (Err ErrOutOfSlots)) ∧ did s k R D)).
Proof.
  intros H. remember (R ++ [(sc, res)]) as RR eqn:E. destruct H as [|R' D sc' res' Hn H|R' D r Ek H|R' D r e Ek H|R' D r Ek H].
  - by destruct R.
  - apply app_inj_tail in E as [-> [= -> ->]]. by left.
  - apply app_inj_tail in E as [-> [= <- <-]]. right. exists r. split; [done|]. split; [done|]. left. eauto.
  - apply app_inj_tail in E as [-> [= <- <-]]. right. exists r. split; [done|]. split; [done|]. right. left. eauto.
  - apply app_inj_tail in E as [-> [= <- <-]]. right. exists r. split; [done|]. split; [done|]. right. right. eauto.
Qed.
Lemma rows_for_app k a b : rows_for s k (a ++ b) = rows_for s k a ++ rows_for s k b.
Proof. apply filter_app. Qed.
Lemma rows_for_one k r : rows_for s k [r] = if decide (row_key s r = Some k) then [r] else [].
Proof. unfold rows_for. rewrite filter_cons, filter_nil. done. Qed.
Lemma did_oks k rws oks D : Forall2 (λ r x, x.1 = CWrite r ∧ good (i, CWrite r, x.2)) rws oks → did s k oks D → D = map (λ r, (r, true)) (rows_for s k rws).
Proof.
  revert oks D. induction rws as [|r rws IH] using rev_ind; intros oks D HF Hd.
  - apply Forall2_nil_inv_l in HF as ->. by apply did_empty in Hd.
  - apply Forall2_app_inv_l in HF as (o1 & o2 & H1 & H2 & ->). apply Forall2_cons_inv_l in H2 as ([sc res] & o3 & (Esc & Hg) & H3 & ->). cbn [fst snd] in *. subst sc. apply Forall2_nil_inv_l in H3 as ->. rewrite rows_for_app, map_app, rows_for_one.
    destruct (did_last _ _ _ _ _ Hd) as [[Hn Hd']|(r' & [= <-] & Ek & Hcase)].
    + specialize (Hn r eq_refl). rewrite decide_False by done. rewrite app_nil_r. by eapply IH.
    + rewrite decide_True by done. destruct Hg as (l' & s' & Lc' & Hrep). cbn [fst snd] in *. rewrite Lc in Lc'. injection Lc' as <- <-. destruct Hcase as [(-> & D' & -> & Hd')|[(e & D' & -> & _)|(-> & _)]]; [|done..]. f_equal. by eapply IH.
Qed.
Definition left_by (t : nat) (k : Z) (took : nat) (cut : option Row) : list (Row * bool) :=
  map (λ r, (r, true)) (rows_for s k (take took (rows t))) ++ map (λ r, (r, false)) (rows_for s k (option_list cut)).
Lemma thread_share t : (t < n)%nat → ∃ x : nat * option Row, (∀ rq R, rqs !! t = Some rq → rs !! t = Some R → share et rq R (lines t) (whole t) (rows t) x.1 x.2) ∧
  ∀ k, k ≠ 0 → tmarks t k zero (proj i h) = left_by t k x.1 x.2.
Proof.
  intros Ht. destruct (request_events est ff et pm order c impl rqs v h rs V A t Ht) as (rq & R & mid & Lr & Lrs & Et & Hs & Hr & Hi). destruct (B t rq Lr) as [Hca Hle].
  assert (i < length c)%nat as Hlt by (by eapply lookup_lt_Some). pose proof (all_fine_calls t Ht) as Hf.
  destruct (handle_carries rq (lines t) (whole t) Hca) as [(serr & Eh & Hw)|(El & Ew & Hro)].
  - rewrite Eh in Hr. destruct (mixed_lines i _ _ serr R Hlt Hle _ _ Hr Hf) as (took & oks & tl & (P1 & P2 & P3 & P4) & HR).
    assert (∀ cut, (∀ r, cut = Some r → rows t !! took = Some r ∧ ∃ e, R = http_error 500 (et e)) → ∀ rq' R', rqs !! t = Some rq' → rs !! t = Some R' → share et rq' R' (lines t) (whole t) (rows t) took cut) as Hsh.
    { intros cut Hcut rq' R' L1 L2. rewrite Lr in L1. injection L1 as <-. rewrite Lrs in L2. injection L2 as <-. split; [done|]. split; [done|]. intros E1 E2. destruct (HR E1 E2) as (E3 & H4 & H5). auto. }
    assert (∀ k, k ≠ 0 → tl = [] ∨ (∀ r res, tl = [(CWrite r, res)] → row_key s r ≠ Some k) → tmarks t k zero (proj i h) = left_by t k took None) as Hnone.
    { intros k H0 Htl. pose proof (thread_did t k H0) as Hd. rewrite P1 in Hd. unfold left_by. rewrite app_nil_r. destruct P4 as [->|(r & res & e & -> & _)].
      - rewrite app_nil_r in Hd. by eapply did_oks.
      - destruct Htl as [|Htl]; [done|]. destruct (did_last _ _ _ _ _ Hd) as [[_ Hd']|(r' & [= <-] & Ek & _)]; [by eapply did_oks|]. by destruct (Htl r res eq_refl). }
    destruct P4 as [->|(r & res & e & -> & Hat & Hfl & HRe)].
    { exists (took, None). split; [by apply Hsh|]. intros k H0. apply Hnone; [done|by left]. }
    assert ((∃ k, row_key s r = Some k ∧ k ≠ 0) ∨ ∀ k, k ≠ 0 → row_key s r ≠ Some k) as [(k & Ek & H0)|Hno].
    { destruct (row_key s r) as [k|]; [|right; naive_solver]. destruct (decide (k = 0)) as [->|Hk]; [right; naive_solver|left; eauto]. }
    2:{ exists (took, None). split; [by apply Hsh|]. intros k H0. apply Hnone; [done|]. right. intros r' res' [= <- <-]. by apply Hno. }
    pose proof (thread_did t k H0) as Hd. rewrite P1 in Hd. destruct (did_last _ _ _ _ _ Hd) as [[Hn _]|(r' & [= <-] & _ & Hcase)]; [by destruct (Hn r eq_refl)|].
    destruct Hfl as (l' & s' & Lc' & Hrep & _). cbn [fst snd] in *. rewrite Lc in Lc'. injection Lc' as <- <-. destruct Hcase as [(-> & _)|[(e' & D' & Er & ED & Hd')|(Er & Hd')]]; [done| |].
    + exists (took, Some r). split. { apply Hsh. intros r' [= <-]. split; [done|]. eauto. }
      intros k' H0'. cbn [fst snd]. destruct (decide (k' = k)) as [->|Hne].
      * rewrite ED. unfold left_by. change (option_list (Some r)) with [r]. rewrite rows_for_one, decide_True by done. cbn [map]. f_equal. by eapply did_oks.
      * rewrite (Hnone k' H0'); [|right; intros r' res' [= <- <-]; congruence]. unfold left_by. change (option_list (Some r)) with [r]. rewrite rows_for_one, decide_False by congruence. done.
    + exists (took, None). split; [by apply Hsh|]. intros k' H0'. destruct (decide (k' = k)) as [->|Hne].
      * unfold left_by. cbn [fst snd]. change (rows_for s k (option_list None)) with (@nil Row). cbn [map]. rewrite app_nil_r. by eapply did_oks.
      * apply Hnone; [done|]. right. intros r' res' [= <- <-]. congruence.
  - specialize (Hro _ _ Hr). rewrite El in Hle. assert (rows t = []) as E1 by (by inversion Hle). exists (0%nat, None). split.
    { intros rq' R' L1 L2. cbn [fst snd]. rewrite El, E1. split; [done|]. split; [done|]. intros _ _. split_and!; try done. }
    intros k H0. cbn [fst snd]. unfold left_by. rewrite E1. cbn. pose proof (thread_did t k H0) as Hd.
    assert (Forall (λ x : scall * option res, ∃ q, x.1 = CRead q) (at_store i (rets t h))) as Hat. { apply Forall_forall. intros [sc res] Hin. unfold at_store in Hin. apply elem_of_list_omap in Hin as ([[j sc'] res'] & Hin & E). cbn in E. destruct (decide (j = i)); [|done]. injection E as <- <-. unfold reads_only in Hro. rewrite Forall_forall in Hro. exact (Hro _ Hin). }
    revert Hat Hd. generalize (at_store i (rets t h)) (tmarks t k zero (proj i h)). intros R0 D0. induction R0 as [|[sc res] R0 IH] using rev_ind; intros Hat Hd.
    + by apply did_empty in Hd.
    + apply Forall_app in Hat as [Hat Hl]. apply Forall_cons in Hl as [[q Hq] _]. cbn in Hq. subst sc. destruct (did_last _ _ _ _ _ Hd) as [[_ Hd']|(r' & [=] & _)]. by apply IH.
Qed.

(** ** all requests together *)
Context (took : nat → nat) (cut : nat → option Row) (HT : ∀ t, (t < n)%nat → ∀ k, k ≠ 0 → tmarks t k zero (proj i h) = left_by t k (took t) (cut t)).
Notation touched := (touched rows took cut).
Lemma marks_thread k d h' : Forall (λ x, ∃ r init, SDone x.1 k r init ∈ h') (marks k d h').
Proof.
  revert d. induction h' as [|e h' IH]; intros d; [constructor|]. assert (∀ d, Forall (λ x, ∃ r init, SDone x.1 k r init ∈ e :: h') (marks k d h')) as G.
  { intros d0. eapply Forall_impl; [apply IH|]. intros x (r & init & Hin). exists r, init. by right. }
  destruct e as [t sc|t k'|t k' r init|t k' r init|t sc res]; cbn [StoreConcMixed.marks]; try apply G. destruct (decide (k' = k)) as [->|]; [|apply G]. constructor; [|apply G]. exists r, init. left.
Qed.
Lemma marks_lt k d h1 h2 : h = h1 ++ h2 → Forall (λ x, x.1 < n)%nat (marks k d (proj i h1)).
Proof.
  intros E. eapply Forall_impl; [apply marks_thread|]. intros x (r & init & Hin). unfold proj in Hin. apply elem_of_list_omap in Hin as (e & He & Ee). destruct e as [|j e|]; [done| |done]. destruct (decide (j = i)); [|done]. injection Ee as ->.
  pose proof (vi_thr _ _ _ _ _ _ _ _ _ _ V) as Hthr. rewrite Forall_forall in Hthr. apply (Hthr (VStore j (SDone x.1 k r init))). rewrite E. apply elem_of_app. by left.
Qed.
Lemma map_mjoin {X Y Z0} (f : X → Y) (g : Z0 → list X) ts : map f (mjoin (map g ts)) = mjoin (map (λ t, map f (g t)) ts).
Proof. induction ts as [|t ts IH]; [done|]. cbn [map mjoin list_join]. rewrite map_app. f_equal. exact IH. Qed.
Lemma marks_by_thread k d h1 h2 : h = h1 ++ h2 → map snd (marks k d (proj i h1)) ≡ₚ mjoin (map (λ t, tmarks t k d (proj i h1)) (seq 0 n)).
Proof.
  intros E. etransitivity; [apply (Permutation_map snd), (filter_partition fst n); exact (marks_lt k d h1 h2 E)|]. rewrite map_mjoin. done.
Qed.
Lemma mjoin_cons {Y} (x : list Y) y : mjoin (x :: y) = x ++ mjoin y.
Proof. done. Qed.
Lemma mjoin_perm2 {X Y} (f g1 : X → list Y) (ts : list X) : mjoin (map (λ t, f t ++ g1 t) ts) ≡ₚ mjoin (map f ts) ++ mjoin (map g1 ts).
Proof.
  induction ts as [|t ts IH]; [done|]. cbn [map]. rewrite !mjoin_cons. rewrite IH. rewrite <- !app_assoc. apply Permutation_app_head. rewrite !app_assoc. apply Permutation_app_tail, Permutation_app_comm.
Qed.
Lemma all_marks k : k ≠ 0 → map snd (marks k zero (proj i h)) ≡ₚ
  map (λ r, (r, true)) (rows_for s k (rows_of (λ t, take (took t) (rows t)) (seq 0 n))) ++ map (λ r, (r, false)) (rows_for s k (omap cut (seq 0 n))).
Proof.
  intros H0. rewrite (marks_by_thread k zero h []) by (by rewrite app_nil_r). transitivity (mjoin (map (λ t, left_by t k (took t) (cut t)) (seq 0 n))).
  - apply Permutation_refl'. f_equal. apply map_ext_in. intros t Ht. apply in_seq in Ht. apply HT; [lia|done].
  - unfold left_by. rewrite (mjoin_perm2 (λ t, map (λ r, (r, true)) (rows_for s k (take (took t) (rows t)))) (λ t, map (λ r, (r, false)) (rows_for s k (option_list (cut t))))). apply Permutation_refl'. f_equal.
    + unfold rows_of. rewrite rows_for_mjoin, map_map, map_mjoin. done.
    + rewrite <- map_mjoin. f_equal. clear. induction (seq 0 n) as [|t ts IH]; [done|]. cbn [map]. rewrite mjoin_cons, IH. change (omap cut (t :: ts)) with (match cut t with Some y => y :: omap cut ts | None => omap cut ts end). destruct (cut t) as [r|]; [|done]. change (r :: omap cut ts) with ([r] ++ omap cut ts). by rewrite rows_for_app.
Qed.
Lemma mark_rows t k : map fst (left_by t k (took t) (cut t)) = rows_for s k (touched t).
Proof. unfold left_by, ServerMixedSpec.touched. rewrite map_app, !map_map, rows_for_app. cbn. by rewrite !map_id. Qed.
Lemma marks_before k h1 h2 : k ≠ 0 → h = h1 ++ h2 → let o1 := map fst (map snd (marks k zero (proj i h1))) in
  rows_for s k (rows_of touched (finished h1)) ⊆+ o1 ∧ o1 ⊆+ rows_for s k (rows_of touched (arrived h1)).
Proof.
  intros H0 E o1. assert (o1 ≡ₚ mjoin (map (λ t, map fst (tmarks t k zero (proj i h1))) (seq 0 n))) as Ho. { unfold o1. rewrite (Permutation_map fst (marks_by_thread k zero h1 h2 E)). by rewrite map_mjoin. }
  assert (∀ t, (t < n)%nat → tmarks t k zero (proj i h) = tmarks t k zero (proj i h1) ++ tmarks t k (after pf s k zero (proj i h1)) (proj i h2)) as Hsp. { intros t Ht. by rewrite E, proj_app, tmarks_app. }
  unfold rows_of. rewrite !rows_for_mjoin, !map_map. split.
  - rewrite Ho. etrans; [apply (submseteq_mjoin (λ t, rows_for s k (touched t)) _ (filter (λ t, t ∈ finished h1) (seq 0 n)))|].
    + apply NoDup_submseteq; [by eapply (finished_nodup est ff et pm order c impl rqs v h rs V A)|]. intros t Ht. apply elem_of_list_filter. split; [done|]. apply elem_of_seq. pose proof (finished_lt est ff et pm order c impl rqs v h V h1 h2 t E Ht). lia.
    + etrans; [apply (submseteq_join_pointwise _ (λ t, map fst (tmarks t k zero (proj i h1))))|].
      * intros t Ht. apply elem_of_list_filter in Ht as [Hf Ht]. apply elem_of_seq in Ht. unfold finished in Hf. apply elem_of_list_omap in Hf as (e & He & Ee). destruct e as [| |t' r']; [done..|]. injection Ee as ->.
        apply elem_of_list_split in He as (a & b & E1). assert (h = a ++ VAnswer t r' :: b ++ h2) as E'. { rewrite E, E1, <- app_assoc. done. } destruct (answer_last est ff et pm order c impl rqs v h rs V A _ _ _ _ E') as (_ & Hn & _).
        rewrite th_app in Hn. apply app_nil in Hn as [_ Hn]. rewrite <- mark_rows, <- (HT t ltac:(lia) k H0), (Hsp t ltac:(lia)), (other_marks pf s t k _ (proj i h2)) by (by apply other_proj). by rewrite app_nil_r.
      * apply submseteq_mjoin. apply NoDup_submseteq; [apply NoDup_filter, NoDup_ListNoDup, seq_NoDup|]. intros t Ht. by apply elem_of_list_filter in Ht as [_ ?].
  - rewrite Ho. rewrite (join_filter (λ t, t ∈ arrived h1)).
    + etrans; [apply (submseteq_join_pointwise _ (λ t, rows_for s k (touched t)))|].
      * intros t Ht. apply elem_of_list_filter in Ht as [_ Ht]. apply elem_of_seq in Ht. rewrite <- mark_rows, <- (HT t ltac:(lia) k H0), (Hsp t ltac:(lia)), map_app. by apply submseteq_inserts_r.
      * apply submseteq_mjoin. apply NoDup_submseteq; [apply NoDup_filter, NoDup_ListNoDup, seq_NoDup|]. intros t Ht. by apply elem_of_list_filter in Ht as [? _].
    + intros t Ht Hna. apply elem_of_seq in Ht. rewrite (other_marks pf s t k _ (proj i h1)); [done|]. apply other_proj. destruct (request_events est ff et pm order c impl rqs v h rs V A t ltac:(lia)) as (rq & r & mid & _ & _ & Et & _). rewrite E, th_app in Et. destruct (th t h1) as [|e l1] eqn:E1; [done|]. exfalso. injection Et as -> _.
      apply Hna. unfold arrived. apply elem_of_list_omap. exists (VBegin t). split; [|done]. assert (VBegin t ∈ th t h1) as Hin by (rewrite E1; left). unfold th in Hin. by apply elem_of_list_filter in Hin as [_ ?].
Qed.
End answered.
End mixed.
