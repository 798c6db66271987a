From Coq Require Import ZifyBool ZifyNat.
From Verif Require Import Base BaseProofs Float64 FnvSpec HllModel CollationModel CollationSpec CollationProofs CollationTop CollationTop2 BufmapModel BufmapSpec RegexpModel RegexpProofs QueryModel Probe
  BufconcModel BufconcSpec BufconcInv ServerModel ServerSpec ParseRowProofs ServerProofs StoreProofs ServerInv ServerTop StoreConcModel StoreConcSpec StoreConcProofs StoreConcTop StoreConcTop2 StoreConcTop3 ServerConcModel ServerConcSpec.
Local Open Scope Z_scope.

(** ** one step of a store, seen by its goroutine *)
Definition inner (es : list sevent) : Prop := Forall (λ e, match e with SInv _ _ | SRet _ _ _ => False | _ => True end) es.
Definition sthread (e : sevent) : nat := match e with SInv t _ | SBegin t _ | SDone t _ _ _ | SPanic t _ _ _ | SRet t _ _ => t end.
Lemma call_step s impl g t sc g' es : winv s impl g → g_calls g !! t = Some None → sstep (Compile s) impl g (SCall t sc) = (g', es) →
  (es = [SInv t sc; SRet t sc None] ∧ g_calls g' = g_calls g) ∨ (es = [SInv t sc] ∧ g_calls g' = <[t := Some sc]> (g_calls g)).
Proof.
  intros W L. cbn [sstep]. rewrite L. destruct (op_of _ _ _) as [o|]; intros [= <- <-]; [right|left]; done.
Qed.
Lemma go_step s impl g t sc g' es : winv s impl g → g_calls g !! t = Some (Some sc) → sstep (Compile s) impl g (SStep t) = (g', es) →
  (∃ r, es = [SRet t sc r] ∧ g_calls g' = <[t := None]> (g_calls g)) ∨ (inner es ∧ Forall (λ e, sthread e = t) es ∧ g_calls g' = g_calls g).
Proof.
  intros W L E. apply sstep_shape in E as [(-> & _ & [->|(t' & sc' & [=] & _)])|[(t' & sc' & o & [=] & _)|[(t' & sc' & o & r & [= <-] & Eo & Lg & _ & -> & -> & _)|(t' & sc' & o & p & m & p' & es0 & [= <-] & Eo & Lg & _ & _ & _ & -> & _ & _ & Hes)]]]; [..|done].
  - right. split; [constructor|]. by split; [constructor|].
  - left. rewrite L in Lg. injection Lg as <-. eauto.
  - right. destruct Hes as [->|(k & r & x & init & _ & _ & [(_ & ->)|[(res & _ & ->)|(q & _ & ->)]])]; (split; [repeat constructor|split; [by repeat constructor|done]]).
Qed.

(** ** histories of the server *)
Definition vthread (e : vevent) : nat := match e with VBegin t | VAnswer t _ => t | VStore _ e => sthread e end.
Definition th (t : nat) (h : list vevent) : list vevent := filter (λ e, vthread e = t) h.
Definition store_only (h : list vevent) : Prop := Forall (λ e, match e with VStore _ _ => True | _ => False end) h.
Definition proj (i : nat) (h : list vevent) : list sevent := omap (λ e, match e with VStore j e => if decide (j = i) then Some e else None | _ => None end) h.
Definition inv1 (e : vevent) : option (nat * scall) := match e with VStore i (SInv _ sc) => Some (i, sc) | _ => None end.
Definition ret1 (e : vevent) : option (nat * scall * option res) := match e with VStore i (SRet _ sc r) => Some (i, sc, r) | _ => None end.
Definition invs (t : nat) (h : list vevent) := omap inv1 (th t h).
Definition rets (t : nat) (h : list vevent) := omap ret1 (th t h).
Lemma th_app t a b : th t (a ++ b) = th t a ++ th t b.
Proof. apply filter_app. Qed.
Lemma proj_app i a b : proj i (a ++ b) = proj i a ++ proj i b.
Proof. apply omap_app. Qed.
Lemma invs_app t a b : invs t (a ++ b) = invs t a ++ invs t b.
Proof. unfold invs. by rewrite th_app, omap_app. Qed.
Lemma rets_app t a b : rets t (a ++ b) = rets t a ++ rets t b.
Proof. unfold rets. by rewrite th_app, omap_app. Qed.
Lemma th_mine t h : Forall (λ e, vthread e = t) h → th t h = h.
Proof. induction 1 as [|e h He H IH]; [done|]. unfold th in *. by rewrite filter_cons_True, IH. Qed.
Lemma th_other t h : Forall (λ e, vthread e ≠ t) h → th t h = [].
Proof. induction 1 as [|e h He H IH]; [done|]. unfold th in *. by rewrite filter_cons_False. Qed.
Lemma proj_same i es : proj i (map (VStore i) es) = es.
Proof. induction es as [|e es IH]; [done|]. cbn. rewrite decide_True by done. by f_equal. Qed.
Lemma proj_other i j es : i ≠ j → proj i (map (VStore j) es) = [].
Proof. intros Hne. induction es as [|e es IH]; [done|]. cbn. by rewrite decide_False. Qed.

(** ** what a query is made of are parts of its text *)
Lemma matches_bytes r : ∀ s g t, (g, t) ∈ matches r s → is_bytes s → Forall is_bytes g ∧ is_bytes t.
Proof.
  induction r as [p|p|p|r1 IH1 r2 IH2|r1 IH1 r2 IH2|r IH|]; intros s g t Hin Hs.
  - apply in_cls in Hin as (-> & d & -> & _). inversion_clear Hs. split; [constructor|done].
  - apply in_plus in Hin as (-> & w & -> & _). apply Forall_app in Hs as [_ ?]. split; [constructor|done].
  - apply in_star in Hin as (-> & w & -> & _). apply Forall_app in Hs as [_ ?]. split; [constructor|done].
  - apply in_cat in Hin as (c1 & s1 & c2 & H1 & H2 & ->). destruct (IH1 _ _ _ H1 Hs) as [? Hs1]. destruct (IH2 _ _ _ H2 Hs1) as [? ?]. split; [by apply Forall_app|done].
  - apply in_alt in Hin as [H|H]; eauto.
  - cbn [matches] in Hin. apply elem_of_list_In, in_map_iff in Hin as ((c0 & s0) & [= <- <-] & Hin). apply elem_of_list_In in Hin. destruct (IH _ _ _ Hin Hs) as [? ?]. split; [|done]. constructor; [by apply Forall_take|done].
  - apply in_end in Hin as (-> & -> & ->). split; constructor.
Qed.
Lemma find_all_bytes r s : is_bytes s → Forall (Forall is_bytes) (find_all r s).
Proof.
  unfold find_all. generalize (S (length s)) as m. intros m. revert s. induction m as [|m IH]; intros s Hs; cbn [find_all_n]; [constructor|]. destruct (matches r s) as [|[g t] ms] eqn:E.
  - destruct s as [|x s]; [constructor|]. apply IH. by inversion_clear Hs.
  - assert ((g, t) ∈ matches r s) as Hin by (rewrite E; left). destruct (matches_bytes _ _ _ _ Hin Hs) as [? ?]. constructor; [done|by apply IH].
Qed.
Lemma parse_bytes order s q : is_bytes s → RoughParse order s = Ok q → Forall (λ fv, is_bytes (fv_F fv) ∧ is_bytes (fv_V fv)) (q_crit q).
Proof.
  intros Hs. unfold RoughParse, find_anchored. destruct (matches queryRe s) as [|[g t] ms] eqn:E; [done|]. assert ((g, t) ∈ matches queryRe s) as Hin by (rewrite E; left).
  destruct (matches_bytes _ _ _ _ Hin Hs) as [Hg _]. destruct g as [|sel [|whr []]]; try done. intros [= <-]. cbn [q_crit]. inversion_clear Hg as [|? ? _ Hg']. inversion_clear Hg' as [|? ? Hw _].
  pose proof (find_all_bytes whereRe whr Hw) as HF. apply Forall_forall. intros fv Hfv. apply elem_of_list_In, in_map_iff in Hfv as (g & <- & Hg). apply elem_of_list_In in Hg. rewrite Forall_forall in HF. specialize (HF _ Hg).
  destruct g as [|k [|v []]]; cbn; try (split; constructor). inversion_clear HF as [|? ? ? HF']. by inversion_clear HF'.
Qed.

Section conc.
Context (pf : bytes → option float) (est : Counter → Z) (ff : float → bytes) (et : error → bytes) (pm : bytes → option bytes) (order : list FM → list FM).
Context (c : list (Z * Schema)) (impl : nat → Row → bool → prog) (Hc : cfg_ok c) (rqs : list request) (Hrq : Forall request_ok rqs).
Notation cs := (map (λ ls : Z * Schema, Compile ls.2) c).
Notation n := (length rqs).
Notation handle := (handle ff et pm order cs).
Notation vstep := (vstep est ff et pm order cs impl rqs).
Notation vexec := (vexec est ff et pm order cs impl rqs).

(** ** handlers call stores that exist, with bytes *)
Fixpoint hok (h : handler) : Prop :=
  match h with HRet _ => True | HCall i sc k => (i < length c)%nat ∧ call_ok sc ∧ ∀ rep, hok (k rep) end.
Lemma hok_write r k : Forall (λ fv, is_bytes (fv_F fv) ∧ is_bytes (fv_V fv)) (row_data r) → (∀ cx o, hok (k cx o)) → ∀ cs' i cx, (i + length cs' = length c)%nat → hok (h_write cs' i cx r k).
Proof.
  intros Hr Hk cs'. induction cs' as [|c0 cs' IH]; intros i cx Hi; cbn [h_write]; [apply Hk|]. cbn in Hi.
  destruct (if (Row_KeyValue r (c_keys c0)).2 then ctx_done cx else (false, cx)) as [[] cx']; [apply Hk|]. cbn [hok]. split; [lia|]. split; [done|].
  intros [[[u|e|]| |]|a]; try apply Hk; [apply IH; lia|done].
Qed.
Lemma hok_lines lines serr : Forall is_bytes lines → ∀ cx, hok (h_lines et cs cx lines serr).
Proof.
  induction 1 as [|line lines Hl HF IH]; intros cx; cbn [h_lines]; [done|]. destruct (ctx_done cx) as [[] cx']; [done|]. destruct (parseRow line) as [row|e|] eqn:Ep; [|done..].
  apply hok_write; [|intros cx1 [[u|e|]| |]; try done; apply IH|by rewrite map_length]. exact (parseRow_bytes _ _ Hl Ep).
Qed.
Lemma hok_body cx r : Forall ev_ok r → hok (h_body et cs cx r).
Proof. intros Hr. unfold h_body. destruct (tokens r) as [[lines e]|] eqn:E; [|done]. apply hok_lines. by eapply tokens_bytes. Qed.
Lemma hok_stores name q : Forall (λ fv, is_bytes (fv_F fv) ∧ is_bytes (fv_V fv)) (q_crit q) → ∀ cs' i, (i + length cs' = length c)%nat → hok (h_stores ff et name q cs' i).
Proof.
  intros Hq cs'. induction cs' as [|c0 cs' IH]; intros i Hi; cbn [h_stores]; [done|]. cbn in Hi. destruct (decide _); [|apply IH; lia]. cbn [hok]. split; [lia|]. split; [done|]. intros rep. exact I.
Qed.
Lemma hok_handle rq : request_ok rq → hok (handle rq).
Proof.
  intros [Hb Hf]. unfold ServerConcModel.handle. destruct (rq_star rq); [done|]. destruct (mux_route _ _) as [| | |rest]; [done..| |].
  - destruct (decide _); [|done]. unfold h_recv. destruct (contentType pm rq) as [ct|]; [|done]. destruct (decide _).
    + destruct (decide _); [done|]. apply hok_body. constructor; [apply Hf|constructor].
    + destruct (decide _); [|done]. apply hok_body. exact Hb.
  - destruct (decide _); [done|]. destruct (decide _); [done|]. destruct (decide _); [done|]. unfold h_query. destruct (RoughParse _ _) as [q|e|] eqn:Ep; [|done..].
    apply hok_stores; [|by rewrite map_length]. by eapply parse_bytes.
Qed.

(** ** a request follows its handler *)
Fixpoint runs (h : handler) (tr : list (nat * scall * option res)) (h' : handler) : Prop :=
  match tr with
  | [] => h' = h
  | (i, sc, r) :: tr => ∃ l s k, h = HCall i sc k ∧ c !! i = Some (l, s) ∧ runs (k (reply est (Compile s) sc r)) tr h'
  end.
Lemma runs_snoc h tr i sc k r l s : c !! i = Some (l, s) → runs h tr (HCall i sc k) → runs h (tr ++ [(i, sc, r)]) (k (reply est (Compile s) sc r)).
Proof.
  intros Lc. revert h. induction tr as [|[[j sc'] r'] tr IH]; intros h; cbn [runs app]; [intros <-; exists l, s, k; done|].
  intros (l' & s' & k' & -> & L' & Hr). exists l', s', k'. split; [done|]. split; [done|]. by apply IH.
Qed.
Definition idle (v : vcfg) (t : nat) : Prop := ∀ i g, v_stores v !! i = Some g → g_calls g !! t = Some None.
Definition rq_inv (v : vcfg) (h : list vevent) (t : nat) (rq : request) (x : rstate) : Prop :=
  match x with
  | RWait => th t h = [] ∧ idle v t
  | RRun hd => hok hd ∧ runs (handle rq) (rets t h) hd ∧ invs t h = map fst (rets t h) ∧ (∃ mid, th t h = VBegin t :: mid ∧ store_only mid) ∧ idle v t
  | RIn i k => ∃ sc, hok (HCall i sc k) ∧ runs (handle rq) (rets t h) (HCall i sc k) ∧ invs t h = map fst (rets t h) ++ [(i, sc)] ∧ (∃ mid, th t h = VBegin t :: mid ∧ store_only mid) ∧
      ∀ j g, v_stores v !! j = Some g → g_calls g !! t = Some (if decide (j = i) then Some sc else None)
  | RAnswered r => runs (handle rq) (rets t h) (HRet r) ∧ invs t h = map fst (rets t h) ∧ (∃ mid, th t h = VBegin t :: mid ++ [VAnswer t r] ∧ store_only mid) ∧ idle v t
  end.
Record vinv (v : vcfg) (h : list vevent) : Prop := {
  vi_stores : ∀ i l s, c !! i = Some (l, s) → ∃ g acts, v_stores v !! i = Some g ∧ Forall saction_ok acts ∧ sexecution s (impl i) l n acts g (proj i h);
  vi_len : length (v_stores v) = length c;
  vi_rlen : length (v_reqs v) = n;
  vi_thr : Forall (λ e, vthread e < n)%nat h;
  vi_req : ∀ t rq x, rqs !! t = Some rq → v_reqs v !! t = Some x → rq_inv v h t rq x }.
Lemma sexec_app c0 im g a b : sexec c0 im g (a ++ b) = let '(g1, e1) := sexec c0 im g a in let '(g2, e2) := sexec c0 im g1 b in (g2, e1 ++ e2).
Proof.
  revert g. induction a as [|x a IH]; intros g; cbn [app sexec]; [by destruct (sexec c0 im g b)|]. destruct (sstep c0 im g x) as [g0 e0]. rewrite IH. destruct (sexec c0 im g0 a) as [g1 e1]. destruct (sexec c0 im g1 b) as [g2 e2]. by rewrite app_assoc.
Qed.
Lemma sexecution_snoc s im l m acts g h a g' es : sexecution s im l m acts g h → sstep (Compile s) im g a = (g', es) → sexecution s im l m (acts ++ [a]) g' (h ++ es).
Proof. intros (mp & Em & E) Es. exists mp. split; [done|]. rewrite sexec_app, E. cbn [sexec]. rewrite Es. by rewrite app_nil_r. Qed.
Lemma rq_inv_other v h v' es t rq x : (∀ j g', v_stores v' !! j = Some g' → ∃ g, v_stores v !! j = Some g ∧ g_calls g' !! t = g_calls g !! t) → Forall (λ e, vthread e ≠ t) es →
  rq_inv v h t rq x → rq_inv v' (h ++ es) t rq x.
Proof.
  intros Hg He. assert (th t (h ++ es) = th t h) as Et by (by rewrite th_app, (th_other t es He), app_nil_r).
  assert (invs t (h ++ es) = invs t h ∧ rets t (h ++ es) = rets t h) as [Ei Er] by (unfold invs, rets; by rewrite Et).
  assert (idle v t → idle v' t) as Hid. { intros Hi j g' L. destruct (Hg j g' L) as (g & Lg & ->). by eapply Hi. }
  unfold rq_inv. rewrite Et, Ei, Er. destruct x as [|hd|i k|r]; [naive_solver..| |naive_solver].
  intros (sc & H1 & H2 & H3 & H4 & H5). exists sc. split_and!; try done. intros j g' L. destruct (Hg j g' L) as (g & Lg & ->). by apply H5.
Qed.
Lemma dims_at i l s : c !! i = Some (l, s) → schema_ok s ∧ dims_ok l (c_size (Compile s)).
Proof. intros L. unfold cfg_ok in Hc. rewrite Forall_forall in Hc. apply elem_of_list_lookup_2 in L. by apply (Hc (l, s)). Qed.
Lemma vi_winv v h i l s g : vinv v h → c !! i = Some (l, s) → v_stores v !! i = Some g → winv s (impl i) g.
Proof.
  intros V Lc Lg. destruct (vi_stores _ _ V i l s Lc) as (g0 & acts & L0 & HF & Ex). rewrite Lg in L0. injection L0 as <-. destruct (dims_at i l s Lc) as [_ Hd]. by apply (sexecution_inv s (impl i) l Hd _ _ _ _ HF Ex).
Qed.
(** a step of store i by goroutine t that leaves the other goroutines alone *)
Lemma store_inv_step v h t i l s g a g' es x' : vinv v h → c !! i = Some (l, s) → v_stores v !! i = Some g → (t < n)%nat → saction_ok a → sstep (Compile s) (impl i) g a = (g', es) →
  Forall (λ e, sthread e = t) es → (∀ t', t' ≠ t → g_calls g' !! t' = g_calls g !! t') →
  (∀ rq, rqs !! t = Some rq → rq_inv (MkV (<[i := g']> (v_stores v)) (<[t := x']> (v_reqs v))) (h ++ map (VStore i) es) t rq x') →
  vinv (MkV (<[i := g']> (v_stores v)) (<[t := x']> (v_reqs v))) (h ++ map (VStore i) es).
Proof.
  intros V Lc Lg Ht Ha Es Hes Hoth Hmine. constructor; cbn [v_stores v_reqs].
  - intros j l' s' Lc'. destruct (vi_stores _ _ V j l' s' Lc') as (g0 & acts & L0 & HF & Ex). destruct (decide (j = i)) as [->|Hne].
    + rewrite Lc in Lc'. injection Lc' as <- <-. rewrite Lg in L0. injection L0 as <-. exists g', (acts ++ [a]). rewrite proj_app, proj_same. split; [apply list_lookup_insert; by eapply lookup_lt_Some|].
      split; [by apply Forall_app; split; [|apply Forall_singleton]|]. by eapply sexecution_snoc.
    + exists g0, acts. rewrite list_lookup_insert_ne by done. rewrite proj_app, proj_other by done. rewrite app_nil_r. done.
  - rewrite insert_length. apply V.
  - rewrite insert_length. apply V.
  - apply Forall_app. split; [apply V|]. clear -Hes Ht. induction Hes as [|e es He H IH]; constructor; [|done]. cbn. by rewrite He.
  - intros t' rq x Lr Lx. destruct (decide (t' = t)) as [->|Hne].
    + rewrite list_lookup_insert in Lx by (rewrite (vi_rlen _ _ V); lia). injection Lx as <-. by apply Hmine.
    + rewrite list_lookup_insert_ne in Lx by done. eapply rq_inv_other; [| |by apply (vi_req _ _ V t' rq x)].
      * intros j g1 L1. cbn [v_stores] in L1. destruct (decide (j = i)) as [->|Hj]; [|rewrite list_lookup_insert_ne in L1 by done; eauto].
        rewrite list_lookup_insert in L1 by (by eapply lookup_lt_Some). injection L1 as <-. exists g. split; [done|]. by apply Hoth.
      * apply Forall_forall. intros e He. apply elem_of_list_In, in_map_iff in He as (e0 & <- & He). apply elem_of_list_In in He. rewrite Forall_forall in Hes. cbn. rewrite (Hes _ He). done.
Qed.
Lemma vstep_inv v h a v' es : vinv v h → vstep v a = (v', es) → vinv v' (h ++ es).
Proof.
  intros V. assert (vinv v (h ++ [])) as V0 by (by rewrite app_nil_r). destruct a as [t|t]; cbn [ServerConcModel.vstep].
  - destruct (v_reqs v !! t) as [[|hd|i k|r]|] eqn:Lx; [|by intros [= <- <-]..]. destruct (rqs !! t) as [rq|] eqn:Lr; [|by intros [= <- <-]]. intros [= <- <-].
    pose proof (vi_req _ _ V t rq RWait Lr Lx) as [Hth Hid]. constructor; cbn [v_stores v_reqs].
    + intros i l s Lc. rewrite proj_app. cbn. rewrite app_nil_r. by apply V.
    + apply V.
    + rewrite insert_length. apply V.
    + apply Forall_app. split; [apply V|]. constructor; [|constructor]. cbn. by eapply lookup_lt_Some.
    + intros t' rq' x Lr' Lx'. destruct (decide (t' = t)) as [->|Hne].
      * rewrite list_lookup_insert in Lx' by (by eapply lookup_lt_Some). injection Lx' as <-. rewrite Lr in Lr'. injection Lr' as <-.
        cbn [rq_inv]. unfold rets, invs. rewrite th_app, Hth. unfold th. rewrite filter_cons_True by done. cbn. split; [|split; [done|split; [done|split; [|done]]]].
        -- apply hok_handle. rewrite Forall_forall in Hrq. apply Hrq. by eapply elem_of_list_lookup_2.
        -- exists []. split; [done|constructor].
      * rewrite list_lookup_insert_ne in Lx' by done. eapply rq_inv_other; [eauto| |by apply (vi_req _ _ V t' rq' x)]. constructor; [cbn; congruence|constructor].
  - destruct (v_reqs v !! t) as [[|[r|i sc k]|i k|r]|] eqn:Lx; try (by intros [= <- <-]).
    + intros [= <- <-]. constructor; cbn [v_stores v_reqs].
      * intros i l s Lc. rewrite proj_app. cbn. rewrite app_nil_r. by apply V.
      * apply V.
      * rewrite insert_length. apply V.
      * apply Forall_app. split; [apply V|]. constructor; [|constructor]. cbn. rewrite <- (vi_rlen _ _ V). by eapply lookup_lt_Some.
      * intros t' rq' x Lr' Lx'. destruct (decide (t' = t)) as [->|Hne].
        -- rewrite list_lookup_insert in Lx' by (by eapply lookup_lt_Some). injection Lx' as <-. pose proof (vi_req _ _ V t rq' _ Lr' Lx) as (_ & Hr & Hi & (mid & Hm & Hs) & Hid).
           cbn [rq_inv]. rewrite invs_app, rets_app, th_app. assert (th t [VAnswer t r] = [VAnswer t r]) as -> by (by apply th_mine; constructor).
           assert (invs t [VAnswer t r] = [] ∧ rets t [VAnswer t r] = []) as [-> ->]. { unfold invs, rets. rewrite th_mine by (by constructor). done. }
           rewrite !app_nil_r. split; [done|]. split; [done|]. split; [|done]. exists mid. rewrite Hm. done.
        -- rewrite list_lookup_insert_ne in Lx' by done. eapply rq_inv_other; [eauto| |by apply (vi_req _ _ V t' rq' x)]. constructor; [cbn; congruence|constructor].
    + unfold store_step. assert (t < n)%nat as Ht. { rewrite <- (vi_rlen _ _ V). by eapply lookup_lt_Some. } destruct (lookup_lt_is_Some_2 rqs t Ht) as [rq Lr].
      pose proof (vi_req _ _ V t rq _ Lr Lx) as ((Hi & Hok & Hk) & Hr & Hin & (mid & Hm & Hs) & Hid). destruct (v_stores v !! i) as [g|] eqn:Lg; [|by intros [= <- <-]].
      rewrite list_lookup_fmap. destruct (c !! i) as [[l s]|] eqn:Lc; [|by intros [= <- <-]]. cbn [fmap option_fmap option_map snd]. destruct (sstep (Compile s) (impl i) g (SCall t sc)) as [g' es'] eqn:Es. intros [= <- <-].
      pose proof (vi_winv v h i l s g V Lc Lg) as W. pose proof (Hid i g Lg) as Hg.
      destruct (call_step s (impl i) g t sc g' es' W Hg Es) as [(-> & Eg)|(-> & Eg)].
      * eapply store_inv_step; try done; try exact Hok; try exact I; [by repeat constructor|by rewrite Eg|]. intros rq' Lr'. rewrite Lr in Lr'. injection Lr' as <-. cbn [after returned omap list_omap head rq_inv map].
        assert (th t [VStore i (SInv t sc); VStore i (SRet t sc None)] = [VStore i (SInv t sc); VStore i (SRet t sc None)]) as Eth by (by apply th_mine; repeat constructor).
        rewrite invs_app, rets_app, th_app. unfold invs at 2, rets at 2 4. rewrite Eth. cbn [omap list_omap inv1 ret1]. rewrite Hin, Hm. split; [apply Hk|]. split; [|split; [|split]].
        -- eapply runs_snoc; [done|exact Hr].
        -- by rewrite map_app.
        -- exists (mid ++ [VStore i (SInv t sc); VStore i (SRet t sc None)]). split; [done|]. apply Forall_app. split; [done|by repeat constructor].
        -- intros j g1 L1. cbn [v_stores] in L1. destruct (decide (j = i)) as [->|Hj]; [|rewrite list_lookup_insert_ne in L1 by done; by eapply Hid].
           rewrite list_lookup_insert in L1 by (by eapply lookup_lt_Some). injection L1 as <-. by rewrite Eg.
      * eapply store_inv_step; try done; try exact Hok; try exact I; [by repeat constructor|intros t' Hne; rewrite Eg; by rewrite list_lookup_insert_ne|]. intros rq' Lr'. rewrite Lr in Lr'. injection Lr' as <-. cbn [after returned omap list_omap head rq_inv map].
        assert (th t [VStore i (SInv t sc)] = [VStore i (SInv t sc)]) as Eth by (by apply th_mine; repeat constructor).
        exists sc. rewrite invs_app, rets_app, th_app. unfold invs at 2, rets at 2 4. rewrite Eth. cbn [omap list_omap inv1 ret1]. rewrite Hin, Hm, app_nil_r. split; [done|]. split; [exact Hr|]. split; [done|]. split.
        -- exists (mid ++ [VStore i (SInv t sc)]). split; [done|]. apply Forall_app. split; [done|by repeat constructor].
        -- intros j g1 L1. cbn [v_stores] in L1. destruct (decide (j = i)) as [->|Hj]; [|rewrite list_lookup_insert_ne in L1 by done; by eapply Hid].
           rewrite list_lookup_insert in L1 by (by eapply lookup_lt_Some). injection L1 as <-. rewrite Eg. apply list_lookup_insert. by eapply lookup_lt_Some.
    + unfold store_step. assert (t < n)%nat as Ht. { rewrite <- (vi_rlen _ _ V). by eapply lookup_lt_Some. } destruct (lookup_lt_is_Some_2 rqs t Ht) as [rq Lr].
      pose proof (vi_req _ _ V t rq _ Lr Lx) as (sc & (Hi & Hok & Hk) & Hr & Hin & (mid & Hm & Hs) & Hid). destruct (v_stores v !! i) as [g|] eqn:Lg; [|by intros [= <- <-]].
      rewrite list_lookup_fmap. destruct (c !! i) as [[l s]|] eqn:Lc; [|by intros [= <- <-]]. cbn [fmap option_fmap option_map snd]. destruct (sstep (Compile s) (impl i) g (SStep t)) as [g' es'] eqn:Es. intros [= <- <-].
      pose proof (vi_winv v h i l s g V Lc Lg) as W. pose proof (Hid i g Lg) as Hg. rewrite decide_True in Hg by done.
      destruct (go_step s (impl i) g t sc g' es' W Hg Es) as [(r & -> & Eg)|(Hinn & Hth & Eg)].
      * eapply store_inv_step; try done; try exact Hok; try exact I; [by repeat constructor|intros t' Hne; rewrite Eg; by rewrite list_lookup_insert_ne|]. intros rq' Lr'. rewrite Lr in Lr'. injection Lr' as <-. cbn [after returned omap list_omap head rq_inv map].
        assert (th t [VStore i (SRet t sc r)] = [VStore i (SRet t sc r)]) as Eth by (by apply th_mine; repeat constructor).
        rewrite invs_app, rets_app, th_app. unfold invs at 2, rets at 2 4. rewrite Eth. cbn [omap list_omap inv1 ret1]. rewrite Hin, Hm. split; [apply Hk|]. split; [|split; [|split]].
        -- eapply runs_snoc; [done|exact Hr].
        -- by rewrite map_app, app_nil_r.
        -- exists (mid ++ [VStore i (SRet t sc r)]). split; [done|]. apply Forall_app. split; [done|by repeat constructor].
        -- intros j g1 L1. cbn [v_stores] in L1. destruct (decide (j = i)) as [->|Hj].
           ++ rewrite list_lookup_insert in L1 by (by eapply lookup_lt_Some). injection L1 as <-. rewrite Eg. apply list_lookup_insert. by eapply lookup_lt_Some.
           ++ rewrite list_lookup_insert_ne in L1 by done. rewrite (Hid j g1 L1). by rewrite decide_False.
      * assert (returned es' = None) as Ern. { clear -Hinn. unfold returned. induction Hinn as [|e es He H IH]; [done|]. by destruct e. }
        eapply store_inv_step; try done; try exact I; [intros t' _; by rewrite Eg|]. intros rq' Lr'. rewrite Lr in Lr'. injection Lr' as <-. unfold after. rewrite Ern. cbn [rq_inv].
        assert (th t (map (VStore i) es') = map (VStore i) es') as Eth. { apply th_mine. clear -Hth. induction Hth; by constructor. }
        assert (omap inv1 (map (VStore i) es') = [] ∧ omap ret1 (map (VStore i) es') = []) as [E1 E2]. { clear -Hinn. induction Hinn as [|e es He H [IH1 IH2]]; [done|]. by destruct e. }
        exists sc. rewrite invs_app, rets_app, th_app. unfold invs at 2, rets at 2 4. rewrite Eth, E1, E2, !app_nil_r, Hm. split; [done|]. split; [exact Hr|]. split; [done|]. split.
        -- exists (mid ++ map (VStore i) es'). split; [done|]. apply Forall_app. split; [done|]. clear. induction es'; by constructor.
        -- intros j g1 L1. cbn [v_stores] in L1. destruct (decide (j = i)) as [->|Hj].
           ++ rewrite list_lookup_insert in L1 by (by eapply lookup_lt_Some). injection L1 as <-. by rewrite Eg.
           ++ rewrite list_lookup_insert_ne in L1 by done. rewrite (Hid j g1 L1). by rewrite decide_False.
Qed.
Lemma vexec_inv acts : ∀ v h v' es, vinv v h → vexec v acts = (v', es) → vinv v' (h ++ es).
Proof.
  induction acts as [|a acts IH]; intros v h v' es V; cbn [ServerConcModel.vexec]; [intros [= <- <-]; by rewrite app_nil_r|].
  destruct (vstep v a) as [v1 e1] eqn:E1. destruct (vexec v1 acts) as [v2 e2] eqn:E2. intros [= <- <-]. rewrite app_assoc. eapply IH; [|exact E2]. by eapply vstep_inv.
Qed.
Lemma vexecution_inv acts v h : vexecution est ff et pm order c impl rqs acts v h → vinv v h.
Proof.
  intros (gs & Hg & E). change h with ([] ++ h). eapply vexec_inv; [|exact E]. unfold new_stores in Hg. constructor; cbn [v_stores v_reqs].
  - intros i l s Lc. destruct (Forall2_lookup_l _ _ _ _ _ Hg Lc) as (g & Lg & m & Em & ->). cbn [fst snd] in Em. eexists _, []. split; [done|]. split; [constructor|]. exists m. done.
  - symmetry. by eapply Forall2_length.
  - by rewrite replicate_length.
  - constructor.
  - intros t rq x Lr Lx. apply lookup_replicate in Lx as [-> Hlt]. cbn. split; [done|]. intros i g Lg. cbn [v_stores] in Lg. destruct (Forall2_lookup_r _ _ _ _ _ Hg Lg) as (ls & Lc & m & Em & ->). cbn [g_calls]. by apply lookup_replicate.
Qed.
End conc.
