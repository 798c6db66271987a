From Coq Require Import ZifyBool ZifyNat.
From Verif Require Import Base BaseProofs Float64 FnvSpec HllModel CollationModel CollationSpec CollationProofs BufmapModel BufmapSpec QueryModel Probe
  BufconcModel BufconcSpec BufconcInv BufconcProofs BufconcStep BufconcTop BufconcSolo ServerModel ServerSpec ServerTop StoreConcModel StoreConcSpec StoreConcProofs StoreConcTop ServerConcModel ServerConcSpec ServerConcProofs ServerConcFair ServerSoloSpec ServerConcSolo.
Local Open Scope Z_scope.

(** nobody holds anything in the map *)
Definition at_rest (l : Z) (m : Map) : Prop := ∀ x, 0 ≤ x < l → sl_mu (sl m x) = false ∧ (sl_seq (sl m x) mod 2 =? 0) = true.
Lemma rest_get l s m k buf : shape l s m → at_rest l m → ∃ r, get_res buf (Get m k buf) = Some r.
Proof.
  intros Sh Hr. unfold Get. destruct (get_probe m k 0 (S maxReprobe)) as [[x|]|e|]; try (by eexists). destruct (index (m_keys m) x) as [v|e|] eqn:Ei; try (by eexists).
  pose proof (index_range _ _ _ Ei) as Hx. rewrite (sh_keys _ _ _ Sh) in Hx. rewrite (index_sl Sh) in Ei by lia. injection Ei as <-. destruct (Hr x) as [_ He]; [lia|].
  assert (sl_seq (sl m x) mod 2 =? 1 = false) as -> by lia. destruct (slice _ _ _); by eexists.
Qed.
Lemma rest_update l s m k fn : shape l s m → at_rest l m → ∃ r, upd_res (Update m k fn).2 = Some r.
Proof.
  intros Sh Hr. unfold Update. destruct (k =? 0); [by eexists|]. destruct (upd_probe m k false 0 (S maxReprobe)) as [[[[x init] fresh]|]|e|]; try (by eexists). destruct (index (m_keys m) x) as [v|e|] eqn:Ei; try (by eexists).
  pose proof (index_range _ _ _ Ei) as Hx. rewrite (sh_keys _ _ _ Sh) in Hx. rewrite (index_sl Sh) in Ei by lia. injection Ei as <-. destruct (Hr x) as [-> _]; [lia|]. cbn zeta.
  destruct (slice _ _ _) as [d|e|]; try (by eexists). destruct (fn d init) as [d' [u|e|]]; by eexists.
Qed.

Section solo.
Context (pf : bytes → option float) (est : Counter → Z) (ff : float → bytes) (et : error → bytes) (pm : bytes → option bytes) (order : list FM → list FM).
Lemma call_solo s im l m t sc st' rep : dims_ok l (c_size (Compile s)) → impl_ok pf s im → shape l (c_size (Compile s)) m → at_rest l m → call_ok sc → call_alone pf est (MkStore m (Compile s)) sc = (st', rep) →
  (op_of (Compile s) im sc = None ∧ st' = MkStore m (Compile s) ∧ rep = reply est (Compile s) sc None) ∨
  ∃ o r, op_of (Compile s) im sc = Some o ∧ solo t o m (start o) (st_map st') r ∧ rep = reply est (Compile s) sc (Some r).
Proof.
  intros Hd Him Sh Hr Hc E. pose proof (λ o, op_ok s im sc o t Hc) as Hok. destruct sc as [r|q]; cbn [call_alone op_of] in *.
  - unfold Store_Write in E. cbn [st_coll st_map] in E. destruct (Row_KeyValue r (c_keys (Compile s))) as [key found] eqn:Ek. destruct found; cbn [negb] in E; [|left; by injection E as <- <-]. right. rewrite ctx_done_None in E.
    destruct (rest_update l _ m key (transaction pf (Compile s) r) Sh Hr) as [res Hres]. destruct (Update m key (transaction pf (Compile s) r)) as [m' o] eqn:Eu. injection E as <- <-. cbn [snd] in Hres. exists (OUpdate key (im r)), res. split; [done|].
    split; [|destruct o as [o| |]; [by injection Hres as <-..|discriminate Hres]]. cbn [st_map]. eapply (solo_update Hd t m key (transaction pf (Compile s) r) (im r)); [done|exact (Hok _ eq_refl)| |exact Eu|done].
    intros d init Hlen. unfold transaction. by apply Him.
  - injection E as <- <-. unfold Store_Read. cbn [st_coll st_map]. destruct (Query_KeyValue q (c_keys (Compile s))) as [key found] eqn:Ek. destruct found; cbn [negb]; [|left; done]. right. set (buf := replicate (Z.to_nat (c_size (Compile s))) 0) in *.
    destruct (rest_get l _ m key buf Sh Hr) as [res Hres]. exists (OGet key buf), res. split; [done|]. split; [eapply (solo_get Hd t m key buf); [done|exact (Hok _ eq_refl)|done]|].
    destruct (Get m key buf) as [[b|]| |]; [injection Hres as <-..|discriminate Hres]; cbn [reply]; done.
Qed.

Context (c : list (Z * Schema)) (impl : nat → Row → bool → prog) (Hc : cfg_ok c) (Himpl : impls_ok pf c impl) (rqs : list request) (Hrq : Forall request_ok rqs).
Notation cs := (map (λ ls : Z * Schema, Compile ls.2) c).
Notation n := (length rqs).
Notation handle := (handle ff et pm order cs).
Notation vstep := (vstep est ff et pm order cs impl rqs).
Notation vexec := (vexec est ff et pm order cs impl rqs).
Notation vinv := (vinv est ff et pm order c impl rqs).
Notation ServeHTTP := (ServeHTTP pf est ff et pm order).
Notation serve_all := (serve_all pf est ff et pm order).
Notation alone := (alone pf est).

Definition maps (v : vcfg) : list Map := map (λ g, c_map (g_cfg g)) (v_stores v).
Definition resting (x : rstate) : Prop := x = RWait ∨ ∃ r, x = RAnswered r.
Definition served (v : vcfg) (t : nat) (rq : request) (sts : list Store) (x : rstate) : Prop :=
  match x with
  | RRun hd => ∃ sts1, map st_coll sts1 = cs ∧ maps v = map st_map sts1 ∧ alone hd sts1 = ServeHTTP sts rq
  | RIn i k => ∃ sts1 l s g sc o p m' r, c !! i = Some (l, s) ∧ v_stores v !! i = Some g ∧ g_calls g !! t = Some (Some sc) ∧ c_threads (g_cfg g) !! t = Some (Some (o, p)) ∧
      solo t o (c_map (g_cfg g)) p m' r ∧ map st_coll sts1 = cs ∧ <[i := m']> (maps v) = map st_map sts1 ∧ alone (k (reply est (Compile s) sc (Some r))) sts1 = ServeHTTP sts rq
  | _ => False
  end.
Definition sinv (sts0 : list Store) (v : vcfg) (h : list vevent) : Prop :=
  ∃ sts, serve_all sts0 (omap (rqs !!.) (finished h)) = (sts, answers h) ∧ map st_coll sts = cs ∧
    (∀ t, t ∈ finished h → ∃ r, v_reqs v !! t = Some (RAnswered r)) ∧
    ((arrived h = finished h ∧ maps v = map st_map sts ∧ ∀ t x, v_reqs v !! t = Some x → resting x) ∨
     ∃ t rq x, arrived h = finished h ++ [t] ∧ rqs !! t = Some rq ∧ v_reqs v !! t = Some x ∧ served v t rq sts x ∧ ∀ t' x', t' ≠ t → v_reqs v !! t' = Some x' → resting x').
Lemma rest_store v h i l s g : vinv v h → c !! i = Some (l, s) → v_stores v !! i = Some g → (∀ t x, v_reqs v !! t = Some x → resting x ∨ ∃ hd, x = RRun hd) →
  shape l (c_size (Compile s)) (c_map (g_cfg g)) ∧ at_rest l (c_map (g_cfg g)).
Proof.
  intros V Lc Lg Hall. destruct (vi_stores _ _ _ _ _ _ _ _ _ _ V i l s Lc) as (g0 & acts & Lg0 & HF & Exs). rewrite Lg in Lg0. injection Lg0 as <-. destruct (dims_at c Hc i l s Lc) as [Hs Hd]. pose proof (sexecution_inv s (impl i) l Hd _ _ _ _ HF Exs) as W.
  pose proof (w_inv _ _ _ _ _ W) as Iv. split; [apply (v_shape _ _ _ _ Iv)|].
  assert (∀ t o p, c_threads (g_cfg g) !! t ≠ Some (Some (o, p))) as Hnone.
  { intros t o p L. pose proof (w_wf _ _ _ _ _ W t) as Wt. destruct (g_calls g !! t) as [[sc|]|] eqn:Lgt; [|congruence..].
    assert (t < n)%nat as Ht. { destruct Exs as (m & _ & Ex). apply sexec_len in Ex. cbn in Ex. rewrite replicate_length in Ex. rewrite <- Ex. by eapply lookup_lt_Some. }
    destruct (lookup_lt_is_Some_2 rqs t Ht) as [rq Lr]. destruct (lookup_lt_is_Some_2 (v_reqs v) t) as [x Lx]; [by rewrite (vi_rlen _ _ _ _ _ _ _ _ _ _ V)|].
    pose proof (vi_req _ _ _ _ _ _ _ _ _ _ V t rq x Lr Lx) as Hx. assert (idle v t) as Hid by (destruct (Hall t x Lx) as [[->|(r & ->)]|(hd & ->)]; apply Hx). specialize (Hid i g Lg). congruence. }
  intros x Hx. destruct (phase Iv Hx) as [(Hmu & Hbal & _)|[(_ & _ & t' & o' & p' & L' & Hcr & _)|(_ & _ & Hdead & _)]].
  - split; [done|]. by apply (even_balance Iv Hx).
  - by destruct (Hnone t' o' p').
  - exfalso. by eapply (nobody_dead pf c impl Hc Himpl rqs i l s g acts).
Qed.
Lemma one_prefix a b : one_at_a_time (a ++ b) → one_at_a_time a.
Proof. intros H h1 t h2 ->. apply (H h1 t (h2 ++ b)). by rewrite <- app_assoc. Qed.
Lemma arrived_app a b : arrived (a ++ b) = arrived a ++ arrived b. Proof. apply omap_app. Qed.
Lemma finished_app a b : finished (a ++ b) = finished a ++ finished b. Proof. apply omap_app. Qed.
Lemma answers_app a b : answers (a ++ b) = answers a ++ answers b. Proof. apply omap_app. Qed.
Lemma store_events i es : arrived (map (VStore i) es) = [] ∧ finished (map (VStore i) es) = [] ∧ answers (map (VStore i) es) = [].
Proof. by induction es as [|e es (IH1 & IH2 & IH3)]. Qed.
Lemma maps_insert v i g x : maps (MkV (<[i := g]> (v_stores v)) x) = <[i := c_map (g_cfg g)]> (maps v).
Proof. unfold maps. cbn [v_stores]. apply (list_fmap_insert (λ g, c_map (g_cfg g))). Qed.

Lemma vstep_solo sts0 v h a v' es : vinv v h → sinv sts0 v h → vstep v a = (v', es) → one_at_a_time (h ++ es) → sinv sts0 v' (h ++ es).
Proof.
  intros V S. assert (sinv sts0 v (h ++ [])) as S0 by (by rewrite app_nil_r). destruct S as (sts & Hall & Hcs & Hfin & Hst). pose proof (vi_rlen _ _ _ _ _ _ _ _ _ _ V) as Hn. destruct a as [t|t]; cbn [ServerConcModel.vstep].
  - destruct (v_reqs v !! t) as [[|hd|i k|r]|] eqn:Lx; [|by intros [= <- <-]..]. destruct (rqs !! t) as [rq|] eqn:Lr; [|by intros [= <- <-]]. intros [= <- <-] Hone.
    specialize (Hone h t [] eq_refl). destruct Hst as [(Ha & Hm & Hrest)|(t1 & rq1 & x1 & Ha & _ & Lx1 & Hserv & _)].
    2:{ exfalso. destruct (Hfin t1) as [r Lr1]. { apply Hone. rewrite Ha. apply elem_of_app. right. by left. } rewrite Lx1 in Lr1. injection Lr1 as ->. done. }
    assert (t < length (v_reqs v))%nat as Hlt by (by eapply lookup_lt_Some).
    exists sts. rewrite finished_app, answers_app, arrived_app. cbn [finished answers arrived omap list_omap]. rewrite !app_nil_r. split; [done|]. split; [done|]. split.
    + intros t' Ht'. destruct (Hfin t' Ht') as [r Lr']. exists r. cbn [v_reqs]. rewrite list_lookup_insert_ne; [done|]. intros <-. congruence.
    + right. exists t, rq, (RRun (handle rq)). split; [by rewrite Ha|]. split; [done|]. split; [by apply list_lookup_insert|]. split.
      * exists sts. split; [done|]. split; [done|]. by apply handle_alone.
      * intros t' x' Hne Lx'. cbn [v_reqs] in Lx'. rewrite list_lookup_insert_ne in Lx' by done. eauto.
  - destruct (v_reqs v !! t) as [[|[r|i sc k]|i k|r]|] eqn:Lx; try (by intros [= <- <-]).
    + intros [= <- <-] _. destruct Hst as [(_ & _ & Hrest)|(t1 & rq1 & x1 & Ha & Lr1 & Lx1 & Hserv & Hoth)]; [by destruct (Hrest t _ Lx) as [|[]]|].
      destruct (decide (t = t1)) as [<-|Hne]; [|by destruct (Hoth t _ Hne Lx) as [|[]]]. rewrite Lx in Lx1. injection Lx1 as <-. destruct Hserv as (sts1 & Hcs1 & Hm1 & Eal). cbn [ServerConcSolo.alone] in Eal.
      assert (t < length (v_reqs v))%nat as Hlt by (by eapply lookup_lt_Some).
      exists sts1. rewrite finished_app, answers_app, arrived_app. cbn [finished answers arrived omap list_omap]. rewrite app_nil_r. split; [|split; [done|split]].
      * rewrite omap_app. cbn [omap list_omap]. rewrite Lr1, serve_all_snoc, Hall, <- Eal. done.
      * intros t' Ht'. cbn [v_reqs]. destruct (decide (t' = t)) as [->|Hne]; [exists r; by apply list_lookup_insert|]. apply elem_of_app in Ht' as [Ht'|Ht']; [|by apply elem_of_list_singleton in Ht']. rewrite list_lookup_insert_ne by done. by apply Hfin.
      * left. split; [done|]. split; [done|]. intros t' x' Lx'. cbn [v_reqs] in Lx'. destruct (decide (t' = t)) as [->|Hne]; [rewrite list_lookup_insert in Lx' by done; injection Lx' as <-; right; eauto|]. rewrite list_lookup_insert_ne in Lx' by done. by eapply Hoth.
    + intros E _. destruct Hst as [(_ & _ & Hrest)|(t1 & rq & x1 & Ha & Lr & Lx1 & Hserv & Hoth)]; [by destruct (Hrest t _ Lx) as [|[]]|].
      destruct (decide (t = t1)) as [<-|Hne]; [|by destruct (Hoth t _ Hne Lx) as [|[]]]. rewrite Lx in Lx1. injection Lx1 as <-. destruct Hserv as (sts1 & Hcs1 & Hm1 & Eal). cbn [ServerConcSolo.alone] in Eal.
      assert (t < length (v_reqs v))%nat as Hlt by (by eapply lookup_lt_Some).
      pose proof (vi_req _ _ _ _ _ _ _ _ _ _ V t rq _ Lr Lx) as ((Hi & Hok & Hk) & _ & _ & _ & Hid). destruct (lookup_lt_is_Some_2 c i Hi) as [[l s] Lc]. destruct (vi_stores _ _ _ _ _ _ _ _ _ _ V i l s Lc) as (g & acts & Lg & HFa & Exs).
      destruct (dims_at c Hc i l s Lc) as [Hs Hd]. pose proof (sexecution_inv s (impl i) l Hd _ _ _ _ HFa Exs) as W. pose proof (Hid i g Lg) as Hg. pose proof (w_wf _ _ _ _ _ W t) as Wt. rewrite Hg in Wt.
      unfold store_step in E. rewrite Lg, list_lookup_fmap, Lc in E. cbn [fmap option_fmap option_map snd] in E. destruct (sstep (Compile s) (impl i) g (SCall t sc)) as [g' es'] eqn:Es. injection E as <- <-.
      destruct (rest_store v h i l s g V Lc Lg) as [Sh Hrest]. { intros t' x' Lx'. destruct (decide (t' = t)) as [->|Hne]; [right; rewrite Lx in Lx'; injection Lx' as <-; eauto|left; by eapply Hoth]. }
      assert (sts1 !! i = Some (MkStore (c_map (g_cfg g)) (Compile s))) as Lst.
      { assert (map st_map sts1 !! i = Some (c_map (g_cfg g))) as H1 by (rewrite <- Hm1; unfold maps; by rewrite list_lookup_fmap, Lg). assert (map st_coll sts1 !! i = Some (Compile s)) as H2 by (rewrite Hcs1; etransitivity; [apply list_lookup_fmap|by rewrite Lc]).
        pose proof (list_lookup_fmap st_map sts1 i) as G1; pose proof (list_lookup_fmap st_coll sts1 i) as G2; change (st_map <$> sts1) with (map st_map sts1) in G1; change (st_coll <$> sts1) with (map st_coll sts1) in G2; rewrite H1 in G1; rewrite H2 in G2; clear H1 H2; rename G1 into H1; rename G2 into H2. destruct (sts1 !! i) as [[m0 c0]|]; [|done]. cbn in H1, H2. injection H1 as ->. by injection H2 as ->. }
      rewrite Lst in Eal. destruct (call_alone pf est (MkStore (c_map (g_cfg g)) (Compile s)) sc) as [st' rep] eqn:Eca. pose proof (call_alone_coll _ _ _ _ _ _ Eca) as Hcoll. cbn [st_coll] in Hcoll.
      destruct (store_events i es') as (Ev1 & Ev2 & Ev3). exists sts. rewrite finished_app, answers_app, arrived_app, Ev1, Ev2, Ev3, !app_nil_r. split; [done|]. split; [done|]. split.
      { intros t' Ht'. destruct (Hfin t' Ht') as [r Lr']. exists r. cbn [v_reqs]. rewrite list_lookup_insert_ne; [done|]. intros <-. congruence. }
      right. exists t, rq, (after est (Compile s) i k es'). split; [done|]. split; [done|]. split; [by apply list_lookup_insert|]. split; [|intros t' x' Hne Lx'; cbn [v_reqs] in Lx'; rewrite list_lookup_insert_ne in Lx' by done; by eapply Hoth].
      assert (i < length (v_stores v))%nat as Hil by (by eapply lookup_lt_Some). cbn [sstep] in Es. rewrite Hg in Es.
      destruct (call_solo s (impl i) l (c_map (g_cfg g)) t sc st' rep Hd (Himpl i l s Lc) Sh Hrest Hok Eca) as [(Eo & -> & ->)|(o & r & Eo & Hsolo & ->)]; rewrite Eo in Es; injection Es as <- <-; cbn [after returned omap list_omap head served].
      * exists sts1. split; [done|]. split; [rewrite maps_insert; unfold maps; rewrite list_insert_id; [exact Hm1|by rewrite list_lookup_fmap, Lg]|]. by rewrite list_insert_id in Eal.
      * eexists (<[i := st']> sts1), l, s, _, sc, o, (start o), (st_map st'), r. split; [done|]. split; [by apply list_lookup_insert|]. cbn [g_calls g_cfg step]. rewrite Wt. cbn [fst c_threads c_map].
        split; [apply list_lookup_insert; by eapply lookup_lt_Some|]. split; [apply list_lookup_insert; by eapply lookup_lt_Some|]. split; [done|]. split.
        { rewrite list_fmap_insert, Hcoll, <- Hcs1. apply list_insert_id. by rewrite list_lookup_fmap, Lst. }
        split; [|done]. rewrite maps_insert. cbn [g_cfg step c_map]. rewrite list_insert_insert, Hm1. symmetry. apply list_fmap_insert.
    + intros E _. destruct Hst as [(_ & _ & Hrest)|(t1 & rq & x1 & Ha & Lr & Lx1 & Hserv & Hoth)]; [by destruct (Hrest t _ Lx) as [|[]]|].
      destruct (decide (t = t1)) as [<-|Hne]; [|by destruct (Hoth t _ Hne Lx) as [|[]]]. rewrite Lx in Lx1. injection Lx1 as <-. destruct Hserv as (sts1 & l & s & g & sc & o & p & m' & r & Lc & Lg & Hg & L & Hsolo & Hcs1 & Hm1 & Eal).
      assert (t < length (v_reqs v))%nat as Hlt by (by eapply lookup_lt_Some). assert (i < length (v_stores v))%nat as Hil by (by eapply lookup_lt_Some).
      unfold store_step in E. rewrite Lg, list_lookup_fmap, Lc in E. cbn [fmap option_fmap option_map snd] in E. destruct (sstep (Compile s) (impl i) g (SStep t)) as [g' es'] eqn:Es. injection E as <- <-.
      destruct (store_events i es') as (Ev1 & Ev2 & Ev3). exists sts. rewrite finished_app, answers_app, arrived_app, Ev1, Ev2, Ev3, !app_nil_r. split; [done|]. split; [done|]. split.
      { intros t' Ht'. destruct (Hfin t' Ht') as [r0 Lr']. exists r0. cbn [v_reqs]. rewrite list_lookup_insert_ne; [done|]. intros <-. congruence. }
      right. exists t, rq, (after est (Compile s) i k es'). split; [done|]. split; [done|]. split; [by apply list_lookup_insert|]. split; [|intros t' x' Hne Lx'; cbn [v_reqs] in Lx'; rewrite list_lookup_insert_ne in Lx' by done; by eapply Hoth].
      destruct (sstep_in s (impl i) g t sc o p g' es' Hg L Es) as [(r0 & -> & -> & ->)|(m & p' & es0 & Hnr & Es0 & -> & _ & Ern)].
      * apply solo_result in Hsolo as [-> ->]. cbn [after returned omap list_omap head served]. exists sts1. split; [done|]. split; [rewrite maps_insert; exact Hm1|exact Eal].
      * unfold after. rewrite Ern. cbn [served]. eexists sts1, l, s, _, sc, o, p', m', r. split; [done|]. split; [by apply list_lookup_insert|]. cbn [g_calls g_cfg c_threads c_map]. split; [done|]. split; [apply list_lookup_insert; by eapply lookup_lt_Some|].
        split; [by eapply solo_next|]. split; [done|]. split; [|done]. rewrite maps_insert. cbn [g_cfg c_map]. by rewrite list_insert_insert.
Qed.
Lemma vexec_solo sts0 acts : ∀ v h v' es, vinv v h → sinv sts0 v h → vexec v acts = (v', es) → one_at_a_time (h ++ es) → sinv sts0 v' (h ++ es).
Proof.
  induction acts as [|a acts IH]; intros v h v' es V S; cbn [ServerConcModel.vexec]; [intros [= <- <-] _; by rewrite app_nil_r|].
  destruct (vstep v a) as [v1 e1] eqn:E1. destruct (vexec v1 acts) as [v2 e2] eqn:E2. intros [= <- <-]. rewrite app_assoc. intros Hone.
  eapply IH; [by eapply (vstep_inv pf)|eapply vstep_solo; [exact V|done|exact E1|by eapply one_prefix]|exact E2|done].
Qed.
Lemma vexecution_solo sts0 acts v h : fresh_stores c sts0 → vexecution est ff et pm order c impl rqs acts v h → one_at_a_time h → sinv sts0 v h.
Proof.
  intros Hf Ex Hone. destruct Ex as (gs & Hgs & Ex). eapply (vexec_solo sts0 acts (MkV gs (replicate n RWait)) []); [| |exact Ex|done].
  - eapply (vexecution_inv pf est ff et pm order c impl Hc rqs Hrq []). exists gs. split; [done|]. done.
  - exists sts0. assert (map st_coll sts0 = cs) as Hcs.
    { clear -Hf. induction Hf as [|[l s] st c sts H HF IH]; [done|]. cbn. f_equal; [|exact IH]. unfold add_collation in H. cbn in H. destruct (New l _) as [m|e|]; [|done..]. by injection H as <-. }
    split; [done|]. split; [done|]. split; [intros t Ht; by apply elem_of_nil in Ht|]. left. split; [done|]. split; [|intros t x Lx; apply lookup_replicate in Lx as [-> _]; by left].
    unfold maps. cbn [v_stores]. clear -Hf Hgs. unfold new_stores in Hgs. revert gs Hgs. induction Hf as [|[l s] st c sts H HF IH]; intros gs Hgs; inversion_clear Hgs as [|? g ? gs' (m & Em & ->) HG]; [done|]. cbn. f_equal; [|by apply IH].
    unfold add_collation in H. cbn in H, Em. rewrite Em in H. cbn in H. by injection H as <-.
Qed.
End solo.
