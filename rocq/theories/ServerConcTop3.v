From Coq Require Import ZifyBool ZifyNat.
From Verif Require Import Base BaseProofs Float64 FnvSpec HllModel CollationModel CollationSpec CollationProofs CollationTop CollationTop2 BufmapModel BufmapSpec RegexpModel QueryModel Probe
  BufconcModel BufconcSpec BufconcInv BufconcTop BufconcProps ServerModel ServerSpec ScanProofs ParseRowProofs ServerProofs StoreProofs ServerInv ServerTop ServerHomeSpec StoreConcModel StoreConcSpec StoreConcProofs StoreConcTop StoreConcTop2 StoreConcTop3 StoreConcProps
  ServerConcModel ServerConcSpec ServerConcProofs ServerConcTop ServerConcTop2.
Local Open Scope Z_scope.

Lemma omap_first {A B} (f : A → option B) (h : list A) x xs : omap f h = x :: xs → ∃ a e b, h = a ++ e :: b ∧ f e = Some x ∧ omap f a = [] ∧ omap f b = xs.
Proof.
  induction h as [|e h IH]; [done|]. cbn. destruct (f e) as [y|] eqn:Ef.
  - intros [= -> <-]. by exists [], e, h.
  - intros E. destruct (IH E) as (a & e' & b & -> & H1 & H2 & H3). exists (e :: a), e', b. split; [done|]. split; [done|]. split; [|done]. cbn. by rewrite Ef.
Qed.
Lemma omap_th {B} (f : vevent → option B) t h : omap f (th t h) = omap (λ e, if decide (vthread e = t) then f e else None) h.
Proof.
  induction h as [|e h IH]; [done|]. unfold th in *. rewrite filter_cons. cbn. destruct (decide (vthread e = t)); cbn; [destruct (f e); [f_equal|]; exact IH|exact IH].
Qed.

(** ** at every moment, a goroutine is inside at most one call *)
Definition one_call (t : nat) (h : list vevent) : Prop := invs t h = map fst (rets t h) ∨ ∃ x, invs t h = map fst (rets t h) ++ [x].
Definition sequential (t : nat) (h : list vevent) : Prop := ∀ h1 h2, h = h1 ++ h2 → one_call t h1.
Section seq.
Context (pf : bytes → option float) (est : Counter → Z) (ff : float → bytes) (et : error → bytes) (pm : bytes → option bytes) (order : list FM → list FM).
Context (c : list (Z * Schema)) (impl : nat → Row → bool → prog) (Hc : cfg_ok c) (rqs : list request) (Hrq : Forall request_ok rqs).
Notation cs := (map (λ ls : Z * Schema, Compile ls.2) c).
Notation n := (length rqs).
Notation vstep := (vstep est ff et pm order cs impl rqs).
Notation vexec := (vexec est ff et pm order cs impl rqs).
Notation vinv := (vinv est ff et pm order c impl rqs).
Lemma vinv_one t v h : vinv v h → (t < n)%nat → one_call t h.
Proof.
  intros V Ht. destruct (lookup_lt_is_Some_2 rqs t Ht) as [rq Lr]. assert (is_Some (v_reqs v !! t)) as [x Lx] by (apply lookup_lt_is_Some; rewrite (vi_rlen _ _ _ _ _ _ _ _ _ _ V); lia).
  pose proof (vi_req _ _ _ _ _ _ _ _ _ _ V t rq x Lr Lx) as Hx. destruct x as [|hd|i k|r].
  - destruct Hx as [E _]. left. unfold invs, rets. by rewrite E.
  - left. by destruct Hx as (_ & _ & ? & _).
  - right. destruct Hx as (sc & _ & _ & ? & _). by exists (i, sc).
  - left. by destruct Hx as (_ & ? & _).
Qed.
(** the events of one step *)
Lemma vstep_events v a v' es : vstep v a = (v', es) → (length es ≤ 1)%nat ∨ ∃ t i sc hd, es = [VStore i (SInv t sc); VStore i (SRet t sc None)] ∧ v_reqs v !! t = Some (RRun hd).
Proof.
  assert (∀ t i a k, store_step est cs impl v t i a k = (v', es) → (length es ≤ 1)%nat ∨ ∃ t i sc, es = [VStore i (SInv t sc); VStore i (SRet t sc None)] ∧ a = SCall t sc) as G.
  { intros t i a0 k. unfold store_step. destruct (v_stores v !! i) as [g|]; [|intros [= _ <-]; left; cbn; lia]. destruct (cs !! i) as [c0|]; [|intros [= _ <-]; left; cbn; lia]. destruct (sstep c0 (impl i) g a0) as [g' es'] eqn:E. intros [= _ <-]. rewrite map_length.
    destruct a0 as [t0 sc|t0]; cbn [sstep] in E; destruct (g_calls g !! t0) as [[sc0|]|]; try (injection E as _ <-; left; cbn; lia).
    - destruct (op_of _ _ _); injection E as _ <-; [left; cbn; lia|right; eauto].
    - destruct (step (g_cfg g) (AStep t0)) as [c1 e1] eqn:E1. injection E as _ <-. left. apply BufconcTop.step_shape in E1 as [[_ ->]|[(? & ? & [=] & _)|[(t1 & o & r & _ & _ & _ & ->)|(t1 & o & p & m & p' & _ & _ & _ & _ & _ & Hes)]]]; [cbn; lia|cbn; lia|].
      destruct Hes as [->|(k0 & fn & x & init & _ & [(_ & ->)|[(r & _ & ->)|(q & _ & ->)]])]; [cbn; lia|..]; cbn; destruct sc0; cbn; lia. }
  destruct a as [t|t]; cbn [ServerConcModel.vstep].
  - destruct (v_reqs v !! t) as [[]|]; try (intros [= _ <-]; left; cbn; lia). destruct (rqs !! t); intros [= _ <-]; left; cbn; lia.
  - destruct (v_reqs v !! t) as [[|[]| |]|] eqn:L; try (intros [= _ <-]; left; cbn; lia); intros E; destruct (G _ _ _ _ E) as [?|(t' & i' & sc' & -> & Ea)]; try (by left); try done. injection Ea as <- <-. right. eauto 10.
Qed.
Lemma vexec_sequential t acts : (t < n)%nat → ∀ v h v' es, vinv v h → sequential t h → vexec v acts = (v', es) → sequential t (h ++ es).
Proof.
  intros Ht. induction acts as [|a acts IH]; intros v h v' es V S; cbn [ServerConcModel.vexec]; [intros [= <- <-]; by rewrite app_nil_r|].
  destruct (vstep v a) as [v1 e1] eqn:E1. destruct (vexec v1 acts) as [v2 e2] eqn:E2. intros [= <- <-]. rewrite app_assoc. pose proof (vstep_inv pf est ff et pm order c impl Hc rqs Hrq v h a v1 e1 V E1) as V1. eapply IH; [exact V1| |exact E2].
  intros h1 h2 Eh. apply app_eq_app in Eh as (z & [[Z1 Z2]|[Z1 Z2]]); [by eapply S|]. destruct h2 as [|e h2]; [rewrite app_nil_r in Z2; subst; by eapply vinv_one|].
  destruct z as [|ez z]; [rewrite app_nil_r in Z1; subst; by eapply vinv_one|]. destruct (vstep_events _ _ _ _ E1) as [Hl|(t' & i & sc & hd & Ee & Lrun)].
  - rewrite Z2 in Hl. cbn in Hl. rewrite app_length in Hl. cbn in Hl. lia.
  - rewrite Z2 in Ee. injection Ee as -> Ee. destruct z as [|? z]; [|apply (f_equal length) in Ee; cbn in Ee; rewrite app_length in Ee; cbn in Ee; lia].
    subst h1. clear Z2 Ee.
    pose proof (vinv_one t _ _ V Ht) as O. destruct (decide (t' = t)) as [->|Hne].
    + destruct (lookup_lt_is_Some_2 rqs t Ht) as [rq Lr]. destruct (vi_req _ _ _ _ _ _ _ _ _ _ V t rq _ Lr Lrun) as (_ & _ & Hin & _). right. exists (i, sc). rewrite invs_app, rets_app. unfold invs at 2, rets at 2. rewrite !th_mine by (by constructor). cbn. by rewrite app_nil_r, Hin.
    + unfold one_call in *. rewrite invs_app, rets_app. unfold invs at 2 4, rets at 2 4. rewrite !(th_other t [VStore i (SInv t' sc)]) by (by constructor). cbn. rewrite !app_nil_r. done.
Qed.
Lemma vexecution_sequential t acts v h : (t < n)%nat → vexecution est ff et pm order c impl rqs acts v h → sequential t h.
Proof.
  intros Ht Ex. destruct Ex as (gs & Hg & E). change h with ([] ++ h). eapply (vexec_sequential t acts Ht); [|  |exact E].
  - apply (vexecution_inv pf est ff et pm order c impl Hc rqs Hrq []). exists gs. done.
  - intros h1 h2 E'. symmetry in E'. apply app_eq_nil in E' as [-> _]. by left.
Qed.
End seq.

Section top.
Context (pf : bytes → option float) (est : Counter → Z) (ff : float → bytes) (et : error → bytes) (pm : bytes → option bytes) (order : list FM → list FM).
Context (c : list (Z * Schema)) (impl : nat → Row → bool → prog) (Hc : cfg_ok c) (Himpl : impls_ok pf c impl) (rqs : list request) (Hrq : Forall request_ok rqs).
Notation n := (length rqs).
Notation vinv := (vinv est ff et pm order c impl rqs).
Context (v : vcfg) (h : list vevent) (rs : list response) (V : vinv v h) (A : answered v rs) (Seq : ∀ t, (t < n)%nat → sequential t h).
Context (sent : nat → list Row) (Ac : accepted pm rqs rs sent) (i : nat) (l : Z) (s : Schema) (Lc : c !! i = Some (l, s)) (k : Z) (H0 : k ≠ 0).

(** the first row for the record, of a post that is answered before another post with such rows arrives *)
Lemma first_alone ha hb t0 r r0 rest : h = ha ++ VAnswer t0 r :: hb → rows_for s k (sent t0) = r0 :: rest → (∀ t, t ∈ arrived ha → t ≠ t0 → rows_for s k (sent t) = []) →
  ∃ pa pb, h = pa ++ VStore i (SRet t0 (CWrite r0) (Some (RUpdate (Ok ())))) :: pb ∧ called s k (proj i pa) = [r0] ∧ ∃ z, ha = pa ++ z.
Proof.
  intros Eh Es Hoth. assert (t0 < n)%nat as Ht0 by exact (thread_lt _ _ _ _ _ _ _ _ _ _ V _ _ _ Eh).
  destruct (answer_last est ff et pm order c impl rqs v h rs V A _ _ _ _ Eh) as (_ & Hend & Hr & Hth).
  destruct (rets_written est ff et pm order c impl Hc rqs v h rs V A sent Ac i l s Lc k t0 Ht0) as [Hw Hwc]. rewrite Es in Hw, Hwc.
  assert (omap (λ e, if decide (vthread e = t0) then ret1 e ≫= wret s i k else None) h = r0 :: rest) as Hw'. { rewrite <- omap_th, omap_bind. exact Hw. }
  destruct (omap_first _ _ _ _ Hw') as (pa & e & pb & Ep & He & Hpa & _). destruct (decide (vthread e = t0)) as [Het|]; [|done].
  assert (e = VStore i (SRet t0 (CWrite r0) (Some (RUpdate (Ok ()))))) as ->.
  { destruct e as [t|j [t sc|t k'|t k' r' init|t k' r' init|t [r'|q] res]|t r']; try done. cbn in Het. subst t. cbn in He. destruct res as [[|[[]| |]|]|]; try done. destruct (decide (j = i)) as [->|]; [|done]. destruct (decide _); [|done]. by injection He as ->. }
  exists pa, pb. split; [done|].
  assert (∃ z, ha = pa ++ z) as [z Ez].
  { rewrite Ep in Eh. apply app_eq_app in Eh as (z & [[Z1 Z2]|[Z1 Z2]]); [|by exists z]. destruct z as [|e z]; [exists []; rewrite app_nil_r in *; done|]. exfalso. injection Z2 as <- Z2.
    rewrite Z2 in Hend. rewrite th_app in Hend. apply app_eq_nil in Hend as [_ Hend]. unfold th in Hend. by rewrite filter_cons_True in Hend. }
  split; [|by exists z].
  (* the calls of t0 so far *)
  assert (omap (wret s i k) (rets t0 pa) = []) as Hpa0. { rewrite <- omap_th, omap_bind in Hpa. exact Hpa. }
  set (e0 := VStore i (SRet t0 (CWrite r0) (Some (RUpdate (Ok ()))))) in *. assert (rets t0 (pa ++ [e0]) = rets t0 pa ++ [(i, CWrite r0, Some (RUpdate (Ok ())))] ∧ invs t0 (pa ++ [e0]) = invs t0 pa) as [Er Ei].
  { rewrite rets_app, invs_app. unfold rets at 2, invs at 2. rewrite th_mine by (by constructor). cbn. by rewrite app_nil_r. }
  assert (invs t0 pa = map fst (rets t0 pa) ++ [(i, CWrite r0)]) as Einv.
  { pose proof (Seq t0 Ht0 pa (e0 :: pb) Ep) as O1. pose proof (Seq t0 Ht0 (pa ++ [e0]) pb) as O2. rewrite <- app_assoc in O2. specialize (O2 Ep). unfold one_call in O1, O2. rewrite Er, Ei, map_app in O2. cbn [map fst] in O2.
    destruct O2 as [O2|[y O2]]; [done|]. exfalso. destruct O1 as [O1|[x O1]]; rewrite O1 in O2; apply (f_equal length) in O2; rewrite ?app_length in O2; cbn in O2; lia. }
  assert (omap (wcall s i k) (invs t0 pa) = [r0]) as Hc0.
  { assert (omap (wcall s i k) (invs t0 h) = omap (wcall s i k) (invs t0 pa) ++ omap (wcall s i k) (invs t0 (e0 :: pb))) as Eall by (rewrite Ep, invs_app, omap_app; done).
    rewrite Einv in Eall |- *. rewrite omap_app in Eall |- *. cbn [omap list_omap] in Eall |- *. assert (wcall s i k (i, CWrite r0) = Some r0) as Ew.
    { cbn [wcall]. rewrite decide_True by done. rewrite decide_True; [done|]. assert (r0 ∈ rows_for s k (sent t0)) as Hin by (rewrite Es; left). unfold rows_for in Hin. by apply elem_of_list_filter in Hin as [? _]. }
    rewrite Ew in Eall |- *. assert (omap (wcall s i k) (map fst (rets t0 pa)) = []) as ->; [|done].
    destruct (omap (wcall s i k) (map fst (rets t0 pa))) as [|x xs] eqn:Ex; [done|]. exfalso.
    (* a returned write of a row for k has succeeded *)
    assert (x ∈ omap (wcall s i k) (map fst (rets t0 pa))) as Hin by (rewrite Ex; left). apply elem_of_list_omap in Hin as ([j sc] & Hin & Hx). apply elem_of_list_In, in_map_iff in Hin as ([[j' sc'] res] & [= -> ->] & Hin). apply elem_of_list_In in Hin.
    destruct sc as [rx|q]; [|done]. cbn [wcall] in Hx. destruct (decide (j = i)) as [->|]; [|done]. destruct (decide (row_key s rx = Some k)) as [Ekx|]; [|done]. injection Hx as ->.
    assert (x ∈ omap (wret s i k) (rets t0 pa)) as Habs; [|rewrite Hpa0 in Habs; by apply elem_of_nil in Habs]. apply elem_of_list_omap. exists (i, CWrite x, res). split; [done|].
    assert ((i, CWrite x, res) ∈ rets t0 h) as Hinh. { rewrite Ep, rets_app. apply elem_of_app. by left. }
    rewrite (ret_written est ff et pm order c impl Hc rqs v h rs V A sent Ac i l s Lc k t0 x res Ht0 Hinh Ekx). cbn [wret]. rewrite !decide_True by done. done. }
  rewrite called_proj. assert (Forall (λ e, vthread e < n)%nat pa) as Hthr. { pose proof (vi_thr _ _ _ _ _ _ _ _ _ _ V) as Hthr. rewrite Ep, Forall_app in Hthr. apply Hthr. }
  pose proof (omap_by_thread (λ e, inv1 e ≫= wcall s i k) n pa Hthr) as Hp. rewrite (join_filter (λ t, t = t0)) in Hp.
  - apply Permutation_singleton_r. rewrite Hp. assert (filter (λ t, t = t0) (seq 0 n) ≡ₚ [t0]) as Hf.
    { apply NoDup_Permutation; [apply NoDup_filter, NoDup_ListNoDup, seq_NoDup|apply NoDup_singleton|]. intros t. rewrite elem_of_list_filter, elem_of_list_singleton, elem_of_seq. split; [by intros [? _]|]. intros ->. split; [done|lia]. }
    apply Permutation_singleton_r in Hf. rewrite Hf. cbn. rewrite omap_bind. change (omap inv1 (th t0 pa)) with (invs t0 pa). rewrite Hc0. done.
  - intros t Ht Hne. apply elem_of_seq in Ht. rewrite omap_bind. change (omap inv1 (th t pa)) with (invs t pa).
    destruct (rets_written est ff et pm order c impl Hc rqs v h rs V A sent Ac i l s Lc k t ltac:(lia)) as [_ Hwt].
    destruct (th t pa) as [|e1 l1] eqn:Et; [unfold invs; by rewrite Et|]. assert (t ∈ arrived ha) as Har.
    { destruct (request_events est ff et pm order c impl rqs v h rs V A t ltac:(lia)) as (rq & r1 & mid & _ & _ & Eth & _). rewrite Ep, th_app, Et in Eth. injection Eth as -> _.
      unfold arrived. rewrite Ez, omap_app. apply elem_of_app. left. apply elem_of_list_omap. exists (VBegin t). split; [|done]. assert (VBegin t ∈ th t pa) as Hin by (rewrite Et; left). unfold th in Hin. by apply elem_of_list_filter in Hin as [_ ?]. }
    rewrite (Hoth t Har Hne) in Hwt. rewrite Ep, invs_app, omap_app in Hwt. by apply app_eq_nil in Hwt as [? _].
Qed.
End top.
