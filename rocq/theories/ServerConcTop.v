From Coq Require Import ZifyBool ZifyNat.
From Verif Require Import Base BaseProofs Float64 FnvSpec HllModel CollationModel CollationSpec CollationProofs CollationTop CollationTop2 BufmapModel BufmapSpec RegexpModel QueryModel Probe
  BufconcModel BufconcSpec BufconcInv ServerModel ServerSpec ScanProofs ParseRowProofs ServerProofs StoreProofs ServerInv ServerTop StoreConcModel StoreConcSpec StoreConcProofs StoreConcTop StoreConcTop2 StoreConcTop3 StoreConcProps
  ServerConcModel ServerConcSpec ServerConcProofs.
Local Open Scope Z_scope.

(** ** the events of a history, goroutine by goroutine *)
Lemma filter_partition {A} (f : A → nat) m (h : list A) : Forall (λ e, f e < m)%nat h → h ≡ₚ mjoin (map (λ t, filter (λ e, f e = t) h) (seq 0 m)).
Proof.
  induction 1 as [|e h He H IH].
  - induction (seq 0 m) as [|t ts IHt]; [done|]. cbn. exact IHt.
  - assert (f e ∈ seq 0 m) as Hin by (apply elem_of_seq; lia). assert (NoDup (seq 0 m)) as Hnd by (apply NoDup_ListNoDup, seq_NoDup).
    rewrite IH at 1. clear IH He. induction (seq 0 m) as [|t ts IHt]; [by apply elem_of_nil in Hin|]. apply NoDup_cons in Hnd as [Hnt Hnd]. cbn [map mjoin list_join]. destruct (decide (f e = t)) as [Ht|Ht].
    + rewrite filter_cons_True by done. cbn [app]. apply perm_skip. apply Permutation_app_head. apply Permutation_refl'. f_equal. apply map_ext_in. intros t' Ht'. rewrite filter_cons_False; [done|]. intros E. apply Hnt. rewrite <- Ht, E. by apply elem_of_list_In.
    + rewrite filter_cons_False by done. apply elem_of_cons in Hin as [|Hin]; [done|]. rewrite <- IHt by done. by rewrite Permutation_middle.
Qed.
Lemma omap_perm {A B} (f : A → option B) (x y : list A) : x ≡ₚ y → omap f x ≡ₚ omap f y.
Proof. induction 1 as [|a x y H IH|a b x|x y z H1 IH1 H2 IH2]; [done| | |by etrans]; cbn; repeat case_match; try done; [by apply perm_skip|apply perm_swap]. Qed.
Lemma omap_mjoin {A B C} (f : A → option B) (g : C → list A) ts : omap f (mjoin (map g ts)) = mjoin (map (λ t, omap f (g t)) ts).
Proof. induction ts as [|t ts IH]; [done|]. cbn [map mjoin list_join]. rewrite omap_app. f_equal. exact IH. Qed.
Lemma omap_by_thread {B} (f : vevent → option B) m h : Forall (λ e, vthread e < m)%nat h → omap f h ≡ₚ mjoin (map (λ t, omap f (th t h)) (seq 0 m)).
Proof. intros H. rewrite (omap_perm f _ _ (filter_partition vthread m h H)). by rewrite omap_mjoin. Qed.

(** the rows written to store i, for record k *)
Definition wcall (s : Schema) (i : nat) (k : Z) (x : nat * scall) : option Row :=
  match x with (j, CWrite r) => if decide (j = i) then if decide (row_key s r = Some k) then Some r else None else None | _ => None end.
Lemma omap_proj {B} (f : sevent → option B) i h : omap f (proj i h) = omap (λ e, match e with VStore j e => if decide (j = i) then f e else None | _ => None end) h.
Proof.
  induction h as [|e h IH]; [done|]. destruct e as [t|j e|t r]; [exact IH| |exact IH]. unfold proj in *. cbn. destruct (decide (j = i)); [|exact IH]. cbn. destruct (f e); [f_equal|]; exact IH.
Qed.
Lemma omap_same {A B} (f g : A → option B) (l : list A) : (∀ x, f x = g x) → omap f l = omap g l.
Proof. intros H. induction l as [|a l IH]; [done|]. cbn. rewrite H. destruct (g a); [f_equal|]; exact IH. Qed.
Lemma called_proj s i k h : called s k (proj i h) = omap (λ e, inv1 e ≫= wcall s i k) h.
Proof.
  unfold called. rewrite omap_proj. apply omap_same. intros [t|j [t [r|q]|t k'|t k' r init|t k' r init|t sc r]|t r]; cbn [inv1 mbind option_bind wcall]; try done; by destruct (decide (j = i)).
Qed.
Definition wret (s : Schema) (i : nat) (k : Z) (x : nat * scall * option res) : option Row :=
  match x with (j, CWrite r, Some (RUpdate (Ok _))) => if decide (j = i) then if decide (row_key s r = Some k) then Some r else None else None | _ => None end.
Lemma succeeded_proj s i k h : succeeded s k (proj i h) = omap (λ e, ret1 e ≫= wret s i k) h.
Proof.
  unfold succeeded. rewrite omap_proj. apply omap_same. intros [t|j [t [r|q]|t k'|t k' r init|t k' r init|t [r|q] [[a b|o|]|]]|t r]; cbn [ret1 mbind option_bind wret]; try done; try (by destruct (decide (j = i))); destruct o; by destruct (decide (j = i)).
Qed.
Lemma omap_bind {A B C} (f : A → option B) (g : B → option C) (l : list A) : omap (λ x, f x ≫= g) l = omap g (omap f l).
Proof. induction l as [|a l IH]; [done|]. cbn. destruct (f a) as [b|]; cbn; [|exact IH]. destruct (g b); [f_equal|]; exact IH. Qed.

Section top.
Context (pf : bytes → option float) (est : Counter → Z) (ff : float → bytes) (et : error → bytes) (pm : bytes → option bytes) (order : list FM → list FM).
Context (c : list (Z * Schema)) (impl : nat → Row → bool → prog) (Hc : cfg_ok c) (Himpl : impls_ok pf c impl) (rqs : list request) (Hrq : Forall request_ok rqs).
Notation cs := (map (λ ls : Z * Schema, Compile ls.2) c).
Notation n := (length rqs).
Notation handle := (handle ff et pm order cs).
Notation runs := (runs est c).
Notation vinv := (vinv est ff et pm order c impl rqs).

(** ** what a post does *)
Definition good (x : nat * scall * option res) : Prop := ∃ l s, c !! x.1.1 = Some (l, s) ∧ reply est (Compile s) x.1.2 x.2 = AWrite (Ret (Ok ())).
Definition all_stores (r : Row) : list (nat * scall) := map (λ j, (j, CWrite r)) (seq 0 (length c)).
Lemma runs_write r k : (∀ o tr, runs (k None o) tr (HRet (Resp 200 [])) → o = Ret (Ok ())) → ∀ cs' i tr, runs (h_write cs' i None r k) tr (HRet (Resp 200 [])) →
  ∃ tr1 tr2, tr = tr1 ++ tr2 ∧ map fst tr1 = map (λ j, (j, CWrite r)) (seq i (length cs')) ∧ Forall good tr1 ∧ runs (k None (Ret (Ok ()))) tr2 (HRet (Resp 200 [])).
Proof.
  intros Hk cs'. induction cs' as [|c0 cs' IH]; intros i tr; cbn [h_write].
  - intros H. exists [], tr. split; [done|]. split; [done|]. split; [constructor|done].
  - assert ((if (Row_KeyValue r (c_keys c0)).2 then ctx_done None else (false, None : ctx)) = (false, None)) as -> by (by destruct (Row_KeyValue r (c_keys c0)).2). cbn iota beta.
    destruct tr as [|[[j sc] res] tr]; [done|]. cbn [ServerConcProofs.runs]. intros (l & s & k' & [= <- <- <-] & Lc & Hr).
    destruct (reply est (Compile s) (CWrite r) res) as [[[[]|e|]| |]|a] eqn:Ep; try (apply Hk in Hr; discriminate Hr).
    + destruct (IH (S i) tr Hr) as (tr1 & tr2 & -> & H1 & H2 & H3). exists ((i, CWrite r, res) :: tr1), tr2. split; [done|]. split; [cbn; by rewrite H1|]. split; [|done]. constructor; [|done]. exists l, s. done.
    + destruct tr as [|[[? ?] ?] tr]; [discriminate Hr|]. destruct Hr as (? & ? & ? & [=] & _).
Qed.
Lemma runs_ret R tr R' : runs (HRet R) tr (HRet R') → R = R' ∧ tr = [].
Proof. destruct tr as [|[[j sc] res] tr]; cbn; [by intros [= <-]|]. by intros (? & ? & ? & [=] & _). Qed.
Lemma runs_lines ls rows : Forall2 (λ l r, parseRow l = Ok r) ls rows → ∀ tr, runs (h_lines et cs None ls None) tr (HRet (Resp 200 [])) →
  map fst tr = rows ≫= all_stores ∧ Forall good tr.
Proof.
  induction 1 as [|l r ls rows El HF IH]; intros tr; cbn [h_lines ctx_done].
  - intros H. apply runs_ret in H as [_ ->]. split; [done|constructor].
  - rewrite El. intros H. apply runs_write in H as (tr1 & tr2 & -> & H1 & H2 & H3).
    + destruct (IH _ H3) as [IH1 IH2]. rewrite map_app, H1, IH1, map_length. split; [done|]. by apply Forall_app.
    + intros o tr0. destruct o as [[[]|e|]| |]; [done|..]; intros Hr; apply runs_ret in Hr as [Hr _]; discriminate Hr.
Qed.
Lemma handle_post rq b ls : obs_post pm rq b → text_of ls b → handle rq = h_lines et cs None ls None.
Proof.
  intros (Hm & Hp & Hs & Hcx & Hsh & Ht) Hls. unfold ServerConcModel.handle. rewrite Hs, Hp, Hm. change (mux_route _ (str "/obs")) with RObs. cbn iota. rewrite decide_True by done. unfold h_recv. rewrite Hcx.
  assert (∀ r, yields r b ErrEOF → h_body et cs None r = h_lines et cs None ls None) as G. { intros r Hy. unfold h_body. rewrite (tokens_out r b ErrEOF ls None Hy); [done|]. by apply (text_out ErrEOF ls b). }
  destruct Ht as [(Hct & Hd & Hne)|(Hct & Hy)].
  - rewrite Hct. rewrite decide_True by done. rewrite Hd. rewrite decide_False by done. apply G. rewrite <- (app_nil_r b) at 2. constructor; [done|constructor].
  - rewrite !elem_of_cons, elem_of_nil in Hct. destruct Hct as [->|[->|[]]]; apply G; done.
Qed.
(** ** other requests write nothing *)
Definition reads_only (tr : list (nat * scall * option res)) : Prop := Forall (λ x, ∃ q, x.1.2 = CRead q) tr.
Lemma runs_stores name q cs' i tr h' : runs (h_stores ff et name q cs' i) tr h' → reads_only tr.
Proof.
  revert i. induction cs' as [|c0 cs' IH]; intros i; cbn [h_stores].
  - destruct tr as [|[[j sc] res] tr]; [constructor|]. by intros (? & ? & ? & [=] & _).
  - destruct (decide _); [|apply IH]. destruct tr as [|[[j sc] res] tr]; [constructor|]. intros (l & s & k & [= <- <- <-] & _ & Hr). destruct tr as [|[[? ?] ?] tr]; [|by destruct Hr as (? & ? & ? & [=] & _)].
    constructor; [by exists q|constructor].
Qed.
Lemma runs_nil R tr h' : runs (HRet R) tr h' → reads_only tr.
Proof. destruct tr as [|[[j sc] res] tr]; [constructor|]. by intros (? & ? & ? & [=] & _). Qed.
Lemma handle_other rq tr h' : rq_method rq ≠ str "POST" ∨ rq_path rq ≠ str "/obs" → runs (handle rq) tr h' → reads_only tr.
Proof.
  intros Ho. unfold ServerConcModel.handle. destruct (rq_star rq); [apply runs_nil|]. destruct (mux_route _ _) as [| | |rest] eqn:Er; [apply runs_nil..| |].
  - apply route_obs in Er. destruct (decide _); [|apply runs_nil]. by destruct Ho.
  - destruct (decide _); [apply runs_nil|]. destruct (decide _); [apply runs_nil|]. destruct (decide _); [apply runs_nil|]. unfold h_query. destruct (RoughParse _ _); [|apply runs_nil..]. apply runs_stores.
Qed.

(** ** all requests answered *)
Notation accepted := (accepted pm rqs).
Lemma answered_trace v h rs sent t rq : vinv v h → answered v rs → accepted rs sent → rqs !! t = Some rq →
  (reads_only (rets t h) ∧ sent t = []) ∨ (map fst (rets t h) = sent t ≫= all_stores ∧ Forall good (rets t h)).
Proof.
  intros V A Ac Lr. assert (t < n)%nat as Ht by (by eapply lookup_lt_Some). assert (is_Some (v_reqs v !! t)) as [x Lx] by (apply lookup_lt_is_Some; rewrite (vi_rlen _ _ _ _ _ _ _ _ _ _ V); lia).
  pose proof (vi_req _ _ _ _ _ _ _ _ _ _ V t rq x Lr Lx) as Hx. rewrite A, list_lookup_fmap in Lx. destruct (rs !! t) as [r|] eqn:Lrs; [|done]. injection Lx as <-. destruct Hx as (Hr & _).
  destruct (Ac t rq Lr) as [[Ho ->]|(E200 & b & ls & Hp & Htx & HF)].
  - left. split; [|done]. by eapply handle_other.
  - right. rewrite Lrs in E200. injection E200 as ->. rewrite (handle_post rq b ls Hp Htx) in Hr. by eapply runs_lines.
Qed.
Lemma answered_invs v h rs t rq : vinv v h → answered v rs → rqs !! t = Some rq → invs t h = map fst (rets t h).
Proof.
  intros V A Lr. assert (t < n)%nat as Ht by (by eapply lookup_lt_Some). assert (is_Some (v_reqs v !! t)) as [x Lx] by (apply lookup_lt_is_Some; rewrite (vi_rlen _ _ _ _ _ _ _ _ _ _ V); lia).
  pose proof (vi_req _ _ _ _ _ _ _ _ _ _ V t rq x Lr Lx) as Hx. rewrite A, list_lookup_fmap in Lx. destruct (rs !! t) as [r|] eqn:Lrs; [|done]. injection Lx as <-. by destruct Hx as (_ & ? & _).
Qed.
Lemma wcall_all s i k rows : (i < length c)%nat → omap (wcall s i k) (rows ≫= all_stores) = rows_for s k rows.
Proof.
  intros Hi. induction rows as [|r rows IH]; [done|]. rewrite bind_cons, omap_app, IH. unfold rows_for. rewrite filter_cons.
  assert (∀ m a, omap (wcall s i k) (map (λ j, (j, CWrite r)) (seq a m)) = if decide (a ≤ i < a + m)%nat then if decide (row_key s r = Some k) then [r] else [] else []) as G.
  { intros m. induction m as [|m IHm]; intros a; cbn [seq map omap list_omap]; [by rewrite decide_False by lia|]. rewrite IHm. cbn [wcall]. destruct (decide (a = i)) as [->|Hne].
    - rewrite (decide_False (P := (S i ≤ i < S i + m)%nat)) by lia. rewrite (decide_True (P := (i ≤ i < i + S m)%nat)) by lia. by destruct (decide _).
    - destruct (decide (S a ≤ i < S a + m)%nat); [rewrite (decide_True (P := (a ≤ i < a + S m)%nat)) by lia|rewrite (decide_False (P := (a ≤ i < a + S m)%nat)) by lia]; done. }
  unfold all_stores. rewrite G. rewrite (decide_True (P := (0 ≤ i < 0 + length c)%nat)) by lia. unfold row_key. by destruct (decide _).
Qed.
Lemma wcall_reads s i k tr : reads_only tr → omap (wcall s i k) (map fst tr) = [].
Proof. induction 1 as [|[[j sc] res] tr (q & Hq) H IH]; [done|]. cbn in Hq. subst sc. exact IH. Qed.
Lemma rows_for_mjoin s k (ls : list (list Row)) : rows_for s k (mjoin ls) = mjoin (map (rows_for s k) ls).
Proof. induction ls as [|l ls IH]; [done|]. unfold rows_for in *. cbn. rewrite filter_app. f_equal. exact IH. Qed.
(** the rows written are those sent *)
Lemma all_called v h rs sent i l s k : vinv v h → answered v rs → accepted rs sent → c !! i = Some (l, s) →
  called s k (proj i h) ≡ₚ rows_for s k (rows_of sent (seq 0 n)).
Proof.
  intros V A Ac Lc. rewrite called_proj. rewrite (omap_by_thread _ n h) by apply V. unfold rows_of. rewrite rows_for_mjoin, map_map. apply Permutation_refl'. f_equal. apply map_ext_in. intros t Ht. apply in_seq in Ht.
  rewrite omap_bind. change (omap inv1 (th t h)) with (invs t h). destruct (lookup_lt_is_Some_2 rqs t ltac:(lia)) as [rq Lr]. rewrite (answered_invs v h rs t rq V A Lr).
  destruct (answered_trace v h rs sent t rq V A Ac Lr) as [[Hr ->]|[-> _]]; [by apply wcall_reads|]. apply wcall_all. by eapply lookup_lt_Some.
Qed.
Lemma all_fine v h rs sent i l s : vinv v h → answered v rs → accepted rs sent → c !! i = Some (l, s) → no_failures s (proj i h).
Proof.
  intros V A Ac Lc t r res Hin. unfold proj in Hin. apply elem_of_list_omap in Hin as (e & He & Ee). destruct e as [|j e|]; [done| |done]. destruct (decide (j = i)) as [->|]; [|done]. injection Ee as ->.
  pose proof (vi_thr _ _ _ _ _ _ _ _ _ _ V) as Hthr. rewrite Forall_forall in Hthr. specialize (Hthr _ He). cbn in Hthr. destruct (lookup_lt_is_Some_2 rqs t Hthr) as [rq Lr].
  assert ((i, CWrite r, res) ∈ rets t h) as Hr. { unfold rets. apply elem_of_list_omap. exists (VStore i (SRet t (CWrite r) res)). split; [|done]. unfold th. apply elem_of_list_filter. done. }
  destruct (answered_trace v h rs sent t rq V A Ac Lr) as [[Hro _]|[_ Hg]].
  - unfold reads_only in Hro. rewrite Forall_forall in Hro. destruct (Hro _ Hr) as [q [=]].
  - rewrite Forall_forall in Hg. destruct (Hg _ Hr) as (l' & s' & Lc' & Hrep). cbn [fst snd] in *. rewrite Lc in Lc'. injection Lc' as <- <-. destruct res as [[a b|o|]|]; cbn [reply] in *; done.
Qed.
Lemma all_quiet v h rs i l s g : vinv v h → answered v rs → c !! i = Some (l, s) → v_stores v !! i = Some g → squiescent g.
Proof.
  intros V A Lc Lg t sc L. destruct sc as [sc|]; [|done]. exfalso.
  destruct (decide (t < n)%nat) as [Ht|Ht].
  - destruct (lookup_lt_is_Some_2 rqs t Ht) as [rq Lr]. assert (is_Some (v_reqs v !! t)) as [x Lx] by (apply lookup_lt_is_Some; rewrite (vi_rlen _ _ _ _ _ _ _ _ _ _ V); lia).
    pose proof (vi_req _ _ _ _ _ _ _ _ _ _ V t rq x Lr Lx) as Hx. rewrite A, list_lookup_fmap in Lx. destruct (rs !! t); [|done]. injection Lx as <-. destruct Hx as (_ & _ & _ & Hid). specialize (Hid i g Lg). congruence.
  - destruct (vi_stores _ _ _ _ _ _ _ _ _ _ V i l s Lc) as (g0 & acts & L0 & HF & (m & Em & Ex)). rewrite Lg in L0. injection L0 as <-.
    assert (length (g_calls g) = n) as Hl; [|apply lookup_lt_Some in L; lia].
    assert (∀ acts g0 h0 g1, sexec (Compile s) (impl i) g0 acts = (g1, h0) → length (g_calls g1) = length (g_calls g0)) as G.
    { clear. intros acts. induction acts as [|a acts IH]; intros g0 h0 g1; cbn [sexec]; [by intros [= <- _]|]. destruct (sstep (Compile s) (impl i) g0 a) as [g2 e2] eqn:E2. destruct (sexec _ _ g2 acts) as [g3 e3] eqn:E3. intros [= <- _]. rewrite (IH _ _ _ E3).
      destruct a as [t sc|t]; cbn [sstep] in E2; destruct (g_calls g0 !! t) as [[]|]; try (by injection E2 as <- _).
      - destruct (op_of _ _ _); injection E2 as <- _; [cbn; by rewrite insert_length|done].
      - destruct (step _ _) as [c' es']. injection E2 as <- _. cbn. destruct (existsb _ _); [by rewrite insert_length|done]. }
    rewrite (G _ _ _ _ Ex). cbn. by rewrite replicate_length.
Qed.
(** the record after all requests have been answered *)
Lemma all_records v h rs sent i l s k : vinv v h → answered v rs → accepted rs sent → c !! i = Some (l, s) → k ≠ 0 → rows_for s k (rows_of sent (seq 0 n)) ≠ [] →
  ∃ rows buf, map snd rows ≡ₚ rows_for s k (rows_of sent (seq 0 n)) ∧ stored v i k = Some buf ∧ apply_rows pf (Compile s) (replicate (Z.to_nat (c_size (Compile s))) 0) rows = Ok buf.
Proof.
  intros V A Ac Lc H0 Hne. destruct (vi_stores _ _ _ _ _ _ _ _ _ _ V i l s Lc) as (g & acts & Lg & HF & Ex). destruct (dims_at c Hc i l s Lc) as [Hs Hd].
  pose proof (all_called v h rs sent i l s k V A Ac Lc) as Hp.
  destruct (C84_no_write_lost pf s (impl i) l Hs Hd (Himpl i l s Lc) n acts g (proj i h) k HF Ex) as (rows & buf & H1 & H2 & H3); [by eapply all_quiet|by eapply all_fine|done| |].
  - intros E. rewrite E in Hp. apply Hne. by apply Permutation_nil_l in Hp.
  - exists rows, buf. split; [by rewrite H1|]. split; [|done]. unfold stored. by rewrite Lg.
Qed.
Lemma none_records v h rs sent i l s k : vinv v h → answered v rs → accepted rs sent → c !! i = Some (l, s) → k ≠ 0 → rows_for s k (rows_of sent (seq 0 n)) = [] →
  stored v i k = None ∨ stored v i k = Some (replicate (Z.to_nat (c_size (Compile s))) 0).
Proof.
  intros V A Ac Lc H0 He. destruct (vi_stores _ _ _ _ _ _ _ _ _ _ V i l s Lc) as (g & acts & Lg & HF & Ex). destruct (dims_at c Hc i l s Lc) as [Hs Hd].
  pose proof (all_called v h rs sent i l s k V A Ac Lc) as Hp. rewrite He in Hp. apply Permutation_nil_r in Hp.
  unfold stored. rewrite Lg. cbn. apply (C84_nothing_invented pf s (impl i) l Hs Hd (Himpl i l s Lc) n acts g (proj i h) k HF Ex); [by eapply all_quiet|done|done|by eapply all_fine].
Qed.
End top.
