From Coq Require Import ZifyBool ZifyNat.
From Verif Require Import Base BaseProofs Float64 FnvSpec HllModel CollationModel CollationSpec CollationProofs CollationTop CollationTop2 BufmapModel BufmapSpec RegexpModel QueryModel Probe
  BufconcModel BufconcSpec BufconcInv BufconcTop BufconcProps ServerModel ServerSpec ScanProofs ParseRowProofs ServerProofs StoreProofs ServerInv ServerTop ServerHomeSpec StoreConcModel StoreConcSpec StoreConcProofs StoreConcTop StoreConcTop2 StoreConcTop3 StoreConcProps
  ServerConcModel ServerConcSpec ServerConcProofs ServerConcTop.
Local Open Scope Z_scope.

(** ** lists *)
Lemma submseteq_mjoin {A B} (g : A → list B) (x y : list A) : x ⊆+ y → mjoin (map g x) ⊆+ mjoin (map g y).
Proof.
  intros H. apply submseteq_Permutation in H as [z Hz]. assert (mjoin (map g y) ≡ₚ mjoin (map g (x ++ z))) as ->.
  { clear -Hz. induction Hz as [|a y y' H IH|a b y|y y' y'' H1 IH1 H2 IH2]; [done| | |by etrans]; cbn; [by apply Permutation_app_head|]. rewrite !app_assoc. apply Permutation_app_tail. apply Permutation_app_comm. }
  assert (mjoin (map g (x ++ z)) = mjoin (map g x) ++ mjoin (map g z)) as ->.
  { clear. induction x as [|a x IH]; [done|]. cbn. rewrite <- app_assoc. f_equal. exact IH. }
  by apply submseteq_inserts_r.
Qed.
Lemma submseteq_join_pointwise {A B} (f g : A → list B) (ts : list A) : (∀ t, t ∈ ts → f t ⊆+ g t) → mjoin (map f ts) ⊆+ mjoin (map g ts).
Proof.
  induction ts as [|t ts IH]; intros H; [done|]. cbn. apply submseteq_app; [apply H; left|]. apply IH. intros t' Ht'. apply H. by right.
Qed.
Lemma join_filter {A B} (P : A → Prop) `{∀ x, Decision (P x)} (f : A → list B) (ts : list A) : (∀ t, t ∈ ts → ¬ P t → f t = []) → mjoin (map f ts) = mjoin (map f (filter P ts)).
Proof.
  induction ts as [|t ts IH]; intros Hn; [done|]. cbn [map mjoin list_join]. rewrite filter_cons. destruct (decide (P t)) as [Hp|Hp].
  - cbn [map mjoin list_join]. f_equal. apply IH. intros t' Ht'. apply Hn. by right.
  - rewrite Hn; [|left|done]. cbn. apply IH. intros t' Ht'. apply Hn. by right.
Qed.
Lemma nodup_omap {A B} (f : A → option B) (h : list A) : (∀ a e b e' z x, h = a ++ e :: b ++ e' :: z → f e = Some x → f e' = Some x → False) → NoDup (omap f h).
Proof.
  induction h as [|e h IH]; intros Hn; [constructor|]. assert (NoDup (omap f h)) as Hd. { apply IH. intros a e1 b e2 z x -> H1 H2. by apply (Hn (e :: a) e1 b e2 z x). }
  cbn. destruct (f e) as [x|] eqn:Ef; [|done]. constructor; [|done]. intros Hin. apply elem_of_list_omap in Hin as (e' & He' & Ef'). apply elem_of_list_split in He' as (b & z & ->). by apply (Hn [] e b e' z x).
Qed.
Lemma omap_prefix_sub {A B} (f : A → option B) (x y : list A) : omap f x ⊆+ omap f (x ++ y).
Proof. rewrite omap_app. by apply submseteq_inserts_r. Qed.

Section top.
Context (pf : bytes → option float) (est : Counter → Z) (ff : float → bytes) (et : error → bytes) (pm : bytes → option bytes) (order : list FM → list FM).
Context (c : list (Z * Schema)) (impl : nat → Row → bool → prog) (Hc : cfg_ok c) (Himpl : impls_ok pf c impl) (rqs : list request) (Hrq : Forall request_ok rqs).
Notation cs := (map (λ ls : Z * Schema, Compile ls.2) c).
Notation n := (length rqs).
Notation handle := (handle ff et pm order cs).
Notation runs := (runs est c).
Notation vinv := (vinv est ff et pm order c impl rqs).
Notation accepted := (accepted pm rqs).
Context (v : vcfg) (h : list vevent) (rs : list response) (V : vinv v h) (A : answered v rs).

(** ** one request in the history *)
Lemma request_events t : (t < n)%nat → ∃ rq r mid, rqs !! t = Some rq ∧ rs !! t = Some r ∧ th t h = VBegin t :: mid ++ [VAnswer t r] ∧ store_only mid ∧ runs (handle rq) (rets t h) (HRet r) ∧ invs t h = map fst (rets t h).
Proof.
  intros Ht. destruct (lookup_lt_is_Some_2 rqs t Ht) as [rq Lr]. assert (is_Some (v_reqs v !! t)) as [x Lx] by (apply lookup_lt_is_Some; rewrite (vi_rlen _ _ _ _ _ _ _ _ _ _ V); lia).
  pose proof (vi_req _ _ _ _ _ _ _ _ _ _ V t rq x Lr Lx) as Hx. rewrite A, list_lookup_fmap in Lx. destruct (rs !! t) as [r|] eqn:Lrs; [|done]. injection Lx as <-. destruct Hx as (H1 & H2 & (mid & H3 & H4) & _).
  exists rq, r, mid. done.
Qed.
Lemma thread_lt h1 e h2 : h = h1 ++ e :: h2 → (vthread e < n)%nat.
Proof. intros E. pose proof (vi_thr _ _ _ _ _ _ _ _ _ _ V) as Hthr. rewrite E, Forall_app, Forall_cons in Hthr. apply Hthr. Qed.
Lemma store_only_in e mid : store_only mid → e ∈ mid → ∃ i x, e = VStore i x.
Proof. intros H Hin. unfold store_only in H. rewrite Forall_forall in H. specialize (H _ Hin). destruct e; [done| |done]. eauto. Qed.
(** a request arrives once: before that, nothing of it has happened *)
Lemma begin_first h1 t h2 : h = h1 ++ VBegin t :: h2 → th t h1 = [].
Proof.
  intros E. destruct (request_events t (thread_lt _ _ _ E)) as (rq & r & mid & _ & _ & Et & Hs & _). rewrite E, th_app in Et. unfold th at 2 in Et. rewrite filter_cons_True in Et by done.
  destruct (th t h1) as [|e l] eqn:E1; [done|]. exfalso. injection Et as _ Et. assert (VBegin t ∈ mid ++ [VAnswer t r]) as Hin. { rewrite <- Et. apply elem_of_app. right. left. }
  apply elem_of_app in Hin as [Hin|Hin]; [|by apply elem_of_list_singleton in Hin]. by destruct (store_only_in _ _ Hs Hin) as (? & ? & ?).
Qed.
(** a request is answered once: after that, nothing of it happens *)
Lemma answer_last h1 t r h2 : h = h1 ++ VAnswer t r :: h2 → rs !! t = Some r ∧ th t h2 = [] ∧ rets t h = rets t h1 ∧ th t h = th t h1 ++ [VAnswer t r].
Proof.
  intros E. destruct (request_events t (thread_lt _ _ _ E)) as (rq & r' & mid & _ & Lrs & Et & Hs & _). assert (th t h = th t h1 ++ VAnswer t r :: th t h2) as Eh. { rewrite E, th_app. unfold th at 2. by rewrite filter_cons_True. }
  assert (r = r' ∧ th t h2 = []) as [-> E2].
  { rewrite Et in Eh. destruct (th t h2) as [|e l _] eqn:E2 using rev_ind.
    - change (VBegin t :: mid ++ [VAnswer t r']) with ((VBegin t :: mid) ++ [VAnswer t r']) in Eh. apply app_inj_tail in Eh as [_ [= ->]]. done.
    - exfalso. change (VBegin t :: mid ++ [VAnswer t r']) with ((VBegin t :: mid) ++ [VAnswer t r']) in Eh. rewrite app_comm_cons, app_assoc in Eh. apply app_inj_tail in Eh as [Eh _]. destruct (th t h1) as [|e1 l1]; [done|]. injection Eh as _ Eh.
      assert (VAnswer t r ∈ mid) as Hin. { rewrite Eh. apply elem_of_app. right. left. } by destruct (store_only_in _ _ Hs Hin) as (? & ? & ?). }
  split; [done|]. split; [done|]. rewrite E2 in Eh. split; [|done]. unfold rets. by rewrite Eh, omap_app, app_nil_r.
Qed.
Lemma finished_nodup h1 h2 : h = h1 ++ h2 → NoDup (finished h1).
Proof.
  intros E. apply nodup_omap. intros a e b e' z t E1 F1 F2. destruct e as [| |t1 r1]; [done..|]. destruct e' as [| |t2 r2]; [done..|]. injection F1 as ->. injection F2 as ->.
  rewrite E1, <- app_assoc in E. cbn [app] in E. rewrite <- app_assoc in E. cbn [app] in E. destruct (answer_last a t r1 _ E) as (_ & H2 & _). rewrite th_app in H2. apply app_eq_nil in H2 as [_ H2]. unfold th in H2. by rewrite filter_cons_True in H2.
Qed.

Lemma arrived_nodup h1 h2 : h = h1 ++ h2 → NoDup (arrived h1).
Proof.
  intros E. apply nodup_omap. intros a e b e' z t E1 F1 F2. destruct e as [t1| |]; [|done..]. destruct e' as [t2| |]; [|done..]. injection F1 as ->. injection F2 as ->.
  rewrite E1 in E. assert (h = (a ++ VBegin t :: b) ++ VBegin t :: z ++ h2) as E2. { rewrite E, <- !app_assoc. cbn. by rewrite <- app_assoc. }
  pose proof (begin_first _ _ _ E2) as H2. rewrite th_app in H2. apply app_eq_nil in H2 as [_ H2]. unfold th in H2. by rewrite filter_cons_True in H2.
Qed.
Lemma arrived_lt h1 h2 t : h = h1 ++ h2 → t ∈ arrived h1 → (t < n)%nat.
Proof.
  intros E Ht. unfold arrived in Ht. apply elem_of_list_omap in Ht as (e & He & Ee). destruct e as [t'| |]; [|done..]. injection Ee as ->. apply elem_of_list_split in He as (a & b & ->). rewrite <- app_assoc in E. exact (thread_lt _ _ _ E).
Qed.
Lemma finished_lt h1 h2 t : h = h1 ++ h2 → t ∈ finished h1 → (t < n)%nat.
Proof.
  intros E Ht. unfold finished in Ht. apply elem_of_list_omap in Ht as (e & He & Ee). destruct e as [| |t' r']; [done..|]. injection Ee as ->. apply elem_of_list_split in He as (a & b & ->). rewrite <- app_assoc in E. exact (thread_lt _ _ _ E).
Qed.
Lemma arrived_sub h1 h2 : h = h1 ++ h2 → arrived h1 ⊆+ seq 0 n.
Proof. intros E. apply NoDup_submseteq; [by eapply arrived_nodup|]. intros t Ht. apply elem_of_seq. pose proof (arrived_lt _ _ _ E Ht). lia. Qed.

(** ** what has been written at some moment *)
Section store.
Context (sent : nat → list Row) (Ac : accepted rs sent) (i : nat) (l : Z) (s : Schema) (Lc : c !! i = Some (l, s)) (k : Z).
Lemma ret_event t j sc res : (j, sc, res) ∈ rets t h → SRet t sc res ∈ proj j h.
Proof.
  intros Hin. unfold rets in Hin. apply elem_of_list_omap in Hin as (e & He & Ee). unfold th in He. apply elem_of_list_filter in He as [Hv He].
  destruct e as [|j' [| | | |t' sc' r']|]; try done. injection Ee as -> -> ->. cbn in Hv. subst t'. unfold proj. apply elem_of_list_omap. exists (VStore j (SRet t sc res)). split; [done|]. by rewrite decide_True.
Qed.
(** a call of Write with a row for the record that has returned, has returned nil *)
Lemma ret_written t r0 res : (t < n)%nat → (i, CWrite r0, res) ∈ rets t h → row_key s r0 = Some k → res = Some (RUpdate (Ok ())).
Proof.
  intros Ht Hin Ek. apply ret_event in Hin. destruct (vi_stores _ _ _ _ _ _ _ _ _ _ V i l s Lc) as (g & acts & Lg & HF & Ex). destruct (dims_at c Hc i l s Lc) as [_ Hd].
  pose proof (all_fine est ff et pm order c impl rqs v h rs sent i l s V A Ac Lc _ _ _ Hin) as Hrep.
  apply elem_of_list_split in Hin as (ha & hb & Eh). destruct (k_ret s (impl i) _ _ (sexecution_cinv s (impl i) l Hd _ _ _ _ HF Ex) _ _ _ _ _ Eh) as (Hn & _).
  destruct res as [[a b|o|]|]; cbn [reply] in Hrep; [done| |done|]; [by injection Hrep as ->|]. rewrite (op_write s (impl i)), Ek in Hn. by destruct Hn as [Hn _]; specialize (Hn eq_refl).
Qed.
Lemma rets_written t : (t < n)%nat → omap (wret s i k) (rets t h) = rows_for s k (sent t) ∧ omap (wcall s i k) (invs t h) = rows_for s k (sent t).
Proof.
  intros Ht. destruct (request_events t Ht) as (rq & r & mid & Lr & Lrs & Et & Hs & Hr & Hi). rewrite Hi. assert (i < length c)%nat as Hlt by (by eapply lookup_lt_Some).
  destruct (answered_trace est ff et pm order c impl rqs v h rs sent t rq V A Ac Lr) as [[Hro ->]|[Hm Hg]].
  - rewrite wcall_reads by done. split; [|done]. clear -Hro. induction Hro as [|[[j sc] res] tr (q & Hq) H IH]; [done|]. cbn in Hq. subst sc. exact IH.
  - rewrite Hm, wcall_all by done. split; [|done]. rewrite <- (wcall_all c s i k (sent t) Hlt), <- Hm.
    assert (∀ j r0 res, (j, CWrite r0, res) ∈ rets t h → j = i → row_key s r0 = Some k → res ≠ None) as Hnn.
    { intros j r0 res Hin -> Ek. destruct (vi_stores _ _ _ _ _ _ _ _ _ _ V i l s Lc) as (g & acts & Lg & HF & Ex). destruct (dims_at c Hc i l s Lc) as [_ Hd].
      assert (SRet t (CWrite r0) res ∈ proj i h) as Hp. { unfold rets in Hin. apply elem_of_list_omap in Hin as (e & He & Ee). unfold th in He. apply elem_of_list_filter in He as [Hv He].
        destruct e as [|j' [| | | |t' sc' r']|]; try done. injection Ee as -> -> ->. cbn in Hv. subst t'. unfold proj. apply elem_of_list_omap. exists (VStore i (SRet t (CWrite r0) res)). split; [done|]. by rewrite decide_True. }
      apply elem_of_list_split in Hp as (ha & hb & Eh). destruct (k_ret s (impl i) _ _ (sexecution_cinv s (impl i) l Hd _ _ _ _ HF Ex) _ _ _ _ _ Eh) as (Hn & _). intros Hnone. apply Hn in Hnone. rewrite (op_write s (impl i)), Ek in Hnone. done. }
    clear -Hg Hnn Lc. induction Hg as [|[[j sc] res] tr (l' & s' & Lc' & Hrep) H IH]; [done|]. cbn [map omap list_omap fst]. cbn [fst snd] in Lc', Hrep.
    assert (wret s i k (j, sc, res) = wcall s i k (j, sc)) as ->.
    { destruct sc as [r0|q]; [|done]. cbn [wret wcall]. destruct (decide (j = i)) as [->|Hne]; [|by destruct res as [[]|]; try done; destruct r]. destruct (decide (row_key s r0 = Some k)) as [Ek|Ek].
      - destruct res as [res|]; [|exfalso; apply (Hnn i r0 None); [left|done..]]. destruct res as [a b|o|]; cbn [reply] in Hrep; try done. by destruct o.
      - destruct res as [[a b|[]|]|]; done. }
    destruct (wcall s i k (j, sc)); [f_equal|]; apply IH; intros; eapply Hnn; try done; by right.
Qed.
Lemma called_before h1 h2 : h = h1 ++ h2 → called s k (proj i h1) ⊆+ rows_for s k (rows_of sent (arrived h1)).
Proof.
  intros E. assert (Forall (λ e, vthread e < n)%nat h1) as Hthr. { pose proof (vi_thr _ _ _ _ _ _ _ _ _ _ V) as Hthr. rewrite E, Forall_app in Hthr. apply Hthr. }
  rewrite called_proj, (omap_by_thread _ n h1 Hthr). rewrite (join_filter (λ t, t ∈ arrived h1)).
  - unfold rows_of. rewrite rows_for_mjoin, map_map. etrans.
    + apply (submseteq_join_pointwise _ (λ t, rows_for s k (sent t))). intros t Ht. apply elem_of_list_filter in Ht as [_ Ht]. apply elem_of_seq in Ht. rewrite omap_bind. destruct (rets_written t ltac:(lia)) as [_ <-]. unfold invs. rewrite E, th_app. rewrite (omap_app inv1), omap_app. by apply submseteq_inserts_r.
    + apply submseteq_mjoin. apply NoDup_submseteq; [apply NoDup_filter, NoDup_ListNoDup, seq_NoDup|]. intros t Ht. by apply elem_of_list_filter in Ht as [? _].
  - intros t Ht Hna. apply elem_of_seq in Ht. destruct (request_events t ltac:(lia)) as (rq & r & mid & _ & _ & Et & _). rewrite E, th_app in Et. destruct (th t h1) as [|e l1] eqn:E1; [done|]. exfalso. injection Et as -> _.
    apply Hna. unfold arrived. apply elem_of_list_omap. exists (VBegin t). split; [|done]. assert (VBegin t ∈ th t h1) as Hin by (rewrite E1; left). unfold th in Hin. by apply elem_of_list_filter in Hin as [_ ?].
Qed.
Lemma succeeded_before h1 h2 : h = h1 ++ h2 → rows_for s k (rows_of sent (finished h1)) ⊆+ succeeded s k (proj i h1).
Proof.
  intros E. assert (Forall (λ e, vthread e < n)%nat h1) as Hthr. { pose proof (vi_thr _ _ _ _ _ _ _ _ _ _ V) as Hthr. rewrite E, Forall_app in Hthr. apply Hthr. }
  rewrite succeeded_proj, (omap_by_thread _ n h1 Hthr). unfold rows_of. rewrite rows_for_mjoin, map_map. etrans; [apply (submseteq_mjoin (λ t, rows_for s k (sent t)) _ (filter (λ t, t ∈ finished h1) (seq 0 n)))|].
  - apply NoDup_submseteq; [by eapply finished_nodup|]. intros t Ht. apply elem_of_list_filter. split; [done|]. unfold finished in Ht. apply elem_of_list_omap in Ht as (e & He & Ee). destruct e as [| |t' r']; [done..|]. injection Ee as ->.
    rewrite Forall_forall in Hthr. specialize (Hthr _ He). cbn in Hthr. apply elem_of_seq. lia.
  - etrans; [apply (submseteq_join_pointwise _ (λ t, omap (λ e, ret1 e ≫= wret s i k) (th t h1)))|].
    + intros t Ht. apply elem_of_list_filter in Ht as [Hf Ht]. apply elem_of_seq in Ht. unfold finished in Hf. apply elem_of_list_omap in Hf as (e & He & Ee). destruct e as [| |t' r']; [done..|]. injection Ee as ->.
      apply elem_of_list_split in He as (a & b & E1). assert (h = a ++ VAnswer t r' :: b ++ h2) as E'. { rewrite E, E1, <- app_assoc. done. } destruct (answer_last _ _ _ _ E') as (_ & _ & Hr & _). destruct (rets_written t ltac:(lia)) as [<- _]. rewrite omap_bind. change (omap ret1 (th t h1)) with (rets t h1).
      rewrite Hr, E1, rets_app, omap_app. by apply submseteq_inserts_r.
    + apply submseteq_mjoin. apply NoDup_submseteq; [apply NoDup_filter, NoDup_ListNoDup, seq_NoDup|]. intros t Ht. by apply elem_of_list_filter in Ht as [_ ?].
Qed.

(** ** a query *)
Lemma reply_read sc res : (∃ q, sc = CRead q) → match reply est (Compile s) sc res with ARead _ => True | _ => False end.
Proof. intros [q ->]. destruct res as [[? []| |]|]; done. Qed.
Notation respond := (respond ff et).
Lemma handle_query a b rq text q : c = a ++ (l, s) :: b → Forall (λ ls, s_name ls.2 ≠ s_name s) a → plain_name (s_name s) → coll_query rq (s_name s) text → RoughParse order text = Ok q →
  ∃ K, handle rq = HCall (length a) (CRead q) K ∧ ∀ x, K (ARead x) = HRet match x with Ret r => respond q r | Panics => Aborted | Hangs => Hung end.
Proof.
  intros Ea Ha Hn (Hm & Hp & Hst & Hq) Hpq. unfold ServerConcModel.handle. rewrite Hst, Hp. rewrite route_name by done. destruct Hn as (Hne & Hsl & _). rewrite decide_False by done. rewrite decide_False by done.
  rewrite decide_False by (rewrite !elem_of_cons, elem_of_nil in Hm; naive_solver). unfold h_query. rewrite Hq, Hpq, Ea.
  assert (∀ i0, h_stores ff et (s_name s) q (map (λ ls : Z * Schema, Compile ls.2) (a ++ (l, s) :: b)) i0 = h_stores ff et (s_name s) q (map (λ ls : Z * Schema, Compile ls.2) ((l, s) :: b)) (i0 + length a)) as ->.
  { clear Ea. induction Ha as [|[l0 s0] a Hx Ha IH]; intros i0; cbn [app length]; [by rewrite Nat.add_0_r|]. change (map ?f ((l0, s0) :: ?x)) with (f (l0, s0) :: map f x). cbn [h_stores snd]. rewrite (proj2 (compile_names s0)). cbn [snd] in Hx. rewrite decide_False by done.
    rewrite IH. f_equal. lia. }
  cbn [map h_stores snd Nat.add]. rewrite (proj2 (compile_names s)). rewrite decide_True by done. eexists. split; [reflexivity|]. intros [[]| |]; done.
Qed.
Lemma well_placed_readable acts g : k ≠ 0 → Forall saction_ok acts → sexecution s (impl i) l n acts g (proj i h) → readable l (c_size (Compile s)) (c_size (Compile s)) k → well_placed s l g k.
Proof.
  intros H0 HF Ex (R1 & R2 & R3) x Hx Hkx. destruct (dims_at c Hc i l s Lc) as [_ Hd]. destruct (sexecution_execution s (impl i) l Hd _ _ _ _ HF Ex) as (acts' & HF' & Ex').
  destruct (C41_bufmap_one_slot l _ n acts' (g_cfg g) _ x x k Hd HF' Ex' H0 Hx Hx Hkx Hkx) as [_ Hp]. apply probe_range in Hp; [|lia..]. nia.
Qed.
(** every key in a store is that of a row sent *)
Lemma key_sent acts g x : Forall saction_ok acts → sexecution s (impl i) l n acts g (proj i h) → 0 ≤ x < l → key_at (c_map (g_cfg g)) x ≠ 0 →
  ∃ r, r ∈ rows_of sent (seq 0 n) ∧ row_key s r = Some (key_at (c_map (g_cfg g)) x).
Proof.
  intros HF Ex Hx Hk. destruct (dims_at c Hc i l s Lc) as [_ Hd]. destruct (sexecution_execution s (impl i) l Hd _ _ _ _ HF Ex) as (acts' & HF' & Ex').
  destruct (r_owned _ _ _ (execution_races _ _ _ _ _ _ Hd HF' Ex') x Hx Hk) as (t & fn & ha & hb & Eh & _). set (k' := key_at (c_map (g_cfg g)) x) in *.
  assert (EInv t (OUpdate k' fn) ∈ erase s (impl i) (proj i h)) as Hin by (rewrite Eh; apply elem_of_app; right; left). unfold erase in Hin. apply elem_of_list_bind in Hin as (e & He & Hin).
  destruct e as [t' [r|q]|t' k0|t' k0 r init|t' k0 r init|t' sc res]; cbn [erase1] in He.
  - rewrite (op_write s (impl i)) in He. destruct (row_key s r) as [k0|] eqn:Ek; [|by apply elem_of_nil in He]. apply elem_of_list_singleton in He. injection He as -> -> ->. exists r. split; [|done].
    assert (r ∈ called s k0 (proj i h)) as Hc'. { unfold called. apply elem_of_list_omap. exists (SInv t' (CWrite r)). split; [done|]. by rewrite decide_True. }
    rewrite (all_called est ff et pm order c impl rqs v h rs sent i l s k0 V A Ac Lc) in Hc'. unfold rows_for in Hc'. by apply elem_of_list_filter in Hc' as [_ ?].
  - rewrite (op_read s (impl i)) in He. destruct (record_key _ _); [|by apply elem_of_nil in He]. by apply elem_of_list_singleton in He.
  - by apply elem_of_list_singleton in He.
  - by apply elem_of_list_singleton in He.
  - by apply elem_of_list_singleton in He.
  - destruct res; [|by apply elem_of_nil in He]. destruct (StoreConcModel.op_of _ _ _); [|by apply elem_of_nil in He]. by apply elem_of_list_singleton in He.
Qed.
Lemma key_home acts g x : k ≠ 0 → Forall saction_ok acts → sexecution s (impl i) l n acts g (proj i h) → undisturbed l s k (rows_of sent (seq 0 n)) → 0 ≤ x < l → key_at (c_map (g_cfg g)) x = k → x = home l k.
Proof.
  intros H0 HF Ex Hu Hx Hkx. destruct (dims_at c Hc i l s Lc) as [_ Hd]. destruct (sexecution_execution s (impl i) l Hd _ _ _ _ HF Ex) as (acts' & HF' & Ex').
  pose proof (v_place _ _ _ _ (execution_inv _ _ _ _ _ _ Hd HF' Ex')) as P. destruct (placed_found _ _ _ _ P Hx Hkx H0) as (j & Hj & -> & Hp). destruct j as [|j].
  - unfold probe, home. by rewrite Z.add_0_r.
  - exfalso. destruct (Hp 0%nat ltac:(lia)) as [Hn0 Hnk]. assert (0 ≤ probe l k 0 < l) as Hr by (apply Probe.probe_range; destruct Hd as (?&?&?); lia).
    destruct (key_sent acts g _ HF Ex Hr Hn0) as (r & Hin & Er). apply (Hu r _ Hin Er Hnk). destruct (C41_bufmap_one_slot l _ n acts' (g_cfg g) _ _ _ _ Hd HF' Ex' Hn0 Hr Hr eq_refl eq_refl) as [_ Hps].
    assert (probe l k 0 = home l k) as Eph by (unfold probe, home; by rewrite Z.add_0_r). rewrite Eph in *. exact Hps.
Qed.
Lemma well_placed_home acts g : k ≠ 0 → Forall saction_ok acts → sexecution s (impl i) l n acts g (proj i h) → undisturbed l s k (rows_of sent (seq 0 n)) → home_readable l (c_size (Compile s)) (c_size (Compile s)) k → well_placed s l g k.
Proof. intros H0 HF Ex Hu [R1 R2] x Hx Hkx. rewrite (key_home acts g x H0 HF Ex Hu Hx Hkx). done. Qed.
(** the answer of a query is that of the rows applied up to some moment between the arrival of the request and its answer *)
Lemma query_moment a b rq text q t h1 h2 r h3 : i = length a → c = a ++ (l, s) :: b → Forall (λ ls, s_name ls.2 ≠ s_name s) a → plain_name (s_name s) → coll_query rq (s_name s) text → RoughParse order text = Ok q →
  rqs !! t = Some rq → h = h1 ++ VBegin t :: h2 ++ VAnswer t r :: h3 → record_key (s_keys s) (q_crit q) = Some k → k ≠ 0 → whole_readable l s k (rows_of sent (seq 0 n)) →
  Z.of_nat (length (rows_for s k (rows_of sent (seq 0 n)))) < 2^31 →
  ∃ y z, proj i (h1 ++ VBegin t :: h2) = (proj i h1 ++ y) ++ z ∧ let p := proj i h1 ++ y in
    (r = respond q (Coll_Read est (Compile s) (q_fms q) (contents pf s k p)) ∨ (applied k p = [] ∧ r = Resp 200 (query_body ff q []))).
Proof.
  intros Ei Ea Ha Hpn Hq Hpq Lr Eh Ek H0 Hread Hlt. destruct (handle_query a b rq text q Ea Ha Hpn Hq Hpq) as (K & EK & HK). rewrite <- Ei in EK.
  assert (h = (h1 ++ VBegin t :: h2) ++ VAnswer t r :: h3) as Eh' by (rewrite Eh, <- app_assoc; done). destruct (answer_last _ _ _ _ Eh') as (Lrs & _ & Hrets & _).
  assert (t < n)%nat as Ht by (by eapply lookup_lt_Some). destruct (request_events t Ht) as (rq' & r' & mid & Lr' & Lrs' & Et & Hs & Hr & Hi). rewrite Lr in Lr'. injection Lr' as <-. rewrite Lrs in Lrs'. injection Lrs' as <-.
  rewrite EK in Hr. destruct (rets t h) as [|[[j sc] res] tr] eqn:Er; [done|]. destruct Hr as (l' & s' & K' & [= <- <- <-] & Lc' & Hr). rewrite Lc in Lc'. injection Lc' as <- <-.
  assert (∃ x, reply est (Compile s) (CRead q) res = ARead x) as [x Hx]. { pose proof (reply_read (CRead q) res ltac:(eauto)) as Hx. destruct (reply est (Compile s) (CRead q) res); [done|eauto]. }
  rewrite Hx, HK in Hr. destruct tr as [|[[? ?] ?] tr]; [|by destruct Hr as (? & ? & ? & [=] & _)]. cbn in Hr. injection Hr as Hr.
  (* where the Read returns *)
  pose proof (begin_first _ _ _ Eh) as Hb. assert (rets t (h1 ++ VBegin t :: h2) = rets t h2) as E2. { rewrite rets_app. change (VBegin t :: h2) with ([VBegin t] ++ h2). rewrite rets_app. unfold rets at 1. rewrite Hb. unfold rets at 1. rewrite th_mine by (by constructor). done. }
  assert (VStore i (SRet t (CRead q) res) ∈ h2) as Hin. { assert ((i, CRead q, res) ∈ rets t h2) as Hin by (rewrite <- E2, <- Hrets; left). unfold rets in Hin. apply elem_of_list_omap in Hin as (e & He & Ee). unfold th in He. apply elem_of_list_filter in He as [Hv He].
    destruct e as [|j' [| | | |t' sc' r']|]; try done. injection Ee as -> -> ->. cbn in Hv. by subst t'. }
  apply elem_of_list_split in Hin as (ha & hb & E3).
  destruct (vi_stores _ _ _ _ _ _ _ _ _ _ V i l s Lc) as (g & acts & Lg & HF & Ex). destruct (dims_at c Hc i l s Lc) as [Hsc Hd].
  assert (proj i (VBegin t :: ha ++ [VStore i (SRet t (CRead q) res)] ++ hb) = proj i ha ++ SRet t (CRead q) res :: proj i hb) as Eph.
  { change (VBegin t :: ?x) with ([VBegin t] ++ x). rewrite !proj_app. change (proj i [VBegin t]) with (@nil sevent). cbn [app]. f_equal. change [VStore i (SRet t (CRead q) res)] with (map (VStore i) [SRet t (CRead q) res]). by rewrite proj_same. }
  assert (proj i h = (proj i h1 ++ proj i ha) ++ SRet t (CRead q) res :: (proj i hb ++ proj i h3)) as Eph'.
  { rewrite Eh, E3, proj_app. change (VBegin t :: (ha ++ VStore i (SRet t (CRead q) res) :: hb) ++ VAnswer t r :: h3) with ((VBegin t :: (ha ++ [VStore i (SRet t (CRead q) res)] ++ hb)) ++ [VAnswer t r] ++ h3). rewrite proj_app, Eph, proj_app. change (proj i [VAnswer t r]) with (@nil sevent). cbn [app]. by rewrite <- !app_assoc. }
  pose proof (all_fine est ff et pm order c impl rqs v h rs sent i l s V A Ac Lc) as NF.
  assert (squiescent g) as Q by (by eapply (all_quiet est ff et pm order c impl rqs)). assert (well_placed s l g k) as Hw by (destruct Hread as [Hread|[Hu Hread]]; [by eapply well_placed_readable|by eapply well_placed_home]).
  pose proof (all_called est ff et pm order c impl rqs v h rs sent i l s k V A Ac Lc) as Hcal.
  destruct (read_moment pf est s (impl i) l Hsc Hd (Himpl i l s Lc) n acts g (proj i h) _ _ t q res k HF Ex Eph' Ek H0) as (H1 & H2 & E4 & Hqu & Hcase).
  destruct (sexecution_pinv s (impl i) l Hd k n acts g (proj i h) H0 HF Ex NF) as (Wi & _).
  (* proj i h1 ends before the call *)
  assert (∃ y, H1 = proj i h1 ++ y) as [y ->].
  { apply app_eq_app in E4 as (z & [[Z1 Z2]|[Z1 Z2]]); [|by exists z]. destruct z as [|e z]; [exists []; rewrite app_nil_r in Z1; by rewrite app_nil_r|]. exfalso. injection Z2 as <- Z2.
    assert (SInv t (CRead q) ∈ proj i h1) as Hin by (rewrite Z1; apply elem_of_app; right; left). unfold proj in Hin. apply elem_of_list_omap in Hin as (e & He & Ee). destruct e as [|j' e|]; [done| |done]. destruct (decide (j' = i)) as [->|]; [|done]. injection Ee as ->.
    assert (VStore i (SInv t (CRead q)) ∈ th t h1) as Hin by (unfold th; by apply elem_of_list_filter). rewrite Hb in Hin. by apply elem_of_nil in Hin. }
  assert (∀ p z, proj i h1 ++ proj i ha = p ++ z → ∃ z', proj i (h1 ++ VBegin t :: h2) = p ++ z') as Hext.
  { intros p z E. exists (z ++ SRet t (CRead q) res :: proj i hb). rewrite proj_app, E3. rewrite app_assoc, <- E. rewrite <- app_assoc. f_equal. exact Eph. }
  assert (length (applied k H2) ≤ length (called s k (proj i h)))%nat as Hle.
  { destruct (Wi (proj i h) [] ltac:(by rewrite app_nil_r)) as [_ Hsub]. apply submseteq_length in Hsub. rewrite map_length in Hsub. assert (applied k (proj i h) = applied k (proj i h1 ++ y) ++ applied k H2 ++ applied k (proj i hb ++ proj i h3)) as Eapp.
    { rewrite Eph', E4. change (SInv t (CRead q) :: H2) with ([SInv t (CRead q)] ++ H2). change (SRet t (CRead q) res :: ?x) with ([SRet t (CRead q) res] ++ x). rewrite !applied_app, <- !app_assoc. done. } rewrite Eapp, !app_length in Hsub. lia. }
  rewrite Hcal in Hle. destruct Hcase as [(slot & Hsl & Hks & Hm)|[[Hrep Hap]|(Hrep & slot & Hsl & Hks & Hbad)]].
  - destruct (Hw slot Hsl Hks) as [Hsx _]. destruct Hm as (a' & b' & -> & Hrep); [done|lia|]. destruct (Hext ((proj i h1 ++ y) ++ SInv t (CRead q) :: a') b') as (z' & Ez). { rewrite E4, <- (app_assoc (proj i h1 ++ y)). done. }
    exists (y ++ SInv t (CRead q) :: a'), z'. rewrite app_assoc. split; [done|]. left. rewrite Hx in Hrep. injection Hrep as ->. done.
  - destruct (Hext (proj i h1 ++ y) (SInv t (CRead q) :: H2) E4) as (z' & Ez). exists y, z'. split; [done|]. right. split; [done|]. rewrite Hx in Hrep. injection Hrep as ->. done.
  - destruct (Hw slot Hsl Hks) as [_ ?]. lia.
Qed.
(** the rows applied at a moment *)
Lemma applied_rows p z : k ≠ 0 → proj i h = p ++ z → apply_rows pf (Compile s) (replicate (Z.to_nat (c_size (Compile s))) 0) (applied k p) = Ok (contents pf s k p) ∧
  succeeded s k p ⊆+ map snd (applied k p) ∧ map snd (applied k p) ⊆+ called s k p.
Proof.
  intros H0 E. destruct (vi_stores _ _ _ _ _ _ _ _ _ _ V i l s Lc) as (g & acts & Lg & HF & Ex). destruct (dims_at c Hc i l s Lc) as [Hsc Hd].
  pose proof (all_fine est ff et pm order c impl rqs v h rs sent i l s V A Ac Lc) as NF. assert (squiescent g) as Q by (by eapply (all_quiet est ff et pm order c impl rqs)).
  split; [exact (apply_ok pf s (impl i) l Hd (Himpl i l s Lc) n acts g (proj i h) k p z HF Ex NF Q E)|]. destruct (sexecution_pinv s (impl i) l Hd k n acts g (proj i h) H0 HF Ex NF) as (Wi & _). exact (Wi p z E).
Qed.
End store.
End top.
