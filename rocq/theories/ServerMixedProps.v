(** Property C98: runs of the server in which posts may also fail: lines that are not
    rows, values that are not numbers, clients that go away, bodies that break off or
    have lines that are too long, full collations; with any number of requests being
    served at the same time, in every interleaving. *)
From Coq Require Import ZifyBool ZifyNat.
From Verif Require Import Base BaseProofs Float64 FnvSpec HllModel HllSpec Stat64Spec CollationModel CollationSpec CollationLayout CollationCells CollationProofs CollationTop CollationTop2 BufmapModel BufmapSpec RegexpModel QueryModel QuerySpec Probe
  BufconcModel BufconcSpec BufconcInv BufconcProps ServerModel ServerSpec ScanProofs ParseRowProofs ServerProofs StoreProofs ServerInv ServerTop ServerAnswers ServerHomeSpec StoreConcModel StoreConcSpec StoreConcProofs StoreConcTop StoreConcTop2 StoreConcTop3 StoreConcProps
  ServerConcModel ServerConcSpec ServerConcProofs ServerConcTop ServerConcTop2 ServerMixedSpec StoreConcMixed CollationMixed ServerConcMixed ServerConcMixed2.
Local Open Scope Z_scope.

Section props.
Context (pf : bytes → option float) (est : Counter → Z) (ff : float → bytes) (et : error → bytes) (pm : bytes → option bytes) (order : list FM → list FM).
Context (c : list (Z * Schema)) (impl : nat → Row → bool → prog) (Hc : cfg_ok c) (Himpl : impls_ok pf c impl).
Notation vexecution := (vexecution est ff et pm order c impl).
Notation zeros s := (replicate (Z.to_nat (c_size (Compile s))) 0).

Lemma submseteq_filter {A} (P : A → Prop) `{∀ x, Decision (P x)} (x y : list A) : x ⊆+ y → filter P x ⊆+ filter P y.
Proof.
  induction 1 as [|a x y _ IH|a b x|a x y _ IH|x y z _ IH1 _ IH2]; [done| | | |by etrans].
  - rewrite !filter_cons. destruct (decide (P a)); [by apply submseteq_skip|done].
  - rewrite !filter_cons. destruct (decide (P a)), (decide (P b)); try done. apply submseteq_swap.
  - rewrite filter_cons. destruct (decide (P a)); [by apply submseteq_cons|done].
Qed.
(** what the rows that were applied are, in the order in which they were *)
Section run.
Context (rqs : list request) (Hrq : Forall request_ok rqs) (v : vcfg) (h : list vevent) (rs : list response) (V : vinv est ff et pm order c impl rqs v h) (A : answered v rs).
Context (lines : nat → list bytes) (whole : nat → bool) (rows : nat → list Row) (B : brought pm rqs lines whole rows).
Context (i : nat) (l : Z) (s : Schema) (Lc : c !! i = Some (l, s)).
Lemma shares : ∃ took cut, (∀ t rq r, rqs !! t = Some rq → rs !! t = Some r → share et rq r (lines t) (whole t) (rows t) (took t) (cut t)) ∧
  ∀ t, (t < length rqs)%nat → ∀ k, k ≠ 0 → tmarks pf s t k (zero s) (proj i h) = left_by rows s t k (took t) (cut t).
Proof.
  destruct (choose (0%nat, None : option Row) _ (length rqs) (thread_share pf est ff et pm order c impl Hc Himpl rqs v h rs V A lines whole rows B i l s Lc)) as [f Hf].
  exists (λ t, (f t).1), (λ t, (f t).2). split.
  - intros t rq r Lr Lrs. destruct (Hf t ltac:(by eapply lookup_lt_Some)) as [H _]. by apply H.
  - intros t Ht. apply (Hf t Ht).
Qed.
Lemma bytes_applied k : Forall (λ ir, Forall (λ fv, is_bytes (fv_V fv)) (row_data ir.2)) (applied k (proj i h)).
Proof.
  destruct (vi_stores _ _ _ _ _ _ _ _ _ _ V i l s Lc) as (g & acts & Lg & HF & Ex). destruct (dims_at c Hc i l s Lc) as [Hs Hd]. pose proof (sexecution_inv s (impl i) l Hd _ _ _ _ HF Ex) as W.
  apply Forall_forall. intros [init r] Hin. unfold applied in Hin. apply elem_of_list_omap in Hin as (e & He & Ee). destruct e as [t sc|t k'|t k' r' init'|t k' r' init'|t sc res]; try done. destruct (decide (k' = k)) as [->|]; [|done]. injection Ee as -> ->.
  destruct (w_done _ _ _ _ _ W t k r init) as [Hb _]; [by left|]. cbn [snd]. eapply Forall_impl; [exact Hb|]. naive_solver.
Qed.
End run.

(** Each collation takes, of every post, the first rows, and perhaps part of the next
    one if the post is answered with an error -- all rows if the client stays and is
    answered 200.  When all requests have been answered, the record of key k is the
    result of applying all those rows with that key, each exactly once, one after
    another, in an order that respects that of posts which do not overlap. *)
Theorem C98_mixed rqs acts v h rs lines whole rows i l s : Forall request_ok rqs → vexecution rqs acts v h → answered v rs → brought pm rqs lines whole rows → c !! i = Some (l, s) →
  ∃ took cut, (∀ t rq r, rqs !! t = Some rq → rs !! t = Some r → share et rq r (lines t) (whole t) (rows t) (took t) (cut t)) ∧
  ∀ k, k ≠ 0 → ∃ ord d outs, apply_all pf (Compile s) (zeros s) ord = (d, outs) ∧ (stored v i k = Some d ∨ (stored v i k = None ∧ ord = [])) ∧
    outs ≡ₚ map (λ r, (r, true)) (of_key s k (rows_of (λ t, take (took t) (rows t)) (seq 0 (length rqs)))) ++ map (λ r, (r, false)) (of_key s k (omap cut (seq 0 (length rqs)))) ∧
    (∀ h1 h2, h = h1 ++ h2 → ∃ o1 o2, outs = o1 ++ o2 ∧
       of_key s k (rows_of (touched rows took cut) (finished h1)) ⊆+ map fst o1 ∧ map fst o1 ⊆+ of_key s k (rows_of (touched rows took cut) (arrived h1))) ∧
    (* what the record answers: all rows are counted; for fields that the rows applied
       in part do not have, sum, mean and variance are those of the values *)
    (s_rows s ≠ [] → answer est s d (str "*") (str "count") = Ok [MkFMV (str "*") (str "count") (f_of_Z (Z.of_nat (length outs) mod 2^64))]) ∧
    ∀ f m w, field_measure s f m → (∀ r, r ∈ omap cut (seq 0 (length rqs)) → f ∉ map fv_F (row_data r)) → stat_value m (field_floats pf f (map fst outs)) = Some w →
      answer est s d f (m_name m) = Ok [MkFMV f (m_name m) w].
Proof.
  intros Hrq Ex A B Lc. pose proof (vexecution_inv pf est ff et pm order c impl Hc rqs Hrq acts v h Ex) as V.
  destruct (shares rqs v h rs V A lines whole rows B i l s Lc) as (took & cut & Hsh & HT). exists took, cut. split; [done|]. intros k H0.
  destruct (vi_stores _ _ _ _ _ _ _ _ _ _ V i l s Lc) as (g & acts' & Lg & HF & Exs). destruct (dims_at c Hc i l s Lc) as [Hs Hd].
  assert (squiescent g) as Q by (by eapply (all_quiet est ff et pm order c impl rqs)).
  pose proof (marks_outcomes pf s k (zero s) (proj i h)) as Ha. pose proof (bytes_applied rqs v h V i l s Lc k) as Hby.
  exists (applied k (proj i h)), (after pf s k (zero s) (proj i h)), (map snd (marks pf s k (zero s) (proj i h))). split; [exact Ha|]. split.
  { unfold stored. rewrite Lg. cbn. rewrite (after_contents pf s). exact (store_record pf s (impl i) l Hs Hd (Himpl i l s Lc) _ acts' g _ k HF Exs Q H0). }
  pose proof (all_marks pf est ff et pm order c impl rqs v h V rows i s took cut HT k H0) as Hp. split; [exact Hp|]. split; [|split].
  - intros h1 h2 E. exists (map snd (marks pf s k (zero s) (proj i h1))), (map snd (marks pf s k (after pf s k (zero s) (proj i h1)) (proj i h2))). split; [by rewrite E, proj_app, marks_app, map_app|].
    exact (marks_before pf est ff et pm order c impl rqs v h rs V A rows i s took cut HT k h1 h2 H0 E).
  - intros Hr. rewrite (all_count pf est s Hs _ _ _ Hr Hby Ha). by rewrite map_length, marks_length.
  - intros f m w Hm Hno Hv. destruct (Compile_inv s Hs) as (cs & Hi & _). destruct (all_cells pf s Hs cs _ Hi Hby _ _ _ (CollationSpec.reach_new _ _) Ha) as (_ & Efst & _). rewrite Efst in Hv.
    apply (all_stats pf est s Hs f m w _ _ _ Hm Hby Ha); [|done]. intros r Hr. rewrite Hp in Hr. apply elem_of_app in Hr as [Hr|Hr]; apply elem_of_list_In, in_map_iff in Hr as (r' & [= <-] & Hr); apply elem_of_list_In in Hr.
    unfold of_key in Hr. apply elem_of_list_filter in Hr as [_ Hr]. by apply Hno.
Qed.

(** A query in such a run.  Partial: as in C94, the record has to be where the whole of
    it can be read and fewer than 2^31 rows are brought for it.  The answer is that of
    the record at one moment between the arrival of the query and its answer: all rows
    that posts answered before have left in the record are in it, rows that arrive
    later are not. *)
Theorem C98_query_partial rqs acts v h rs lines whole rows l s t rq text q k h1 h2 r h3 : Forall request_ok rqs → vexecution rqs acts v h → answered v rs → brought pm rqs lines whole rows →
  installed c l s → plain_name (s_name s) → rqs !! t = Some rq → coll_query rq (s_name s) text → RoughParse order text = Ok q → record_key (s_keys s) (q_crit q) = Some k → k ≠ 0 →
  whole_readable l s k (rows_of rows (seq 0 (length rqs))) → Z.of_nat (length (of_key s k (rows_of rows (seq 0 (length rqs))))) < 2^31 →
  h = h1 ++ VBegin t :: h2 ++ VAnswer t r :: h3 →
  ∃ took cut, (∀ t rq r, rqs !! t = Some rq → rs !! t = Some r → share et rq r (lines t) (whole t) (rows t) (took t) (cut t)) ∧
  ∃ ord d outs, apply_all pf (Compile s) (zeros s) ord = (d, outs) ∧
    (r = respond ff et q (Coll_Read est (Compile s) (q_fms q) d) ∨ (ord = [] ∧ r = Resp 200 (query_body ff q []))) ∧
    outs ⊆+ map (λ r, (r, true)) (of_key s k (rows_of (λ t, take (took t) (rows t)) (seq 0 (length rqs)))) ++ map (λ r, (r, false)) (of_key s k (omap cut (seq 0 (length rqs)))) ∧
    of_key s k (rows_of (touched rows took cut) (finished h1)) ⊆+ map fst outs ∧ map fst outs ⊆+ of_key s k (rows_of (touched rows took cut) (arrived (h1 ++ VBegin t :: h2))) ∧
    (s_rows s ≠ [] → answer est s d (str "*") (str "count") = Ok [MkFMV (str "*") (str "count") (f_of_Z (Z.of_nat (length outs) mod 2^64))]) ∧
    ∀ f m w, field_measure s f m → (∀ r, r ∈ omap cut (seq 0 (length rqs)) → f ∉ map fv_F (row_data r)) → stat_value m (field_floats pf f (map fst outs)) = Some w →
      answer est s d f (m_name m) = Ok [MkFMV f (m_name m) w].
Proof.
  intros Hrq Ex A B (a & b & Ea & Ha) Hpn Lr Hq Hpq Ek H0 Hread Hlt Eh. pose proof (vexecution_inv pf est ff et pm order c impl Hc rqs Hrq acts v h Ex) as V.
  assert (c !! length a = Some (l, s)) as Lc by (rewrite Ea; by apply list_lookup_middle). set (i := length a) in *.
  destruct (shares rqs v h rs V A lines whole rows B i l s Lc) as (took & cut & Hsh & HT). exists took, cut. split; [done|].
  destruct (mixed_moment pf est ff et pm order c impl Hc Himpl rqs v h rs V A lines whole rows B i l s Lc k a b rq text q t h1 h2 r h3 eq_refl Ea Ha Hpn Hq Hpq Lr Eh Ek H0 Hread Hlt) as (y & z & Ep & Hr).
  set (p := proj i h1 ++ y) in *. pose proof (marks_outcomes pf s k (zero s) p) as Hap. exists (applied k p), (after pf s k (zero s) p), (map snd (marks pf s k (zero s) p)).
  assert (h = h1 ++ (VBegin t :: h2 ++ VAnswer t r :: h3)) as E1 by done. assert (h = (h1 ++ VBegin t :: h2) ++ VAnswer t r :: h3) as E2 by (rewrite Eh, <- app_assoc; done).
  assert (proj i h = p ++ (z ++ proj i (VAnswer t r :: h3))) as Eph by (rewrite E2, proj_app, Ep, <- app_assoc; done).
  assert (Forall (λ ir, Forall (λ fv, is_bytes (fv_V fv)) (row_data ir.2)) (applied k p)) as Hby. { pose proof (bytes_applied rqs v h V i l s Lc k) as Hb. rewrite Eph, applied_app in Hb. by apply Forall_app in Hb as [Hb _]. }
  assert (map snd (marks pf s k (zero s) p) ⊆+ map (λ r, (r, true)) (of_key s k (rows_of (λ t, take (took t) (rows t)) (seq 0 (length rqs)))) ++ map (λ r, (r, false)) (of_key s k (omap cut (seq 0 (length rqs))))) as Hsub.
  { etrans; [|apply Permutation_submseteq; exact (all_marks pf est ff et pm order c impl rqs v h V rows i s took cut HT k H0)]. rewrite Eph, marks_app, map_app. by apply submseteq_inserts_r. }
  destruct (dims_at c Hc i l s Lc) as [Hs _].
  split; [exact Hap|]. split; [|split; [exact Hsub|split; [|split; [|split]]]].
  - rewrite (after_contents pf s). exact Hr.
  - etrans; [exact (proj1 (marks_before pf est ff et pm order c impl rqs v h rs V A rows i s took cut HT k h1 _ H0 E1))|]. unfold p. rewrite marks_app, !map_app. by apply submseteq_inserts_r.
  - etrans; [|exact (proj2 (marks_before pf est ff et pm order c impl rqs v h rs V A rows i s took cut HT k (h1 ++ VBegin t :: h2) _ H0 E2))]. rewrite Ep, marks_app, !map_app. by apply submseteq_inserts_r.
  - intros Hr0. rewrite (all_count pf est s Hs _ _ _ Hr0 Hby Hap). by rewrite map_length, marks_length.
  - intros f m w Hm Hno Hv. destruct (Compile_inv s Hs) as (cs & Hi & _). destruct (all_cells pf s Hs cs _ Hi Hby _ _ _ (CollationSpec.reach_new _ _) Hap) as (_ & Efst & _). rewrite Efst in Hv.
    apply (all_stats pf est s Hs f m w _ _ _ Hm Hby Hap); [|done]. intros r0 Hr0. apply (elem_of_submseteq _ _ _ Hr0) in Hsub. apply elem_of_app in Hsub as [Hr1|Hr1]; apply elem_of_list_In, in_map_iff in Hr1 as (r' & [= <-] & Hr1); apply elem_of_list_In in Hr1.
    unfold of_key in Hr1. apply elem_of_list_filter in Hr1 as [_ Hr1]. by apply Hno.
Qed.

(** The number that count( * ) reports in such a run: at least the number of rows of the
    posts that were answered 200 before the query arrived (to clients that stayed), at
    most the number of rows that had arrived when it was answered.  Partial, like C94. *)
Theorem C98_count_between_partial rqs acts v h rs lines whole rows l s t rq key val h1 h2 r h3 : Forall request_ok rqs → vexecution rqs acts v h → answered v rs → brought pm rqs lines whole rows →
  installed c l s → plain_name (s_name s) → s_keys s = [key] → s_rows s ≠ [] → map_order order → key_ok key → value_ok val → ¬ has_where (crit_item (key, val)) →
  rqs !! t = Some rq → coll_query rq (s_name s) (str "select count(*) where " ++ key ++ str "='" ++ val ++ str "'") →
  let k := fnv1_spec (key ++ val) in k ≠ 0 → let all := rows_of rows (seq 0 (length rqs)) in no_collision [key] [MkFV key val] all →
  whole_readable l s k all → Z.of_nat (length all) < 2^31 →
  h = h1 ++ VBegin t :: h2 ++ VAnswer t r :: h3 →
  let with_key ts := filter (λ r, value_of key (row_data r) = Some val) (rows_of rows ts) in
  ∃ m, (∀ ok, ok ⊆+ finished h1 → (∀ t, t ∈ ok → rs !! t = Some (Resp 200 []) ∧ ∃ rq, rqs !! t = Some rq ∧ rq_ctx rq = None) → length (with_key ok) ≤ m)%nat ∧
    (m ≤ length (with_key (arrived (h1 ++ VBegin t :: h2))))%nat ∧
    (r = Resp 200 (key ++ str "=" ++ val ++ [10] ++ str "count(*)=" ++ ff (f_of_Z (Z.of_nat m)) ++ [10]) ∨ (m = 0%nat ∧ r = Resp 200 (key ++ str "=" ++ val ++ [10]))).
Proof.
  intros Hrq Ex A B Hins Hpn Hkeys Hrows Ho Hk Hv Hw Lr Hq k H0 all Hcol Hread Hlt Eh with_key.
  assert (RoughParse order (one_query (str "count") (str "*") key val) = Ok (MkQuery [MkFM (str "*") [str "count"]] [MkFV key val])) as Hpq. { destruct name_cnt as [Nc Ns]. by apply one_query_parse. }
  assert (record_key (s_keys s) (q_crit (MkQuery [MkFM (str "*") [str "count"]] [MkFV key val])) = Some k) as Ek. { rewrite Hkeys. apply record_key_one. }
  assert (length (of_key s k all) ≤ length all)%nat as Hle by apply filter_length.
  destruct (C98_query_partial rqs acts v h rs lines whole rows l s t rq _ _ k h1 h2 r h3 Hrq Ex A B Hins Hpn Lr Hq Hpq Ek H0 Hread ltac:(fold all; lia) Eh) as (took & cut & Hsh & ord & d & outs & Hap & Hr & _ & S1 & S2 & Hcnt & _).
  pose proof (vexecution_inv pf est ff et pm order c impl Hc rqs Hrq acts v h Ex) as V. assert (h = (h1 ++ VBegin t :: h2) ++ VAnswer t r :: h3) as Eh' by (rewrite Eh, <- app_assoc; done).
  assert (length rs = length rqs) as Hlen. { pose proof (vi_rlen _ _ _ _ _ _ _ _ _ _ V) as Hl. rewrite A, map_length in Hl. done. }
  assert (∀ t0, (t0 < length rqs)%nat → touched rows took cut t0 ⊆+ rows t0 ∧ (rs !! t0 = Some (Resp 200 []) → (∃ rq, rqs !! t0 = Some rq ∧ rq_ctx rq = None) → touched rows took cut t0 = rows t0)) as Htouch.
  { intros t0 Ht0. destruct (lookup_lt_is_Some_2 rqs t0 Ht0) as [rq0 L0]. destruct (lookup_lt_is_Some_2 rs t0 ltac:(lia)) as [r0 R0]. destruct (Hsh t0 rq0 r0 L0 R0) as (Htk & Hcut & Hok). unfold touched. split.
    - destruct (cut t0) as [rc|] eqn:Ec; [|rewrite app_nil_r; apply sublist_submseteq, sublist_take]. destruct (Hcut rc eq_refl) as [Lc _]. rewrite <- (take_S_r _ _ _ Lc). apply sublist_submseteq, sublist_take.
    - intros R1 (rq1 & L1 & C1). rewrite L0 in L1. injection L1 as <-. rewrite R0 in R1. injection R1 as ->. destruct (Hok eq_refl C1) as (_ & _ & Et). rewrite Et, firstn_all. destruct (cut t0) as [rc|]; [|apply app_nil_r]. destruct (Hcut rc eq_refl) as (_ & e & He). discriminate He. }
  assert (∀ ts, (∀ t0, t0 ∈ ts → (t0 < length rqs)%nat) → of_key s k (rows_of rows ts) = with_key ts) as Hof.
  { intros ts Hts. unfold of_key. fold (rows_for s k (rows_of rows ts)). rewrite (rows_for_matching s [MkFV key val] k).
    - rewrite Hkeys. apply matching_one.
    - rewrite Hkeys. apply record_key_one.
    - rewrite Hkeys. intros r0 Hr0. apply Hcol. unfold rows_of in Hr0. apply elem_of_list_join in Hr0 as (x & Hx & Hin). apply elem_of_list_In, in_map_iff in Hin as (t0 & <- & Hin). apply elem_of_list_In in Hin.
      unfold all, rows_of. apply elem_of_list_join. exists (rows t0). split; [done|]. apply elem_of_list_fmap_1 with (f := rows). apply elem_of_seq. specialize (Hts _ Hin). lia. }
  assert (∀ ts, (∀ t0, t0 ∈ ts → (t0 < length rqs)%nat) → rows_of (touched rows took cut) ts ⊆+ rows_of rows ts) as Hsub.
  { unfold rows_of. intros ts. induction ts as [|t0 ts IH]; intros Hts; [done|]. cbn [map]. rewrite !mjoin_cons. apply submseteq_app; [apply Htouch, Hts; left|]. apply IH. intros t1 Ht1. apply Hts. by right. }
  exists (length outs). apply submseteq_length in S2 as Hle2. rewrite map_length in Hle2.
  assert (∀ t0, t0 ∈ arrived (h1 ++ VBegin t :: h2) → (t0 < length rqs)%nat) as Hal. { intros t0 Ht0. by eapply (arrived_lt est ff et pm order c impl rqs v h V (h1 ++ VBegin t :: h2)). }
  assert (length outs ≤ length (of_key s k (rows_of rows (arrived (h1 ++ VBegin t :: h2)))))%nat as Hup.
  { etrans; [exact Hle2|]. apply submseteq_length. unfold of_key. apply submseteq_filter. by apply Hsub. }
  split; [|split].
  - intros ok Hok Hgood. assert (∀ t0, t0 ∈ ok → (t0 < length rqs)%nat) as Hlt0. { intros t0 Ht0. destruct (Hgood t0 Ht0) as (_ & rq0 & L0 & _). by apply lookup_lt_Some in L0. }
    rewrite <- (Hof ok Hlt0). assert (rows_of rows ok = rows_of (touched rows took cut) ok) as ->.
    { unfold rows_of. f_equal. apply map_ext_in. intros t0 Ht0. apply elem_of_list_In in Ht0. symmetry. apply Htouch; [by apply Hlt0| |]; by apply Hgood. }
    apply submseteq_length in S1. rewrite map_length in S1. etrans; [|exact S1]. apply submseteq_length. unfold of_key. apply submseteq_filter. by apply submseteq_mjoin.
  - rewrite <- (Hof _ Hal). exact Hup.
  - destruct Hr as [->|[Hn ->]].
    + left. specialize (Hcnt Hrows). unfold answer in Hcnt. cbn [q_fms]. rewrite Hcnt. cbn [respond]. f_equal.
      assert (length (of_key s k (rows_of rows (arrived (h1 ++ VBegin t :: h2)))) ≤ length all)%nat as Hle4. { etrans; [apply filter_length|]. apply submseteq_length. apply submseteq_mjoin. by eapply (arrived_sub est ff et pm order c impl rqs v h rs V A). }
      rewrite (Z.mod_small (Z.of_nat (length outs))) by lia. unfold query_body, FMV_String. cbn [q_crit map mjoin list_join fv_F fv_V r_M r_F r_V]. rewrite !app_nil_r, <- !app_assoc. done.
    + right. split; [|unfold query_body; cbn [q_crit map mjoin list_join fv_F fv_V]; by rewrite !app_nil_r]. subst ord. cbn in Hap. injection Hap as _ <-. done.
Qed.
End props.
Print Assumptions C98_mixed.
Print Assumptions C98_query_partial.
Print Assumptions C98_count_between_partial.
