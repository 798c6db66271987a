(** Properties C93, C94, C95 of the server with any number of requests being served at
    the same time, in every interleaving of the goroutines of the requests at every
    atomic operation, lock operation and byte access of the stores they share; for
    every way of carrying out the update of a record by a row that has the effect of
    Collator.Update when nobody interferes ([impls_ok]). *)
From Coq Require Import ZifyBool ZifyNat.
From Verif Require Import Base BaseProofs Float64 FnvSpec HllModel HllSpec Stat64Spec CollationModel CollationSpec CollationProofs CollationTop CollationTop2 DemoModel BufmapModel BufmapSpec RegexpModel QueryModel QuerySpec QueryProofs QueryTop QueryProps Probe
  BufconcModel BufconcSpec BufconcInv BufconcProps ServerModel ServerSpec ScanProofs ParseRowProofs ServerProofs StoreProofs ServerInv ServerTop ServerAnswers StoreConcModel StoreConcSpec StoreConcProofs StoreConcTop StoreConcTop2 StoreConcTop3 StoreConcProps
  ServerConcModel ServerConcSpec ServerConcProofs ServerConcTop ServerConcTop2.
Local Open Scope Z_scope.

Section props.
Context (pf : bytes → option float) (est : Counter → Z) (ff : float → bytes) (et : error → bytes) (pm : bytes → option bytes) (order : list FM → list FM).
Context (c : list (Z * Schema)) (impl : nat → Row → bool → prog) (Hc : cfg_ok c) (Himpl : impls_ok pf c impl).
Notation vexecution := (vexecution est ff et pm order c impl).
Notation answers_from := (answers_from pf est ff et).

(** ** C93: no row of an accepted post is lost, applied twice or torn *)
(** When all requests have been answered, the record of key k is the result of applying
    the rows with that key of all accepted posts, each exactly once, one after another.
    The order is that of the posts where they did not overlap: at any moment in the run
    (after h1) the rows applied so far contain those of the posts answered so far, and
    are among those of the posts that have arrived. *)
Theorem C93_no_row_lost rqs acts v h rs sent i l s k : Forall request_ok rqs → vexecution rqs acts v h → answered v rs → accepted pm rqs rs sent →
  c !! i = Some (l, s) → k ≠ 0 → let all := of_key s k (rows_of sent (seq 0 (length rqs))) in all ≠ [] →
  ∃ ord buf, map snd ord ≡ₚ all ∧ stored v i k = Some buf ∧ apply_rows pf (Compile s) (replicate (Z.to_nat (c_size (Compile s))) 0) ord = Ok buf ∧
    ∀ h1 h2, h = h1 ++ h2 → ∃ o1 o2, ord = o1 ++ o2 ∧ of_key s k (rows_of sent (finished h1)) ⊆+ map snd o1 ∧ map snd o1 ⊆+ of_key s k (rows_of sent (arrived h1)).
Proof.
  intros Hrq Ex A Ac Lc H0 all Hne. pose proof (vexecution_inv pf est ff et pm order c impl Hc rqs Hrq acts v h Ex) as V.
  destruct (vi_stores _ _ _ _ _ _ _ _ _ _ V i l s Lc) as (g & acts' & Lg & HF & Exs). destruct (dims_at c Hc i l s Lc) as [Hs Hd].
  pose proof (all_fine est ff et pm order c impl rqs v h rs sent i l s V A Ac Lc) as NF. assert (squiescent g) as Q by (by eapply (all_quiet est ff et pm order c impl rqs)).
  pose proof (all_called est ff et pm order c impl rqs v h rs sent i l s k V A Ac Lc) as Hcal. pose proof (all_applied s (impl i) l Hd k _ acts' g _ H0 HF Exs NF Q) as Hp.
  exists (applied k (proj i h)), (contents pf s k (proj i h)). split; [by rewrite Hp, Hcal|]. split.
  - unfold stored. rewrite Lg. cbn. destruct (store_record pf s (impl i) l Hs Hd (Himpl i l s Lc) _ acts' g _ k HF Exs Q H0) as [Hr|[_ Ha]]; [done|]. rewrite Ha in Hp. cbn in Hp. rewrite Hcal in Hp. by apply Permutation_nil_l in Hp.
  - split; [by apply (applied_rows pf est ff et pm order c impl Hc Himpl rqs v h rs V A sent Ac i l s Lc k _ [] H0); rewrite app_nil_r|].
    intros h1 h2 E. exists (applied k (proj i h1)), (applied k (proj i h2)). rewrite E, proj_app, applied_app. split; [done|].
    destruct (applied_rows pf est ff et pm order c impl Hc Himpl rqs v h rs V A sent Ac i l s Lc k (proj i h1) (proj i h2) H0) as (_ & S1 & S2); [by rewrite E, proj_app|]. split.
    + etrans; [|exact S1]. by eapply (succeeded_before est ff et pm order c impl Hc rqs v h rs V A sent Ac i l s Lc).
    + etrans; [exact S2|]. by eapply (called_before est ff et pm order c impl Hc rqs v h rs V A sent Ac i l s Lc).
Qed.
(** a record that no accepted post has a row for has nothing in it *)
Theorem C93_nothing_invented rqs acts v h rs sent i l s k : Forall request_ok rqs → vexecution rqs acts v h → answered v rs → accepted pm rqs rs sent →
  c !! i = Some (l, s) → k ≠ 0 → of_key s k (rows_of sent (seq 0 (length rqs))) = [] → stored v i k = None ∨ stored v i k = Some (replicate (Z.to_nat (c_size (Compile s))) 0).
Proof.
  intros Hrq Ex A Ac Lc H0 He. pose proof (vexecution_inv pf est ff et pm order c impl Hc rqs Hrq acts v h Ex) as V. exact (none_records pf est ff et pm order c impl Hc Himpl rqs v h rs sent i l s k V A Ac Lc H0 He).
Qed.
(** count, sum, mean and variance are those of the rows of the accepted posts, in one
    order for all fields *)
Theorem C93_stats rqs acts v h rs sent i l s k : Forall request_ok rqs → vexecution rqs acts v h → answered v rs → accepted pm rqs rs sent →
  c !! i = Some (l, s) → k ≠ 0 → let all := of_key s k (rows_of sent (seq 0 (length rqs))) in all ≠ [] →
  ∃ rows buf, rows ≡ₚ all ∧ stored v i k = Some buf ∧
    (s_rows s ≠ [] → answer est s buf (str "*") (str "count") = Ok [MkFMV (str "*") (str "count") (f_of_Z (Z.of_nat (length all) mod 2^64))]) ∧
    ∀ f, let vs := field_floats pf f rows in
      (field_measure s f MSum → answer est s buf f (str "sum") = Ok [MkFMV f (str "sum") (sum_spec vs)]) ∧
      (field_measure s f MMean → answer est s buf f (str "mean") = Ok [MkFMV f (str "mean") (mean_spec vs)]) ∧
      (field_measure s f MVariance → answer est s buf f (str "var") = Ok [MkFMV f (str "var") (var_spec vs)]).
Proof.
  intros Hrq Ex A Ac Lc H0 all Hne. destruct (C93_no_row_lost rqs acts v h rs sent i l s k Hrq Ex A Ac Lc H0 Hne) as (ord & buf & Hp & Hst & Ha & _). destruct (dims_at c Hc i l s Lc) as [Hs _].
  exists (map snd ord), buf. split; [done|]. split; [done|]. split.
  - intros Hr. rewrite (count_answer pf est s ord buf Hs Hr Ha). fold all in Hp. by rewrite <- (Permutation_length Hp), map_length.
  - intros f vs. split; [|split]; intros Hm.
    + exact (proj1 (stat_answer pf est s f MSum _ ord buf Hs Hm Ha eq_refl)).
    + exact (proj1 (stat_answer pf est s f MMean _ ord buf Hs Hm Ha eq_refl)).
    + exact (proj1 (stat_answer pf est s f MVariance _ ord buf Hs Hm Ha eq_refl)).
Qed.

(** ** C94: queries while rows are being posted.  Partial: the record has to be where
    the whole of it can be read (C33, C34) and fewer than 2^31 rows are posted to it. *)
(** A query is answered from the complete record as it was at one moment between its
    arrival and its answer: all values in the answer are of the same rows; they contain
    the rows of all posts answered before the query arrived, and only rows of posts
    that had arrived before it was answered. *)
Theorem C94_one_moment_partial rqs acts v h rs sent l s t rq text q k h1 h2 r h3 : Forall request_ok rqs → vexecution rqs acts v h → answered v rs → accepted pm rqs rs sent →
  installed c l s → plain_name (s_name s) → rqs !! t = Some rq → coll_query rq (s_name s) text → RoughParse order text = Ok q → record_key (s_keys s) (q_crit q) = Some k → k ≠ 0 →
  whole_readable l s k (rows_of sent (seq 0 (length rqs))) → Z.of_nat (length (of_key s k (rows_of sent (seq 0 (length rqs))))) < 2^31 →
  h = h1 ++ VBegin t :: h2 ++ VAnswer t r :: h3 →
  ∃ ord, answers_from s q ord r ∧ of_key s k (rows_of sent (finished h1)) ⊆+ map snd ord ∧ map snd ord ⊆+ of_key s k (rows_of sent (arrived (h1 ++ VBegin t :: h2))).
Proof.
  intros Hrq Ex A Ac (a & b & Ea & Ha) Hpn Lr Hq Hpq Ek H0 Hread Hlt Eh. pose proof (vexecution_inv pf est ff et pm order c impl Hc rqs Hrq acts v h Ex) as V.
  assert (c !! length a = Some (l, s)) as Lc by (rewrite Ea; by apply list_lookup_middle).
  destruct (query_moment pf est ff et pm order c impl Hc Himpl rqs v h rs V A sent Ac (length a) l s Lc k a b rq text q t h1 h2 r h3 eq_refl Ea Ha Hpn Hq Hpq Lr Eh Ek H0 Hread Hlt) as (y & z & Ep & Hr).
  set (p := proj (length a) h1 ++ y) in *. assert (h = (h1 ++ VBegin t :: h2) ++ VAnswer t r :: h3) as Eh' by (rewrite Eh, <- app_assoc; done).
  destruct (applied_rows pf est ff et pm order c impl Hc Himpl rqs v h rs V A sent Ac (length a) l s Lc k p (z ++ proj (length a) (VAnswer t r :: h3)) H0) as (Hap & S1 & S2). { rewrite Eh', proj_app, Ep. by rewrite <- app_assoc. }
  exists (applied k p). split; [|split].
  - destruct Hr as [-> |[Hn ->]]; [left; by exists (contents pf s k p)|by right].
  - etrans; [by eapply (succeeded_before est ff et pm order c impl Hc rqs v h rs V A sent Ac (length a) l s Lc k h1)|]. etrans; [|exact S1]. unfold p. apply omap_prefix_sub.
  - etrans; [exact S2|]. etrans; [|by eapply (called_before est ff et pm order c impl Hc rqs v h rs V A sent Ac (length a) l s Lc k (h1 ++ VBegin t :: h2))]. rewrite Ep. apply omap_prefix_sub.
Qed.
(** of two queries, one answered before the other arrives, the later is answered from
    all rows that the earlier was answered from, in the same order, and perhaps more *)
Theorem C94_monotone_partial rqs acts v h rs sent l s k t1 rq1 text1 q1 t2 rq2 text2 q2 h1 h2 r1 h3 h4 r2 h5 : Forall request_ok rqs → vexecution rqs acts v h → answered v rs → accepted pm rqs rs sent →
  installed c l s → plain_name (s_name s) → k ≠ 0 → whole_readable l s k (rows_of sent (seq 0 (length rqs))) → Z.of_nat (length (of_key s k (rows_of sent (seq 0 (length rqs))))) < 2^31 →
  rqs !! t1 = Some rq1 → coll_query rq1 (s_name s) text1 → RoughParse order text1 = Ok q1 → record_key (s_keys s) (q_crit q1) = Some k →
  rqs !! t2 = Some rq2 → coll_query rq2 (s_name s) text2 → RoughParse order text2 = Ok q2 → record_key (s_keys s) (q_crit q2) = Some k →
  h = h1 ++ VBegin t1 :: h2 ++ VAnswer t1 r1 :: h3 ++ VBegin t2 :: h4 ++ VAnswer t2 r2 :: h5 →
  ∃ ord more, answers_from s q1 ord r1 ∧ answers_from s q2 (ord ++ more) r2.
Proof.
  intros Hrq Ex A Ac (a & b & Ea & Ha) Hpn H0 Hread Hlt Lr1 Hq1 Hpq1 Ek1 Lr2 Hq2 Hpq2 Ek2 Eh. pose proof (vexecution_inv pf est ff et pm order c impl Hc rqs Hrq acts v h Ex) as V.
  assert (c !! length a = Some (l, s)) as Lc by (rewrite Ea; by apply list_lookup_middle).
  assert (h = (h1 ++ VBegin t1 :: h2 ++ VAnswer t1 r1 :: h3) ++ VBegin t2 :: h4 ++ VAnswer t2 r2 :: h5) as Eh2. { rewrite Eh, <- !app_assoc. cbn. by rewrite <- app_assoc. }
  destruct (query_moment pf est ff et pm order c impl Hc Himpl rqs v h rs V A sent Ac (length a) l s Lc k a b rq1 text1 q1 t1 h1 h2 r1 _ eq_refl Ea Ha Hpn Hq1 Hpq1 Lr1 Eh Ek1 H0 Hread Hlt) as (y1 & z1 & Ep1 & Hr1).
  destruct (query_moment pf est ff et pm order c impl Hc Himpl rqs v h rs V A sent Ac (length a) l s Lc k a b rq2 text2 q2 t2 _ h4 r2 h5 eq_refl Ea Ha Hpn Hq2 Hpq2 Lr2 Eh2 Ek2 H0 Hread Hlt) as (y2 & z2 & Ep2 & Hr2).
  set (p1 := proj (length a) h1 ++ y1) in *. assert (∃ m, proj (length a) (h1 ++ VBegin t1 :: h2 ++ VAnswer t1 r1 :: h3) ++ y2 = p1 ++ m) as [m Em].
  { exists (z1 ++ proj (length a) (VAnswer t1 r1 :: h3) ++ y2). change (VBegin t1 :: h2 ++ VAnswer t1 r1 :: h3) with ((VBegin t1 :: h2) ++ VAnswer t1 r1 :: h3). rewrite app_assoc, proj_app, Ep1. by rewrite <- !app_assoc. }
  rewrite Em in Hr2. exists (applied k p1), (applied k m).
  assert (h = (h1 ++ VBegin t1 :: h2) ++ VAnswer t1 r1 :: h3 ++ VBegin t2 :: h4 ++ VAnswer t2 r2 :: h5) as Eh1 by (rewrite Eh, <- app_assoc; done).
  assert (h = ((h1 ++ VBegin t1 :: h2 ++ VAnswer t1 r1 :: h3) ++ VBegin t2 :: h4) ++ VAnswer t2 r2 :: h5) as Eh2' by (rewrite Eh2, <- !app_assoc; done).
  destruct (applied_rows pf est ff et pm order c impl Hc Himpl rqs v h rs V A sent Ac (length a) l s Lc k p1 (z1 ++ proj (length a) (VAnswer t1 r1 :: h3 ++ VBegin t2 :: h4 ++ VAnswer t2 r2 :: h5)) H0) as (Hap1 & _). { rewrite Eh1, proj_app, Ep1. by rewrite <- !app_assoc. }
  destruct (applied_rows pf est ff et pm order c impl Hc Himpl rqs v h rs V A sent Ac (length a) l s Lc k (p1 ++ m) (z2 ++ proj (length a) (VAnswer t2 r2 :: h5)) H0) as (Hap2 & _). { rewrite Eh2', proj_app, Ep2, Em. by rewrite <- !app_assoc. }
  rewrite <- applied_app. split.
  - destruct Hr1 as [-> |[Hn ->]]; [left; by exists (contents pf s k p1)|by right].
  - destruct Hr2 as [-> |[Hn ->]]; [left; by exists (contents pf s k (p1 ++ m))|by right].
Qed.
(** the number that count( * ) reports is at least the number of rows of the posts that
    had been answered when the query arrived, and at most that of the posts that had
    arrived when it was answered *)
Theorem C94_count_between_partial rqs acts v h rs sent l s t rq key val h1 h2 r h3 : Forall request_ok rqs → vexecution rqs acts v h → answered v rs → accepted pm rqs rs sent →
  installed c l s → plain_name (s_name s) → s_keys s = [key] → s_rows s ≠ [] → map_order order → key_ok key → value_ok val → ¬ has_where (crit_item (key, val)) →
  rqs !! t = Some rq → coll_query rq (s_name s) (str "select count(*) where " ++ key ++ str "='" ++ val ++ str "'") →
  let k := fnv1_spec (key ++ val) in k ≠ 0 → let all := rows_of sent (seq 0 (length rqs)) in no_collision [key] [MkFV key val] all →
  whole_readable l s k all → Z.of_nat (length all) < 2^31 →
  h = h1 ++ VBegin t :: h2 ++ VAnswer t r :: h3 →
  let rows ts := filter (λ r, value_of key (row_data r) = Some val) (rows_of sent ts) in
  ∃ m, (length (rows (finished h1)) ≤ m ≤ length (rows (arrived (h1 ++ VBegin t :: h2))))%nat ∧
    (r = Resp 200 (key ++ str "=" ++ val ++ [10] ++ str "count(*)=" ++ ff (f_of_Z (Z.of_nat m)) ++ [10]) ∨ (m = 0%nat ∧ r = Resp 200 (key ++ str "=" ++ val ++ [10]))).
Proof.
  intros Hrq Ex A Ac Hins Hpn Hkeys Hrows Ho Hk Hv Hw Lr Hq k H0 all Hcol Hread Hlt Eh rows.
  assert (RoughParse order (one_query (str "count") (str "*") key val) = Ok (MkQuery [MkFM (str "*") [str "count"]] [MkFV key val])) as Hpq. { destruct name_cnt as [Nc Ns]. by apply one_query_parse. }
  assert (record_key (s_keys s) (q_crit (MkQuery [MkFM (str "*") [str "count"]] [MkFV key val])) = Some k) as Ek. { rewrite Hkeys. apply record_key_one. }
  assert (schema_ok s) as Hs. { destruct Hins as (ca & cb & E & _). unfold cfg_ok in Hc. rewrite E in Hc. apply Forall_app in Hc as [_ Hc']. inversion_clear Hc' as [|? ? [? _] _]. done. }
  assert (length (of_key s k all) ≤ length all)%nat as Hle by apply filter_length.
  destruct (C94_one_moment_partial rqs acts v h rs sent l s t rq _ _ k h1 h2 r h3 Hrq Ex A Ac Hins Hpn Lr Hq Hpq Ek H0 Hread ltac:(fold all; lia) Eh) as (ord & Hr & S1 & S2).
  assert (∀ r0 t0, r0 ∈ sent t0 → (t0 < length rqs)%nat → r0 ∈ all) as Hall.
  { intros r0 t0 Hr0 Ht0. unfold all, rows_of. apply elem_of_list_join. exists (sent t0). split; [done|]. apply elem_of_list_fmap_1 with (f := sent). apply elem_of_seq. lia. }
  pose proof (vexecution_inv pf est ff et pm order c impl Hc rqs Hrq acts v h Ex) as V. assert (h = (h1 ++ VBegin t :: h2) ++ VAnswer t r :: h3) as Eh' by (rewrite Eh, <- app_assoc; done).
  assert (length (of_key s k (rows_of sent (arrived (h1 ++ VBegin t :: h2)))) ≤ length all)%nat as Hle2.
  { etrans; [apply filter_length|]. apply submseteq_length. apply submseteq_mjoin. by eapply (arrived_sub est ff et pm order c impl rqs v h rs V A). }
  pose proof (submseteq_length _ _ S2) as Hle3. rewrite map_length in Hle3.
  assert (∀ ts, (∀ t0, t0 ∈ ts → (t0 < length rqs)%nat) → of_key s k (rows_of sent ts) = rows ts) as Hof.
  { intros ts Hts. unfold of_key. fold (rows_for s k (rows_of sent ts)). rewrite (rows_for_matching s [MkFV key val] k).
    - rewrite Hkeys. apply matching_one.
    - rewrite Hkeys. apply record_key_one.
    - rewrite Hkeys. intros r0 Hr0. apply Hcol. unfold rows_of in Hr0. apply elem_of_list_join in Hr0 as (x & Hx & Hin). apply elem_of_list_In, in_map_iff in Hin as (t0 & <- & Hin). apply elem_of_list_In in Hin. by eapply Hall, Hts. }
  rewrite Hof in S1. 2: { intros t0 Ht0. by eapply (finished_lt est ff et pm order c impl rqs v h V h1). }
  rewrite Hof in S2. 2: { intros t0 Ht0. by eapply (arrived_lt est ff et pm order c impl rqs v h V (h1 ++ VBegin t :: h2)). }
  apply submseteq_length in S1, S2. rewrite map_length in S1, S2. exists (length ord). split; [done|].
  destruct Hr as [(buf & Hap & ->)|[-> ->]].
  - left. pose proof (count_answer pf est s ord buf Hs Hrows Hap) as Hca. unfold answer in Hca. cbn [q_fms]. rewrite Hca. cbn [respond]. f_equal.
    rewrite (Z.mod_small (Z.of_nat (length ord))) by lia. unfold query_body, FMV_String. cbn [q_crit map mjoin list_join fv_F fv_V r_M r_F r_V]. rewrite !app_nil_r, <- !app_assoc. done.
  - right. split; [done|]. unfold query_body. cbn [q_crit map mjoin list_join fv_F fv_V]. rewrite !app_nil_r. done.
Qed.
End props.
