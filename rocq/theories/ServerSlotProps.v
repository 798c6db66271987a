(** Property C103: all queries of one record, in every run of the server, wherever the
    record lies in its store. *)
From Coq Require Import ZifyBool ZifyNat.
From Verif Require Import Base BaseProofs Float64 FnvSpec HllModel HllSpec Stat64Spec CollationModel CollationSpec CollationLayout CollationCells CollationProofs CollationTop CollationTop2 BufmapModel BufmapSpec BufmapProofs RegexpModel QueryModel QuerySpec Probe
  BufconcModel BufconcSpec BufconcProofs BufconcInv BufconcProps ServerModel ServerSpec ScanProofs ParseRowProofs ServerProofs StoreProofs ServerInv ServerTop ServerAnswers ServerHomeSpec StoreConcModel StoreConcSpec StoreConcProofs StoreConcTop StoreConcTop2 StoreConcTop3 StoreConcProps
  ServerConcModel ServerConcSpec ServerConcProofs ServerConcTop ServerConcTop2 ServerMixedSpec StoreConcMixed CollationMixed ServerConcMixed ServerConcMixed2 ServerMixedProps ServerSlotSpec.
Local Open Scope Z_scope.

Section props.
Context (pf : bytes → option float) (est : Counter → Z) (ff : float → bytes) (et : error → bytes) (pm : bytes → option bytes) (order : list FM → list FM).
Context (c : list (Z * Schema)) (impl : nat → Row → bool → prog) (Hc : cfg_ok c) (Himpl : impls_ok pf c impl).
Notation vexecution := (vexecution est ff et pm order c impl).
Notation zeros s := (replicate (Z.to_nat (c_size (Compile s))) 0).

Lemma first_bytes_found s x d : 0 ≤ x → length d = Z.to_nat (c_size (Compile s)) → found_of s x d = first_bytes x (c_size (Compile s)) d.
Proof.
  intros Hx Hl. unfold found_of, first_bytes. set (z := Z.to_nat (c_size (Compile s))) in *. rewrite drop_replicate. f_equal.
  - destruct (decide (Z.to_nat x ≤ z)%nat); [by rewrite Nat.min_l by lia|]. rewrite Nat.min_r by lia. by rewrite !take_ge by lia.
  - f_equal. unfold z. lia.
Qed.
(** a question about fields that lie in the first x bytes is answered as from the whole record *)
Lemma first_bytes_read s x d fms : 0 ≤ x → length d = Z.to_nat (c_size (Compile s)) → asked_end s fms x →
  Coll_Read est (Compile s) fms (first_bytes x (c_size (Compile s)) d) = Coll_Read est (Compile s) fms d.
Proof.
  intros Hx Hl Ha. unfold first_bytes. destruct (decide (c_size (Compile s) ≤ x)) as [Hle|Hgt].
  - replace (Z.to_nat (c_size (Compile s) - x)) with 0%nat by lia. cbn [replicate]. rewrite app_nil_r. by rewrite take_ge by lia.
  - apply (Coll_Read_prefix est s _ _ _ (Z.to_nat x)); [by rewrite Z2Nat.id by lia| |].
    + rewrite take_app_le by (rewrite take_length; lia). by rewrite take_take, Nat.min_id.
    + rewrite app_length, take_length, replicate_length. lia.
Qed.

Lemma apply_all_app cl d x y : apply_all pf cl d (x ++ y) = let '(d1, o1) := apply_all pf cl d x in let '(d2, o2) := apply_all pf cl d1 y in (d2, o1 ++ o2).
Proof.
  revert d. induction x as [|[init r] x IH]; intros d; cbn [app apply_all]; [by destruct (apply_all pf cl d y)|]. destruct (Coll_Update pf cl r d init) as [d1 o]. rewrite IH. destruct (apply_all pf cl d1 x) as [d2 o2]. by destruct (apply_all pf cl d2 y).
Qed.
Lemma apply_all_length cl x d : length (apply_all pf cl d x).2 = length x.
Proof. revert d. induction x as [|[init r] x IH]; intros d; cbn [apply_all]; [done|]. destruct (Coll_Update pf cl r d init) as [d1 o]. specialize (IH d1). destruct (apply_all pf cl d1 x). cbn in *. by rewrite IH. Qed.
Lemma apply_all_buf cl x d : length (apply_all pf cl d x).1 = length d.
Proof.
  revert d. induction x as [|[init r] x IH]; intros d; cbn [apply_all]; [done|]. pose proof (Coll_Update_len pf cl r d init) as Hu. destruct (Coll_Update pf cl r d init) as [d1 o]. specialize (IH d1). destruct (apply_all pf cl d1 x). cbn in *. congruence.
Qed.
(** There is one slot x, of those that a record of key k can have (its home slot, if no
    other key comes by there), and one order [ord] of all rows of key k that the posts
    leave in the collation, such that the record is the result of applying the rows in
    that order, and every query of it is answered from the first n of them, read in
    slot x -- where n lies between the numbers of rows that had been applied when the
    query arrived, and when it was answered.  What has been applied when h1 is over
    includes all rows of posts answered by then, and none of posts that arrive later.
    Fewer than 2^31 rows are brought for the record. *)
Theorem C103_queries rqs acts v h rs lines whole rows a b l s k : Forall request_ok rqs → vexecution rqs acts v h → answered v rs → brought pm rqs lines whole rows →
  c = a ++ (l, s) :: b → Forall (λ ls, s_name ls.2 ≠ s_name s) a → plain_name (s_name s) → k ≠ 0 → let all := rows_of rows (seq 0 (length rqs)) in Z.of_nat (length (of_key s k all)) < 2^31 →
  ∃ took cut x ord applied_at,
    (∀ t rq r, rqs !! t = Some rq → rs !! t = Some r → share et rq r (lines t) (whole t) (rows t) (took t) (cut t)) ∧
    x ∈ probe_slots l k ∧ (undisturbed l s k all → x = home l k) ∧
    (* the order, and what the record is in the end *)
    (let '(d, outs) := apply_all pf (Compile s) (zeros s) ord in
     (stored v (length a) k = Some d ∨ (stored v (length a) k = None ∧ ord = [])) ∧
     outs ≡ₚ map (λ r, (r, true)) (of_key s k (rows_of (λ t, take (took t) (rows t)) (seq 0 (length rqs)))) ++ map (λ r, (r, false)) (of_key s k (omap cut (seq 0 (length rqs))))) ∧
    (* the rows applied up to some moment *)
    applied_at [] = 0%nat ∧ applied_at h = length ord ∧ (∀ h1 h2 h3, h = h1 ++ h2 ++ h3 → (applied_at h1 ≤ applied_at (h1 ++ h2))%nat) ∧
    (∀ h1 h2, h = h1 ++ h2 → let got := map fst (apply_all pf (Compile s) (zeros s) (take (applied_at h1) ord)).2 in
      of_key s k (rows_of (touched rows took cut) (finished h1)) ⊆+ got ∧ got ⊆+ of_key s k (rows_of (touched rows took cut) (arrived h1))) ∧
    (* what a record answers that the first n rows have been applied to: all are counted;
       for fields that the rows applied in part do not have, sum, mean and variance are
       those of the values *)
    (∀ n, (n ≤ length ord)%nat → let '(d, outs) := apply_all pf (Compile s) (zeros s) (take n ord) in
      (s_rows s ≠ [] → answer est s d (str "*") (str "count") = Ok [MkFMV (str "*") (str "count") (f_of_Z (Z.of_nat n mod 2^64))]) ∧
      ∀ f m w, field_measure s f m → (∀ r, r ∈ omap cut (seq 0 (length rqs)) → f ∉ map fv_F (row_data r)) → stat_value m (field_floats pf f (map fst outs)) = Some w →
        answer est s d f (m_name m) = Ok [MkFMV f (m_name m) w]) ∧
    (* the queries *)
    ∀ t rq text q h1 h2 r h3, rqs !! t = Some rq → coll_query rq (s_name s) text → RoughParse order text = Ok q → record_key (s_keys s) (q_crit q) = Some k →
      h = h1 ++ VBegin t :: h2 ++ VAnswer t r :: h3 →
      ∃ n, (applied_at h1 ≤ n ≤ applied_at (h1 ++ VBegin t :: h2))%nat ∧
        (from_slot est ff et l s x q (apply_all pf (Compile s) (zeros s) (take n ord)).1 r ∨ (n = 0%nat ∧ r = Resp 200 (query_body ff q []))).
Proof.
  intros Hrq Ex A B Ea Ha Hpn H0 all Hlt. pose proof (vexecution_inv pf est ff et pm order c impl Hc rqs Hrq acts v h Ex) as V.
  assert (c !! length a = Some (l, s)) as Lc by (rewrite Ea; by apply list_lookup_middle). set (i := length a) in *.
  destruct (shares pf est ff et pm order c impl Hc Himpl rqs v h rs V A lines whole rows B i l s Lc) as (took & cut & Hsh & HT).
  destruct (vi_stores _ _ _ _ _ _ _ _ _ _ V i l s Lc) as (g & acts' & Lg & HF & Exs). destruct (dims_at c Hc i l s Lc) as [Hs Hd].
  assert (squiescent g) as Q by (by eapply (all_quiet est ff et pm order c impl rqs)).
  destruct (sexecution_execution s (impl i) l Hd _ _ _ _ HF Exs) as (acts2 & HF2 & Ex2).
  assert (∃ x, (∀ y, 0 ≤ y < l → key_at (c_map (g_cfg g)) y = k → y = x) ∧ x ∈ probe_slots l k ∧ (undisturbed l s k all → x = home l k)) as (x & Hone & Hpx & Hhx).
  { destruct (key_dec (c_map (g_cfg g)) l k) as [(x & Hx & Ekx)|Hno].
    - exists x. destruct (C41_bufmap_one_slot l _ _ acts2 (g_cfg g) _ x x k Hd HF2 Ex2 H0 Hx Hx Ekx Ekx) as [_ Hin]. split; [|split; [done|]].
      + intros y Hy Eky. by apply (C41_bufmap_one_slot l _ _ acts2 (g_cfg g) _ y x k Hd HF2 Ex2 H0 Hy Hx).
      + intros Hu. exact (key_home pf est ff et pm order c impl Hc Himpl rqs v h rs V A lines whole rows B i l s Lc k acts' g x H0 HF Exs Hu Hx Ekx).
    - exists (home l k). split; [intros y Hy E; by destruct (Hno y Hy)|]. split; [|done]. unfold probe_slots, home. apply elem_of_list_In, in_map_iff. exists 0%nat. split; [by rewrite Z.add_0_r|]. apply in_seq. lia. }
  assert (0 ≤ x < l) as Hxl. { unfold probe_slots in Hpx. apply elem_of_list_In, in_map_iff in Hpx as (j & <- & _). apply Z.mod_pos_bound. destruct Hd; lia. }
  exists took, cut, x, (applied k (proj i h)), (λ h1, length (applied k (proj i h1))).
  assert (∀ p z, proj i h = p ++ z → take (length (applied k p)) (applied k (proj i h)) = applied k p) as Htk by (intros p z ->; rewrite applied_app; by rewrite take_app).
  split; [done|]. split; [done|]. split; [done|]. split; [|split; [done|split; [done|split; [|split; [|split]]]]].
  - fold (zero s). rewrite (marks_outcomes pf s k (zero s) (proj i h)). split; [|exact (all_marks pf est ff et pm order c impl rqs v h V rows i s took cut HT k H0)].
    unfold stored. rewrite Lg. cbn. rewrite (after_contents pf s). exact (store_record pf s (impl i) l Hs Hd (Himpl i l s Lc) _ acts' g _ k HF Exs Q H0).
  - intros h1 h2 h3 E. rewrite proj_app, applied_app, app_length. lia.
  - intros h1 h2 E got. unfold got. rewrite (Htk (proj i h1) (proj i h2)) by (by rewrite E, proj_app). fold (zero s). rewrite (marks_outcomes pf s k (zero s) (proj i h1)).
    exact (marks_before pf est ff et pm order c impl rqs v h rs V A rows i s took cut HT k h1 h2 H0 E).
  - intros m Hm. pose proof (bytes_applied est ff et pm order c impl Hc rqs v h V i l s Lc k) as Hb. pose proof (all_marks pf est ff et pm order c impl rqs v h V rows i s took cut HT k H0) as Hperm.
    pose proof (marks_outcomes pf s k (zero s) (proj i h)) as Hall. rewrite <- (take_drop m (applied k (proj i h))) in Hall, Hb. rewrite apply_all_app in Hall. apply Forall_app in Hb as [Hb _]. fold (zero s).
    destruct (apply_all pf (Compile s) (zero s) (take m (applied k (proj i h)))) as [d outs] eqn:Eap. cbn [fst snd] in Hall. destruct (apply_all pf (Compile s) d (drop m (applied k (proj i h)))) as [d2 outs2]. cbn [fst snd] in Hall. injection Hall as _ Hall.
    pose proof (apply_all_length (Compile s) (take m (applied k (proj i h))) (zero s)) as Hlo. rewrite Eap in Hlo. cbn [snd] in Hlo. rewrite take_length, Nat.min_l in Hlo by lia. split.
    + intros Hr. rewrite (all_count pf est s Hs _ _ _ Hr Hb Eap). rewrite take_length, Nat.min_l by lia. done.
    + intros f m0 w Hm0 Hno Hv. destruct (Compile_inv s Hs) as (cs & Hi & _). destruct (all_cells pf s Hs cs _ Hi Hb _ _ _ (CollationSpec.reach_new _ _) Eap) as (_ & Efst & _). rewrite Efst in Hv.
      apply (all_stats pf est s Hs f m0 w _ _ _ Hm0 Hb Eap); [|done]. intros r0 Hr0. assert ((r0, false) ∈ map snd (marks pf s k (zero s) (proj i h))) as Hr1 by (rewrite <- Hall; apply elem_of_app; by left).
      rewrite Hperm in Hr1. apply elem_of_app in Hr1 as [Hr1|Hr1]; apply elem_of_list_In, in_map_iff in Hr1 as (r' & [= <-] & Hr1); apply elem_of_list_In in Hr1.
      unfold rows_for in Hr1. apply elem_of_list_filter in Hr1 as [_ Hr1]. by apply Hno.
  - intros t rq text q h1 h2 r h3 Lr Hq Hpq Ek Eh.
    destruct (mixed_exact pf est ff et pm order c impl Hc Himpl rqs v h rs V A lines whole rows B i l s Lc k a b rq text q t h1 h2 r h3 g acts' eq_refl Ea Ha Hpn Hq Hpq Lr Eh Ek H0 Hlt HF Exs) as (y & z & Ep & Hcase).
    set (p := proj i h1 ++ y) in *. assert (proj i h = p ++ (z ++ proj i (VAnswer t r :: h3))) as Eph. { replace h with ((h1 ++ VBegin t :: h2) ++ VAnswer t r :: h3) by (rewrite Eh, <- app_assoc; done). rewrite proj_app, Ep, <- app_assoc. done. }
    assert (length (contents pf s k p) = Z.to_nat (c_size (Compile s))) as Hlen by (rewrite <- (contents_content pf s (impl i) (Himpl i l s Lc)); apply content_len).
    exists (length (applied k p)). split. { rewrite Ep. unfold p. rewrite !applied_app, !app_length. lia. }
    rewrite (Htk p _ Eph). fold (zero s). rewrite (marks_outcomes pf s k (zero s) p). cbn [fst]. rewrite (after_contents pf s). unfold from_slot. destruct Hcase as [(x' & Hx' & Hk' & Hxs & ->)|[[-> ->]|(x' & Hx' & Hk' & Hbad & ->)]].
    + left. apply (Hone x' Hx') in Hk' as ->. rewrite decide_True by done. rewrite first_bytes_found by (done || lia). done.
    + by right.
    + left. apply (Hone x' Hx') in Hk' as ->. rewrite decide_False by lia. done.
Qed.

(** ** count( * ): only the counters, in front of the record, have to be readable *)
Section counts.
Context (rqs : list request) (acts : list vaction) (v : vcfg) (h : list vevent) (rs : list response) (lines : nat → list bytes) (whole : nat → bool) (rows : nat → list Row).
Context (Hrq : Forall request_ok rqs) (Ex : vexecution rqs acts v h) (A : answered v rs) (B : brought pm rqs lines whole rows).
Context (l : Z) (s : Schema) (Hins : installed c l s) (Hpn : plain_name (s_name s)) (key val : bytes) (Hkeys : s_keys s = [key]) (Hrows : s_rows s ≠ []) (Ho : map_order order) (Hk : key_ok key) (Hv : value_ok val) (Hw : ¬ has_where (crit_item (key, val))).
Notation k := (fnv1_spec (key ++ val)).
Notation all := (rows_of rows (seq 0 (length rqs))).
Notation with_key ts := (filter (λ r, value_of key (row_data r) = Some val) (rows_of rows ts)).
Context (H0 : k ≠ 0) (Hcol : no_collision [key] [MkFV key val] all) (Hlt : Z.of_nat (length all) < 2^31).
Lemma count_parse : RoughParse order (count_text key val) = Ok (MkQuery [MkFM (str "*") [str "count"]] [MkFV key val]).
Proof. destruct name_cnt as [Nc Ns]. exact (one_query_parse order (str "count") (str "*") key val Ho Nc Ns Hk Hv Hw). Qed.
Lemma counts_run : ∃ x (applied_at : list vevent → nat), x ∈ probe_slots l k ∧ (undisturbed l s k all → x = home l k) ∧
  (∀ h1 h2 h3, h = h1 ++ h2 ++ h3 → (applied_at h1 ≤ applied_at (h1 ++ h2))%nat) ∧
  (∀ h1 h2, h = h1 ++ h2 → (∀ ok, ok ⊆+ finished h1 → (∀ t, t ∈ ok → rs !! t = Some (Resp 200 []) ∧ ∃ rq, rqs !! t = Some rq ∧ rq_ctx rq = None) → length (with_key ok) ≤ applied_at h1)%nat ∧
    (applied_at h1 ≤ length (with_key (arrived h1)))%nat) ∧
  ∀ t rq h1 h2 r h3, rqs !! t = Some rq → coll_query rq (s_name s) (count_text key val) → h = h1 ++ VBegin t :: h2 ++ VAnswer t r :: h3 →
    ∃ n, (applied_at h1 ≤ n ≤ applied_at (h1 ++ VBegin t :: h2))%nat ∧
      ((x * (c_size (Compile s) + 1) ≤ l * c_size (Compile s) → 8 * Z.of_nat (length (s_rows s)) ≤ x → count_is ff key val n r) ∧
       (x = 0 → count_is ff key val 0 r) ∧ (l * c_size (Compile s) < x * (c_size (Compile s) + 1) → r = Aborted ∨ (n = 0%nat ∧ r = Resp 200 (key ++ str "=" ++ val ++ [10])))).
Proof.
  destruct Hins as (a & b & Ea & Ha). assert (c !! length a = Some (l, s)) as Lc by (rewrite Ea; by apply list_lookup_middle). destruct (dims_at c Hc _ l s Lc) as [Hs Hd].
  pose proof (vexecution_inv pf est ff et pm order c impl Hc rqs Hrq acts v h Ex) as V.
  assert (length (of_key s k all) ≤ length all)%nat as Hle by apply filter_length.
  destruct (C103_queries rqs acts v h rs lines whole rows a b l s k Hrq Ex A B Ea Ha Hpn H0 ltac:(lia)) as (took & cut & x & ord & at_ & Hsh & Hpx & Hhome & Hfin & Hat0 & Hath & Hmono & Hbetween & Hans & Hqs).
  exists x, at_. split; [done|]. split; [done|]. split; [done|].
  assert (length rs = length rqs) as Hlen. { pose proof (vi_rlen _ _ _ _ _ _ _ _ _ _ V) as Hl. rewrite A, map_length in Hl. done. }
  assert (∀ t0, (t0 < length rqs)%nat → touched rows took cut t0 ⊆+ rows t0 ∧ (rs !! t0 = Some (Resp 200 []) → (∃ rq, rqs !! t0 = Some rq ∧ rq_ctx rq = None) → touched rows took cut t0 = rows t0)) as Htouch.
  { intros t0 Ht0. destruct (lookup_lt_is_Some_2 rqs t0 Ht0) as [rq0 L0]. destruct (lookup_lt_is_Some_2 rs t0 ltac:(lia)) as [r0 R0]. destruct (Hsh t0 rq0 r0 L0 R0) as (Htk & Hcut & Hok). unfold touched. split.
    - destruct (cut t0) as [rc|] eqn:Ec; [|rewrite app_nil_r; apply sublist_submseteq, sublist_take]. destruct (Hcut rc eq_refl) as [Lct _]. rewrite <- (take_S_r _ _ _ Lct). apply sublist_submseteq, sublist_take.
    - intros R1 (rq1 & L1 & C1). rewrite L0 in L1. injection L1 as <-. rewrite R0 in R1. injection R1 as ->. destruct (Hok eq_refl C1) as (_ & _ & Et). rewrite Et, firstn_all. destruct (cut t0) as [rc|]; [|apply app_nil_r]. destruct (Hcut rc eq_refl) as (_ & e & He). discriminate He. }
  assert (∀ ts, (∀ t0, t0 ∈ ts → (t0 < length rqs)%nat) → of_key s k (rows_of rows ts) = with_key ts) as Hof.
  { intros ts Hts. unfold of_key. fold (rows_for s k (rows_of rows ts)). rewrite (rows_for_matching s [MkFV key val] k).
    - rewrite Hkeys. apply matching_one.
    - rewrite Hkeys. apply record_key_one.
    - rewrite Hkeys. intros r0 Hr0. apply Hcol. unfold rows_of in Hr0. apply elem_of_list_join in Hr0 as (y & Hy & Hin). apply elem_of_list_In, in_map_iff in Hin as (t0 & <- & Hin). apply elem_of_list_In in Hin.
      unfold rows_of. apply elem_of_list_join. exists (rows t0). split; [done|]. apply elem_of_list_fmap_1 with (f := rows). apply elem_of_seq. specialize (Hts _ Hin). lia. }
  assert (∀ ts, (∀ t0, t0 ∈ ts → (t0 < length rqs)%nat) → rows_of (touched rows took cut) ts ⊆+ rows_of rows ts) as Hsub.
  { unfold rows_of. intros ts. induction ts as [|t0 ts IH]; intros Hts; [done|]. cbn [map]. rewrite !mjoin_cons. apply submseteq_app; [apply Htouch, Hts; left|]. apply IH. intros t1 Ht1. apply Hts. by right. }
  assert (∀ h1 h2, h = h1 ++ h2 → (at_ h1 ≤ length ord)%nat) as Hatl. { intros h1 h2 E. rewrite <- Hath. rewrite E at 1. apply (Hmono h1 h2 []). by rewrite app_nil_r. }
  assert (∀ h1 h2, h = h1 ++ h2 → ∀ t0, t0 ∈ arrived h1 → (t0 < length rqs)%nat) as Harr. { intros h1 h2 E t0 Ht0. by eapply (arrived_lt est ff et pm order c impl rqs v h V h1). }
  assert (∀ h1 h2, h = h1 ++ h2 → (at_ h1 ≤ length (with_key (arrived h1)))%nat) as Hup.
  { intros h1 h2 E. pose proof (Harr h1 h2 E) as Hal. destruct (Hbetween h1 h2 E) as [_ S2]. apply submseteq_length in S2. rewrite map_length, apply_all_length, take_length, Nat.min_l in S2 by (by eapply Hatl).
    rewrite <- (Hof _ Hal). etrans; [exact S2|]. apply submseteq_length. unfold of_key. apply submseteq_filter. by apply Hsub. }
  split.
  - intros h1 h2 E. split; [|by eapply Hup]. intros ok Hok Hgood. destruct (Hbetween h1 h2 E) as [S1 _]. assert (∀ t0, t0 ∈ ok → (t0 < length rqs)%nat) as Hlt0. { intros t0 Ht0. destruct (Hgood t0 Ht0) as (_ & rq0 & L0 & _). by apply lookup_lt_Some in L0. }
    rewrite <- (Hof ok Hlt0). assert (rows_of rows ok = rows_of (touched rows took cut) ok) as ->.
    { unfold rows_of. f_equal. apply map_ext_in. intros t0 Ht0. apply elem_of_list_In in Ht0. symmetry. apply Htouch; [by apply Hlt0| |]; by apply Hgood. }
    apply submseteq_length in S1. rewrite map_length, apply_all_length, take_length, Nat.min_l in S1 by (by eapply Hatl). etrans; [|exact S1]. apply submseteq_length. unfold of_key. apply submseteq_filter. by apply submseteq_mjoin.
  - intros t rq h1 h2 r h3 Lr Hq Eh. assert (h = (h1 ++ VBegin t :: h2) ++ VAnswer t r :: h3) as Eh2 by (rewrite Eh, <- app_assoc; done).
    destruct (Hqs t rq (count_text key val) _ h1 h2 r h3 Lr Hq count_parse) as (m & Hm & Hr); [rewrite Hkeys; apply record_key_one|done|]. exists m. split; [done|].
    assert (m ≤ length ord)%nat as Hmo. { pose proof (Hatl _ _ Eh2). lia. }
    assert (m ≤ length all)%nat as Hma. { pose proof (Hup _ _ Eh2) as Hu. assert (length (with_key (arrived (h1 ++ VBegin t :: h2))) ≤ length all)%nat; [|lia]. etrans; [apply filter_length|]. apply submseteq_length. apply submseteq_mjoin. by eapply (arrived_sub est ff et pm order c impl rqs v h rs V A). }
    destruct (Hans 0%nat (Nat.le_0_l _)) as [Hans0 _]. specialize (Hans m Hmo). pose proof (apply_all_buf (Compile s) (take m ord) (zeros s)) as Hbl. rewrite replicate_length in Hbl. destruct (apply_all pf (Compile s) (zeros s) (take m ord)) as [d outs]. cbn [fst snd] in *. destruct Hans as [Hcnt _]. specialize (Hcnt Hrows).
    assert (∀ j, (j ≤ length all)%nat → respond ff et (MkQuery [MkFM (str "*") [str "count"]] [MkFV key val]) (Ok [MkFMV (str "*") (str "count") (f_of_Z (Z.of_nat j mod 2^64))]) = Resp 200 (key ++ str "=" ++ val ++ [10] ++ str "count(*)=" ++ ff (f_of_Z (Z.of_nat j)) ++ [10])) as Hbody.
    { intros j Hj. cbn [respond]. f_equal. rewrite (Z.mod_small (Z.of_nat j)) by lia. unfold query_body, FMV_String. cbn [q_crit map mjoin list_join fv_F fv_V r_M r_F r_V]. rewrite !app_nil_r, <- !app_assoc. done. }
    assert (Resp 200 (query_body ff (MkQuery [MkFM (str "*") [str "count"]] [MkFV key val]) []) = Resp 200 (key ++ str "=" ++ val ++ [10])) as Hempty. { unfold query_body; cbn [q_crit map mjoin list_join fv_F fv_V]; by rewrite !app_nil_r. }
    assert (0 ≤ x) as Hx0. { unfold probe_slots in Hpx. apply elem_of_list_In, in_map_iff in Hpx as (j & <- & _). apply Z.mod_pos_bound. destruct Hd; lia. }
    split; [|split].
    + intros Hxl Hx8. destruct Hr as [Hr|[-> ->]]; [|right; by rewrite Hempty]. left. unfold from_slot in Hr. rewrite decide_True in Hr by done. rewrite Hr, first_bytes_read by (done || (intros fm m0 g Hfm Hm0 Hg; cbn [q_fms] in Hfm; apply elem_of_list_singleton in Hfm as ->; cbn [fm_M fm_F] in *; apply elem_of_list_singleton in Hm0 as ->; etrans; [by apply count_reader|done])).
      cbn [q_fms]. unfold answer in Hcnt. rewrite Hcnt. by apply Hbody.
    + intros ->. destruct Hr as [Hr|[-> ->]]; [|right; by rewrite Hempty]. left. unfold from_slot in Hr. pose proof (Hans0 Hrows) as Hz. rewrite decide_True in Hr by (destruct Hd as (? & ? & ?); lia). rewrite Hr.
      assert (first_bytes 0 (c_size (Compile s)) d = zeros s) as -> by (unfold first_bytes; rewrite Z.sub_0_r; done). change (take 0 ord) with (@nil (bool * Row)) in Hz. cbn [apply_all fst q_fms] in *. unfold answer in Hz. rewrite Hz. by apply (Hbody 0%nat), Nat.le_0_l.
    + intros Hbad. destruct Hr as [Hr|[-> ->]]; [|right; by rewrite Hempty]. left. unfold from_slot in Hr. by rewrite decide_False in Hr by lia.
Qed.
End counts.
Lemma front_slot l s n k rows x : 0 < l → front_readable l s n k rows → x ∈ probe_slots l k → (undisturbed l s k rows → x = home l k) → n ≤ x ∧ x * (c_size (Compile s) + 1) ≤ l * c_size (Compile s).
Proof.
  intros Hl [(R1 & R2 & R3)|[Hu [R1 R2]]] Hx Hh; [|by rewrite (Hh Hu)]. unfold probe_slots in Hx. apply elem_of_list_In, in_map_iff in Hx as (i & <- & Hi). apply in_seq in Hi. pose proof (Z.mod_pos_bound k l Hl).
  replace ((k + Z.of_nat i) mod l) with (k mod l + Z.of_nat i); [|rewrite <- Z.add_mod_idemp_l by lia; symmetry; apply Z.mod_small; lia].
  split; [lia|]. destruct (Z.le_ge_cases 0 (c_size (Compile s) + 1)) as [Hp|Hn]; [|nia]. etrans; [|exact R3]. apply Z.mul_le_mono_nonneg_r; lia.
Qed.
(** The number that count( * ) reports: at least the number of rows of the posts that
    were answered 200 before the query arrived (to clients that stayed), at most the
    number of rows that had arrived when it was answered -- as soon as the counters of
    the record, its first 8 bytes per row measure, can be read where it lies. *)
Theorem C103_count_between_partial rqs acts v h rs lines whole rows l s t rq key val h1 h2 r h3 : Forall request_ok rqs → vexecution rqs acts v h → answered v rs → brought pm rqs lines whole rows →
  installed c l s → plain_name (s_name s) → s_keys s = [key] → s_rows s ≠ [] → map_order order → key_ok key → value_ok val → ¬ has_where (crit_item (key, val)) →
  rqs !! t = Some rq → coll_query rq (s_name s) (count_text key val) →
  let k := fnv1_spec (key ++ val) in k ≠ 0 → let all := rows_of rows (seq 0 (length rqs)) in no_collision [key] [MkFV key val] all →
  front_readable l s (8 * Z.of_nat (length (s_rows s))) k all → Z.of_nat (length all) < 2^31 →
  h = h1 ++ VBegin t :: h2 ++ VAnswer t r :: h3 →
  let with_key ts := filter (λ r, value_of key (row_data r) = Some val) (rows_of rows ts) in
  ∃ m, (∀ ok, ok ⊆+ finished h1 → (∀ t, t ∈ ok → rs !! t = Some (Resp 200 []) ∧ ∃ rq, rqs !! t = Some rq ∧ rq_ctx rq = None) → length (with_key ok) ≤ m)%nat ∧
    (m ≤ length (with_key (arrived (h1 ++ VBegin t :: h2))))%nat ∧ count_is ff key val m r.
Proof.
  intros Hrq Ex A B Hins Hpn Hkeys Hrows Ho Hk Hv Hw Lr Hq k H0 all Hcol Hread Hlt Eh with_key.
  destruct (counts_run rqs acts v h rs lines whole rows Hrq Ex A B l s Hins Hpn key val Hkeys Hrows Ho Hk Hv Hw H0 Hcol Hlt) as (x & at_ & Hpx & Hhx & Hmono & Hb & Hqs).
  destruct (Hqs t rq h1 h2 r h3 Lr Hq Eh) as (m & Hm & Hc1 & _). exists m. assert (h = (h1 ++ VBegin t :: h2) ++ VAnswer t r :: h3) as Eh2 by (rewrite Eh, <- app_assoc; done).
  assert (0 < l) as Hl. { destruct Hins as (a & b & Ea & _). destruct (dims_at c Hc (length a) l s) as [_ (? & ? & ?)]; [rewrite Ea; by apply list_lookup_middle|lia]. }
  destruct (front_slot l s _ k all x Hl Hread Hpx Hhx) as [F1 F2]. split; [|split; [|by apply Hc1]].
  - intros ok Hok Hgood. etrans; [by apply (Hb h1 _ Eh)|]. apply Hm.
  - etrans; [apply Hm|]. by apply (Hb _ _ Eh2).
Qed.
(** of two such queries, one answered before the other arrives, the later does not
    report a smaller number *)
Theorem C103_count_monotone_partial rqs acts v h rs lines whole rows l s t1 rq1 t2 rq2 key val h1 h2 r1 h3 h4 r2 h5 : Forall request_ok rqs → vexecution rqs acts v h → answered v rs → brought pm rqs lines whole rows →
  installed c l s → plain_name (s_name s) → s_keys s = [key] → s_rows s ≠ [] → map_order order → key_ok key → value_ok val → ¬ has_where (crit_item (key, val)) →
  rqs !! t1 = Some rq1 → coll_query rq1 (s_name s) (count_text key val) → rqs !! t2 = Some rq2 → coll_query rq2 (s_name s) (count_text key val) →
  let k := fnv1_spec (key ++ val) in k ≠ 0 → let all := rows_of rows (seq 0 (length rqs)) in no_collision [key] [MkFV key val] all →
  front_readable l s (8 * Z.of_nat (length (s_rows s))) k all → Z.of_nat (length all) < 2^31 →
  h = h1 ++ VBegin t1 :: h2 ++ VAnswer t1 r1 :: h3 ++ VBegin t2 :: h4 ++ VAnswer t2 r2 :: h5 →
  ∃ m1 m2, (m1 ≤ m2)%nat ∧ count_is ff key val m1 r1 ∧ count_is ff key val m2 r2.
Proof.
  intros Hrq Ex A B Hins Hpn Hkeys Hrows Ho Hk Hv Hw Lr1 Hq1 Lr2 Hq2 k H0 all Hcol Hread Hlt Eh.
  destruct (counts_run rqs acts v h rs lines whole rows Hrq Ex A B l s Hins Hpn key val Hkeys Hrows Ho Hk Hv Hw H0 Hcol Hlt) as (x & at_ & Hpx & Hhx & Hmono & Hb & Hqs).
  assert (0 < l) as Hl. { destruct Hins as (a & b & Ea & _). destruct (dims_at c Hc (length a) l s) as [_ (? & ? & ?)]; [rewrite Ea; by apply list_lookup_middle|lia]. }
  destruct (front_slot l s _ k all x Hl Hread Hpx Hhx) as [F1 F2].
  destruct (Hqs t1 rq1 h1 h2 r1 _ Lr1 Hq1 Eh) as (m1 & Hm1 & Hc1 & _).
  destruct (Hqs t2 rq2 (h1 ++ VBegin t1 :: h2 ++ VAnswer t1 r1 :: h3) h4 r2 h5 Lr2 Hq2) as (m2 & Hm2 & Hc2 & _). { rewrite Eh. repeat (rewrite <- !app_assoc; cbn [app]). done. }
  exists m1, m2. split; [|split; [by apply Hc1|by apply Hc2]]. etrans; [apply Hm1|]. etrans; [|apply Hm2].
  replace (h1 ++ VBegin t1 :: h2 ++ VAnswer t1 r1 :: h3) with ((h1 ++ VBegin t1 :: h2) ++ VAnswer t1 r1 :: h3) by (rewrite <- app_assoc; done).
  apply (Hmono _ _ (VBegin t2 :: h4 ++ VAnswer t2 r2 :: h5)). rewrite Eh. repeat (rewrite <- !app_assoc; cbn [app]). done.
Qed.
(** That the counters can be read is needed.  In slot 0 nothing is ever counted,
    whatever has been posted and accepted; in the last slots no query is answered once
    a post with such rows has been. *)
Theorem C103_lost_refuted rqs acts v h rs lines whole rows l s t rq key val h1 h2 r h3 : Forall request_ok rqs → vexecution rqs acts v h → answered v rs → brought pm rqs lines whole rows →
  installed c l s → plain_name (s_name s) → s_keys s = [key] → s_rows s ≠ [] → map_order order → key_ok key → value_ok val → ¬ has_where (crit_item (key, val)) →
  rqs !! t = Some rq → coll_query rq (s_name s) (count_text key val) →
  let k := fnv1_spec (key ++ val) in k ≠ 0 → let all := rows_of rows (seq 0 (length rqs)) in no_collision [key] [MkFV key val] all →
  undisturbed l s k all → Z.of_nat (length all) < 2^31 →
  h = h1 ++ VBegin t :: h2 ++ VAnswer t r :: h3 →
  (home l k = 0 → count_is ff key val 0 r) ∧
  (∀ t0 rq0 r0, l * c_size (Compile s) < home l k * (c_size (Compile s) + 1) → t0 ∈ finished h1 → rs !! t0 = Some (Resp 200 []) → rqs !! t0 = Some rq0 → rq_ctx rq0 = None → r0 ∈ rows t0 → value_of key (row_data r0) = Some val → r = Aborted).
Proof.
  intros Hrq Ex A B Hins Hpn Hkeys Hrows Ho Hk Hv Hw Lr Hq k H0 all Hcol Hu Hlt Eh.
  destruct (counts_run rqs acts v h rs lines whole rows Hrq Ex A B l s Hins Hpn key val Hkeys Hrows Ho Hk Hv Hw H0 Hcol Hlt) as (x & at_ & Hpx & Hhx & Hmono & Hb & Hqs).
  specialize (Hhx Hu). subst x. destruct (Hqs t rq h1 h2 r h3 Lr Hq Eh) as (m & Hm & _ & Hc1 & Hc2). split; [done|]. intros t0 rq0 r0 Hbad Hin Hrs Lr0 Hctx Hr0 Hval.
  destruct (Hc2 Hbad) as [->|[-> _]]; [done|]. exfalso. destruct (Hb h1 _ Eh) as [Hb1 _]. specialize (Hb1 [t0] ltac:(by apply singleton_submseteq_l)).
  assert (1 ≤ at_ h1)%nat; [|lia]. etrans; [|apply Hb1].
  - unfold rows_of. cbn [map]. rewrite mjoin_cons. assert (r0 ∈ filter (λ r, value_of key (row_data r) = Some val) (rows t0 ++ mjoin [])) as Hf by (apply elem_of_list_filter; split; [done|]; apply elem_of_app; by left).
    destruct (filter _ _); [by apply elem_of_nil in Hf|]. cbn. lia.
  - intros t' Ht'. apply elem_of_list_singleton in Ht' as ->. eauto.
Qed.
End props.
Print Assumptions C103_queries.
Print Assumptions C103_count_between_partial.
Print Assumptions C103_count_monotone_partial.
Print Assumptions C103_lost_refuted.
