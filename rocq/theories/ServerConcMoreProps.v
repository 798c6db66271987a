(** Property C95: max, min and uniquecount with any number of requests being served at
    the same time. *)
From Coq Require Import ZifyBool ZifyNat.
From Verif Require Import Base BaseProofs Float64 FnvSpec HllModel HllSpec Stat64Spec CollationModel CollationSpec CollationProofs CollationTop CollationTop2 DemoModel BufmapModel BufmapSpec RegexpModel QueryModel QuerySpec QueryProofs QueryTop QueryProps Probe
  BufconcModel BufconcSpec BufconcInv BufconcProps ServerModel ServerSpec ScanProofs ParseRowProofs ServerProofs StoreProofs ServerInv ServerTop ServerAnswers ServerHomeSpec ServerHomeProps StoreConcModel StoreConcSpec StoreConcProofs StoreConcTop StoreConcTop2 StoreConcTop3 StoreConcProps
  ServerConcModel ServerConcSpec ServerConcProofs ServerConcTop ServerConcTop2 ServerConcTop3 ServerConcTop4.
Local Open Scope Z_scope.

Section props.
Context (pf : bytes → option float) (est : Counter → Z) (ff : float → bytes) (et : error → bytes) (pm : bytes → option bytes) (order : list FM → list FM).
Context (c : list (Z * Schema)) (impl : nat → Row → bool → prog) (Hc : cfg_ok c) (Himpl : impls_ok pf c impl).
Notation vexecution := (vexecution est ff et pm order c impl).

Lemma sent_rows_ok rqs rs sent t : Forall request_ok rqs → accepted pm rqs rs sent → (t < length rqs)%nat → Forall row_ok (sent t).
Proof.
  intros Hrq Ac Ht. destruct (lookup_lt_is_Some_2 rqs t Ht) as [rq Lr]. destruct (Ac t rq Lr) as [[_ ->]|(_ & b & ls & Ho & Htx & Hp)]; [constructor|].
  assert (request_ok rq) as Hok. { rewrite Forall_forall in Hrq. apply Hrq. by eapply elem_of_list_lookup_2. }
  destruct (obs_body pf est ff et pm order rq b [] Ho) as (rd & Hy & _ & Hev). pose proof (yields_bytes _ _ _ Hy (Hev Hok)) as Hb. pose proof (text_bytes _ _ Htx Hb) as Hl. clear -Hp Hl.
  induction Hp as [|x r ls rows Hx Hp IH]; [constructor|]. inversion_clear Hl as [|? ? H1 H2]. constructor; [by eapply parseRow_bytes|by apply IH].
Qed.
Lemma opened_ext sent (P Q : list Row → list Row) h1 r0 : (∀ t, t ∈ finished h1 ∨ t ∈ arrived h1 → P (sent t) = Q (sent t)) → opened sent P h1 r0 → opened sent Q h1 r0.
Proof.
  intros E (ha & t0 & r & hb & rest & Eh & E0 & Hoth). exists ha, t0, r, hb, rest. split; [done|]. split.
  - rewrite <- E; [done|]. left. rewrite Eh. unfold finished. rewrite omap_app. apply elem_of_app. right. left.
  - intros t Ht Hne. rewrite <- E; [by apply Hoth|]. right. rewrite Eh. unfold arrived. rewrite omap_app. apply elem_of_app. by left.
Qed.

(** A query that arrives when a post with rows for its record has been answered, and no
    other such post had arrived before that answer, is answered from the record of a
    sequential run: the rows applied one after another, the first one being r0. *)
Theorem C95_one_moment_partial rqs acts v h rs sent l s t rq text q k h1 h2 r h3 r0 : Forall request_ok rqs → vexecution rqs acts v h → answered v rs → accepted pm rqs rs sent →
  installed c l s → plain_name (s_name s) → rqs !! t = Some rq → coll_query rq (s_name s) text → RoughParse order text = Ok q → record_key (s_keys s) (q_crit q) = Some k → k ≠ 0 →
  undisturbed l s k (rows_of sent (seq 0 (length rqs))) → home_readable l (c_size (Compile s)) (c_size (Compile s)) k → Z.of_nat (length (of_key s k (rows_of sent (seq 0 (length rqs))))) < 2^31 →
  h = h1 ++ VBegin t :: h2 ++ VAnswer t r :: h3 → opened sent (of_key s k) h1 r0 →
  ∃ rows buf, record_after pf s (r0 :: rows) = Ok buf ∧ r = respond ff et q (Coll_Read est (Compile s) (q_fms q) buf) ∧
    of_key s k (rows_of sent (finished h1)) ⊆+ r0 :: rows ∧ r0 :: rows ⊆+ of_key s k (rows_of sent (arrived (h1 ++ VBegin t :: h2))).
Proof.
  intros Hrq Ex A Ac (a & b & Ea & Ha) Hpn Lr Hq Hpq Ek H0 Hu Hread Hlt Eh (ha & t0 & r1 & hb & rest & Eh1 & Et0 & Hoth).
  pose proof (vexecution_inv pf est ff et pm order c impl Hc rqs Hrq acts v h Ex) as V. assert (c !! length a = Some (l, s)) as Lc by (rewrite Ea; by apply list_lookup_middle).
  destruct (query_moment pf est ff et pm order c impl Hc Himpl rqs v h rs V A sent Ac (length a) l s Lc k a b rq text q t h1 h2 r h3 eq_refl Ea Ha Hpn Hq Hpq Lr Eh Ek H0 (or_intror (conj Hu Hread)) Hlt) as (y & z & Ep & Hr).
  set (p := proj (length a) h1 ++ y) in *. assert (h = (h1 ++ VBegin t :: h2) ++ VAnswer t r :: h3) as Eh' by (rewrite Eh, <- app_assoc; done).
  assert (proj (length a) h = p ++ (z ++ proj (length a) (VAnswer t r :: h3))) as Eph by (rewrite Eh', proj_app, Ep; by rewrite <- app_assoc).
  destruct (applied_rows pf est ff et pm order c impl Hc Himpl rqs v h rs V A sent Ac (length a) l s Lc k p _ H0 Eph) as (Hap & S1 & S2).
  assert (of_key s k (rows_of sent (finished h1)) ⊆+ map snd (applied k p)) as S1'.
  { etrans; [by eapply (succeeded_before est ff et pm order c impl Hc rqs v h rs V A sent Ac (length a) l s Lc k h1)|]. etrans; [|exact S1]. unfold p. apply omap_prefix_sub. }
  assert (map snd (applied k p) ⊆+ of_key s k (rows_of sent (arrived (h1 ++ VBegin t :: h2)))) as S2'.
  { etrans; [exact S2|]. etrans; [|by eapply (called_before est ff et pm order c impl Hc rqs v h rs V A sent Ac (length a) l s Lc k (h1 ++ VBegin t :: h2))]. rewrite Ep. apply omap_prefix_sub. }
  assert (applied k p ≠ []) as Hne.
  { intros Hn. rewrite Hn in S1'. cbn in S1'. assert (r0 ∈ of_key s k (rows_of sent (finished h1))) as Hin.
    { unfold of_key. assert (r0 ∈ of_key s k (sent t0)) as Hin0 by (rewrite Et0; left). unfold of_key in Hin0. apply elem_of_list_filter in Hin0 as [Hk Hin0]. apply elem_of_list_filter. split; [done|]. unfold rows_of. apply elem_of_list_join. exists (sent t0). split; [done|].
      apply elem_of_list_fmap_1 with (f := sent). rewrite Eh1. unfold finished. rewrite omap_app. apply elem_of_app. right. left. }
    apply (elem_of_submseteq _ _ _ Hin) in S1'. by apply elem_of_nil in S1'. }
  assert (h = ha ++ VAnswer t0 r1 :: (hb ++ VBegin t :: h2 ++ VAnswer t r :: h3)) as Eh0 by (rewrite Eh, Eh1, <- app_assoc; done).
  destruct (first_prefix pf est ff et pm order c impl Hc Himpl rqs v h rs V A (λ t Ht, vexecution_sequential pf est ff et pm order c impl Hc rqs Hrq t acts v h Ht Ex) sent Ac (length a) l s Lc k H0 ha _ t0 r1 r0 rest p _ Eh0 Et0 Hoth Hu Eph Hne) as (rows & Ef).
  rewrite Ef in S1', S2', Hap. cbn [map snd] in S1', S2'. rewrite map_map in S1', S2'. cbn [snd] in S1', S2'. rewrite map_id in S1', S2'. exists rows, (contents pf s k p). split; [exact Hap|]. split; [|done].
  destruct Hr as [-> |[Hn _]]; [done|]. by rewrite Hn in Hne.
Qed.

Lemma one_conc rqs acts v h rs sent l s t rq key val m f h1 h2 r h3 r0 : Forall request_ok rqs → vexecution rqs acts v h → answered v rs → accepted pm rqs rs sent →
  installed c l s → plain_name (s_name s) → s_keys s = [key] → map_order order → key_ok key → value_ok val → ¬ has_where (crit_item (key, val)) → name_ok m → name_ok f →
  rqs !! t = Some rq → coll_query rq (s_name s) (one_query m f key val) →
  let k := fnv1_spec (key ++ val) in k ≠ 0 → let all := rows_of sent (seq 0 (length rqs)) in no_collision [key] [MkFV key val] all →
  undisturbed l s k all → home_readable l (c_size (Compile s)) (c_size (Compile s)) k → Z.of_nat (length all) < 2^31 →
  let mine := filter (λ r, value_of key (row_data r) = Some val) in
  h = h1 ++ VBegin t :: h2 ++ VAnswer t r :: h3 → opened sent mine h1 r0 →
  ∃ rows buf, record_after pf s (r0 :: rows) = Ok buf ∧ (∀ x, answer est s buf f m = Ok [x] → r = Resp 200 (key ++ str "=" ++ val ++ [10] ++ FMV_String ff x ++ [10])) ∧
    mine (rows_of sent (finished h1)) ⊆+ r0 :: rows ∧ r0 :: rows ⊆+ mine (rows_of sent (arrived (h1 ++ VBegin t :: h2))) ∧ r0 :: rows ⊆+ mine all ∧ Forall row_ok (r0 :: rows).
Proof.
  intros Hrq Ex A Ac Hins Hpn Hkeys Ho Hk Hv Hw Hm Hf Lr Hq k H0 all Hcol Hu Hread Hlt mine Eh Hop.
  assert (RoughParse order (one_query m f key val) = Ok (MkQuery [MkFM f [m]] [MkFV key val])) as Hpq by (by apply one_query_parse).
  assert (record_key (s_keys s) (q_crit (MkQuery [MkFM f [m]] [MkFV key val])) = Some k) as Ek. { rewrite Hkeys. apply record_key_one. }
  pose proof (vexecution_inv pf est ff et pm order c impl Hc rqs Hrq acts v h Ex) as V.
  assert (∀ r0 t0, r0 ∈ sent t0 → (t0 < length rqs)%nat → r0 ∈ all) as Hall.
  { intros r1 t0 Hr0 Ht0. unfold all, rows_of. apply elem_of_list_join. exists (sent t0). split; [done|]. apply elem_of_list_fmap_1 with (f := sent). apply elem_of_seq. lia. }
  assert (∀ rows, (∀ r1, r1 ∈ rows → r1 ∈ all) → of_key s k rows = mine rows) as Hof0.
  { intros rows Hin. unfold of_key. fold (rows_for s k rows). rewrite (rows_for_matching s [MkFV key val] k).
    - rewrite Hkeys. apply matching_one.
    - rewrite Hkeys. apply record_key_one.
    - rewrite Hkeys. intros r1 Hr1. apply Hcol. by apply Hin. }
  assert (∀ ts, (∀ t0, t0 ∈ ts → (t0 < length rqs)%nat) → of_key s k (rows_of sent ts) = mine (rows_of sent ts)) as Hof.
  { intros ts Hts. apply Hof0. intros r1 Hr0. unfold rows_of in Hr0. apply elem_of_list_join in Hr0 as (x & Hx & Hin). apply elem_of_list_In, in_map_iff in Hin as (t0 & <- & Hin). apply elem_of_list_In in Hin. by eapply Hall, Hts. }
  assert (h = (h1 ++ VBegin t :: h2) ++ VAnswer t r :: h3) as Eh' by (rewrite Eh, <- app_assoc; done).
  assert (opened sent (of_key s k) h1 r0) as Hop'.
  { eapply opened_ext; [|exact Hop]. intros t0 Ht0. symmetry. apply Hof0. intros r1 Hr1. eapply Hall; [exact Hr1|]. destruct Ht0 as [Ht0|Ht0]; [by eapply (finished_lt est ff et pm order c impl rqs v h V h1)|].
    by eapply (arrived_lt est ff et pm order c impl rqs v h V h1). }
  assert (length (of_key s k all) ≤ length all)%nat as Hle by apply filter_length.
  destruct (C95_one_moment_partial rqs acts v h rs sent l s t rq _ _ k h1 h2 r h3 r0 Hrq Ex A Ac Hins Hpn Lr Hq Hpq Ek H0 Hu Hread ltac:(fold all; lia) Eh Hop') as (rows & buf & Haft & Hr & S1 & S2).
  assert (rows_of sent (arrived (h1 ++ VBegin t :: h2)) ⊆+ all) as Hsub. { apply submseteq_mjoin. by eapply (arrived_sub est ff et pm order c impl rqs v h rs V A). }
  rewrite Hof in S1. 2: { intros t0 Ht0. by eapply (finished_lt est ff et pm order c impl rqs v h V h1). }
  rewrite Hof in S2. 2: { intros t0 Ht0. by eapply (arrived_lt est ff et pm order c impl rqs v h V (h1 ++ VBegin t :: h2)). }
  exists rows, buf. split; [done|]. split.
  - intros x Hx. rewrite Hr. unfold answer in Hx. cbn [q_fms]. rewrite Hx. cbn [respond]. f_equal. unfold query_body. cbn [q_crit map mjoin list_join fv_F fv_V]. rewrite !app_nil_r, <- !app_assoc. done.
  - split; [done|]. split; [done|]. assert (r0 :: rows ⊆+ mine all) as S3. { etrans; [exact S2|]. unfold mine. apply submseteq_Permutation in Hsub as [k0 Hsub]. rewrite Hsub, filter_app. apply submseteq_inserts_r. done. }
    split; [done|]. apply Forall_forall. intros r1 Hr1. apply (elem_of_submseteq _ _ _ Hr1) in S3. unfold mine in S3. apply elem_of_list_filter in S3 as [_ S3]. unfold all, rows_of in S3. apply elem_of_list_join in S3 as (x & Hx & Hin).
    apply elem_of_list_In, in_map_iff in Hin as (t0 & <- & Hin). apply in_seq in Hin. pose proof (sent_rows_ok rqs rs sent t0 Hrq Ac ltac:(lia)) as Hok. rewrite Forall_forall in Hok. by apply Hok.
Qed.
Lemma field_sub f (a b : list Row) : a ⊆+ b → field_values f a ⊆+ field_values f b.
Proof.
  intros H. apply submseteq_Permutation in H as [x Hx]. unfold field_values. rewrite Hx, bind_app. by apply submseteq_inserts_r.
Qed.
Lemma floats_in f (a b : list Row) x : a ⊆+ b → x ∈ field_floats pf f a → x ∈ field_floats pf f b.
Proof.
  intros H Hx. unfold field_floats in *. apply elem_of_list_omap in Hx as (w & Hw & Ex). apply elem_of_list_omap. exists w. split; [|done]. eapply elem_of_submseteq; [exact Hw|]. by apply field_sub.
Qed.

(** The answer to "select max(f) where key='val'" is a value of f in a row with key=val of
    a post that had arrived, and no value of f in the rows with key=val of the posts
    that had been answered before the query arrived is greater.  For min, less. *)
Theorem C95_max_partial rqs acts v h rs sent l s t rq key val f h1 h2 r h3 r0 : Forall request_ok rqs → vexecution rqs acts v h → answered v rs → accepted pm rqs rs sent →
  installed c l s → plain_name (s_name s) → s_keys s = [key] → map_order order → key_ok key → value_ok val → ¬ has_where (crit_item (key, val)) → name_ok f → field_measure s f MMax →
  rqs !! t = Some rq → coll_query rq (s_name s) (str "select max(" ++ f ++ str ") where " ++ key ++ str "='" ++ val ++ str "'") →
  let k := fnv1_spec (key ++ val) in k ≠ 0 → let all := rows_of sent (seq 0 (length rqs)) in no_collision [key] [MkFV key val] all →
  undisturbed l s k all → home_readable l (c_size (Compile s)) (c_size (Compile s)) k → Z.of_nat (length all) < 2^31 →
  let mine := filter (λ r, value_of key (row_data r) = Some val) in
  has_once f r0 → Forall (λ x, fisnan x = false) (field_floats pf f (mine all)) →
  h = h1 ++ VBegin t :: h2 ++ VAnswer t r :: h3 → opened sent mine h1 r0 →
  ∃ value, r = Resp 200 (key ++ str "=" ++ val ++ [10] ++ str "max(" ++ f ++ str ")=" ++ ff value ++ [10]) ∧
    value ∈ field_floats pf f (mine (rows_of sent (arrived (h1 ++ VBegin t :: h2)))) ∧
    ∀ x, x ∈ field_floats pf f (mine (rows_of sent (finished h1))) → fle x value = true.
Proof.
  intros Hrq Ex A Ac Hins Hpn Hkeys Ho Hk Hv Hw Hf Hm Lr Hq k H0 all Hcol Hu Hread Hlt mine Hone Hnan Eh Hop.
  assert (schema_ok s) as Hs. { destruct Hins as (ca & cb & E & _). unfold cfg_ok in Hc. rewrite E in Hc. apply Forall_app in Hc as [_ Hc']. inversion_clear Hc' as [|? ? [? _] _]. done. }
  destruct (one_conc rqs acts v h rs sent l s t rq key val (str "max") f h1 h2 r h3 r0 Hrq Ex A Ac Hins Hpn Hkeys Ho Hk Hv Hw (proj1 measure_names) Hf Lr Hq H0 Hcol Hu Hread Hlt Eh Hop) as (rows & buf & Haft & Hr & S1 & S2 & S3 & _).
  assert (Forall (λ x, fisnan x = false) (field_floats pf f (r0 :: rows))) as Hn. { apply Forall_forall. intros x Hx. rewrite Forall_forall in Hnan. apply Hnan. by eapply floats_in. }
  destruct (max_answer pf est s f r0 rows buf Hs Hm Hone Haft Hn) as (value & Hans & Hin & Hmax). exists value. split; [|split].
  - rewrite (Hr _ Hans). unfold FMV_String. cbn [r_M r_F r_V]. by rewrite <- !app_assoc.
  - by eapply floats_in.
  - intros x Hx. apply Hmax. by eapply floats_in.
Qed.
Theorem C95_min_partial rqs acts v h rs sent l s t rq key val f h1 h2 r h3 r0 : Forall request_ok rqs → vexecution rqs acts v h → answered v rs → accepted pm rqs rs sent →
  installed c l s → plain_name (s_name s) → s_keys s = [key] → map_order order → key_ok key → value_ok val → ¬ has_where (crit_item (key, val)) → name_ok f → field_measure s f MMin →
  rqs !! t = Some rq → coll_query rq (s_name s) (str "select min(" ++ f ++ str ") where " ++ key ++ str "='" ++ val ++ str "'") →
  let k := fnv1_spec (key ++ val) in k ≠ 0 → let all := rows_of sent (seq 0 (length rqs)) in no_collision [key] [MkFV key val] all →
  undisturbed l s k all → home_readable l (c_size (Compile s)) (c_size (Compile s)) k → Z.of_nat (length all) < 2^31 →
  let mine := filter (λ r, value_of key (row_data r) = Some val) in
  has_once f r0 → Forall (λ x, fisnan x = false) (field_floats pf f (mine all)) →
  h = h1 ++ VBegin t :: h2 ++ VAnswer t r :: h3 → opened sent mine h1 r0 →
  ∃ value, r = Resp 200 (key ++ str "=" ++ val ++ [10] ++ str "min(" ++ f ++ str ")=" ++ ff value ++ [10]) ∧
    value ∈ field_floats pf f (mine (rows_of sent (arrived (h1 ++ VBegin t :: h2)))) ∧
    ∀ x, x ∈ field_floats pf f (mine (rows_of sent (finished h1))) → fle value x = true.
Proof.
  intros Hrq Ex A Ac Hins Hpn Hkeys Ho Hk Hv Hw Hf Hm Lr Hq k H0 all Hcol Hu Hread Hlt mine Hone Hnan Eh Hop.
  assert (schema_ok s) as Hs. { destruct Hins as (ca & cb & E & _). unfold cfg_ok in Hc. rewrite E in Hc. apply Forall_app in Hc as [_ Hc']. inversion_clear Hc' as [|? ? [? _] _]. done. }
  destruct (one_conc rqs acts v h rs sent l s t rq key val (str "min") f h1 h2 r h3 r0 Hrq Ex A Ac Hins Hpn Hkeys Ho Hk Hv Hw (proj1 (proj2 measure_names)) Hf Lr Hq H0 Hcol Hu Hread Hlt Eh Hop) as (rows & buf & Haft & Hr & S1 & S2 & S3 & _).
  assert (Forall (λ x, fisnan x = false) (field_floats pf f (r0 :: rows))) as Hn. { apply Forall_forall. intros x Hx. rewrite Forall_forall in Hnan. apply Hnan. by eapply floats_in. }
  destruct (min_answer pf est s f r0 rows buf Hs Hm Hone Haft Hn) as (value & Hans & Hin & Hmin). exists value. split; [|split].
  - rewrite (Hr _ Hans). unfold FMV_String. cbn [r_M r_F r_V]. by rewrite <- !app_assoc.
  - by eapply floats_in.
  - intros x Hx. apply Hmin. by eapply floats_in.
Qed.
(** The answer to "select uniquecount(f) where key='val'" is the estimate of a counter of
    the declared precision to which the values of f of such rows were added: all those
    of the posts that had been answered before the query arrived, and only such of posts
    that had arrived. *)
Theorem C95_uniquecount_partial rqs acts v h rs sent l s t rq key val f p h1 h2 r h3 r0 : Forall request_ok rqs → vexecution rqs acts v h → answered v rs → accepted pm rqs rs sent →
  installed c l s → plain_name (s_name s) → s_keys s = [key] → map_order order → key_ok key → value_ok val → ¬ has_where (crit_item (key, val)) → name_ok f →
  field_measure s f (MCardinality p) → (∀ p', field_measure s f (MCardinality p') → p' = p) →
  rqs !! t = Some rq → coll_query rq (s_name s) (str "select uniquecount(" ++ f ++ str ") where " ++ key ++ str "='" ++ val ++ str "'") →
  let k := fnv1_spec (key ++ val) in k ≠ 0 → let all := rows_of sent (seq 0 (length rqs)) in no_collision [key] [MkFV key val] all →
  undisturbed l s k all → home_readable l (c_size (Compile s)) (c_size (Compile s)) k → Z.of_nat (length all) < 2^31 →
  let mine := filter (λ r, value_of key (row_data r) = Some val) in
  has_once f r0 → h = h1 ++ VBegin t :: h2 ++ VAnswer t r :: h3 → opened sent mine h1 r0 →
  ∃ vals c0 ctr, Hll_New p = Ok c0 ∧ Hll_Adds c0 vals = Ok ctr ∧
    r = Resp 200 (key ++ str "=" ++ val ++ [10] ++ str "uniquecount(" ++ f ++ str ")=" ++ ff (f_of_Z (est ctr)) ++ [10]) ∧
    field_values f (mine (rows_of sent (finished h1))) ⊆+ vals ∧ vals ⊆+ field_values f (mine (rows_of sent (arrived (h1 ++ VBegin t :: h2)))).
Proof.
  intros Hrq Ex A Ac Hins Hpn Hkeys Ho Hk Hv Hw Hf Hm Huq Lr Hq k H0 all Hcol Hu Hread Hlt mine Hone Eh Hop.
  assert (schema_ok s) as Hs. { destruct Hins as (ca & cb & E & _). unfold cfg_ok in Hc. rewrite E in Hc. apply Forall_app in Hc as [_ Hc']. inversion_clear Hc' as [|? ? [? _] _]. done. }
  destruct (one_conc rqs acts v h rs sent l s t rq key val (str "uniquecount") f h1 h2 r h3 r0 Hrq Ex A Ac Hins Hpn Hkeys Ho Hk Hv Hw (proj2 (proj2 measure_names)) Hf Lr Hq H0 Hcol Hu Hread Hlt Eh Hop) as (rows & buf & Haft & Hr & S1 & S2 & S3 & Hok).
  assert (Forall is_bytes (field_values f (r0 :: rows))) as Hb.
  { apply Forall_forall. intros x Hx. unfold field_values in Hx. apply elem_of_list_bind in Hx as (r1 & Hx & Hin).
    apply elem_of_list_fmap in Hx as (fv & -> & Hfv). apply elem_of_list_filter in Hfv as [_ Hfv]. rewrite Forall_forall in Hok. specialize (Hok r1 Hin). unfold row_ok in Hok. rewrite Forall_forall in Hok. by apply Hok. }
  destruct (card_answer pf est s f p r0 rows buf Hs Hm Huq Hone Hb Haft) as (c0 & ctr & Hn & Ha & Hans). exists (field_values f (r0 :: rows)), c0, ctr. split; [exact Hn|]. split; [exact Ha|]. split; [|split; by apply field_sub].
  rewrite (Hr _ Hans). unfold FMV_String. cbn [r_M r_F r_V]. by rewrite <- !app_assoc.
Qed.
End props.
