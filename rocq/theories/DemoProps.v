(** Property C105: starbow as shipped answers the measures of its two collations and no
    others.  demo_cfg is what setupDemo installs (ProcessModel.v). *)
From Coq Require Import ZifyBool ZifyNat.
From Verif Require Import Base BaseProofs Float64 Stat64Spec FnvModel FnvSpec FnvProofs HllModel HllSpec CollationModel CollationSpec CollationProofs CollationTop CollationTop2 CollationProps DemoModel
  BufmapModel BufmapSpec BufmapProofs BufmapTop QueryModel QuerySpec QueryProofs QueryTop QueryProps ServerModel ServerSpec RouteSpec ScanProofs ParseRowProofs ServerProofs StoreProofs ServerInv ServerTop ServerAnswers ServerProps ServerDemo ServerHomeSpec StoreHome ServerHome ServerQuerySpec ServerQuery ServerQueryProps
  BufconcModel StoreConcModel ServerConcModel ProcessModel ProcessProofs ProcessProps DemoSpec.
Local Open Scope Z_scope.

Lemma field_in s f m i ms : s_measures s !! i = Some ms → ms_field ms = f → m ∈ ms_measures ms → m ≠ MCount → declared s f (m_name m).
Proof. intros H1 H2 H3 H4. right. exists m. split; [|done]. exists ms. split; [by eapply elem_of_list_lookup_2|done]. Qed.
Ltac inlist := apply elem_of_list_In; cbn [ms_measures In]; tauto.
Lemma country_declared f n : declared country_schema f n ↔ (n, f) ∈ country_names.
Proof.
  unfold country_names. rewrite !elem_of_cons, elem_of_nil. split.
  - intros [(-> & -> & _)|(m & (ms & Hms & <- & Hm) & Hne & ->)]; [by left|]. cbn in Hms. rewrite !elem_of_cons, elem_of_nil in Hms.
    destruct Hms as [->|[->|[]]]; cbn in Hm; rewrite !elem_of_cons, elem_of_nil in Hm; naive_solver.
  - intros [H|[H|[H|[H|[H|[H|[H|[]]]]]]]]; injection H as -> ->; [by left|..].
    + apply (field_in country_schema (str "height") MMean 0%nat _ eq_refl eq_refl); [inlist|done].
    + apply (field_in country_schema (str "height") MSum 0%nat _ eq_refl eq_refl); [inlist|done].
    + apply (field_in country_schema (str "height") MVariance 0%nat _ eq_refl eq_refl); [inlist|done].
    + apply (field_in country_schema (str "height") MMax 0%nat _ eq_refl eq_refl); [inlist|done].
    + apply (field_in country_schema (str "height") MMin 0%nat _ eq_refl eq_refl); [inlist|done].
    + apply (field_in country_schema (str "iata") (MCardinality 10) 1%nat _ eq_refl eq_refl); [inlist|done].
Qed.
Lemma tz_declared f n : declared tz_schema f n ↔ (n, f) ∈ tz_names.
Proof.
  unfold tz_names. rewrite !elem_of_cons, elem_of_nil. split.
  - intros [(-> & -> & _)|(m & (ms & Hms & <- & Hm) & Hne & ->)]; [by left|]. cbn in Hms. rewrite !elem_of_cons, elem_of_nil in Hms.
    destruct Hms as [->|[->|[]]]; cbn in Hm; rewrite !elem_of_cons, elem_of_nil in Hm; naive_solver.
  - intros [H|[H|[H|[]]]]; injection H as -> ->; [by left|..].
    + apply (field_in tz_schema (str "country") (MCardinality 8) 0%nat _ eq_refl eq_refl); [inlist|done].
    + apply (field_in tz_schema (str "height") (MCardinality 8) 1%nat _ eq_refl eq_refl); [inlist|done].
Qed.

Lemma country_field m : m ∈ [MMean; MSum; MVariance; MMax; MMin] → field_measure country_schema (str "height") m.
Proof. intros H. eexists. split; [left|]. split; [done|exact H]. Qed.
Lemma country_iata : field_measure country_schema (str "iata") (MCardinality 10).
Proof. eexists. split; [right; left|]. split; [done|left]. Qed.
Lemma country_precision p : field_measure country_schema (str "iata") (MCardinality p) → p = 10.
Proof.
  intros (ms & Hms & Hf & Hp). cbn in Hms. rewrite !elem_of_cons, elem_of_nil in Hms. destruct Hms as [->|[->|[]]]; [discriminate Hf|]. cbn in Hp. apply elem_of_list_singleton in Hp. by injection Hp.
Qed.
Lemma tz_fields : field_measure tz_schema (str "country") (MCardinality 8) ∧ field_measure tz_schema (str "height") (MCardinality 8).
Proof. split; eexists; [split; [left|]|split; [right; left|]]; (split; [reflexivity|left]). Qed.
Lemma tz_precision f p : field_measure tz_schema f (MCardinality p) → p = 8.
Proof.
  intros (ms & Hms & Hf & Hp). cbn in Hms. rewrite !elem_of_cons, elem_of_nil in Hms. destruct Hms as [->|[->|[]]]; cbn in Hp; apply elem_of_list_singleton in Hp; by injection Hp.
Qed.

Section props.
Context (pf : bytes → option float) (est : Counter → Z) (ff : float → bytes) (et : error → bytes) (pm : bytes → option bytes) (order : list FM → list FM).
Notation serve := (ServeHTTP pf est ff et pm order).
Notation serve_all := (serve_all pf est ff et pm order).
(** Only the collations country and tz exist. *)
Theorem C105_only_two sts rq name : served pf est ff et pm order demo_cfg sts →
  rq_star rq = false → rq_path rq = str "/collation/" ++ name → plain_name name → rq_method rq ∈ [str "POST"; str "GET"] → query_form (rq_form rq (str "q")) →
  name ≠ str "country" → name ≠ str "tz" → serve sts rq = (sts, error_answer 404 (str "404 page not found")).
Proof.
  intros Hsv Hs Hp Hn Hm Hq Hc Ht. refine (proj1 (proj2 (proj2 (C54_collation pf est ff et pm order rq sts name Hs Hp))) Hn Hm Hq _).
  pose proof (served_inv pf est ff et pm order demo_cfg sts demo_cfg_ok Hsv) as Hi. unfold srv_inv, demo_cfg in Hi.
  inversion_clear Hi as [|? st1 ? l1 I1 Hi1]. inversion_clear Hi1 as [|? st2 ? l2 I2 Hi2]. inversion_clear Hi2.
  constructor; [|constructor; [|constructor]].
  - rewrite (si_coll _ _ _ _ I1). cbn [snd]. rewrite (proj2 (compile_names _)). exact (not_eq_sym Hc).
  - rewrite (si_coll _ _ _ _ I2). cbn [snd]. rewrite (proj2 (compile_names _)). exact (not_eq_sym Ht).
Qed.
(** The run and the query of the next two theorems: rows were posted, all accepted; then
    "select ... where key='v'" is asked, with measures ps, some of the rows having key=v;
    nothing else has the same hash. *)
Record demo_asked (name key : bytes) (rqs : list request) (sts : list Store) (rows : list Row) (rq : request) (ps : list (bytes * bytes)) (v : bytes) : Prop := {
  da_requests : Forall request_ok rqs;
  da_run : ∃ sts0 rs, initial demo_cfg sts0 ∧ serve_all sts0 rqs = (sts, rs) ∧ posted pm rqs rs rows;
  da_query : ∃ text, query_text ps [(key, v)] text ∧ coll_query rq name text;
  da_key : is_key (fnv1_spec (key ++ v));
  da_collision : no_collision [key] [MkFV key v] rows;
  da_some : filter (λ r, value_of key (row_data r) = Some v) rows ≠ [] }.
Definition in_group (key v : bytes) (rows : list Row) : list Row := filter (λ r, value_of key (row_data r) = Some v) rows.
(** where max, min and uniquecount(f) work: nothing else takes the home slot of the record,
    and the first row has one f *)
Definition works (s : Schema) (key v : bytes) (rows : list Row) (f : bytes) : Prop :=
  undisturbed 5000 s (fnv1_spec (key ++ v)) rows ∧ first_has f (in_group key v rows).
(** /collation/country answers 200 with the criterion, then for each measure asked for, in
    some order, its line with the value of the table, or nothing if the table does not
    have it.  Partial: the slot of the group must be one that can be read as a whole (C33). *)
Theorem C105_country_partial rqs sts rows rq ps v : map_order order → demo_asked (str "country") (str "country") rqs sts rows rq ps v →
  900 ≤ fnv1_spec (str "country" ++ v) mod 5000 ≤ 4984 →
  let first := works country_schema (str "country") v rows in let mine := in_group (str "country") v rows in
  ((str "uniquecount", str "iata") ∈ ps → first (str "iata")) → 
  ∃ asked lines, asked ≡ₚ ps ∧
    Forall2 (λ '(n, f) line, (∃ x, country_value pf est mine first n f x ∧ line = value_line ff n f x) ∨ ((n, f) ∉ country_names ∧ line = [])) asked lines ∧
    serve sts rq = (sts, Resp 200 (str "country=" ++ v ++ [10] ++ mjoin lines)).
Proof.
  intros Ho [Hr (sts0 & rs & H0 & E & Hp) (text & Ht & Hq) Hkey Hcol Hsome] Hslot first mine Hu0.
  destruct (C92_query_partial pf est ff et pm order demo_cfg sts0 rqs sts rs rows 5000 country_schema rq ps [(str "country", v)] text (fnv1_spec (str "country" ++ v)) demo_cfg_ok H0 Hr E Hp) as (asked & lines & H1 & H2 & H3).
  - exists [], [(demo_slots, tz_schema)]. split; [reflexivity|repeat constructor; discriminate].
  - unfold plain_name. split_and!; [done| |done|done]. apply (bool_decide_unpack _). vm_compute. done.
  - exact Ho.
  - exact Ht.
  - exact Hq.
  - apply record_key_one.
  - exact Hkey.
  - exact Hcol.
  - change (c_size (Compile country_schema)) with 900. unfold readable. lia.
  - change (s_keys country_schema) with [str "country"]. change (criteria [(str "country", v)]) with [MkFV (str "country") v]. rewrite matching_one. exact Hsome.
  - change (s_keys country_schema) with [str "country"]. change (criteria [(str "country", v)]) with [MkFV (str "country") v]. rewrite matching_one.
    intros f Hin Hd. apply country_declared in Hd. assert (f = str "iata") as ->.
    { unfold country_names in Hd. rewrite !elem_of_cons, elem_of_nil in Hd. destruct Hd as [H|[H|[H|[H|[H|[H|[H|[]]]]]]]]; try discriminate H. by injection H. }
    destruct (Hu0 Hin) as [U1 U2]. split; [exact U1|]. split; [exact U2|]. exists 10. intros p' Hp'. exact (country_precision _ Hp').
  - change (s_keys country_schema) with [str "country"] in H2. change (criteria [(str "country", v)]) with [MkFV (str "country") v] in H2. rewrite matching_one in H2. fold (in_group (str "country") v rows) in H2. fold mine in H2.
    exists asked, lines. split; [exact H1|]. split; [|rewrite H3; unfold crit_lines; cbn [map mjoin list_join fst snd]; rewrite app_nil_r, <- !app_assoc; reflexivity].
    assert (∀ n f, (n, f) ∈ asked → (n, f) ∈ ps) as Hsub by (intros n f Hin; by rewrite <- H1). clear H1 H3.
    induction H2 as [|[n f] line asked lines Hl H2 IH]; [constructor|]. constructor; [|apply IH; intros n' f' Hin; apply Hsub; by right].
    specialize (Hsub n f (elem_of_list_here _ _)). destruct Hl as [[Hd (x & -> & [R1 R2 R3 R4 R5 R6 R7])]|[Hd ->]]; [left|right; split; [|done]; by rewrite <- country_declared].
    exists x. split; [|done]. apply country_declared in Hd. unfold country_names in Hd. rewrite !elem_of_cons, elem_of_nil in Hd.
    destruct Hd as [H|[H|[H|[H|[H|[H|[H|[]]]]]]]]; injection H as -> ->.
    + rewrite R1 by done. constructor.
    + rewrite R3; [constructor|done|]. exact (country_field MMean ltac:(inlist)).
    + rewrite R2; [constructor|done|]. exact (country_field MSum ltac:(inlist)).
    + rewrite R4; [constructor|done|]. exact (country_field MVariance ltac:(inlist)).
    + constructor. intros [U1 U2] Hn. apply R5; try done. exact (country_field MMax ltac:(inlist)).
    + constructor. intros [U1 U2] Hn. apply R6; try done. exact (country_field MMin ltac:(inlist)).
    + constructor. destruct (Hu0 Hsub) as [U1 U2]. apply (R7 10); try done; [exact country_iata|exact country_precision].
Qed.
(** the same for /collation/tz *)
Theorem C105_tz_partial rqs sts rows rq ps v : map_order order → demo_asked (str "tz") (str "tz") rqs sts rows rq ps v →
  416 ≤ fnv1_spec (str "tz" ++ v) mod 5000 ≤ 4978 →
  let first := works tz_schema (str "tz") v rows in let mine := in_group (str "tz") v rows in
  ((str "uniquecount", str "country") ∈ ps → first (str "country")) → ((str "uniquecount", str "height") ∈ ps → first (str "height")) → 
  ∃ asked lines, asked ≡ₚ ps ∧
    Forall2 (λ '(n, f) line, (∃ x, tz_value est mine n f x ∧ line = value_line ff n f x) ∨ ((n, f) ∉ tz_names ∧ line = [])) asked lines ∧
    serve sts rq = (sts, Resp 200 (str "tz=" ++ v ++ [10] ++ mjoin lines)).
Proof.
  intros Ho [Hr (sts0 & rs & H0 & E & Hp) (text & Ht & Hq) Hkey Hcol Hsome] Hslot first mine Hu0 Hu1.
  destruct (C92_query_partial pf est ff et pm order demo_cfg sts0 rqs sts rs rows 5000 tz_schema rq ps [(str "tz", v)] text (fnv1_spec (str "tz" ++ v)) demo_cfg_ok H0 Hr E Hp) as (asked & lines & H1 & H2 & H3).
  - exists [(demo_slots, country_schema)], []. split; [reflexivity|repeat constructor; discriminate].
  - unfold plain_name. split_and!; [done| |done|done]. apply (bool_decide_unpack _). vm_compute. done.
  - exact Ho.
  - exact Ht.
  - exact Hq.
  - apply record_key_one.
  - exact Hkey.
  - exact Hcol.
  - change (c_size (Compile tz_schema)) with 416. unfold readable. lia.
  - change (s_keys tz_schema) with [str "tz"]. change (criteria [(str "tz", v)]) with [MkFV (str "tz") v]. rewrite matching_one. exact Hsome.
  - change (s_keys tz_schema) with [str "tz"]. change (criteria [(str "tz", v)]) with [MkFV (str "tz") v]. rewrite matching_one.
    intros f Hin Hd. apply tz_declared in Hd. assert (first f) as [U1 U2].
    { unfold tz_names in Hd. rewrite !elem_of_cons, elem_of_nil in Hd. destruct Hd as [H|[H|[H|[]]]]; [discriminate H|injection H as ->; by apply Hu0|injection H as ->; by apply Hu1]. }
    split; [exact U1|]. split; [exact U2|]. exists 8. intros p' Hp'. exact (tz_precision _ _ Hp').
  - change (s_keys tz_schema) with [str "tz"] in H2. change (criteria [(str "tz", v)]) with [MkFV (str "tz") v] in H2. rewrite matching_one in H2. fold (in_group (str "tz") v rows) in H2. fold mine in H2.
    exists asked, lines. split; [exact H1|]. split; [|rewrite H3; unfold crit_lines; cbn [map mjoin list_join fst snd]; rewrite app_nil_r, <- !app_assoc; reflexivity].
    assert (∀ n f, (n, f) ∈ asked → (n, f) ∈ ps) as Hsub by (intros n f Hin; by rewrite <- H1). clear H1 H3.
    induction H2 as [|[n f] line asked lines Hl H2 IH]; [constructor|]. constructor; [|apply IH; intros n' f' Hin; apply Hsub; by right].
    specialize (Hsub n f (elem_of_list_here _ _)). destruct Hl as [[Hd (x & -> & [R1 R2 R3 R4 R5 R6 R7])]|[Hd ->]]; [left|right; split; [|done]; by rewrite <- tz_declared].
    exists x. split; [|done]. apply tz_declared in Hd. unfold tz_names in Hd. rewrite !elem_of_cons, elem_of_nil in Hd.
    destruct Hd as [H|[H|[H|[]]]]; injection H as -> ->.
    + rewrite R1 by done. constructor.
    + constructor. destruct (Hu0 Hsub) as [U1 U2]. apply (R7 8); try done; [exact (proj1 tz_fields)|exact (tz_precision _)].
    + constructor. destruct (Hu1 Hsub) as [U1 U2]. apply (R7 8); try done; [exact (proj2 tz_fields)|exact (tz_precision _)].
Qed.
End props.
Print Assumptions C105_only_two.
Print Assumptions C105_country_partial.
Print Assumptions C105_tz_partial.
