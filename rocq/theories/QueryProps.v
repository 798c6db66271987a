(** Properties C57 - C60: the query parser. *)
From Verif Require Import Base RegexpModel Float64 CollationModel QueryModel QuerySpec QueryProofs QueryTop.
Local Open Scope Z_scope.

(** ** C57: whatever the spacing and the case of the keywords, a well-formed query
    parses into the measures of each field in the order listed (fields in some
    order) and the criteria in order. *)
Theorem C57_parse order ps qs s : map_order order → query_text ps qs s →
  ∃ fms, fms ≡ₚ grouped ps ∧ RoughParse order s = Ok (MkQuery fms (criteria qs)).
Proof. intros Ho H. exists (order (grouped ps)). split; [apply Ho|]. by apply parse_wf. Qed.
Print Assumptions C57_parse.
(** Criteria whose values contain no whitespace never contain the word where, so
    such queries are well-formed whatever the values are. *)
Theorem C57_simple_values qs b : crit_text qs b → Forall (λ p, key_ok p.1 ∧ value_ok p.2) qs → Forall (λ p, Forall (λ c, ¬ is_ws c) p.2) qs → ¬ has_where b.
Proof. exact (no_where_simple qs b). Qed.
Print Assumptions C57_simple_values.

(** ** C58 *)
Theorem C58_rejects order s : RoughParse order s = Err ErrSyntax ↔ ¬ query_form s.
Proof. exact (parse_fails order s). Qed.
Print Assumptions C58_rejects.
Theorem C58_total order s : (∃ q, RoughParse order s = Ok q) ∨ RoughParse order s = Err ErrSyntax.
Proof. exact (parse_total order s). Qed.
Print Assumptions C58_total.

(** ** C59.  Partial: any quote-free one-line value that does not contain the word
    where between spaces is parsed back. *)
Theorem C59_value_partial order m f k v : name_ok m → name_ok f → key_ok k → value_ok v → ¬ has_where (crit_item (k, v)) →
  RoughParse order (str "select " ++ sel_item (m, f) ++ str " where " ++ crit_item (k, v)) = Ok (MkQuery (order [MkFM f [m]]) [MkFV k v]).
Proof.
  intros Hm Hf Hk Hv Hno. assert (query_text [(m, f)] [(k, v)] (str "select " ++ sel_item (m, f) ++ str " where " ++ crit_item (k, v))) as Hq.
  - exists [], (str "select"), [32], (sel_item (m, f)), [32], (str "where"), [32], (crit_item (k, v)), [].
    assert (is_ws 32) as H32 by (unfold is_ws; rewrite !elem_of_cons; lia). assert (is_blank 32) as H32' by (unfold is_blank; rewrite !elem_of_cons; lia).
    split; [rewrite app_nil_r; reflexivity|]. split; [constructor|]. split; [by left|]. split; [split; [done|]; by apply Forall_singleton|].
    split; [split; [constructor|by apply Forall_singleton]|]. split; [split; [done|]; by apply Forall_singleton|]. split; [done|].
    split; [split; [done|]; by apply Forall_singleton|]. split; [|constructor]. split; [constructor|]. split; [by apply Forall_singleton|done].
  - rewrite (parse_wf order _ _ _ Hq). do 2 f_equal. unfold grouped, measures_of. cbn [map dedup snd]. rewrite filter_nil. cbn [map]. rewrite filter_cons_True by done. by rewrite filter_nil.
Qed.
Print Assumptions C59_value_partial.
(** Refuted: a value containing " where " is cut, and a value ending in = swallows
    the next criterion. *)
Theorem C59_refuted :
  RoughParse id (str "select count(*) where k='a where b'") = Ok (MkQuery [MkFM (str "*") [str "count"]] []) ∧
  RoughParse id (str "select count(*) where k='a=' and j='b'") = Ok (MkQuery [MkFM (str "*") [str "count"]] [MkFV (str "k='a") (str " and j=")]).
Proof. split; vm_compute; reflexivity. Qed.
Print Assumptions C59_refuted.

(** ** C60.  Partial: if all selected measures are of one field they come in the order asked. *)
Lemma filter_all_false {A} (P : A → Prop) `{∀ x, Decision (P x)} l : Forall (λ x, ¬ P x) l → filter P l = [].
Proof. induction 1; [done|]. by rewrite filter_cons_False. Qed.
Theorem C60_one_field_partial order ps qs s f : map_order order → query_text ps qs s → Forall (λ p, p.2 = f) ps → ps ≠ [] →
  RoughParse order s = Ok (MkQuery [MkFM f (map fst ps)] (criteria qs)).
Proof.
  intros Ho H Hf Hne. rewrite (parse_wf order ps qs s H).
  assert (grouped ps = [MkFM f (map fst ps)]) as E.
  - unfold grouped. assert (dedup (map snd ps) = [f]) as ->.
    + destruct Hf as [|p ps Hp Hf]; [done|]. cbn. rewrite Hp. f_equal. apply filter_all_false. apply Forall_forall. intros g Hg Hne'. apply Hne'.
      apply elem_dedup, elem_of_list_In, in_map_iff in Hg as (q & <- & Hq). apply elem_of_list_In in Hq. rewrite Forall_forall in Hf. by apply Hf.
    + cbn. unfold measures_of. do 3 f_equal. clear -Hf. induction Hf as [|p ps Hp Hf IH]; [done|]. rewrite filter_cons_True by done. by rewrite IH.
  - rewrite E. do 2 f_equal. apply Permutation_length_1_inv. symmetry. apply Ho.
Qed.
Print Assumptions C60_one_field_partial.
(** Refuted: with two fields there is an iteration order that gives another order. *)
Theorem C60_refuted ps qs s p1 p2 : query_text ps qs s → p1 ∈ ps → p2 ∈ ps → p1.2 ≠ p2.2 →
  ∃ order fms, map_order order ∧ fms ≠ grouped ps ∧ RoughParse order s = Ok (MkQuery fms (criteria qs)).
Proof.
  intros H H1 H2 Hne. exists (@rev FM), (rev (grouped ps)). split; [intros l; symmetry; apply Permutation_rev|]. split; [|by apply parse_wf].
  intros E. assert (NoDup (map fm_F (grouped ps))) as ND. { unfold grouped. rewrite map_map. cbn. rewrite map_id. apply NoDup_dedup. }
  assert (∀ p, p ∈ ps → p.2 ∈ map fm_F (grouped ps)) as Hin. { intros p Hp. unfold grouped. rewrite map_map. cbn. rewrite map_id. apply elem_dedup, elem_of_list_In, in_map, elem_of_list_In. done. }
  apply (f_equal (map fm_F)) in E. rewrite map_rev in E. specialize (Hin p1 H1) as I1. specialize (Hin p2 H2) as I2. clear Hin H H1 H2.
  destruct (map fm_F (grouped ps)) as [|x l] eqn:El; [inversion I1|]. destruct l as [|y l] using rev_ind.
  - apply elem_of_list_singleton in I1, I2. congruence.
  - clear IHl. cbn in E. rewrite rev_app_distr in E. cbn in E. injection E as -> _. apply NoDup_cons in ND as [ND _]. apply ND. apply elem_of_app. right. left.
Qed.
Print Assumptions C60_refuted.

(** the hypotheses are met by the queries of the package's own tests *)
Example query_nonvacuous :
  query_text [(str "sum", str "price"); (str "mean", str "qty"); (str "max", str "price")] [(str "customer", str "jim jones"); (str "country", str "UK")]
    (str "SeLeCt sum(price), mean(qty) max(price) whERE customer='jim jones' AND country='UK' ") ∧
  RoughParse id (str "SeLeCt sum(price), mean(qty) max(price) whERE customer='jim jones' AND country='UK' ") =
    Ok (MkQuery [MkFM (str "price") [str "sum"; str "max"]; MkFM (str "qty") [str "mean"]] [MkFV (str "customer") (str "jim jones"); MkFV (str "country") (str "UK")]) ∧
  RoughParse id (str "select sum(price)") = Err ErrSyntax.
Proof.
  split; [|split; vm_compute; reflexivity].
  exists [], (str "SeLeCt"), [32], (str "sum(price), mean(qty) max(price)"), [32], (str "whERE"), [32], (str "customer='jim jones' AND country='UK'"), [32].
  assert (is_ws 32) as H32 by (unfold is_ws; rewrite !elem_of_cons; lia). assert (is_blank 32) as H32' by (unfold is_blank; rewrite !elem_of_cons; lia).
  assert (∀ c, bool_decide (c ∈ [9; 10; 12; 13; 32]) = false → ¬ is_ws c) as Hnw by (intros c Hc; by apply bool_decide_eq_false in Hc).
  assert (Hname : ∀ n, n ≠ [] → forallb (λ c, negb (bool_decide (c ∈ [9; 10; 12; 13; 32])) && negb (c =? 44) && negb (c =? 40) && negb (c =? 41)) n = true → name_ok n).
  { intros n Hn H. split; [done|]. apply Forall_forall. intros c Hc. rewrite forallb_forall in H. apply elem_of_list_In, H in Hc. rewrite !andb_true_iff, !negb_true_iff in Hc. destruct Hc as (((H1 & H2) & H3) & H4).
    split; [by apply Hnw|]. lia. }
  assert (Hkey : ∀ n, n ≠ [] → forallb (λ c, negb (bool_decide (c ∈ [9; 10; 12; 13; 32])) && negb (c =? 39)) n = true → key_ok n).
  { intros n Hn H. split; [done|]. apply Forall_forall. intros c Hc. rewrite forallb_forall in H. apply elem_of_list_In, H in Hc. rewrite !andb_true_iff, !negb_true_iff in Hc. destruct Hc as (H1 & H2).
    split; [by apply Hnw|]. lia. }
  assert (Hval : ∀ n, n ≠ [] → forallb (λ c, negb (c =? 39) && negb (c =? 10)) n = true → value_ok n).
  { intros n Hn H. split; [done|]. apply Forall_forall. intros c Hc. rewrite forallb_forall in H. apply elem_of_list_In, H in Hc. lia. }
  split; [reflexivity|]. split; [constructor|]. split; [by left|]. split; [split; [done|]; by apply Forall_singleton|].
  split. { split.
    - apply (sel_more (str "sum", str "price") (str ", ") _ (str "mean(qty) max(price)")); [|apply (sel_more (str "mean", str "qty") (str " ") _ (str "max(price)")); [|apply (sel_one (str "max", str "price"))]].
      + split; [done|]. change (str ", ") with [44; 32]. rewrite !Forall_cons, Forall_nil. auto.
      + split; [done|]. change (str " ") with [32]. rewrite !Forall_cons, Forall_nil. auto.
    - rewrite !Forall_cons, Forall_nil. repeat split; try (apply Hname; [done|vm_compute; reflexivity]). }
  split; [split; [done|]; by apply Forall_singleton|]. split; [done|]. split; [split; [done|]; by apply Forall_singleton|].
  split; [|by apply Forall_singleton]. split; [|split].
  - apply (crit_more (str "customer", str "jim jones") (str " AND ") _ (str "country='UK'")); [|done|apply (crit_one (str "country", str "UK"))].
    exists [32], (str "AND"), [32]. split; [done|]. split; [done|]. split; [by apply Forall_singleton|]. split; [done|]. split; [done|by apply Forall_singleton].
  - rewrite !Forall_cons, Forall_nil. repeat split; try (apply Hkey; [done|vm_compute; reflexivity]); try (apply Hval; [done|vm_compute; reflexivity]).
  - intros (a & c1 & w & c2 & b & E & _ & Hw & _).
    assert (119 ∈ map lower (str "customer='jim jones' AND country='UK'")) as Hin.
    { rewrite E. rewrite map_app. cbn [map]. rewrite map_app. unfold kw_where in Hw. rewrite Hw. apply elem_of_app. right. apply elem_of_cons. right. apply elem_of_app. left. left. }
    apply elem_of_list_In in Hin. vm_compute in Hin. repeat (destruct Hin as [Hin|Hin]; [discriminate Hin|]). exact Hin.
Qed.
