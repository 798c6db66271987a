(** Property C92: the answer to a whole query.  For all parse_float, estimate,
    formatting, error text and media type functions, and all map orders. *)
From Coq Require Import ZifyBool ZifyNat.
From Verif Require Import Base BaseProofs Float64 Stat64Spec FnvModel FnvSpec FnvProofs HllModel CollationModel CollationSpec CollationProofs CollationTop CollationTop2 CollationProps DemoModel
  BufmapModel BufmapSpec BufmapProofs BufmapTop QueryModel QuerySpec QueryProofs QueryTop QueryProps ServerModel ServerSpec ScanProofs ParseRowProofs ServerProofs StoreProofs ServerInv ServerTop ServerAnswers ServerProps ServerDemo ServerHomeSpec StoreHome ServerHome ServerQuerySpec ServerQuery.
Local Open Scope Z_scope.

Section props.
Context (pf : bytes → option float) (est : Counter → Z) (ff : float → bytes) (et : error → bytes) (pm : bytes → option bytes) (order : list FM → list FM).
Notation serve := (ServeHTTP pf est ff et pm order).
Notation serve_all := (serve_all pf est ff et pm order).

(** After any history of accepted posts, a well-formed query with criteria for all
    key fields is answered 200 with a line for each criterion, in the order
    written, then for each measure asked for, in some order, the line with its right
    value over the posted rows with those key values, and none if the schema does
    not declare it.  Partial: the record is readable wherever it was put (C33),
    no 64 bit collision, and uniquecount is only asked for when it can be read (C28-C30, C91). *)
Theorem C92_query_partial c sts0 rqs sts rs rows l s rq ps qs text k : cfg_ok c → initial c sts0 → Forall request_ok rqs → serve_all sts0 rqs = (sts, rs) → posted pm rqs rs rows →
  installed c l s → plain_name (s_name s) → map_order order → query_text ps qs text → coll_query rq (s_name s) text →
  record_key (s_keys s) (criteria qs) = Some k → is_key k → no_collision (s_keys s) (criteria qs) rows → readable l (c_size (Compile s)) (c_size (Compile s)) k →
  let mine := matching (s_keys s) (criteria qs) rows in
  mine ≠ [] →
  (∀ f, (str "uniquecount", f) ∈ ps → declared s f (str "uniquecount") → undisturbed l s k rows ∧ first_has f mine ∧ ∃ p, ∀ p', field_measure s f (MCardinality p') → p' = p) →
  ∃ asked lines, asked ≡ₚ ps ∧
    Forall2 (λ '(n, f) line, (declared s f n ∧ ∃ v, line = value_line ff n f v ∧ right_value pf est l s k rows mine n f v) ∨ (¬ declared s f n ∧ line = [])) asked lines ∧
    serve sts rq = (sts, Resp 200 (crit_lines qs ++ mjoin lines)).
Proof. exact (query_answer pf est ff et pm order c sts0 rqs sts rs rows l s rq ps qs text k). Qed.
(** If the posted rows with those key values are none, the answer is the criteria alone *)
Theorem C92_no_rows c sts0 rqs sts rs rows l s rq ps qs text k : cfg_ok c → initial c sts0 → Forall request_ok rqs → serve_all sts0 rqs = (sts, rs) → posted pm rqs rs rows →
  installed c l s → plain_name (s_name s) → map_order order → query_text ps qs text → coll_query rq (s_name s) text →
  record_key (s_keys s) (criteria qs) = Some k → is_key k → no_collision (s_keys s) (criteria qs) rows →
  matching (s_keys s) (criteria qs) rows = [] →
  serve sts rq = (sts, Resp 200 (crit_lines qs)).
Proof.
  intros Hc H0 Hr E Hp Hins Hpn Ho Ht Hq Ek Hkey Hcol Hm. destruct (C57_parse order ps qs text Ho Ht) as (fms & _ & Hparse).
  destruct (end_to_end pf est ff et pm order c sts0 rqs sts rs rows l s rq text _ k Hc H0 Hr E Hp Hins Hpn Hq Hparse Ek Hkey Hcol) as [A _]. rewrite (A Hm). do 2 f_equal.
  unfold query_body, crit_lines, criteria. cbn [q_crit map mjoin list_join]. rewrite app_nil_r, map_map. done.
Qed.
End props.

(** ** a concrete server with two key fields *)
Definition v_schema : Schema := MkSchema (str "t") [str "k"; str "j"] [MkMS (str "h") [MSum; MMax]] [RCount].
Definition v_cfg : list (Z * Schema) := [(128, v_schema)].
Definition v_body : bytes := str "1 k=a j=b h=3" ++ [10] ++ str "2 j=c k=a h=9" ++ [10] ++ str "3 j=b k=a h=5" ++ [10].
Definition v_row (t : Z) (a b c : bytes * bytes) : Row := MkRow t [MkFV a.1 a.2; MkFV b.1 b.2; MkFV c.1 c.2].
Definition v_rows : list Row := [v_row 1000 (str "k", str "a") (str "j", str "b") (str "h", str "3"); v_row 2000 (str "j", str "c") (str "k", str "a") (str "h", str "9"); v_row 3000 (str "j", str "b") (str "k", str "a") (str "h", str "5")].
Definition v_text : bytes := str "select sum(h), count(*) max(h), min(h) where k='a' and j='b'".
Definition v_ps : list (bytes * bytes) := [(str "sum", str "h"); (str "count", str "*"); (str "max", str "h"); (str "min", str "h")].
Definition v_qs : list (bytes * bytes) := [(str "k", str "a"); (str "j", str "b")].
Notation v_serve := (ServeHTTP int_parse (λ _, 0) x_ff x_et Some id).
Notation v_serve_all := (serve_all int_parse (λ _, 0) x_ff x_et Some id).
Ltac dec := apply (bool_decide_unpack _); vm_compute; done.
Lemma v_query : query_text v_ps v_qs v_text.
Proof.
  exists [], (str "select"), [32], (str "sum(h), count(*) max(h), min(h)"), [32], (str "where"), [32], (str "k='a' and j='b'"), [].
  split; [reflexivity|]. split; [constructor|]. split; [by left|]. split; [split; [done|]; dec|].
  split; [split|].
  - apply (sel_more (str "sum", str "h") [44; 32]); [split; [done|]; dec|].
    apply (sel_more (str "count", str "*") [32]); [split; [done|]; dec|].
    apply (sel_more (str "max", str "h") [44; 32]); [split; [done|]; dec|]. apply (sel_one (str "min", str "h")).
  - repeat (constructor; [split; (split; [done|]; dec)|]). constructor.
  - split; [split; [done|]; dec|]. split; [done|]. split; [split; [done|]; dec|]. split; [|constructor].
    assert (crit_text v_qs (str "k='a' and j='b'")) as Hc.
    { apply (crit_more (str "k", str "a") (str " and ")); [|done|apply (crit_one (str "j", str "b"))]. exists [32], (str "and"), [32]. split; [reflexivity|]. split; [done|]. split; [dec|]. split; [done|]. split; [done|]. dec. }
    assert (Forall (λ p, key_ok p.1 ∧ value_ok p.2) v_qs) as Hq by (repeat (constructor; [split; (split; [done|]; dec)|]); constructor).
    split; [done|]. split; [done|]. apply (C57_simple_values v_qs); [done|done|]. repeat (constructor; [dec|]). constructor.
Qed.
Lemma v_in r : r ∈ v_rows → r = v_row 1000 (str "k", str "a") (str "j", str "b") (str "h", str "3") ∨ r = v_row 2000 (str "j", str "c") (str "k", str "a") (str "h", str "9") ∨ r = v_row 3000 (str "j", str "b") (str "k", str "a") (str "h", str "5").
Proof. unfold v_rows. rewrite !elem_of_cons, elem_of_nil. naive_solver. Qed.
Lemma v_posted : posted Some [x_post v_body] [Resp 200 []] v_rows.
Proof.
  assert (∀ c (l : bytes), bool_decide (c ∈ l) = false → c ∉ l) as Hn by (intros c l H; by apply bool_decide_eq_false in H).
  apply (po_post _ _ v_body [str "1 k=a j=b h=3"; str "2 j=c k=a h=9"; str "3 j=b k=a h=5"] v_rows [] [] []); [| | |constructor].
  - repeat split; try done; [by apply x_short|]. right. split; [right; left|]. rewrite <- (app_nil_r v_body) at 2. apply y_data; [done|constructor].
  - apply (tx_lf (str "1 k=a j=b h=3")); [apply Hn; vm_compute; reflexivity|done|]. apply (tx_lf (str "2 j=c k=a h=9")); [apply Hn; vm_compute; reflexivity|done|].
    apply (tx_lf (str "3 j=b k=a h=5") [] []); [apply Hn; vm_compute; reflexivity|done|constructor].
  - repeat (constructor; [vm_compute; reflexivity|]). constructor.
Qed.
Lemma v_start : ∃ sts0, initial v_cfg sts0 ∧ (v_serve_all sts0 [x_post v_body]).2 = [Resp 200 []].
Proof.
  destruct (add_collation 128 v_schema) as [st|e|] eqn:E; [|exfalso; vm_compute in E; discriminate..]. exists [st]. split; [by constructor|].
  assert ([st] = match add_collation 128 v_schema with Ok st => [st] | _ => [] end) as -> by (by rewrite E). vm_compute. reflexivity.
Qed.
(** all hypotheses of C92_query_partial hold of this server, this post and this
    query: the answer has a line for sum, count and max and none for min *)
Example C92_nonvacuous : ∃ sts0 sts rs, initial v_cfg sts0 ∧ v_serve_all sts0 [x_post v_body] = (sts, rs) ∧
  ∃ asked lines, asked ≡ₚ v_ps ∧ v_serve sts (x_get v_text) = (sts, Resp 200 (str "k=a" ++ [10] ++ str "j=b" ++ [10] ++ mjoin lines)) ∧
  Forall2 (λ '(n, f) line, (declared v_schema f n ∧ ∃ v, line = value_line x_ff n f v ∧
     right_value int_parse (λ _, 0) 128 v_schema (fnv1_spec (str "kajb")) v_rows (take 1 v_rows ++ drop 2 v_rows) n f v) ∨ (¬ declared v_schema f n ∧ line = [])) asked lines.
Proof.
  destruct v_start as (sts0 & H0 & Ers). destruct (v_serve_all sts0 [x_post v_body]) as [sts rs] eqn:E. cbn [snd] in Ers. subst rs. exists sts0, sts, [Resp 200 []].
  split; [exact H0|]. split; [exact E|]. destruct x_words as (_ & _ & _ & _ & Ht).
  destruct (C92_query_partial int_parse (λ _, 0) x_ff x_et Some id v_cfg sts0 [x_post v_body] sts [Resp 200 []] v_rows 128 v_schema (x_get v_text) v_ps v_qs v_text (fnv1_spec (str "kajb"))) as (asked & lines & H1 & H2 & H3).
  - constructor; [|constructor]. split; [repeat constructor; simpl; lia|]. vm_compute. repeat split; discriminate.
  - exact H0.
  - apply Forall_singleton. split; [|intros n; constructor]. constructor; [|constructor]. apply Forall_forall. intros c Hc.
    assert (forallb (λ c, (0 <=? c) && (c <? 256)) v_body = true) as H by (vm_compute; reflexivity). rewrite forallb_forall in H. apply elem_of_list_In, H in Hc. unfold is_byte in *; lia.
  - exact E.
  - exact v_posted.
  - exists [], []. split; [done|constructor].
  - exact Ht.
  - intros x. reflexivity.
  - exact v_query.
  - split; [left|]. split; [done|]. split; [done|]. reflexivity.
  - vm_compute. reflexivity.
  - vm_compute. split; reflexivity.
  - intros r Hr Ek. destruct (v_in r Hr) as [->|[->| ->]]; [by repeat constructor| |by repeat constructor]. exfalso. vm_compute in Ek. discriminate.
  - vm_compute. repeat split; discriminate.
  - vm_compute. discriminate.
  - intros f Hf. exfalso. revert Hf. unfold v_ps. rewrite !elem_of_cons, elem_of_nil. intros [Hf|[Hf|[Hf|[Hf|[]]]]]; discriminate Hf.
  - exists asked, lines. split; [exact H1|]. split; [exact H3|exact H2].
Qed.
Print Assumptions C92_query_partial.
Print Assumptions C92_no_rows.
Print Assumptions C92_nonvacuous.
