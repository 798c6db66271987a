(** Property C87: queries about nothing.  For all parse_float, estimate,
    formatting, error text and media type functions. *)
From Coq Require Import ZifyBool ZifyNat.
From Verif Require Import Base BaseProofs Float64 FnvModel FnvSpec FnvProofs HllModel CollationModel CollationSpec CollationProofs CollationProps DemoModel
  BufmapModel BufmapSpec BufmapProofs QueryModel ServerModel ServerSpec ServerProofs StoreProofs ServerInv ServerTop ServerProps ServerDemo.
Local Open Scope Z_scope.

Section props.
Context (pf : bytes → option float) (est : Counter → Z) (ff : float → bytes) (et : error → bytes) (pm : bytes → option bytes) (order : list FM → list FM).
Notation serve := (ServeHTTP pf est ff et pm order).
Notation serve_all := (serve_all pf est ff et pm order).

(** one line per criterion: name=value, line feed *)
Definition criteria_lines (crit : list FV) : bytes := mjoin (map (λ fv, fv_text fv ++ [10]) crit).
Lemma body_empty q : query_body ff q [] = criteria_lines (q_crit q).
Proof.
  unfold query_body, criteria_lines, fv_text. cbn [map mjoin list_join]. rewrite app_nil_r. f_equal. apply map_ext. intros fv. change (str "=") with [61]. by rewrite <- !app_assoc.
Qed.
(** A query without one of the key fields gets no results and no error from a
    store in any state whatever ... *)
Theorem C87_store_without_key st q : (∃ k, k ∈ c_keys (st_coll st) ∧ value_of k (q_crit q) = None) → Store_Read est st q = Ret (Ok []).
Proof. intros H. unfold Store_Read, Query_KeyValue. apply C23_fails_iff_missing in H. destruct (KeyValue _ _) as [k []]; [done|]. done. Qed.
(** ... and from a server in any state it can get into it is answered 200 with
    its own criteria and nothing else, *)
Theorem C87_without_key c sts l s rq text q : cfg_ok c → served pf est ff et pm order c sts → installed c l s → plain_name (s_name s) →
  coll_query rq (s_name s) text → RoughParse order text = Ok q → (∃ k, k ∈ s_keys s ∧ value_of k (q_crit q) = None) →
  serve sts rq = (sts, Resp 200 (criteria_lines (q_crit q))).
Proof.
  intros Hc Hsv (ca & cb & -> & Hn) Hpn Hq Hp Hk. pose proof (served_inv pf est ff et pm order _ sts Hc Hsv) as Hi.
  apply Forall2_app_inv_l in Hi as (sa & sb & Hia & Hib & ->). apply Forall2_cons_inv_l in Hib as (st & sb' & Hst & Hib & ->).
  rewrite (serve_query pf est ff et pm order _ rq s text q Hpn Hq Hp). rewrite (query_stores_at est ff et _ sa st sb' s q eq_refl).
  - rewrite C87_store_without_key; [by rewrite body_empty|]. rewrite (si_coll _ _ _ _ Hst). cbn [snd]. rewrite (proj1 (compile_names s)). done.
  - clear -Hia Hn. induction Hia as [|ls x ca sa Hx Hia IH]; [constructor|]. inversion_clear Hn as [|? ? H1 H2]. constructor; [|by apply IH].
    rewrite (si_coll _ _ _ _ Hx). by rewrite (proj2 (compile_names _)).
  - exact (si_coll _ _ _ _ Hst).
Qed.
(** and so is one whose key values no posted row has. *)
Theorem C87_unseen c sts0 rqs sts rs rows l s rq text q k : cfg_ok c → initial c sts0 → Forall request_ok rqs → serve_all sts0 rqs = (sts, rs) → posted pm rqs rs rows →
  installed c l s → plain_name (s_name s) → coll_query rq (s_name s) text → RoughParse order text = Ok q →
  record_key (s_keys s) (q_crit q) = Some k → is_key k →
  (∀ r, r ∈ rows → record_key (s_keys s) (row_data r) ≠ Some k) →
  serve sts rq = (sts, Resp 200 (criteria_lines (q_crit q))).
Proof.
  intros Hc H0 Hr E Hp Hins Hname Hq Hparse Hk Hkey Hno.
  destruct (end_to_end pf est ff et pm order c sts0 rqs sts rs rows l s rq text q k) as [A _]; try done.
  - intros r Hr' Er. rewrite Hk in Er. by apply Hno in Er.
  - rewrite A; [by rewrite body_empty|]. unfold matching. apply elem_of_nil_inv. intros r [Hm Hr']%elem_of_list_filter. apply (Hno r Hr'). rewrite <- Hk. unfold record_key. f_equal. by apply key_text_same.
Qed.
End props.
(** C87_without_key and C87_unseen applied to the server of ServerDemo.v, after its posts *)
Example C87_nonvacuous : ∃ sts0 sts rs, initial x_cfg sts0 ∧ x_serve_all sts0 [x_post1; x_get (str "select count(*) where k='a'"); x_post2] = (sts, rs) ∧
  x_serve sts (x_get (str "select count(*) where kk='a'")) = (sts, Resp 200 (str "kk=a" ++ [10])) ∧
  x_serve sts (x_get (str "select count(*) where k='z'")) = (sts, Resp 200 (str "k=z" ++ [10])).
Proof.
  destruct x_start as (sts0 & H0 & Ers). destruct (x_serve_all sts0 _) as [sts rs] eqn:E. cbn [snd] in Ers. exists sts0, sts, rs.
  assert (Forall request_ok [x_post1; x_get (str "select count(*) where k='a'"); x_post2]) as Hr by (apply Forall_forall; exact x_req_ok).
  pose proof (x_posted rs Ers) as Hp. destruct x_words as (_ & _ & _ & _ & Ht). split; [exact H0|]. split; [exact E|]. split.
  - apply (C87_without_key int_parse (λ _, 0) x_ff x_et Some id x_cfg sts 128 x_schema (x_get (str "select count(*) where kk='a'")) (str "select count(*) where kk='a'") (MkQuery [MkFM (str "*") [str "count"]] [MkFV (str "kk") (str "a")]) x_cfg_ok).
    + exists sts0, [x_post1; x_get (str "select count(*) where k='a'"); x_post2], rs. split; [exact H0|]. split; [exact Hr|exact E].
    + exact x_installed.
    + exact Ht.
    + split; [left|]. split; [done|]. split; [done|]. reflexivity.
    + vm_compute. reflexivity.
    + exists (str "k"). split; [left|]. reflexivity.
  - apply (C87_unseen int_parse (λ _, 0) x_ff x_et Some id x_cfg sts0 [x_post1; x_get (str "select count(*) where k='a'"); x_post2] sts rs x_rows 128 x_schema (x_get (str "select count(*) where k='z'")) (str "select count(*) where k='z'") (MkQuery [MkFM (str "*") [str "count"]] [MkFV (str "k") (str "z")]) (fnv1_spec (str "kz")) x_cfg_ok H0 Hr E Hp x_installed Ht).
    + split; [left|]. split; [done|]. split; [done|]. reflexivity.
    + vm_compute. reflexivity.
    + vm_compute. reflexivity.
    + vm_compute. split; reflexivity.
    + intros r Hr'. unfold x_rows in Hr'. rewrite !elem_of_cons, elem_of_nil in Hr'. destruct Hr' as [->|[->|[->|[]]]]; vm_compute; discriminate.
Qed.
Print Assumptions C87_store_without_key.
Print Assumptions C87_without_key.
Print Assumptions C87_unseen.
