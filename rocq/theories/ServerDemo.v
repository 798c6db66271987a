(** Concrete, non-trivial cases for the hypotheses of ServerProps.v: a server
    with one collation of 128 slots, requests run through the model. *)
From Coq Require Import ZifyBool ZifyNat.
From Verif Require Import Base BaseProofs Float64 FnvModel FnvSpec FnvProofs HllModel Stat64Spec CollationModel CollationSpec CollationProofs CollationLayout CollationTop CollationTop2 CollationProps DemoModel
  BufmapModel BufmapSpec BufmapProofs BufmapTop BufmapRefuted RegexpModel QueryModel QuerySpec QueryProofs QueryTop QueryProps ServerModel ServerSpec ScanProofs ParseRowProofs ServerProofs StoreProofs ServerInv ServerTop ServerAnswers ServerProps.
Local Open Scope Z_scope.

Definition x_schema : Schema := MkSchema (str "t") [str "k"] [MkMS (str "h") [MMean]] [RCount].
Definition x_cfg : list (Z * Schema) := [(128, x_schema)].
(** two posts, a query between them, in fragments and with both line endings *)
Definition x_form : bytes → bytes := λ _, [].
Definition x_post1 : request := MkRequest (str "POST") (str "/obs") false [] x_form [EvData (str "1 k=a h=3" ++ [13; 10] ++ str "2 k="); EvData (str "b h=4" ++ [10])] None.
Definition x_post2 : request := MkRequest (str "POST") (str "/obs") false [] x_form [EvDataEOF (str "3,k=a,h=5")] None.
Definition x_get (q : bytes) : request := MkRequest (str "GET") (str "/collation/t") false [] (λ n, if decide (n = str "q") then q else []) [] None.
Definition x_rows : list Row := [MkRow 1000 [MkFV (str "k") (str "a"); MkFV (str "h") (str "3")]; MkRow 2000 [MkFV (str "k") (str "b"); MkFV (str "h") (str "4")]; MkRow 3000 [MkFV (str "k") (str "a"); MkFV (str "h") (str "5")]].
Definition x_et : error → bytes := λ _, str "error".
Definition x_ff : float → bytes := λ f, [fbits f].
Notation x_serve := (ServeHTTP int_parse (λ _, 0) x_ff x_et Some id).
Notation x_serve_all := (serve_all int_parse (λ _, 0) x_ff x_et Some id).

Lemma x_cfg_ok : cfg_ok x_cfg.
Proof. constructor; [|constructor]. split; [repeat constructor|]. vm_compute. repeat split; discriminate. Qed.
Lemma x_installed : installed x_cfg 128 x_schema.
Proof. exists [], []. split; [done|constructor]. Qed.
Lemma x_start : ∃ sts0, initial x_cfg sts0 ∧ (x_serve_all sts0 [x_post1; x_get (str "select count(*) where k='a'"); x_post2]).2 =
   [Resp 200 []; Resp 200 (str "k=a" ++ [10] ++ str "count(*)=" ++ [fbits (f_of_Z 1)] ++ [10]); Resp 200 []].
Proof.
  destruct (add_collation 128 x_schema) as [st|e|] eqn:E; [|exfalso; vm_compute in E; discriminate..]. exists [st]. split; [by constructor|].
  transitivity ((x_serve_all (match add_collation 128 x_schema with Ok st => [st] | _ => [] end) [x_post1; x_get (str "select count(*) where k='a'"); x_post2]).2); [by rewrite E|].
  vm_compute. reflexivity.
Qed.
Lemma x_short b : Z.of_nat (length b) < line_limit → short_lines b.
Proof. intros H x y z -> _. rewrite !app_length in H. lia. Qed.
Lemma x_req_ok rq : rq ∈ [x_post1; x_get (str "select count(*) where k='a'"); x_post2] → request_ok rq.
Proof.
  assert (∀ l, forallb (λ c, (0 <=? c) && (c <? 256)) l = true → is_bytes l) as Hb.
  { intros l H. apply Forall_forall. intros c Hc. rewrite forallb_forall in H. apply elem_of_list_In, H in Hc. unfold is_byte in *; lia. }
  rewrite !elem_of_cons, elem_of_nil. intros [->|[->|[->|[]]]]; (split; [repeat (constructor; [apply Hb; vm_compute; reflexivity|]); constructor|]); cbn [rq_form x_post1 x_post2 x_get]; intros n.
  - constructor.
  - destruct (decide _); [apply Hb; vm_compute; reflexivity|constructor].
  - constructor.
Qed.
Lemma x_posted rs : rs = [Resp 200 []; Resp 200 (str "k=a" ++ [10] ++ str "count(*)=" ++ [fbits (f_of_Z 1)] ++ [10]); Resp 200 []] →
  posted Some [x_post1; x_get (str "select count(*) where k='a'"); x_post2] rs x_rows.
Proof.
  intros ->. assert (∀ c (l : bytes), bool_decide (c ∈ l) = false → c ∉ l) as Hn by (intros c l H; by apply bool_decide_eq_false in H).
  apply (po_post _ _ (str "1 k=a h=3" ++ [13; 10] ++ str "2 k=b h=4" ++ [10]) [str "1 k=a h=3"; str "2 k=b h=4"] (take 2 x_rows) _ _ (drop 2 x_rows)).
  - repeat split; try done; [by apply x_short|]. right. split; [right; left|]. apply (y_data (str "1 k=a h=3" ++ [13; 10] ++ str "2 k=")); [done|]. apply (y_data (str "b h=4" ++ [10]) [] []); [done|constructor].
  - apply tx_crlf; [apply Hn; vm_compute; reflexivity|]. apply (tx_lf (str "2 k=b h=4") [] []); [apply Hn; vm_compute; reflexivity|done|constructor].
  - repeat (constructor; [vm_compute; reflexivity|]). constructor.
  - apply po_other; [by left|]. apply (po_post _ _ (str "3,k=a,h=5") [str "3,k=a,h=5"] (drop 2 x_rows) [] [] []).
    + repeat split; try done; [by apply x_short|]. right. split; [right; left|]. constructor.
    + apply tx_last; [done|apply Hn; vm_compute; reflexivity|done].
    + repeat (constructor; [vm_compute; reflexivity|]). constructor.
    + constructor.
Qed.
Lemma x_no_collision : no_collision [str "k"] [MkFV (str "k") (str "a")] x_rows.
Proof.
  intros r Hr E. unfold x_rows in Hr. rewrite !elem_of_cons, elem_of_nil in Hr. destruct Hr as [->|[->|[->|[]]]]; [by repeat constructor| |by repeat constructor]. exfalso. vm_compute in E. discriminate.
Qed.
Lemma x_readable n : 0 ≤ n ≤ 40 → readable 128 (c_size (Compile x_schema)) n (fnv1_spec (str "k" ++ str "a")).
Proof. intros Hn. assert (fnv1_spec (str "k" ++ str "a") mod 128 = 61) as E by (vm_compute; reflexivity). unfold readable. rewrite E. change (c_size (Compile x_schema)) with 40. lia. Qed.
Lemma x_is_key : is_key (fnv1_spec (str "k" ++ str "a")).
Proof. vm_compute. split; reflexivity. Qed.
Lemma x_words : key_ok (str "k") ∧ value_ok (str "a") ∧ ¬ has_where (crit_item (str "k", str "a")) ∧ name_ok (str "h") ∧ plain_name (str "t").
Proof.
  assert (key_ok (str "k")) as Hk. { split; [done|]. change (str "k") with [107]. apply Forall_singleton. unfold is_ws. rewrite !elem_of_cons, elem_of_nil. lia. }
  assert (value_ok (str "a")) as Hv. { split; [done|]. change (str "a") with [97]. apply Forall_singleton. lia. }
  split; [done|]. split; [done|]. split; [|split].
  - apply (no_where_simple [(str "k", str "a")]); [apply (crit_one (str "k", str "a"))|by apply Forall_singleton|apply Forall_singleton; cbn [snd]; change (str "a") with [97]; apply Forall_singleton; unfold is_ws; rewrite !elem_of_cons, elem_of_nil; lia].
  - split; [done|]. change (str "h") with [104]. apply Forall_singleton. unfold is_ws. rewrite !elem_of_cons, elem_of_nil. lia.
  - split; [done|]. change (str "t") with [116]. split; [rewrite elem_of_list_singleton; lia|]. split; discriminate.
Qed.

(** C56_count_partial and C70_stats_partial applied: all their hypotheses hold,
    two rows with k=a and one with k=b have been posted *)
Example server_nonvacuous : ∃ sts0 sts rs, initial x_cfg sts0 ∧ served int_parse (λ _, 0) x_ff x_et Some id x_cfg sts ∧
  x_serve_all sts0 [x_post1; x_get (str "select count(*) where k='a'"); x_post2] = (sts, rs) ∧
  x_serve sts (x_get (str "select count(*) where k='a'")) = (sts, Resp 200 (str "k=a" ++ [10] ++ str "count(*)=" ++ [fbits (f_of_Z 2)] ++ [10])) ∧
  x_serve sts (x_get (str "select mean(h) where k='a'")) = (sts, Resp 200 (str "k=a" ++ [10] ++ str "mean(h)=" ++ [fbits (f_of_Z 4)] ++ [10])).
Proof.
  destruct x_start as (sts0 & H0 & Ers). destruct (x_serve_all sts0 _) as [sts rs] eqn:E. cbn [snd] in Ers. exists sts0, sts, rs.
  assert (Forall request_ok [x_post1; x_get (str "select count(*) where k='a'"); x_post2]) as Hr by (apply Forall_forall; exact x_req_ok).
  pose proof (x_posted rs Ers) as Hp. destruct x_words as (Hk & Hv & Hw & Hh & Ht).
  split; [exact H0|]. split; [exists sts0, [x_post1; x_get (str "select count(*) where k='a'"); x_post2], rs; split; [exact H0|]; split; [exact Hr|exact E]|]. split; [exact E|]. split.
  - etransitivity; [apply (C56_count_partial int_parse (λ _, 0) x_ff x_et Some id x_cfg sts0 _ sts rs x_rows 128 x_schema (x_get (str "select count(*) where k='a'")) (str "k") (str "a") x_cfg_ok H0 Hr E Hp x_installed Ht
      eq_refl ltac:(discriminate) (λ l, reflexivity l) Hk Hv Hw)|apply (f_equal (pair sts)); vm_compute; reflexivity].
    + split; [left|]. split; [done|]. split; [done|]. reflexivity.
    + exact x_is_key.
    + exact x_no_collision.
    + apply x_readable. cbn. lia.
  - etransitivity; [apply (C70_stats_partial int_parse (λ _, 0) x_ff x_et Some id x_cfg sts0 _ sts rs x_rows 128 x_schema (x_get (str "select mean(h) where k='a'")) (str "k") (str "a") (str "h") MMean
       (mean_spec (field_floats int_parse (str "h") (filter (λ r, value_of (str "k") (row_data r) = Some (str "a")) x_rows))) x_cfg_ok H0 Hr E Hp x_installed Ht
      eq_refl (λ l, reflexivity l) Hk Hv Hw Hh)|apply (f_equal (pair sts)); vm_compute; reflexivity].
    + eexists. split; [left|]. split; [done|left].
    + split; [left|]. split; [done|]. split; [done|]. reflexivity.
    + exact x_is_key.
    + exact x_no_collision.
    + apply x_readable. change (c_size (Compile x_schema)) with 40. lia.
    + right. left. split; reflexivity.
Qed.
Print Assumptions server_nonvacuous.

(** C56_refuted on this server: a key that hashes to slot 0 has count 0, one that
    hashes to the last slot no answer *)
Definition x_post (b : bytes) : request := MkRequest (str "POST") (str "/obs") false [] x_form [EvData b] None.
Example C56_refuted_run : ∃ sts0, initial x_cfg sts0 ∧
  (x_serve_all sts0 [x_post (str "7 k=v37"); x_get (str "select count(*) where k='v37'")]).2 =
   [Resp 200 []; Resp 200 (str "k=v37" ++ [10] ++ str "count(*)=" ++ [fbits (f_of_Z 0)] ++ [10])] ∧
  (x_serve_all sts0 [x_post (str "7 k=v333"); x_get (str "select count(*) where k='v333'")]).2 = [Resp 200 []; Aborted].
Proof.
  destruct (add_collation 128 x_schema) as [st|e|] eqn:E; [|exfalso; vm_compute in E; discriminate..]. exists [st]. split; [by constructor|].
  assert ([st] = match add_collation 128 x_schema with Ok st => [st] | _ => [] end) as -> by (by rewrite E). vm_compute. done.
Qed.
(** C67 refuted at the edge: the same 65536 bytes, posted twice.  If the body's
    end is reported together with its last bytes the row is stored, if it is
    reported by a read of its own the post is refused. *)
Definition x_edge : bytes := str "1 k=" ++ replicate (Z.to_nat 65532) 97.
Lemma x_tokens1 : tokens [EvData x_edge] = Some ([], Some ErrTooLong).
Proof. vm_compute. reflexivity. Qed.
Lemma x_tokens2 : tokens [EvDataEOF x_edge] = Some ([x_edge], None).
Proof.
  assert (match tokens [EvDataEOF x_edge] with Some ([l], None) => bool_decide (l = x_edge) | _ => false end = true) as H by (vm_compute; reflexivity).
  revert H. generalize (tokens [EvDataEOF x_edge]). generalize x_edge. intros x o H. destruct o as [[[|l [|? ?]] [e|]]|]; try discriminate H. apply bool_decide_eq_true in H. subst l. reflexivity.
Qed.
Lemma x_edge_nl : 10 ∉ x_edge ∧ no_cr_end x_edge ∧ x_edge ≠ [].
Proof.
  split; [|split].
  - assert (bool_decide (10 ∈ x_edge) = false) as H by (vm_compute; reflexivity). revert H. generalize x_edge. intros x H. by apply bool_decide_eq_false in H.
  - unfold no_cr_end. assert (match last x_edge with Some 13 => false | _ => true end = true) as H by (vm_compute; reflexivity). revert H. generalize x_edge. intros x H E. by rewrite E in H.
  - discriminate.
Qed.
Theorem C67_edge_refuted : yields [EvData x_edge] x_edge ErrEOF ∧ yields [EvDataEOF x_edge] x_edge ErrEOF ∧ text_of [x_edge] x_edge ∧
  let rq ev := MkRequest (str "POST") (str "/obs") false [] x_form [ev] None in
  ∀ sts sts', line_accepted int_parse sts x_edge sts' → x_serve sts (rq (EvData x_edge)) = (sts, http_error 500 (x_et ErrTooLong)) ∧ x_serve sts (rq (EvDataEOF x_edge)) = (sts', Resp 200 []).
Proof.
  generalize x_tokens1 x_tokens2 x_edge_nl. generalize x_edge. intros x E1 E2 (N1 & N2 & N3).
  split. { rewrite <- (app_nil_r x) at 2. constructor; [done|constructor]. }
  split; [constructor|]. split; [by apply tx_last|].
  intros rq sts sts' (r & Hp & HF).
  assert (∀ ev, x_serve sts (rq ev) = recv_body int_parse x_et None sts [ev]) as Es by reflexivity.
  rewrite !Es. unfold recv_body. rewrite E1, E2. split; [reflexivity|]. cbn [recv_lines ctx_done]. rewrite Hp.
  assert (write_stores int_parse None sts r = (sts', None, Ret (Ok ()))) as ->; [|done].
  clear -HF. induction HF as [|st st' sts sts' H HF IH]; [done|]. cbn [write_stores]. rewrite H, IH. done.
Qed.
Print Assumptions C67_edge_refuted.
