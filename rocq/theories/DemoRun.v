(** C105: a run of the demo server meets the hypotheses of both theorems. *)
From Coq Require Import ZifyBool ZifyNat.
From Verif Require Import Base BaseProofs Float64 Stat64Spec FnvModel FnvSpec FnvProofs HllModel HllSpec CollationModel CollationSpec CollationProofs CollationTop CollationTop2 CollationProps DemoModel
  BufmapModel BufmapSpec BufmapProofs BufmapTop QueryModel QuerySpec QueryProofs QueryTop QueryProps ServerModel ServerSpec ScanProofs ParseRowProofs ServerProofs StoreProofs ServerInv ServerTop ServerAnswers ServerProps ServerDemo ServerHomeSpec StoreHome ServerHome ServerQuerySpec ServerQuery ServerQueryProps
  BufconcModel StoreConcModel ServerConcModel ProcessModel ProcessProofs ProcessProps DemoSpec DemoProps.
Local Open Scope Z_scope.
Definition e_lines : list bytes := [str "1 country=FR tz=CET height=7 iata=CDG"; str "2 country=FR tz=CET height=9 iata=NCE"; str "3 country=DE tz=CET height=9 iata=FRA"].
Definition e_body : bytes := mjoin (map (λ l, l ++ [10]) e_lines).
Definition e_row (t : Z) (c h i : bytes) : Row := MkRow t [MkFV (str "country") c; MkFV (str "tz") (str "CET"); MkFV (str "height") h; MkFV (str "iata") i].
Definition e_rows : list Row := [e_row 1000 (str "FR") (str "7") (str "CDG"); e_row 2000 (str "FR") (str "9") (str "NCE"); e_row 3000 (str "DE") (str "9") (str "FRA")].
Definition e_get (name q : bytes) : request := MkRequest (str "GET") (str "/collation/" ++ name) false [] (λ n, if decide (n = str "q") then q else []) [] None.
Definition e_ps : list (bytes * bytes) := [(str "count", str "*"); (str "max", str "height"); (str "uniquecount", str "iata"); (str "mean", str "iata")].
Definition e_text : bytes := str "select count(*), max(height) uniquecount(iata), mean(iata) where country='FR'".
Definition t_ps : list (bytes * bytes) := [(str "uniquecount", str "country"); (str "count", str "*")].
Definition t_text : bytes := str "select uniquecount(country), count(*) where tz='CET'".
Notation e_serve_all := (serve_all int_parse (λ _, 0) x_ff x_et Some id).
Ltac edec := apply (bool_decide_unpack _); vm_compute; done.
Lemma e_query : query_text e_ps [(str "country", str "FR")] e_text.
Proof.
  exists [], (str "select"), [32], (str "count(*), max(height) uniquecount(iata), mean(iata)"), [32], (str "where"), [32], (str "country='FR'"), [].
  split; [reflexivity|]. split; [constructor|]. split; [by left|]. split; [split; [done|]; edec|].
  split; [split|].
  - apply (sel_more (str "count", str "*") [44; 32]); [split; [done|]; edec|]. apply (sel_more (str "max", str "height") [32]); [split; [done|]; edec|].
    apply (sel_more (str "uniquecount", str "iata") [44; 32]); [split; [done|]; edec|]. apply (sel_one (str "mean", str "iata")).
  - repeat (constructor; [split; (split; [done|]; edec)|]). constructor.
  - split; [split; [done|]; edec|]. split; [done|]. split; [split; [done|]; edec|]. split; [|constructor].
    assert (crit_text [(str "country", str "FR")] (str "country='FR'")) as Hc by (apply (crit_one (str "country", str "FR"))).
    assert (Forall (λ p, key_ok p.1 ∧ value_ok p.2) [(str "country", str "FR")]) as Hq by (repeat (constructor; [split; (split; [done|]; edec)|]); constructor).
    split; [done|]. split; [done|]. apply (C57_simple_values [(str "country", str "FR")]); [done|done|]. repeat (constructor; [edec|]). constructor.
Qed.
Lemma t_query : query_text t_ps [(str "tz", str "CET")] t_text.
Proof.
  exists [], (str "select"), [32], (str "uniquecount(country), count(*)"), [32], (str "where"), [32], (str "tz='CET'"), [].
  split; [reflexivity|]. split; [constructor|]. split; [by left|]. split; [split; [done|]; edec|].
  split; [split|].
  - apply (sel_more (str "uniquecount", str "country") [44; 32]); [split; [done|]; edec|]. apply (sel_one (str "count", str "*")).
  - repeat (constructor; [split; (split; [done|]; edec)|]). constructor.
  - split; [split; [done|]; edec|]. split; [done|]. split; [split; [done|]; edec|]. split; [|constructor].
    assert (crit_text [(str "tz", str "CET")] (str "tz='CET'")) as Hc by (apply (crit_one (str "tz", str "CET"))).
    assert (Forall (λ p, key_ok p.1 ∧ value_ok p.2) [(str "tz", str "CET")]) as Hq by (repeat (constructor; [split; (split; [done|]; edec)|]); constructor).
    split; [done|]. split; [done|]. apply (C57_simple_values [(str "tz", str "CET")]); [done|done|]. repeat (constructor; [edec|]). constructor.
Qed.
Lemma e_posted : posted Some [x_post e_body] [Resp 200 []] e_rows.
Proof.
  assert (∀ c (l : bytes), bool_decide (c ∈ l) = false → c ∉ l) as Hn by (intros c l H; by apply bool_decide_eq_false in H).
  apply (po_post _ _ e_body e_lines e_rows [] [] []); [| | |constructor].
  - repeat split; try done; [by apply x_short|]. right. split; [right; left|]. rewrite <- (app_nil_r e_body) at 2. apply y_data; [done|constructor].
  - apply (tx_lf (str "1 country=FR tz=CET height=7 iata=CDG")); [apply Hn; vm_compute; reflexivity|done|]. apply (tx_lf (str "2 country=FR tz=CET height=9 iata=NCE")); [apply Hn; vm_compute; reflexivity|done|].
    apply (tx_lf (str "3 country=DE tz=CET height=9 iata=FRA") [] []); [apply Hn; vm_compute; reflexivity|done|constructor].
  - repeat (constructor; [vm_compute; reflexivity|]). constructor.
Qed.
Lemma e_in r : r ∈ e_rows → r = e_row 1000 (str "FR") (str "7") (str "CDG") ∨ r = e_row 2000 (str "FR") (str "9") (str "NCE") ∨ r = e_row 3000 (str "DE") (str "9") (str "FRA").
Proof. unfold e_rows. rewrite !elem_of_cons, elem_of_nil. naive_solver. Qed.
Lemma e_start : ∃ sts0, initial demo_cfg sts0 ∧ (e_serve_all sts0 [x_post e_body]).2 = [Resp 200 []].
Proof.
  assert (dims_ok 5000 (c_size (Compile country_schema)) ∧ dims_ok 5000 (c_size (Compile tz_schema))) as [D1 D2] by (vm_compute; split_and!; congruence).
  set (st1 := MkStore (MkMap 5000 (c_size (Compile country_schema)) (replicate (Z.to_nat 5000) (Slot 0 0 false)) (replicate (Z.to_nat (5000 * c_size (Compile country_schema))) 0)) (Compile country_schema)).
  set (st2 := MkStore (MkMap 5000 (c_size (Compile tz_schema)) (replicate (Z.to_nat 5000) (Slot 0 0 false)) (replicate (Z.to_nat (5000 * c_size (Compile tz_schema))) 0)) (Compile tz_schema)).
  exists [st1; st2]. split.
  - constructor; [|constructor; [|constructor]]; unfold add_collation; cbn [fst snd]; unfold demo_slots; rewrite New_ok by done; reflexivity.
  - vm_cast_no_check (eq_refl [Resp 200 []]).
Qed.
Lemma e_req_ok : Forall request_ok [x_post e_body].
Proof.
  apply Forall_singleton. split; [|intros n; constructor]. constructor; [|constructor]. apply Forall_forall. intros c Hc.
  assert (forallb (λ c, (0 <=? c) && (c <? 256)) e_body = true) as H by (vm_compute; reflexivity). rewrite forallb_forall in H. apply elem_of_list_In, H in Hc. unfold is_byte in *; lia.
Qed.
(** of e_ps, count, max and uniquecount are in the table of country, mean(iata) is not *)
Example demo_nonvacuous : ∃ sts,
  demo_asked int_parse (λ _, 0) x_ff x_et Some id (str "country") (str "country") [x_post e_body] sts e_rows (e_get (str "country") e_text) e_ps (str "FR") ∧
  900 ≤ fnv1_spec (str "country" ++ str "FR") mod 5000 ≤ 4984 ∧ works country_schema (str "country") (str "FR") e_rows (str "iata") ∧
  demo_asked int_parse (λ _, 0) x_ff x_et Some id (str "tz") (str "tz") [x_post e_body] sts e_rows (e_get (str "tz") t_text) t_ps (str "CET") ∧
  416 ≤ fnv1_spec (str "tz" ++ str "CET") mod 5000 ≤ 4978 ∧ works tz_schema (str "tz") (str "CET") e_rows (str "country").
Proof.
  destruct e_start as (sts0 & H0 & Ers). destruct (e_serve_all sts0 [x_post e_body]) as [sts rs] eqn:E. cbn [snd] in Ers. subst rs. exists sts.
  split; [split|split; [|split; [|split; [split|split]]]].
  - exact e_req_ok.
  - exists sts0, [Resp 200 []]. split; [exact H0|]. split; [exact E|exact e_posted].
  - exists e_text. split; [exact e_query|]. split; [left|]. split; [done|]. split; [done|]. reflexivity.
  - vm_compute. split; reflexivity.
  - intros r Hr Ek. destruct (e_in r Hr) as [->|[->| ->]]; [by repeat constructor|by repeat constructor|]. exfalso. vm_compute in Ek. discriminate.
  - vm_compute. discriminate.
  - vm_compute. split; discriminate.
  - split.
    + intros r k' Hr Hk Hne. destruct (e_in r Hr) as [->|[->| ->]]; [exfalso; apply Hne; vm_compute in Hk; injection Hk as <-; vm_compute; reflexivity..|]. vm_compute in Hk. injection Hk as <-. apply (bool_decide_unpack _). vm_compute. done.
    + eexists _, _. split; [reflexivity|]. vm_compute. reflexivity.
  - exact e_req_ok.
  - exists sts0, [Resp 200 []]. split; [exact H0|]. split; [exact E|exact e_posted].
  - exists t_text. split; [exact t_query|]. split; [left|]. split; [done|]. split; [done|]. reflexivity.
  - vm_compute. split; reflexivity.
  - intros r Hr Ek. destruct (e_in r Hr) as [->|[->| ->]]; by repeat constructor.
  - vm_compute. discriminate.
  - vm_compute. split; discriminate.
  - split.
    + intros r k' Hr Hk Hne. destruct (e_in r Hr) as [->|[->| ->]]; exfalso; apply Hne; vm_compute in Hk; injection Hk as <-; vm_compute; reflexivity.
    + eexists _, _. split; [reflexivity|]. vm_compute. reflexivity.
Qed.
Print Assumptions demo_nonvacuous.
