(** Property C91: max, min and uniquecount, end to end.  For all parse_float,
    estimate, formatting, error text and media type functions. *)
From Coq Require Import ZifyBool ZifyNat.
From Verif Require Import Base BaseProofs Float64 FnvModel FnvSpec FnvProofs HllModel HllSpec CollationModel CollationSpec CollationProofs CollationLayout CollationTop CollationTop2 CollationProps DemoModel
  BufmapModel BufmapSpec BufmapProofs BufmapTop QueryModel QuerySpec ServerModel ServerSpec ScanProofs ParseRowProofs ServerProofs StoreProofs ServerInv ServerTop ServerAnswers ServerProps ServerDemo ServerHomeSpec StoreHome ServerHome.
Local Open Scope Z_scope.

Section props.
Context (pf : bytes → option float) (est : Counter → Z) (ff : float → bytes) (et : error → bytes) (pm : bytes → option bytes) (order : list FM → list FM).
Notation serve := (ServeHTTP pf est ff et pm order).
Notation serve_all := (serve_all pf est ff et pm order).

Lemma measure_names : name_ok (str "max") ∧ name_ok (str "min") ∧ name_ok (str "uniquecount").
Proof. repeat split; try done; apply (bool_decide_unpack _); vm_compute; done. Qed.
Lemma reader_end s f m g : schema_ok s → reader_of (Compile s) f m = Some g → g_high g ≤ c_size (Compile s).
Proof.
  intros Hs Hg. destruct (Compile_inv s Hs) as (cs & Hi & _). destruct (i_read _ _ _ Hi f m g) as (_ & kk & m' & Hin & _); [exact Hg|]. by destruct (laid_bounds _ _ _ _ _ (i_laid _ _ _ Hi) Hin) as (_ & _ & _ & ?).
Qed.
Lemma posted_rows_ok c sts0 rqs sts rs rows l s : cfg_ok c → initial c sts0 → Forall request_ok rqs → serve_all sts0 rqs = (sts, rs) → posted pm rqs rs rows → installed c l s → Forall row_ok rows.
Proof.
  intros Hc H0 Hr E Hp Hins.
  destruct (history_q pf est ff et pm order (λ _ _ _ rows, Forall row_ok rows)
    (λ _ _ _ r _ rows _ _ Hr _ H, proj2 (Forall_app _ _ _) (conj H (proj2 (Forall_singleton _ r) Hr))) (λ _ _ _ _ _ _, List.Forall_nil _)
    _ _ _ _ _ _ _ _ Hc H0 Hr E Hp Hins) as (? & ? & ? & _ & _ & _ & H). exact H.
Qed.

(** The answer to "select max(f) where key='v'" is the greatest value of f in the
    posted rows with key=v, and the answer for min the least.  Partial: the record
    of key=v is not pushed out of its home slot by another key, that slot can be
    read (see C33), no other key of a posted row has the same hash, and the first of those
    rows has exactly one f (see C28). *)
Theorem C91_max_partial c sts0 rqs sts rs rows l s rq key v f r0 rest : cfg_ok c → initial c sts0 → Forall request_ok rqs → serve_all sts0 rqs = (sts, rs) → posted pm rqs rs rows →
  installed c l s → plain_name (s_name s) → s_keys s = [key] → map_order order → key_ok key → value_ok v → ¬ has_where (crit_item (key, v)) → name_ok f → field_measure s f MMax →
  coll_query rq (s_name s) (str "select max(" ++ f ++ str ") where " ++ key ++ str "='" ++ v ++ str "'") →
  let k := fnv1_spec (key ++ v) in is_key k → no_collision [key] [MkFV key v] rows → undisturbed l s k rows → home_readable l (c_size (Compile s)) (c_size (Compile s)) k →
  let mine := filter (λ r, value_of key (row_data r) = Some v) rows in
  mine = r0 :: rest → has_once f r0 → Forall (λ x, fisnan x = false) (field_floats pf f mine) →
  ∃ value, is_max value (field_floats pf f mine) ∧
  serve sts rq = (sts, Resp 200 (key ++ str "=" ++ v ++ [10] ++ str "max(" ++ f ++ str ")=" ++ ff value ++ [10])).
Proof.
  intros Hc H0 Hr E Hp Hins Hpn Hkeys Ho Hk Hv Hw Hf Hm Hq k Hkey Hcol Hu Hread mine Hmine Hone Hnan.
  assert (schema_ok s) as Hs. { destruct Hins as (ca & cb & -> & _). apply Forall_app in Hc as [_ Hc]. inversion_clear Hc as [|? ? [? _] _]. done. }
  destruct (home_answer pf est ff et pm order c sts0 rqs sts rs rows l s rq key v (str "max") f _ Hc H0 Hr E Hp Hins Hpn Hkeys Ho (proj1 measure_names) Hf Hk Hv Hw Hq Hkey Hcol Hu Hread (λ g, reader_end s f _ g Hs)) as (buf & Hafter & Hserve).
  { fold mine. rewrite Hmine. done. }
  fold mine in Hafter. rewrite Hmine in Hafter, Hnan |- *. destruct (max_answer pf est s f r0 rest buf Hs Hm Hone Hafter Hnan) as (value & Hans & Hmax).
  exists value. split; [exact Hmax|]. rewrite (Hserve _ Hans). unfold FMV_String. cbn [r_M r_F r_V]. by rewrite <- !app_assoc.
Qed.
Theorem C91_min_partial c sts0 rqs sts rs rows l s rq key v f r0 rest : cfg_ok c → initial c sts0 → Forall request_ok rqs → serve_all sts0 rqs = (sts, rs) → posted pm rqs rs rows →
  installed c l s → plain_name (s_name s) → s_keys s = [key] → map_order order → key_ok key → value_ok v → ¬ has_where (crit_item (key, v)) → name_ok f → field_measure s f MMin →
  coll_query rq (s_name s) (str "select min(" ++ f ++ str ") where " ++ key ++ str "='" ++ v ++ str "'") →
  let k := fnv1_spec (key ++ v) in is_key k → no_collision [key] [MkFV key v] rows → undisturbed l s k rows → home_readable l (c_size (Compile s)) (c_size (Compile s)) k →
  let mine := filter (λ r, value_of key (row_data r) = Some v) rows in
  mine = r0 :: rest → has_once f r0 → Forall (λ x, fisnan x = false) (field_floats pf f mine) →
  ∃ value, is_min value (field_floats pf f mine) ∧
  serve sts rq = (sts, Resp 200 (key ++ str "=" ++ v ++ [10] ++ str "min(" ++ f ++ str ")=" ++ ff value ++ [10])).
Proof.
  intros Hc H0 Hr E Hp Hins Hpn Hkeys Ho Hk Hv Hw Hf Hm Hq k Hkey Hcol Hu Hread mine Hmine Hone Hnan.
  assert (schema_ok s) as Hs. { destruct Hins as (ca & cb & -> & _). apply Forall_app in Hc as [_ Hc]. inversion_clear Hc as [|? ? [? _] _]. done. }
  destruct (home_answer pf est ff et pm order c sts0 rqs sts rs rows l s rq key v (str "min") f _ Hc H0 Hr E Hp Hins Hpn Hkeys Ho (proj1 (proj2 measure_names)) Hf Hk Hv Hw Hq Hkey Hcol Hu Hread (λ g, reader_end s f _ g Hs)) as (buf & Hafter & Hserve).
  { fold mine. rewrite Hmine. done. }
  fold mine in Hafter. rewrite Hmine in Hafter, Hnan |- *. destruct (min_answer pf est s f r0 rest buf Hs Hm Hone Hafter Hnan) as (value & Hans & Hmin).
  exists value. split; [exact Hmin|]. rewrite (Hserve _ Hans). unfold FMV_String. cbn [r_M r_F r_V]. by rewrite <- !app_assoc.
Qed.
(** The answer to "select uniquecount(f) where key='v'" is the estimate of a
    counter of the declared precision to which exactly the values of f in the posted
    rows with key=v were added. *)
Theorem C91_uniquecount_partial c sts0 rqs sts rs rows l s rq key v f p r0 rest : cfg_ok c → initial c sts0 → Forall request_ok rqs → serve_all sts0 rqs = (sts, rs) → posted pm rqs rs rows →
  installed c l s → plain_name (s_name s) → s_keys s = [key] → map_order order → key_ok key → value_ok v → ¬ has_where (crit_item (key, v)) → name_ok f →
  field_measure s f (MCardinality p) → (∀ p', field_measure s f (MCardinality p') → p' = p) →
  coll_query rq (s_name s) (str "select uniquecount(" ++ f ++ str ") where " ++ key ++ str "='" ++ v ++ str "'") →
  let k := fnv1_spec (key ++ v) in is_key k → no_collision [key] [MkFV key v] rows → undisturbed l s k rows → home_readable l (c_size (Compile s)) (c_size (Compile s)) k →
  let mine := filter (λ r, value_of key (row_data r) = Some v) rows in
  mine = r0 :: rest → has_once f r0 →
  ∃ c0 ctr, Hll_New p = Ok c0 ∧ Hll_Adds c0 (field_values f mine) = Ok ctr ∧
  serve sts rq = (sts, Resp 200 (key ++ str "=" ++ v ++ [10] ++ str "uniquecount(" ++ f ++ str ")=" ++ ff (f_of_Z (est ctr)) ++ [10])).
Proof.
  intros Hc H0 Hr E Hp Hins Hpn Hkeys Ho Hk Hv Hw Hf Hm Hone' Hq k Hkey Hcol Hu Hread mine Hmine Hone.
  assert (schema_ok s) as Hs. { destruct Hins as (ca & cb & -> & _). apply Forall_app in Hc as [_ Hc]. inversion_clear Hc as [|? ? [? _] _]. done. }
  destruct (home_answer pf est ff et pm order c sts0 rqs sts rs rows l s rq key v (str "uniquecount") f _ Hc H0 Hr E Hp Hins Hpn Hkeys Ho (proj2 (proj2 measure_names)) Hf Hk Hv Hw Hq Hkey Hcol Hu Hread (λ g, reader_end s f _ g Hs)) as (buf & Hafter & Hserve).
  { fold mine. rewrite Hmine. done. }
  assert (Forall is_bytes (field_values f mine)) as Hb.
  { pose proof (posted_rows_ok _ _ _ _ _ _ _ _ Hc H0 Hr E Hp Hins) as Hrows. apply Forall_forall. intros x Hx. unfold field_values in Hx. apply elem_of_list_bind in Hx as (r & Hx & Hin).
    apply elem_of_list_fmap in Hx as (fv & -> & Hfv). apply elem_of_list_filter in Hfv as [_ Hfv]. apply elem_of_list_filter in Hin as [_ Hin].
    rewrite Forall_forall in Hrows. specialize (Hrows r Hin). unfold row_ok in Hrows. rewrite Forall_forall in Hrows. by apply Hrows. }
  fold mine in Hafter. rewrite Hmine in Hafter, Hb |- *. destruct (card_answer pf est s f p r0 rest buf Hs Hm Hone' Hone Hb Hafter) as (c0 & ctr & Hn & Ha & Hans).
  exists c0, ctr. split; [exact Hn|]. split; [exact Ha|]. rewrite (Hserve _ Hans). unfold FMV_String. cbn [r_M r_F r_V]. by rewrite <- !app_assoc.
Qed.
End props.

(** ** a concrete server *)
Definition y_schema : Schema := MkSchema (str "t") [str "k"] [MkMS (str "h") [MMax; MMin; MCardinality 4]] [RCount].
Definition y_cfg : list (Z * Schema) := [(128, y_schema)].
Definition y_est (c : Counter) : Z := 7.
Notation y_serve := (ServeHTTP int_parse y_est x_ff x_et Some id).
Notation y_serve_all := (serve_all int_parse y_est x_ff x_et Some id).
Definition y_body : bytes := str "1 k=a h=3" ++ [10] ++ str "2 k=c h=9" ++ [10] ++ str "3 k=a h=5" ++ [10].
Definition y_rows : list Row := [MkRow 1000 [MkFV (str "k") (str "a"); MkFV (str "h") (str "3")]; MkRow 2000 [MkFV (str "k") (str "c"); MkFV (str "h") (str "9")]; MkRow 3000 [MkFV (str "k") (str "a"); MkFV (str "h") (str "5")]].
Lemma y_cfg_ok : cfg_ok y_cfg.
Proof. constructor; [|constructor]. split; [repeat constructor; simpl; lia|]. vm_compute. repeat split; discriminate. Qed.
Lemma y_installed : installed y_cfg 128 y_schema.
Proof. exists [], []. split; [done|constructor]. Qed.
Lemma y_new : ∃ st, add_collation 128 y_schema = Ok st.
Proof.
  assert (match add_collation 128 y_schema with Ok _ => true | _ => false end = true) as H by (vm_cast_no_check (eq_refl true)). destruct (add_collation 128 y_schema) as [st| |]; [by exists st|done..].
Qed.
Lemma y_start : ∃ sts0, initial y_cfg sts0 ∧ (y_serve_all sts0 [x_post y_body]).2 = [Resp 200 []].
Proof.
  destruct y_new as [st E]. exists [st]. split; [by constructor|].
  assert ([st] = match add_collation 128 y_schema with Ok st => [st] | _ => [] end) as -> by (by rewrite E). vm_cast_no_check (eq_refl [Resp 200 []]).
Qed.
Lemma y_req_ok : Forall request_ok [x_post y_body].
Proof.
  apply Forall_singleton. split; [|intros n; constructor]. constructor; [|constructor]. apply Forall_forall. intros c Hc.
  assert (forallb (λ c, (0 <=? c) && (c <? 256)) y_body = true) as H by (vm_compute; reflexivity). rewrite forallb_forall in H. apply elem_of_list_In, H in Hc. unfold is_byte in *; lia.
Qed.
Lemma y_posted : posted Some [x_post y_body] [Resp 200 []] y_rows.
Proof.
  assert (∀ c (l : bytes), bool_decide (c ∈ l) = false → c ∉ l) as Hn by (intros c l H; by apply bool_decide_eq_false in H).
  apply (po_post _ _ y_body [str "1 k=a h=3"; str "2 k=c h=9"; str "3 k=a h=5"] y_rows [] [] []); [| | |constructor].
  - repeat split; try done; [by apply x_short|]. right. split; [right; left|]. rewrite <- (app_nil_r y_body) at 2. apply y_data; [done|constructor].
  - apply (tx_lf (str "1 k=a h=3")); [apply Hn; vm_compute; reflexivity|done|]. apply (tx_lf (str "2 k=c h=9")); [apply Hn; vm_compute; reflexivity|done|].
    apply (tx_lf (str "3 k=a h=5") [] []); [apply Hn; vm_compute; reflexivity|done|constructor].
  - repeat (constructor; [vm_compute; reflexivity|]). constructor.
Qed.
Lemma y_in r : r ∈ y_rows → r = MkRow 1000 [MkFV (str "k") (str "a"); MkFV (str "h") (str "3")] ∨ r = MkRow 2000 [MkFV (str "k") (str "c"); MkFV (str "h") (str "9")] ∨ r = MkRow 3000 [MkFV (str "k") (str "a"); MkFV (str "h") (str "5")].
Proof. unfold y_rows. rewrite !elem_of_cons, elem_of_nil. naive_solver. Qed.
Lemma y_no_collision : no_collision [str "k"] [MkFV (str "k") (str "a")] y_rows.
Proof. intros r Hr E. destruct (y_in r Hr) as [->|[->| ->]]; [by repeat constructor| |by repeat constructor]. exfalso. vm_compute in E. discriminate. Qed.
Lemma y_undisturbed : undisturbed 128 y_schema (fnv1_spec (str "k" ++ str "a")) y_rows.
Proof.
  intros r k' Hr Hk Hne. destruct (y_in r Hr) as [->|[->| ->]].
  - exfalso. apply Hne. vm_compute in Hk. injection Hk as <-. vm_compute. reflexivity.
  - vm_compute in Hk. injection Hk as <-. apply (bool_decide_unpack _). vm_compute. done.
  - exfalso. apply Hne. vm_compute in Hk. injection Hk as <-. vm_compute. reflexivity.
Qed.
Lemma y_readable : home_readable 128 (c_size (Compile y_schema)) (c_size (Compile y_schema)) (fnv1_spec (str "k" ++ str "a")).
Proof. vm_compute. split; discriminate. Qed.
Definition y_first : Row := MkRow 1000 [MkFV (str "k") (str "a"); MkFV (str "h") (str "3")].
Definition y_rest : list Row := [MkRow 3000 [MkFV (str "k") (str "a"); MkFV (str "h") (str "5")]].
Lemma y_mine : filter (λ r, value_of (str "k") (row_data r) = Some (str "a")) y_rows = y_first :: y_rest.
Proof. vm_compute. reflexivity. Qed.
Lemma y_once : has_once (str "h") y_first.
Proof. vm_compute. reflexivity. Qed.
(** all hypotheses of the three theorems hold of this server after the post *)
Example C91_nonvacuous : ∃ sts0 sts rs, initial y_cfg sts0 ∧ y_serve_all sts0 [x_post y_body] = (sts, rs) ∧
  (∃ value, is_max value (field_floats int_parse (str "h") [MkRow 1000 [MkFV (str "k") (str "a"); MkFV (str "h") (str "3")]; MkRow 3000 [MkFV (str "k") (str "a"); MkFV (str "h") (str "5")]]) ∧
     y_serve sts (x_get (str "select max(h) where k='a'")) = (sts, Resp 200 (str "k=a" ++ [10] ++ str "max(h)=" ++ x_ff value ++ [10]))) ∧
  (∃ value, is_min value (field_floats int_parse (str "h") [MkRow 1000 [MkFV (str "k") (str "a"); MkFV (str "h") (str "3")]; MkRow 3000 [MkFV (str "k") (str "a"); MkFV (str "h") (str "5")]]) ∧
     y_serve sts (x_get (str "select min(h) where k='a'")) = (sts, Resp 200 (str "k=a" ++ [10] ++ str "min(h)=" ++ x_ff value ++ [10]))) ∧
  y_serve sts (x_get (str "select uniquecount(h) where k='a'")) = (sts, Resp 200 (str "k=a" ++ [10] ++ str "uniquecount(h)=" ++ x_ff (f_of_Z 7) ++ [10])).
Proof.
  destruct y_start as (sts0 & H0 & Ers). destruct (y_serve_all sts0 [x_post y_body]) as [sts rs] eqn:E. cbn [snd] in Ers. subst rs. exists sts0, sts, [Resp 200 []].
  split; [exact H0|]. split; [exact E|]. destruct x_words as (Hk & Hv & Hw & Hh & Ht).
  assert (∀ t, coll_query (x_get t) (s_name y_schema) t) as Hq by (intros t; split; [left|]; split; [done|]; split; [done|]; reflexivity).
  assert (∀ m, m ∈ [MMax; MMin; MCardinality 4] → field_measure y_schema (str "h") m) as Hm. { intros m Hm. eexists. split; [left|]. split; [done|exact Hm]. }
  assert (Forall (λ x, fisnan x = false) (field_floats int_parse (str "h") (filter (λ r, value_of (str "k") (row_data r) = Some (str "a")) y_rows))) as Hn.
  { assert (forallb (λ x, negb (fisnan x)) (field_floats int_parse (str "h") (filter (λ r, value_of (str "k") (row_data r) = Some (str "a")) y_rows)) = true) as Hb by (vm_cast_no_check (eq_refl true)).
    apply Forall_forall. intros x Hx. apply elem_of_list_In in Hx. rewrite forallb_forall in Hb. apply Hb in Hx. by destruct (fisnan x). }
  split; [|split].
  - destruct (C91_max_partial int_parse y_est x_ff x_et Some id y_cfg sts0 [x_post y_body] sts [Resp 200 []] y_rows 128 y_schema (x_get (str "select max(h) where k='a'")) (str "k") (str "a") (str "h")
      y_first y_rest y_cfg_ok H0 y_req_ok E y_posted y_installed Ht eq_refl (λ l, reflexivity l) Hk Hv Hw Hh (Hm MMax ltac:(repeat constructor)) (Hq _) x_is_key y_no_collision y_undisturbed y_readable y_mine y_once Hn) as (value & H1 & H2).
    rewrite y_mine in H1. exists value. split; [exact H1|exact H2].
  - destruct (C91_min_partial int_parse y_est x_ff x_et Some id y_cfg sts0 [x_post y_body] sts [Resp 200 []] y_rows 128 y_schema (x_get (str "select min(h) where k='a'")) (str "k") (str "a") (str "h")
      y_first y_rest y_cfg_ok H0 y_req_ok E y_posted y_installed Ht eq_refl (λ l, reflexivity l) Hk Hv Hw Hh (Hm MMin ltac:(repeat constructor)) (Hq _) x_is_key y_no_collision y_undisturbed y_readable y_mine y_once Hn) as (value & H1 & H2).
    rewrite y_mine in H1. exists value. split; [exact H1|exact H2].
  - destruct (C91_uniquecount_partial int_parse y_est x_ff x_et Some id y_cfg sts0 [x_post y_body] sts [Resp 200 []] y_rows 128 y_schema (x_get (str "select uniquecount(h) where k='a'")) (str "k") (str "a") (str "h") 4
      y_first y_rest y_cfg_ok H0 y_req_ok E y_posted y_installed Ht eq_refl (λ l, reflexivity l) Hk Hv Hw Hh (Hm (MCardinality 4) ltac:(repeat constructor))) as (c0 & ctr & _ & _ & Hs); [|exact (Hq _)|exact x_is_key|exact y_no_collision|exact y_undisturbed|exact y_readable|exact y_mine|exact y_once|exact Hs].
    intros p (ms & Hms & _ & Hp). apply elem_of_list_singleton in Hms as ->. cbn in Hp. rewrite !elem_of_cons, elem_of_nil in Hp. destruct Hp as [Hp|[Hp|[Hp|[]]]]; congruence.
Qed.
(** Refuted when another key has the slot: k=bg and k=a hash to the same slot of
    128, bg comes first; the maximum over the rows of k=a with h=7 and h=3 is answered
    as 3, the minimum over h=3 and h=7 as 7. *)
Theorem C91_refuted : ∃ sts0, initial y_cfg sts0 ∧
  (y_serve_all sts0 [x_post (str "1 k=bg h=9" ++ [10] ++ str "2 k=a h=7" ++ [10] ++ str "3 k=a h=3"); x_get (str "select max(h) where k='a'")]).2 =
    [Resp 200 []; Resp 200 (str "k=a" ++ [10] ++ str "max(h)=" ++ x_ff (f_of_Z 3) ++ [10])] ∧
  (y_serve_all sts0 [x_post (str "1 k=bg h=9" ++ [10] ++ str "2 k=a h=3" ++ [10] ++ str "3 k=a h=7"); x_get (str "select min(h) where k='a'")]).2 =
    [Resp 200 []; Resp 200 (str "k=a" ++ [10] ++ str "min(h)=" ++ x_ff (f_of_Z 7) ++ [10])].
Proof.
  destruct y_new as [st E]. exists [st]. split; [by constructor|].
  assert ([st] = match add_collation 128 y_schema with Ok st => [st] | _ => [] end) as -> by (by rewrite E). vm_compute. split; reflexivity.
Qed.
Print Assumptions C91_max_partial.
Print Assumptions C91_min_partial.
Print Assumptions C91_uniquecount_partial.
Print Assumptions C91_nonvacuous.
Print Assumptions C91_refuted.
