(** C104: a run with the real estimator.  Thirty rows with different values, in two
    posts: the answer falls from 39 to 37. *)
From Coq Require Import ZifyBool ZifyNat.
From Verif Require Import Base BaseProofs Float64 FnvModel FnvSpec FnvProofs HllModel HllSpec HllProofs HllCountModel HllCountSpec HllCountTop HllCountMore HllCountProps CollationModel CollationSpec CollationProofs CollationProps DemoModel
  BufmapModel BufmapSpec QueryModel QuerySpec ServerModel ServerSpec ServerProofs ServerTop ServerProps ServerDemo ServerHomeSpec ServerHomeProps ServerUniqueSpec ServerUniqueProps.
Local Open Scope Z_scope.

Definition u_schema : Schema := MkSchema (str "t") [str "k"] [MkMS (str "h") [MCardinality 6]] [RCount].
Definition u_cfg : list (Z * Schema) := [(256, u_schema)].
Definition u_line (v : bytes) : bytes := str "1 k=a h=" ++ v.
Definition u_row (v : bytes) : Row := MkRow 1000 [MkFV (str "k") (str "a"); MkFV (str "h") v].
Definition u_body (vs : list bytes) : bytes := mjoin (map (λ v, u_line v ++ [10]) vs).
Definition u_first : list bytes := take 29 decrease_items.
Definition u_last : list bytes := drop 29 decrease_items.
Definition u_query : request := x_get (str "select uniquecount(h) where k='a'").

Section demo.
Context (glog : float → float) (est : Counter → Z) (Hlog : log_ok glog) (Hest : is_Count glog est).
Notation u_serve := (ServeHTTP int_parse est x_ff x_et Some id).
Notation u_serve_all := (serve_all int_parse est x_ff x_et Some id).

Lemma u_cfg_ok : cfg_ok u_cfg.
Proof. constructor; [|constructor]. split; [repeat constructor; done|]. vm_compute. repeat split; discriminate. Qed.
Definition u_fine (vs : list bytes) : bool :=
  forallb (λ v, forallb is_byteb v && bool_decide (10 ∉ u_line v ∧ no_cr_end (u_line v)) && match parseRow (u_line v) with Ok (MkRow t [MkFV a b; MkFV c d]) => bool_decide (t = 1000 ∧ a = str "k" ∧ b = str "a" ∧ c = str "h" ∧ d = v) | _ => false end) vs.
Lemma u_text vs : u_fine vs = true → text_of (map u_line vs) (u_body vs) ∧ Forall2 (λ l r, parseRow l = Ok r) (map u_line vs) (map u_row vs) ∧ is_bytes (u_body vs).
Proof.
  unfold u_fine. rewrite forallb_forall. induction vs as [|v vs IH]; intros H; [split; [constructor|]; split; constructor|].
  destruct IH as (I1 & I2 & I3). { intros w Hw. apply H. by right. }
  specialize (H v (or_introl eq_refl)). apply andb_true_iff in H as [H H3]. apply andb_true_iff in H as [H1 H2]. apply bool_decide_eq_true in H2 as [H2 H4].
  destruct (parseRow (u_line v)) as [[t [|[a b] [|[c d] []]]]| |] eqn:Er; try done. apply bool_decide_eq_true in H3 as (-> & -> & -> & -> & ->).
  change (u_body (v :: vs)) with ((u_line v ++ [10]) ++ u_body vs). cbn [map]. split; [rewrite <- app_assoc; by apply tx_lf|]. split; [by constructor|].
  apply Forall_app. split; [|exact I3]. apply Forall_app. split; [|repeat constructor; done]. apply Forall_app. split; [repeat constructor; done|].
  apply Forall_forall. intros c Hc. rewrite forallb_forall in H1. apply elem_of_list_In, H1 in Hc. unfold is_byteb, is_byte in *. lia.
Qed.
Lemma u_fine_all : u_fine u_first = true ∧ u_fine u_last = true. Proof. split; vm_compute; reflexivity. Qed.
Lemma u_obs vs : u_body vs ≠ [] → Z.of_nat (length (u_body vs)) <? line_limit = true → obs_post Some (x_post (u_body vs)) (u_body vs).
Proof. intros Hne H. repeat split; try done; [apply x_short; lia|]. right. split; [right; left|]. rewrite <- (app_nil_r (u_body vs)) at 2. apply y_data; [exact Hne|constructor].
Qed.
Lemma u_posted1 : posted Some [x_post (u_body u_first)] [Resp 200 []] (map u_row u_first).
Proof.
  rewrite <- (app_nil_r (map u_row u_first)). apply (po_post _ _ (u_body u_first) (map u_line u_first)); [apply u_obs; [done|vm_compute; reflexivity]|apply u_text, u_fine_all|apply u_text, u_fine_all|constructor].
Qed.
Lemma u_posted2 r : posted Some [x_post (u_body u_first); u_query; x_post (u_body u_last)] [Resp 200 []; r; Resp 200 []] (map u_row decrease_items).
Proof.
  change (map u_row decrease_items) with (map u_row u_first ++ map u_row u_last ++ []).
  apply (po_post _ _ (u_body u_first) (map u_line u_first)); [apply u_obs; [done|vm_compute; reflexivity]|apply u_text, u_fine_all|apply u_text, u_fine_all|].
  apply po_other; [by left|]. apply (po_post _ _ (u_body u_last) (map u_line u_last)); [apply u_obs; [done|vm_compute; reflexivity]|apply u_text, u_fine_all|apply u_text, u_fine_all|constructor].
Qed.
Lemma u_mine vs : filter (λ r, value_of (str "k") (row_data r) = Some (str "a")) (map u_row vs) = map u_row vs.
Proof. induction vs as [|v vs IH]; [done|]. cbn [map]. rewrite filter_cons_True by done. by rewrite IH. Qed.
Lemma u_values vs : field_values (str "h") (map u_row vs) = vs.
Proof. induction vs as [|v vs IH]; [done|]. cbn [map]. unfold field_values in *. rewrite bind_cons, IH. done. Qed.
Lemma u_asked rqs sts vs : vs ≠ [] → Forall request_ok rqs → (∃ sts0 rs, initial u_cfg sts0 ∧ u_serve_all sts0 rqs = (sts, rs) ∧ posted Some rqs rs (map u_row vs)) →
  unique_asked int_parse est x_ff x_et Some id u_cfg rqs sts 256 u_schema u_query (str "k") (str "a") (str "h") 6 (map u_row vs).
Proof.
  intros Hne Hr (sts0 & rs & H0 & E & Hp). destruct x_words as (Hk & Hv & Hw & Hh & Ht). split.
  - exact u_cfg_ok.
  - exact Hr.
  - exists sts0, rs, (map u_row vs). split; [done|]. split; [done|]. split; [done|]. split; [|split].
    + intros r Hin _. apply elem_of_list_fmap in Hin as (w & -> & _). by repeat constructor.
    + intros r k' Hin Ek Hdiff. apply elem_of_list_fmap in Hin as (w & -> & _). destruct Hdiff. vm_compute in Ek. injection Ek as <-. vm_compute. reflexivity.
    + by rewrite u_mine.
  - exists [], []. split; [done|constructor].
  - exact Ht.
  - reflexivity.
  - intros l. reflexivity.
  - done.
  - split; [eexists; split; [left|]; split; [done|left]|]. intros p (ms & Hms & _ & Hp'). apply elem_of_list_singleton in Hms as ->. cbn in Hp'. apply elem_of_list_singleton in Hp'. congruence.
  - split; [left|]. split; [done|]. split; done.
  - exact x_is_key.
  - vm_compute. split; discriminate.
  - destruct vs as [|w vs]; [done|]. exists (u_row w), (map u_row vs). split; [done|]. vm_compute. reflexivity.
Qed.
Lemma u_new : ∃ st, add_collation 256 u_schema = Ok st.
Proof.
  assert (match add_collation 256 u_schema with Ok _ => true | _ => false end = true) as H by (vm_cast_no_check (eq_refl true)). destruct (add_collation 256 u_schema) as [st| |]; [by exists st|done..].
Qed.
Lemma u_run : ∃ sts0, initial u_cfg sts0 ∧ (u_serve_all sts0 [x_post (u_body u_first)]).2 = [Resp 200 []] ∧
  (u_serve_all sts0 [x_post (u_body u_first); x_post (u_body u_last)]).2 = [Resp 200 []; Resp 200 []].
Proof.
  destruct u_new as [st E]. exists [st]. split; [by constructor|].
  assert ([st] = match add_collation 256 u_schema with Ok st => [st] | _ => [] end) as -> by (by rewrite E). split; [vm_cast_no_check (eq_refl [Resp 200 []])|vm_cast_no_check (eq_refl [Resp 200 []; Resp 200 []])].
Qed.
Lemma u_ok : Forall request_ok [x_post (u_body u_first); u_query; x_post (u_body u_last)].
Proof.
  assert (∀ vs, u_fine vs = true → request_ok (x_post (u_body vs))) as Hp. { intros vs Hv. split; [|intros n; constructor]. constructor; [|constructor]. by apply u_text. }
  constructor; [apply Hp, u_fine_all|]. constructor; [|constructor; [apply Hp, u_fine_all|constructor]].
  split; [constructor|]. intros n. unfold u_query. cbn [rq_form x_get]. destruct (decide _); [|constructor].
  assert (Forall is_bytes [str "select uniquecount(h) where k='a'"]) as Hq by (apply all_bytes; vm_compute; reflexivity). by inversion Hq.
Qed.
(** One more row with a new value, and the answer falls: the real count goes from 29
    to 30, the answer from 39 to 37. *)
Theorem C104_decrease_refuted : ∃ sts0 sts, initial u_cfg sts0 ∧
  u_serve_all sts0 [x_post (u_body u_first); u_query; x_post (u_body u_last); u_query] =
    (sts, [Resp 200 []; unique_answer x_ff (str "k") (str "a") (str "h") 39; Resp 200 []; unique_answer x_ff (str "k") (str "a") (str "h") 37]).
Proof.
  destruct u_run as (sts0 & H0 & R1 & R2). exists sts0. cbn [serve_all] in *.
  destruct (u_serve sts0 (x_post (u_body u_first))) as [sts1 r1] eqn:E1. cbn [snd] in R1. injection R1 as ->.
  assert (u_serve sts1 u_query = (sts1, unique_answer x_ff (str "k") (str "a") (str "h") 39)) as Q1.
  { destruct (C104_count_partial int_parse glog est Hest x_ff x_et Some id u_cfg [x_post (u_body u_first)] sts1 256 u_schema u_query (str "k") (str "a") (str "h") 6 (map u_row u_first)) as (n & Hn & ->).
    - apply u_asked; [done|exact (Forall_take _ 1%nat _ u_ok)|]. exists sts0, [Resp 200 []]. split; [done|]. cbn [serve_all]. rewrite E1. split; [done|exact u_posted1].
    - rewrite u_values in Hn. by rewrite (C17_deterministic _ _ _ _ _ Hn (decrease_first glog Hlog)). }
  rewrite Q1. destruct (u_serve sts1 (x_post (u_body u_last))) as [sts2 r2] eqn:E2. cbn [snd] in R2. injection R2 as ->.
  assert (u_serve sts2 u_query = (sts2, unique_answer x_ff (str "k") (str "a") (str "h") 37)) as Q2.
  { destruct (C104_count_partial int_parse glog est Hest x_ff x_et Some id u_cfg [x_post (u_body u_first); u_query; x_post (u_body u_last)] sts2 256 u_schema u_query (str "k") (str "a") (str "h") 6 (map u_row decrease_items)) as (n & Hn & ->).
    - apply u_asked; [done|exact u_ok|]. eexists sts0, _. split; [done|]. cbn [serve_all]. rewrite E1, Q1, E2. split; [done|apply u_posted2].
    - rewrite u_values in Hn. by rewrite (C17_deterministic _ _ _ _ _ Hn (decrease_second glog Hlog)). }
  rewrite Q2. exists sts2. split; [exact H0|reflexivity].
Qed.
End demo.
(** the hypotheses of the theorems of ServerUniqueProps.v hold of this server: after the
    first post, inside of the linear range *)
Example unique_nonvacuous est : ∃ sts, unique_asked int_parse est x_ff x_et Some id u_cfg [x_post (u_body u_first)] sts 256 u_schema u_query (str "k") (str "a") (str "h") 6 (map u_row u_first) ∧
  buckets_hit 6 (field_values (str "h") (map u_row u_first)) = 29 ∧ Z.of_nat (length (field_values (str "h") (map u_row u_first))) < 2^6.
Proof.
  destruct (u_run est) as (sts0 & H0 & R1 & _). destruct (serve_all int_parse est x_ff x_et Some id sts0 [x_post (u_body u_first)]) as [sts rs] eqn:E. cbn [snd] in R1. subst rs.
  exists sts. split; [|rewrite u_values; split; vm_compute; reflexivity]. apply u_asked; [done|exact (Forall_take _ 1%nat _ u_ok)|]. exists sts0, [Resp 200 []]. split; [done|]. split; [done|exact u_posted1].
Qed.
Print Assumptions C104_decrease_refuted.
Print Assumptions unique_nonvacuous.
