(** Concrete runs of the concurrent server: a case that meets the hypotheses of C93, C94
    and C95, and the run that refutes C95 where those of C95_max_partial do not hold. *)
From Coq Require Import ZifyBool ZifyNat.
From Verif Require Import Base BaseProofs Float64 FnvModel FnvSpec FnvProofs HllModel Stat64Spec CollationModel CollationSpec CollationProofs DemoModel BufmapModel BufmapSpec RegexpModel QueryModel QuerySpec BufconcModel BufconcSpec
  ServerModel ServerSpec ServerDemo ServerHomeSpec StoreConcModel StoreConcSpec StoreConcProps ServerConcModel ServerConcSpec ServerConcProps ServerConcMoreProps.
Local Open Scope Z_scope.

(** one collation of 32 slots: count( * ) and max(x) by k; two posts and two queries *)
Definition w_cfg : list (Z * Schema) := [(32, zschema)].
Definition w_impl (i : nat) : Row → bool → prog := zimpl.
Definition w_get (q : bytes) : request := MkRequest (str "GET") (str "/collation/s") false [] (λ n, if decide (n = str "q") then q else []) [] None.
Definition w_st (t n : nat) : list vaction := replicate n (VStep t).
Definition w_body0 : bytes := str "1 k=h x=5".
Definition w_body1 : bytes := str "2 k=h x=9" ++ [10] ++ str "3 k=h x=7".
Definition w_count : bytes := str "select count(*) where k='h'".
Definition w_max : bytes := str "select max(x) where k='h'".
Definition w_rqs : list request := [x_post w_body0; x_post w_body1; w_get w_count; w_get w_max].
Definition w_row (ts : Z) (x : bytes) : Row := MkRow ts [MkFV (str "k") (str "h"); MkFV (str "x") x].
Definition w_sent (t : nat) : list Row := match t with 0%nat => [w_row 1000 (str "5")] | 1%nat => [w_row 2000 (str "9"); w_row 3000 (str "7")] | _ => [] end.
Definition w_key : Z := fnv1_spec (str "k" ++ str "h").
(** both posts at the same time: the second overtakes the first inside Update *)
Definition w_race : list vaction := [VArrive 0] ++ w_st 0 3 ++ [VArrive 1] ++ w_st 1 90 ++ w_st 0 60 ++ [VArrive 3] ++ w_st 3 60 ++ [VArrive 2] ++ w_st 2 60.
(** the second post after the first, the count query in the middle of the second post *)
Definition w_run94 : list vaction := [VArrive 0] ++ w_st 0 60 ++ [VArrive 1] ++ w_st 1 40 ++ [VArrive 3; VArrive 2] ++ w_st 2 20 ++ w_st 3 20 ++ w_st 2 60 ++ w_st 1 60 ++ w_st 2 60 ++ w_st 3 60.

Lemma w_cfg_ok : cfg_ok w_cfg.
Proof. constructor; [|constructor]. split; [exact zschema_ok|exact zdims]. Qed.
Lemma w_impls_ok : impls_ok int_parse w_cfg w_impl.
Proof. intros [|i] l s E; [|by destruct i]. injection E as <- <-. exact zimpl_ok. Qed.
Lemma w_installed : installed w_cfg 32 zschema.
Proof. exists [], []. split; [done|constructor]. Qed.
Lemma w_bytes l : forallb (λ c, (0 <=? c) && (c <? 256)) l = true → is_bytes l.
Proof. intros H. apply Forall_forall. intros c Hc. rewrite forallb_forall in H. apply elem_of_list_In, H in Hc. unfold is_byte in *; lia. Qed.
Lemma w_req_ok : Forall request_ok w_rqs.
Proof.
  repeat apply Forall_cons_2; [..|constructor].
  1, 2: split; [constructor; [apply w_bytes; vm_compute; reflexivity|constructor]|intros n; constructor].
  1, 2: split; [constructor|]; intros n; cbn [rq_form w_get]; destruct (decide _); [apply w_bytes; vm_compute; reflexivity|constructor].
Qed.
Lemma w_accepted rs : take 2 rs = [Resp 200 []; Resp 200 []] → accepted Some w_rqs rs w_sent.
Proof.
  intros Hrs. destruct rs as [|a0 [|a1 rs]]; try done. injection Hrs as -> ->. assert (∀ c (l : bytes), bool_decide (c ∈ l) = false → c ∉ l) as Hn by (intros c l H; by apply bool_decide_eq_false in H).
  intros [|[|[|[|t]]]] rq L; try (injection L as <-); [right|right|left|left|done].
  - split; [done|]. exists w_body0, [w_body0]. split_and!; [repeat split; try done; [by apply x_short|]|apply tx_last; [done|apply Hn; vm_compute; reflexivity|done]|constructor; [vm_compute; reflexivity|constructor]].
    right. split; [right; left|]. rewrite <- (app_nil_r w_body0) at 2. apply y_data; [done|constructor].
  - split; [done|]. exists w_body1, [str "2 k=h x=9"; str "3 k=h x=7"]. split_and!; [repeat split; try done; [by apply x_short|]| |repeat (constructor; [vm_compute; reflexivity|]); constructor].
    + right. split; [right; left|]. rewrite <- (app_nil_r w_body1) at 2. apply y_data; [done|constructor].
    + apply (tx_lf (str "2 k=h x=9")); [apply Hn; vm_compute; reflexivity|done|]. apply tx_last; [done|apply Hn; vm_compute; reflexivity|done].
  - split; [left; intros H; by vm_compute in H|done].
  - split; [left; intros H; by vm_compute in H|done].
Qed.
Lemma w_in r : r ∈ rows_of w_sent (seq 0 4) → ∃ ts x, r = w_row ts x.
Proof. change (rows_of w_sent (seq 0 4)) with [w_row 1000 (str "5"); w_row 2000 (str "9"); w_row 3000 (str "7")]. rewrite !elem_of_cons, elem_of_nil. intros [->|[->|[->|[]]]]; eauto. Qed.
Lemma w_row_key ts x : record_key [str "k"] (row_data (w_row ts x)) = Some w_key.
Proof. unfold w_key. cbn. done. Qed.
Lemma w_no_collision : no_collision [str "k"] [MkFV (str "k") (str "h")] (rows_of w_sent (seq 0 4)).
Proof. intros r Hr _. destruct (w_in r Hr) as (ts & x & ->). by repeat constructor. Qed.
Lemma w_undisturbed : undisturbed 32 zschema w_key (rows_of w_sent (seq 0 4)).
Proof. intros r k' Hr Hk Hne. destruct (w_in r Hr) as (ts & x & ->). cbn [s_keys zschema] in Hk. rewrite w_row_key in Hk. assert (k' = w_key) as E by (symmetry; apply (f_equal (λ o, default 0 o)) in Hk; exact Hk). contradiction. Qed.
Lemma w_readable : home_readable 32 (c_size (Compile zschema)) (c_size (Compile zschema)) w_key.
Proof. vm_compute. split; discriminate. Qed.
Lemma w_key_pos : w_key ≠ 0.
Proof. vm_compute. discriminate. Qed.

(** ** cutting a history at the arrival and at the answer of a request *)
Fixpoint cut_begin (t : nat) (h : list vevent) : option (list vevent * list vevent) :=
  match h with [] => None | e :: h => match e with VBegin t' => if decide (t' = t) then Some ([], h) else match cut_begin t h with Some (a, b) => Some (e :: a, b) | None => None end
    | _ => match cut_begin t h with Some (a, b) => Some (e :: a, b) | None => None end end end.
Fixpoint cut_answer (t : nat) (h : list vevent) : option (list vevent * response * list vevent) :=
  match h with [] => None | e :: h => match e with VAnswer t' r => if decide (t' = t) then Some ([], r, h) else match cut_answer t h with Some (a, r, b) => Some (e :: a, r, b) | None => None end
    | _ => match cut_answer t h with Some (a, r, b) => Some (e :: a, r, b) | None => None end end end.
Lemma cut_begin_ok t h a b : cut_begin t h = Some (a, b) → h = a ++ VBegin t :: b.
Proof.
  revert a b. induction h as [|e h IH]; intros a b; [done|]. cbn. destruct e as [t'|j e|t' r]; [destruct (decide (t' = t)) as [->|]; [by intros [= <- <-]|]|..]; (destruct (cut_begin t h) as [[a' b']|]; [|done]; intros [= <- <-]; cbn; f_equal; by apply IH).
Qed.
Lemma cut_answer_ok t h a r b : cut_answer t h = Some (a, r, b) → h = a ++ VAnswer t r :: b.
Proof.
  revert a b. induction h as [|e h IH]; intros a b; [done|]. cbn. destruct e as [t'|j e|t' r']; [| |destruct (decide (t' = t)) as [->|]; [by intros [= <- <- <-]|]]; (destruct (cut_answer t h) as [[[a' r''] b']|]; [|done]; intros [= <- <- <-]; cbn; f_equal; by apply IH).
Qed.
(** what a run shows of request t: the responses of all requests, who had been answered
    before it arrived, who had arrived before it was answered, its answer, and who had
    arrived before request 0 was answered *)
Record view := MkView { vw_all : list (option response); vw_before : list nat; vw_until : list nat; vw_answer : response; vw_first : list nat }.
Definition w_new : list scfg := match New 32 (c_size (Compile zschema)) with Ok m => [MkS (MkCfg m (replicate 4 None)) (replicate 4 None)] | _ => [] end.
Definition w_exec (acts : list vaction) := vexec (λ _, 0) x_ff x_et Some id (map (λ ls : Z * Schema, Compile ls.2) w_cfg) w_impl w_rqs (MkV w_new (replicate 4 RWait)) acts.
Definition w_view (t : nat) (acts : list vaction) : option view :=
  let '(v, h) := w_exec acts in
  match cut_begin t h with Some (h1, b) => match cut_answer t b, cut_answer 0 h1 with Some (h2, r, _), Some (ha, _, _) =>
    Some (MkView (map (λ x, match x with RAnswered r => Some r | _ => None end) (v_reqs v)) (finished h1) (arrived (h1 ++ VBegin t :: h2)) r (arrived ha)) | _, _ => None end | None => None end.
Definition w_all (ra rb : response) : list (option response) := map Some [Resp 200 []; Resp 200 []; ra; rb].
Definition w_resp (name : bytes) (x : Z) : response := Resp 200 (str "k=h" ++ [10] ++ name ++ x_ff (f_of_Z x) ++ [10]).
Lemma w_view_run t acts rs vb vu va vf : w_view t acts = Some (MkView (map Some rs) vb vu va vf) →
  ∃ v h h1 h2 h3 ha r0 hb, vexecution (λ _, 0) x_ff x_et Some id w_cfg w_impl w_rqs acts v h ∧ answered v rs ∧ h = h1 ++ VBegin t :: h2 ++ VAnswer t va :: h3 ∧ finished h1 = vb ∧ arrived (h1 ++ VBegin t :: h2) = vu ∧
    h1 = ha ++ VAnswer 0 r0 :: hb ∧ arrived ha = vf.
Proof.
  unfold w_view. destruct (w_exec acts) as [v h] eqn:E. destruct (cut_begin t h) as [[h1 b]|] eqn:E1; [|done]. destruct (cut_answer t b) as [[[h2 r] h3]|] eqn:E2; [|done]. destruct (cut_answer 0 h1) as [[[ha r0] hb]|] eqn:E3; [|done].
  intros [= Hall <- <- <- <-]. apply cut_begin_ok in E1. apply cut_answer_ok in E2. apply cut_answer_ok in E3. exists v, h, h1, h2, h3, ha, r0, hb. split.
  - exists w_new. split; [|exact E]. unfold w_new. destruct (New 32 (c_size (Compile zschema))) as [m| |] eqn:Em; [|vm_compute in Em; discriminate..]. constructor; [|constructor]. exists m. split; [exact Em|reflexivity].
  - split; [|by subst]. unfold answered. clear -Hall. revert rs Hall. induction (v_reqs v) as [|x L IH]; intros [|r rs] H; cbn in *; try done. injection H as Hx H. rewrite (IH _ H). by destruct x; try done; injection Hx as ->.
Qed.
Lemma w_race_max : w_view 3 w_race = Some (MkView (w_all (w_resp (str "count(*)=") 3) (w_resp (str "max(x)=") 5)) [1%nat; 0%nat] [0%nat; 1%nat; 3%nat] (w_resp (str "max(x)=") 5) [0%nat; 1%nat]).
Proof. vm_compute. reflexivity. Qed.
Lemma w_run_count : w_view 2 w_run94 = Some (MkView (w_all (w_resp (str "count(*)=") 2) (w_resp (str "max(x)=") 9)) [0%nat] [0%nat; 1%nat; 3%nat; 2%nat] (w_resp (str "count(*)=") 2) [0%nat]).
Proof. vm_compute. reflexivity. Qed.
Lemma w_run_max : w_view 3 w_run94 = Some (MkView (w_all (w_resp (str "count(*)=") 2) (w_resp (str "max(x)=") 9)) [0%nat] [0%nat; 1%nat; 3%nat; 2%nat] (w_resp (str "max(x)=") 9) [0%nat]).
Proof. vm_compute. reflexivity. Qed.
Lemma w_query t : coll_query (w_get t) (s_name zschema) t.
Proof. split; [left|]. split; [done|]. split; [done|]. reflexivity. Qed.
Lemma w_words : key_ok (str "k") ∧ value_ok (str "h") ∧ ¬ has_where (crit_item (str "k", str "h")) ∧ name_ok (str "x") ∧ plain_name (str "s").
Proof.
  split; [exact (proj1 x_words)|]. split; [split; [done|]; change (str "h") with [104]; apply Forall_singleton; lia|]. split; [|split].
  - intros (a & c1 & w & c2 & b & E & H1 & _). apply (f_equal (λ l, bool_decide (Exists (λ c, c = 32 ∨ c = 9 ∨ c = 10 ∨ c = 11 ∨ c = 12 ∨ c = 13) l))) in E. vm_compute bool_decide at 1 in E. symmetry in E. apply bool_decide_eq_false in E. apply E. apply Exists_app. right. left.
    unfold is_ws in H1. rewrite !elem_of_cons, elem_of_nil in H1. lia.
  - split; [done|]. change (str "x") with [120]. apply Forall_singleton. unfold is_ws. rewrite !elem_of_cons, elem_of_nil. lia.
  - repeat split; try done. apply (bool_decide_unpack _). vm_compute. done.
Qed.
Lemma w_opened h1 ha r0 hb : h1 = ha ++ VAnswer 0 r0 :: hb → arrived ha = [0%nat] → opened w_sent (filter (λ r, value_of (str "k") (row_data r) = Some (str "h"))) h1 (w_row 1000 (str "5")).
Proof.
  intros E Ea. exists ha, 0%nat, r0, hb, []. split; [exact E|]. split; [vm_compute; reflexivity|]. rewrite Ea. intros t Ht Hne. apply elem_of_list_singleton in Ht. done.
Qed.
Lemma w_no_nan : Forall (λ x, fisnan x = false) (field_floats int_parse (str "x") (filter (λ r, value_of (str "k") (row_data r) = Some (str "h")) (rows_of w_sent (seq 0 4)))).
Proof.
  assert (forallb (λ x, negb (fisnan x)) (field_floats int_parse (str "x") (filter (λ r, value_of (str "k") (row_data r) = Some (str "h")) (rows_of w_sent (seq 0 4)))) = true) as Hb by (vm_cast_no_check (eq_refl true)).
  apply Forall_forall. intros x Hx. apply elem_of_list_In in Hx. rewrite forallb_forall in Hb. apply Hb in Hx. by destruct (fisnan x).
Qed.
(** a run with two posts and two queries that all overlap (after the first post) meets
    the hypotheses of C93_no_row_lost, C94_count_between_partial and C95_max_partial *)
Example server_conc_nonvacuous :
  (∃ v h rs, vexecution (λ _, 0) x_ff x_et Some id w_cfg w_impl w_rqs w_run94 v h ∧ answered v rs ∧ accepted Some w_rqs rs w_sent ∧
    rs = [Resp 200 []; Resp 200 []; w_resp (str "count(*)=") 2; w_resp (str "max(x)=") 9] ∧
    ∃ ord buf, map snd ord ≡ₚ [w_row 1000 (str "5"); w_row 2000 (str "9"); w_row 3000 (str "7")] ∧ stored v 0 w_key = Some buf ∧ apply_rows int_parse (Compile zschema) (replicate (Z.to_nat (c_size (Compile zschema))) 0) ord = Ok buf) ∧
  (∃ m, (1 ≤ m ≤ 3)%nat ∧ w_resp (str "count(*)=") 2 = Resp 200 (str "k" ++ str "=" ++ str "h" ++ [10] ++ str "count(*)=" ++ x_ff (f_of_Z (Z.of_nat m)) ++ [10])) ∧
  (∃ value, w_resp (str "max(x)=") 9 = Resp 200 (str "k" ++ str "=" ++ str "h" ++ [10] ++ str "max(" ++ str "x" ++ str ")=" ++ x_ff value ++ [10]) ∧
    value ∈ field_floats int_parse (str "x") [w_row 1000 (str "5"); w_row 2000 (str "9"); w_row 3000 (str "7")]).
Proof.
  destruct w_words as (Hk & Hv & Hw & Hx & Ht). split; [|split].
  - destruct (w_view_run 2 w_run94 [Resp 200 []; Resp 200 []; w_resp (str "count(*)=") 2; w_resp (str "max(x)=") 9] _ _ _ _ w_run_count) as (v & h & h1 & h2 & h3 & ha & r0 & hb & Ex & A & _).
    exists v, h, [Resp 200 []; Resp 200 []; w_resp (str "count(*)=") 2; w_resp (str "max(x)=") 9]. split; [exact Ex|]. split; [exact A|]. assert (accepted Some w_rqs [Resp 200 []; Resp 200 []; w_resp (str "count(*)=") 2; w_resp (str "max(x)=") 9] w_sent) as Ac by (by apply w_accepted).
    split; [exact Ac|]. split; [done|].
    assert (of_key zschema w_key (rows_of w_sent (seq 0 (length w_rqs))) = [w_row 1000 (str "5"); w_row 2000 (str "9"); w_row 3000 (str "7")]) as Eall by (vm_compute; reflexivity).
    destruct (C93_no_row_lost int_parse (λ _, 0) x_ff x_et Some id w_cfg w_impl w_cfg_ok w_impls_ok w_rqs w_run94 v h _ w_sent 0%nat 32 zschema w_key w_req_ok Ex A Ac eq_refl w_key_pos) as (ord & buf & H1 & H2 & H3 & _); [by rewrite Eall|].
    rewrite Eall in H1. exists ord, buf. split; [exact H1|]. split; [exact H2|exact H3].
  - destruct (w_view_run 2 w_run94 [Resp 200 []; Resp 200 []; w_resp (str "count(*)=") 2; w_resp (str "max(x)=") 9] _ _ _ _ w_run_count) as (v & h & h1 & h2 & h3 & ha & r0 & hb & Ex & A & Eh & E1 & E2 & _).
    destruct (C94_count_between_partial int_parse (λ _, 0) x_ff x_et Some id w_cfg w_impl w_cfg_ok w_impls_ok w_rqs w_run94 v h _ w_sent 32 zschema 2%nat (w_get w_count) (str "k") (str "h") h1 h2 (w_resp (str "count(*)=") 2) h3 w_req_ok Ex A (w_accepted [Resp 200 []; Resp 200 []; w_resp (str "count(*)=") 2; w_resp (str "max(x)=") 9] eq_refl)
      w_installed Ht eq_refl ltac:(discriminate) (λ l, reflexivity l) Hk Hv Hw eq_refl (w_query _) w_key_pos w_no_collision (or_intror (conj w_undisturbed w_readable)) ltac:(vm_compute; reflexivity) Eh) as (m & Hm & Hr). rewrite E1, E2 in Hm. exists m. split; [exact Hm|].
    destruct Hr as [Hr|[Hm0 _]]; [exact Hr|]. rewrite Hm0 in Hm. vm_compute in Hm. lia.
  - destruct (w_view_run 3 w_run94 [Resp 200 []; Resp 200 []; w_resp (str "count(*)=") 2; w_resp (str "max(x)=") 9] _ _ _ _ w_run_max) as (v & h & h1 & h2 & h3 & ha & r0 & hb & Ex & A & Eh & E1 & E2 & E3 & E4).
    destruct (C95_max_partial int_parse (λ _, 0) x_ff x_et Some id w_cfg w_impl w_cfg_ok w_impls_ok w_rqs w_run94 v h _ w_sent 32 zschema 3%nat (w_get w_max) (str "k") (str "h") (str "x") h1 h2 (w_resp (str "max(x)=") 9) h3 (w_row 1000 (str "5")) w_req_ok Ex A (w_accepted [Resp 200 []; Resp 200 []; w_resp (str "count(*)=") 2; w_resp (str "max(x)=") 9] eq_refl)
      w_installed Ht eq_refl (λ l, reflexivity l) Hk Hv Hw Hx) as (value & Hr & Hin & _).
    + eexists. split; [left|]. split; [done|left].
    + reflexivity.
    + exact (w_query _).
    + exact w_key_pos.
    + exact w_no_collision.
    + exact w_undisturbed.
    + exact w_readable.
    + vm_compute; reflexivity.
    + vm_compute; reflexivity.
    + exact w_no_nan.
    + exact Eh.
    + by eapply w_opened.
    + exists value. split; [exact Hr|]. rewrite E2 in Hin. exact Hin.
Qed.
(** C95 is false without the condition on the first post: two posts that create the
    record at the same time.  Both are answered 200, both before the query arrives; the
    query for the maximum of 5, 9 and 7 is answered with 5 (and the one for the count, with 3). *)
Theorem C95_refuted : ∃ acts v h rs h1 h2 h3, cfg_ok w_cfg ∧ impls_ok int_parse w_cfg w_impl ∧ Forall request_ok w_rqs ∧ vexecution (λ _, 0) x_ff x_et Some id w_cfg w_impl w_rqs acts v h ∧ answered v rs ∧ accepted Some w_rqs rs w_sent ∧
  undisturbed 32 zschema w_key (rows_of w_sent (seq 0 4)) ∧ home_readable 32 (c_size (Compile zschema)) (c_size (Compile zschema)) w_key ∧
  rows_of w_sent [0%nat; 1%nat] = [w_row 1000 (str "5"); w_row 2000 (str "9"); w_row 3000 (str "7")] ∧
  rs = [Resp 200 []; Resp 200 []; Resp 200 (str "k=h" ++ [10] ++ str "count(*)=" ++ x_ff (f_of_Z 3) ++ [10]); Resp 200 (str "k=h" ++ [10] ++ str "max(x)=" ++ x_ff (f_of_Z 5) ++ [10])] ∧
  h = h1 ++ VBegin 3 :: h2 ++ VAnswer 3 (Resp 200 (str "k=h" ++ [10] ++ str "max(x)=" ++ x_ff (f_of_Z 5) ++ [10])) :: h3 ∧ finished h1 = [1%nat; 0%nat].
Proof.
  destruct (w_view_run 3 w_race [Resp 200 []; Resp 200 []; w_resp (str "count(*)=") 3; w_resp (str "max(x)=") 5] _ _ _ _ w_race_max) as (v & h & h1 & h2 & h3 & ha & r0 & hb & Ex & A & Eh & E1 & _).
  exists w_race, v, h, [Resp 200 []; Resp 200 []; w_resp (str "count(*)=") 3; w_resp (str "max(x)=") 5], h1, h2, h3. split; [exact w_cfg_ok|]. split; [exact w_impls_ok|]. split; [exact w_req_ok|]. split; [exact Ex|]. split; [exact A|]. split; [by apply w_accepted|].
  split; [exact w_undisturbed|]. split; [exact w_readable|]. split; [reflexivity|]. split; [reflexivity|]. split; [exact Eh|exact E1].
Qed.
Print Assumptions C93_no_row_lost.
Print Assumptions C93_nothing_invented.
Print Assumptions C93_stats.
Print Assumptions C94_one_moment_partial.
Print Assumptions C94_monotone_partial.
Print Assumptions C94_count_between_partial.
Print Assumptions C95_one_moment_partial.
Print Assumptions C95_max_partial.
Print Assumptions C95_min_partial.
Print Assumptions C95_uniquecount_partial.
Print Assumptions server_conc_nonvacuous.
Print Assumptions C95_refuted.
