(** Concrete cases of C103: one post and two queries for the number of rows, one after
    the other, in stores of different sizes.  With 32 slots the record has slot 20, and
    the row is counted.  With 31 slots it has slot 0, and the row is never counted; with
    39 slots it has the last slot, and the queries are not answered. *)
From Coq Require Import ZifyBool ZifyNat.
From Verif Require Import Base BaseProofs Float64 FnvModel FnvSpec FnvProofs HllModel Stat64Spec CollationModel CollationSpec CollationProofs DemoModel BufmapModel BufmapSpec RegexpModel QueryModel QuerySpec BufconcModel BufconcSpec
  ServerModel ServerSpec ServerDemo ServerHomeSpec StoreConcModel StoreConcSpec StoreConcProps ServerConcModel ServerConcSpec ServerConcProps ServerConcMoreProps ServerConcDemo ServerMixedSpec ServerMixedProps ServerMixedDemo ServerSlotSpec ServerSlotProps.
Local Open Scope Z_scope.

Definition s_cfg (l : Z) : list (Z * Schema) := [(l, zschema)].
Definition s_rqs : list request := [x_post w_body0; w_get w_count; w_get w_count].
Definition s_lines (t : nat) : list bytes := match t with 0%nat => [w_body0] | _ => [] end.
Definition s_rows (t : nat) : list Row := match t with 0%nat => [w_row 1000 (str "5")] | _ => [] end.
Definition s_acts : list vaction := [VArrive 0] ++ w_st 0 60 ++ [VArrive 1] ++ w_st 1 60 ++ [VArrive 2] ++ w_st 2 60.
Definition s_new (l : Z) : list scfg := match New l (c_size (Compile zschema)) with Ok m => [MkS (MkCfg m (replicate 3 None)) (replicate 3 None)] | _ => [] end.
Definition s_exec (l : Z) := vexec (λ _, 0) x_ff x_et Some id (map (λ ls : Z * Schema, Compile ls.2) (s_cfg l)) w_impl s_rqs (MkV (s_new l) (replicate 3 RWait)) s_acts.
Definition s_view (l : Z) : option (list (option response) * response * response * list nat) :=
  let '(v, h) := s_exec l in
  match cut_begin 1 h with Some (h1, b) => match cut_answer 1 b with Some (h2, r1, b2) => match cut_begin 2 b2 with Some (h3, b3) => match cut_answer 2 b3 with Some (h4, r2, _) =>
    Some (map (λ x, match x with RAnswered r => Some r | _ => None end) (v_reqs v), r1, r2, finished h1) | None => None end | None => None end | None => None end | None => None end.
Lemma s_run l r1 r2 : s_view l = Some ([Some (Resp 200 []); Some r1; Some r2], r1, r2, [0%nat]) → (∃ m, New l (c_size (Compile zschema)) = Ok m) →
  ∃ v h h1 h2 h3 h4 h5, vexecution (λ _, 0) x_ff x_et Some id (s_cfg l) w_impl s_rqs s_acts v h ∧ answered v [Resp 200 []; r1; r2] ∧ h = h1 ++ VBegin 1 :: h2 ++ VAnswer 1 r1 :: h3 ++ VBegin 2 :: h4 ++ VAnswer 2 r2 :: h5 ∧ finished h1 = [0%nat].
Proof.
  intros Hv [m Em]. unfold s_view in Hv. destruct (s_exec l) as [v h] eqn:E. destruct (cut_begin 1 h) as [[h1 b]|] eqn:E1; [|discriminate Hv]. destruct (cut_answer 1 b) as [[[h2 r] b2]|] eqn:E2; [|discriminate Hv].
  destruct (cut_begin 2 b2) as [[h3 b3]|] eqn:E3; [|discriminate Hv]. destruct (cut_answer 2 b3) as [[[h4 r'] h5]|] eqn:E4; [|discriminate Hv]. injection Hv as Hall H1 H2 Hf.
  apply cut_begin_ok in E1. apply cut_answer_ok in E2. apply cut_begin_ok in E3. apply cut_answer_ok in E4. exists v, h, h1, h2, h3, h4, h5. split.
  { exists (s_new l). split; [|exact E]. unfold s_new. rewrite Em. constructor; [|constructor]. exists m. split; [exact Em|reflexivity]. }
  split; [|subst; split; [reflexivity|exact Hf]].
  assert (∀ rs L, map (λ x, match x with RAnswered r => Some r | _ => None end) L = map Some rs → L = map RAnswered rs) as Hm.
  { clear. intros rs L. revert rs. induction L as [|x L IH]; intros [|r rs] H; try discriminate H; [reflexivity|]. injection H as Hx H. cbn. rewrite (IH _ H). destruct x; try discriminate Hx. injection Hx as ->. reflexivity. }
  apply Hm. exact Hall.
Qed.
Lemma s_in r : r ∈ rows_of s_rows (seq 0 3) → r = w_row 1000 (str "5").
Proof. change (rows_of s_rows (seq 0 3)) with [w_row 1000 (str "5")]. apply elem_of_list_singleton. Qed.
Lemma s_req_ok : Forall request_ok s_rqs.
Proof.
  repeat apply Forall_cons_2; [..|constructor].
  1: split; [constructor; [apply w_bytes; vm_compute; reflexivity|constructor]|intros n; constructor].
  1, 2: split; [constructor|]; intros n; cbn [rq_form w_get]; destruct (decide _); [apply w_bytes; vm_compute; reflexivity|constructor].
Qed.
Lemma s_brought : brought Some s_rqs s_lines (λ _, true) s_rows.
Proof.
  assert (∀ c (l : bytes), bool_decide (c ∈ l) = false → c ∉ l) as Hn by (intros c l H; by apply bool_decide_eq_false in H).
  intros [|[|[|t]]] rq L; try (injection L as <-); [..|done]; (split; [|repeat first [apply ld_nil|apply ld_row; [vm_compute; reflexivity|]]]).
  - apply (ca_body _ _ _ _ w_body0); [done|right; left|rewrite <- (app_nil_r w_body0); apply y_data; [done|constructor]|]. split; [|by apply x_short]. apply tx_last; [done|apply Hn; vm_compute; reflexivity|done].
  - apply ca_none. intros [[H _] _]. by vm_compute in H.
  - apply ca_none. intros [[H _] _]. by vm_compute in H.
Qed.
Lemma s_no_collision : no_collision [str "k"] [MkFV (str "k") (str "h")] (rows_of s_rows (seq 0 3)).
Proof. intros r Hr _. rewrite (s_in r Hr). by repeat constructor. Qed.
Lemma s_undisturbed l : undisturbed l zschema w_key (rows_of s_rows (seq 0 3)).
Proof. intros r k' Hr Hk Hne. rewrite (s_in r Hr) in Hk. cbn [s_keys zschema] in Hk. rewrite w_row_key in Hk. assert (k' = w_key) as E by (symmetry; apply (f_equal (λ o, default 0 o)) in Hk; exact Hk). contradiction. Qed.
Lemma s_cfg_ok l : 0 < l < 2^40 → cfg_ok (s_cfg l).
Proof. intros Hl. constructor; [|constructor]. split; [exact zschema_ok|]. change (c_size (Compile (l, zschema).2)) with 16. unfold dims_ok. cbn [fst]. lia. Qed.
Lemma s_impls_ok l : impls_ok int_parse (s_cfg l) w_impl.
Proof. intros [|i] l' s E; [|by destruct i]. injection E as <- <-. exact zimpl_ok. Qed.
Lemma s_installed l : installed (s_cfg l) l zschema.
Proof. exists [], []. split; [done|constructor]. Qed.
Lemma s_size : c_size (Compile zschema) = 16.
Proof. vm_compute. reflexivity. Qed.

(** With 32 slots: the hypotheses of C103_queries and of the two theorems about counts
    are met, and give what is answered. *)
Example slots_nonvacuous : ∃ v h h1 h2 h3 h4 h5, vexecution (λ _, 0) x_ff x_et Some id (s_cfg 32) w_impl s_rqs s_acts v h ∧ answered v [Resp 200 []; w_resp (str "count(*)=") 1; w_resp (str "count(*)=") 1] ∧
  h = h1 ++ VBegin 1 :: h2 ++ VAnswer 1 (w_resp (str "count(*)=") 1) :: h3 ++ VBegin 2 :: h4 ++ VAnswer 2 (w_resp (str "count(*)=") 1) :: h5 ∧ finished h1 = [0%nat] ∧
  front_readable 32 zschema (8 * Z.of_nat (length (CollationModel.s_rows zschema))) w_key (rows_of s_rows (seq 0 3)) ∧
  (∃ x ord, x = 20 ∧ (let '(d, outs) := apply_all int_parse (Compile zschema) (replicate (Z.to_nat (c_size (Compile zschema))) 0) ord in stored v 0 w_key = Some d ∧ outs = [(w_row 1000 (str "5"), true)])) ∧
  (∃ m, (1 ≤ m)%nat ∧ count_is x_ff (str "k") (str "h") m (w_resp (str "count(*)=") 1)) ∧
  (∃ m1 m2, (m1 ≤ m2)%nat ∧ count_is x_ff (str "k") (str "h") m1 (w_resp (str "count(*)=") 1) ∧ count_is x_ff (str "k") (str "h") m2 (w_resp (str "count(*)=") 1)).
Proof.
  destruct (s_run 32 (w_resp (str "count(*)=") 1) (w_resp (str "count(*)=") 1)) as (v & h & h1 & h2 & h3 & h4 & h5 & Ex & A & Eh & Ef); [vm_compute; reflexivity|eexists; vm_compute; reflexivity|].
  exists v, h, h1, h2, h3, h4, h5. split; [exact Ex|]. split; [exact A|]. split; [exact Eh|]. split; [exact Ef|].
  assert (front_readable 32 zschema (8 * Z.of_nat (length (CollationModel.s_rows zschema))) w_key (rows_of s_rows (seq 0 3))) as Hread. { right. split; [apply s_undisturbed|]. vm_compute. split; discriminate. }
  split; [exact Hread|]. destruct w_words as (Hkk & Hv & Hw & Hx & Hpt). split; [|split].
  - destruct (C103_queries int_parse (λ _, 0) x_ff x_et Some id (s_cfg 32) w_impl (s_cfg_ok 32 ltac:(lia)) (s_impls_ok 32) s_rqs s_acts v h _ s_lines (λ _, true) s_rows [] [] 32 zschema w_key s_req_ok Ex A s_brought eq_refl (Forall_nil_2 _) Hpt w_key_pos ltac:(vm_compute; reflexivity))
      as (took & cut & x & ord & at_ & Hsh & _ & Hhome & Hfin & _). exists x, ord. split; [rewrite (Hhome (s_undisturbed 32)); vm_compute; reflexivity|].
    destruct (apply_all int_parse (Compile zschema) _ ord) as [d outs] eqn:Eap. destruct Hfin as [Hst Hperm].
    assert (outs ≡ₚ [(w_row 1000 (str "5"), true)]) as Hp.
    { destruct (Hsh 0%nat _ _ eq_refl eq_refl) as (_ & Hcut0 & H0). destruct (H0 eq_refl eq_refl) as (_ & _ & T0). destruct (Hsh 1%nat _ _ eq_refl eq_refl) as (_ & Hcut1 & _). destruct (Hsh 2%nat _ _ eq_refl eq_refl) as (_ & Hcut2 & _).
      assert (cut 0%nat = None) as C0. { destruct (cut 0%nat) as [r|]; [|reflexivity]. destruct (Hcut0 r eq_refl) as (_ & e & He). discriminate He. }
      assert (cut 1%nat = None) as C1. { destruct (cut 1%nat) as [r|]; [|reflexivity]. destruct (Hcut1 r eq_refl) as (He & _). destruct (took 1%nat); discriminate He. }
      assert (cut 2%nat = None) as C2. { destruct (cut 2%nat) as [r|]; [|reflexivity]. destruct (Hcut2 r eq_refl) as (He & _). destruct (took 2%nat); discriminate He. }
      cbn [length s_rqs seq] in Hperm. cbn [omap list_omap] in Hperm. rewrite C0, C1, C2 in Hperm. rewrite Hperm. apply Permutation_refl'. unfold rows_of. cbn [map]. rewrite T0. destruct (took 1%nat), (took 2%nat); vm_compute; reflexivity. }
    apply Permutation_singleton_r in Hp. subst outs. split; [|reflexivity]. destruct Hst as [Hst|[_ ->]]; [exact Hst|]. discriminate Eap.
  - destruct (C103_count_between_partial int_parse (λ _, 0) x_ff x_et Some id (s_cfg 32) w_impl (s_cfg_ok 32 ltac:(lia)) (s_impls_ok 32) s_rqs s_acts v h _ s_lines (λ _, true) s_rows 32 zschema 1%nat (w_get w_count) (str "k") (str "h") h1 h2 (w_resp (str "count(*)=") 1) _
      s_req_ok Ex A s_brought (s_installed 32) Hpt eq_refl ltac:(discriminate) (λ l, reflexivity l) Hkk Hv Hw eq_refl (w_query _) w_key_pos s_no_collision Hread ltac:(vm_compute; reflexivity) Eh) as (m & Hm & _ & Hr). exists m. split; [|exact Hr].
    specialize (Hm [0%nat]). rewrite Ef in Hm. change 1%nat with (length (filter (λ r, value_of (str "k") (row_data r) = Some (str "h")) (rows_of s_rows [0%nat]))). apply Hm; [reflexivity|]. intros t Ht. apply elem_of_list_singleton in Ht as ->. split; [reflexivity|]. eexists. split; reflexivity.
  - exact (C103_count_monotone_partial int_parse (λ _, 0) x_ff x_et Some id (s_cfg 32) w_impl (s_cfg_ok 32 ltac:(lia)) (s_impls_ok 32) s_rqs s_acts v h _ s_lines (λ _, true) s_rows 32 zschema 1%nat (w_get w_count) 2%nat (w_get w_count) (str "k") (str "h") h1 h2 _ h3 h4 _ h5
      s_req_ok Ex A s_brought (s_installed 32) Hpt eq_refl ltac:(discriminate) (λ l, reflexivity l) Hkk Hv Hw eq_refl (w_query _) eq_refl (w_query _) w_key_pos s_no_collision Hread ltac:(vm_compute; reflexivity) Eh).
Qed.
(** With 31 slots the row of the post that was answered 200 is not counted; with 39
    slots the queries are not answered. *)
Example lost_rows_nonvacuous :
  (∃ v h h1 h2 h3, vexecution (λ _, 0) x_ff x_et Some id (s_cfg 31) w_impl s_rqs s_acts v h ∧ answered v [Resp 200 []; w_resp (str "count(*)=") 0; w_resp (str "count(*)=") 0] ∧ h = h1 ++ VBegin 1 :: h2 ++ VAnswer 1 (w_resp (str "count(*)=") 0) :: h3 ∧ finished h1 = [0%nat] ∧ home 31 w_key = 0) ∧
  (∃ v h h1 h2 h3, vexecution (λ _, 0) x_ff x_et Some id (s_cfg 39) w_impl s_rqs s_acts v h ∧ answered v [Resp 200 []; Aborted; Aborted] ∧ h = h1 ++ VBegin 1 :: h2 ++ VAnswer 1 Aborted :: h3 ∧ finished h1 = [0%nat] ∧ 39 * c_size (Compile zschema) < home 39 w_key * (c_size (Compile zschema) + 1)).
Proof.
  split.
  - destruct (s_run 31 (w_resp (str "count(*)=") 0) (w_resp (str "count(*)=") 0)) as (v & h & h1 & h2 & h3 & h4 & h5 & Ex & A & Eh & Ef); [vm_compute; reflexivity|eexists; vm_compute; reflexivity|].
    exists v, h, h1, h2. eexists. split; [exact Ex|]. split; [exact A|]. split; [exact Eh|]. split; [exact Ef|]. vm_compute. reflexivity.
  - destruct (s_run 39 Aborted Aborted) as (v & h & h1 & h2 & h3 & h4 & h5 & Ex & A & Eh & Ef); [vm_compute; reflexivity|eexists; vm_compute; reflexivity|].
    exists v, h, h1, h2. eexists. split; [exact Ex|]. split; [exact A|]. split; [exact Eh|]. split; [exact Ef|]. vm_compute. reflexivity.
Qed.
Print Assumptions slots_nonvacuous.
Print Assumptions lost_rows_nonvacuous.
