(** A concrete case of C98: a post that succeeds, a post whose second line has a value
    that is not a number, a post whose body breaks off, and a query, all at the same
    time. *)
From Coq Require Import ZifyBool ZifyNat.
From Verif Require Import Base BaseProofs Float64 FnvModel FnvSpec FnvProofs HllModel Stat64Spec CollationModel CollationSpec CollationProofs DemoModel BufmapModel BufmapSpec RegexpModel QueryModel QuerySpec BufconcModel BufconcSpec
  ServerModel ServerSpec ServerDemo ServerHomeSpec StoreConcModel StoreConcSpec StoreConcProps ServerConcModel ServerConcSpec ServerConcProps ServerConcMoreProps ServerConcDemo ServerMixedSpec ServerMixedProps.
Local Open Scope Z_scope.

Definition m_body1 : bytes := str "2 k=h x=9" ++ [10] ++ str "3 k=h x=z" ++ [10] ++ str "4 k=h x=7".
Definition m_broken : bytes := str "5 k=h x=4" ++ [10] ++ str "foo".
Definition m_rqs : list request := [x_post w_body0; x_post m_body1; w_get w_count; MkRequest (str "POST") (str "/obs") false [] x_form [EvData m_broken; EvErr] None].
Definition m_lines (t : nat) : list bytes := match t with 0%nat => [w_body0] | 1%nat => [str "2 k=h x=9"; str "3 k=h x=z"; str "4 k=h x=7"] | 3%nat => [str "5 k=h x=4"; str "foo"] | _ => [] end.
Definition m_whole (t : nat) : bool := match t with 3%nat => false | _ => true end.
Definition m_rows (t : nat) : list Row := match t with 0%nat => [w_row 1000 (str "5")] | 1%nat => [w_row 2000 (str "9"); w_row 3000 (str "z"); w_row 4000 (str "7")] | 3%nat => [w_row 5000 (str "4")] | _ => [] end.
Definition m_acts : list vaction := [VArrive 0] ++ w_st 0 3 ++ [VArrive 1] ++ w_st 1 40 ++ [VArrive 3; VArrive 2] ++ w_st 3 30 ++ w_st 0 60 ++ w_st 1 90 ++ w_st 2 60 ++ w_st 3 90 ++ w_st 0 90 ++ w_st 1 120 ++ w_st 2 90.
Definition m_exec := vexec (λ _, 0) x_ff x_et Some id (map (λ ls : Z * Schema, Compile ls.2) w_cfg) w_impl m_rqs (MkV w_new (replicate 4 RWait)) m_acts.
Definition m_answers := map (λ x, match x with RAnswered r => Some r | _ => None end) (v_reqs m_exec.1).
Definition m_err : response := http_error 500 (str "error").
Definition m_rs : list response := [Resp 200 []; m_err; w_resp (str "count(*)=") 4; m_err].
Definition m_view : option (list (option response) * list nat * list nat * response) :=
  match cut_begin 2 m_exec.2 with Some (h1, b) => match cut_answer 2 b with Some (h2, r, _) => Some (m_answers, finished h1, arrived (h1 ++ VBegin 2 :: h2), r) | None => None end | None => None end.
Lemma m_view_run : m_view = Some (map Some m_rs, [], [0; 1; 3; 2]%nat, w_resp (str "count(*)=") 4).
Proof. vm_compute. reflexivity. Qed.
Lemma m_run : ∃ v h h1 h2 h3, vexecution (λ _, 0) x_ff x_et Some id w_cfg w_impl m_rqs m_acts v h ∧ answered v m_rs ∧ h = h1 ++ VBegin 2 :: h2 ++ VAnswer 2 (w_resp (str "count(*)=") 4) :: h3 ∧ finished h1 = [] ∧ arrived (h1 ++ VBegin 2 :: h2) = [0; 1; 3; 2]%nat.
Proof.
  pose proof m_view_run as Hv. unfold m_view, m_answers in Hv. destruct m_exec as [v h] eqn:E. cbv beta iota delta [fst snd] in Hv. destruct (cut_begin 2 h) as [[h1 b]|] eqn:E1; [|discriminate Hv]. destruct (cut_answer 2 b) as [[[h2 r] h3]|] eqn:E2; [|discriminate Hv].
  injection Hv as Hall Hf Ha Hr. apply cut_begin_ok in E1. apply cut_answer_ok in E2. exists v, h, h1, h2, h3. split.
  { exists w_new. split; [|exact E]. unfold w_new. destruct (New 32 (c_size (Compile zschema))) as [m| |] eqn:Em; [|vm_compute in Em; discriminate..]. constructor; [|constructor]. exists m. split; [exact Em|reflexivity]. }
  split; [|subst; split; [reflexivity|split; [exact Hf|exact Ha]]].
  assert (∀ rs L, map (λ x, match x with RAnswered r => Some r | _ => None end) L = map Some rs → L = map RAnswered rs) as Hm.
  { clear. intros rs L. revert rs. induction L as [|x L IH]; intros [|r rs] H; try discriminate H; [reflexivity|]. injection H as Hx H. cbn. rewrite (IH _ H). destruct x; try discriminate Hx. injection Hx as ->. reflexivity. }
  apply Hm. exact Hall.
Qed.
Lemma m_req_ok : Forall request_ok m_rqs.
Proof.
  repeat apply Forall_cons_2; [..|constructor].
  1, 2, 4: split; [repeat (constructor; [first [exact I|apply w_bytes; vm_compute; reflexivity]|]); constructor|intros n; constructor].
  split; [constructor|]; intros n; cbn [rq_form w_get]; destruct (decide _); [apply w_bytes; vm_compute; reflexivity|constructor].
Qed.
Lemma m_brought : brought Some m_rqs m_lines m_whole m_rows.
Proof.
  assert (∀ c (l : bytes), bool_decide (c ∈ l) = false → c ∉ l) as Hn by (intros c l H; by apply bool_decide_eq_false in H).
  intros [|[|[|[|t]]]] rq L; try (injection L as <-); [..|done]; (split; [|repeat first [apply ld_nil|apply ld_row; [vm_compute; reflexivity|]|apply ld_stop; intros r Hr; vm_compute in Hr; discriminate Hr]]).
  - apply (ca_body _ _ _ _ w_body0); [done|right; left|rewrite <- (app_nil_r w_body0); apply y_data; [done|constructor]|]. split; [|by apply x_short]. apply tx_last; [done|apply Hn; vm_compute; reflexivity|done].
  - apply (ca_body _ _ _ _ m_body1); [done|right; left|rewrite <- (app_nil_r m_body1); apply y_data; [done|constructor]|]. split; [|by apply x_short].
    apply (tx_lf (str "2 k=h x=9")); [apply Hn; vm_compute; reflexivity|done|]. apply (tx_lf (str "3 k=h x=z")); [apply Hn; vm_compute; reflexivity|done|]. apply tx_last; [done|apply Hn; vm_compute; reflexivity|done].
  - apply ca_none. intros [[H _] _]. by vm_compute in H.
  - apply (ca_broken _ _ _ true m_broken); [done|right; left|rewrite <- (app_nil_r m_broken); apply y_data; [done|constructor]|]. split; [|by apply x_short].
    apply (tx_lf (str "5 k=h x=4")); [apply Hn; vm_compute; reflexivity|done|]. apply tx_last; [done|apply Hn; vm_compute; reflexivity|done].
Qed.
Lemma m_in r : r ∈ rows_of m_rows (seq 0 4) → ∃ ts x, r = w_row ts x.
Proof. change (rows_of m_rows (seq 0 4)) with [w_row 1000 (str "5"); w_row 2000 (str "9"); w_row 3000 (str "z"); w_row 4000 (str "7"); w_row 5000 (str "4")]. rewrite !elem_of_cons, elem_of_nil. intros [->|[->|[->|[->|[->|[]]]]]]; eauto. Qed.
Lemma m_no_collision : no_collision [str "k"] [MkFV (str "k") (str "h")] (rows_of m_rows (seq 0 4)).
Proof. intros r Hr _. destruct (m_in r Hr) as (ts & x & ->). by repeat constructor. Qed.
Lemma m_readable : whole_readable 32 zschema w_key (rows_of m_rows (seq 0 4)).
Proof.
  right. split; [|exact w_readable]. intros r k' Hr Hk Hne. destruct (m_in r Hr) as (ts & x & ->).
  cbn [s_keys zschema] in Hk. rewrite w_row_key in Hk. assert (k' = w_key) as E by (symmetry; apply (f_equal (λ o, default 0 o)) in Hk; exact Hk). contradiction.
Qed.
(** The run meets the hypotheses of C98_mixed and C98_query_partial; the first post has
    had its row taken, and no row of the posts that failed can be counted twice. *)
Example mixed_nonvacuous : ∃ v h h1 h2 h3, vexecution (λ _, 0) x_ff x_et Some id w_cfg w_impl m_rqs m_acts v h ∧ answered v m_rs ∧ brought Some m_rqs m_lines m_whole m_rows ∧ h = h1 ++ VBegin 2 :: h2 ++ VAnswer 2 (w_resp (str "count(*)=") 4) :: h3 ∧
  (∃ took cut, (∀ t rq r, m_rqs !! t = Some rq → m_rs !! t = Some r → share x_et rq r (m_lines t) (m_whole t) (m_rows t) (took t) (cut t)) ∧ took 0%nat = 1%nat ∧ cut 0%nat = None ∧
    ∃ ord d outs, apply_all int_parse (Compile zschema) (replicate (Z.to_nat (c_size (Compile zschema))) 0) ord = (d, outs) ∧ (w_row 1000 (str "5"), true) ∈ outs ∧
      answer (λ _, 0) zschema d (str "*") (str "count") = Ok [MkFMV (str "*") (str "count") (f_of_Z (Z.of_nat (length outs) mod 2^64))]) ∧
  (∃ took cut, (∀ t rq r, m_rqs !! t = Some rq → m_rs !! t = Some r → share x_et rq r (m_lines t) (m_whole t) (m_rows t) (took t) (cut t)) ∧
    ∃ ord d outs, apply_all int_parse (Compile zschema) (replicate (Z.to_nat (c_size (Compile zschema))) 0) ord = (d, outs) ∧
      w_resp (str "count(*)=") 4 = respond x_ff x_et (MkQuery [MkFM (str "*") [str "count"]] [MkFV (str "k") (str "h")]) (Coll_Read (λ _, 0) (Compile zschema) [MkFM (str "*") [str "count"]] d) ∧
      map fst outs ⊆+ of_key zschema w_key (rows_of (touched m_rows took cut) [0; 1; 3; 2]%nat)) ∧
  (∃ m, (m ≤ 5)%nat ∧ w_resp (str "count(*)=") 4 = Resp 200 (str "k" ++ str "=" ++ str "h" ++ [10] ++ str "count(*)=" ++ x_ff (f_of_Z (Z.of_nat m)) ++ [10])).
Proof.
  destruct m_run as (v & h & h1 & h2 & h3 & Ex & A & Eh & Ef & Ea). exists v, h, h1, h2, h3. split; [exact Ex|]. split; [exact A|]. split; [exact m_brought|]. split; [exact Eh|]. split; [|split].
  - destruct (C98_mixed int_parse (λ _, 0) x_ff x_et Some id w_cfg w_impl w_cfg_ok w_impls_ok m_rqs m_acts v h m_rs m_lines m_whole m_rows 0%nat 32 zschema m_req_ok Ex A m_brought eq_refl) as (took & cut & Hsh & Hk).
    exists took, cut. split; [exact Hsh|]. destruct (Hsh 0%nat _ _ eq_refl eq_refl) as (_ & Hcut & Hall). destruct (Hall eq_refl eq_refl) as (_ & _ & Ht). split; [exact Ht|]. split.
    { destruct (cut 0%nat) as [r|]; [|reflexivity]. destruct (Hcut r eq_refl) as (_ & e & He). discriminate He. }
    destruct (Hk w_key w_key_pos) as (ord & d & outs & H1 & H2 & H3 & _ & H5 & _). exists ord, d, outs. split; [exact H1|]. split; [|apply H5; discriminate].
    rewrite H3. apply elem_of_app. left. apply elem_of_list_fmap. exists (w_row 1000 (str "5")). split; [reflexivity|]. unfold of_key. apply elem_of_list_filter. split; [apply w_row_key|]. unfold rows_of. cbn [length m_rqs seq map]. change (mjoin (take (took 0%nat) (m_rows 0) :: map (λ t, take (took t) (m_rows t)) [1; 2; 3]%nat)) with (take (took 0%nat) (m_rows 0) ++ mjoin (map (λ t, take (took t) (m_rows t)) [1; 2; 3]%nat)). rewrite Ht. left.
  - destruct w_words as (Hkk & Hv & Hw & Hx & Hpt).
    destruct (C98_query_partial int_parse (λ _, 0) x_ff x_et Some id w_cfg w_impl w_cfg_ok w_impls_ok m_rqs m_acts v h m_rs m_lines m_whole m_rows 32 zschema 2%nat (w_get w_count) w_count (MkQuery [MkFM (str "*") [str "count"]] [MkFV (str "k") (str "h")]) w_key h1 h2 (w_resp (str "count(*)=") 4) h3
      m_req_ok Ex A m_brought w_installed Hpt eq_refl (w_query _) ltac:(vm_compute; reflexivity) eq_refl w_key_pos m_readable ltac:(vm_compute; reflexivity) Eh) as (took & cut & Hsh & ord & d & outs & H1 & H2 & _ & _ & H5 & _).
    exists took, cut. split; [exact Hsh|]. exists ord, d, outs. split; [exact H1|]. split; [|rewrite Ea in H5; exact H5].
    destruct H2 as [H2|[_ H2]]; [exact H2|]. apply (f_equal (λ r, match r with Resp _ b => Z.of_nat (length b) | _ => 0 end)) in H2. vm_compute in H2. discriminate H2.
  - destruct w_words as (Hkk & Hv & Hw & Hx & Hpt).
    destruct (C98_count_between_partial int_parse (λ _, 0) x_ff x_et Some id w_cfg w_impl w_cfg_ok w_impls_ok m_rqs m_acts v h m_rs m_lines m_whole m_rows 32 zschema 2%nat (w_get w_count) (str "k") (str "h") h1 h2 (w_resp (str "count(*)=") 4) h3
      m_req_ok Ex A m_brought w_installed Hpt eq_refl ltac:(discriminate) (λ l, reflexivity l) Hkk Hv Hw eq_refl (w_query _) w_key_pos m_no_collision m_readable ltac:(vm_compute; reflexivity) Eh) as (m & _ & Hm & Hr). rewrite Ea in Hm. exists m. split; [exact Hm|].
    destruct Hr as [Hr|[_ Hr]]; [exact Hr|]. apply (f_equal (λ r, match r with Resp _ b => Z.of_nat (length b) | _ => 0 end)) in Hr. vm_compute in Hr. discriminate Hr.
Qed.
Print Assumptions mixed_nonvacuous.
