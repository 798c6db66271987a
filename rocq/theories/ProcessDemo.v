(** Concrete runs of the program: cases that meet the hypotheses of C99-C102. *)
From Coq Require Import ZifyBool ZifyNat.
From Verif Require Import Base BaseProofs Float64 HllModel CollationModel CollationSpec CollationProofs BufmapModel BufmapSpec BufmapProofs QueryModel BufconcModel BufconcSpec BufconcTop ServerModel ServerSpec StoreProofs StoreConcModel StoreConcSpec StoreConcProps ServerConcModel ServerConcSpec ServerConcProps DemoModel ServerDemo ServerConcDemo
  ServerMixedSpec ServerFairSpec ServerConcFairProps ServerConcFairDemo ProcessModel ProcessSpec ProcessProofs ProcessProps.
Local Open Scope Z_scope.

(** a post is answered, a second post has had one of its two rows applied when the
    process is told to end *)
Definition q_start : list paction := replicate 7 AMain.
Definition q_acts : list paction := q_start ++ map ARequest ([VArrive 0] ++ w_st 0 60 ++ [VArrive 1] ++ w_st 1 60).
Definition q_new : proc := at_serve [] [] false (MkV w_new (replicate 4 RWait)).
Definition q_run (listen : bytes → bytes → bool) (acts : list paction) := pexec listen (λ _, 0) x_ff x_et Some id (map (λ ls : Z * Schema, Compile ls.2) w_cfg) w_impl w_rqs q_new acts.
Lemma q_stores : new_stores w_cfg 4 w_new.
Proof. unfold w_new. destruct (New 32 (c_size (Compile zschema))) as [m| |] eqn:Em; [|vm_compute in Em; discriminate..]. constructor; [|constructor]. exists m. split; [exact Em|reflexivity]. Qed.
Lemma q_exec listen acts p h : q_run listen acts = (p, h) → pexecution listen (λ _, 0) x_ff x_et Some id w_cfg w_impl [] [] false w_rqs acts p h.
Proof. intros E. exists w_new. split; [exact q_stores|exact E]. Qed.
Lemma q_no_signal acts : forallb (λ a, match a with ASignal _ => false | _ => true end) acts = true → no_signal acts.
Proof. intros H s Hs. rewrite forallb_forall in H. apply elem_of_list_In, H in Hs. discriminate Hs. Qed.
(** C102: the second post is never answered, although its first row is in the record *)
Example dropped_nonvacuous : ∃ p1 h1 p h, pexecution (λ _ _, true) (λ _, 0) x_ff x_et Some id w_cfg w_impl [] [] false w_rqs q_acts p1 h1 ∧
  pexecution (λ _ _, true) (λ _, 0) x_ff x_et Some id w_cfg w_impl [] [] false w_rqs (q_acts ++ [ASignal SIGTERM; AMain] ++ map ARequest (w_st 1 90)) p h ∧
  arrived (requests h) = [0; 1]%nat ∧ finished (requests h) = [0]%nat ∧ stored (p_v p) 0 w_key = Some (put64 2 ++ [0; 0; 0; 0; 0; 0; 34; 64]) ∧ gone h.
Proof.
  destruct (q_run (λ _ _, true) q_acts) as [p1 h1] eqn:E1. destruct (q_run (λ _ _, true) (q_acts ++ [ASignal SIGTERM; AMain] ++ map ARequest (w_st 1 90))) as [p h] eqn:E.
  pose proof (q_exec _ _ _ _ E1) as X1. pose proof (q_exec _ _ _ _ E) as X. exists p1, h1, p, h. split; [exact X1|]. split; [exact X|].
  assert (no_signal q_acts) as Hn by (apply q_no_signal; vm_compute; reflexivity). assert (7 ≤ main_turns q_acts)%nat as Ht by (vm_compute; lia).
  destruct (C102_dropped_refuted (λ _ _, true) (λ _, 0) x_ff x_et Some id w_cfg w_impl w_rqs [] [] false q_acts _ SIGTERM p1 h1 p h eq_refl (or_intror eq_refl) Hn Ht X1 X) as [Eh Ev]. rewrite Eh, Ev.
  assert (match q_run (λ _ _, true) q_acts with (p, h) => (arrived (requests h), finished (requests h), stored (p_v p) 0 w_key) end = ([0; 1]%nat, [0]%nat, Some (put64 2 ++ [0; 0; 0; 0; 0; 0; 34; 64]))) as Hc by (vm_compute; reflexivity).
  rewrite E1 in Hc. injection Hc as H1 H2 H3. split; [exact H1|]. split; [exact H2|]. split; [exact H3|].
  apply (C100_signal_ends_partial (λ _ _, true) (λ _, 0) x_ff x_et Some id w_cfg w_impl w_rqs [] [] false q_acts _ SIGTERM p h eq_refl (or_intror eq_refl) Hn X). left. split; [exact Ht|]. vm_compute. apply le_n.
Qed.
(** C100: a lost signal; C101: a port that is taken *)
Example lost_nonvacuous : ∃ p h, pexecution (λ _ _, true) (λ _, 0) x_ff x_et Some id w_cfg w_impl [] [] false w_rqs (replicate 6 AMain ++ ASignal SIGINT :: replicate 100 AMain) p h ∧ ¬ gone h ∧ p_pc p = Waiting.
Proof.
  destruct (q_run (λ _ _, true) (replicate 6 AMain ++ ASignal SIGINT :: replicate 100 AMain)) as [p h] eqn:E. pose proof (q_exec _ _ _ _ E) as X. exists p, h. split; [exact X|]. split.
  - eapply (C100_lost_refuted (λ _ _, true) (λ _, 0) x_ff x_et Some id w_cfg w_impl w_rqs [] [] false (replicate 6 AMain) (replicate 100 AMain) SIGINT p h); [reflexivity|by left|apply q_no_signal; vm_compute; reflexivity..|reflexivity|exact X].
  - assert (p_pc (q_run (λ _ _, true) (replicate 6 AMain ++ ASignal SIGINT :: replicate 100 AMain)).1 = Waiting) as H by (vm_compute; reflexivity). rewrite E in H. exact H.
Qed.
Example silent_nonvacuous : ∃ p h, pexecution (λ _ _, false) (λ _, 0) x_ff x_et Some id w_cfg w_impl [] [] false w_rqs (replicate 5 AMain) p h ∧ output h = [] ∧ PExit 0 ∈ h.
Proof.
  destruct (q_run (λ _ _, false) (replicate 5 AMain)) as [p h] eqn:E. pose proof (q_exec _ _ _ _ E) as X. exists p, h. split; [exact X|].
  destruct (C101_silent_refuted (λ _ _, false) (λ _, 0) x_ff x_et Some id w_cfg w_impl w_rqs [] [] false (replicate 5 AMain) p h eq_refl) as (H1 & H2 & _); [apply q_no_signal; vm_compute; reflexivity|vm_compute; lia|exact X|]. split; [exact H1|exact H2].
Qed.

(** C99: the shipped program, with a post to its collations; all turns are taken *)
Definition d_impl (i : nat) (r : Row) : bool → prog := match demo_cfg !! i with Some (_, s) => as_prog (c_size (Compile s)) (transaction int_parse (Compile s) r) | None => λ _, PDone (Ok ()) end.
Lemma d_impls_ok : impls_ok int_parse demo_cfg d_impl.
Proof. intros i l s L r init d Hl. unfold d_impl. rewrite L. rewrite run_as_prog; [done|apply transaction_ok|exact Hl]. Qed.
Definition d_line : bytes := str "1 country=Fiji tz=Pacific height=7 iata=NAN".
Definition d_rqs : list request := [x_post d_line].
Definition d_row : Row := MkRow 1000 [MkFV (str "country") (str "Fiji"); MkFV (str "tz") (str "Pacific"); MkFV (str "height") (str "7"); MkFV (str "iata") (str "NAN")].
Lemma d_stores : new_stores demo_cfg 1 (map (λ ls : Z * Schema, MkS (MkCfg (MkMap ls.1 (c_size (Compile ls.2)) (replicate (Z.to_nat ls.1) (Slot 0 0 false)) (replicate (Z.to_nat (ls.1 * c_size (Compile ls.2))) 0)) [None]) [None]) demo_cfg).
Proof. unfold new_stores. apply Forall2_fmap_r, Forall_Forall2_diag. pose proof demo_cfg_ok as Hd. eapply Forall_impl; [exact Hd|]. intros [l s] [_ H]. eexists. split; [by apply New_ok|reflexivity]. Qed.
Lemma requests_lift listen est ff et pm order cs impl rqs p acts : over (p_pc p) = false → p_accepting p = true → p_mux p = true →
  p_v (pexec listen est ff et pm order cs impl rqs p (map ARequest acts)).1 = (vexec est ff et pm order cs impl rqs (p_v p) acts).1.
Proof.
  revert p. induction acts as [|a acts IH]; intros p Ho Ha Hm; [done|]. cbn [map pexec pstep vexec].
  assert (request_step est ff et pm order cs impl rqs p a = let '(v, es) := vstep est ff et pm order cs impl rqs (p_v p) a in (MkP (p_pc p) (p_addr p) (p_net p) (p_logger p) (p_mux p) (p_accepting p) (p_notified p) v, map PRequest es)) as ->. { unfold request_step. rewrite Ho, Ha, Hm. cbn. by destruct a. }
  destruct (vstep est ff et pm order cs impl rqs (p_v p) a) as [v es]. set (p' := MkP _ _ _ _ _ _ _ v). specialize (IH p' Ho Ha Hm). destruct (pexec _ _ _ _ _ _ _ _ _ p' _) as [p2 e2]. change (p_v p') with v in IH. destruct (vexec _ _ _ _ _ _ _ _ v acts) as [v2 e3]. exact IH.
Qed.
Example starbow_nonvacuous : impls_ok int_parse demo_cfg d_impl ∧ ∃ acts p h rs, pexecution (λ _ _, true) (λ _, 0) x_ff x_et Some id demo_cfg d_impl (str ":2525") (str "tcp") true d_rqs acts p h ∧ answered (p_v p) rs ∧
  brought Some d_rqs (λ t, match t with 0%nat => [d_line] | _ => [] end) (λ _, true) (λ t, match t with 0%nat => [d_row] | _ => [] end).
Proof.
  split; [exact d_impls_ok|].
  assert (Forall request_ok d_rqs) as Hrq. { constructor; [|constructor]. split; [constructor; [apply w_bytes; vm_compute; reflexivity|constructor]|intros n; constructor]. }
  assert (finite_updates d_impl) as Hfin. { intros i r init. unfold d_impl. destruct (demo_cfg !! i) as [[l s]|]; [apply as_prog_finite, transaction_ok|]. by exists 1%nat. }
  destruct (C96_all_answered int_parse (λ _, 0) x_ff x_et Some id demo_cfg d_impl demo_cfg_ok d_impls_ok d_rqs Hrq Hfin) as [N HN].
  set (acts := mjoin (replicate N (turns 1))). pose proof d_stores as Hst. set (gs := map _ demo_cfg) in Hst. set (p0 := at_serve (str ":2525") (str "tcp") true (MkV gs (replicate (length d_rqs) RWait))).
  destruct (pexec (λ _ _, true) (λ _, 0) x_ff x_et Some id (map (λ ls : Z * Schema, Compile ls.2) demo_cfg) d_impl d_rqs p0 (q_start ++ map ARequest acts)) as [p h] eqn:E. exists (q_start ++ map ARequest acts), p, h.
  destruct (vexec (λ _, 0) x_ff x_et Some id (map (λ ls : Z * Schema, Compile ls.2) demo_cfg) d_impl d_rqs (MkV gs (replicate (length d_rqs) RWait)) ([] ++ acts)) as [v hv] eqn:Ev.
  destruct (HN [] (replicate N (turns 1)) v hv) as (rs & A & _); [by rewrite replicate_length|apply Forall_replicate, turns_round|by exists gs|].
  exists rs. split; [by exists gs|]. split.
  - assert (p_v p = v) as ->; [|exact A]. rewrite pexec_app in E.
    assert (pexec (λ _ _, true) (λ _, 0) x_ff x_et Some id (map (λ ls : Z * Schema, Compile ls.2) demo_cfg) d_impl d_rqs p0 q_start = (MkP Waiting (str ":2525") (str "tcp") true true true true (MkV gs (replicate (length d_rqs) RWait)), [PLog (str "listening on " ++ str ":2525")])) as Es by reflexivity. rewrite Es in E.
    match type of E with (let '(_, _) := pexec _ _ _ _ _ _ _ _ _ ?q _ in _) = _ => pose proof (requests_lift (λ _ _, true) (λ _, 0) x_ff x_et Some id (map (λ ls : Z * Schema, Compile ls.2) demo_cfg) d_impl d_rqs q acts eq_refl eq_refl eq_refl) as Hl; destruct (pexec _ _ _ _ _ _ _ _ _ q _) as [p2 e2] end.
    injection E as <- _. cbn [fst p_v] in Hl. rewrite Hl. cbn [app] in Ev. by rewrite Ev.
  - intros [|t] rq L; [injection L as <-|done]. split; [|apply ld_row; [vm_compute; reflexivity|constructor]].
    apply (ca_body _ _ _ _ d_line); [done|right; left|rewrite <- (app_nil_r d_line); apply y_data; [done|constructor]|]. split; [|by apply x_short]. apply tx_last; [done| |done]. intros H. apply (bool_decide_eq_true_2 (10 ∈ d_line)) in H. vm_compute in H. discriminate H.
Qed.
Print Assumptions dropped_nonvacuous.
Print Assumptions starbow_nonvacuous.
