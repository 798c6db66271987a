From Coq Require Import ZifyBool ZifyNat.
From Verif Require Import Base BaseProofs Float64 FnvModel FnvSpec FnvProofs HllModel CollationModel CollationSpec CollationProofs CollationTop CollationTop2
  BufmapModel BufmapSpec BufmapProofs BufmapTop QueryModel ServerModel ServerSpec ScanProofs ParseRowProofs ServerProofs StoreProofs ServerInv.
Local Open Scope Z_scope.

(** ** routes *)
Lemma split_slash name : 47 ∉ name → split_on 47 (str "/collation/" ++ name) = [[]; str "collation"; name].
Proof.
  intros H. change (str "/collation/" ++ name) with ([] ++ 47 :: str "collation" ++ 47 :: name).
  rewrite split_on_app by apply not_elem_of_nil. rewrite split_on_app by (apply (bool_decide_eq_false (47 ∈ str "collation")); vm_compute; reflexivity). by rewrite split_on_none.
Qed.
Lemma route_name connect name : plain_name name → mux_route connect (str "/collation/" ++ name) = RColl name.
Proof.
  intros (Hne & Hs & Hd1 & Hd2). unfold mux_route.
  assert (clean_path (str "/collation/" ++ name) = str "/collation/" ++ name) as Hc.
  { unfold clean_path. change (str "/collation/" ++ name) with (47 :: str "collation/" ++ name) at 1. cbn iota. rewrite Z.eqb_refl.
    change (47 :: str "collation/" ++ name) with (str "/collation/" ++ name).
    assert (path_clean (str "/collation/" ++ name) = str "/collation/" ++ name) as Hp.
    { unfold path_clean. rewrite split_slash by done. cbn [fold_left]. unfold clean_step at 3. rewrite decide_True by auto. unfold clean_step at 2. rewrite decide_False by (intros [?|?]; done). rewrite decide_False by done.
      unfold clean_step. rewrite decide_False by (intros [?|?]; done). rewrite decide_False by done. cbn [rev app map mjoin list_join]. rewrite app_nil_r. done. }
    rewrite Hp. rewrite bool_decide_eq_false_2; [done|]. rewrite last_app. destruct (last name) as [z|] eqn:El; [|by apply last_None in El].
    intros [= ->]. apply Hs. apply last_Some_elem_of in El. done. }
  assert ((if connect then str "/collation/" ++ name else clean_path (str "/collation/" ++ name)) = str "/collation/" ++ name) as -> by (rewrite Hc; by destruct connect).
  rewrite decide_False; [|intros E; apply (f_equal length) in E; rewrite app_length in E; cbn in E; lia].
  rewrite decide_False by (intros E; by apply E). rewrite decide_False; [|intros E; apply (f_equal length) in E; rewrite app_length in E; cbn in E; lia]. done.
Qed.
Lemma route_obs connect path : mux_route connect path = RObs → path = str "/obs".
Proof.
  unfold mux_route. set (p := if connect then path else clean_path path). destruct (decide _); [done|]. destruct (decide (p ≠ path)) as [|Hp]; [done|]. destruct (decide (p = str "/obs")) as [->|].
  - intros _. by apply dec_stable in Hp.
  - by destruct (strip_prefix _ _).
Qed.

Section top.
Context (pf : bytes → option float) (est : Counter → Z) (ff : float → bytes) (et : error → bytes) (pm : bytes → option bytes) (order : list FM → list FM).
Notation serve := (ServeHTTP pf est ff et pm order).
Notation serve_all := (serve_all pf est ff et pm order).
Lemma other_same sts rq : rq_method rq ≠ str "POST" ∨ rq_path rq ≠ str "/obs" → (serve sts rq).1 = sts.
Proof.
  intros H. unfold ServeHTTP. destruct (rq_star rq); [done|]. destruct (mux_route _ _) as [| | |rest] eqn:Er; [done..| |].
  - apply route_obs in Er. destruct (decide _); [|done]. by destruct H.
  - destruct (decide _); [done|]. destruct (decide _); [done|]. destruct (decide _); [done|]. unfold queryCollation. by destruct (RoughParse _ _).
Qed.

(** ** histories *)
Definition all_rows (c : list (Z * Schema)) (sts : list Store) (rows : list Row) : Prop := Forall2 (λ ls st, store_rows pf ls.2 st rows) c sts.
Lemma takes_all c r rows : cfg_ok c → row_ok r → ∀ sts sts', srv_inv pf c sts → Forall2 (store_takes pf r) sts sts' → all_rows c sts rows →
  srv_inv pf c sts' ∧ all_rows c sts' (rows ++ [r]).
Proof.
  intros Hc Hr. induction Hc as [|ls c [H1 H2] Hc IH]; intros sts sts' Hi Ht Ha.
  - apply Forall2_nil_inv_l in Hi as ->. apply Forall2_nil_inv_l in Ht as ->. split; constructor.
  - apply Forall2_cons_inv_l in Hi as (st & sts0 & Hst & Hi' & ->). apply Forall2_cons_inv_l in Ht as (st' & sts0' & Hs & Ht' & ->). apply Forall2_cons in Ha as [Hrow Ha'].
    destruct (IH _ _ Hi' Ht' Ha') as [IH1 IH2]. split; (constructor; [|done]).
    + destruct (Store_Write_inv pf _ _ _ _ _ _ _ _ H1 Hst Hr Hs) as [? _]. done.
    + by eapply store_takes_rows.
Qed.
Lemma lines_all c : cfg_ok c → ∀ sts ls sts', lines_accepted pf sts ls sts' → ∀ rows new, Forall is_bytes ls → Forall2 (λ l r, parseRow l = Ok r) ls new →
  srv_inv pf c sts → all_rows c sts rows → srv_inv pf c sts' ∧ all_rows c sts' (rows ++ new).
Proof.
  intros Hc sts ls sts' H. induction H as [sts|sts line sts1 lines sts' (r & Er & H1) H2 IH]; intros rows new Hb Hn Hi Ha.
  - inversion_clear Hn. rewrite app_nil_r. done.
  - inversion_clear Hn as [|? r2 ? new' Er2 Hn']. rewrite Er in Er2. injection Er2 as <-. inversion_clear Hb as [|? ? Hb1 Hb2].
    destruct (takes_all c r rows Hc (parseRow_bytes _ _ Hb1 Er) _ _ Hi H1 Ha) as [Hi1 Ha1]. destruct (IH (rows ++ [r]) new' Hb2 Hn' Hi1 Ha1) as [? ?]. rewrite <- app_assoc in *. done.
Qed.
Lemma yields_bytes r b e : yields r b e → Forall ev_ok r → is_bytes b.
Proof.
  intros H. induction H as [|c r|r|c r l e Hc H IH]; intros HF; [constructor| |constructor|]; inversion_clear HF as [|? ? H1 H2]; [done|]. apply Forall_app. split; [done|by apply IH].
Qed.
Lemma text_bytes ls b : text_of ls b → is_bytes b → Forall is_bytes ls.
Proof.
  intros H. induction H as [|l|l|l ls b ? ? H IH|l ls b ? H IH]; intros Hb; [constructor|by apply Forall_singleton| | |].
  - apply Forall_app in Hb as [? _]. by apply Forall_singleton.
  - apply Forall_app in Hb as [? Hb]. constructor; [done|]. apply IH. by inversion_clear Hb.
  - apply Forall_app in Hb as [? Hb]. constructor; [done|]. apply IH. inversion_clear Hb as [|? ? _ Hb']. by inversion_clear Hb'.
Qed.
Lemma posted_all c rqs : cfg_ok c → Forall request_ok rqs → ∀ sts sts' rs rows new, serve_all sts rqs = (sts', rs) → posted pm rqs rs new →
  srv_inv pf c sts → all_rows c sts rows → all_rows c sts' (rows ++ new).
Proof.
  intros Hc Hr. induction Hr as [|rq rqs H Hr IH]; intros sts sts' rs rows new E Hp Hi Ha.
  - cbn in E. injection E as <- <-. inversion_clear Hp. by rewrite app_nil_r.
  - cbn [ServerModel.serve_all] in E. destruct (serve sts rq) as [sts1 r1] eqn:E1. destruct (serve_all sts1 rqs) as [sts2 rs2] eqn:E2. injection E as <- <-.
    pose proof (ServeHTTP_inv pf est ff et pm order c rq sts sts1 r1 Hc H Hi E1) as Hi1.
    inversion Hp as [|rq0 b ls new0 rqs0 rs0 rows0 Ho Ht Hn Hp0|rq0 r0 rqs0 rs0 rows0 Ho Hp0]; subst.
    + pose proof (proj1 (post_accepts pf est ff et pm order rq b ls sts sts1 Ho Ht) E1) as HA.
      assert (Forall is_bytes ls) as Hb. { eapply text_bytes; [exact Ht|]. destruct (obs_body pf est ff et pm order rq b sts Ho) as (r & Hy & _ & Hev). eapply yields_bytes; [exact Hy|]. by apply Hev. }
      destruct (lines_all c Hc _ _ _ HA rows new0 Hb Hn Hi Ha) as [_ Ha1]. rewrite app_assoc. by eapply IH.
    + pose proof (other_same sts rq Ho) as Es. rewrite E1 in Es. cbn in Es. subst sts1. by eapply IH.
Qed.
Lemma initial_rows c sts : cfg_ok c → initial c sts → all_rows c sts [].
Proof.
  intros Hc Hi. induction Hi as [|ls st c sts H Hi IH]; [constructor|]. inversion_clear Hc as [|? ? [H1 H2] Hc']. constructor; [|by apply IH].
  destruct (add_collation_inv pf _ _ _ H1 H2 H) as [_ Hn]. intros k Hk. by rewrite Hn.
Qed.
Lemma history_store c sts0 rqs sts rs rows l s : cfg_ok c → initial c sts0 → Forall request_ok rqs → serve_all sts0 rqs = (sts, rs) → posted pm rqs rs rows → installed c l s →
  ∃ a st b, sts = a ++ st :: b ∧ Forall (λ x, c_name (st_coll x) ≠ s_name s) a ∧ store_inv pf l s st ∧ store_rows pf s st rows.
Proof.
  intros Hc H0 Hr E Hp (ca & cb & -> & Hn). pose proof (initial_inv pf _ _ Hc H0) as Hi0. pose proof (serve_all_inv pf est ff et pm order _ _ Hc Hr _ _ _ Hi0 E) as Hi.
  pose proof (posted_all _ _ Hc Hr _ _ _ _ _ E Hp Hi0 (initial_rows _ _ Hc H0)) as Ha. cbn [app] in Ha.
  apply Forall2_app_inv_l in Hi as (sa & sb & Hia & Hib & ->). apply Forall2_cons_inv_l in Hib as (st & sb' & Hst & Hib & ->).
  apply Forall2_app_inv_l in Ha as (sa2 & sb2 & Haa & Hab & Es). apply Forall2_cons_inv_l in Hab as (st2 & sb2' & Hrow & Hab & ->).
  assert (sa = sa2 ∧ st = st2) as [<- <-]. { apply Forall2_length in Hia, Haa. apply app_inj_1 in Es as [-> Es]; [|lia]. by injection Es as -> _. }
  exists sa, st, sb'. split; [done|]. split; [|done]. clear -Hia Hn. induction Hia as [|ls x ca sa Hx Hia IH]; [constructor|]. inversion_clear Hn as [|? ? H1 H2]. constructor; [|by apply IH].
  rewrite (si_coll _ _ _ _ Hx). by rewrite (proj2 (compile_names _)).
Qed.
Lemma query_stores_at sts a st b s q : sts = a ++ st :: b → Forall (λ x, c_name (st_coll x) ≠ s_name s) a → st_coll st = Compile s →
  query_stores est ff et (s_name s) q sts = match Store_Read est st q with
    | Ret (Ok res) => Resp 200 (query_body ff q res) | Ret (Err e) => http_error 500 (et e) | Ret Panic | Panics => Aborted | Hangs => Hung end.
Proof.
  intros -> Ha Hc. induction Ha as [|x a Hx Ha IH]; cbn [app query_stores]; [|by rewrite decide_False]. rewrite Hc, (proj2 (compile_names s)). by rewrite decide_True.
Qed.
Lemma serve_query sts rq s text q : plain_name (s_name s) → coll_query rq (s_name s) text → RoughParse order text = Ok q →
  serve sts rq = (sts, query_stores est ff et (s_name s) q sts).
Proof.
  intros Hn (Hm & Hp & Hs & Hq) Hpq. unfold ServeHTTP. rewrite Hs, Hp. rewrite route_name by done. destruct Hn as (Hne & Hsl & _). rewrite decide_False by done. rewrite decide_False by done.
  rewrite decide_False. { unfold queryCollation. rewrite Hq, Hpq. done. }
  rewrite !elem_of_cons, elem_of_nil in Hm. naive_solver.
Qed.

(** ** matching rows *)
Lemma key_text_same keys fvs fvs' : Forall (λ k, value_of k fvs = value_of k fvs') keys → key_text keys fvs = key_text keys fvs'.
Proof. induction 1 as [|k keys E H IH]; [done|]. cbn. by rewrite E, IH. Qed.
Lemma rows_for_matching s crit k rows : record_key (s_keys s) crit = Some k → no_collision (s_keys s) crit rows → rows_for s k rows = matching (s_keys s) crit rows.
Proof.
  intros Hk Hn. unfold rows_for, matching. induction rows as [|r rows IH]; [done|]. assert (no_collision (s_keys s) crit rows) as Hn'. { intros r' Hr'. apply Hn. by right. }
  destruct (decide (Forall (λ k, value_of k (row_data r) = value_of k crit) (s_keys s))) as [Hm|Hm].
  - rewrite (filter_cons_True (λ r, Forall _ (s_keys s))) by done. rewrite filter_cons_True; [by rewrite IH|]. rewrite <- Hk. unfold record_key. f_equal. by apply key_text_same.
  - rewrite (filter_cons_False (λ r, Forall _ (s_keys s))) by done. rewrite filter_cons_False; [by apply IH|]. intros E. apply Hm. apply Hn; [left|]. by rewrite E, Hk.
Qed.

(** ** reading *)
Definition asked_end (s : Schema) (fms : list FM) (n : Z) : Prop :=
  ∀ fm m g, fm ∈ fms → m ∈ fm_M fm → reader_of (Compile s) (fm_F fm) m = Some g → g_high g ≤ n.
Lemma slice_prefix {A} (b1 b2 : list A) lo hi n : take n b1 = take n b2 → length b1 = length b2 → hi ≤ Z.of_nat n → slice b1 lo hi = slice b2 lo hi.
Proof.
  intros E El Hn. unfold slice. rewrite El. destruct ((0 <=? lo) && (lo <=? hi) && (hi <=? Z.of_nat (length b2))) eqn:Eb; [|done]. f_equal.
  rewrite <- !skipn_firstn_comm || idtac.
  assert (∀ b : list A, take (Z.to_nat (hi - lo)) (drop (Z.to_nat lo) b) = drop (Z.to_nat lo) (take (Z.to_nat hi) (take n b))) as G.
  { intros b. rewrite take_take. replace (Nat.min (Z.to_nat hi) n) with (Z.to_nat hi) by lia. rewrite skipn_firstn_comm. f_equal. lia. }
  rewrite !G, E. done.
Qed.
Lemma Coll_Read_prefix s fms b1 b2 n : asked_end s fms (Z.of_nat n) → take n b1 = take n b2 → length b1 = length b2 → Coll_Read est (Compile s) fms b1 = Coll_Read est (Compile s) fms b2.
Proof.
  intros Ha E El. induction fms as [|fm fms IH]; [done|]. cbn [Coll_Read]. rewrite IH by (intros ??? H; apply Ha; by right). destruct (c_read (Compile s) !! fm_F fm) as [rs|] eqn:Er; [|done].
  assert (∀ ms, (∀ m, m ∈ ms → m ∈ fm_M fm) → read_measures est b1 (fm_F fm) rs ms = read_measures est b2 (fm_F fm) rs ms) as G; [|by rewrite G].
  intros ms. induction ms as [|m ms IHm]; intros Hm; [done|]. cbn [read_measures]. rewrite IHm by (intros ? ?; apply Hm; by right). destruct (rs !! m) as [g|] eqn:Eg; [|done].
  rewrite (slice_prefix b1 b2 (g_low g) (g_high g) n); try done. eapply (Ha fm m g); [left|apply Hm; left|]. unfold reader_of. by rewrite Er.
Qed.
Lemma probe_range l k x : 0 < l → k mod l + 10 < l → x ∈ probe_slots l k → k mod l ≤ x ≤ k mod l + 10.
Proof.
  intros Hl Hk Hx. unfold probe_slots in Hx. apply elem_of_list_In, in_map_iff in Hx as (i & <- & Hi). apply in_seq in Hi. pose proof (Z.mod_pos_bound k l Hl).
  replace ((k + Z.of_nat i) mod l) with (k mod l + Z.of_nat i); [lia|]. rewrite <- Z.add_mod_idemp_l by lia. symmetry. apply Z.mod_small. lia.
Qed.
Lemma Store_Read_absent l s st q k : store_inv pf l s st → is_key k → record_key (s_keys s) (q_crit q) = Some k → record (st_map st) k = None → Store_Read est st q = Ret (Ok []).
Proof.
  intros I Hk Ek Hn. unfold Store_Read, Query_KeyValue. rewrite KeyValue_spec, (si_coll _ _ _ _ I), (proj1 (compile_names s)), Ek. cbn [negb].
  by rewrite (Get_absent _ _ _ _ _ (si_inv _ _ _ _ I) Hk Hn).
Qed.
Lemma Store_Read_present l s st q k d n : schema_ok s → store_inv pf l s st → is_key k → record_key (s_keys s) (q_crit q) = Some k → record (st_map st) k = Some d →
  readable l (c_size (Compile s)) n k → asked_end s (q_fms q) n → Store_Read est st q = Ret (Coll_Read est (Compile s) (q_fms q) d).
Proof.
  intros Hs I Hk Ek Hrec (R1 & R2 & R3) Ha. unfold Store_Read, Query_KeyValue. rewrite KeyValue_spec, (si_coll _ _ _ _ I), (proj1 (compile_names s)), Ek. cbn [negb].
  pose proof (si_inv _ _ _ _ I) as Im. pose proof (i_dims _ _ _ Im) as (D1 & D2 & D3). assert (k ≠ 0) as Hk0 by (unfold is_key in Hk; lia).
  destruct (key_dec (st_map st) l k) as [(x & Hx & Ex)|Hn]; [|by rewrite (record_absent _ _ _ _ Im Hn) in Hrec].
  destruct (present_probe _ _ _ _ _ Im Hk0 Hx Ex) as [_ Hf]. assert (x ∈ probe_slots l k) as Hp. { apply find_some in Hf as [Hf _]. by apply elem_of_list_In. }
  apply probe_range in Hp; [|lia..]. pose proof (si_wedge _ _ _ _ I k Hk) as Hw.
  destruct (Get_prefix _ _ _ k x (replicate (Z.to_nat (c_size (Compile s))) 0) Im Hk Hx Ex Hw) as (d2 & Hd2 & ->); [nia|by rewrite replicate_length|].
  rewrite Hrec in Hd2. injection Hd2 as <-. set (sz := Z.to_nat (c_size (Compile s))).
  assert (length d = sz) as Hl. { rewrite (record_present _ _ _ _ _ Im Hk0 Hx Ex) in Hrec. injection Hrec as <-. by apply (bytes_at_len Im). }
  assert (Coll_Read est (Compile s) (q_fms q) (take (Nat.min (Z.to_nat x) sz) d ++ drop (Nat.min (Z.to_nat x) sz) (replicate sz 0)) = Coll_Read est (Compile s) (q_fms q) d) as ->.
  { destruct (decide (sz ≤ Z.to_nat x)%nat) as [Hle|Hgt].
    - replace (Nat.min (Z.to_nat x) sz) with sz by lia. rewrite (drop_ge (replicate _ _)) by (rewrite replicate_length; lia). rewrite take_ge by lia. by rewrite app_nil_r.
    - replace (Nat.min (Z.to_nat x) sz) with (Z.to_nat x) by lia. apply (Coll_Read_prefix s _ _ _ (Z.to_nat x)).
      + intros fm m g H1 H2 H3. specialize (Ha fm m g H1 H2 H3). lia.
      + rewrite take_app_le by (rewrite take_length; lia). by rewrite take_take, Nat.min_id.
      + rewrite app_length, take_length, drop_length, replicate_length. lia. }
  pose proof (read_never_panics pf est s d (q_fms q) Hs (si_good _ _ _ _ I k d Hk Hrec)). by destruct (Coll_Read est (Compile s) (q_fms q) d).
Qed.

(** the general end to end statement *)
Lemma end_to_end c sts0 rqs sts rs rows l s rq text q k : cfg_ok c → initial c sts0 → Forall request_ok rqs → serve_all sts0 rqs = (sts, rs) → posted pm rqs rs rows →
  installed c l s → plain_name (s_name s) → coll_query rq (s_name s) text → RoughParse order text = Ok q →
  record_key (s_keys s) (q_crit q) = Some k → is_key k → no_collision (s_keys s) (q_crit q) rows →
  let mine := matching (s_keys s) (q_crit q) rows in
  (mine = [] → serve sts rq = (sts, Resp 200 (query_body ff q []))) ∧
  (mine ≠ [] → ∃ inits buf, length inits = length mine ∧ head inits = Some true ∧
     apply_rows pf (Compile s) (replicate (Z.to_nat (c_size (Compile s))) 0) (zip inits mine) = Ok buf ∧
     ∀ n, readable l (c_size (Compile s)) n k → asked_end s (q_fms q) n →
     serve sts rq = (sts, match Coll_Read est (Compile s) (q_fms q) buf with Ok res => Resp 200 (query_body ff q res) | Err e => http_error 500 (et e) | Panic => Aborted end)).
Proof.
  intros Hc H0 Hr E Hp Hins Hname Hq Hparse Hk Hkey Hcol mine.
  assert (schema_ok s) as Hs. { destruct Hins as (ca & cb & -> & _). apply Forall_app in Hc as [_ Hc]. inversion_clear Hc as [|? ? [? _] _]. done. }
  destruct (history_store c sts0 rqs sts rs rows l s Hc H0 Hr E Hp Hins) as (a & st & b & Es & Ha & I & Hrows).
  pose proof (serve_query sts rq s text q Hname Hq Hparse) as Eq. rewrite (query_stores_at sts a st b s q Es Ha (si_coll _ _ _ _ I)) in Eq.
  specialize (Hrows k Hkey). rewrite (rows_for_matching s (q_crit q) k rows Hk Hcol) in Hrows. fold mine in Hrows. destruct (record (st_map st) k) as [d|] eqn:Erec.
  - destruct Hrows as (Hne & inits & Hl & Hh & Hap). split; [done|]. intros _. exists inits, d. split; [done|]. split; [done|]. split; [exact Hap|]. intros n Hread Hasked.
    rewrite Eq. rewrite (Store_Read_present l s st q k d n Hs I Hkey Hk Erec Hread Hasked). by destruct (Coll_Read est (Compile s) (q_fms q) d).
  - split; [|done]. intros _. rewrite Eq. by rewrite (Store_Read_absent l s st q k I Hkey Hk Erec).
Qed.

(** the row counter lies in the first 8 bytes per row measure *)
Lemma count_reader s : ∀ g, reader_of (Compile s) (str "*") (str "count") = Some g → g_high g ≤ 8 * Z.of_nat (length (s_rows s)).
Proof.
  set (P := λ (B : Z) (c : Collator), ∀ g, reader_of c (str "*") (str "count") = Some g → g_high g ≤ B).
  assert (∀ rms (st : Collator * Z) B, P B st.1 → st.2 ≤ B → P (B + 8 * Z.of_nat (length rms)) (fold_left compile_row rms st).1) as H1.
  { intros rms. induction rms as [|rm rms IH]; intros [c p] B HP Hp; cbn [fold_left length]; [by rewrite Z.add_0_r|].
    replace (B + 8 * Z.of_nat (S (length rms))) with ((B + 8) + 8 * Z.of_nat (length rms)) by lia. apply IH.
    - destruct rm. unfold compile_row. cbn. intros g. unfold reader_of. cbn [c_read]. unfold add_reader. change (str "*") with RowPseudoField. rewrite lookup_insert. cbn.
      change (str "count") with (m_name MCount). rewrite lookup_insert. intros [= <-]. cbn [g_high fst snd m_size] in *. lia.
    - destruct rm. cbn in *. lia. }
  assert (∀ c f m rg B, m ≠ MCount → P B c → P B (Coll (c_name c) (c_keys c) (c_writers c) (c_cont c) (c_disc c) (add_reader (c_read c) f (m_name m) rg) (c_size c))) as H0.
  { intros c f m rg B Hm HP g. unfold reader_of, add_reader. cbn [c_read]. destruct (decide (f = str "*")) as [->|Hf].
    - rewrite lookup_insert. cbn [mbind option_bind]. assert (m_name m ≠ str "count") as Hn by (by destruct m). rewrite lookup_insert_ne by done. intros Hg. apply HP. unfold reader_of. destruct (c_read c !! str "*"); [exact Hg|]. cbn [default] in Hg. by rewrite lookup_empty in Hg.
    - rewrite lookup_insert_ne by done. intros Hg. by apply HP. }
  assert (∀ f ms (st : Collator * Z * option (Z * Z)) B, P B st.1.1 → P B (fold_left (compile_measure f) ms st).1.1) as H2.
  { intros f ms. induction ms as [|m ms IH]; intros [[c p] st] B HP; cbn [fold_left]; [done|]. apply IH. cbn [fst] in HP. unfold compile_measure.
    assert (m = MCount ∨ m ≠ MCount) as [->|Hm] by (destruct m; auto; by right). { by destruct st as [[]|]. }
    pose proof (λ rg, H0 c f m rg B Hm HP) as G. destruct m; try done; destruct st as [[]|]; cbn [is_cont_input is_stat is_disc_input is_cont_output fst]; apply G. }
  assert (∀ l (st : Collator * Z) B, P B st.1 → P B (fold_left compile_spec l st).1) as H3.
  { intros l. induction l as [|ms l IH]; intros st B HP; cbn [fold_left]; [done|]. apply IH. unfold compile_spec. by apply (H2 _ _ (st, None)). }
  unfold Compile. apply H3. rewrite <- (Z.add_0_l (8 * _)). apply (H1 _ (_, 0) 0); [|cbn; lia]. intros g. by unfold reader_of.
Qed.
End top.
