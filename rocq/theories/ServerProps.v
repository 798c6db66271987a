(** Properties C50 - C56 and C67 - C70: storage and server.  Everything is for all
    parse_float, estimate, formatting, error text and media type functions. *)
From Coq Require Import ZifyBool ZifyNat.
From Verif Require Import Base BaseProofs Float64 FnvModel FnvSpec FnvProofs HllModel Stat64Spec CollationModel CollationSpec CollationProofs CollationLayout CollationTop CollationTop2 CollationProps DemoModel
  BufmapModel BufmapSpec BufmapProofs BufmapTop BufmapRefuted RegexpModel QueryModel QuerySpec QueryProofs QueryTop QueryProps ServerModel ServerSpec RouteSpec ScanProofs ParseRowProofs ServerProofs StoreProofs ServerInv ServerTop ServerAnswers.
Local Open Scope Z_scope.

(** ** C50.  Partial: the timestamp must be below 2^63 nanoseconds (the year 2262). *)
Theorem C50_line_partial ds v d fvs : decimal ds v → ds ≠ [] → (length ds ≤ 18)%nat → v * 1000 < 2^63 → ¬ is_digit d → d ≠ 61 → fvs ≠ [] →
  Forall (λ fv, d ∉ fv_F fv ∧ d ∉ fv_V fv ∧ 61 ∉ fv_F fv) fvs →
  parseRow (ds ++ [d] ++ joined d (map fv_text fvs)) = Ok (MkRow (v * 1000) fvs).
Proof.
  intros Hd Hne Hl Hv Hdel H61 Hf HF. rewrite (parseRow_line ds v d fvs) by done. pose proof (decimal_bound _ _ Hd). rewrite s64_small by lia. done.
Qed.
Print Assumptions C50_line_partial.
Theorem C50_bare_partial ds v : decimal ds v → ds ≠ [] → (length ds ≤ 18)%nat → v * 1000 < 2^63 → parseRow ds = Ok (MkRow (v * 1000) []).
Proof. intros Hd Hne Hl Hv. rewrite (parseRow_bare ds v) by done. pose proof (decimal_bound _ _ Hd). rewrite s64_small by lia. done. Qed.
Print Assumptions C50_bare_partial.
(** Refuted beyond: the time of a later row is negative; and with '=' as delimiter
    names and values are torn apart. *)
Theorem C50_refuted : ∃ ds v, decimal ds v ∧ (length ds ≤ 18)%nat ∧ ∃ t, t < 0 ∧ parseRow (ds ++ str " k=v") = Ok (MkRow t [MkFV (str "k") (str "v")]).
Proof.
  exists (str "9223372036854776"), 9223372036854776. split.
  { apply decimal_value. split; [|reflexivity]. let x := eval vm_compute in (str "9223372036854776") in change (str "9223372036854776") with x. repeat (constructor; [unfold is_digit; lia|]). constructor. }
  split; [cbn; lia|]. exists (-9223372036854775616). split; [lia|reflexivity].
Qed.
Print Assumptions C50_refuted.
Theorem C50_equals_refuted : parseRow (str "1" ++ [61] ++ joined 61 [fv_text (MkFV (str "k") (str "v"))]) = Ok (MkRow 1000 [MkFV (str "k") []; MkFV (str "v") []]).
Proof. reflexivity. Qed.
Print Assumptions C50_equals_refuted.

(** ** C51 *)
Theorem C51_total line : parseRow line ≠ Panic.
Proof. apply parseRow_total. Qed.
Print Assumptions C51_total.
(** accepted: some decimal digits, all those the line starts with but at most 20, with a value below 2^63 *)
Theorem C51_accepts line : (∃ r, parseRow line = Ok r) ↔
  ∃ ds rest v, line = ds ++ rest ∧ ds ≠ [] ∧ decimal ds v ∧
    (length ds = 20%nat ∨ (length ds ≤ 20)%nat ∧ match rest with [] => True | d :: _ => ¬ is_digit d end) ∧ v < 2^63.
Proof. exact (parseRow_accepts line). Qed.
Print Assumptions C51_accepts.

Section props.
Context (pf : bytes → option float) (est : Counter → Z) (ff : float → bytes) (et : error → bytes) (pm : bytes → option bytes) (order : list FM → list FM).
Notation serve := (ServeHTTP pf est ff et pm order).
Notation serve_all := (serve_all pf est ff et pm order).

(** ** C52 (and C67, first part): a post whose text is the lines ls, in any
    fragmentation, by a client that stays, in any state of the stores *)
Theorem C52_all_or_error rq b ls sts sts' : obs_post pm rq b → text_of ls b → serve sts rq = (sts', Resp 200 []) ↔ lines_accepted pf sts ls sts'.
Proof. apply post_accepts. Qed.
Theorem C52_stops rq b ls sts sts' resp : obs_post pm rq b → text_of ls b → serve sts rq = (sts', resp) → resp ≠ Resp 200 [] →
  ∃ pre line post sts1, ls = pre ++ line :: post ∧ lines_accepted pf sts pre sts1 ∧ line_refused pf sts1 line sts' ∧
    ((∃ e, resp = http_error 500 (et e)) ∨ resp = Aborted ∨ resp = Hung).
Proof. apply post_stops. Qed.
(** every body is the text of some lines *)
Theorem C52_every_body b : ∃ ls, text_of ls b.
Proof. apply text_exists. Qed.
(** Refuted for clients that go away: a request whose context is cancelled is
    answered 200 although nothing was stored. *)
Theorem C52_cancelled_refuted rq b ls sts : rq_ctx rq = Some O → text_of ls b → ls ≠ [] →
  obs_post pm (MkRequest (rq_method rq) (rq_path rq) (rq_star rq) (rq_ctype rq) (rq_form rq) (rq_body rq) None) b → serve sts rq = (sts, Resp 200 []).
Proof.
  intros Hcx Ht Hne (Hm & Hp & Hs & _ & Hb & Hct). cbn [rq_method rq_path rq_star rq_body rq_form] in *. unfold ServeHTTP. rewrite Hs, Hp, Hm. change (mux_route _ (str "/obs")) with RObs. cbn iota.
  rewrite decide_True by done. unfold recvObservation.
  assert (∀ r, yields r b ErrEOF → recv_body pf et (rq_ctx rq) sts r = (sts, Resp 200 [])) as G.
  { intros r Hy. unfold recv_body. rewrite (tokens_out r b ErrEOF ls None Hy); [|by apply (text_out ErrEOF ls b)]. rewrite Hcx. by destruct ls. }
  change (contentType pm _) with (contentType pm rq) in Hct. destruct Hct as [(Hct & Hd & Hnb)|(Hct & Hy)].
  - rewrite Hct. rewrite decide_True by done. rewrite Hd. rewrite decide_False by done. apply G. rewrite <- (app_nil_r b) at 2. constructor; [done|constructor].
  - rewrite !elem_of_cons, elem_of_nil in Hct. destruct Hct as [->|[->|[]]]; by apply G.
Qed.

(** ** C53: a row and a store of a server in any state it can get into *)
Theorem C53_without_key st r cx : (∃ k, k ∈ c_keys (st_coll st) ∧ value_of k (row_data r) = None) → Store_Write pf cx st r = (st, cx, Ret (Ok ())).
Proof.
  intros H. unfold Store_Write, Row_KeyValue. apply C23_fails_iff_missing in H. destruct (KeyValue _ _) as [k []]; [done|]. done.
Qed.
(** the record of the row's key values changes as the collation says, and no
    query about other key values notices *)
Theorem C53_with_key c sts i l s st r st' cx res k : cfg_ok c → served pf est ff et pm order c sts → c !! i = Some (l, s) → sts !! i = Some st →
  Forall (λ fv, is_bytes (fv_F fv) ∧ is_bytes (fv_V fv)) (row_data r) → record_key (s_keys s) (row_data r) = Some k → Store_Write pf None st r = (st', cx, res) →
  (∀ q k', record_key (s_keys s) (q_crit q) = Some k' → k' ≠ k → is_key k' → Store_Read est st' q = Store_Read est st q) ∧
  (res = Ret (Ok ()) → ∃ init d, Coll_Update pf (Compile s) r (default (BufmapSpec.zeros (c_size (Compile s))) (record (st_map st) k)) init = (d, Ok ()) ∧ record (st_map st') k = Some d) ∧
  (record (st_map st') k = record (st_map st) k ∨ ∃ init d o, Coll_Update pf (Compile s) r (default (BufmapSpec.zeros (c_size (Compile s))) (record (st_map st) k)) init = (d, o) ∧ res = Ret o ∧ record (st_map st') k = Some d).
Proof.
  intros Hc Hsv Lc Ls Hr Ek E. pose proof (served_inv pf est ff et pm order c sts Hc Hsv) as Hi.
  pose proof (Forall2_lookup_lr _ _ _ _ _ _ Hi Lc Ls) as I. cbn [fst snd] in I.
  assert (schema_ok s ∧ dims_ok l (c_size (Compile s))) as [Hs Hd]. { unfold cfg_ok in Hc. rewrite Forall_forall in Hc. apply elem_of_list_lookup_2 in Lc. by apply (Hc (l, s)). }
  destruct (Store_Write_cases pf l s st r None st' cx res Hs I Hr E) as (I' & _ & HC). rewrite Ek in HC. destruct HC as [Hoth HC]. split; [|split].
  - intros q k' Hq Hne Hkey. unfold Store_Read, Query_KeyValue. rewrite !KeyValue_spec, (si_coll _ _ _ _ I), (si_coll _ _ _ _ I'), (proj1 (compile_names s)), Hq. cbn [negb].
    assert (Get (st_map st') k' (replicate (Z.to_nat (c_size (Compile s))) 0) = Get (st_map st) k' (replicate (Z.to_nat (c_size (Compile s))) 0)) as ->; [|done].
    destruct (decide (k = 0)) as [->|Hk0].
    { destruct HC as [(_ & -> & _)|[(_ & _ & -> & _)|[(_ & _ & _ & _ & -> & _)|(_ & Hbad & _)]]]; [done..|]. unfold is_key in Hbad. lia. }
    assert (is_key k) as Hk. { pose proof (record_key_range _ _ _ Hr Ek). unfold is_key. lia. }
    unfold Store_Write, Row_KeyValue in E. rewrite KeyValue_spec, (si_coll _ _ _ _ I), (proj1 (compile_names s)), Ek in E. cbn [negb ctx_done] in E.
    destruct (Update (st_map st) k (transaction pf (Compile s) r)) as [m' res'] eqn:Eu. injection E as <- _ _. cbn [st_map].
    apply (Get_other l (c_size (Compile s)) (st_map st) k (transaction pf (Compile s) r) m' res' k'); [by apply (si_inv _ _ _ _ I)|done|apply transaction_ok|done..|by rewrite replicate_length].
  - intros ->. destruct HC as [(? & _)|[(_ & _ & _ & ?)|[(_ & _ & _ & _ & _ & ?)|(_ & _ & d & o & Ed & Ho & Eo & Er)]]]; [congruence..|]. injection Eo as <-. eauto.
  - destruct HC as [(_ & -> & _)|[(_ & _ & -> & _)|[(_ & _ & _ & _ & -> & _)|(_ & _ & d & o & Ed & Ho & Eo & Er)]]]; [by left..|]. right. eauto 8.
Qed.

(** ** C54 *)
Theorem C54_obs rq sts : rq_star rq = false → rq_path rq = str "/obs" →
  (rq_method rq ≠ str "POST" → serve sts rq = (sts, error_answer 405 (str "method not allowed"))) ∧
  (rq_method rq = str "POST" → contentType pm rq = None → serve sts rq = (sts, error_answer 400 (et ErrUser))) ∧
  (rq_method rq = str "POST" → contentType pm rq = Some (str "application/x-www-form-urlencoded") → rq_form rq (str "data") = [] → serve sts rq = (sts, error_answer 400 (str "no data supplied"))) ∧
  (∀ ct, rq_method rq = str "POST" → contentType pm rq = Some ct → ct ∉ [str "application/x-www-form-urlencoded"; str "text/plain"; str "application/octet-stream"] →
     serve sts rq = (sts, error_answer 415 (str "unknown media type"))).
Proof.
  intros Hs Hp. unfold ServeHTTP. rewrite Hs, Hp. assert (∀ b, mux_route b (str "/obs") = RObs) as -> by (intros []; reflexivity). split; [|split; [|split]].
  - intros Hm. by rewrite decide_False.
  - intros -> Hct. unfold recvObservation. by rewrite Hct.
  - intros -> Hct Hd. unfold recvObservation. rewrite Hct, Hd. done.
  - intros ct -> Hct Hn. unfold recvObservation. rewrite Hct. rewrite decide_True by done. rewrite !not_elem_of_cons in Hn. rewrite decide_False by tauto. rewrite decide_False; [done|]. tauto.
Qed.
Theorem C54_collation rq sts name : rq_star rq = false → rq_path rq = str "/collation/" ++ name →
  (plain_name name → rq_method rq ∉ [str "POST"; str "GET"] → serve sts rq = (sts, error_answer 405 (str "method not allowed"))) ∧
  (plain_name name → rq_method rq ∈ [str "POST"; str "GET"] → ¬ query_form (rq_form rq (str "q")) → serve sts rq = (sts, error_answer 400 (et ErrSyntax))) ∧
  (plain_name name → rq_method rq ∈ [str "POST"; str "GET"] → query_form (rq_form rq (str "q")) → Forall (λ st, c_name (st_coll st) ≠ name) sts →
     serve sts rq = (sts, error_answer 404 (str "404 page not found"))) ∧
  (name = [] → serve sts rq = (sts, error_answer 404 (str "404 page not found"))) ∧
  (47 ∈ name → clean_path (rq_path rq) = rq_path rq → serve sts rq = (sts, error_answer 404 (str "404 page not found"))).
Proof.
  intros Hs Hp. unfold ServeHTTP. rewrite Hs, Hp. split; [|split; [|split; [|split]]].
  - intros Hn Hm. rewrite route_name by done. destruct Hn as (Hne & Hsl & _). rewrite decide_False by done. rewrite decide_False by done. rewrite decide_True; [done|]. rewrite !not_elem_of_cons in Hm. tauto.
  - intros Hn Hm Hq. rewrite route_name by done. destruct Hn as (Hne & Hsl & _). rewrite decide_False by done. rewrite decide_False by done.
    rewrite decide_False. 2:{ rewrite !elem_of_cons, elem_of_nil in Hm. tauto. }
    unfold queryCollation. rewrite (proj2 (C58_rejects order _) Hq). done.
  - intros Hn Hm Hq Hnone. rewrite route_name by done. destruct Hn as (Hne & Hsl & _). rewrite decide_False by done. rewrite decide_False by done.
    rewrite decide_False. 2:{ rewrite !elem_of_cons, elem_of_nil in Hm. tauto. }
    unfold queryCollation. destruct (C58_total order (rq_form rq (str "q"))) as [(q & ->)|E]; [|by apply C58_rejects in E]. f_equal. induction Hnone as [|st sts H HF IH]; [done|]. cbn [query_stores]. by rewrite decide_False.
  - intros ->. rewrite app_nil_r. assert (∀ b, mux_route b (str "/collation/") = RColl []) as -> by (intros []; reflexivity). by rewrite decide_True.
  - intros Hn Hcl. unfold mux_route. rewrite Hcl. set (p := str "/collation/" ++ name) in *.
    assert ((if bool_decide (rq_method rq = str "CONNECT") then p else p) = p) as -> by (by destruct (bool_decide _)).
    rewrite decide_False; [|intros E; apply (f_equal length) in E; unfold p in E; rewrite app_length in E; cbn in E; lia].
    rewrite decide_False by (intros E; by apply E). rewrite decide_False; [|intros E; apply (f_equal length) in E; unfold p in E; rewrite app_length in E; cbn in E; lia].
    change (strip_prefix (str "/collation/") p) with (Some name). cbn iota. rewrite decide_False by (intros ->; by apply elem_of_nil in Hn). by rewrite decide_True.
Qed.
(** answers other than 200 and 500 never come with a change *)
Theorem C54_no_change rq sts sts' code body : serve sts rq = (sts', Resp code body) → code ≠ 200 → code ≠ 500 → sts' = sts.
Proof.
  unfold ServeHTTP. destruct (rq_star rq); [by intros [= <- _ _]|]. destruct (mux_route _ _) as [| | |rest]; [by intros [= <- _ _]..| |].
  - destruct (decide _); [|by intros [= <- _ _]]. unfold recvObservation. destruct (contentType pm rq); [|by intros [= <- _ _]].
    assert (∀ lines cx sts1 se, recv_lines pf et cx sts1 lines se = (sts', Resp code body) → code ≠ 200 → code ≠ 500 → sts' = sts) as G.
    { intros lines. induction lines as [|line lines IH]; intros cx sts1 se; cbn [recv_lines].
      - destruct se; intros [= _ <- _]; done.
      - destruct (ctx_done cx) as [[] cx1]; [by intros [= _ <- _]|]. destruct (parseRow line) as [row|e2|]; [|by intros [= _ <- _]|done].
        destruct (write_stores pf cx1 sts1 row) as [[sts2 cx2] [[u|e2|]| |]]; [apply IH|by intros [= _ <- _]|done..]. }
    assert (∀ cx r, recv_body pf et cx sts r = (sts', Resp code body) → code ≠ 200 → code ≠ 500 → sts' = sts) as G'.
    { intros cx r. unfold recv_body. destruct (tokens r) as [[lines e3]|]; [apply G|done]. }
    destruct (decide _); [destruct (decide _)|destruct (decide _)]; [by intros [= <- _ _]|apply G'|apply G'|by intros [= <- _ _]].
  - intros H _ _. revert H. destruct (decide _); [by intros [= <- _ _]|]. destruct (decide _); [by intros [= <- _ _]|]. destruct (decide _); [by intros [= <- _ _]|].
    unfold queryCollation. destruct (RoughParse _ _); by intros [= <- _].
Qed.

(** ** C55: anything but a POST to /obs changes nothing ... *)
Theorem C55_no_change sts rq : rq_method rq ≠ str "POST" ∨ rq_path rq ≠ str "/obs" → (serve sts rq).1 = sts.
Proof. apply other_same. Qed.
(** ... so the answers to all the other requests, and the final state, are as if it had not been made *)
Theorem C55_as_if_not_made sts rqs1 rq rqs2 sts' rs : rq_method rq ≠ str "POST" ∨ rq_path rq ≠ str "/obs" → serve_all sts (rqs1 ++ rq :: rqs2) = (sts', rs) →
  ∃ rs1 r rs2, rs = rs1 ++ r :: rs2 ∧ length rs1 = length rqs1 ∧ serve_all sts (rqs1 ++ rqs2) = (sts', rs1 ++ rs2).
Proof.
  intros H. revert sts rs. induction rqs1 as [|rq1 rqs1 IH]; intros sts rs; cbn [app ServerModel.serve_all].
  - pose proof (other_same pf est ff et pm order sts rq H) as Hs. destruct (serve sts rq) as [sts1 r]. cbn in Hs. subst sts1. destruct (serve_all sts rqs2) as [sts2 rs2]. intros [= <- <-]. by exists [], r, rs2.
  - destruct (serve sts rq1) as [sts1 r1]. destruct (serve_all sts1 (rqs1 ++ rq :: rqs2)) as [sts2 rs2] eqn:E2. intros [= <- <-].
    destruct (IH _ _ E2) as (a & r & b & -> & Hl & E3). rewrite E3. exists (r1 :: a), r, b. split; [done|]. split; [cbn; lia|done].
Qed.

(** ** C56.  Partial: the record key is not 0, no posted row with other key values
    has the same 64 bit hash, and the first 8 bytes of the record can be read
    wherever it was put (bufmap.Get, C33 and C34). *)
Theorem C56_count_partial c sts0 rqs sts rs rows l s rq key v : cfg_ok c → initial c sts0 → Forall request_ok rqs → serve_all sts0 rqs = (sts, rs) → posted pm rqs rs rows →
  installed c l s → plain_name (s_name s) → s_keys s = [key] → s_rows s ≠ [] → map_order order → key_ok key → value_ok v → ¬ has_where (crit_item (key, v)) →
  coll_query rq (s_name s) (str "select count(*) where " ++ key ++ str "='" ++ v ++ str "'") →
  let k := fnv1_spec (key ++ v) in is_key k → no_collision [key] [MkFV key v] rows → readable l (c_size (Compile s)) (8 * Z.of_nat (length (s_rows s))) k →
  let n := length (filter (λ r, value_of key (row_data r) = Some v) rows) in
  serve sts rq = (sts, Resp 200 (key ++ str "=" ++ v ++ [10] ++
    if (n =? 0)%nat then [] else str "count(*)=" ++ ff (f_of_Z (Z.of_nat n mod 2^64)) ++ [10])).
Proof.
  intros Hc H0 Hr E Hp Hins Hpn Hkeys Hrows Ho Hk Hv Hw Hq k Hkey Hcol Hread n. destruct name_cnt as [Nc Ns].
  assert (schema_ok s) as Hs. { destruct Hins as (ca & cb & -> & _). apply Forall_app in Hc as [_ Hc]. inversion_clear Hc as [|? ? [? _] _]. done. }
  rewrite (one_answer pf est ff et pm order c sts0 rqs sts rs rows l s rq key v (str "count") (str "*") _ (MkFMV (str "*") (str "count") (f_of_Z (Z.of_nat n mod 2^64))) Hc H0 Hr E Hp Hins Hpn Hkeys Ho Nc Ns Hk Hv Hw Hq Hkey Hcol Hread).
  - unfold n. destruct (decide _) as [->|Hne]; [done|]. assert ((length (filter (λ r, value_of key (row_data r) = Some v) rows) =? 0)%nat = false) as -> by (by destruct (filter _ rows)).
    unfold FMV_String. cbn [r_M r_F r_V]. rewrite <- !app_assoc. done.
  - apply count_reader.
  - intros inits buf Hl Hh Hap. rewrite (count_answer pf est s _ buf Hs Hrows Hap). by rewrite zip_len.
Qed.

(** what a query really answers, in every state: the record as it looks when only
    its first x bytes are known, x being the number of the slot that holds it; or
    no answer at all if the slot is one of the last *)
Theorem C56_exact c sts i l s st q k d x : cfg_ok c → served pf est ff et pm order c sts → c !! i = Some (l, s) → sts !! i = Some st →
  record_key (s_keys s) (q_crit q) = Some k → is_key k → record (st_map st) k = Some d → 0 ≤ x < l → key_at (st_map st) x = k →
  Store_Read est st q = if decide (x * (c_size (Compile s) + 1) ≤ l * c_size (Compile s)) then
     let n := Nat.min (Z.to_nat x) (Z.to_nat (c_size (Compile s))) in
     match Coll_Read est (Compile s) (q_fms q) (take n d ++ drop n (replicate (Z.to_nat (c_size (Compile s))) 0)) with Panic => Panics | r => Ret r end
   else Panics.
Proof.
  intros Hc Hsv Lc Ls Ek Hk. pose proof (served_inv pf est ff et pm order c sts Hc Hsv) as Hi. pose proof (Forall2_lookup_lr _ _ _ _ _ _ Hi Lc Ls) as I. cbn [fst snd] in I.
  assert (schema_ok s) as Hs. { unfold cfg_ok in Hc. rewrite Forall_forall in Hc. apply elem_of_list_lookup_2 in Lc. by apply (Hc (l, s)). }
  exact (Store_Read_exact pf est pm l s st q k d x Hs I Hk Ek).
Qed.
(** Refuted: post one accepted row to a new server; if its key hashes to slot 0 the
    count is 0, if it hashes to the last slot the query is never answered. *)
Theorem C56_refuted c sts0 rq b line r sts l s qrq key v : cfg_ok c → initial c sts0 → request_ok rq → obs_post pm rq b → text_of [line] b → parseRow line = Ok r →
  serve sts0 rq = (sts, Resp 200 []) → installed c l s → plain_name (s_name s) → s_keys s = [key] → s_rows s ≠ [] → map_order order → key_ok key → value_ok v → ¬ has_where (crit_item (key, v)) →
  coll_query qrq (s_name s) (one_query (str "count") (str "*") key v) → let k := fnv1_spec (key ++ v) in is_key k → value_of key (row_data r) = Some v →
  (k mod l = 0 → serve sts qrq = (sts, Resp 200 (key ++ str "=" ++ v ++ [10] ++ str "count(*)=" ++ ff (f_of_Z 0) ++ [10]))) ∧
  (k mod l = l - 1 → c_size (Compile s) + 1 < l → serve sts qrq = (sts, Aborted)).
Proof.
  intros Hc H0 Hok Ho Ht Ep E Hins Hpn Hkeys Hrows Hord Hk Hv Hw Hq k Hkey Hval. destruct name_cnt as [Nc Ns].
  assert (schema_ok s ∧ dims_ok l (c_size (Compile s))) as [Hs Hd]. { destruct Hins as (ca & cb & -> & _). apply Forall_app in Hc as [_ Hc]. by inversion_clear Hc as [|? ? [? ?] _]. }
  assert (record_key (s_keys s) (row_data r) = Some k) as Erk. { rewrite Hkeys. unfold record_key. cbn [key_text]. rewrite Hval. cbn. rewrite app_nil_r. done. }
  destruct (fresh_post pf est ff et pm order c sts0 rq b line r sts l s k Hc H0 Hok Ho Ht Ep E Hins Erk Hkey) as (a & st & b' & d & Es & Ha & I & Hrec & Hslot).
  pose proof (one_query_parse order (str "count") (str "*") key v Hord Nc Ns Hk Hv Hw) as Hparse.
  pose proof (serve_query pf est ff et pm order sts qrq s _ _ Hpn Hq Hparse) as Eq. rewrite (query_stores_at est ff et sts a st b' s _ Es Ha (si_coll _ _ _ _ I)) in Eq.
  assert (record_key (s_keys s) [MkFV key v] = Some k) as Eqk by (rewrite Hkeys; apply record_key_one). destruct Hd as (D1 & D2 & D3).
  assert (0 ≤ k mod l < l) as Hx by (apply Z.mod_pos_bound; lia).
  rewrite (Store_Read_exact pf est pm l s st (MkQuery [MkFM (str "*") [str "count"]] [MkFV key v]) k d (k mod l) Hs I Hkey Eqk Hrec Hx Hslot) in Eq. split.
  - intros Hm. rewrite Hm in Eq. rewrite decide_True in Eq by nia. cbn zeta in Eq.
    assert (∀ x y : bytes, take (Z.to_nat 0 `min` Z.to_nat (c_size (Compile s))) x ++ drop (Z.to_nat 0 `min` Z.to_nat (c_size (Compile s))) y = y) as Hz by done.
    rewrite Hz in Eq. cbn [q_fms] in Eq.
    pose proof (count_answer pf est s [] _ Hs Hrows eq_refl) as Hans. unfold answer in Hans. unfold CollationTop.zeros in Hans. cbn [length] in Hans.
    rewrite Hans in Eq. rewrite Eq. unfold query_body, FMV_String. cbn [q_crit map mjoin list_join fv_F fv_V r_M r_F r_V]. change (str "=") with [61].
    rewrite !app_nil_r, <- !app_assoc. done.
  - intros Hm Hsz. rewrite Hm in Eq. assert (¬ (l - 1) * (c_size (Compile s) + 1) ≤ l * c_size (Compile s)) as Hgt by nia. rewrite (decide_False _ _ Hgt) in Eq. done.
Qed.

(** ** C67: how a body arrives does not matter ... (partial: unless its last line
    is unterminated and has exactly 65536 bytes) *)
Theorem C67_fragmentation_partial cx sts r r' b e : yields r b e → yields r' b e → ¬ edge_body b → recv_body pf et cx sts r = recv_body pf et cx sts r'.
Proof. intros H H' Hb. unfold recv_body. by rewrite (tokens_fragmentation r r' b e H H' Hb). Qed.
(** ... the lines are read off the text, with either line ending ... *)
Theorem C67_lines cx sts r b ls : yields r b ErrEOF → text_of ls b → short_lines b → recv_body pf et cx sts r = recv_lines pf et cx sts ls None.
Proof. intros Hy Ht Hs. unfold recv_body. by rewrite (tokens_out r b ErrEOF ls None Hy (text_out ErrEOF ls b Ht Hs)). Qed.
(** ... and a line of more than 65536 bytes is an error, after the lines before it were applied *)
Theorem C67_long cx sts r b ls long rest e : yields r (b ++ long ++ rest) e → text_of ls b → (b = [] ∨ last b = Some 10) → short_lines b → 10 ∉ long → line_limit < Z.of_nat (length long) →
  recv_body pf et cx sts r = recv_lines pf et cx sts ls (Some ErrTooLong).
Proof.
  intros Hy Ht Hb Hs Hl Hn. unfold recv_body. rewrite (tokens_out _ _ _ ls (Some ErrTooLong) Hy); [done|]. apply long_out; try done.
  - rewrite take_app_le by lia. intros Hin. apply Hl. rewrite <- (take_drop (Z.to_nat line_limit) long). apply elem_of_app. by left.
  - rewrite app_length. lia.
Qed.

(** ** C68: an upload that breaks off.  Partial: nothing but the lines of the text
    received is applied, in order, and the answer is 500.  Missing, because false:
    that the last, incomplete line is not applied. *)
Theorem C68_interrupted_partial sts r b ls sts' resp : yields r b ErrRead → text_of ls b → short_lines b → recv_body pf et None sts r = (sts', resp) →
  (lines_accepted pf sts ls sts' ∧ resp = http_error 500 (et ErrRead)) ∨
  (∃ pre line post sts1, ls = pre ++ line :: post ∧ lines_accepted pf sts pre sts1 ∧ line_refused pf sts1 line sts' ∧
     ((∃ e, resp = http_error 500 (et e)) ∨ resp = Aborted ∨ resp = Hung)).
Proof.
  intros Hy Ht Hs. unfold recv_body. rewrite (tokens_out r b ErrRead ls (Some ErrRead) Hy (text_out ErrRead ls b Ht Hs)). intros E. exact (recv_lines_cases pf et ls sts _ _ _ E).
Qed.
Theorem C68_refuted sts sts' line r : 10 ∉ line → no_cr_end line → line ≠ [] → Z.of_nat (length line) < line_limit → yields r line ErrRead →
  line_accepted pf sts line sts' → recv_body pf et None sts r = (sts', http_error 500 (et ErrRead)).
Proof.
  intros Hn Hc Hne Hl Hy HA. destruct (recv_body pf et None sts r) as [sts2 resp] eqn:E.
  assert (text_of [line] line) as Ht by by constructor. assert (short_lines line) as Hs.
  { intros x y z -> _. rewrite !app_length in Hl. lia. }
  destruct (C68_interrupted_partial sts r line [line] sts2 resp Hy Ht Hs E) as [[HA2 ->]|(pre & l2 & post & sts1 & Els & HA1 & HR & _)].
  - f_equal. eapply lines_det; [exact HA2|]. econstructor; [exact HA|constructor].
  - exfalso. destruct pre as [|? [|? ?]]; simplify_eq/=. inversion HA1; subst. by eapply refuse_accept in HR.
Qed.

(** ** C69: whatever bytes are posted, by whatever client, in any state: there is an answer *)
Theorem C69_obs_answered c sts rq sts' resp : cfg_ok c → served pf est ff et pm order c sts → request_ok rq → rq_path rq = str "/obs" → serve sts rq = (sts', resp) → ∃ code body, resp = Resp code body.
Proof.
  intros Hc Hsv Hok Hp E. pose proof (served_inv pf est ff et pm order c sts Hc Hsv) as Hi. unfold ServeHTTP in E. rewrite Hp in E. destruct (rq_star rq); [injection E as _ <-; eauto|].
  assert (∀ b, mux_route b (str "/obs") = RObs) as Hmux by (intros []; reflexivity). rewrite Hmux in E. destruct (decide _).
  - exact (proj2 (recvObservation_inv pf et pm c rq sts sts' resp Hc Hok Hi E)).
  - injection E as _ <-. unfold http_error. eauto.
Qed.

(** ** C70: sum, mean and var, end to end.  Partial, as C56: the whole record must be readable. *)
Theorem C70_stats_partial c sts0 rqs sts rs rows l s rq key v f m value : cfg_ok c → initial c sts0 → Forall request_ok rqs → serve_all sts0 rqs = (sts, rs) → posted pm rqs rs rows →
  installed c l s → plain_name (s_name s) → s_keys s = [key] → map_order order → key_ok key → value_ok v → ¬ has_where (crit_item (key, v)) → name_ok f → field_measure s f m →
  coll_query rq (s_name s) (str "select " ++ m_name m ++ str "(" ++ f ++ str ") where " ++ key ++ str "='" ++ v ++ str "'") →
  let k := fnv1_spec (key ++ v) in is_key k → no_collision [key] [MkFV key v] rows → readable l (c_size (Compile s)) (c_size (Compile s)) k →
  let mine := filter (λ r, value_of key (row_data r) = Some v) rows in
  (m = MSum ∧ value = sum_spec (field_floats pf f mine) ∨ m = MMean ∧ value = mean_spec (field_floats pf f mine) ∨ m = MVariance ∧ value = var_spec (field_floats pf f mine)) →
  serve sts rq = (sts, Resp 200 (key ++ str "=" ++ v ++ [10] ++
    if decide (mine = []) then [] else m_name m ++ str "(" ++ f ++ str ")=" ++ ff value ++ [10])).
Proof.
  intros Hc H0 Hr E Hp Hins Hpn Hkeys Ho Hk Hv Hw Hf Hm Hq k Hkey Hcol Hread mine Hval.
  assert (schema_ok s) as Hs. { destruct Hins as (ca & cb & -> & _). apply Forall_app in Hc as [_ Hc]. inversion_clear Hc as [|? ? [? _] _]. done. }
  assert (name_ok (m_name m)) as Hnm. { destruct Hval as [[-> _]|[[-> _]|[-> _]]]; (split; [done|]); apply (bool_decide_unpack _); vm_compute; done. }
  rewrite (one_answer pf est ff et pm order c sts0 rqs sts rs rows l s rq key v (m_name m) f _ (MkFMV f (m_name m) value) Hc H0 Hr E Hp Hins Hpn Hkeys Ho Hnm Hf Hk Hv Hw Hq Hkey Hcol Hread).
  - fold mine. destruct (decide _); [done|]. unfold FMV_String. cbn [r_M r_F r_V]. by rewrite <- !app_assoc.
  - intros g Hg. destruct (Compile_inv s Hs) as (cs & Hi & _). destruct (i_read _ _ _ Hi f (m_name m) g) as (_ & kk & m' & Hin & _); [exact Hg|]. by destruct (laid_bounds _ _ _ _ _ (i_laid _ _ _ Hi) Hin) as (_ & _ & _ & ?).
  - fold mine. intros inits buf Hl Hh Hap. refine (proj1 (stat_answer pf est s f m value (zip inits mine) buf Hs Hm Hap _)). rewrite zip_snd by done.
    destruct Hval as [[-> ->]|[[-> ->]|[-> ->]]]; done.
Qed.
End props.
Print Assumptions C52_all_or_error.
Print Assumptions C52_stops.
Print Assumptions C52_every_body.
Print Assumptions C52_cancelled_refuted.
Print Assumptions C53_without_key.
Print Assumptions C53_with_key.
Print Assumptions C54_obs.
Print Assumptions C54_collation.
Print Assumptions C54_no_change.
Print Assumptions C55_no_change.
Print Assumptions C55_as_if_not_made.
Print Assumptions C56_count_partial.
Print Assumptions C56_exact.
Print Assumptions C56_refuted.
Print Assumptions C67_fragmentation_partial.
Print Assumptions C67_lines.
Print Assumptions C67_long.
Print Assumptions C68_interrupted_partial.
Print Assumptions C68_refuted.
Print Assumptions C69_obs_answered.
Print Assumptions C70_stats_partial.
