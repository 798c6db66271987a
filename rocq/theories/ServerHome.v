(** Answers about records in their home slot. *)
From Coq Require Import ZifyBool ZifyNat.
From Verif Require Import Base BaseProofs Float64 FnvModel FnvSpec FnvProofs HllModel CollationModel CollationSpec CollationProofs CollationTop CollationTop2
  BufmapModel BufmapSpec BufmapProofs BufmapTop QueryModel QuerySpec ServerModel ServerSpec ScanProofs ParseRowProofs ServerProofs StoreProofs ServerInv ServerTop ServerAnswers ServerHomeSpec StoreHome.
Local Open Scope Z_scope.

Section home.
Context (pf : bytes → option float) (est : Counter → Z) (ff : float → bytes) (et : error → bytes) (pm : bytes → option bytes) (order : list FM → list FM).
Notation serve := (ServeHTTP pf est ff et pm order).
Notation serve_all := (serve_all pf est ff et pm order).

(** a statement about a store and the rows it was given, kept by every row *)
Section generic.
Context (Q : Z → Schema → Store → list Row → Prop).
Context (Qstep : ∀ l s st r st' rows, schema_ok s → store_inv pf l s st → row_ok r → store_takes pf r st st' → Q l s st rows → Q l s st' (rows ++ [r])).
Context (Qnew : ∀ l s st, schema_ok s → dims_ok l (c_size (Compile s)) → add_collation l s = Ok st → Q l s st []).
Definition all_q (c : list (Z * Schema)) (sts : list Store) (rows : list Row) : Prop := Forall2 (λ ls st, Q ls.1 ls.2 st rows) c sts.
Lemma takes_q c r rows : cfg_ok c → row_ok r → ∀ sts sts', srv_inv pf c sts → Forall2 (store_takes pf r) sts sts' → all_q c sts rows →
  srv_inv pf c sts' ∧ all_q c sts' (rows ++ [r]).
Proof.
  intros Hc Hr. induction Hc as [|ls c [H1 H2] Hc IH]; intros sts sts' Hi Ht Ha.
  - apply Forall2_nil_inv_l in Hi as ->. apply Forall2_nil_inv_l in Ht as ->. split; constructor.
  - apply Forall2_cons_inv_l in Hi as (st & sts0 & Hst & Hi' & ->). apply Forall2_cons_inv_l in Ht as (st' & sts0' & Hs & Ht' & ->). apply Forall2_cons in Ha as [Hrow Ha'].
    destruct (IH _ _ Hi' Ht' Ha') as [IH1 IH2]. split; (constructor; [|done]).
    + destruct (Store_Write_inv pf _ _ _ _ _ _ _ _ H1 Hst Hr Hs) as [? _]. done.
    + by eapply Qstep.
Qed.
Lemma lines_q c : cfg_ok c → ∀ sts ls sts', lines_accepted pf sts ls sts' → ∀ rows new, Forall is_bytes ls → Forall2 (λ l r, parseRow l = Ok r) ls new →
  srv_inv pf c sts → all_q c sts rows → srv_inv pf c sts' ∧ all_q c sts' (rows ++ new).
Proof.
  intros Hc sts ls sts' H. induction H as [sts|sts line sts1 lines sts' (r & Er & H1) H2 IH]; intros rows new Hb Hn Hi Ha.
  - inversion_clear Hn. rewrite app_nil_r. done.
  - inversion_clear Hn as [|? r2 ? new' Er2 Hn']. rewrite Er in Er2. injection Er2 as <-. inversion_clear Hb as [|? ? Hb1 Hb2].
    destruct (takes_q c r rows Hc (parseRow_bytes _ _ Hb1 Er) _ _ Hi H1 Ha) as [Hi1 Ha1]. destruct (IH (rows ++ [r]) new' Hb2 Hn' Hi1 Ha1) as [? ?]. rewrite <- app_assoc in *. done.
Qed.
Lemma posted_q c rqs : cfg_ok c → Forall request_ok rqs → ∀ sts sts' rs rows new, serve_all sts rqs = (sts', rs) → posted pm rqs rs new →
  srv_inv pf c sts → all_q c sts rows → all_q c sts' (rows ++ new).
Proof.
  intros Hc Hr. induction Hr as [|rq rqs H Hr IH]; intros sts sts' rs rows new E Hp Hi Ha.
  - cbn in E. injection E as <- <-. inversion_clear Hp. by rewrite app_nil_r.
  - cbn [ServerModel.serve_all] in E. destruct (serve sts rq) as [sts1 r1] eqn:E1. destruct (serve_all sts1 rqs) as [sts2 rs2] eqn:E2. injection E as <- <-.
    pose proof (ServeHTTP_inv pf est ff et pm order c rq sts sts1 r1 Hc H Hi E1) as Hi1.
    inversion Hp as [|rq0 b ls new0 rqs0 rs0 rows0 Ho Ht Hn Hp0|rq0 r0 rqs0 rs0 rows0 Ho Hp0]; subst.
    + pose proof (proj1 (post_accepts pf est ff et pm order rq b ls sts sts1 Ho Ht) E1) as HA.
      assert (Forall is_bytes ls) as Hb. { eapply text_bytes; [exact Ht|]. destruct (obs_body pf est ff et pm order rq b sts Ho) as (r & Hy & _ & Hev). eapply yields_bytes; [exact Hy|]. by apply Hev. }
      destruct (lines_q c Hc _ _ _ HA rows new0 Hb Hn Hi Ha) as [_ Ha1]. rewrite app_assoc. by eapply IH.
    + pose proof (other_same pf est ff et pm order sts rq Ho) as Es. rewrite E1 in Es. cbn in Es. subst sts1. by eapply IH.
Qed.
Lemma initial_q c sts : cfg_ok c → initial c sts → all_q c sts [].
Proof.
  intros Hc Hi. induction Hi as [|ls st c sts H Hi IH]; [constructor|]. inversion_clear Hc as [|? ? [H1 H2] Hc']. constructor; [|by apply IH]. by apply Qnew.
Qed.
Lemma history_q c sts0 rqs sts rs rows l s : cfg_ok c → initial c sts0 → Forall request_ok rqs → serve_all sts0 rqs = (sts, rs) → posted pm rqs rs rows → installed c l s →
  ∃ a st b, sts = a ++ st :: b ∧ Forall (λ x, c_name (st_coll x) ≠ s_name s) a ∧ store_inv pf l s st ∧ Q l s st rows.
Proof.
  intros Hc H0 Hr E Hp (ca & cb & -> & Hn). pose proof (initial_inv pf _ _ Hc H0) as Hi0. pose proof (serve_all_inv pf est ff et pm order _ _ Hc Hr _ _ _ Hi0 E) as Hi.
  pose proof (posted_q _ _ Hc Hr _ _ _ _ _ E Hp Hi0 (initial_q _ _ Hc H0)) as Ha. cbn [app] in Ha.
  apply Forall2_app_inv_l in Hi as (sa & sb & Hia & Hib & ->). apply Forall2_cons_inv_l in Hib as (st & sb' & Hst & Hib & ->).
  apply Forall2_app_inv_l in Ha as (sa2 & sb2 & Haa & Hab & Es). apply Forall2_cons_inv_l in Hab as (st2 & sb2' & Hrow & Hab & ->).
  assert (sa = sa2 ∧ st = st2) as [<- <-]. { apply Forall2_length in Hia, Haa. apply app_inj_1 in Es as [-> Es]; [|lia]. by injection Es as -> _. }
  exists sa, st, sb'. split; [done|]. split; [|done]. clear -Hia Hn. induction Hia as [|ls x ca sa Hx Hia IH]; [constructor|]. inversion_clear Hn as [|? ? H1 H2]. constructor; [|by apply IH].
  rewrite (si_coll _ _ _ _ Hx). by rewrite (proj2 (compile_names _)).
Qed.
End generic.

(** the answer to a query for one measure of an undisturbed record *)
Lemma home_answer c sts0 rqs sts rs rows l s rq key v m f n : cfg_ok c → initial c sts0 → Forall request_ok rqs → serve_all sts0 rqs = (sts, rs) → posted pm rqs rs rows →
  installed c l s → plain_name (s_name s) → s_keys s = [key] → map_order order → name_ok m → name_ok f → key_ok key → value_ok v → ¬ has_where (crit_item (key, v)) →
  coll_query rq (s_name s) (one_query m f key v) →
  let k := fnv1_spec (key ++ v) in is_key k → no_collision [key] [MkFV key v] rows → undisturbed l s k rows → home_readable l (c_size (Compile s)) n k →
  (∀ g, reader_of (Compile s) f m = Some g → g_high g ≤ n) →
  let mine := filter (λ r, value_of key (row_data r) = Some v) rows in mine ≠ [] →
  ∃ buf, record_after pf s mine = Ok buf ∧
  ∀ res, answer est s buf f m = Ok [res] → serve sts rq = (sts, Resp 200 (key ++ str "=" ++ v ++ [10] ++ FMV_String ff res ++ [10])).
Proof.
  intros Hc H0 Hr E Hp Hins Hpn Hkeys Ho Hm Hf Hk Hv Hw Hq k Hkey Hcol Hu [R1 R2] Hg mine Hne.
  assert (schema_ok s) as Hs. { destruct Hins as (ca & cb & -> & _). apply Forall_app in Hc as [_ Hc]. inversion_clear Hc as [|? ? [? _] _]. done. }
  pose proof (one_query_parse order m f key v Ho Hm Hf Hk Hv Hw) as Hparse.
  destruct (history_q (store_home pf) (store_home_step pf) (store_home_new pf) c sts0 rqs sts rs rows l s Hc H0 Hr E Hp Hins) as (a & st & b & Es & Ha & I & Hrows).
  pose proof (serve_query pf est ff et pm order sts rq s _ _ Hpn Hq Hparse) as Eq. rewrite (query_stores_at est ff et sts a st b s _ Es Ha (si_coll _ _ _ _ I)) in Eq.
  assert (record_key (s_keys s) [MkFV key v] = Some k) as Eqk by (rewrite Hkeys; apply record_key_one).
  specialize (Hrows k Hkey Hu). rewrite (rows_for_matching s [MkFV key v] k rows Eqk) in Hrows by (by rewrite Hkeys). rewrite Hkeys, matching_one in Hrows. fold mine in Hrows.
  destruct (record (st_map st) k) as [d|] eqn:Erec; [|by destruct Hrows]. destruct Hrows as (_ & Hhome & Hafter). exists d. split; [exact Hafter|]. intros res Hans. rewrite Eq. clear Eq.
  pose proof (si_inv _ _ _ _ I) as Im. pose proof (home_slot _ _ _ k Im) as Hh. assert (k ≠ 0) as Hk0 by (unfold is_key in Hkey; lia).
  rewrite (Store_Read_exact pf est pm l s st (MkQuery [MkFM f [m]] [MkFV key v]) k d (home l k) Hs I Hkey Eqk Erec Hh Hhome). rewrite decide_True by done. cbn zeta. cbn [q_fms].
  set (sz := Z.to_nat (c_size (Compile s))).
  assert (length d = sz) as Hl. { rewrite (record_present _ _ _ _ _ Im Hk0 Hh Hhome) in Erec. injection Erec as <-. by apply (bytes_at_len Im). }
  assert (Coll_Read est (Compile s) [MkFM f [m]] (take (Nat.min (Z.to_nat (home l k)) sz) d ++ drop (Nat.min (Z.to_nat (home l k)) sz) (replicate sz 0)) = Coll_Read est (Compile s) [MkFM f [m]] d) as ->.
  { set (x := home l k) in *. destruct (decide (sz ≤ Z.to_nat x)%nat) as [Hle|Hgt].
    - replace (Nat.min (Z.to_nat x) sz) with sz by lia. rewrite (drop_ge (replicate _ _)) by (rewrite replicate_length; lia). rewrite take_ge by lia. by rewrite app_nil_r.
    - replace (Nat.min (Z.to_nat x) sz) with (Z.to_nat x) by lia. apply (Coll_Read_prefix est s _ _ _ (Z.to_nat x)).
      + intros fm m' g Hfm Hm' Hg'. apply elem_of_list_singleton in Hfm as ->. cbn [fm_M fm_F] in *. apply elem_of_list_singleton in Hm' as ->. specialize (Hg g Hg'). lia.
      + rewrite take_app_le by (rewrite take_length; lia). by rewrite take_take, Nat.min_id.
      + rewrite app_length, take_length, drop_length, replicate_length. lia. }
  unfold answer in Hans. rewrite Hans. unfold query_body. cbn [q_crit map mjoin list_join fv_F fv_V]. change (str "=") with [61]. rewrite !app_nil_r, <- !app_assoc. done.
Qed.
End home.
