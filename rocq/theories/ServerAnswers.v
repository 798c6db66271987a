From Coq Require Import ZifyBool ZifyNat.
From Verif Require Import Base BaseProofs Float64 FnvModel FnvSpec FnvProofs HllModel Stat64Spec CollationModel CollationSpec CollationProofs CollationTop CollationTop2
  BufmapModel BufmapSpec BufmapProofs BufmapTop BufmapRefuted RegexpModel QueryModel QuerySpec QueryProofs QueryTop QueryProps ServerModel ServerSpec ScanProofs ParseRowProofs ServerProofs StoreProofs ServerInv ServerTop.
Local Open Scope Z_scope.

Section answers.
Context (pf : bytes → option float) (est : Counter → Z) (ff : float → bytes) (et : error → bytes) (pm : bytes → option bytes) (order : list FM → list FM).
Notation serve := (ServeHTTP pf est ff et pm order).
Notation serve_all := (serve_all pf est ff et pm order).

(** the text select m(f) where key='v' *)
Definition one_query (m f key v : bytes) : bytes := str "select " ++ m ++ str "(" ++ f ++ str ") where " ++ key ++ str "='" ++ v ++ str "'".
Lemma one_query_parse m f key v : map_order order → name_ok m → name_ok f → key_ok key → value_ok v → ¬ has_where (crit_item (key, v)) →
  RoughParse order (one_query m f key v) = Ok (MkQuery [MkFM f [m]] [MkFV key v]).
Proof.
  intros Ho Hm Hf Hk Hv Hw. pose proof (C59_value_partial order m f key v Hm Hf Hk Hv Hw) as E.
  assert (order [MkFM f [m]] = [MkFM f [m]]) as Eo. { apply Permutation_length_1_inv. symmetry. apply Ho. } rewrite Eo in E. rewrite <- E. f_equal.
  unfold one_query, sel_item, crit_item. cbn [fst snd]. by rewrite <- !app_assoc.
Qed.
Lemma matching_one key v rows : matching [key] [MkFV key v] rows = filter (λ r, value_of key (row_data r) = Some v) rows.
Proof.
  unfold matching. apply list_filter_iff. intros r. rewrite Forall_singleton. cbn [value_of]. by rewrite decide_True.
Qed.
Lemma record_key_one key v : record_key [key] [MkFV key v] = Some (fnv1_spec (key ++ v)).
Proof. unfold record_key. cbn [key_text value_of fv_F fv_V]. rewrite decide_True by done. cbn. by rewrite app_nil_r. Qed.

Lemma zip_snd {A B} (x : list A) (y : list B) : length x = length y → map snd (zip x y) = y.
Proof. revert y. induction x as [|a x IH]; intros [|b y]; cbn; [done..|]. intros [= H]. f_equal. by apply IH. Qed.
Lemma zip_len {A B} (x : list A) (y : list B) : length x = length y → length (zip x y) = length y.
Proof. intros H. rewrite <- (map_length snd), zip_snd; done. Qed.
Lemma name_cnt : name_ok (str "count") ∧ name_ok (str "*").
Proof. split; (split; [done|]); apply (bool_decide_unpack _); vm_compute; done. Qed.
(** the answer to a query for one measure *)
Lemma one_answer c sts0 rqs sts rs rows l s rq key v m f n res : cfg_ok c → initial c sts0 → Forall request_ok rqs → serve_all sts0 rqs = (sts, rs) → posted pm rqs rs rows →
  installed c l s → plain_name (s_name s) → s_keys s = [key] → map_order order → name_ok m → name_ok f → key_ok key → value_ok v → ¬ has_where (crit_item (key, v)) →
  coll_query rq (s_name s) (one_query m f key v) →
  let k := fnv1_spec (key ++ v) in is_key k → no_collision [key] [MkFV key v] rows → readable l (c_size (Compile s)) n k →
  (∀ g, reader_of (Compile s) f m = Some g → g_high g ≤ n) →
  let mine := filter (λ r, value_of key (row_data r) = Some v) rows in
  (∀ inits buf, length inits = length mine → head inits = Some true → apply_rows pf (Compile s) (replicate (Z.to_nat (c_size (Compile s))) 0) (zip inits mine) = Ok buf →
     answer est s buf f m = Ok [res]) →
  serve sts rq = (sts, Resp 200 (key ++ str "=" ++ v ++ [10] ++ if decide (mine = []) then [] else FMV_String ff res ++ [10])).
Proof.
  intros Hc H0 Hr E Hp Hins Hpn Hkeys Ho Hm Hf Hk Hv Hw Hq k Hkey Hcol Hread Hg mine Hans.
  pose proof (one_query_parse m f key v Ho Hm Hf Hk Hv Hw) as Hparse.
  destruct (end_to_end pf est ff et pm order c sts0 rqs sts rs rows l s rq _ _ k Hc H0 Hr E Hp Hins Hpn Hq Hparse) as [A B]; cbn [q_crit]; rewrite ?Hkeys; try done; [apply record_key_one|].
  cbn [q_crit q_fms] in A, B. rewrite Hkeys, matching_one in A, B. fold mine in A, B. destruct (decide (mine = [])) as [En|Hn].
  - rewrite (A En). unfold query_body. cbn [q_crit map mjoin list_join fv_F fv_V]. change (str "=") with [61]. rewrite !app_nil_r. done.
  - destruct (B Hn) as (inits & buf & Hl & Hh & Hap & Hserve). rewrite (Hserve n Hread).
    + specialize (Hans inits buf Hl Hh Hap). unfold answer in Hans. rewrite Hans. unfold query_body. cbn [q_crit map mjoin list_join fv_F fv_V]. change (str "=") with [61]. rewrite !app_nil_r, <- !app_assoc. done.
    + intros fm m' g Hfm Hm' Hg'. apply elem_of_list_singleton in Hfm as ->. cbn [fm_M fm_F] in *. apply elem_of_list_singleton in Hm' as ->. by apply Hg.
Qed.

(** ** what a query really answers *)
Lemma Store_Read_exact l s st q k d x : schema_ok s → store_inv pf l s st → is_key k → record_key (s_keys s) (q_crit q) = Some k → record (st_map st) k = Some d →
  0 ≤ x < l → key_at (st_map st) x = k →
  Store_Read est st q = if decide (x * (c_size (Compile s) + 1) ≤ l * c_size (Compile s)) then
     let n := Nat.min (Z.to_nat x) (Z.to_nat (c_size (Compile s))) in
     match Coll_Read est (Compile s) (q_fms q) (take n d ++ drop n (replicate (Z.to_nat (c_size (Compile s))) 0)) with Panic => Panics | r => Ret r end
   else Panics.
Proof.
  intros Hs I Hk Ek Hrec Hx Ex. unfold Store_Read, Query_KeyValue. rewrite KeyValue_spec, (si_coll _ _ _ _ I), (proj1 (compile_names s)), Ek. cbn [negb].
  pose proof (si_inv _ _ _ _ I) as Im. pose proof (si_wedge _ _ _ _ I k Hk) as Hw. destruct (decide _) as [Hle|Hgt].
  - destruct (Get_prefix _ _ _ k x (replicate (Z.to_nat (c_size (Compile s))) 0) Im Hk Hx Ex Hw Hle) as (d2 & Hd2 & ->); [by rewrite replicate_length|].
    rewrite Hrec in Hd2. injection Hd2 as <-. done.
  - destruct (Get_present _ _ _ k x (replicate (Z.to_nat (c_size (Compile s))) 0) Im Hk Hx Ex) as (_ & _ & ->); [done|done|lia].
Qed.
(** a key that is the first of a fresh server is in its home slot *)
Lemma fresh_post c sts0 rq b line r sts l s k : cfg_ok c → initial c sts0 → request_ok rq → obs_post pm rq b → text_of [line] b → parseRow line = Ok r →
  serve sts0 rq = (sts, Resp 200 []) → installed c l s → record_key (s_keys s) (row_data r) = Some k → is_key k →
  ∃ a st b' d, sts = a ++ st :: b' ∧ Forall (λ x, c_name (st_coll x) ≠ s_name s) a ∧ store_inv pf l s st ∧ record (st_map st) k = Some d ∧ key_at (st_map st) (k mod l) = k.
Proof.
  intros Hc H0 Hok Ho Ht Ep E Hins Hk Hkey. pose proof (proj1 (post_accepts pf est ff et pm order rq b [line] sts0 sts Ho Ht) E) as HA.
  inversion_clear HA as [|? ? sts1 ? ? (r2 & Er2 & HT) HN]. rewrite Ep in Er2. injection Er2 as <-. inversion HN; subst.
  assert (row_ok r) as Hrow.
  { apply (parseRow_bytes line); [|done]. destruct (obs_body pf est ff et pm order rq b sts0 Ho) as (rd & Hy & _ & Hev). pose proof (yields_bytes _ _ _ Hy (Hev Hok)) as Hb. pose proof (text_bytes _ _ Ht Hb) as Hl. by inversion_clear Hl. }
  destruct Hins as (ca & cb & -> & Hn). pose proof (ServeHTTP_inv pf est ff et pm order _ _ _ _ _ Hc Hok (initial_inv pf _ _ Hc H0) E) as Hi.
  apply Forall2_app_inv_l in H0 as (xa & xb & H0a & H0b & ->). apply Forall2_cons_inv_l in H0b as (st0 & xb' & Hst0 & H0b & ->).
  apply Forall2_app_inv_l in HT as (ya & yb & HTa & HTb & ->). apply Forall2_cons_inv_l in HTb as (st & yb' & Hst & HTb & ->).
  apply Forall2_app_inv_l in Hi as (za & zb & Hia & Hib & Es). apply Forall2_cons_inv_l in Hib as (stz & zb' & Hstz & Hib & ->).
  assert (ya = za ∧ st = stz) as [<- <-]. { apply Forall2_length in H0a, HTa, Hia. apply app_inj_1 in Es as [-> Es]; [|lia]. by injection Es as -> _. }
  apply Forall_app in Hc as [_ Hc]. inversion_clear Hc as [|? ? [Hs Hd] _]. cbn [fst snd] in *.
  unfold add_collation in Hst0. destruct (BufmapModel.New l (c_size (Compile s))) as [m| |] eqn:Em; [|done..]. cbn [obind] in Hst0. injection Hst0 as <-.
  unfold store_takes, Store_Write, Row_KeyValue in Hst. cbn [st_coll st_map] in Hst. rewrite KeyValue_spec, (proj1 (compile_names s)), Hk in Hst. cbn [negb ctx_done] in Hst.
  destruct (CollationTop2.never_panics pf s _ r true Hs (CollationSpec.reach_new pf s) (row_values r Hrow)) as (d & o & Ed & Hnp & _).
  destruct (first_update_weak l _ m k (transaction pf (Compile s) r) Hd Em Hkey (transaction_ok pf _ _)) as (m' & o' & Eu & I' & Kh & _ & Hrec & _).
  { unfold transaction, BufmapSpec.zeros. rewrite Ed. done. }
  rewrite Eu in Hst. injection Hst as <- _. eexists ya, _, yb', _. split; [done|]. split; [|split; [done|split; [exact Hrec|exact Kh]]].
  clear -Hia Hn. induction Hia as [|ls x ca sa Hx Hia IH]; [constructor|]. inversion_clear Hn as [|? ? H1 H2]. constructor; [|by apply IH].
  rewrite (si_coll _ _ _ _ Hx). by rewrite (proj2 (compile_names _)).
Qed.
End answers.
