(** The answer to a whole query: several key fields, several measures. *)
From Coq Require Import ZifyBool ZifyNat.
From Verif Require Import Base BaseProofs Float64 Stat64Model Stat64Spec FnvModel FnvSpec FnvProofs HllModel HllSpec CollationModel CollationSpec CollationProofs CollationLayout CollationTop CollationTop2
  BufmapModel BufmapSpec BufmapProofs BufmapTop QueryModel QuerySpec QueryProofs QueryTop QueryProps ServerModel ServerSpec ScanProofs ParseRowProofs ServerProofs StoreProofs ServerInv ServerTop ServerAnswers ServerHomeSpec StoreHome ServerHome ServerQuerySpec.
Local Open Scope Z_scope.

Section query.
Context (pf : bytes → option float) (est : Counter → Z) (ff : float → bytes) (et : error → bytes) (pm : bytes → option bytes) (order : list FM → list FM).
Notation serve := (ServeHTTP pf est ff et pm order).
Notation serve_all := (serve_all pf est ff et pm order).

Lemma read_measures_all s buf f rs ms : c_read (Compile s) !! f = Some rs → (∀ n, n ∈ ms → ∃ l, answer est s buf f n = Ok l) → ∃ res, read_measures est buf f rs ms = Ok res.
Proof.
  intros Hf. induction ms as [|n ms IH]; intros H; cbn [read_measures]; [eauto|]. destruct IH as [res ->]; [intros n' Hn; apply H; by right|].
  destruct (H n) as [l Hl]; [left|]. rewrite answer_spec in Hl. unfold reader_of in Hl. rewrite Hf in Hl. cbn [mbind option_bind] in Hl. destruct (rs !! n) as [g|]; [|eauto].
  destruct (slice buf _ _) as [b|e|]; [|done..]. cbn [obind] in *. destruct (cont_read est (g_m g) b) as [v|e|]; [|done..]. cbn [obind]. eauto.
Qed.
Lemma Coll_Read_all s buf fml : (∀ f n, (f, n) ∈ requested fml → ∃ l, answer est s buf f n = Ok l) → ∃ res, Coll_Read est (Compile s) fml buf = Ok res.
Proof.
  induction fml as [|fm fml IH]; intros H; cbn [Coll_Read]; [eauto|]. unfold requested in H. cbn [mbind list_bind] in H.
  destruct IH as [res' ->]. { intros f n Hfn. apply H. apply elem_of_app. by right. }
  assert (∃ res, match c_read (Compile s) !! fm_F fm with Some rs => read_measures est buf (fm_F fm) rs (fm_M fm) | None => Ok [] end = Ok res) as [res ->]; [|cbn [obind]; eauto].
  destruct (c_read (Compile s) !! fm_F fm) as [rs|] eqn:Ef; [|eauto]. eapply read_measures_all; [done|]. intros n Hn. apply H. apply elem_of_app. left. by apply elem_of_list_fmap_1.
Qed.
(** every measure but uniquecount can always be read *)
Lemma answer_not_card s buf f n : schema_ok s → reachable pf s buf → n ≠ str "uniquecount" → ∃ l, answer est s buf f n = Ok l.
Proof.
  intros Hs Hr Hn. pose proof (read_never_panics pf est s buf [MkFM f [n]] Hs Hr) as Hp. fold (answer est s buf f n) in Hp. destruct (answer est s buf f n) as [l|e|] eqn:E; [eauto| |done].
  exfalso. rewrite answer_spec in E. destruct (reader_of (Compile s) f n) as [g|] eqn:Eg; [|done]. destruct (Compile_inv s Hs) as (cs & Hi & _). destruct (i_read _ _ _ Hi f n g Eg) as (En & _).
  assert (∀ (b : bytes) lo hi e, slice b lo hi ≠ Err e) as Hsl. { intros b lo hi e'. unfold slice. by destruct (_ && _ && _). }
  destruct (slice buf _ _) as [b|e'|] eqn:Es; [|by eapply Hsl|done]. cbn [obind] in E.
  assert (∀ e, cont_read est (g_m g) b ≠ Err e) as Hc; [|destruct (cont_read est (g_m g) b) as [v|e'|] eqn:Ec; [done|by eapply Hc|done]].
  intros e'. destruct (g_m g); [| | | | | |exfalso; by apply Hn]; cbn [cont_read]; unfold Stat_Sum, Stat_Mean, Stat_Variance, stat_f64, stat_u64.
  - destruct (slice b _ _) eqn:E1; [done| |done]. by apply Hsl in E1.
  - destruct (slice (Stat_WithBytes b) _ _) eqn:E1; [done| |done]. by apply Hsl in E1.
  - destruct (slice (Stat_WithBytes b) _ _) eqn:E1; [done| |done]. by apply Hsl in E1.
  - destruct (slice (Stat_WithBytes b) 0 _) eqn:E1; [| |done]; [|by apply Hsl in E1]. cbn [obind]. destruct (_ <? _); [done|].
    destruct (slice (Stat_WithBytes b) 24 _) eqn:E2; [done| |done]. by apply Hsl in E2.
  - destruct (slice b _ _) eqn:E1; [done| |done]. by apply Hsl in E1.
  - destruct (slice b _ _) eqn:E1; [done| |done]. by apply Hsl in E1.
Qed.

(** the pairs asked for are those of the query text *)
Lemma requested_perm a b : a ≡ₚ b → requested a ≡ₚ requested b.
Proof. intros H. unfold requested. by rewrite H. Qed.
Lemma nodup_dedup l : NoDup (dedup l) ∧ ∀ x, x ∈ dedup l ↔ x ∈ l.
Proof.
  induction l as [|f l [IH1 IH2]]; [split; [constructor|done]|]. cbn [dedup]. split.
  - constructor; [|by apply NoDup_filter]. rewrite elem_of_list_filter. tauto.
  - intros x. rewrite !elem_of_cons, elem_of_list_filter, IH2. destruct (decide (x = f)); tauto.
Qed.
Lemma filter_split_perm {A} (P : A → Prop) `{∀ x, Decision (P x)} (l : list A) : filter P l ++ filter (λ x, ¬ P x) l ≡ₚ l.
Proof.
  induction l as [|x l IH]; [done|]. destruct (decide (P x)).
  - rewrite (filter_cons_True P), (filter_cons_False (λ x, ¬ P x)) by tauto. cbn. by rewrite IH.
  - rewrite (filter_cons_False P), (filter_cons_True (λ x, ¬ P x)) by tauto. rewrite <- Permutation_middle. by rewrite IH.
Qed.
Lemma requested_groups (ps : list (bytes * bytes)) fs : NoDup fs → (∀ p, p ∈ ps → p.2 ∈ fs) → requested (map (λ f, MkFM f (measures_of f ps)) fs) ≡ₚ map (λ p, (p.2, p.1)) ps.
Proof.
  intros Hnd. revert ps. induction Hnd as [|f fs Hf Hnd IH]; intros ps Hin.
  - destruct ps as [|p ps]; [done|]. exfalso. specialize (Hin p ltac:(left)). inversion Hin.
  - cbn [map]. unfold requested. cbn [mbind list_bind fm_F fm_M]. change (mbind (λ fm, map (pair (fm_F fm)) (fm_M fm)) ?x) with (requested x).
    assert (requested (map (λ g, MkFM g (measures_of g ps)) fs) = requested (map (λ g, MkFM g (measures_of g (filter (λ p, ¬ p.2 = f) ps))) fs)) as ->.
    { f_equal. apply map_ext_in. intros g Hg. apply elem_of_list_In in Hg. f_equal. unfold measures_of. f_equal. rewrite list_filter_filter. apply list_filter_iff. intros p. split; [|tauto]. intros E. split; [done|]. intros E'. by rewrite <- E, E' in Hg. }
    rewrite IH.
    + assert (map (pair f) (measures_of f ps) = map (λ p, (p.2, p.1)) (filter (λ p, p.2 = f) ps)) as ->.
      { unfold measures_of. rewrite map_map. apply map_ext_in. intros p Hp. apply elem_of_list_In, elem_of_list_filter in Hp as [<- _]. done. }
      rewrite <- map_app. apply Permutation_map. apply filter_split_perm.
    + intros p [Hp Hps]%elem_of_list_filter. specialize (Hin p Hps). apply elem_of_cons in Hin as [|]; [done|done].
Qed.
Lemma requested_grouped ps : requested (grouped ps) ≡ₚ map (λ p, (p.2, p.1)) ps.
Proof. apply requested_groups; [apply nodup_dedup|]. intros p Hp. apply nodup_dedup. apply elem_of_list_fmap. eauto. Qed.

(** both facts about a store *)
Definition store_both (l : Z) (s : Schema) (st : Store) (rows : list Row) : Prop := store_rows pf s st rows ∧ store_home pf l s st rows ∧ Forall row_ok rows.
Lemma store_both_step l s st r st' rows : schema_ok s → store_inv pf l s st → row_ok r → store_takes pf r st st' → store_both l s st rows → store_both l s st' (rows ++ [r]).
Proof.
  intros H1 H2 H3 H4 (A & B & C). split; [by eapply store_takes_rows|]. split; [by eapply store_home_step|]. apply Forall_app. split; [done|by apply Forall_singleton].
Qed.
Lemma store_both_new l s st : schema_ok s → dims_ok l (c_size (Compile s)) → add_collation l s = Ok st → store_both l s st [].
Proof.
  intros H1 H2 H. split; [|split; [by apply store_home_new|constructor]]. destruct (add_collation_inv pf _ _ _ H1 H2 H) as [_ Hn]. intros k Hk. by rewrite Hn.
Qed.
Lemma readable_home l size k : readable l size size k → home_readable l size size k.
Proof. intros (A & B & C). split; [exact A|]. unfold home. nia. Qed.

Lemma query_answer c sts0 rqs sts rs rows l s rq ps qs text k : cfg_ok c → initial c sts0 → Forall request_ok rqs → serve_all sts0 rqs = (sts, rs) → posted pm rqs rs rows →
  installed c l s → plain_name (s_name s) → map_order order → query_text ps qs text → coll_query rq (s_name s) text →
  record_key (s_keys s) (criteria qs) = Some k → is_key k → no_collision (s_keys s) (criteria qs) rows → readable l (c_size (Compile s)) (c_size (Compile s)) k →
  let mine := matching (s_keys s) (criteria qs) rows in
  mine ≠ [] →
  (∀ f, (str "uniquecount", f) ∈ ps → declared s f (str "uniquecount") → undisturbed l s k rows ∧ first_has f mine ∧ ∃ p, ∀ p', field_measure s f (MCardinality p') → p' = p) →
  ∃ asked lines, asked ≡ₚ ps ∧
    Forall2 (λ '(n, f) line, (declared s f n ∧ ∃ v, line = value_line ff n f v ∧ right_value pf est l s k rows mine n f v) ∨ (¬ declared s f n ∧ line = [])) asked lines ∧
    serve sts rq = (sts, Resp 200 (crit_lines qs ++ mjoin lines)).
Proof.
  intros Hc H0 Hr E Hp Hins Hpn Ho Ht Hq Ek Hkey Hcol Hread mine Hne Huq.
  assert (schema_ok s) as Hs. { destruct Hins as (ca & cb & -> & _). apply Forall_app in Hc as [_ Hc]. inversion_clear Hc as [|? ? [? _] _]. done. }
  destruct (C57_parse order ps qs text Ho Ht) as (fms & Hfms & Hparse).
  destruct (history_q pf est ff et pm order store_both store_both_step store_both_new c sts0 rqs sts rs rows l s Hc H0 Hr E Hp Hins) as (a & st & b & Es & Ha & I & Hrows & Hhome & Hrok).
  pose proof (serve_query pf est ff et pm order sts rq s _ _ Hpn Hq Hparse) as Eq. rewrite (query_stores_at est ff et sts a st b s _ Es Ha (si_coll _ _ _ _ I)) in Eq.
  pose proof (Hrows k Hkey) as H1. pose proof (Hhome k Hkey) as H2. rewrite (rows_for_matching s (criteria qs) k rows Ek Hcol) in H1, H2. fold mine in H1, H2.
  destruct (record (st_map st) k) as [d|] eqn:Erec; [|done]. destruct H1 as (_ & inits & Hl & Hh & Hap).
  assert (asked_end s fms (c_size (Compile s))) as Hend. { intros fm m g _ _ Hg. destruct (Compile_inv s Hs) as (cs & Hi & _). destruct (i_read _ _ _ Hi _ m g Hg) as (_ & kk & m' & Hin & _). by destruct (laid_bounds _ _ _ _ _ (i_laid _ _ _ Hi) Hin) as (_ & _ & _ & ?). }
  rewrite (Store_Read_present pf est pm l s st (MkQuery fms (criteria qs)) k d _ Hs I Hkey Ek Erec Hread Hend) in Eq. cbn [q_fms] in Eq.
  pose proof (si_good _ _ _ _ I k d Hkey Erec) as Hgood.
  assert (map snd (zip inits mine) = mine) as Ezip by (by apply zip_snd). assert (length (zip inits mine) = length mine) as Elen by (by apply zip_len).
  assert (Forall is_bytes (r ← mine; map fv_V (row_data r))) as Hbytes.
  { apply Forall_forall. intros x Hx. apply elem_of_list_bind in Hx as (r & Hx & Hin). apply elem_of_list_fmap in Hx as (fv & -> & Hfv). apply elem_of_list_filter in Hin as [_ Hin].
    rewrite Forall_forall in Hrok. specialize (Hrok r Hin). unfold row_ok in Hrok. rewrite Forall_forall in Hrok. by apply Hrok. }
  assert (∀ f, Forall is_bytes (field_values f mine)) as Hfb.
  { intros f. rewrite Forall_forall in Hbytes |- *. intros x Hx. apply Hbytes. unfold field_values in Hx. apply elem_of_list_bind in Hx as (r & Hx & Hin). apply elem_of_list_fmap in Hx as (fv & -> & Hfv).
    apply elem_of_list_filter in Hfv as [_ Hfv]. apply elem_of_list_bind. exists r. split; [|done]. by apply elem_of_list_fmap_1. }
  assert (∀ f p, field_measure s f (MCardinality p) → (∀ p', field_measure s f (MCardinality p') → p' = p) → undisturbed l s k rows → first_has f mine →
    ∃ c0 ctr, Hll_New p = Ok c0 ∧ Hll_Adds c0 (field_values f mine) = Ok ctr ∧ answer est s d f (str "uniquecount") = Ok [MkFMV f (str "uniquecount") (f_of_Z (est ctr))]) as Hcard.
  { intros f p Hm Hone Hu (r0 & rest & Em & Hho). destruct (H2 Hu) as (_ & _ & Hafter). specialize (Hfb f). rewrite Em in *. by apply (card_answer pf est s f p r0 rest d Hs Hm Hone Hho). }
  assert (∀ f n, (n, f) ∈ ps → ∃ ans, answer est s d f n = Ok ans) as Hok.
  { intros f n Hin. destruct (decide (n = str "uniquecount")) as [->|Hn]; [|by apply answer_not_card]. pose proof (layout_declared s f (str "uniquecount") Hs) as Hd.
    destruct (reader_of (Compile s) f (str "uniquecount")) as [g|] eqn:Eg; [|exists []; rewrite answer_spec, Eg; done].
    assert (declared s f (str "uniquecount")) as Hdec by (apply Hd; eauto). destruct (Huq f Hin Hdec) as (Hu & Hf & p & Hone).
    assert (∃ p', field_measure s f (MCardinality p')) as [p' Hm]. { destruct Hdec as [(_ & ? & _)|(m & Hm & _ & En)]; [done|]. destruct m; try discriminate En. eauto. }
    pose proof (Hone p' Hm) as ->. destruct (Hcard f p Hm Hone Hu Hf) as (? & ? & _ & _ & ?). eauto. }
  assert (requested fms ≡ₚ map (λ p, (p.2, p.1)) ps) as Hreq. { rewrite (requested_perm _ _ Hfms). apply requested_grouped. }
  destruct (Coll_Read_all s d fms) as [res Hres]. { intros f n Hin. apply Hok. rewrite Hreq in Hin. apply elem_of_list_fmap in Hin as ([n' f'] & [= -> ->] & Hin). done. }
  rewrite Hres in Eq. destruct (Read_answers est s d fms res Hres) as (ls & HF & ->).
  exists (map (λ p, (p.2, p.1)) (requested fms)), (map (λ l, mjoin (map (λ r, FMV_String ff r ++ [10]) l)) ls). split; [|split].
  - rewrite Hreq, map_map. cbn. clear. induction ps as [|[n f] ps IH]; [done|]. cbn. by constructor.
  - rewrite Forall2_fmap_l, Forall2_fmap_r. eapply Forall2_impl; [exact HF|]. intros [f n] ans Hans. cbv beta iota delta [fst snd].
    destruct (answer_shape est s d f n ans Hs Hans) as [Hy Hno]. pose proof (layout_declared s f n Hs) as Hd.
    destruct (reader_of (Compile s) f n) as [g|] eqn:Eg; [left|right].
    + assert (declared s f n) as Hdec by (apply Hd; eauto). split; [done|]. destruct (Hy Hdec) as [v ->]. exists v. split.
      { cbn [map mjoin list_join]. unfold FMV_String, value_line. cbn [r_M r_F r_V]. rewrite app_nil_r, <- !app_assoc. done. }
      split.
      * intros -> -> Hrc. rewrite (count_answer pf est s _ d Hs Hrc Hap), Elen in Hans. by injection Hans.
      * intros -> Hm. pose proof (proj1 (stat_answer pf est s f MSum _ (zip inits mine) d Hs Hm Hap eq_refl)) as X. rewrite Ezip in X. cbn [m_name] in X. rewrite X in Hans. by injection Hans.
      * intros -> Hm. pose proof (proj1 (stat_answer pf est s f MMean _ (zip inits mine) d Hs Hm Hap eq_refl)) as X. rewrite Ezip in X. cbn [m_name] in X. rewrite X in Hans. by injection Hans.
      * intros -> Hm. pose proof (proj1 (stat_answer pf est s f MVariance _ (zip inits mine) d Hs Hm Hap eq_refl)) as X. rewrite Ezip in X. cbn [m_name] in X. rewrite X in Hans. by injection Hans.
      * intros -> Hm Hu (r0 & rest & Em & Hho) Hnan. destruct (H2 Hu) as (_ & _ & Hafter). rewrite Em in *. destruct (max_answer pf est s f r0 rest d Hs Hm Hho Hafter Hnan) as (v' & X & Hmax). rewrite X in Hans. injection Hans as <-. done.
      * intros -> Hm Hu (r0 & rest & Em & Hho) Hnan. destruct (H2 Hu) as (_ & _ & Hafter). rewrite Em in *. destruct (min_answer pf est s f r0 rest d Hs Hm Hho Hafter Hnan) as (v' & X & Hmin). rewrite X in Hans. injection Hans as <-. done.
      * intros p -> Hm Hone Hu Hf. destruct (Hcard f p Hm Hone Hu Hf) as (c0 & ctr & ? & ? & X). rewrite X in Hans. injection Hans as <-. eauto.
    + assert (¬ declared s f n) as Hdec by (intros [? ?]%Hd; done). split; [done|]. by rewrite (Hno Hdec).
  - rewrite Eq. do 2 f_equal. unfold query_body, crit_lines, criteria. cbn [q_crit]. f_equal.
    + rewrite map_map. cbn [fv_F fv_V]. done.
    + assert (∀ a b : list bytes, mjoin (a ++ b) = mjoin a ++ mjoin b) as Hj. { clear. induction a as [|y a IH]; intros b; [done|]. cbn [app mjoin list_join]. change (list_join ?x) with (mjoin x). rewrite IH. by rewrite app_assoc. }
      clear -Hj. induction ls as [|x ls IH]; [done|]. cbn [concat map]. rewrite map_app, Hj, IH. done.
Qed.
End query.
