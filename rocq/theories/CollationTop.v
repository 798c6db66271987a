(** Histories of a record: the statements about each measure. *)
From Coq Require Import ZifyBool ZifyNat.
From Verif Require Import Base BaseProofs Float64 FloatOrder FnvModel FnvSpec FnvProofs BitbucketModel BitbucketSpec BitbucketProofs HllModel HllSpec HllProofs
  Stat64Model Stat64Spec Stat64Proofs CollationModel CollationSpec CollationLayout CollationCells CollationProofs CollationMeasures.
Local Open Scope Z_scope.

Definition zeros (s : Schema) : bytes := replicate (Z.to_nat (c_size (Compile s))) 0.
Lemma name_inj m m' : m_name m = m_name m' → m = m' ∨ (∃ p p', m = MCardinality p ∧ m' = MCardinality p').
Proof. destruct m, m'; try (by left); try (by right; eauto); vm_compute; intros [=]. Qed.

(** every disc cell of field f holds a measure the schema declares for f *)
Definition disc_declared (D : bytes → measure → Prop) (c : Collator) : Prop :=
  ∀ f ws g, c_disc c !! f = Some ws → g ∈ ws → D f (g_m g).
Lemma disc_declared_row D (st : Collator * Z) rm : disc_declared D st.1 → disc_declared D (compile_row st rm).1.
Proof. destruct st as [c pos]. done. Qed.
Lemma disc_declared_measure (D : bytes → measure → Prop) f (st : Collator * Z * option (Z * Z)) m : D f m → disc_declared D st.1.1 → disc_declared D (compile_measure f st m).1.1.
Proof.
  intros HD. destruct st as [[c pos] stat]. cbn [fst]. intros H. unfold compile_measure.
  destruct (is_cont_input m) eqn:Ec.
  - assert (is_disc_input m = false) as -> by (by destruct m). destruct (is_stat m); [destruct stat as [[]|]|]; exact H.
  - destruct (is_disc_input m); [|exact H]. intros f' ws g. cbn [fst c_disc]. unfold add_writer.
    destruct (decide (f = f')) as [<-|Hf].
    + rewrite lookup_insert. intros [= <-] [Hg|Hg%elem_of_list_singleton]%elem_of_app; [|by subst].
      destruct (c_disc c !! f) as [ws|] eqn:E; [by eapply H|by apply elem_of_nil in Hg].
    + rewrite lookup_insert_ne by done. apply H.
Qed.
Lemma disc_declared_rows D rms : ∀ st : Collator * Z, disc_declared D st.1 → disc_declared D (fold_left compile_row rms st).1.
Proof. induction rms as [|rm rms IH]; intros st H; [done|]. cbn [fold_left]. apply IH. by apply disc_declared_row. Qed.
Lemma disc_declared_measures (D : bytes → measure → Prop) f ms : (∀ m, m ∈ ms → D f m) → ∀ st : Collator * Z * option (Z * Z),
  disc_declared D st.1.1 → disc_declared D (fold_left (compile_measure f) ms st).1.1.
Proof.
  induction ms as [|m ms IH]; intros Hm st H; [done|]. cbn [fold_left]. apply IH; [set_solver|].
  apply disc_declared_measure; [apply Hm; left|done].
Qed.
Lemma disc_declared_specs (D : bytes → measure → Prop) l : (∀ ms m, ms ∈ l → m ∈ ms_measures ms → D (ms_field ms) m) →
  ∀ st : Collator * Z, disc_declared D st.1 → disc_declared D (fold_left compile_spec l st).1.
Proof.
  induction l as [|ms l IH]; intros Hm st H; [done|]. cbn [fold_left]. apply IH; [set_solver|].
  unfold compile_spec. apply disc_declared_measures; [set_solver|done].
Qed.
Lemma Compile_disc s : disc_declared (field_measure s) (Compile s).
Proof.
  unfold Compile. apply disc_declared_specs; [intros ms m H1 H2; by exists ms|]. apply disc_declared_rows.
  intros f ws g. cbn [fst c_disc]. by rewrite lookup_empty.
Qed.
(** every cont cell of field f holds a measure the schema declares for f *)
Definition cont_declared (D : bytes → measure → Prop) (c : Collator) : Prop :=
  ∀ f ws g, c_cont c !! f = Some ws → g ∈ ws → D f (g_m g).
Lemma cont_declared_row D (st : Collator * Z) rm : cont_declared D st.1 → cont_declared D (compile_row st rm).1.
Proof. destruct st as [c pos]. done. Qed.
Lemma cont_declared_measure (D : bytes → measure → Prop) f (st : Collator * Z * option (Z * Z)) m : D f m → cont_declared D st.1.1 → cont_declared D (compile_measure f st m).1.1.
Proof.
  intros HD. destruct st as [[c pos] stat]. cbn [fst]. intros H. unfold compile_measure.
  assert (∀ rg, g_m rg = m → ∀ f' ws g, add_writer (c_cont c) f rg !! f' = Some ws → g ∈ ws → D f' (g_m g)) as Hadd.
  { intros rg Hrg f' ws g. unfold add_writer. destruct (decide (f = f')) as [<-|Hf].
    + rewrite lookup_insert. intros [= <-] [Hg|Hg%elem_of_list_singleton]%elem_of_app; [|by subst].
      destruct (c_cont c !! f) as [ws|] eqn:E; [by eapply H|by apply elem_of_nil in Hg].
    + rewrite lookup_insert_ne by done. apply H. }
  destruct (is_cont_input m) eqn:Ec.
  - assert (is_disc_input m = false) as -> by (by destruct m).
    destruct (is_stat m); [destruct stat as [[]|]|]; cbn [fst c_cont]; [exact H|intros f0 ws g; cbn [fst c_cont]; by apply (Hadd (Rg _ _ m))..].
  - destruct (is_disc_input m); exact H.
Qed.
Lemma cont_declared_rows D rms : ∀ st : Collator * Z, cont_declared D st.1 → cont_declared D (fold_left compile_row rms st).1.
Proof. induction rms as [|rm rms IH]; intros st H; [done|]. cbn [fold_left]. apply IH. by apply cont_declared_row. Qed.
Lemma cont_declared_measures (D : bytes → measure → Prop) f ms : (∀ m, m ∈ ms → D f m) → ∀ st : Collator * Z * option (Z * Z),
  cont_declared D st.1.1 → cont_declared D (fold_left (compile_measure f) ms st).1.1.
Proof.
  induction ms as [|m ms IH]; intros Hm st H; [done|]. cbn [fold_left]. apply IH; [set_solver|].
  apply cont_declared_measure; [apply Hm; left|done].
Qed.
Lemma cont_declared_specs (D : bytes → measure → Prop) l : (∀ ms m, ms ∈ l → m ∈ ms_measures ms → D (ms_field ms) m) →
  ∀ st : Collator * Z, cont_declared D st.1 → cont_declared D (fold_left compile_spec l st).1.
Proof.
  induction l as [|ms l IH]; intros Hm st H; [done|]. cbn [fold_left]. apply IH; [set_solver|].
  unfold compile_spec. apply cont_declared_measures; [set_solver|done].
Qed.
Lemma Compile_cont s : cont_declared (field_measure s) (Compile s).
Proof.
  unfold Compile. apply cont_declared_specs; [intros ms m H1 H2; by exists ms|]. apply cont_declared_rows.
  intros f ws g. cbn [fst c_cont]. by rewrite lookup_empty.
Qed.
Lemma laid_le cs : ∀ lo hi, laid lo cs hi → lo ≤ hi.
Proof. induction cs as [|[k g] cs IH]; simpl; intros lo hi H; [done|]. destruct H as (?&?&?&H%IH). lia. Qed.
Lemma size_nonneg s : schema_ok s → 0 ≤ c_size (Compile s).
Proof. intros Hs. destruct (Compile_inv s Hs) as (cs & Hi & _). eapply laid_le, (i_laid _ _ _ Hi). Qed.
Lemma zeros_length s : schema_ok s → Z.of_nat (length (zeros s)) = c_size (Compile s).
Proof. intros Hs%size_nonneg. unfold zeros. rewrite replicate_length. lia. Qed.

Section top.
Context (pf : bytes → option float) (est : Counter → Z).
(** the general shape: the answer is read from one cell, whose content is the history of that cell *)
Lemma history_answer s f n rows buf : schema_ok s → declared s f n → apply_rows pf (Compile s) (zeros s) rows = Ok buf →
  ∃ k m m' b, feeds k m' f m ∧ n = m_name m ∧
    (∃ cs lo hi, inv (Compile s) (c_size (Compile s)) cs ∧ (k, Rg lo hi m') ∈ cs) ∧
    hist_steps pf m' k rows (replicate (Z.to_nat (m_size m')) 0) = Ok b ∧
    answer est s buf f n = (let! v := cont_read est m b in Ok [MkFMV f n v]) ∧
    (∀ i r fv, (i, r) ∈ rows → fv ∈ row_data r → k = KCont (fv_F fv) → is_Some (pf (fv_V fv))).
Proof.
  intros Hs Hd Ha. destruct (Compile_inv s Hs) as (cs & Hi & _ & _ & _). pose proof (zeros_length s Hs) as HL.
  destruct (apply_rows_spec pf _ _ _ Hi rows (zeros s) buf ltac:(lia) Ha) as (L & S).
  destruct (answer_cell est s f n cs buf Hs Hi Hd ltac:(lia)) as (k & m & m' & lo & hi & Hin & Hf & Hn & Hans).
  destruct (S _ _ Hin) as [Hst Hp]. exists k, m, m', (sub buf (Rg lo hi m')). split; [done|]. split; [done|]. split; [by eauto|]. split; [|split; [by apply Hans|done]].
  rewrite <- Hst. cbn [g_m]. f_equal. pose proof (cell_fits _ _ _ Hi _ _ (length (zeros s)) Hin ltac:(lia)) as Hfit.
  unfold zeros in *. rewrite replicate_length in Hfit. rewrite sub_zeros by done. f_equal.
  destruct (laid_bounds _ _ _ _ _ (i_laid _ _ _ Hi) Hin) as (_ & Hh & _). simpl in *. lia.
Qed.

Lemma count_answer s rows buf : schema_ok s → s_rows s ≠ [] → apply_rows pf (Compile s) (zeros s) rows = Ok buf →
  answer est s buf (str "*") (str "count") = Ok [MkFMV (str "*") (str "count") (f_of_Z (Z.of_nat (length rows) mod 2^64))].
Proof.
  intros Hs Hr Ha. destruct (history_answer s (str "*") (str "count") rows buf Hs ltac:(by left) Ha) as (k & m & m' & b & Hf & Hn & _ & Hst & -> & _).
  assert (m = MCount) as -> by (destruct (name_inj MCount m Hn) as [|(?&?&?&?)]; congruence).
  destruct k; simpl in Hf; [|naive_solver..]. destruct Hf as (_ & -> & _).
  change (replicate _ 0) with (put64 (0 mod 2^64)) in Hst. rewrite count_hist in Hst. injection Hst as <-. rewrite Z.add_0_l.
  cbn [cont_read]. rewrite slice_Ok by (rewrite ?put64_length; lia). rewrite drop_0, take_ge by (rewrite put64_length; lia).
  cbn [obind]. rewrite get64_put64 by (apply Z.mod_pos_bound; lia). done.
Qed.

(** the summary statistic that each of sum, mean, var reports *)
Definition stat_value (m : measure) (vs : list float) : option float :=
  match m with MSum => Some (sum_spec vs) | MMean => Some (mean_spec vs) | MVariance => Some (var_spec vs) | _ => None end.
Lemma stat_answer s f m v rows buf : schema_ok s → field_measure s f m → apply_rows pf (Compile s) (zeros s) rows = Ok buf →
  stat_value m (field_floats pf f (map snd rows)) = Some v →
  answer est s buf f (m_name m) = Ok [MkFMV f (m_name m) v] ∧ Forall (λ x, is_Some (pf x)) (field_values f (map snd rows)).
Proof.
  intros Hs Hm Ha Hv.
  assert (declared s f (m_name m)) as Hd by (right; exists m; split; [done|]; split; [by intros ->|done]).
  destruct (history_answer s f (m_name m) rows buf Hs Hd Ha) as (k & m2 & m' & b & Hf & Hn & _ & Hst & -> & Hp).
  assert (m2 = m) as -> by (destruct (name_inj m m2 Hn) as [|(p&?&->&?)]; [done|by simpl in Hv]).
  destruct k as [|f'|f']; simpl in Hf; [naive_solver| |destruct m; naive_solver]. destruct Hf as (<- & Hc & Hc' & Hf).
  assert (is_stat m' = true) as Hs' by (destruct Hf as [[]| <-]; [done|by destruct m]).
  replace (replicate (Z.to_nat (m_size m')) 0) with (enc acc0) in Hst by (rewrite enc_zero; by destruct m').
  rewrite stat_hist in Hst by (done || apply acc0_count). injection Hst as <-. rewrite acc_spec. split.
  - set (a := Acc _ _ _ _). pose proof (repr_enc a [] _ eq_refl) as (_ & R2 & R3 & R4). rewrite app_nil_r in *.
    destruct m; simpl in Hv; try done; injection Hv as <-; cbn [cont_read]; unfold Stat_WithBytes; [rewrite R2|rewrite R3|rewrite R4]; done.
  - apply Forall_forall. intros x Hx. unfold field_values in Hx. apply elem_of_list_bind in Hx as (r & Hx & Hr).
    apply elem_of_list_fmap in Hx as (fv & -> & [Hfv Hx]%elem_of_list_filter). apply elem_of_list_fmap in Hr as ([i r'] & -> & Hr).
    eapply Hp; [exact Hr|exact Hx|]. by rewrite Hfv.
Qed.

(** extrema and cardinality: the init flag of the first row initialises the cell *)
Lemma once_floats f r v : fv_floats pf f (row_data r) = [v] → fvs_events pf (KCont f) (row_data r) = [EvF v].
Proof. intros H. by rewrite events_cont, H. Qed.
Lemma ext_answer (m : measure) (up : float → float → float) s f r0 rs buf : (m = MMax ∧ up = fmax) ∨ (m = MMin ∧ up = fmin) →
  schema_ok s → field_measure s f m → has_once f r0 → record_after pf s (r0 :: rs) = Ok buf →
  ∃ v0 vs, field_floats pf f (r0 :: rs) = v0 :: vs ∧ answer est s buf f (m_name m) = Ok [MkFMV f (m_name m) (fold_left up vs v0)].
Proof.
  intros Hup Hs Hm Ho Ha. unfold record_after in Ha. cbn [first_init] in Ha. fold (zeros s) in Ha.
  assert (is_cont_input m = true ∧ is_stat m = false) as [Hc Hns] by (destruct Hup as [[-> ->]|[-> ->]]; done).
  assert (declared s f (m_name m)) as Hd by (right; exists m; split; [done|]; split; [by intros ->|done]).
  destruct (history_answer s f (m_name m) _ buf Hs Hd Ha) as (k & m2 & m' & b & Hf & Hn & _ & Hst & -> & Hp).
  assert (m2 = m) as -> by (destruct (name_inj m m2 Hn) as [|(p&?&->&?)]; done).
  destruct k as [|f'|f']; simpl in Hf; [naive_solver| |destruct m; naive_solver]. destruct Hf as (<- & _ & _ & Hf).
  assert (m' = m) as -> by (destruct Hf as [[]|]; congruence).
  assert (∃ v0, fv_floats pf f (row_data r0) = [v0]) as [v0 Hv0].
  { unfold has_once in Ho. unfold fv_floats. destruct (filter (λ fv, fv_F fv = f) (row_data r0)) as [|fv [|]] eqn:E; try done.
    assert (fv_F fv = f ∧ fv ∈ row_data r0) as [<- Hin] by (apply (elem_of_list_filter (λ fv, fv_F fv = f)); rewrite E; left).
    destruct (Hp true r0 fv ltac:(left) Hin eq_refl) as [v Hv]. exists v. cbn [map omap list_omap]. by rewrite Hv. }
  exists v0, (field_floats pf f rs). split; [by rewrite field_floats_cons, Hv0|].
  cbn [hist_steps] in Hst. unfold row_events in Hst. rewrite decide_False in Hst by done. cbn [app] in Hst. rewrite (once_floats _ _ _ Hv0), steps_one in Hst.
  assert (step m true (replicate (Z.to_nat (m_size m)) 0) (EvF v0) = Ok (putf v0)) as E0.
  { destruct Hup as [[-> ->]|[-> ->]]; cbn [step cont_write]; [apply max_write_init|apply min_write_init]; done. }
  rewrite E0 in Hst. cbn [obind] in Hst.
  rewrite (ext_hist pf m up) in Hst by (destruct Hup as [[-> ->]|[-> ->]]; [apply max_write_put|apply min_write_put]).
  injection Hst as <-. destruct Hup as [[-> ->]|[-> ->]]; cbn [cont_read]; rewrite slice_putf; cbn [obind]; by rewrite getf_putf.
Qed.
Lemma max_answer s f r0 rs buf : schema_ok s → field_measure s f MMax → has_once f r0 → record_after pf s (r0 :: rs) = Ok buf →
  Forall (λ v, fisnan v = false) (field_floats pf f (r0 :: rs)) →
  ∃ v, answer est s buf f (str "max") = Ok [MkFMV f (str "max") v] ∧ is_max v (field_floats pf f (r0 :: rs)).
Proof.
  intros Hs Hm Ho Ha Hn. destruct (ext_answer MMax fmax s f r0 rs buf ltac:(by left) Hs Hm Ho Ha) as (v0 & vs & E & Hans).
  rewrite E in *. eexists. split; [exact Hans|]. by apply fmax_is_max.
Qed.
Lemma min_answer s f r0 rs buf : schema_ok s → field_measure s f MMin → has_once f r0 → record_after pf s (r0 :: rs) = Ok buf →
  Forall (λ v, fisnan v = false) (field_floats pf f (r0 :: rs)) →
  ∃ v, answer est s buf f (str "min") = Ok [MkFMV f (str "min") v] ∧ is_min v (field_floats pf f (r0 :: rs)).
Proof.
  intros Hs Hm Ho Ha Hn. destruct (ext_answer MMin fmin s f r0 rs buf ltac:(by right) Hs Hm Ho Ha) as (v0 & vs & E & Hans).
  rewrite E in *. eexists. split; [exact Hans|]. by apply fmin_is_min.
Qed.
Lemma card_answer s f p r0 rs buf : schema_ok s → field_measure s f (MCardinality p) →
  (∀ p', field_measure s f (MCardinality p') → p' = p) → has_once f r0 → Forall is_bytes (field_values f (r0 :: rs)) →
  record_after pf s (r0 :: rs) = Ok buf →
  ∃ c0 c, Hll_New p = Ok c0 ∧ Hll_Adds c0 (field_values f (r0 :: rs)) = Ok c ∧
    answer est s buf f (str "uniquecount") = Ok [MkFMV f (str "uniquecount") (f_of_Z (est c))].
Proof.
  intros Hs Hm Hu Ho Hb Ha. unfold record_after in Ha. cbn [first_init] in Ha. fold (zeros s) in Ha.
  assert (declared s f (str "uniquecount")) as Hd by (right; exists (MCardinality p); done).
  destruct (history_answer s f _ _ buf Hs Hd Ha) as (k & m & m' & b & Hf & Hn & (cs & lo & hi & Hi & Hin) & Hst & -> & _).
  assert (∃ p', m = MCardinality p') as [p' ->] by (destruct (name_inj (MCardinality p) m Hn) as [<-|(?&?&?&->)]; eauto).
  destruct k as [|f'|f']; simpl in Hf; [naive_solver..|]. destruct Hf as (<- & _ & <-).
  assert (p' = p) as ->.
  { apply Hu. apply (Compile_disc s f (cells_of (KDisc f) cs) (Rg lo hi (MCardinality p'))); [|by apply elem_of_cells_of].
    rewrite (i_disc _ _ _ Hi). apply elem_of_cells_of in Hin. destruct (cells_of (KDisc f) cs); [by apply elem_of_nil in Hin|done]. }
  assert (4 ≤ p ≤ 18) as Hp.
  { destruct Hm as (ms & Hms & _ & Hm). unfold schema_ok in Hs. rewrite Forall_forall in Hs. specialize (Hs _ Hms). rewrite Forall_forall in Hs. by apply Hs in Hm. }
  rewrite field_values_cons in *. apply Forall_app in Hb as [Hb0 Hbs].
  assert (∃ v0, fv_values f (row_data r0) = [v0]) as [v0 Hv0].
  { unfold has_once in Ho. unfold fv_values. destruct (filter (λ fv, fv_F fv = f) (row_data r0)) as [|fv [|]] eqn:E; try done. by exists (fv_V fv). }
  rewrite Hv0, Forall_singleton in Hb0.
  cbn [hist_steps] in Hst. unfold row_events in Hst. rewrite decide_False in Hst by done. cbn [app] in Hst. rewrite events_disc, Hv0 in Hst. cbn [map] in Hst. rewrite steps_one in Hst.
  destruct (card_init p (replicate (Z.to_nat (m_size (MCardinality p))) 0) v0 Hp) as (c0 & c1 & E0 & E1 & Hc1 & W1); [|done|].
  { rewrite replicate_length. cbn [m_size]. by rewrite u8_small by lia. }
  cbn [step] in Hst. rewrite W1 in Hst. cbn [obind] in Hst.
  destruct (card_hist pf p f rs Hbs c1 Hc1) as (c2 & E2 & Hc2 & W2). rewrite W2 in Hst. injection Hst as <-.
  exists c0, c2. split; [done|]. split; [rewrite Hv0; cbn [app Hll_Adds]; rewrite E1; exact E2|].
  cbn [cont_read]. destruct (Hll_roundtrip c2 p Hc2) as (_ & _ & _ & _ & HW). specialize (HW []). rewrite app_nil_r in HW. unfold ser. by rewrite HW.
Qed.
End top.
