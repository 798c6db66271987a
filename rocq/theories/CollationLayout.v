(** The layout produced by Schema.Compile: an ordered list of disjoint cells,
    one per writer, and readers that point at them.  Proof internals. *)
From Coq Require Import ZifyBool ZifyNat.
From Verif Require Import Base BaseProofs Float64 HllModel Stat64Model CollationModel CollationSpec.
Local Open Scope Z_scope.

Definition cell : Type := kind * range.

(** cells in increasing order between lo and hi, without overlap *)
Fixpoint laid (lo : Z) (cs : list cell) (hi : Z) : Prop :=
  match cs with
  | [] => lo ≤ hi
  | (k, g) :: cs => lo ≤ g_low g ∧ g_high g = g_low g + m_size (g_m g) ∧ 0 < m_size (g_m g) ∧ laid (g_high g) cs hi
  end.
Definition cells_of (k : kind) (cs : list cell) : list range := map snd (filter (λ c, c.1 = k) cs).
Definition opt_list {A} (l : list A) : option (list A) := match l with [] => None | _ => Some l end.
Notation rd := reader_of (only parsing).
(** cell kinds agree with the measures in them *)
Definition cell_ok (c : cell) : Prop :=
  match c.1 with
  | KRow => g_m c.2 = MCount
  | KCont _ => is_cont_input (g_m c.2) = true
  | KDisc _ => is_disc_input (g_m c.2) = true
  end.

Record inv (c : Collator) (pos : Z) (cs : list cell) : Prop := {
  i_size : c_size c = pos;
  i_laid : laid 0 cs pos;
  i_writers : c_writers c = cells_of KRow cs;
  i_cont : ∀ f, c_cont c !! f = opt_list (cells_of (KCont f) cs);
  i_disc : ∀ f, c_disc c !! f = opt_list (cells_of (KDisc f) cs);
  i_read : ∀ f n g, rd c f n = Some g →
    n = m_name (g_m g) ∧ ∃ k m', (k, Rg (g_low g) (g_high g) m') ∈ cs ∧ feeds k m' f (g_m g);
  i_ok : Forall cell_ok cs }.

Lemma laid_snoc cs : ∀ lo hi k g, laid lo cs hi → hi ≤ g_low g → g_high g = g_low g + m_size (g_m g) → 0 < m_size (g_m g) →
  laid lo (cs ++ [(k, g)]) (g_high g).
Proof.
  induction cs as [|[k' g'] cs IH]; simpl; intros lo hi k g H Hh E Hp.
  - split_and!; [lia|done|done|lia].
  - destruct H as (H1 & H2 & H3 & H4). split_and!; [done..|]. eapply IH; eauto.
Qed.
Lemma laid_mono cs : ∀ lo hi hi', laid lo cs hi → hi ≤ hi' → laid lo cs hi'.
Proof. induction cs as [|[k' g'] cs IH]; simpl; intros lo hi hi' H Hh; [lia|]. destruct H as (H1 & H2 & H3 & H4). eauto. Qed.
Lemma laid_bounds cs : ∀ lo hi k g, laid lo cs hi → (k, g) ∈ cs → lo ≤ g_low g ∧ g_high g = g_low g + m_size (g_m g) ∧ 0 < m_size (g_m g) ∧ g_high g ≤ hi.
Proof.
  induction cs as [|[k' g'] cs IH]; simpl; intros lo hi k g H Hin; [by apply elem_of_nil in Hin|].
  destruct H as (H1 & H2 & H3 & H4).
  assert (lo ≤ hi ∧ g_high g' ≤ hi) as [_ ?].
  { clear IH Hin. assert (∀ cs lo, laid lo cs hi → lo ≤ hi) as Hx.
    { clear. induction cs as [|[k g] cs IH]; simpl; intros lo H; [done|].
      destruct H as (?&?&?&H4%IH). lia. }
    apply Hx in H4. lia. }
  apply elem_of_cons in Hin as [[= -> ->]|Hin]; [lia|].
  destruct (IH _ _ _ _ H4 Hin) as (?&?&?&?). split_and!; [lia|done..].
Qed.
Definition disj (g g' : range) : Prop := g_high g ≤ g_low g' ∨ g_high g' ≤ g_low g.
Lemma disj_sym g g' : disj g g' → disj g' g.
Proof. unfold disj. lia. Qed.
Lemma laid_disj cs : ∀ lo hi i j k k' g g', laid lo cs hi → i ≠ j → cs !! i = Some (k, g) → cs !! j = Some (k', g') → disj g g'.
Proof.
  induction cs as [|[k0 g0] cs IH]; simpl; intros lo hi i j k k' g g' H Hij Hi Hj; [done|].
  destruct H as (H1 & H2 & H3 & H4). unfold disj.
  destruct i as [|i], j as [|j]; simplify_eq/=; [|..|eapply (IH _ _ i j); eauto].
  - apply elem_of_list_lookup_2 in Hj. destruct (laid_bounds _ _ _ _ _ H4 Hj) as (?&_). lia.
  - apply elem_of_list_lookup_2 in Hi. destruct (laid_bounds _ _ _ _ _ H4 Hi) as (?&_). lia.
Qed.
Lemma laid_disj_elem cs lo hi k k' g g' : laid lo cs hi → (k, g) ≠ (k', g') → (k, g) ∈ cs → (k', g') ∈ cs → disj g g'.
Proof.
  intros H Hne [i Hi]%elem_of_list_lookup [j Hj]%elem_of_list_lookup.
  eapply (laid_disj cs lo hi i j); eauto. intros ->. congruence.
Qed.
Lemma laid_nodup_rg cs lo hi : laid lo cs hi → NoDup (map snd cs).
Proof.
  intros H. apply NoDup_alt. intros i j g Hi Hj. destruct (decide (i = j)) as [|Hij]; [done|exfalso].
  rewrite list_lookup_fmap in Hi, Hj. apply fmap_Some in Hi as ([k g1] & Hi & ->). apply fmap_Some in Hj as ([k' g2] & Hj & E).
  simpl in E. subst g2. pose proof (laid_disj _ _ _ _ _ _ _ _ _ H Hij Hi Hj) as Hd.
  apply elem_of_list_lookup_2 in Hi. destruct (laid_bounds _ _ _ _ _ H Hi) as (?&?&?&?). unfold disj in Hd. lia.
Qed.

Lemma cells_of_snoc k k' g cs : cells_of k (cs ++ [(k', g)]) = cells_of k cs ++ (if decide (k' = k) then [g] else []).
Proof. unfold cells_of. rewrite filter_app, map_app. f_equal. rewrite filter_cons, filter_nil. simpl. by case_decide. Qed.
Lemma elem_of_cells_of k g cs : g ∈ cells_of k cs ↔ (k, g) ∈ cs.
Proof.
  unfold cells_of. rewrite elem_of_list_fmap. split.
  - intros ([k' g'] & -> & [E Hin]%elem_of_list_filter). simpl in *. by subst.
  - intros H. exists (k, g). split; [done|]. apply elem_of_list_filter. done.
Qed.
Lemma cells_of_NoDup cs lo hi k : laid lo cs hi → NoDup (cells_of k cs).
Proof.
  intros H%laid_nodup_rg. unfold cells_of. revert H. generalize (λ c : cell, c.1 = k). clear.
  intros P. induction cs as [|[k' g] cs IH]; [constructor|]. simpl. intros [H1 H2]%NoDup_cons.
  rewrite filter_cons. unfold decide. destruct (decide_rel _ _ _); simpl; [|auto].
  apply NoDup_cons. split; [|auto]. intros Hin. apply H1. apply elem_of_list_fmap in Hin as (x & -> & Hx).
  apply elem_of_list_filter in Hx as [_ Hx]. by apply elem_of_list_fmap_1.
Qed.

Lemma rd_add rs f n g f' n' :
  (add_reader rs f n g !! f' ≫= λ r, r !! n') = (if decide (f = f' ∧ n = n') then Some g else rs !! f' ≫= λ r, r !! n').
Proof.
  unfold add_reader. destruct (decide (f = f')) as [<-|Hf].
  - rewrite lookup_insert. simpl. destruct (decide (n = n')) as [<-|Hn].
    + rewrite lookup_insert. by rewrite decide_True.
    + rewrite lookup_insert_ne by done. rewrite decide_False by tauto. destruct (rs !! f); simpl; [done|]. apply lookup_empty.
  - rewrite lookup_insert_ne by done. rewrite decide_False by tauto. done.
Qed.
Lemma opt_add ws f g f' k (cs : list cell) : (∀ f, ws !! f = opt_list (cells_of (k f) cs)) →
  (∀ f f' : bytes, k f = k f' → f = f') → add_writer ws f g !! f' = opt_list (cells_of (k f') (cs ++ [(k f, g)])).
Proof.
  intros H Hk. unfold add_writer. rewrite cells_of_snoc. destruct (decide (f = f')) as [<-|Hf].
  - rewrite lookup_insert, decide_True by done. rewrite H. destruct (cells_of (k f) cs); done.
  - rewrite lookup_insert_ne by done. rewrite decide_False by naive_solver. by rewrite app_nil_r, H.
Qed.
Lemma keep_kind k k' g (cs : list cell) : k ≠ k' → cells_of k (cs ++ [(k', g)]) = cells_of k cs.
Proof. intros H. rewrite cells_of_snoc, decide_False by congruence. apply app_nil_r. Qed.

Lemma size_pos m : precision_ok m → 0 < m_size m.
Proof.
  destruct m; simpl; intros H; try done.
  assert (precision ∈ [4;5;6;7;8;9;10;11;12;13;14;15;16;17;18]) as Hp by (repeat (rewrite elem_of_cons); lia).
  repeat (apply elem_of_cons in Hp as [->|Hp]; [vm_compute; reflexivity|]). by apply elem_of_nil in Hp.
Qed.

(** what a step adds to the set of readable (field, measure) pairs *)
Lemma inv_row c pos cs rm : inv c pos cs → ∃ c' pos' cs', compile_row (c, pos) rm = (c', pos') ∧ inv c' pos' (cs ++ cs') ∧
  c_keys c' = c_keys c ∧ c_name c' = c_name c ∧
  (∀ f n, is_Some (rd c' f n) ↔ is_Some (rd c f n) ∨ (f = RowPseudoField ∧ n = m_name MCount)) ∧ cs' ≠ [].
Proof.
  intros [Hs Hl Hw Hc Hd Hr Ho]. destruct rm. unfold compile_row. cbn -[m_size m_name RowPseudoField].
  set (rg := Rg pos (pos + m_size MCount) MCount). eexists _, _, [(KRow, rg)]. split; [reflexivity|].
  split; [|split; [done|split; [done|split]]]; [|intros f n; unfold reader_of at 1; cbn -[m_size m_name RowPseudoField]; rewrite rd_add|done].
  - split; cbn -[m_size m_name RowPseudoField].
    + by rewrite Hs.
    + change (pos + m_size MCount) with (g_high rg). eapply laid_snoc; [exact Hl|simpl; lia|done|done].
    + rewrite cells_of_snoc, decide_True by done. by rewrite Hw.
    + intros f. rewrite keep_kind by done. apply Hc.
    + intros f. rewrite keep_kind by done. apply Hd.
    + intros f n g. unfold reader_of. cbn -[m_size m_name RowPseudoField]. rewrite rd_add. case_decide as E.
      * destruct E as [<- <-]. intros [= <-]. split; [done|]. exists KRow, MCount.
        split; [apply elem_of_app; right; by apply elem_of_list_singleton|done].
      * intros (H1 & k & m' & H2 & H3)%Hr. split; [done|]. exists k, m'. split; [|done]. apply elem_of_app; by left.
    + apply Forall_app. split; [done|]. constructor; [done|constructor].
  - unfold reader_of. case_decide as E; [|destruct (_ ≫= _)]; naive_solver.
Qed.

(** invariant of the stat64 sharing state within one MeasureSpec *)
Definition stat_inv (f : bytes) (cs : list cell) (stat : option (Z * Z)) : Prop :=
  match stat with
  | None => True
  | Some (l, h) => ∃ m', is_stat m' = true ∧ is_cont_input m' = true ∧ (KCont f, Rg l h m') ∈ cs
  end.
Lemma inv_measure f c pos stat cs m : precision_ok m → inv c pos cs → stat_inv f cs stat →
  ∃ c' pos' stat' cs', compile_measure f (c, pos, stat) m = (c', pos', stat') ∧ inv c' pos' (cs ++ cs') ∧ stat_inv f (cs ++ cs') stat' ∧
  c_keys c' = c_keys c ∧ c_name c' = c_name c ∧
  (∀ f' n, is_Some (rd c' f' n) ↔ is_Some (rd c f' n) ∨ (f' = f ∧ m ≠ MCount ∧ n = m_name m)).
Proof.
  intros Hp [Hs Hl Hw Hc Hd Hr Ho] Hst. unfold compile_measure.
  assert (Hin : ∀ (x : cell), x ∈ cs ++ [x]) by (intros x; apply elem_of_app; right; by apply elem_of_list_singleton).
  assert (Hpos := size_pos m Hp).
  destruct (is_cont_input m) eqn:Ec.
  - assert (is_disc_input m = false) as -> by (destruct m; done).
    destruct (is_stat m) eqn:Es; [destruct stat as [[l h]|]|].
    + (* shared *)
      destruct Hst as (m' & Hm' & Hc' & Hin'). eexists _, _, _, []. split; [reflexivity|]. rewrite app_nil_r.
      split; [|split; [by exists m'|split; [done|split; [done|]]]].
      * split; cbn -[m_size m_name]; try done; [by rewrite Hs|eapply laid_mono; [exact Hl|lia]|].
        intros f' n g. unfold reader_of. cbn -[m_size m_name]. rewrite rd_add. case_decide as E.
        -- destruct E as [<- <-]. intros [= <-]. split; [done|]. exists (KCont f), m'. split; [done|]. simpl. tauto.
        -- apply Hr.
      * intros f' n. unfold reader_of at 1. cbn -[m_size m_name]. rewrite rd_add. assert (m ≠ MCount) by (by intros ->).
        unfold reader_of. case_decide as E; [|destruct (_ ≫= _)]; naive_solver.
    + (* new stat *)
      set (rg := Rg pos (pos + m_size m) m). eexists _, _, _, [(KCont f, rg)]. split; [reflexivity|].
      split; [|split; [simpl; exists m; split_and!; [done|done|]; apply Hin|split; [done|split; [done|]]]].
      * split; cbn -[m_size m_name].
        -- by rewrite Hs.
        -- change (pos + m_size m) with (g_high rg). eapply laid_snoc; [exact Hl|simpl; lia|done|done].
        -- rewrite keep_kind by done. done.
        -- intros f'. apply (opt_add _ _ _ _ KCont); [done|naive_solver].
        -- intros f'. rewrite keep_kind by done. apply Hd.
        -- intros f' n g. unfold reader_of. cbn -[m_size m_name]. rewrite rd_add. case_decide as E.
           ++ destruct E as [<- <-]. intros [= <-]. split; [done|]. exists (KCont f), m. split; [apply Hin|]. simpl. tauto.
           ++ intros (H1 & k & m' & H2 & H3)%Hr. split; [done|]. exists k, m'. split; [|done]. apply elem_of_app; by left.
        -- apply Forall_app. split; [done|]. constructor; [done|constructor].
      * intros f' n. unfold reader_of at 1. cbn -[m_size m_name]. rewrite rd_add. assert (m ≠ MCount) by (by intros ->).
        unfold reader_of. case_decide as E; [|destruct (_ ≫= _)]; naive_solver.
    + (* max, min *)
      set (rg := Rg pos (pos + m_size m) m). eexists _, _, _, [(KCont f, rg)]. split; [reflexivity|].
      split; [|split; [|split; [done|split; [done|]]]].
      * split; cbn -[m_size m_name].
        -- by rewrite Hs.
        -- change (pos + m_size m) with (g_high rg). eapply laid_snoc; [exact Hl|simpl; lia|done|done].
        -- rewrite keep_kind by done. done.
        -- intros f'. apply (opt_add _ _ _ _ KCont); [done|naive_solver].
        -- intros f'. rewrite keep_kind by done. apply Hd.
        -- intros f' n g. unfold reader_of. cbn -[m_size m_name]. rewrite rd_add. case_decide as E.
           ++ destruct E as [<- <-]. intros [= <-]. split; [done|]. exists (KCont f), m. split; [apply Hin|]. simpl. tauto.
           ++ intros (H1 & k & m' & H2 & H3)%Hr. split; [done|]. exists k, m'. split; [|done]. apply elem_of_app; by left.
        -- apply Forall_app. split; [done|]. constructor; [done|constructor].
      * unfold stat_inv in *. destruct stat as [[l h]|]; [|done]. destruct Hst as (m' & ? & ? & ?). exists m'. split_and!; [done..|].
        apply elem_of_app; by left.
      * intros f' n. unfold reader_of at 1. cbn -[m_size m_name]. rewrite rd_add. assert (m ≠ MCount) by (by intros ->).
        unfold reader_of. case_decide as E; [|destruct (_ ≫= _)]; naive_solver.
  - destruct (is_disc_input m) eqn:Ed.
    + set (rg := Rg pos (pos + m_size m) m). eexists _, _, _, [(KDisc f, rg)]. split; [reflexivity|].
      split; [|split; [|split; [done|split; [done|]]]].
      * split; cbn -[m_size m_name].
        -- by rewrite Hs.
        -- change (pos + m_size m) with (g_high rg). eapply laid_snoc; [exact Hl|simpl; lia|done|done].
        -- rewrite keep_kind by done. done.
        -- intros f'. rewrite keep_kind by done. apply Hc.
        -- intros f'. apply (opt_add _ _ _ _ KDisc); [done|naive_solver].
        -- intros f' n g. unfold reader_of. cbn -[m_size m_name]. rewrite rd_add. case_decide as E.
           ++ destruct E as [<- <-]. intros [= <-]. split; [done|]. exists (KDisc f), m. split; [apply Hin|]. simpl. tauto.
           ++ intros (H1 & k & m' & H2 & H3)%Hr. split; [done|]. exists k, m'. split; [|done]. apply elem_of_app; by left.
        -- apply Forall_app. split; [done|]. constructor; [done|constructor].
      * unfold stat_inv in *. destruct stat as [[l h]|]; [|done]. destruct Hst as (m' & ? & ? & ?). exists m'. split_and!; [done..|].
        apply elem_of_app; by left.
      * intros f' n. unfold reader_of at 1. cbn -[m_size m_name]. rewrite rd_add. assert (m ≠ MCount) by (by intros ->).
        unfold reader_of. case_decide as E; [|destruct (_ ≫= _)]; naive_solver.
    + eexists _, _, _, []. split; [reflexivity|]. rewrite app_nil_r. split_and!; try done.
      intros f' n. assert (m = MCount) by (destruct m; done). naive_solver.
Qed.

Lemma inv_measures f ms : ∀ c pos stat cs, Forall precision_ok ms → inv c pos cs → stat_inv f cs stat →
  ∃ c' pos' stat' cs', fold_left (compile_measure f) ms (c, pos, stat) = (c', pos', stat') ∧ inv c' pos' (cs ++ cs') ∧
  c_keys c' = c_keys c ∧ c_name c' = c_name c ∧
  (∀ f' n, is_Some (rd c' f' n) ↔ is_Some (rd c f' n) ∨ (f' = f ∧ ∃ m, m ∈ ms ∧ m ≠ MCount ∧ n = m_name m)).
Proof.
  induction ms as [|m ms IH]; intros c pos stat cs Hp Hi Hst.
  - exists c, pos, stat, []. rewrite app_nil_r. split_and!; try done. intros f' n. set_solver.
  - inversion_clear Hp as [|? ? Hm Hp'].
    destruct (inv_measure f c pos stat cs m Hm Hi Hst) as (c1 & pos1 & stat1 & cs1 & E1 & Hi1 & Hst1 & K1 & N1 & R1).
    destruct (IH c1 pos1 stat1 _ Hp' Hi1 Hst1) as (c2 & pos2 & stat2 & cs2 & E2 & Hi2 & K2 & N2 & R2).
    exists c2, pos2, stat2, (cs1 ++ cs2). split; [cbn [fold_left]; rewrite E1; exact E2|]. rewrite app_assoc. split; [done|].
    split; [congruence|]. split; [congruence|].
    intros f' n. rewrite R2, R1. setoid_rewrite elem_of_cons. naive_solver.
Qed.
Lemma inv_specs specs : ∀ c pos cs, Forall (λ ms, Forall precision_ok (ms_measures ms)) specs → inv c pos cs →
  ∃ c' pos' cs', fold_left compile_spec specs (c, pos) = (c', pos') ∧ inv c' pos' (cs ++ cs') ∧
  c_keys c' = c_keys c ∧ c_name c' = c_name c ∧
  (∀ f n, is_Some (rd c' f n) ↔ is_Some (rd c f n) ∨ (∃ ms m, ms ∈ specs ∧ ms_field ms = f ∧ m ∈ ms_measures ms ∧ m ≠ MCount ∧ n = m_name m)).
Proof.
  induction specs as [|ms specs IH]; intros c pos cs Hp Hi.
  - exists c, pos, []. rewrite app_nil_r. split_and!; try done. intros f' n. set_solver.
  - inversion_clear Hp as [|? ? Hm Hp'].
    destruct (inv_measures (ms_field ms) (ms_measures ms) c pos None cs Hm Hi I) as (c1 & pos1 & stat1 & cs1 & E1 & Hi1 & K1 & N1 & R1).
    destruct (IH c1 pos1 _ Hp' Hi1) as (c2 & pos2 & cs2 & E2 & Hi2 & K2 & N2 & R2).
    exists c2, pos2, (cs1 ++ cs2). split; [cbn [fold_left]; unfold compile_spec at 2; rewrite E1; exact E2|]. rewrite app_assoc. split; [done|].
    split; [congruence|]. split; [congruence|].
    intros f' n. rewrite R2, R1. setoid_rewrite elem_of_cons. split.
    + intros [[H|(-> & m & H1 & H2 & H3)]|(ms' & m & H1 & H2 & H3 & H4 & H5)]; [by left|right; exists ms, m|right; exists ms', m]; tauto.
    + intros [H|(ms' & m & [->|H1] & H2 & H3 & H4 & H5)]; [by left; left|left; right|right]; [|by eauto 10].
      split; [done|]. exists m. tauto.
Qed.
Lemma inv_rows rms : ∀ c pos cs, inv c pos cs →
  ∃ c' pos' cs', fold_left compile_row rms (c, pos) = (c', pos') ∧ inv c' pos' (cs ++ cs') ∧
  c_keys c' = c_keys c ∧ c_name c' = c_name c ∧
  (∀ f n, is_Some (rd c' f n) ↔ is_Some (rd c f n) ∨ (rms ≠ [] ∧ f = RowPseudoField ∧ n = m_name MCount)).
Proof.
  induction rms as [|rm rms IH]; intros c pos cs Hi.
  - exists c, pos, []. rewrite app_nil_r. split_and!; try done. intros f' n. naive_solver.
  - destruct (inv_row c pos cs rm Hi) as (c1 & pos1 & cs1 & E1 & Hi1 & K1 & N1 & R1 & _).
    destruct (IH c1 pos1 _ Hi1) as (c2 & pos2 & cs2 & E2 & Hi2 & K2 & N2 & R2).
    exists c2, pos2, (cs1 ++ cs2). split; [cbn [fold_left]; rewrite E1; exact E2|]. rewrite app_assoc. split; [done|].
    split; [congruence|]. split; [congruence|].
    intros f' n. rewrite R2, R1. naive_solver.
Qed.
Lemma rd_empty f n nm ks : rd (Coll nm ks [] ∅ ∅ ∅ 0) f n = None.
Proof. unfold reader_of. simpl. by rewrite lookup_empty. Qed.
Lemma inv_empty nm ks : inv (Coll nm ks [] ∅ ∅ ∅ 0) 0 [].
Proof. split; try done. Qed.

Lemma Compile_inv s : schema_ok s → ∃ cs, inv (Compile s) (c_size (Compile s)) cs ∧
  c_keys (Compile s) = s_keys s ∧ c_name (Compile s) = s_name s ∧
  (∀ f n, is_Some (rd (Compile s) f n) ↔ declared s f n).
Proof.
  intros Hs. unfold Compile.
  destruct (inv_rows (s_rows s) _ _ _ (inv_empty (s_name s) (s_keys s))) as (c1 & pos1 & cs1 & E1 & Hi1 & K1 & N1 & R1).
  rewrite E1. simpl in Hi1.
  destruct (inv_specs (s_measures s) _ _ _ Hs Hi1) as (c2 & pos2 & cs2 & E2 & Hi2 & K2 & N2 & R2).
  rewrite E2. simpl. exists (cs1 ++ cs2). split; [by rewrite (i_size _ _ _ Hi2)|].
  split; [rewrite K2, K1; done|]. split; [rewrite N2, N1; done|].
  intros f n. rewrite R2, R1, rd_empty. unfold declared, field_measure, RowPseudoField. split.
  - intros [[[? [=]]|(H1 & H2 & H3)]|(ms & m & ?&?&?&?&?)]; [left; done|right; exists m; eauto 10].
  - intros [(H1 & H2 & H3)|(m & (ms & ?&?&?)&?&?)]; [left; right; done|right; exists ms, m; done].
Qed.
