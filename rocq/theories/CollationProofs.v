(** Proofs about collations, from the cell semantics. *)
From Coq Require Import ZifyBool ZifyNat.
From Verif Require Import Base BaseProofs Float64 FnvModel FnvSpec FnvProofs BitbucketModel BitbucketSpec BitbucketProofs HllModel HllSpec HllProofs
  Stat64Model Stat64Spec Stat64Proofs CollationModel CollationSpec CollationLayout CollationCells.
Local Open Scope Z_scope.

(** ** keys *)
Lemma find_field_value k fvs : find_field k fvs = None ↔ value_of k fvs = None.
Proof.
  induction fvs as [|fv fvs IH]; [done|]. simpl. rewrite bool_decide_decide.
  destruct (decide (k = fv_F fv)) as [->|H]; [by rewrite decide_True|]. rewrite decide_False by congruence. apply IH.
Qed.
Lemma find_field_Some k fvs fv : find_field k fvs = Some fv → fv_F fv = k ∧ value_of k fvs = Some (fv_V fv).
Proof.
  induction fvs as [|fv' fvs IH]; [done|]. simpl. rewrite bool_decide_decide.
  destruct (decide (k = fv_F fv')) as [->|H]; [rewrite decide_True by done; intros [= <-]; done|].
  rewrite decide_False by congruence. apply IH.
Qed.
Lemma key_loop_spec fvs : ∀ keys h, key_loop h keys fvs =
  match key_text keys fvs with Some t => (fnv1_loop h t, true) | None => (0, false) end.
Proof.
  induction keys as [|k keys IH]; intros h; [done|]. cbn [key_loop key_text].
  destruct (find_field k fvs) as [fv|] eqn:E.
  - apply find_field_Some in E as [Ef Ev]. rewrite Ev, IH. destruct (key_text keys fvs) as [t|]; [|done].
    rewrite Ef. cbn [Fnv64_Write fst]. by rewrite !fnv1_loop_app.
  - apply find_field_value in E. by rewrite E.
Qed.
Lemma KeyValue_spec fvs keys : KeyValue fvs keys = match record_key keys fvs with Some h => (h, true) | None => (0, false) end.
Proof.
  unfold KeyValue, record_key. rewrite key_loop_spec. destruct (key_text keys fvs) as [t|]; [|done]. simpl.
  f_equal. rewrite <- Sum64_spec. done.
Qed.
Lemma key_text_ext keys fvs fvs' : (∀ k, k ∈ keys → value_of k fvs = value_of k fvs') → key_text keys fvs = key_text keys fvs'.
Proof.
  induction keys as [|k keys IH]; intros H; [done|]. simpl. rewrite (H k) by left. rewrite IH; [done|]. intros. apply H. by right.
Qed.
Lemma KeyValue_ext keys fvs fvs' : (∀ k, k ∈ keys → value_of k fvs = value_of k fvs') → KeyValue fvs keys = KeyValue fvs' keys.
Proof. intros H. rewrite !KeyValue_spec. unfold record_key. by rewrite (key_text_ext _ _ _ H). Qed.
Lemma value_of_perm k fvs fvs' : NoDup (map fv_F fvs) → fvs ≡ₚ fvs' → value_of k fvs = value_of k fvs'.
Proof.
  intros Hn Hp. induction Hp as [|fv l l' Hp IH|a b l|l1 l2 l3 H1 IH1 H2 IH2]; [done| | |].
  - simpl in *. apply NoDup_cons in Hn as [_ Hn]. by rewrite IH.
  - simpl in *. apply NoDup_cons in Hn as [Hn _]. repeat case_decide; try done. exfalso. apply Hn.
    apply elem_of_cons. left. congruence.
  - rewrite IH1 by done. apply IH2. by rewrite <- H1.
Qed.
Lemma value_of_other k fv fvs1 fvs2 : fv_F fv ≠ k → value_of k (fvs1 ++ fv :: fvs2) = value_of k (fvs1 ++ fvs2).
Proof. intros H. induction fvs1 as [|x l IH]; simpl; [by rewrite decide_False|]. by rewrite IH. Qed.
Lemma key_text_None keys fvs : key_text keys fvs = None ↔ ∃ k, k ∈ keys ∧ value_of k fvs = None.
Proof.
  induction keys as [|k keys IH]; simpl; [set_solver|]. destruct (value_of k fvs) eqn:E.
  - destruct (key_text keys fvs) eqn:E2.
    + split; [done|]. intros (k' & [->|Hk]%elem_of_cons & H); [congruence|]. assert (Some l0 = None) by (apply IH; eauto). done.
    + split; [|done]. intros _. destruct (proj1 IH eq_refl) as (k' & ? & ?). exists k'. split; [by right|done].
  - split; [|done]. intros _. exists k. split; [left|done].
Qed.
Lemma KeyValue_fails keys fvs : (KeyValue fvs keys).2 = false ↔ ∃ k, k ∈ keys ∧ value_of k fvs = None.
Proof.
  rewrite KeyValue_spec, <- key_text_None. unfold record_key. destruct (key_text keys fvs); simpl; naive_solver.
Qed.

(** ** layout *)
Lemma writers_of_cells c pos cs k : inv c pos cs → writers_of c k = cells_of k cs.
Proof.
  intros Hi. destruct k; simpl; [apply Hi|rewrite (i_cont _ _ _ Hi)|rewrite (i_disc _ _ _ Hi)]; by destruct (cells_of _ cs).
Qed.
Lemma layout_bounds s k g : schema_ok s → g ∈ writers_of (Compile s) k →
  0 ≤ g_low g ∧ g_high g = g_low g + m_size (g_m g) ∧ 0 < m_size (g_m g) ∧ g_high g ≤ c_size (Compile s).
Proof.
  intros Hs. destruct (Compile_inv s Hs) as (cs & Hi & _). rewrite (writers_of_cells _ _ _ _ Hi), elem_of_cells_of.
  intros H. by apply (laid_bounds _ _ _ _ _ (i_laid _ _ _ Hi)) in H.
Qed.
Lemma layout_disjoint s k k' i j g g' : schema_ok s → writers_of (Compile s) k !! i = Some g → writers_of (Compile s) k' !! j = Some g' →
  (k, i) ≠ (k', j) → g_high g ≤ g_low g' ∨ g_high g' ≤ g_low g.
Proof.
  intros Hs. destruct (Compile_inv s Hs) as (cs & Hi & _). rewrite !(writers_of_cells _ _ _ _ Hi). intros H1 H2 Hne.
  destruct (decide (k = k')) as [<-|Hk].
  - destruct (cells_separated _ _ _ Hi k) as [Hn Hd]. apply Hd; [by eapply elem_of_list_lookup_2..|].
    intros <-. apply Hne. f_equal. by eapply NoDup_lookup.
  - apply elem_of_list_lookup_2, elem_of_cells_of in H1, H2.
    eapply laid_disj_elem; [apply (i_laid _ _ _ Hi)| |done|done]. congruence.
Qed.
Lemma layout_readers s f n g : schema_ok s → reader_of (Compile s) f n = Some g →
  n = m_name (g_m g) ∧ ∃ k m', Rg (g_low g) (g_high g) m' ∈ writers_of (Compile s) k ∧ feeds k m' f (g_m g).
Proof.
  intros Hs. destruct (Compile_inv s Hs) as (cs & Hi & _). intros (H1 & k & m' & H2 & H3)%(i_read _ _ _ Hi).
  split; [done|]. exists k, m'. rewrite (writers_of_cells _ _ _ _ Hi), elem_of_cells_of. done.
Qed.
Lemma layout_declared s f n : schema_ok s → is_Some (reader_of (Compile s) f n) ↔ declared s f n.
Proof. intros Hs. destruct (Compile_inv s Hs) as (cs & Hi & _ & _ & H). apply H. Qed.

(** ** reading *)
Section read.
Context (est : Counter → Z).
Lemma answer_spec s buf f n : answer est s buf f n =
  match reader_of (Compile s) f n with
  | Some g => let! b := slice buf (g_low g) (g_high g) in let! v := cont_read est (g_m g) b in Ok [MkFMV f n v]
  | None => Ok []
  end.
Proof.
  unfold answer. cbn [Coll_Read fm_F fm_M]. unfold reader_of. destruct (c_read _ !! f) as [rs|]; [|done]. cbn [mbind option_bind].
  cbn [read_measures]. destruct (rs !! n) as [g|]; [|done]. destruct (slice _ _ _); [|done..]. cbn [obind].
  destruct (cont_read _ _ _); done.
Qed.
Definition requested (fml : list FM) : list (bytes * bytes) := fm ← fml; map (pair (fm_F fm)) (fm_M fm).
Lemma read_measures_answers s buf f rs ms res : c_read (Compile s) !! f = Some rs →
  read_measures est buf f rs ms = Ok res →
  ∃ ls, Forall2 (λ n l, answer est s buf f n = Ok l) ms ls ∧ res = concat ls.
Proof.
  intros Hf. revert res. induction ms as [|n ms IH]; intros res; cbn [read_measures].
  - intros [= <-]. exists []. done.
  - pose proof (answer_spec s buf f n) as Ha. unfold reader_of in Ha. rewrite Hf in Ha. cbn [mbind option_bind] in Ha.
    destruct (rs !! n) as [g|].
    + destruct (slice buf _ _) as [b|e|]; [|done..]. cbn [obind] in *. destruct (cont_read est (g_m g) b) as [v|e|]; [|done..]. cbn [obind] in *.
      destruct (read_measures est buf f rs ms) as [l|e|] eqn:E; [|done..]. cbn [obind]. intros [= <-].
      destruct (IH l eq_refl) as (ls & H1 & ->). exists ([MkFMV f n v] :: ls). split; [by constructor|done].
    + intros (ls & H1 & ->)%IH. exists ([] :: ls). split; [by constructor|done].
Qed.
Lemma unknown_answers s buf f ms : c_read (Compile s) !! f = None → Forall2 (λ n l, answer est s buf f n = Ok l) ms (replicate (length ms) []).
Proof.
  intros Hf. induction ms as [|n ms IH]; [constructor|]. constructor; [|done]. rewrite answer_spec. unfold reader_of. by rewrite Hf.
Qed.
Lemma concat_nils {A} n : concat (replicate n ([] : list A)) = [].
Proof. by induction n. Qed.
Lemma Read_answers s buf fml : ∀ res, Coll_Read est (Compile s) fml buf = Ok res →
  ∃ ls, Forall2 (λ '(f, n) l, answer est s buf f n = Ok l) (requested fml) ls ∧ res = concat ls.
Proof.
  induction fml as [|fm fml IH]; intros res; cbn [Coll_Read].
  - intros [= <-]. exists []. split; [constructor|done].
  - destruct (match c_read (Compile s) !! fm_F fm with Some _ => _ | None => _ end) as [l|e|] eqn:E; [|done..]. cbn [obind].
    destruct (Coll_Read est (Compile s) fml buf) as [l'|e|]; [|done..]. cbn [obind]. intros [= <-].
    destruct (IH l' eq_refl) as (ls' & H1 & ->).
    assert (∃ ls, Forall2 (λ n l, answer est s buf (fm_F fm) n = Ok l) (fm_M fm) ls ∧ l = concat ls) as (ls & H2 & ->).
    { destruct (c_read (Compile s) !! fm_F fm) as [rs|] eqn:Ef; [by eapply read_measures_answers|].
      injection E as <-. eexists. split; [by apply unknown_answers|]. by rewrite concat_nils. }
    exists (ls ++ ls'). split; [|by rewrite concat_app]. unfold requested. cbn [mbind list_bind]. apply Forall2_app; [|done].
    apply Forall2_fmap_l. done.
Qed.
Lemma answer_shape s buf f n l : schema_ok s → answer est s buf f n = Ok l →
  (declared s f n → ∃ v, l = [MkFMV f n v]) ∧ (¬ declared s f n → l = []).
Proof.
  intros Hs. rewrite answer_spec. pose proof (layout_declared s f n Hs) as Hd. destruct (reader_of _ f n) as [g|].
  - destruct (slice buf _ _) as [b|e|]; [|done..]. cbn [obind]. destruct (cont_read est (g_m g) b) as [v|e|]; [|done..]. cbn [obind].
    intros [= <-]. split; [by eauto|]. intros []. by apply Hd.
  - intros [= <-]. split; [|done]. intros [? [=]]%Hd.
Qed.
Lemma answer_unknown s buf f n : schema_ok s → ¬ declared s f n → answer est s buf f n = Ok [].
Proof.
  intros Hs Hn. rewrite answer_spec. pose proof (layout_declared s f n Hs) as Hd. destruct (reader_of _ f n) as [g|]; [|done].
  destruct Hn. by apply Hd.
Qed.
(** the answer read from the cell that feeds it *)
Lemma answer_cell s f n cs buf : schema_ok s → inv (Compile s) (c_size (Compile s)) cs → declared s f n → c_size (Compile s) ≤ Z.of_nat (length buf) →
  ∃ k m m' lo hi, (k, Rg lo hi m') ∈ cs ∧ feeds k m' f m ∧ n = m_name m ∧
   ∀ b', b' = sub buf (Rg lo hi m') → answer est s buf f n = let! v := cont_read est m b' in Ok [MkFMV f n v].
Proof.
  intros Hs Hi Hd Hl. rewrite <- layout_declared in Hd by done. destruct Hd as [g Hg].
  destruct (i_read _ _ _ Hi _ _ _ Hg) as (Hn & k & m' & Hin & Hf).
  exists k, (g_m g), m', (g_low g), (g_high g). split; [done|]. split; [done|]. split; [done|]. intros b' ->.
  rewrite answer_spec, Hg. pose proof (cell_fits _ _ _ Hi _ _ (length buf) Hin Hl) as Hfit. unfold fits in Hfit. simpl in Hfit.
  rewrite slice_Ok by lia. done.
Qed.
End read.
