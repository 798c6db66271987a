(** Histories of a record in which some updates fail half way. *)
From Coq Require Import ZifyBool ZifyNat.
From Verif Require Import Base BaseProofs Float64 HllModel HllSpec Stat64Model Stat64Spec Stat64Proofs CollationModel CollationSpec CollationLayout CollationCells CollationProofs CollationMeasures CollationTop CollationTop2
  BufmapModel BufconcModel QueryModel ServerModel ServerSpec ServerConcSpec ServerMixedSpec.
Local Open Scope Z_scope.

Section mixed.
Context (pf : bytes → option float) (est : Counter → Z) (s : Schema) (Hs : schema_ok s).
Notation bytes_row := (λ r, Forall (λ fv, is_bytes (fv_V fv)) (row_data r)).
Lemma count_no_err gs : ∀ buf buf' e, run_writers buf gs (λ _ b, count_write b) ≠ (buf', Err e).
Proof.
  induction gs as [|g gs IH]; intros buf buf' e; cbn [run_writers]; [done|]. destruct (on_range buf g (λ b, count_write b)) as [b1 [[]|e1|]] eqn:E; [apply IH| |done].
  intros [= -> ->]. unfold on_range in E. destruct (slice buf _ _) as [x|?|]; [|done..]. unfold count_write in E. destruct (slice x 0 8) as [y|?|] eqn:Ey; [done| |done]. unfold slice in Ey. by repeat case_match.
Qed.
Lemma failed_count cs r init buf buf' e : inv (Compile s) (c_size (Compile s)) cs → c_size (Compile s) ≤ Z.of_nat (length buf) → Coll_Update pf (Compile s) r buf init = (buf', Err e) →
  ∀ g, (KRow, g) ∈ cs → count_write (sub buf g) = Ok (sub buf' g).
Proof.
  intros Hi Hp HU g Hg. unfold Coll_Update in HU. destruct (run_writers buf (c_writers (Compile s)) (λ _ b, count_write b)) as [b1 [[]|e1|]] eqn:E1; [|by apply count_no_err in E1|done].
  rewrite (i_writers _ _ _ Hi) in E1. destruct (opt_list (cells_of KRow cs)) as [gs|] eqn:E; [|by destruct (none_kind cs KRow g E Hg)].
  assert (gs = cells_of KRow cs) as -> by (destruct (cells_of KRow cs); naive_solver).
  destruct (run_kind (Compile s) (c_size (Compile s)) cs Hi (λ _ b, count_write b) KRow _ _ _ _ ltac:(by intros ??? ?%count_write_keeps) Hp E E1) as (L1 & _ & S1).
  rewrite (S1 eq_refl g Hg). f_equal. apply (update_fvs_spec pf _ _ _ Hi) in HU as (_ & F & _); [|lia]. symmetry. by apply (F KRow).
Qed.
Lemma all_cells cs rows : inv (Compile s) (c_size (Compile s)) cs → Forall (λ ir, bytes_row ir.2) rows → ∀ buf d outs, reachable pf s buf → apply_all pf (Compile s) buf rows = (d, outs) →
  length d = length buf ∧ map fst outs = map snd rows ∧
  ∀ k g, (k, g) ∈ cs → (∀ r, (r, false) ∈ outs → ∀ fv, fv ∈ row_data r → k ≠ KCont (fv_F fv) ∧ k ≠ KDisc (fv_F fv)) → hist_steps pf (g_m g) k rows (sub buf g) = Ok (sub d g).
Proof.
  intros Hi. induction 1 as [|[init r] rows Hr HF IH]; intros buf d outs Hb; cbn [apply_all].
  - intros [= <- <-]. done.
  - destruct (never_panics pf s buf r init Hs Hb Hr) as (b1 & o & E1 & Ho & _). rewrite E1. destruct (apply_all pf (Compile s) b1 rows) as [d2 l2] eqn:E2. intros [= <- <-].
    destruct (reachable_good pf s cs buf Hs Hi Hb) as [L _]. destruct (Update_spec pf _ _ _ Hi r init buf b1 o ltac:(lia) E1) as (L1 & F1 & S1).
    destruct (IH b1 d2 l2 (reach_row _ _ _ _ _ _ _ Hb Hr E1) E2) as (L2 & M2 & S2). split; [congruence|]. split; [cbn; by rewrite M2|]. intros k g Hg Hfree. cbn [hist_steps].
    assert (steps (g_m g) init (row_events pf k r) (sub buf g) = Ok (sub b1 g)) as ->.
    { destruct o as [[]|e|]; [by apply S1| |done]. assert (∀ fv, fv ∈ row_data r → k ≠ KCont (fv_F fv) ∧ k ≠ KDisc (fv_F fv)) as Hno by (intros fv; apply Hfree; left).
      assert (fvs_events pf k (row_data r) = []) as E0.
      { unfold fvs_events. clear -Hno. induction (row_data r) as [|fv fvs IHf]; [done|]. cbn [mbind list_bind]. rewrite IHf by (intros x Hx; apply Hno; by right). rewrite app_nil_r. destruct (Hno fv ltac:(left)) as [N1 N2]. destruct k; cbn [fv_events]; [done|rewrite decide_False; [done|congruence]..]. }
      unfold row_events. rewrite E0, app_nil_r. destruct (decide (k = KRow)) as [->|Hk]; cbn [steps CollationCells.step].
      - by rewrite (failed_count cs r init buf b1 e Hi ltac:(lia) E1 g Hg).
      - by rewrite (F1 k g Hg Hk Hno). }
    cbn [obind]. apply S2; [done|]. intros r' Hr'. apply Hfree. by right.
Qed.
Lemma all_history f n rows d outs : declared s f n → Forall (λ ir, bytes_row ir.2) rows → apply_all pf (Compile s) (zeros s) rows = (d, outs) →
  (f, n) = (str "*", str "count") ∨ (∀ r, (r, false) ∈ outs → f ∉ map fv_F (row_data r)) →
  ∃ k m m' b, feeds k m' f m ∧ n = m_name m ∧ hist_steps pf m' k rows (replicate (Z.to_nat (m_size m')) 0) = Ok b ∧ answer est s d f n = (let! v := cont_read est m b in Ok [MkFMV f n v]).
Proof.
  intros Hd HF Ha Hfree. destruct (Compile_inv s Hs) as (cs & Hi & _). pose proof (zeros_length s Hs) as HL.
  destruct (all_cells cs rows Hi HF _ _ _ (reach_new _ _) Ha) as (L & _ & S). fold (zeros s) in L. 
  destruct (answer_cell est s f n cs d Hs Hi Hd ltac:(lia)) as (k & m & m' & lo & hi & Hin & Hf & Hn & Hans).
  exists k, m, m', (sub d (Rg lo hi m')). split; [done|]. split; [done|]. split; [|by apply Hans].
  change (m') with (g_m (Rg lo hi m')) at 1. rewrite <- (S k _ Hin); cbn [g_m].
  - f_equal. pose proof (cell_fits _ _ _ Hi _ _ (length (zeros s)) Hin ltac:(lia)) as Hfit.
    unfold zeros in *. rewrite replicate_length in Hfit. rewrite sub_zeros by done. f_equal.
    destruct (laid_bounds _ _ _ _ _ (i_laid _ _ _ Hi) Hin) as (_ & Hh & _). simpl in *. lia.
  - intros r Hr fv Hfv. destruct Hfree as [[= -> ->]|Hfree].
    + assert (m = MCount) as -> by (destruct (name_inj MCount m Hn) as [|(?&?&?&?)]; congruence). destruct k; [done|..]; simpl in Hf; naive_solver.
    + specialize (Hfree r Hr). assert (fv_F fv ≠ f) as Hne by (intros <-; apply Hfree; by apply elem_of_list_fmap_1). destruct k; simpl in Hf; [done|..]; destruct Hf as [<- _]; split; congruence.
Qed.

Lemma all_count rows d outs : s_rows s ≠ [] → Forall (λ ir, bytes_row ir.2) rows → apply_all pf (Compile s) (zeros s) rows = (d, outs) →
  answer est s d (str "*") (str "count") = Ok [MkFMV (str "*") (str "count") (f_of_Z (Z.of_nat (length rows) mod 2^64))].
Proof.
  intros Hr HF Ha. destruct (all_history (str "*") (str "count") rows d outs ltac:(by left) HF Ha ltac:(by left)) as (k & m & m' & b & Hf & Hn & Hst & ->).
  assert (m = MCount) as -> by (destruct (name_inj MCount m Hn) as [|(?&?&?&?)]; congruence).
  destruct k; simpl in Hf; [|naive_solver..]. destruct Hf as (_ & -> & _).
  change (replicate _ 0) with (put64 (0 mod 2^64)) in Hst. rewrite count_hist in Hst. injection Hst as <-. rewrite Z.add_0_l.
  cbn [cont_read]. rewrite slice_Ok by (rewrite ?put64_length; lia). rewrite drop_0, take_ge by (rewrite put64_length; lia).
  cbn [obind]. rewrite get64_put64 by (apply Z.mod_pos_bound; lia). done.
Qed.
Lemma all_stats f m v rows d outs : field_measure s f m → Forall (λ ir, bytes_row ir.2) rows → apply_all pf (Compile s) (zeros s) rows = (d, outs) →
  (∀ r, (r, false) ∈ outs → f ∉ map fv_F (row_data r)) → stat_value m (field_floats pf f (map snd rows)) = Some v →
  answer est s d f (m_name m) = Ok [MkFMV f (m_name m) v].
Proof.
  intros Hm HF Ha Hfree Hv.
  assert (declared s f (m_name m)) as Hd by (right; exists m; split; [done|]; split; [by intros ->|done]).
  destruct (all_history f (m_name m) rows d outs Hd HF Ha ltac:(by right)) as (k & m2 & m' & b & Hf & Hn & Hst & ->).
  assert (m2 = m) as -> by (destruct (name_inj m m2 Hn) as [|(p&?&->&?)]; [done|by simpl in Hv]).
  destruct k as [|f'|f']; simpl in Hf; [naive_solver| |destruct m; naive_solver]. destruct Hf as (<- & Hc & Hc' & Hf).
  assert (is_stat m' = true) as Hs' by (destruct Hf as [[]| <-]; [done|by destruct m]).
  replace (replicate (Z.to_nat (m_size m')) 0) with (enc acc0) in Hst by (rewrite enc_zero; by destruct m').
  rewrite stat_hist in Hst by (done || apply acc0_count). injection Hst as <-. rewrite acc_spec.
  set (a := Stat64Model.Acc _ _ _ _). pose proof (repr_enc a [] _ eq_refl) as (_ & R2 & R3 & R4). rewrite app_nil_r in *.
  destruct m; simpl in Hv; try done; injection Hv as <-; cbn [cont_read]; unfold Stat_WithBytes; [rewrite R2|rewrite R3|rewrite R4]; done.
Qed.
End mixed.
