(** Each cell of a record evolves independently of the others.  Proof internals. *)
From Coq Require Import ZifyBool ZifyNat.
From Verif Require Import Base BaseProofs Float64 FnvModel BitbucketModel BitbucketSpec BitbucketProofs HllModel HllSpec HllProofs Stat64Model
  CollationModel CollationSpec CollationLayout.
Local Open Scope Z_scope.

Definition sub (buf : bytes) (g : range) : bytes := take (Z.to_nat (g_high g - g_low g)) (drop (Z.to_nat (g_low g)) buf).
Definition fits (n : nat) (g : range) : Prop := 0 ≤ g_low g ≤ g_high g ∧ g_high g ≤ Z.of_nat n.
Lemma sub_length buf g : fits (length buf) g → length (sub buf g) = Z.to_nat (g_high g - g_low g).
Proof. unfold fits, sub. intros H. rewrite take_length, drop_length. lia. Qed.

(** writers that keep the length of their sub-slice *)
Definition keeps (fn : measure → bytes → outcome bytes) : Prop := ∀ m b b', fn m b = Ok b' → length b' = length b.

Lemma on_range_frame buf g fn buf' o : fits (length buf) g → (∀ b b', fn b = Ok b' → length b' = length b) → on_range buf g fn = (buf', o) →
  length buf' = length buf ∧ (∀ g', fits (length buf) g' → disj g' g → sub buf' g' = sub buf g') ∧
  match o with Ok _ => fn (sub buf g) = Ok (sub buf' g) | Err e => fn (sub buf g) = Err e | Panic => fn (sub buf g) = Panic end.
Proof.
  intros Hf Hk. unfold on_range. pose proof (sub_length buf g Hf) as HL. unfold fits in Hf. rewrite slice_Ok by lia. fold (sub buf g).
  destruct (fn (sub buf g)) as [b|e|] eqn:E; intros [= <- <-]; [|by split_and!..].
  apply Hk in E as Hb. rewrite HL in Hb.
  assert (length b = Z.to_nat (g_high g) - Z.to_nat (g_low g))%nat as Hb' by lia.
  split; [apply splice_length; lia|]. split.
  - intros g' Hg' Hd. unfold sub. apply slice_splice_disjoint; [lia|]. unfold disj, fits in *. lia.
  - f_equal. unfold sub at 1. rewrite <- Hb. symmetry. apply slice_splice_same. lia.
Qed.

Lemma run_writers_frame fn : keeps fn → ∀ gs buf buf' o, Forall (fits (length buf)) gs →
  run_writers buf gs fn = (buf', o) →
  length buf' = length buf ∧ (∀ g', fits (length buf) g' → Forall (disj g') gs → sub buf' g' = sub buf g').
Proof.
  intros Hk. induction gs as [|g gs IH]; intros buf buf' o Hf; cbn [run_writers].
  - intros [= <- <-]. done.
  - inversion_clear Hf as [|? ? Hg Hgs]. destruct (on_range buf g (fn (g_m g))) as [buf1 o1] eqn:E1.
    destruct (on_range_frame _ _ _ _ _ Hg (Hk (g_m g)) E1) as (L1 & F1 & _).
    destruct o1 as [[]|e|].
    + intros E2. destruct (IH buf1 buf' o) as (L2 & F2); [by rewrite L1|done|]. split; [congruence|].
      intros g' Hg' Hd. inversion_clear Hd. rewrite F2 by (rewrite ?L1; done). by apply F1.
    + intros [= <- <-]. split; [done|]. intros g' Hg' Hd. inversion_clear Hd. by apply F1.
    + intros [= <- <-]. split; [done|]. intros g' Hg' Hd. inversion_clear Hd. by apply F1.
Qed.
Definition separated (gs : list range) : Prop := NoDup gs ∧ ∀ g g', g ∈ gs → g' ∈ gs → g ≠ g' → disj g g'.
Lemma separated_cons g gs : separated (g :: gs) → Forall (disj g) gs ∧ separated gs.
Proof.
  intros [[Hni Hn]%NoDup_cons Hd]. split.
  - apply Forall_forall. intros g' Hg'. apply Hd; [by left|by right|by intros ->].
  - split; [done|]. intros a b Ha Hb. apply Hd; by right.
Qed.
Lemma run_writers_Ok fn : keeps fn → ∀ gs buf buf' , Forall (fits (length buf)) gs → separated gs →
  run_writers buf gs fn = (buf', Ok ()) → ∀ g, g ∈ gs → fn (g_m g) (sub buf g) = Ok (sub buf' g).
Proof.
  intros Hk. induction gs as [|g gs IH]; intros buf buf' Hf Hs; cbn [run_writers].
  - intros _ g Hg. by apply elem_of_nil in Hg.
  - inversion_clear Hf as [|? ? Hg Hgs]. destruct (on_range buf g (fn (g_m g))) as [buf1 o1] eqn:E1.
    destruct (on_range_frame _ _ _ _ _ Hg (Hk (g_m g)) E1) as (L1 & F1 & O1).
    apply separated_cons in Hs as [Hdg Hs'].
    destruct o1 as [[]|e|]; [|done..]. intros E2 g' [->|Hg']%elem_of_cons.
    + rewrite O1. f_equal. symmetry. eapply (run_writers_frame fn Hk gs); [by rewrite L1|exact E2|by rewrite L1|done].
    + rewrite <- (F1 g'); [|by eapply Forall_forall in Hgs|]. { eapply IH; [by rewrite L1|done|done|done]. }
      apply disj_sym. by eapply Forall_forall in Hdg.
Qed.

(** every writer function keeps the length *)
Lemma count_write_keeps b b' : count_write b = Ok b' → length b' = length b.
Proof.
  unfold count_write, slice. destruct (_ && _) eqn:E; [|done]. simpl. intros [= <-]. apply splice_length. rewrite put64_length. lia.
Qed.
Lemma max_write_keeps b i v b' : max_write b i v = Ok b' → length b' = length b.
Proof.
  unfold max_write, slice. destruct (_ && _) eqn:E; [|done]. simpl.
  case_match; intros [= <-]; [done|]. apply splice_length. unfold putf. rewrite put64_length. lia.
Qed.
Lemma min_write_keeps b i v b' : min_write b i v = Ok b' → length b' = length b.
Proof.
  unfold min_write, slice. destruct (_ && _) eqn:E; [|done]. simpl.
  case_match; intros [= <-]; [done|]. apply splice_length. unfold putf. rewrite put64_length. lia.
Qed.
Lemma stat_put_keeps s lo x s' : 0 ≤ lo → length x = 8%nat → stat_put s lo x = Ok s' → length s' = length s.
Proof.
  intros Hlo Hx. unfold stat_put, slice. destruct (_ && _) eqn:E; [|done]. simpl. intros [= <-]. apply splice_length. lia.
Qed.
Lemma stat_save_keeps s a s' : stat_save s a = Ok s' → length s' = length s.
Proof.
  unfold stat_save. destruct (stat_put s 0 _) as [s1|e|] eqn:E1; [|done..]. cbn [obind].
  destruct (stat_put s1 8 _) as [s2|e|] eqn:E2; [|done..]. cbn [obind].
  destruct (stat_put s2 16 _) as [s3|e|] eqn:E3; [|done..]. cbn [obind].
  destruct (stat_put s3 24 _) as [s4|e|] eqn:E4; [|done..]. cbn [obind]. intros [= <-].
  apply stat_put_keeps in E1, E2, E3, E4; try (unfold putf; apply put64_length); lia.
Qed.
Lemma cont_write_keeps m b i v b' : cont_write m b i v = Ok b' → length b' = length b.
Proof.
  destruct m; simpl; try done; try (apply max_write_keeps); try (apply min_write_keeps);
    unfold Stat_Update, Stat_WithBytes; (destruct (stat_load b); [|done..]; cbn [obind]; apply stat_save_keeps).
Qed.
Lemma store_keeps {A} (l : list A) i a l' : store l i a = Ok l' → length l' = length l.
Proof. unfold store. case_match; [|done]. intros [= <-]. apply insert_length. Qed.
Lemma BB_Set_keeps b i v b' : BB_Set b i v = Ok b' → length (bb_data b') = length (bb_data b).
Proof.
  unfold BB_Set, bb_set. destruct (bb_extract _ _ _) as [[[[? ?] ?] ?]|e|]; [|done..]. cbn [obind].
  unfold bb_put. destruct (store _ _ _) as [d|e|] eqn:E1; [|done..]. cbn [obind]. apply store_keeps in E1.
  case_match.
  - destruct (store d _ _) as [d2|e|] eqn:E2; [|done..]. cbn [obind]. apply store_keeps in E2. intros [= <-]. simpl. congruence.
  - intros [= <-]. done.
Qed.
Lemma Hll_Add_keeps c v c' : Hll_Add c v = Ok c' → length (bb_data (hc_bits c')) = length (bb_data (hc_bits c)).
Proof.
  unfold Hll_Add. destruct (BB_Get _ _); [|done..]. cbn [obind]. case_match; [|by intros [= <-]].
  destruct (BB_Set _ _ _) as [d|e|] eqn:E1; [|done..]. cbn [obind]. intros [= <-]. by eapply BB_Set_keeps.
Qed.
Lemma slice_inv {A} (l : list A) lo hi x : slice l lo hi = Ok x → 0 ≤ lo ≤ hi ∧ hi ≤ Z.of_nat (length l) ∧ x = take (Z.to_nat (hi - lo)) (drop (Z.to_nat lo) l).
Proof. unfold slice. destruct (_ && _) eqn:E; [|done]. intros [= <-]. split_and!; [lia..|done]. Qed.
Lemma BB_WithBytes_fits buf b : BB_WithBytes buf = Ok b → (10 + length (bb_data b) ≤ length buf)%nat.
Proof.
  unfold BB_WithBytes. case_match; [done|]. destruct (index buf 0); [|done..]. cbn [obind]. case_match; [done|].
  destruct (index buf 1); [|done..]. cbn [obind]. case_match; [done|]. destruct (slice buf 2 _); [|done..]. cbn [obind].
  case_match; [done|]. destruct (slice buf BBhdrLen _) as [d|e|] eqn:E; [|done..]. cbn [obind]. intros [= <-]. simpl.
  apply slice_inv in E as (? & ? & ->). unfold BBhdrLen in *. rewrite take_length, drop_length. lia.
Qed.
Lemma Hll_WithBytes_fits buf c : Hll_WithBytes buf = Ok c → (12 + length (bb_data (hc_bits c)) ≤ length buf)%nat.
Proof.
  unfold Hll_WithBytes. destruct (index buf 0); [|done..]. cbn [obind]. case_match; [done|].
  destruct (index buf 1); [|done..]. cbn [obind]. destruct (slice buf 2 _) as [d|e|] eqn:E; [|done..]. cbn [obind].
  destruct (BB_WithBytes d) as [b|e|] eqn:E2; [|done..]. cbn [obind]. intros [= <-]. simpl.
  apply BB_WithBytes_fits in E2. apply slice_inv in E as (? & ? & ->). rewrite take_length, drop_length in E2. lia.
Qed.
Lemma disc_write_keeps m b i v b' : disc_write m b i v = Ok b' → length b' = length b.
Proof.
  destruct m; simpl; try done. destruct i.
  - destruct (Hll_New _); [|done..]. cbn [obind]. destruct (Hll_Add _ _); [|done..]. cbn [obind].
    repeat case_match; try done. intros [= <-]. apply gocopy_length.
  - destruct (Hll_WithBytes b) as [c|e|] eqn:E1; [|done..]. cbn [obind]. destruct (Hll_Add c v) as [c'|e|] eqn:E2; [|done..]. cbn [obind].
    intros [= <-]. apply Hll_WithBytes_fits in E1. apply Hll_Add_keeps in E2. unfold Hll_flush, BB_flush.
    rewrite app_length, take_length, splice_length by (rewrite drop_length; lia). rewrite drop_length. lia.
Qed.

Section update.
Context (parse_float : bytes → option float).
Inductive ev := EvRow | EvF (v : float) | EvD (v : bytes).
Definition step (m : measure) (init : bool) (b : bytes) (e : ev) : outcome bytes :=
  match e with EvRow => count_write b | EvF v => cont_write m b init v | EvD v => disc_write m b init v end.
Fixpoint steps (m : measure) (init : bool) (es : list ev) (b : bytes) : outcome bytes :=
  match es with [] => Ok b | e :: es => let! b := step m init b e in steps m init es b end.
Definition fv_events (k : kind) (fv : FV) : list ev :=
  match k with
  | KRow => []
  | KCont f => if decide (fv_F fv = f) then match parse_float (fv_V fv) with Some v => [EvF v] | None => [] end else []
  | KDisc f => if decide (fv_F fv = f) then [EvD (fv_V fv)] else []
  end.
Definition fvs_events (k : kind) (fvs : list FV) : list ev := fv ← fvs; fv_events k fv.
Definition row_events (k : kind) (r : Row) : list ev := (if decide (k = KRow) then [EvRow] else []) ++ fvs_events k (row_data r).
Lemma steps_app m i es1 es2 b : steps m i (es1 ++ es2) b = (let! b := steps m i es1 b in steps m i es2 b).
Proof. revert b. induction es1 as [|e es1 IH]; intros b; [done|]. simpl. destruct (step m i b e); [|done..]. simpl. apply IH. Qed.

Context (c : Collator) (pos : Z) (cs : list cell).
Context (Hinv : inv c pos cs).
Lemma cell_fits k g n : (k, g) ∈ cs → pos ≤ Z.of_nat n → fits n g.
Proof. clear parse_float. intros H Hn. destruct (laid_bounds _ _ _ _ _ (i_laid _ _ _ Hinv) H). unfold fits. lia. Qed.
Lemma cells_fits k n : pos ≤ Z.of_nat n → Forall (fits n) (cells_of k cs).
Proof. clear parse_float. intros Hn. apply Forall_forall. intros g Hg%elem_of_cells_of. by eapply cell_fits. Qed.
Lemma cells_separated k : separated (cells_of k cs).
Proof. clear parse_float.
  split; [eapply cells_of_NoDup, (i_laid _ _ _ Hinv)|]. intros g g' Hg%elem_of_cells_of Hg'%elem_of_cells_of Hne.
  eapply laid_disj_elem; [apply (i_laid _ _ _ Hinv)| |done|done]. congruence.
Qed.
Lemma cells_disj k k' g : k ≠ k' → (k, g) ∈ cs → Forall (disj g) (cells_of k' cs).
Proof. clear parse_float.
  intros Hk Hg. apply Forall_forall. intros g' Hg'%elem_of_cells_of.
  eapply laid_disj_elem; [apply (i_laid _ _ _ Hinv)| |done|done]. congruence.
Qed.
(** running all writers of one kind: the cells of that kind step, the others do not change *)
Lemma run_kind fn k gs buf buf' o : keeps fn → pos ≤ Z.of_nat (length buf) → opt_list (cells_of k cs) = Some gs →
  run_writers buf gs fn = (buf', o) →
  length buf' = length buf ∧ (∀ k' g, (k', g) ∈ cs → k' ≠ k → sub buf' g = sub buf g) ∧
  (o = Ok () → ∀ g, (k, g) ∈ cs → fn (g_m g) (sub buf g) = Ok (sub buf' g)).
Proof. clear parse_float.
  intros Hk Hp E. assert (gs = cells_of k cs) as -> by (destruct (cells_of k cs); naive_solver).
  intros Er. destruct (run_writers_frame fn Hk _ _ _ _ (cells_fits k _ Hp) Er) as [L F]. split; [done|]. split.
  - intros k' g Hg Hne. apply F; [by eapply cell_fits|]. by eapply cells_disj.
  - intros -> g Hg. eapply run_writers_Ok; [done| |apply (cells_separated k)|done|by apply elem_of_cells_of]. by apply cells_fits.
Qed.
Lemma none_kind k g : opt_list (cells_of k cs) = None → (k, g) ∉ cs.
Proof. clear parse_float. intros E Hg%elem_of_cells_of. destruct (cells_of k cs); [by apply elem_of_nil in Hg|done]. Qed.

(** one field value: the frame holds whatever the outcome *)
Lemma update_fv_spec buf init fv buf' o : pos ≤ Z.of_nat (length buf) → update_fv parse_float c buf init fv = (buf', o) →
  length buf' = length buf ∧
  (∀ k g, (k, g) ∈ cs → k ≠ KCont (fv_F fv) → k ≠ KDisc (fv_F fv) → sub buf' g = sub buf g) ∧
  (o = Ok () → ∀ k g, (k, g) ∈ cs → steps (g_m g) init (fv_events k fv) (sub buf g) = Ok (sub buf' g) ∧
     (k = KCont (fv_F fv) → is_Some (parse_float (fv_V fv)))).
Proof.
  intros Hp. unfold update_fv. rewrite (i_cont _ _ _ Hinv), (i_disc _ _ _ Hinv). set (f := fv_F fv).
  assert (Hrest : ∀ buf1, length buf1 = length buf →
    (match opt_list (cells_of (KDisc f) cs) with
      | Some ws => run_writers buf1 ws (λ m b, disc_write m b init (fv_V fv))
      | None => (buf1, Ok ()) end) = (buf', o) →
    length buf' = length buf ∧ (∀ k g, (k, g) ∈ cs → k ≠ KDisc f → sub buf' g = sub buf1 g) ∧
    (o = Ok () → ∀ g, (KDisc f, g) ∈ cs → disc_write (g_m g) (sub buf1 g) init (fv_V fv) = Ok (sub buf' g))).
  { intros buf1 L1. destruct (opt_list (cells_of (KDisc f) cs)) as [gs|] eqn:Ed.
    - intros Er. eapply (run_kind (λ m b, disc_write m b init (fv_V fv))) in Er; [|by intros ??? ?%disc_write_keeps|by rewrite L1|exact Ed].
      destruct Er as (L2 & F2 & S2). split; [congruence|]. split; [done|]. exact S2.
    - intros [= <- <-]. split; [done|]. split; [done|]. intros _ g Hg. by apply none_kind in Hg. }
  destruct (opt_list (cells_of (KCont f) cs)) as [gs|] eqn:Ec.
  - destruct (parse_float (fv_V fv)) as [v|] eqn:Ep; cycle 1.
    { intros [= <- <-]. split; [done|]. split; [done|]. done. }
    destruct (run_writers buf gs _) as [buf1 o1] eqn:Er.
    eapply (run_kind (λ m b, cont_write m b init v)) in Er; [|by intros ??? ?%cont_write_keeps|done|exact Ec].
    destruct Er as (L1 & F1 & S1). destruct o1 as [[]|e|].
    + intros (L2 & F2 & S2)%Hrest; [|done]. split; [done|]. split.
      * intros k g Hg H1 H2. rewrite (F2 k g), (F1 k g); done.
      * intros -> k g Hg. split; [|by intros _]. destruct k as [|f'|f']; cbn [fv_events].
        -- simpl. rewrite (F2 KRow g), (F1 KRow g); done.
        -- fold f. case_decide as E.
           ++ subst f'. rewrite Ep. cbn [steps step]. rewrite (S1 eq_refl g Hg). cbn [obind]. by rewrite (F2 (KCont f) g).
           ++ cbn [steps]. rewrite (F2 (KCont f') g), (F1 (KCont f') g); try done. congruence.
        -- fold f. case_decide as E.
           ++ subst f'. cbn [steps step]. rewrite <- (F1 (KDisc f) g) by done. by rewrite (S2 eq_refl g Hg).
           ++ cbn [steps]. rewrite (F2 (KDisc f') g), (F1 (KDisc f') g); try done. congruence.
    + intros [= <- <-]. split; [done|]. split; [|done]. intros k g Hg H1 H2. by rewrite (F1 k g).
    + intros [= <- <-]. split; [done|]. split; [|done]. intros k g Hg H1 H2. by rewrite (F1 k g).
  - intros (L2 & F2 & S2)%Hrest; [|done]. split; [done|]. split.
    + intros k g Hg H1 H2. rewrite (F2 k g); done.
    + intros -> k g Hg. split; [|by intros ->; apply none_kind in Hg]. destruct k as [|f'|f']; cbn [fv_events].
      * simpl. by rewrite (F2 KRow g).
      * fold f. case_decide as E; [subst; by apply none_kind in Hg|]. cbn [steps]. by rewrite (F2 (KCont f') g).
      * fold f. case_decide as E.
        -- subst f'. cbn [steps step]. by rewrite (S2 eq_refl g Hg).
        -- cbn [steps]. rewrite (F2 (KDisc f') g); try done. congruence.
Qed.
Lemma update_fvs_spec init : ∀ fvs buf buf' o, pos ≤ Z.of_nat (length buf) → update_fvs parse_float c buf init fvs = (buf', o) →
  length buf' = length buf ∧
  (∀ k g, (k, g) ∈ cs → (∀ fv, fv ∈ fvs → k ≠ KCont (fv_F fv) ∧ k ≠ KDisc (fv_F fv)) → sub buf' g = sub buf g) ∧
  (o = Ok () → ∀ k g, (k, g) ∈ cs → steps (g_m g) init (fvs_events k fvs) (sub buf g) = Ok (sub buf' g) ∧
     (∀ fv, fv ∈ fvs → k = KCont (fv_F fv) → is_Some (parse_float (fv_V fv)))).
Proof.
  induction fvs as [|fv fvs IH]; intros buf buf' o Hp; cbn [update_fvs].
  - intros [= <- <-]. split; [done|]. split; [done|]. intros _ k g Hg. split; [done|]. intros fv Hfv. by apply elem_of_nil in Hfv.
  - destruct (update_fv parse_float c buf init fv) as [buf1 o1] eqn:E1.
    apply update_fv_spec in E1 as (L1 & F1 & S1); [|done]. destruct o1 as [[]|e|].
    + intros E2. apply IH in E2 as (L2 & F2 & S2); [|by rewrite L1]. split; [congruence|]. split.
      * intros k g Hg Hfv. rewrite (F2 k g Hg), (F1 k g Hg); [done|apply Hfv; left..|]. intros. apply Hfv. by right.
      * intros -> k g Hg. destruct (S1 eq_refl k g Hg) as [A1 B1]. destruct (S2 eq_refl k g Hg) as [A2 B2]. split.
        -- unfold fvs_events. cbn [mbind list_bind]. rewrite steps_app, A1. cbn [obind]. exact A2.
        -- intros fv' [->|Hfv]%elem_of_cons; [exact B1|by apply B2].
    + intros [= <- <-]. split; [done|]. split; [|done]. intros k g Hg Hfv. apply (F1 k g Hg); apply Hfv; left.
    + intros [= <- <-]. split; [done|]. split; [|done]. intros k g Hg Hfv. apply (F1 k g Hg); apply Hfv; left.
Qed.
Lemma Update_spec r init buf buf' o : pos ≤ Z.of_nat (length buf) → Coll_Update parse_float c r buf init = (buf', o) →
  length buf' = length buf ∧
  (∀ k g, (k, g) ∈ cs → k ≠ KRow → (∀ fv, fv ∈ row_data r → k ≠ KCont (fv_F fv) ∧ k ≠ KDisc (fv_F fv)) → sub buf' g = sub buf g) ∧
  (o = Ok () → ∀ k g, (k, g) ∈ cs → steps (g_m g) init (row_events k r) (sub buf g) = Ok (sub buf' g) ∧
     (∀ fv, fv ∈ row_data r → k = KCont (fv_F fv) → is_Some (parse_float (fv_V fv)))).
Proof.
  intros Hp. unfold Coll_Update. rewrite (i_writers _ _ _ Hinv).
  destruct (run_writers buf _ _) as [buf1 o1] eqn:E1.
  assert (length buf1 = length buf ∧ (∀ k' g, (k', g) ∈ cs → k' ≠ KRow → sub buf1 g = sub buf g) ∧
  (o1 = Ok () → ∀ g, (KRow, g) ∈ cs → count_write (sub buf g) = Ok (sub buf1 g))) as (L1 & F1 & S1).
  { destruct (opt_list (cells_of KRow cs)) as [gs|] eqn:E.
    - assert (gs = cells_of KRow cs) as -> by (destruct (cells_of KRow cs); naive_solver).
      eapply (run_kind (λ _ b, count_write b) KRow) in E1; [exact E1| |done|done]. by intros ??? ?%count_write_keeps.
    - assert (cells_of KRow cs = []) as E0 by (destruct (cells_of KRow cs); done). rewrite E0 in E1. injection E1 as <- <-.
      split; [done|]. split; [done|]. intros _ g Hg. by apply none_kind in Hg. }
  destruct o1 as [[]|e|].
  - intros E2. apply update_fvs_spec in E2 as (L2 & F2 & S2); [|by rewrite L1]. split; [congruence|]. split.
    + intros k g Hg Hk Hfv. rewrite (F2 k g Hg Hfv). by apply (F1 k g).
    + intros -> k g Hg. destruct (S2 eq_refl k g Hg) as [A2 B2]. split; [|exact B2].
      unfold row_events. rewrite steps_app. case_decide as E; cbn [steps step].
      * subst k. rewrite (S1 eq_refl g Hg). cbn [obind]. exact A2.
      * cbn [obind]. rewrite <- (F1 k g Hg E). exact A2.
  - intros [= <- <-]. split; [done|]. split; [|done]. intros k g Hg Hk _. by apply (F1 k g).
  - intros [= <- <-]. split; [done|]. split; [|done]. intros k g Hg Hk _. by apply (F1 k g).
Qed.

(** a whole history *)
Fixpoint hist_steps (m : measure) (k : kind) (rows : list (bool * Row)) (b : bytes) : outcome bytes :=
  match rows with [] => Ok b | (i, r) :: rows => let! b := steps m i (row_events k r) b in hist_steps m k rows b end.
Lemma apply_rows_spec rows : ∀ buf buf', pos ≤ Z.of_nat (length buf) → apply_rows parse_float c buf rows = Ok buf' →
  length buf' = length buf ∧ ∀ k g, (k, g) ∈ cs → hist_steps (g_m g) k rows (sub buf g) = Ok (sub buf' g) ∧
    ∀ i r fv, (i, r) ∈ rows → fv ∈ row_data r → k = KCont (fv_F fv) → is_Some (parse_float (fv_V fv)).
Proof.
  induction rows as [|[i r] rows IH]; intros buf buf' Hp; cbn [apply_rows].
  - intros [= <-]. split; [done|]. intros k g Hg. split; [done|]. intros ??? H. by apply elem_of_nil in H.
  - destruct (Coll_Update parse_float c r buf i) as [buf1 o1] eqn:E1. apply Update_spec in E1 as (L1 & _ & S1); [|done].
    destruct o1 as [[]|e|]; [|done..]. intros E2. apply IH in E2 as (L2 & S2); [|by rewrite L1]. split; [congruence|].
    intros k g Hg. destruct (S1 eq_refl k g Hg) as [A1 B1]. destruct (S2 k g Hg) as [A2 B2]. split.
    + cbn [hist_steps]. rewrite A1. exact A2.
    + intros i' r' fv [[= -> ->]|H]%elem_of_cons; [apply B1|by eapply B2].
Qed.
End update.
