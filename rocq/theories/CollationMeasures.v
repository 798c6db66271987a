(** What each kind of cell holds after a history.  Proof internals. *)
From Coq Require Import ZifyBool ZifyNat.
From Verif Require Import Base BaseProofs Float64 FloatOrder FnvModel FnvSpec FnvProofs BitbucketModel BitbucketSpec BitbucketProofs HllModel HllSpec HllProofs
  Stat64Model Stat64Spec Stat64Proofs CollationModel CollationSpec CollationLayout CollationCells CollationProofs.
Local Open Scope Z_scope.

Lemma sub_zeros n g : fits n g → sub (replicate n 0) g = replicate (Z.to_nat (g_high g - g_low g)) 0.
Proof. intros H. unfold sub, fits in *. rewrite drop_replicate, take_replicate. f_equal. lia. Qed.
Lemma steps_one m i b e : steps m i [e] b = step m i b e.
Proof. cbn [steps]. by destruct (step m i b e). Qed.

Section hist.
Context (pf : bytes → option float) (est : Counter → Z).

Lemma events_row fvs : fvs_events pf KRow fvs = [].
Proof. by induction fvs. Qed.
Definition fv_floats (f : bytes) (fvs : list FV) : list float := omap pf (map fv_V (filter (λ fv, fv_F fv = f) fvs)).
Definition fv_values (f : bytes) (fvs : list FV) : list bytes := map fv_V (filter (λ fv, fv_F fv = f) fvs).
Lemma events_cont f fvs : fvs_events pf (KCont f) fvs = map EvF (fv_floats f fvs).
Proof.
  induction fvs as [|fv fvs IH]; [done|]. unfold fvs_events, fv_floats in *. cbn [mbind list_bind]. rewrite IH.
  rewrite filter_cons. cbn [fv_events]. case_decide; [|done]. cbn [map omap list_omap]. by destruct (pf (fv_V fv)).
Qed.
Lemma events_disc f fvs : fvs_events pf (KDisc f) fvs = map EvD (fv_values f fvs).
Proof.
  induction fvs as [|fv fvs IH]; [done|]. unfold fvs_events, fv_values in *. cbn [mbind list_bind]. rewrite IH.
  rewrite filter_cons. cbn [fv_events]. by case_decide.
Qed.
Lemma field_floats_cons f r rows : field_floats pf f (r :: rows) = fv_floats f (row_data r) ++ field_floats pf f rows.
Proof. unfold field_floats, field_values, fv_floats. cbn [mbind list_bind]. apply omap_app. Qed.
Lemma field_values_cons f r rows : field_values f (r :: rows) = fv_values f (row_data r) ++ field_values f rows.
Proof. done. Qed.

(** count *)
Lemma count_write_put n : count_write (put64 (n mod 2^64)) = Ok (put64 ((n + 1) mod 2^64)).
Proof. clear pf est.
  unfold count_write. rewrite slice_Ok by (rewrite ?put64_length; lia).
  replace (Z.to_nat (8 - 0)) with 8%nat by lia. rewrite drop_0, take_ge by (by rewrite put64_length).
  cbn [obind]. rewrite get64_put64 by lia. rewrite splice_nil_all by (by rewrite !put64_length). f_equal. f_equal. unfold u64.
  by rewrite Zplus_mod_idemp_l.
Qed.
Lemma count_hist rows : ∀ n, hist_steps pf MCount KRow rows (put64 (n mod 2^64)) = Ok (put64 ((n + Z.of_nat (length rows)) mod 2^64)).
Proof.
  induction rows as [|[i r] rows IH]; intros n; cbn [hist_steps length].
  - do 3 f_equal. lia.
  - unfold row_events. rewrite decide_True, events_row by done. rewrite app_nil_r, steps_one. cbn [step]. rewrite count_write_put. cbn [obind].
    rewrite IH. do 3 f_equal. lia.
Qed.
(** stat *)
Lemma stat_steps m' i vs : is_stat m' = true → is_cont_input m' = true → ∀ a, 0 ≤ a_count a < 2^64 →
  steps m' i (map EvF vs) (enc a) = Ok (enc (fold_left observe64 vs a)).
Proof.
  intros H1 H2. induction vs as [|v vs IH]; intros a Ha; [done|]. cbn [map steps].
  assert (step m' i (enc a) (EvF v) = Ok (enc (observe64 a v))) as ->.
  { rewrite <- (app_nil_r (enc a)), <- (app_nil_r (enc (observe64 a v))).
    destruct m'; try done; cbn [step cont_write]; unfold Stat_WithBytes; by apply Update_enc. }
  cbn [obind fold_left]. apply IH. apply observe_count.
Qed.
Lemma stat_hist m' f rows : is_stat m' = true → is_cont_input m' = true → ∀ a, 0 ≤ a_count a < 2^64 →
  hist_steps pf m' (KCont f) rows (enc a) = Ok (enc (fold_left observe64 (field_floats pf f (map snd rows)) a)).
Proof.
  intros H1 H2. induction rows as [|[i r] rows IH]; intros a Ha; [done|]. cbn [map snd hist_steps].
  unfold row_events. rewrite decide_False by done. cbn [app]. rewrite events_cont, stat_steps by done. cbn [obind].
  rewrite IH by (by apply fold_count). rewrite field_floats_cons. by rewrite fold_left_app.
Qed.
(** max, min *)
Definition fmax (mx v : float) : float := if fle v mx then mx else v.
Definition fmin (mn v : float) : float := if fle mn v then mn else v.
Lemma slice_putf x : slice (putf x) 0 8 = Ok (putf x).
Proof. clear pf est. rewrite slice_Ok by (rewrite ?putf_length; lia). rewrite drop_0, take_ge; [done|]. rewrite putf_length. lia. Qed.
Lemma max_write_put x v : max_write (putf x) false v = Ok (putf (fmax x v)).
Proof. clear pf est.
  unfold max_write, fmax. rewrite slice_putf. cbn [obind negb andb]. rewrite getf_putf. destruct (fle v x); [done|].
  by rewrite splice_nil_all by (by rewrite !putf_length).
Qed.
Lemma min_write_put x v : min_write (putf x) false v = Ok (putf (fmin x v)).
Proof. clear pf est.
  unfold min_write, fmin. rewrite slice_putf. cbn [obind negb andb]. rewrite getf_putf. destruct (fle x v); [done|].
  by rewrite splice_nil_all by (by rewrite !putf_length).
Qed.
Lemma max_write_init b v : length b = 8%nat → max_write b true v = Ok (putf v).
Proof. clear pf est. intros H. unfold max_write. rewrite slice_Ok by lia. cbn [obind negb andb]. by rewrite splice_nil_all by (by rewrite putf_length). Qed.
Lemma min_write_init b v : length b = 8%nat → min_write b true v = Ok (putf v).
Proof. clear pf est. intros H. unfold min_write. rewrite slice_Ok by lia. cbn [obind negb andb]. by rewrite splice_nil_all by (by rewrite putf_length). Qed.
Lemma ext_steps m (up : float → float → float) vs : (∀ x v, cont_write m (putf x) false v = Ok (putf (up x v))) →
  ∀ x, steps m false (map EvF vs) (putf x) = Ok (putf (fold_left up vs x)).
Proof. intros H. induction vs as [|v vs IH]; intros x; [done|]. cbn [map steps step]. rewrite H. cbn [obind fold_left]. apply IH. Qed.
Lemma ext_hist m up f rows : (∀ x v, cont_write m (putf x) false v = Ok (putf (up x v))) →
  ∀ x, hist_steps pf m (KCont f) (map (pair false) rows) (putf x) = Ok (putf (fold_left up (field_floats pf f rows) x)).
Proof.
  intros H. induction rows as [|r rows IH]; intros x; [done|]. cbn [map hist_steps].
  unfold row_events. rewrite decide_False by done. cbn [app]. rewrite events_cont, (ext_steps m up) by done. cbn [obind].
  rewrite IH. rewrite field_floats_cons. by rewrite fold_left_app.
Qed.
(** the value kept is an extremum of the values seen, if none is NaN *)
Lemma fmax_is_max vs : ∀ x, Forall (λ v, fisnan v = false) (x :: vs) → is_max (fold_left fmax vs x) (x :: vs).
Proof.
  induction vs as [|v vs IH]; intros x [Hx Hvs]%Forall_cons.
  - split; [left|]. intros y [->|Hy%elem_of_nil]%elem_of_cons; [by apply fle_refl|done].
  - apply Forall_cons in Hvs as [Hv Hvs]. cbn [fold_left]. unfold fmax at 2. destruct (fle v x) eqn:E.
    + destruct (IH x) as [H1 H2]; [by constructor|]. assert (fisnan (fold_left fmax vs x) = false) as Hn.
      { apply elem_of_cons in H1 as [->|H1]; [done|]. by eapply Forall_forall in Hvs. }
      split; [set_solver|]. intros y [->|[->|Hy]%elem_of_cons]%elem_of_cons.
      * apply H2. left. 
      * eapply fle_trans; [done|exact Hx|done|done|]. apply H2. left.
      * apply H2. by right.
    + destruct (IH v) as [H1 H2]; [by constructor|]. assert (fisnan (fold_left fmax vs v) = false) as Hn.
      { apply elem_of_cons in H1 as [->|H1]; [done|]. by eapply Forall_forall in Hvs. }
      split; [set_solver|]. intros y [->|Hy]%elem_of_cons.
      * eapply fle_trans; [done|exact Hv|done|by apply fle_total|]. apply H2. left.
      * by apply H2.
Qed.
Lemma fmin_is_min vs : ∀ x, Forall (λ v, fisnan v = false) (x :: vs) → is_min (fold_left fmin vs x) (x :: vs).
Proof.
  induction vs as [|v vs IH]; intros x [Hx Hvs]%Forall_cons.
  - split; [left|]. intros y [->|Hy%elem_of_nil]%elem_of_cons; [by apply fle_refl|done].
  - apply Forall_cons in Hvs as [Hv Hvs]. cbn [fold_left]. unfold fmin at 2. destruct (fle x v) eqn:E.
    + destruct (IH x) as [H1 H2]; [by constructor|]. assert (fisnan (fold_left fmin vs x) = false) as Hn.
      { apply elem_of_cons in H1 as [->|H1]; [done|]. by eapply Forall_forall in Hvs. }
      split; [set_solver|]. intros y [->|[->|Hy]%elem_of_cons]%elem_of_cons.
      * apply H2. left. 
      * eapply fle_trans; [done|exact Hx|done| |done]. apply H2. left.
      * apply H2. by right.
    + destruct (IH v) as [H1 H2]; [by constructor|]. assert (fisnan (fold_left fmin vs v) = false) as Hn.
      { apply elem_of_cons in H1 as [->|H1]; [done|]. by eapply Forall_forall in Hvs. }
      split; [set_solver|]. intros y [->|Hy]%elem_of_cons.
      * eapply fle_trans; [done|exact Hv|done| |by apply fle_total]. apply H2. left.
      * by apply H2.
Qed.
(** cardinality *)
Definition ser (p : Z) (c : Counter) : bytes := hll_serial p (bb_data (hc_bits c)).
Lemma card_init p b v : 4 ≤ p ≤ 18 → length b = Z.to_nat (Hll_LenOf p) → is_bytes v →
  ∃ c0 c, Hll_New p = Ok c0 ∧ Hll_Add c0 v = Ok c ∧ hll_wf c p ∧ disc_write (MCardinality p) b true v = Ok (ser p c).
Proof. clear pf est.
  intros Hp Hb Hv. destruct (New_Ok p Hp) as (c0 & E0 & Hc0 & _). destruct (Add_Ok c0 p v Hc0 Hv) as (c & E & Hc & _).
  exists c0, c. split; [done|]. split; [done|]. split; [done|]. cbn [disc_write]. rewrite u8_small by lia. rewrite E0. cbn [obind]. rewrite E. cbn [obind].
  destruct (Hll_roundtrip c p Hc) as (HL1 & HL2 & HW & _). rewrite HW. cbn [w_out app]. f_equal.
  apply gocopy_exact. unfold ser. lia.
Qed.
Lemma card_step p c v : hll_wf c p → is_bytes v →
  ∃ c', Hll_Add c v = Ok c' ∧ hll_wf c' p ∧ disc_write (MCardinality p) (ser p c) false v = Ok (ser p c').
Proof. clear pf est.
  intros Hc Hv. destruct (Hll_write_through c p [] v Hc Hv) as (H1 & c' & H2 & H3 & H4 & _). rewrite !app_nil_r in *.
  exists c'. split; [done|]. split; [done|]. cbn [disc_write]. unfold ser. rewrite H1. cbn [obind]. rewrite H2. cbn [obind]. by rewrite H4.
Qed.
Lemma Adds_app vs us : ∀ c, Hll_Adds c (vs ++ us) = let! c := Hll_Adds c vs in Hll_Adds c us.
Proof. induction vs as [|v vs IH]; intros c; [done|]. cbn [app Hll_Adds]. destruct (Hll_Add c v); [|done..]. cbn [obind]. apply IH. Qed.
Lemma card_steps p vs : Forall is_bytes vs → ∀ c, hll_wf c p →
  ∃ c', Hll_Adds c vs = Ok c' ∧ hll_wf c' p ∧ steps (MCardinality p) false (map EvD vs) (ser p c) = Ok (ser p c').
Proof.
  induction vs as [|v vs IH]; intros [Hv Hvs]%Forall_cons c Hc || intros Hv c Hc.
  - exists c. done.
  - destruct (card_step p c v Hc Hv) as (c1 & E1 & Hc1 & W1). destruct (IH Hvs c1 Hc1) as (c2 & E2 & Hc2 & W2).
    exists c2. cbn [Hll_Adds map steps step]. rewrite E1, W1. done.
Qed.
Lemma card_hist p f rows : Forall is_bytes (field_values f rows) → ∀ c, hll_wf c p →
  ∃ c', Hll_Adds c (field_values f rows) = Ok c' ∧ hll_wf c' p ∧
    hist_steps pf (MCardinality p) (KDisc f) (map (pair false) rows) (ser p c) = Ok (ser p c').
Proof.
  induction rows as [|r rows IH]; intros Hv c Hc; [by exists c|]. rewrite field_values_cons in *. apply Forall_app in Hv as [Hv Hvs].
  destruct (card_steps p _ Hv c Hc) as (c1 & E1 & Hc1 & W1). destruct (IH Hvs c1 Hc1) as (c2 & E2 & Hc2 & W2).
  exists c2. rewrite Adds_app, E1. split; [done|]. split; [done|]. cbn [map hist_steps]. unfold row_events. rewrite decide_False by done.
  cbn [app]. rewrite events_disc, W1. done.
Qed.
End hist.
