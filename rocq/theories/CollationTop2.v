(** Safety, acceptance and frame theorems in terms of schemas. *)
From Coq Require Import ZifyBool ZifyNat.
From Verif Require Import Base BaseProofs Float64 FloatOrder FnvModel FnvSpec FnvProofs BitbucketModel BitbucketSpec BitbucketProofs HllModel HllSpec HllProofs
  Stat64Model Stat64Spec Stat64Proofs CollationModel CollationSpec CollationLayout CollationCells CollationProofs CollationMeasures CollationTop CollationSafe.
Local Open Scope Z_scope.
Section top2.
Context (pf : bytes → option float) (est : Counter → Z).

Lemma cell_precision s cs k g p : schema_ok s → inv (Compile s) (c_size (Compile s)) cs → (k, g) ∈ cs → g_m g = MCardinality p →
  4 ≤ p ≤ 18 ∧ ∃ f, k = KDisc f ∧ field_measure s f (MCardinality p).
Proof.
  intros Hs Hi Hin Hm. pose proof (i_ok _ _ _ Hi) as Ho. rewrite Forall_forall in Ho. specialize (Ho _ Hin). unfold cell_ok in Ho. cbn [fst snd] in Ho. rewrite Hm in Ho.
  destruct k as [|f|f]; [done..|]. 
  assert (field_measure s f (MCardinality p)) as Hf.
  { rewrite <- Hm. eapply (Compile_disc s f (cells_of (KDisc f) cs)); [|by apply elem_of_cells_of].
    rewrite (i_disc _ _ _ Hi). apply elem_of_cells_of in Hin. destruct (cells_of (KDisc f) cs); [by apply elem_of_nil in Hin|done]. }
  split; [|by eauto]. destruct Hf as (ms & Hms & _ & Hm'). unfold schema_ok in Hs. rewrite Forall_forall in Hs. specialize (Hs _ Hms).
  rewrite Forall_forall in Hs. by apply Hs in Hm'.
Qed.
Lemma zeros_cell s cs k g : schema_ok s → inv (Compile s) (c_size (Compile s)) cs → (k, g) ∈ cs → sub (zeros s) g = replicate (Z.to_nat (m_size (g_m g))) 0.
Proof.
  intros Hs Hi Hin. pose proof (zeros_length s Hs) as HL. pose proof (cell_fits _ _ _ Hi _ _ (length (zeros s)) Hin ltac:(lia)) as Hfit.
  unfold zeros in *. rewrite replicate_length in Hfit. rewrite sub_zeros by done. f_equal.
  destruct (laid_bounds _ _ _ _ _ (i_laid _ _ _ Hi) Hin) as (_ & Hh & _). simpl in *. lia.
Qed.
Lemma zeros_good s cs : schema_ok s → inv (Compile s) (c_size (Compile s)) cs → all_good cs (zeros s).
Proof.
  intros Hs Hi k g Hin. rewrite (zeros_cell s cs k g Hs Hi Hin). destruct (g_m g) eqn:Em; try done.
  destruct (cell_precision s cs k g _ Hs Hi Hin Em) as [Hp _]. cbn [good m_size]. rewrite u8_small by lia. split; [done|by left].
Qed.
Lemma reachable_good s cs buf : schema_ok s → inv (Compile s) (c_size (Compile s)) cs → reachable pf s buf →
  Z.of_nat (length buf) = c_size (Compile s) ∧ all_good cs buf.
Proof.
  intros Hs Hi. induction 1 as [|buf r init buf' o _ IH Hr HU].
  - split; [by apply zeros_length|by apply zeros_good].
  - destruct IH as [L G]. eapply (Update_good pf _ _ _ Hi) in HU as (_ & L' & G'); [|lia|done|done]. split; [lia|done].
Qed.
Lemma never_panics s buf r init : schema_ok s → reachable pf s buf → Forall (λ fv, is_bytes (fv_V fv)) (row_data r) →
  ∃ buf' o, Coll_Update pf (Compile s) r buf init = (buf', o) ∧ o ≠ Panic ∧ Z.of_nat (length buf') = c_size (Compile s).
Proof.
  intros Hs Hr Hb. destruct (Compile_inv s Hs) as (cs & Hi & _). destruct (reachable_good s cs buf Hs Hi Hr) as [L G].
  destruct (Coll_Update pf (Compile s) r buf init) as [buf' o] eqn:E. exists buf', o. split; [done|].
  eapply (Update_good pf _ _ _ Hi) in E as (A & L' & _); [|lia|done|done]. split; [done|lia].
Qed.
Lemma good_read m b : good m b → is_bytes b ∨ True → cont_read est m b ≠ Panic.
Proof.
  intros Hg _. destruct m as [| | | | | |p]; cbn [good cont_read] in *; unfold Stat_WithBytes.
  - by rewrite slice_Ok by lia.
  - unfold Stat_Sum, stat_f64. by rewrite slice_Ok by lia.
  - unfold Stat_Mean, stat_f64. by rewrite slice_Ok by lia.
  - unfold Stat_Variance, stat_u64, stat_f64. rewrite slice_Ok by lia. cbn [obind]. case_match; [done|]. by rewrite slice_Ok by lia.
  - by rewrite slice_Ok by lia.
  - by rewrite slice_Ok by lia.
  - destruct Hg as [Hp [->|(c & Hc & ->)]].
    + pose proof (hll_len_pos p Hp). destruct (Z.to_nat (Hll_LenOf p)) as [|n]; [lia|]. done.
    + destruct (Hll_roundtrip c p Hc) as (_ & _ & _ & _ & HW). specialize (HW []). rewrite app_nil_r in HW. unfold ser. by rewrite HW.
Qed.
Lemma good_feed k m' f m b : feeds k m' f m → good m' b → good m b.
Proof.
  destruct k; simpl.
  - intros (_ & -> & ->). done.
  - intros (_ & H1 & H2 & [[H3 H4]| ->]); [|done]. destruct m, m'; done.
  - intros (_ & _ & ->). done.
Qed.
Lemma answer_never_panics s buf f n : schema_ok s → reachable pf s buf → answer est s buf f n ≠ Panic.
Proof.
  intros Hs Hr. destruct (Compile_inv s Hs) as (cs & Hi & _ & _ & Hd). destruct (reachable_good s cs buf Hs Hi Hr) as [L G].
  rewrite answer_spec. destruct (reader_of (Compile s) f n) as [g|] eqn:Eg; [|done].
  destruct (i_read _ _ _ Hi _ _ _ Eg) as (_ & k & m' & Hin & Hf).
  pose proof (cell_fits _ _ _ Hi _ _ (length buf) Hin ltac:(lia)) as Hfit. unfold fits in Hfit. simpl in Hfit.
  rewrite slice_Ok by lia. cbn [obind]. specialize (G _ _ Hin). cbn [g_m] in G. eapply good_feed in G; [|exact Hf].
  pose proof (good_read _ _ G (or_intror I)) as Hx. unfold sub in Hx. cbn [g_low g_high] in Hx. by destruct (cont_read est (g_m g) _).
Qed.
Lemma read_never_panics s buf fml : schema_ok s → reachable pf s buf → Coll_Read est (Compile s) fml buf ≠ Panic.
Proof.
  intros Hs Hr. induction fml as [|fm fml IH]; [done|]. cbn [Coll_Read].
  assert (match c_read (Compile s) !! fm_F fm with Some rs => read_measures est buf (fm_F fm) rs (fm_M fm) | None => Ok [] end ≠ Panic) as H.
  { destruct (c_read (Compile s) !! fm_F fm) as [rs|] eqn:Ef; [|done]. generalize (fm_M fm). intros ms. induction ms as [|n ms IHm]; [done|].
    cbn [read_measures]. pose proof (answer_spec est s buf (fm_F fm) n) as Ha. pose proof (answer_never_panics s buf (fm_F fm) n Hs Hr) as Hn.
    unfold reader_of in Ha. rewrite Ef in Ha. cbn [mbind option_bind] in Ha. destruct (rs !! n) as [g|]; [|done].
    destruct (slice buf _ _) as [b|e|]; cbn [obind] in *; [|done|congruence]. destruct (cont_read est (g_m g) b) as [v|e|]; cbn [obind] in *; [|done|congruence].
    destruct (read_measures est buf (fm_F fm) rs ms); done. }
  destruct (match c_read (Compile s) !! fm_F fm with Some _ => _ | None => _ end) as [l|e|]; cbn [obind]; [|done|done].
  destruct (Coll_Read est (Compile s) fml buf); done.
Qed.

(** a row leaves alone the answers about fields it does not carry, whatever its outcome *)
Lemma frame_answer s buf r init buf' o f n : schema_ok s → Z.of_nat (length buf) = c_size (Compile s) →
  Coll_Update pf (Compile s) r buf init = (buf', o) → f ∉ map fv_F (row_data r) → (f, n) ≠ (str "*", str "count") →
  answer est s buf' f n = answer est s buf f n.
Proof.
  intros Hs Hl HU Hf Hn. destruct (Compile_inv s Hs) as (cs & Hi & _ & _ & Hd).
  apply (Update_spec pf _ _ _ Hi) in HU as (L & F & _); [|lia]. rewrite !answer_spec.
  destruct (reader_of (Compile s) f n) as [g|] eqn:Eg; [|done].
  destruct (i_read _ _ _ Hi _ _ _ Eg) as (En & k & m' & Hin & Hfeed).
  pose proof (cell_fits _ _ _ Hi _ _ (length buf) Hin ltac:(lia)) as Hfit. unfold fits in Hfit. simpl in Hfit.
  rewrite !slice_Ok by lia. cbn [obind].
  assert (sub buf' (Rg (g_low g) (g_high g) m') = sub buf (Rg (g_low g) (g_high g) m')) as Heq.
  { assert (k = KCont f ∨ k = KDisc f) as Hk.
    { destruct k as [|f'|f']; simpl in Hfeed; [|naive_solver..]. destruct Hfeed as (-> & _ & Hm). exfalso. apply Hn. by rewrite En, Hm. }
    apply (F k); [done|naive_solver|]. intros fv Hfv. assert (fv_F fv ≠ f) by (intros <-; apply Hf; by apply elem_of_list_fmap_1). naive_solver. }
  unfold sub in Heq. cbn [g_low g_high] in Heq. by rewrite Heq.
Qed.

(** sufficient conditions for a history to be accepted *)
Lemma cont_steps_ok m i vs : is_cont_input m = true → ∀ b, good m b → ∃ b', steps m i (map EvF vs) b = Ok b' ∧ good m b'.
Proof.
  intros Hm. induction vs as [|v vs IH]; intros b Hb; [by exists b|]. cbn [map steps step].
  destruct (cont_write_good m b i v Hm Hb) as (b1 & -> & Hb1). cbn [obind]. by apply IH.
Qed.
Lemma cont_hist_ok m f rows : is_cont_input m = true → ∀ b, good m b → ∃ b', hist_steps pf m (KCont f) rows b = Ok b' ∧ good m b'.
Proof.
  intros Hm. induction rows as [|[i r] rows IH]; intros b Hb; [by exists b|]. cbn [hist_steps]. unfold row_events. rewrite decide_False by done.
  cbn [app]. rewrite events_cont. destruct (cont_steps_ok m i (fv_floats pf f (row_data r)) Hm b Hb) as (b1 & -> & Hb1). cbn [obind]. by apply IH.
Qed.
Lemma card_init_steps p vs : 4 ≤ p ≤ 18 → Forall is_bytes vs → vs ≠ [] → ∀ b, length b = Z.to_nat (Hll_LenOf p) →
  ∃ c, hll_wf c p ∧ steps (MCardinality p) true (map EvD vs) b = Ok (ser p c).
Proof.
  intros Hp. induction vs as [|v vs IH]; intros Hv Hne b Hb; [done|]. inversion_clear Hv as [|? ? Hv1 Hv2]. cbn [map steps step].
  destruct (card_init p b v Hp Hb Hv1) as (c0 & c & _ & _ & Hc & ->). cbn [obind]. destruct vs as [|v' vs]; [by exists c|].
  apply IH; [done|done|by apply ser_length].
Qed.
Lemma accepted s r0 rs : schema_ok s → Forall (λ r, Forall (λ fv, is_bytes (fv_V fv)) (row_data r)) (r0 :: rs) →
  (∀ r fv m, r ∈ r0 :: rs → fv ∈ row_data r → field_measure s (fv_F fv) m → is_cont_input m = true → is_Some (pf (fv_V fv))) →
  (∀ r fv p, r ∈ rs → fv ∈ row_data r → field_measure s (fv_F fv) (MCardinality p) → fv_F fv ∈ map fv_F (row_data r0)) →
  ∃ buf, record_after pf s (r0 :: rs) = Ok buf.
Proof.
  intros Hs Hb Hpf Hc. destruct (Compile_inv s Hs) as (cs & Hi & _). pose proof (zeros_length s Hs) as HL.
  unfold record_after. fold (zeros s). cbn [first_init].
  apply (apply_rows_accept pf _ _ _ Hi); [lia| |].
  - intros k g Hin. pose proof (zeros_good s cs Hs Hi _ _ Hin) as Hg. destruct k as [|f|f].
    + rewrite (zeros_cell s cs _ g Hs Hi Hin), (cell_row _ _ _ Hi _ Hin).
      change (replicate _ 0) with (put64 (0 mod 2^64)). rewrite count_hist. eauto.
    + destruct (cont_hist_ok (g_m g) f ((true, r0) :: map (pair false) rs) (cell_cont _ _ _ Hi _ _ Hin) _ Hg) as (b & E & _). eauto.
    + pose proof (cell_disc _ _ _ Hi _ _ Hin) as Hd. destruct (g_m g) as [| | | | | |p] eqn:Em; try done.
      destruct (cell_precision s cs _ g p Hs Hi Hin Em) as (Hp & f' & [= <-] & Hfm).
      cbn [hist_steps]. unfold row_events at 1. rewrite decide_False by done. cbn [app]. rewrite events_disc.
      inversion_clear Hb as [|? ? Hb0 Hbs].
      destruct (decide (fv_values f (row_data r0) = [])) as [E0|E0].
      * rewrite E0. cbn [map steps obind].
        assert (∀ r, r ∈ rs → fv_values f (row_data r) = []) as Hnone.
        { intros r Hr. unfold fv_values in *. apply fmap_nil_inv in E0.
          destruct (filter (λ fv, fv_F fv = f) (row_data r)) as [|fv l] eqn:E; [done|exfalso].
          assert (fv_F fv = f ∧ fv ∈ row_data r) as [<- Hfv] by (apply (elem_of_list_filter (λ fv, fv_F fv = f)); rewrite E; left).
          specialize (Hc r fv p Hr Hfv Hfm). apply elem_of_list_fmap in Hc as (fv0 & Heq & Hfv0).
          assert (fv0 ∈ filter (λ fv', fv_F fv' = fv_F fv) (row_data r0)) as Hx by (by apply elem_of_list_filter).
          rewrite E0 in Hx. by apply elem_of_nil in Hx. }
        clear -Hnone. generalize (sub (zeros s) g). intros b. exists b. revert Hnone. induction rs as [|r rs IH]; intros Hnone; [done|].
        cbn [map hist_steps]. unfold row_events. rewrite decide_False by done. cbn [app]. rewrite events_disc, (Hnone r) by left. cbn [map steps obind].
        apply IH. intros r' Hr'. apply Hnone. by right.
      * assert (length (sub (zeros s) g) = Z.to_nat (Hll_LenOf p)) as Hlen.
        { rewrite (zeros_cell s cs _ g Hs Hi Hin), replicate_length, Em. cbn [m_size]. by rewrite u8_small by lia. }
        assert (∀ r, Forall (λ fv, is_bytes (fv_V fv)) (row_data r) → Forall is_bytes (fv_values f (row_data r))) as Hvb.
        { intros r Hr. unfold fv_values. apply Forall_fmap, Forall_forall. intros fv [_ Hfv]%elem_of_list_filter. rewrite Forall_forall in Hr. by apply Hr. }
        destruct (card_init_steps p (fv_values f (row_data r0)) Hp (Hvb _ Hb0) E0 _ Hlen) as (c & Hwf & ->). cbn [obind].
        destruct (card_hist pf p f rs) with (c := c) as (c' & _ & _ & ->); [|done|by eauto].
        unfold field_values. clear -Hbs Hvb. induction Hbs as [|r rs Hr Hrs IH]; [constructor|]. cbn [mbind list_bind]. apply Forall_app. split; [by apply Hvb|done].
  - intros i r fv g Hr Hfv Hin. assert (r ∈ r0 :: rs) as Hr'.
    { apply elem_of_cons in Hr as [[= -> ->]|Hr]; [left|]. apply elem_of_list_fmap in Hr as (r' & [= -> ->] & Hr'). by right. }
    eapply (Hpf r fv (g_m g)); [done|done| |by eapply cell_cont].
    eapply (Compile_cont s (fv_F fv) (cells_of (KCont (fv_F fv)) cs)); [|by apply elem_of_cells_of].
    rewrite (i_cont _ _ _ Hi). apply elem_of_cells_of in Hin. destruct (cells_of (KCont (fv_F fv)) cs); [by apply elem_of_nil in Hin|done].
Qed.
End top2.
