(** When rows are accepted, absence of panics, and what a row leaves alone. *)
From Coq Require Import ZifyBool ZifyNat.
From Verif Require Import Base BaseProofs Float64 FloatOrder FnvModel FnvSpec FnvProofs BitbucketModel BitbucketSpec BitbucketProofs HllModel HllSpec HllProofs
  Stat64Model Stat64Spec Stat64Proofs CollationModel CollationSpec CollationLayout CollationCells CollationProofs CollationMeasures CollationTop.
Local Open Scope Z_scope.

(** ** goodness of a cell: what every reachable cell satisfies *)
Definition good (m : measure) (b : bytes) : Prop :=
  match m with
  | MCount | MMax | MMin => length b = 8%nat
  | MSum | MMean | MVariance => length b = 32%nat
  | MCardinality p => 4 ≤ p ≤ 18 ∧ (b = replicate (Z.to_nat (Hll_LenOf p)) 0 ∨ ∃ c, hll_wf c p ∧ b = ser p c)
  end.
Definition fine {A} (P : A → Prop) (o : outcome A) : Prop := match o with Ok a => P a | Err _ => True | Panic => False end.
Lemma count_write_good b : good MCount b → fine (good MCount) (count_write b).
Proof. simpl. intros H. unfold count_write. rewrite slice_Ok by lia. cbn [obind fine good]. rewrite splice_length; [done|]. rewrite put64_length. lia. Qed.
Lemma stat_part (s : bytes) lo hi : length s = 32%nat → 0 ≤ lo → hi = lo + 8 → hi ≤ 32 → ∃ b, slice s lo hi = Ok b.
Proof. intros. rewrite slice_Ok by lia. eauto. Qed.
Lemma stat_put_Ok s lo x : length s = 32%nat → length x = 8%nat → 0 ≤ lo → lo + 8 ≤ 32 → ∃ s', stat_put s lo x = Ok s' ∧ length s' = 32%nat.
Proof.
  intros Hs Hx Hlo Hh. unfold stat_put. rewrite slice_Ok by lia. cbn [obind]. eexists. split; [done|]. rewrite splice_length; lia.
Qed.
Lemma Stat_Update_len s v : length s = 32%nat → ∃ s', Stat_Update s v = Ok s' ∧ length s' = 32%nat.
Proof.
  intros Hs. unfold Stat_Update, stat_load, stat_u64, stat_f64.
  destruct (stat_part s 0 (0 + 8) Hs) as [b0 ->]; [lia..|]. destruct (stat_part s 8 (8 + 8) Hs) as [b1 ->]; [lia..|].
  destruct (stat_part s 16 (16 + 8) Hs) as [b2 ->]; [lia..|]. destruct (stat_part s 24 (24 + 8) Hs) as [b3 ->]; [lia..|].
  cbn [obind]. set (a := observe64 _ _). unfold stat_save.
  destruct (stat_put_Ok s 0 (put64 (a_count a)) Hs (put64_length _)) as (s1 & -> & H1); [lia..|]. cbn [obind].
  destruct (stat_put_Ok s1 8 (putf (a_sum a)) H1 (putf_length _)) as (s2 & -> & H2); [lia..|]. cbn [obind].
  destruct (stat_put_Ok s2 16 (putf (a_mean a)) H2 (putf_length _)) as (s3 & -> & H3); [lia..|]. cbn [obind].
  destruct (stat_put_Ok s3 24 (putf (a_ss a)) H3 (putf_length _)) as (s4 & -> & H4); [lia..|]. cbn [obind]. eauto.
Qed.
Lemma cont_write_good m b i v : is_cont_input m = true → good m b → ∃ b', cont_write m b i v = Ok b' ∧ good m b'.
Proof.
  intros Hm Hb. destruct m; try done; cbn [cont_write good] in *; unfold Stat_WithBytes;
    try (apply Stat_Update_len; done).
  - unfold max_write. rewrite slice_Ok by lia. cbn [obind]. case_match; [by eauto|]. eexists. split; [done|].
    rewrite splice_length; [done|]. rewrite putf_length. lia.
  - unfold min_write. rewrite slice_Ok by lia. cbn [obind]. case_match; [by eauto|]. eexists. split; [done|].
    rewrite splice_length; [done|]. rewrite putf_length. lia.
Qed.
Lemma ser_length p c : hll_wf c p → length (ser p c) = Z.to_nat (Hll_LenOf p).
Proof. intros Hc. destruct (Hll_roundtrip c p Hc) as (HL1 & HL2 & _). unfold ser. lia. Qed.
Lemma hll_len_pos p : 4 ≤ p ≤ 18 → (0 < Z.to_nat (Hll_LenOf p))%nat.
Proof. intros Hp. pose proof (size_pos (MCardinality p) Hp) as H. cbn [m_size] in H. rewrite u8_small in H by lia. lia. Qed.
Lemma disc_write_good m b i v : is_disc_input m = true → is_bytes v → good m b → fine (good m) (disc_write m b i v).
Proof.
  intros Hm Hv. destruct m as [| | | | | |p]; try done. intros [Hp Hb]. destruct i.
  - destruct (card_init p b v Hp) as (c0 & c & _ & _ & Hc & ->); [|done|].
    + destruct Hb as [->|(c & Hc & ->)]; [by rewrite replicate_length|by apply ser_length].
    + cbn [fine]. split; [done|]. right. eauto.
  - destruct Hb as [->|(c & Hc & ->)].
    + cbn [disc_write]. pose proof (hll_len_pos p Hp). destruct (Z.to_nat (Hll_LenOf p)) as [|n]; [lia|]. done.
    + destruct (card_step p c v Hc Hv) as (c' & _ & Hc' & ->). cbn [fine]. split; [done|]. right. eauto.
Qed.

Definition row_bytes (r : Row) : Prop := Forall (λ fv, is_bytes (fv_V fv)) (row_data r).
Section safe.
Context (pf : bytes → option float).
Lemma on_range_Err buf g fn buf' e : on_range buf g fn = (buf', Err e) → buf' = buf.
Proof. unfold on_range. destruct (slice buf _ _) as [b| |]; [destruct (fn b)| |]; congruence. Qed.
(** writers of one kind keep all cells good and do not panic *)
Lemma run_good (fn : measure → bytes → outcome bytes) (K : measure → Prop) : keeps fn → (∀ m b, K m → good m b → fine (good m) (fn m b)) →
  ∀ gs buf buf' o, Forall (fits (length buf)) gs → separated gs → Forall (λ g, K (g_m g) ∧ good (g_m g) (sub buf g)) gs →
  run_writers buf gs fn = (buf', o) → o ≠ Panic ∧ Forall (λ g, good (g_m g) (sub buf' g)) gs.
Proof.
  intros Hk Hfn. induction gs as [|g gs IH]; intros buf buf' o Hf Hs Hg; cbn [run_writers].
  - intros [= <- <-]. split; [done|constructor].
  - inversion_clear Hf as [|? ? Hf1 Hf2]. inversion_clear Hg as [|? ? [HK Hg1] Hg2]. apply separated_cons in Hs as [Hd Hs].
    destruct (on_range buf g (fn (g_m g))) as [buf1 o1] eqn:E1.
    destruct (on_range_frame _ _ _ _ _ Hf1 (Hk (g_m g)) E1) as (L1 & F1 & O1). specialize (Hfn _ _ HK Hg1).
    assert (∀ y, y ∈ gs → sub buf1 y = sub buf y) as Heq.
    { intros y Hx. apply F1; [by eapply Forall_forall in Hf2|]. apply disj_sym. by eapply Forall_forall in Hd. }
    destruct o1 as [[]|e|]; rewrite O1 in Hfn; simpl in Hfn; [| |done].
    + intros E2. rewrite <- L1 in Hf2. destruct (run_writers_frame fn Hk gs buf1 buf' o Hf2 E2) as (L2 & F2).
      edestruct (IH buf1 buf' o Hf2 Hs) as [A B]; [|exact E2|].
      { apply Forall_forall. intros y Hx. rewrite Heq by done. by eapply Forall_forall in Hg2. }
      split; [done|]. constructor; [|done]. rewrite F2; [done|by rewrite L1|done].
    + intros [= <- <-]. split; [done|]. apply on_range_Err in E1 as ->. constructor; [done|].
      apply Forall_forall. intros y Hx. eapply Forall_forall in Hg2 as [_ Hg2]; [|exact Hx]. done.
Qed.

Context (c : Collator) (pos : Z) (cs : list cell).
Context (Hinv : inv c pos cs).
Definition all_good (buf : bytes) : Prop := ∀ k g, (k, g) ∈ cs → good (g_m g) (sub buf g).
Lemma kind_good fn k gs buf buf' o : keeps fn → pos ≤ Z.of_nat (length buf) → all_good buf → opt_list (cells_of k cs) = Some gs →
  (∀ m b, (∃ g, (k, g) ∈ cs ∧ g_m g = m) → good m b → fine (good m) (fn m b)) →
  run_writers buf gs fn = (buf', o) → o ≠ Panic ∧ length buf' = length buf ∧ all_good buf'.
Proof.
  intros Hk Hp Hg E Hfn Er. assert (gs = cells_of k cs) as -> by (destruct (cells_of k cs); naive_solver).
  destruct (run_kind c pos cs Hinv fn k _ buf buf' o Hk Hp E Er) as (L & F & _).
  destruct (run_good fn (λ m, ∃ g, (k, g) ∈ cs ∧ g_m g = m) Hk Hfn (cells_of k cs) buf buf' o) as [A B].
  - by eapply cells_fits.
  - by eapply cells_separated.
  - apply Forall_forall. intros g Hin%elem_of_cells_of. split; [by eauto|]. by eapply Hg.
  - done.
  - split; [done|]. split; [done|]. intros k' g Hin. destruct (decide (k' = k)) as [->|Hne].
    + apply elem_of_cells_of in Hin. rewrite Forall_forall in B. by apply B.
    + rewrite (F k' g) by done. by eapply Hg.
Qed.
Lemma cell_cont f g : (KCont f, g) ∈ cs → is_cont_input (g_m g) = true.
Proof. intros H. pose proof (i_ok _ _ _ Hinv) as Ho. rewrite Forall_forall in Ho. by apply (Ho _ H). Qed.
Lemma cell_disc f g : (KDisc f, g) ∈ cs → is_disc_input (g_m g) = true.
Proof. intros H. pose proof (i_ok _ _ _ Hinv) as Ho. rewrite Forall_forall in Ho. by apply (Ho _ H). Qed.
Lemma cell_row g : (KRow, g) ∈ cs → g_m g = MCount.
Proof. intros H. pose proof (i_ok _ _ _ Hinv) as Ho. rewrite Forall_forall in Ho. by apply (Ho _ H). Qed.
Lemma update_fv_good buf init fv buf' o : pos ≤ Z.of_nat (length buf) → all_good buf → is_bytes (fv_V fv) →
  update_fv pf c buf init fv = (buf', o) → o ≠ Panic ∧ length buf' = length buf ∧ all_good buf'.
Proof.
  intros Hp Hg Hv. unfold update_fv. rewrite (i_cont _ _ _ Hinv), (i_disc _ _ _ Hinv). set (f := fv_F fv).
  assert (Hrest : ∀ buf1, length buf1 = length buf → all_good buf1 →
    (match opt_list (cells_of (KDisc f) cs) with
      | Some ws => run_writers buf1 ws (λ m b, disc_write m b init (fv_V fv))
      | None => (buf1, Ok ()) end) = (buf', o) → o ≠ Panic ∧ length buf' = length buf ∧ all_good buf').
  { intros buf1 L1 G1. destruct (opt_list (cells_of (KDisc f) cs)) as [gs|] eqn:Ed; [|by intros [= <- <-]].
    intros Er. rewrite <- L1. eapply kind_good; [|by rewrite L1|exact G1|exact Ed| |exact Er].
    - by intros ??? ?%disc_write_keeps.
    - intros m b (g & Hin & <-) Hb. apply disc_write_good; [by eapply cell_disc|done..]. }
  destruct (opt_list (cells_of (KCont f) cs)) as [gs|] eqn:Ec.
  - destruct (pf (fv_V fv)) as [v|] eqn:Ep; [|by intros [= <- <-]].
    destruct (run_writers buf gs _) as [buf1 o1] eqn:Er.
    eapply (kind_good (λ m b, cont_write m b init v)) in Er as (A1 & L1 & G1); [|by intros ??? ?%cont_write_keeps|done|done|exact Ec|].
    2:{ intros m b (g & Hin & <-) Hb. destruct (cont_write_good (g_m g) b init v (cell_cont _ _ Hin) Hb) as (b' & -> & ?). done. }
    destruct o1 as [[]|e|]; [|intros [= <- <-]; split_and!; done..]. by apply Hrest.
  - by apply Hrest.
Qed.
Lemma update_fvs_good init : ∀ fvs buf buf' o, pos ≤ Z.of_nat (length buf) → all_good buf → Forall (λ fv, is_bytes (fv_V fv)) fvs →
  update_fvs pf c buf init fvs = (buf', o) → o ≠ Panic ∧ length buf' = length buf ∧ all_good buf'.
Proof.
  induction fvs as [|fv fvs IH]; intros buf buf' o Hp Hg Hv; cbn [update_fvs]; [by intros [= <- <-]|].
  inversion_clear Hv as [|? ? Hv1 Hv2]. destruct (update_fv pf c buf init fv) as [buf1 o1] eqn:E1.
  apply update_fv_good in E1 as (A1 & L1 & G1); [|done..]. destruct o1 as [[]|e|]; [|intros [= <- <-]; split_and!; done..].
  intros E2. rewrite <- L1. eapply IH; [by rewrite L1|done|done|exact E2].
Qed.
Lemma Update_good r init buf buf' o : pos ≤ Z.of_nat (length buf) → all_good buf → row_bytes r →
  Coll_Update pf c r buf init = (buf', o) → o ≠ Panic ∧ length buf' = length buf ∧ all_good buf'.
Proof.
  intros Hp Hg Hv. unfold Coll_Update. rewrite (i_writers _ _ _ Hinv).
  destruct (run_writers buf _ _) as [buf1 o1] eqn:E1.
  assert (o1 ≠ Panic ∧ length buf1 = length buf ∧ all_good buf1) as (A1 & L1 & G1).
  { destruct (opt_list (cells_of KRow cs)) as [gs|] eqn:E.
    - assert (gs = cells_of KRow cs) as -> by (destruct (cells_of KRow cs); naive_solver).
      eapply (kind_good (λ _ b, count_write b) KRow) in E1; [exact E1|by intros ??? ?%count_write_keeps|done|done|done|].
      intros m b (g & Hin & <-) Hb. rewrite (cell_row g Hin) in *. by apply count_write_good.
    - assert (cells_of KRow cs = []) as E0 by (destruct (cells_of KRow cs); done). rewrite E0 in E1. by injection E1 as <- <-. }
  destruct o1 as [[]|e|]; [|intros [= <- <-]; split_and!; done..].
  intros E2. rewrite <- L1. eapply update_fvs_good; [by rewrite L1|done|done|exact E2].
Qed.

(** ** acceptance *)
Lemma run_accept fn : keeps fn → ∀ gs buf, Forall (fits (length buf)) gs → separated gs →
  (∀ g, g ∈ gs → ∃ b, fn (g_m g) (sub buf g) = Ok b) → ∃ buf', run_writers buf gs fn = (buf', Ok ()).
Proof.
  intros Hk. induction gs as [|g gs IH]; intros buf Hf Hs Hg; cbn [run_writers]; [by eauto|].
  inversion_clear Hf as [|? ? Hf1 Hf2]. apply separated_cons in Hs as [Hd Hs].
  destruct (on_range buf g (fn (g_m g))) as [buf1 o1] eqn:E1.
  destruct (on_range_frame _ _ _ _ _ Hf1 (Hk (g_m g)) E1) as (L1 & F1 & O1). destruct (Hg g ltac:(left)) as [b Hb]. rewrite Hb in O1.
  destruct o1 as [[]|e|]; [|done..]. apply IH; [by rewrite L1|done|]. intros y Hx.
  rewrite F1; [apply Hg; by right|by eapply Forall_forall in Hf2|]. apply disj_sym. by eapply Forall_forall in Hd.
Qed.
Lemma kind_accept fn k gs buf : keeps fn → pos ≤ Z.of_nat (length buf) → opt_list (cells_of k cs) = Some gs →
  (∀ g, (k, g) ∈ cs → ∃ b, fn (g_m g) (sub buf g) = Ok b) → ∃ buf', run_writers buf gs fn = (buf', Ok ()).
Proof.
  intros Hk Hp E Hg. assert (gs = cells_of k cs) as -> by (destruct (cells_of k cs); naive_solver).
  apply run_accept; [done|by eapply cells_fits|by eapply cells_separated|]. intros g Hin%elem_of_cells_of. by apply Hg.
Qed.
Lemma update_fv_accept buf init fv : pos ≤ Z.of_nat (length buf) →
  (∀ k g, (k, g) ∈ cs → ∃ b, steps (g_m g) init (fv_events pf k fv) (sub buf g) = Ok b) →
  (∀ g, (KCont (fv_F fv), g) ∈ cs → is_Some (pf (fv_V fv))) →
  ∃ buf', update_fv pf c buf init fv = (buf', Ok ()).
Proof.
  intros Hp Hs Hpf. unfold update_fv. rewrite (i_cont _ _ _ Hinv), (i_disc _ _ _ Hinv). set (f := fv_F fv) in *.
  assert (Hrest : ∀ buf1, length buf1 = length buf → (∀ g, (KDisc f, g) ∈ cs → sub buf1 g = sub buf g) →
    ∃ buf', (match opt_list (cells_of (KDisc f) cs) with
      | Some ws => run_writers buf1 ws (λ m b, disc_write m b init (fv_V fv))
      | None => (buf1, Ok ()) end) = (buf', Ok ())).
  { intros buf1 L1 Heq. destruct (opt_list (cells_of (KDisc f) cs)) as [gs|] eqn:Ed; [|by eauto].
    eapply (kind_accept (λ m b, disc_write m b init (fv_V fv)) (KDisc f)); [by intros ??? ?%disc_write_keeps|by rewrite L1|done|].
    intros g Hin. destruct (Hs _ _ Hin) as [b Hb]. cbn [fv_events] in Hb. rewrite decide_True in Hb by done. rewrite steps_one in Hb.
    rewrite (Heq g Hin). by exists b. }
  destruct (opt_list (cells_of (KCont f) cs)) as [gs|] eqn:Ec; [|by apply Hrest].
  assert (∃ g, (KCont f, g) ∈ cs) as [g0 Hg0].
  { destruct (cells_of (KCont f) cs) as [|g0 l] eqn:E; [done|]. exists g0. apply elem_of_cells_of. rewrite E. left. }
  destruct (Hpf g0 Hg0) as [v Ev]. rewrite Ev.
  destruct (kind_accept (λ m b, cont_write m b init v) (KCont f) gs buf) as [buf1 E1]; [by intros ??? ?%cont_write_keeps|done|done| |].
  { intros g Hin. destruct (Hs _ _ Hin) as [b Hb]. cbn [fv_events] in Hb. rewrite decide_True, Ev in Hb by done. rewrite steps_one in Hb. by exists b. }
  rewrite E1. eapply (run_kind c pos cs Hinv) in E1 as (L1 & F1 & _); [|by intros ??? ?%cont_write_keeps|done|exact Ec].
  apply Hrest; [done|]. intros g Hin. by apply (F1 (KDisc f)).
Qed.
Lemma obind_Ok {A B} (o : outcome A) (f : A → outcome B) b : obind o f = Ok b → ∃ a, o = Ok a ∧ f a = Ok b.
Proof. destruct o; simpl; [by eauto|done..]. Qed.
Lemma update_fvs_accept init : ∀ fvs buf, pos ≤ Z.of_nat (length buf) →
  (∀ k g, (k, g) ∈ cs → ∃ b, steps (g_m g) init (fvs_events pf k fvs) (sub buf g) = Ok b) →
  (∀ fv g, fv ∈ fvs → (KCont (fv_F fv), g) ∈ cs → is_Some (pf (fv_V fv))) →
  ∃ buf', update_fvs pf c buf init fvs = (buf', Ok ()).
Proof.
  induction fvs as [|fv fvs IH]; intros buf Hp Hs Hpf; cbn [update_fvs]; [by eauto|].
  destruct (update_fv_accept buf init fv Hp) as [buf1 E1].
  { intros k g Hin. destruct (Hs k g Hin) as [b Hb]. unfold fvs_events in Hb. cbn [mbind list_bind] in Hb. rewrite steps_app in Hb.
    apply obind_Ok in Hb as (a & -> & _). by eauto. }
  { intros g. apply Hpf. left. }
  rewrite E1. apply (update_fv_spec pf c pos cs Hinv) in E1 as (L1 & _ & S1); [|done].
  apply IH; [by rewrite L1| |]. 
  - intros k g Hin. destruct (Hs k g Hin) as [b Hb]. unfold fvs_events in Hb. cbn [mbind list_bind] in Hb. rewrite steps_app in Hb.
    destruct (S1 eq_refl k g Hin) as [E _]. rewrite E in Hb. by exists b.
  - intros fv' g H. apply Hpf. by right.
Qed.
Lemma Update_accept r init buf : pos ≤ Z.of_nat (length buf) →
  (∀ k g, (k, g) ∈ cs → ∃ b, steps (g_m g) init (row_events pf k r) (sub buf g) = Ok b) →
  (∀ fv g, fv ∈ row_data r → (KCont (fv_F fv), g) ∈ cs → is_Some (pf (fv_V fv))) →
  ∃ buf', Coll_Update pf c r buf init = (buf', Ok ()).
Proof.
  intros Hp Hs Hpf. unfold Coll_Update. rewrite (i_writers _ _ _ Hinv).
  assert (∃ buf1, run_writers buf (cells_of KRow cs) (λ _ b, count_write b) = (buf1, Ok ()) ∧ length buf1 = length buf ∧
    (∀ k g, (k, g) ∈ cs → k ≠ KRow → sub buf1 g = sub buf g) ∧ (∀ g, (KRow, g) ∈ cs → count_write (sub buf g) = Ok (sub buf1 g))) as (buf1 & -> & L1 & F1 & S1).
  { destruct (opt_list (cells_of KRow cs)) as [gs|] eqn:E.
    - assert (gs = cells_of KRow cs) as -> by (destruct (cells_of KRow cs); naive_solver).
      destruct (kind_accept (λ _ b, count_write b) KRow _ buf ltac:(by intros ??? ?%count_write_keeps) Hp E) as [buf1 E1].
      { intros g Hin. destruct (Hs _ _ Hin) as [b Hb]. unfold row_events in Hb. rewrite decide_True, events_row in Hb by done.
        cbn [app] in Hb. rewrite steps_one in Hb. by exists b. }
      exists buf1. split; [done|]. eapply (run_kind c pos cs Hinv) in E1 as (L1 & F1 & S1); [|by intros ??? ?%count_write_keeps|done|exact E].
      split; [done|]. split; [done|]. by apply S1.
    - assert (cells_of KRow cs = []) as E0 by (destruct (cells_of KRow cs); done). rewrite E0. exists buf.
      split; [done|]. split; [done|]. split; [done|]. intros g Hin. by eapply none_kind in Hin. }
  apply update_fvs_accept; [by rewrite L1| |done].
  intros k g Hin. destruct (Hs k g Hin) as [b Hb]. unfold row_events in Hb. rewrite steps_app in Hb. case_decide as E.
  - subst k. rewrite steps_one in Hb. cbn [step] in Hb. rewrite (S1 g Hin) in Hb. by exists b.
  - cbn [steps obind] in Hb. rewrite (F1 k g Hin E). by exists b.
Qed.
Lemma apply_rows_accept rows : ∀ buf, pos ≤ Z.of_nat (length buf) →
  (∀ k g, (k, g) ∈ cs → ∃ b, hist_steps pf (g_m g) k rows (sub buf g) = Ok b) →
  (∀ i r fv g, (i, r) ∈ rows → fv ∈ row_data r → (KCont (fv_F fv), g) ∈ cs → is_Some (pf (fv_V fv))) →
  ∃ buf', apply_rows pf c buf rows = Ok buf'.
Proof.
  induction rows as [|[i r] rows IH]; intros buf Hp Hs Hpf; cbn [apply_rows]; [by eauto|].
  destruct (Update_accept r i buf Hp) as [buf1 E1].
  { intros k g Hin. destruct (Hs k g Hin) as [b Hb]. cbn [hist_steps] in Hb. apply obind_Ok in Hb as (a & -> & _). by eauto. }
  { intros fv g H. eapply Hpf; [left|done]. }
  rewrite E1. apply (Update_spec pf c pos cs Hinv) in E1 as (L1 & _ & S1); [|done].
  apply IH; [by rewrite L1| |].
  - intros k g Hin. destruct (Hs k g Hin) as [b Hb]. cbn [hist_steps] in Hb. destruct (S1 eq_refl k g Hin) as [E _]. rewrite E in Hb. by exists b.
  - intros i' r' fv g H. eapply Hpf. by right.
Qed.
End safe.
