(** C104 when requests overlap. *)
From Coq Require Import ZifyBool ZifyNat.
From Verif Require Import Base BaseProofs Float64 FnvSpec HllModel HllSpec HllProofs HllProps HllCountModel HllCountSpec HllCountTop HllCountProps Stat64Spec CollationModel CollationSpec CollationProofs CollationTop CollationTop2 DemoModel BufmapModel BufmapSpec QueryModel QuerySpec
  BufconcModel BufconcSpec BufconcInv ServerModel ServerSpec ScanProofs ParseRowProofs ServerProofs StoreProofs ServerInv ServerTop ServerHomeSpec ServerHomeProps StoreConcModel StoreConcSpec ServerConcModel ServerConcSpec ServerConcProofs ServerConcTop ServerConcTop2 ServerConcTop3 ServerConcTop4 ServerConcMoreProps ServerUniqueSpec ServerUniqueProps.
From Coq Require Import Reals Lra.
Local Open Scope Z_scope.
Section props.
Context (pf : bytes → option float) (glog : float → float) (est : Counter → Z) (ff : float → bytes) (et : error → bytes) (pm : bytes → option bytes) (order : list FM → list FM).
Context (c : list (Z * Schema)) (impl : nat → Row → bool → prog) (Hc : cfg_ok c) (Himpl : impls_ok pf c impl).
Notation vexecution := (vexecution est ff et pm order c impl).
Lemma values_bytes f rows : Forall row_ok rows → Forall is_bytes (field_values f rows).
Proof.
  intros Hok. apply Forall_forall. intros x Hx. unfold field_values in Hx. apply elem_of_list_bind in Hx as (r1 & Hx & Hin).
  apply elem_of_list_fmap in Hx as (fv & -> & Hfv). apply elem_of_list_filter in Hfv as [_ Hfv]. rewrite Forall_forall in Hok. specialize (Hok r1 Hin). unfold row_ok in Hok. rewrite Forall_forall in Hok. by apply Hok.
Qed.
(** fewer values hit fewer registers, and so stay in the linear range *)
Lemma in_range p vs us : (∀ x, x ∈ vs → x ∈ us) → buckets_hit p us < 2^p → (linear_counting p (2^p - buckets_hit p us) + / 2^27 <= IZR (linear_limit p))%R →
  buckets_hit p vs < 2^p ∧ (linear_counting p (2^p - buckets_hit p vs) + / 2^27 <= IZR (linear_limit p))%R.
Proof.
  intros Hsub Hb Hl. assert (buckets_hit p vs ≤ buckets_hit p us) as Hle.
  { unfold buckets_hit. apply Nat2Z.inj_le. apply submseteq_length, NoDup_submseteq; [apply NoDup_remove_dups|].
    intros x. rewrite !elem_of_remove_dups. intros (v & -> & Hv)%elem_of_list_fmap. apply elem_of_list_fmap. eauto. }
  split; [lia|]. eapply Rle_trans; [|exact Hl]. apply Rplus_le_compat_r. unfold linear_counting. apply IZR_lt in Hb as Hb1.
  assert (0 <= IZR (2^p))%R as H0 by (apply IZR_le; lia). apply Rmult_le_compat_l; [exact H0|].
  assert (0 < IZR (2^p - buckets_hit p us))%R by (apply IZR_lt; lia). assert (IZR (2^p - buckets_hit p us) <= IZR (2^p - buckets_hit p vs))%R by (apply IZR_le; lia).
  assert (0 < IZR (2^p))%R by (apply IZR_lt; pose proof (Nat2Z.is_nonneg (length (remove_dups (map (λ v, hll_bucket p (fnv1_spec v)) us)))) as N; unfold buckets_hit in Hb; lia).
  assert (IZR (2^p) / IZR (2^p - buckets_hit p vs) <= IZR (2^p) / IZR (2^p - buckets_hit p us))%R as [Hlt| ->].
  { apply Rmult_le_compat_l; [exact H0|]. apply Rinv_le_contravar; lra. }
  - apply Rlt_le, ln_increasing; [apply Rdiv_lt_0_compat; lra|exact Hlt].
  - apply Rle_refl.
Qed.
(** In the linear range, a query during posts is answered with a number not smaller than
    if only the rows of the posts answered before the query arrived were there, and not
    greater than if the rows of all posts that arrived before its answer were.
    Partial: hypotheses of C95 about the record, and C77's linear range. *)
Theorem C104_overlap_partial rqs acts v h rs sent l s t rq key val f p h1 h2 r h3 r0 : log_ok glog → is_Count glog est →
  Forall request_ok rqs → vexecution rqs acts v h → answered v rs → accepted pm rqs rs sent →
  installed c l s → plain_name (s_name s) → s_keys s = [key] → map_order order → key_ok key → value_ok val → ¬ has_where (crit_item (key, val)) → name_ok f →
  field_measure s f (MCardinality p) → (∀ p', field_measure s f (MCardinality p') → p' = p) →
  rqs !! t = Some rq → coll_query rq (s_name s) (str "select uniquecount(" ++ f ++ str ") where " ++ key ++ str "='" ++ val ++ str "'") →
  let k := fnv1_spec (key ++ val) in k ≠ 0 → let all := rows_of sent (seq 0 (length rqs)) in no_collision [key] [MkFV key val] all →
  undisturbed l s k all → home_readable l (c_size (Compile s)) (c_size (Compile s)) k → Z.of_nat (length all) < 2^31 →
  let mine := filter (λ r, value_of key (row_data r) = Some val) in
  has_once f r0 → h = h1 ++ VBegin t :: h2 ++ VAnswer t r :: h3 → opened sent mine h1 r0 →
  let before := field_values f (mine (rows_of sent (finished h1))) in
  let upto := field_values f (mine (rows_of sent (arrived (h1 ++ VBegin t :: h2)))) in
  buckets_hit p upto < 2^p → (linear_counting p (2^p - buckets_hit p upto) + / 2^27 <= IZR (linear_limit p))%R →
  ∃ lo n hi, Count_after glog p before lo ∧ Count_after glog p upto hi ∧ lo ≤ n ≤ hi ∧ r = unique_answer ff key val f n.
Proof.
  intros Hlog Hest Hrq Ex A Ac Hins Hpn Hkeys Ho Hk Hv Hw Hf Hm Huq Lr Hq k H0 all Hcol Hu Hread Hlt mine Hone Eh Hop before upto Hb Hlin.
  destruct (C95_uniquecount_partial pf est ff et pm order c impl Hc Himpl rqs acts v h rs sent l s t rq key val f p h1 h2 r h3 r0 Hrq Ex A Ac Hins Hpn Hkeys Ho Hk Hv Hw Hf Hm Huq Lr Hq H0 Hcol Hu Hread Hlt Hone Eh Hop)
    as (vals & c0 & ctr & Hn & Ha & Hr & S1 & S2). fold before in S1. fold upto in S2.
  assert (4 ≤ p ≤ 18) as Hp. { apply (measure_range s f p); [|exact Hm]. destruct Hins as (ca & cb & E & _). unfold cfg_ok in Hc. rewrite E in Hc. apply Forall_app in Hc as [_ Hc']. by inversion_clear Hc' as [|? ? [? _] _]. }
  assert (Forall is_bytes upto) as Bu. { apply values_bytes. unfold mine, upto, rows_of. apply Forall_forall. intros r1 Hr1. apply elem_of_list_filter in Hr1 as [_ Hr1]. apply elem_of_list_join in Hr1 as (x & Hx & Hin). apply elem_of_list_In, in_map_iff in Hin as (t0 & <- & Hin). apply elem_of_list_In in Hin.
    pose proof (vexecution_inv pf est ff et pm order c impl Hc rqs Hrq acts v h Ex) as V.
    assert (t0 < length rqs)%nat as Ht0 by (eapply (arrived_lt est ff et pm order c impl rqs v h V (h1 ++ VBegin t :: h2)); [rewrite Eh, <- app_assoc; done|exact Hin]).
    pose proof (sent_rows_ok pf est ff et pm order rqs rs sent t0 Hrq Ac Ht0) as Hok. rewrite Forall_forall in Hok. by apply Hok. }
  assert (Forall is_bytes vals) as Bv. { apply Forall_forall. intros x Hx. rewrite Forall_forall in Bu. apply Bu. by eapply elem_of_submseteq. }
  assert (Forall is_bytes before) as Bb. { apply Forall_forall. intros x Hx. rewrite Forall_forall in Bv. apply Bv. by eapply elem_of_submseteq. }
  destruct (New_Adds p _ Hp Bv) as (c0' & ctr' & Hn' & Ha' & Hwf & _). rewrite Hn in Hn'. injection Hn' as <-. rewrite Ha in Ha'. injection Ha' as <-.
  assert (Count_after glog p vals (est ctr)) as Hcnt. { exists c0, ctr. split; [exact Hn|]. split; [exact Ha|]. by apply (Hest ctr p). }
  destruct (C77_monotone_partial glog p vals upto Hlog Hp Bv Bu) as (n & hi & Hn1 & Hhi & Hle1); [intros x Hx; by eapply elem_of_submseteq|exact Hb|exact Hlin|].
  rewrite (C17_deterministic _ _ _ _ _ Hn1 Hcnt) in *.
  destruct (in_range p vals upto (λ x Hx, elem_of_submseteq _ _ x Hx S2) Hb Hlin) as [Hb' Hlin'].
  destruct (C77_monotone_partial glog p before vals Hlog Hp Bb Bv (λ x Hx, elem_of_submseteq _ _ x Hx S1) Hb' Hlin') as (lo & n' & Hlo & Hn2 & Hle2).
  rewrite (C17_deterministic _ _ _ _ _ Hn2 Hcnt) in *. exists lo, (est ctr), hi. split; [exact Hlo|]. split; [exact Hhi|]. split; [lia|exact Hr].
Qed.
End props.
Print Assumptions C104_overlap_partial.
