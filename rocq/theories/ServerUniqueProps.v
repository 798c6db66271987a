(** Property C104: the number answered to uniquecount(f), computed by the real
    estimator of HllCountModel.  [glog] is math.Log (C17, C74). *)
From Coq Require Import ZifyBool ZifyNat.
From Verif Require Import Base BaseProofs Float64 FnvModel FnvSpec FnvProofs HllModel HllSpec HllProofs HllProps HllCountModel HllCountSpec HllCountProofs HllCountTop HllCountEst HllCountMore HllCountProps CollationModel CollationSpec CollationProofs CollationLayout CollationTop CollationTop2 CollationProps DemoModel
  BufmapModel BufmapSpec BufmapProofs BufmapTop QueryModel QuerySpec ServerModel ServerSpec ScanProofs ParseRowProofs ServerProofs StoreProofs ServerInv ServerTop ServerAnswers ServerProps ServerDemo ServerHomeSpec StoreHome ServerHome ServerHomeProps ServerUniqueSpec.
From Coq Require Import Reals Lra.
Local Open Scope Z_scope.

Section props.
Context (pf : bytes → option float) (glog : float → float) (est : Counter → Z) (Hest : is_Count glog est) (ff : float → bytes) (et : error → bytes) (pm : bytes → option bytes) (order : list FM → list FM).
Notation serve := (ServeHTTP pf est ff et pm order).
Notation asked := (unique_asked pf est ff et pm order).
Notation answer := (unique_answer ff).

Lemma measure_range s f p : schema_ok s → field_measure s f (MCardinality p) → 4 ≤ p ≤ 18.
Proof.
  intros Hs (ms & Hms & _ & Hm). unfold schema_ok in Hs. rewrite Forall_forall in Hs. specialize (Hs ms Hms). rewrite Forall_forall in Hs. exact (Hs _ Hm).
Qed.
Lemma asked_bytes c rqs sts l s rq key v f p mine : asked c rqs sts l s rq key v f p mine → Forall is_bytes (field_values f mine).
Proof.
  intros H. destruct (ua_run _ _ _ _ _ _ _ _ _ _ _ _ _ _ _ _ _ H) as (sts0 & rs & rows & H0 & E & Hp & _ & _ & ->).
  pose proof (posted_rows_ok _ _ _ _ _ _ _ _ _ _ _ _ _ _ (ua_cfg _ _ _ _ _ _ _ _ _ _ _ _ _ _ _ _ _ H) H0 (ua_requests _ _ _ _ _ _ _ _ _ _ _ _ _ _ _ _ _ H) E Hp (ua_installed _ _ _ _ _ _ _ _ _ _ _ _ _ _ _ _ _ H)) as Hrows.
  apply Forall_forall. intros x Hx. unfold field_values in Hx. apply elem_of_list_bind in Hx as (r & Hx & Hin).
  apply elem_of_list_fmap in Hx as (fv & -> & Hfv). apply elem_of_list_filter in Hfv as [_ Hfv]. apply elem_of_list_filter in Hin as [_ Hin].
  rewrite Forall_forall in Hrows. specialize (Hrows r Hin). unfold row_ok in Hrows. rewrite Forall_forall in Hrows. by apply Hrows.
Qed.
Lemma asked_range c rqs sts l s rq key v f p mine : asked c rqs sts l s rq key v f p mine → 4 ≤ p ≤ 18.
Proof.
  intros [Hc _ _ (ca & cb & E & _) _ _ _ _ [Hm _] _ _ _ _]. apply (measure_range s f p); [|exact Hm]. subst c. apply Forall_app in Hc as [_ Hc]. inversion_clear Hc as [|? ? [? _] _]. done.
Qed.

(** The answer is the count of a counter of the declared precision to which the values
    of f in the posted rows with key=v, and nothing else, were added. *)
Theorem C104_count_partial c rqs sts l s rq key v f p mine : asked c rqs sts l s rq key v f p mine →
  ∃ n, Count_after glog p (field_values f mine) n ∧ serve sts rq = (sts, answer key v f n).
Proof.
  intros H. pose proof (asked_bytes _ _ _ _ _ _ _ _ _ _ _ H) as Hb. pose proof (asked_range _ _ _ _ _ _ _ _ _ _ _ H) as Hp.
  destruct H as [Hc Hr (sts0 & rs & rows & H0 & E & Hpo & Hcol & Hu & ->) Hins Hpn Hkeys Ho (Hk & Hv & Hw & Hf) [Hm Hone'] Hq Hkey Hread (r0 & rest & Hmine & Hone)].
  destruct (C91_uniquecount_partial pf est ff et pm order c sts0 rqs sts rs rows l s rq key v f p r0 rest Hc H0 Hr E Hpo Hins Hpn Hkeys Ho Hk Hv Hw Hf Hm Hone' Hq Hkey Hcol Hu Hread Hmine Hone) as (c0 & ctr & Hn & Ha & Hs).
  destruct (New_Adds p _ Hp Hb) as (c0' & ctr' & Hn' & Ha' & Hwf & _). rewrite Hn in Hn'. injection Hn' as <-. rewrite Ha in Ha'. injection Ha' as <-.
  exists (est ctr). split; [|exact Hs]. exists c0, ctr. split; [exact Hn|]. split; [exact Ha|]. by apply (Hest ctr p).
Qed.
(** Two servers with the same schema that were posted rows for key=v with the same set
    of values of f give the same answer: the order of the rows, how often each value occurs,
    how the rows were split over posts, and all other rows do not matter. *)
Theorem C104_same_set_partial c rqs sts l s rq key v f p mine c' rqs' sts' l' s' rq' mine' :
  asked c rqs sts l s rq key v f p mine → asked c' rqs' sts' l' s' rq' key v f p mine' →
  (∀ x, x ∈ field_values f mine ↔ x ∈ field_values f mine') →
  (serve sts rq).2 = (serve sts' rq').2.
Proof.
  intros H H' Hset. pose proof (asked_bytes _ _ _ _ _ _ _ _ _ _ _ H) as Hb. pose proof (asked_bytes _ _ _ _ _ _ _ _ _ _ _ H') as Hb'. pose proof (asked_range _ _ _ _ _ _ _ _ _ _ _ H) as Hp.
  destruct (C104_count_partial _ _ _ _ _ _ _ _ _ _ _ H) as (n & (c0 & ctr & Hn & Ha & Hcn) & ->). destruct (C104_count_partial _ _ _ _ _ _ _ _ _ _ _ H') as (n' & (c0' & ctr' & Hn' & Ha' & Hcn') & ->).
  cbn [snd]. destruct (C13_set_semantics p _ _ Hp Hb Hb' Hset) as (c1 & c2 & H1 & H2 & H3).
  rewrite Hn in Hn'. injection Hn' as <-. rewrite Hn in H1. injection H1 as <-. rewrite Ha in H2. injection H2 as <-. rewrite Ha' in H3. injection H3 as <-.
  by rewrite (Count_functional _ _ _ _ Hcn Hcn').
Qed.
(** If they all have the same value, the answer should be 1 and is 2. *)
Theorem C104_one_value_refuted c rqs sts l s rq key v f p mine x : log_ok glog → asked c rqs sts l s rq key v f p mine →
  (∀ u, u ∈ field_values f mine → u = x) →
  serve sts rq = (sts, answer key v f 2).
Proof.
  intros Hlog H Hall. pose proof (asked_bytes _ _ _ _ _ _ _ _ _ _ _ H) as Hb. pose proof (asked_range _ _ _ _ _ _ _ _ _ _ _ H) as Hp.
  destruct (C104_count_partial _ _ _ _ _ _ _ _ _ _ _ H) as (n & Hn & ->). do 2 f_equal.
  assert (field_values f mine ≠ []) as Hne.
  { destruct (ua_first _ _ _ _ _ _ _ _ _ _ _ _ _ _ _ _ _ H) as (r0 & rest & -> & Hone). unfold has_once in Hone. unfold field_values. cbn [mbind list_bind]. destruct (filter _ (row_data r0)); [done|]. discriminate. }
  assert (is_bytes x) as Hx. { destruct (field_values f mine) as [|y ys]; [done|]. rewrite <- (Hall y) by left. by inversion Hb. }
  by rewrite (C17_deterministic _ _ _ _ _ Hn (C17_one_item_refuted glog p _ x Hlog Hp Hx Hne Hall)).
Qed.
(** In the range of linear counting the answer is the estimate m ln(m/v), rounded up to a
    whole number (to within 2^-27), and at least the number of different registers the
    values fall into. *)
Theorem C104_low_range_partial c rqs sts l s rq key v f p mine : log_ok glog → asked c rqs sts l s rq key v f p mine →
  let hit := buckets_hit p (field_values f mine) in hit < 2^p →
  let e := linear_counting p (2^p - hit) in (e + / 2^27 <= IZR (linear_limit p))%R →
  ∃ n, serve sts rq = (sts, answer key v f n) ∧ (e - / 2^27 <= IZR n < e + 1 + / 2^27)%R ∧ hit ≤ n.
Proof.
  intros Hlog H hit Hhit e He. destruct (C104_count_partial _ _ _ _ _ _ _ _ _ _ _ H) as (n & Hn & Hs).
  destruct (C74_low_range glog p _ Hlog (asked_range _ _ _ _ _ _ _ _ _ _ _ H) (asked_bytes _ _ _ _ _ _ _ _ _ _ _ H) Hhit He) as (n' & Hn' & H1 & H2).
  rewrite <- (C17_deterministic _ _ _ _ _ Hn Hn') in *. eauto.
Qed.
(** Fewer rows than registers: the answer is a whole number from 0 to 2^63-1. *)
Theorem C104_few_rows_partial c rqs sts l s rq key v f p mine : log_ok glog → asked c rqs sts l s rq key v f p mine →
  Z.of_nat (length (field_values f mine)) < 2^p →
  ∃ n, serve sts rq = (sts, answer key v f n) ∧ 0 ≤ n < 2^63.
Proof.
  intros Hlog H Hl. destruct (C104_count_partial _ _ _ _ _ _ _ _ _ _ _ H) as (n & Hn & Hs). exists n. split; [exact Hs|].
  exact (C76_few_items_partial glog p _ n Hlog (asked_range _ _ _ _ _ _ _ _ _ _ _ H) (asked_bytes _ _ _ _ _ _ _ _ _ _ _ H) Hl Hn).
Qed.
End props.
(** [is_Count] and [log_ok] can be met: a hundred rounds of the loops of the estimator
    are enough *)
Definition count_of (glog : float → float) (c : Counter) : Z := match Hll_Count glog 100 c with Ok (Some n) => n | _ => 0 end.
Example is_Count_nonvacuous : ∃ glog est, log_ok glog ∧ is_Count glog est.
Proof.
  exists log_rounded, (count_of log_rounded). split; [exact log_rounded_ok|]. intros c p Hc.
  destruct (Count_total log_rounded c p Hc) as (n & [f0 Hn]). exists (Nat.max 100 f0). intros f Hf. rewrite (Hn f ltac:(lia)). do 2 f_equal.
  unfold count_of. enough (Hll_Count log_rounded 100 c = Ok (Some n)) as -> by done.
  clear Hf. unfold Hll_Count in *. pose proof Hc as (Hp & Hcp & _). rewrite Hcp, (hll_m_eq p Hp), (CountN_empty c p Hc) in *. cbn [obind] in *.
  specialize (Hn (Nat.max 100 f0) ltac:(lia)).
  destruct ((0 <? empty_registers c p)%Z && fle _ _); [exact Hn|].
  destruct (harmonic_ok c p Hc) as (z & E & _). rewrite E in *. cbn [obind] in *.
  destruct (fle _ z); [|exact Hn].
  destruct (poisson_ok c p Hc) as (z' & E' & _). rewrite E' in * by lia. exact Hn.
Qed.
Print Assumptions C104_count_partial.
Print Assumptions C104_same_set_partial.
Print Assumptions C104_one_value_refuted.
Print Assumptions C104_low_range_partial.
Print Assumptions C104_few_rows_partial.
Print Assumptions is_Count_nonvacuous.
