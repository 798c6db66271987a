(** Properties C17, C74 - C77: the estimators of internal/summary/hll.  [glog]
    is math.Log; [log_ok] (HllCountSpec.v) is all that is assumed of it. *)
From Verif Require Import Base FnvSpec Float64 Float64Spec Float64Proofs BitbucketModel BitbucketSpec HllModel HllSpec HllProofs HllCountModel HllCountSpec FloatMore HllCountLoops HllCountTop HllCountEst HllCountMore.
From Coq Require Import ZifyBool ZifyNat.
From Coq Require Import Reals Lra.
From Flocq Require Import Core.
Notation float := Float64.float.
Open Scope Z_scope.

(** C17: the count of an empty counter is 0 ... *)
Theorem C17_empty glog p : log_ok glog → 4 ≤ p ≤ 18 → Count_after glog p [] 0.
Proof. intros H. exact (Count_empty glog H p). Qed.
Print Assumptions C17_empty.
(** ... but a single distinct item, added any number of times, counts as 2 at every precision. *)
Theorem C17_one_item_refuted glog p vs v : log_ok glog → 4 ≤ p ≤ 18 → is_bytes v → vs ≠ [] → (∀ u, u ∈ vs → u = v) →
  Count_after glog p vs 2.
Proof. intros H. exact (Count_one glog H p vs v). Qed.
Print Assumptions C17_one_item_refuted.
(** Count() has one result. *)
Theorem C17_deterministic glog p vs n n' : Count_after glog p vs n → Count_after glog p vs n' → n = n'.
Proof. exact (Count_after_functional glog p vs n n'). Qed.
Print Assumptions C17_deterministic.

(** C74: while the linear counting estimate m ln(m/v) is within the published
    limit for the precision, Count is that real number rounded up (to within
    2^-27), and at least the number of registers in use. *)
Theorem C74_low_range glog p vs : log_ok glog → 4 ≤ p ≤ 18 → Forall is_bytes vs → buckets_hit p vs < 2 ^ p →
  let est := linear_counting p (2 ^ p - buckets_hit p vs) in
  (est + / 2 ^ 27 <= IZR (linear_limit p))%R →
  ∃ n, Count_after glog p vs n ∧ (est - / 2 ^ 27 <= IZR n < est + 1 + / 2 ^ 27)%R ∧ buckets_hit p vs ≤ n.
Proof.
  intros H Hp Hvs Hb est Hest. assert (/ 2 ^ 27 = pw (-27))%R as E27.
  { change (-27) with (Z.opp 27). rewrite bpow_opp. f_equal. symmetry. exact (bpow_pow 27). }
  rewrite E27 in *. pose proof (buckets_hit_nonneg p vs) as Hb0. set (v := 2 ^ p - buckets_hit p vs) in *.
  assert (1 ≤ v ≤ 2 ^ p) as Hv by lia. destruct (lin_n_range glog H p v Hp Hv) as [_ Hr]. fold est in Hr.
  exists (lin_n glog p v). split; [|split; [exact Hr|pose proof (lin_n_ge glog H p v Hp Hv); lia]].
  apply Count_after_low; [done|done|done|lia|]. fold v.
  destruct (linear_err glog H p v Hp Hv) as (_ & He & _). fold (lin_t glog p v) est in He. apply Rabs_le_inv in He.
  apply Zceil_glb. lra.
Qed.
Print Assumptions C74_low_range.

(** C75: Count, LinearCount, HarmonicCount and PoissonCount return on every
    counter, whatever its 6 bit registers hold and whatever math.Log does: no
    panic, and the sigma and tau iterations stop. *)
Theorem C75_estimators_return glog c p : hll_wf c p →
  (∃ n, Count_returns glog c n) ∧ (∃ n, Hll_LinearCount glog c = Ok n) ∧
  (∃ n, Hll_HarmonicCount c = Ok n) ∧ (∃ n, PoissonCount_returns c n).
Proof. intros Hc. split_and!; [eapply Count_total|eapply Linear_total|eapply Harmonic_total|eapply Poisson_total]; exact Hc. Qed.
Print Assumptions C75_estimators_return.

(** C76: the count is non-negative if some register is at most 63-2p ... *)
Theorem C76_nonnegative_partial glog p vs j n : log_ok glog → 4 ≤ p ≤ 18 → Forall is_bytes vs → 0 ≤ j < 2 ^ p →
  hll_register p vs j ≤ 63 - 2 * p → Count_after glog p vs n → 0 ≤ n < 2 ^ 63.
Proof. intros H. exact (Count_after_nonneg glog H p vs j n). Qed.
Print Assumptions C76_nonnegative_partial.
(** ... in particular if fewer than 2^p items were added; ... *)
Theorem C76_few_items_partial glog p vs n : log_ok glog → 4 ≤ p ≤ 18 → Forall is_bytes vs → Z.of_nat (length vs) < 2 ^ p →
  Count_after glog p vs n → 0 ≤ n < 2 ^ 63.
Proof.
  intros H Hp Hvs Hl. destruct (some_empty p vs Hp Hl) as (j & Hj & E). apply (Count_after_nonneg glog H p vs j n); [done|done|done|lia].
Qed.
Print Assumptions C76_few_items_partial.
(** ... but sixteen items can make it -2^63 (at p = 4; no assumption on math.Log) ... *)
Theorem C76_sixteen_items_refuted glog : ∃ vs, length vs = 16%nat ∧ Forall is_bytes vs ∧ Count_after glog 4 vs (- 2 ^ 63).
Proof. exists negative_items. split; [done|]. split; [exact negative_bytes|exact (negative_count glog)]. Qed.
Print Assumptions C76_sixteen_items_refuted.
(** ... and LinearCount is -2^63 whenever no register is empty (math.Log(+Inf) = +Inf). *)
Theorem C76_linear_refuted glog c p : hll_wf c p → empty_registers c p = 0 → glog plus_inf = plus_inf →
  Hll_LinearCount glog c = Ok (- 2 ^ 63).
Proof. exact (linear_full glog c p). Qed.
Print Assumptions C76_linear_refuted.

(** C77: adding items never lowers the count while both counts are in the linear range ... *)
Theorem C77_monotone_partial glog p vs us : log_ok glog → 4 ≤ p ≤ 18 → Forall is_bytes vs → Forall is_bytes us →
  (∀ v, v ∈ vs → v ∈ us) → buckets_hit p us < 2 ^ p →
  (linear_counting p (2 ^ p - buckets_hit p us) + / 2 ^ 27 <= IZR (linear_limit p))%R →
  ∃ n n', Count_after glog p vs n ∧ Count_after glog p us n' ∧ n ≤ n'.
Proof.
  intros H Hp Hvs Hus Hsub Hb Hest. assert (/ 2 ^ 27 = pw (-27))%R as E27.
  { change (-27) with (Z.opp 27). rewrite bpow_opp. f_equal. symmetry. exact (bpow_pow 27). }
  rewrite E27 in *. pose proof (buckets_hit_nonneg p vs) as Hb0.
  assert (buckets_hit p vs ≤ buckets_hit p us) as Hle.
  { unfold buckets_hit. apply Nat2Z.inj_le. apply submseteq_length, NoDup_submseteq; [apply NoDup_remove_dups|].
    intros x. rewrite !elem_of_remove_dups. intros (v & -> & Hv)%elem_of_list_fmap. apply elem_of_list_fmap. eauto. }
  pose proof (buckets_hit_nonneg p us) as Hb1.
  assert (lin_n glog p (2 ^ p - buckets_hit p us) ≤ linear_limit p) as H2.
  { destruct (linear_err glog H p (2 ^ p - buckets_hit p us) Hp ltac:(lia)) as (_ & He & _). apply Rabs_le_inv in He. apply Zceil_glb. unfold lin_t. lra. }
  assert (lin_n glog p (2 ^ p - buckets_hit p vs) ≤ lin_n glog p (2 ^ p - buckets_hit p us)) as H1 by (apply lin_n_mono; [done|done|lia|lia]).
  exists (lin_n glog p (2 ^ p - buckets_hit p vs)), (lin_n glog p (2 ^ p - buckets_hit p us)).
  split; [apply Count_after_low; [done|done|done|lia|lia]|]. split; [apply Count_after_low; [done|done|done|lia|lia]|done].
Qed.
Print Assumptions C77_monotone_partial.
(** ... but at the end of that range one more item can lower it. *)
Theorem C77_decrease_refuted glog : log_ok glog →
  ∃ vs v, Forall is_bytes vs ∧ is_bytes v ∧ Count_after glog 6 vs 39 ∧ Count_after glog 6 (vs ++ [v]) 37.
Proof.
  intros H. exists (take 29 decrease_items), [55; 52; 48; 48; 120]. split; [apply decrease_bytes|]. split; [repeat constructor; done|].
  split; [by apply decrease_first|exact (decrease_second glog H)].
Qed.
Print Assumptions C77_decrease_refuted.

(** Non-vacuity: the correctly rounded logarithm satisfies [log_ok]; a counter
    with 3 registers in use at p = 4 is in the linear range. *)
Example log_ok_nonvacuous : ∃ glog, log_ok glog.
Proof. exists log_rounded. exact log_rounded_ok. Qed.
Example low_range_nonvacuous : buckets_hit 4 [[97]; [98; 7]; [97]; [1; 2; 3]] = 3 ∧
  (linear_counting 4 (2 ^ 4 - 3) + / 2 ^ 27 <= IZR (linear_limit 4))%R.
Proof.
  split; [vm_compute; reflexivity|]. unfold linear_counting. change (2 ^ 4) with 16. change (16 - 3) with 13. change (linear_limit 4) with 10.
  pose proof (ln_upper (16 / 13) ltac:(lra)) as H. assert (/ 2 ^ 27 <= 1)%R; [|lra].
  rewrite <- Rinv_1. apply Rinv_le_contravar; [lra|]. apply pow_R1_Rle. lra.
Qed.
