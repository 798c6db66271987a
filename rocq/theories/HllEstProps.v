(** Properties C106, C107: the estimators of internal/summary/hll compute the
    published formulas (HllEstSpec.v), up to rounding. *)
From Verif Require Import Base FnvSpec Float64 Float64Spec Float64Proofs FloatMore RealBounds BitbucketModel BitbucketSpec HllModel HllSpec HllProofs HllCountModel HllCountSpec
  HllCountProofs HllCountTop HllCountEst HllCountMore HllEstSpec HllEstTau HllEstProofs HllEstTop.
From Coq Require Import ZifyBool ZifyNat.
From Coq Require Import Reals Lra.
From Flocq Require Import Core.
Notation float := Float64.float.
Open Scope Z_scope.

(** C106: HarmonicCount is alpha m^2 / sum_j 2^-M_j, rounded up, on every counter
    without an empty register ... *)
Theorem C106_flajolet_partial c p : hll_wf c p → empty_registers c p = 0 →
  let e := estimate p (Rsum_over flajolet_weight (registers c p)) in
  (e <= 2 ^ 61)%R → ∃ n, Hll_HarmonicCount c = Ok n ∧ rounded_up n e.
Proof.
  intros Hc H0. assert (Rsum_over flajolet_weight (registers c p) = Rsum_over half_weight (registers c p)) as ->; [|exact (harmonic_count c p Hc)].
  apply Rsum_ext_in. intros r Hr. unfold half_weight. destruct (Z.eqb_spec r 0) as [->|]; [|done]. exfalso.
  pose proof (count_eq_pos 0 _ Hr). unfold empty_registers in H0. lia.
Qed.
Print Assumptions C106_flajolet_partial.
(** ... and in general that formula with the weight 1/2 for an empty register ... *)
Theorem C106_harmonic c p : hll_wf c p → let e := estimate p (Rsum_over half_weight (registers c p)) in
  (e <= 2 ^ 61)%R → ∃ n, Hll_HarmonicCount c = Ok n ∧ rounded_up n e.
Proof. exact (harmonic_count c p). Qed.
Print Assumptions C106_harmonic.
(** ... where the published one has 2^0 = 1: on the empty counter HarmonicCount
    is almost twice the published value, at every precision. *)
Theorem C106_empty_refuted p : 4 ≤ p ≤ 18 → ∃ c n, Hll_New p = Ok c ∧ Hll_HarmonicCount c = Ok n ∧
  (19 / 10 * estimate p (Rsum_over flajolet_weight (registers c p)) < IZR n)%R.
Proof.
  intros Hp. destruct (New_Ok p Hp) as (c & E & Hc & Hr).
  assert (registers c p = replicate (hll_size p) 0) as Er.
  { unfold registers. transitivity (map (λ _ : nat, 0) (seq 0 (hll_size p))).
    - apply map_ext_in. intros j [_ Hj]%elem_of_list_In%elem_of_seq. rewrite (register_hreg c p j Hc) by lia. apply Hr; lia.
    - clear Hr. generalize 0%nat. induction (hll_size p) as [|k IH]; intros i; [done|]. cbn [seq map replicate]. f_equal. apply IH. }
  assert (∀ (w : Z → R) k, Rsum_over w (replicate k 0%Z) = INR k * w 0%Z)%R as Hw.
  { intros w k. induction k as [|k IH]; [cbn; lra|]. rewrite S_INR. change (Rsum_over w (replicate (S k) 0)) with (w 0%Z + Rsum_over w (replicate k 0%Z))%R. rewrite IH. lra. }
  assert (INR (hll_size p) = 2 ^ Z.to_nat p)%R as Es by (rewrite INR_IZR_INZ, hll_size_Z by done; rewrite pow_nat_pw, <- pw_IZR by lia; done).
  pose proof (C106_harmonic c p Hc) as H. rewrite Er in *. rewrite !Hw in *. change (half_weight 0) with (1 / 2)%R in H. rewrite Es in H.
  unfold estimate in *. rewrite pow_nat_pw in * by lia. pose proof (pw_pos p) as Hpp. pose proof (alpha_tight p Hp) as Ha.
  assert (pw 4 <= pw p <= pw 18)%R as Hb by (split; apply bpow_le; lia). change (pw 4) with 16%R in Hb. change (pw 18) with 262144%R in Hb.
  replace (alpha p * pw p * pw p / (pw p * (1 / 2)))%R with (2 * (alpha p * pw p))%R in H by (field; lra).
  assert (8 <= alpha p * pw p <= 262144)%R by nra.
  assert (2 ^ 61 = pw 61)%R as E61 by (symmetry; exact (bpow_pow 61)). rewrite E61 in H. change (pw 61) with 2305843009213693952%R in H.
  destruct H as (n & En & Hn); [lra|]. exists c, n. split; [done|]. split; [done|]. destruct Hn as [Hn _]. rewrite Er, Hw, Es. change (flajolet_weight 0) with (/ 1)%R.
  replace (alpha p * pw p * pw p / (pw p * / 1))%R with (alpha p * pw p)%R by (field; lra).
  change (10 ^ 6)%R with (10 * (10 * (10 * (10 * (10 * (10 * 1))))))%R in Hn. lra.
Qed.
Print Assumptions C106_empty_refuted.
(** PoissonCount is Ertl's estimate, rounded up.  The series sigma and tau have
    limits (so the indicator exists, and is unique) whenever some register is in
    use; the loops of the code stop long before, when the next term is absorbed. *)
Theorem C106_ertl c p : hll_wf c p → empty_registers c p < 2 ^ p →
  ∃ z, is_ertl p (registers c p) z ∧ (∀ z', is_ertl p (registers c p) z' → z' = z) ∧
    ((0 < z)%R → (estimate p z <= 2 ^ 61)%R → ∃ n, PoissonCount_returns c n ∧ rounded_up n (estimate p z)).
Proof.
  intros Hc Hv. pose proof Hc as (Hp & _). pose proof (empty_range c p Hc) as Hr.
  destruct (ertl_exists p (registers c p) Hp) as [z Hz].
  - fold (empty_registers c p). lia.
  - pose proof (count_eq_bound (65 - p) (registers c p)) as Hcb. unfold registers at 3 in Hcb. rewrite fmap_length, seq_length, hll_size_Z in Hcb by done. done.
  - exists z. split; [done|]. split; [intros z' Hz'; by eapply ertl_unique|]. intros H0 He. by eapply poisson_count.
Qed.
Print Assumptions C106_ertl.
(** On the empty counter sigma is infinite and PoissonCount is 0. *)
Theorem C106_ertl_empty c p : hll_wf c p → empty_registers c p = 2 ^ p → PoissonCount_returns c 0.
Proof.
  intros Hc Hv. pose proof Hc as (Hp & Hcp & _). destruct (poisson_ok c p Hc) as (z & E & Hz & _). exists 100%nat. intros fuel Hf.
  unfold Hll_PoissonCount. rewrite E by done. cbn [obind option_map]. rewrite Hcp, (Hz Hv), normalize_inf by done. done.
Qed.
Print Assumptions C106_ertl_empty.
(** Above 256 registers the constant is the limit 1/(2 ln 2) to 7 digits. *)
Theorem C106_alpha_limit p : 9 ≤ p → (Rabs (alpha p - 1 / (2 * ln 2)) < 3 / 10 ^ 8)%R.
Proof.
  intros Hp. unfold alpha. assert (p =? 4 = false) as -> by lia. assert (p =? 5 = false) as -> by lia. assert (p =? 6 = false) as -> by lia. assert (p <=? 8 = false) as -> by lia.
  pose proof ln2_lower as H1. pose proof ln2_upper as H2. change (2 ^ 53) with 9007199254740992 in H1. change (2 ^ 55) with 36028797018963968 in H2.
  change (4 * 6243314768165359 + 1) with 24973259072661437 in H2.
  assert (0.7213475 <= / (2 * ln 2) <= 0.721347521)%R as [L U].
  { split; (apply (Rmult_le_reg_r (2 * ln 2)); [lra|]; rewrite Rinv_l by lra; lra). }
  replace (1 / (2 * ln 2))%R with (/ (2 * ln 2))%R by (unfold Rdiv; ring). set (q := (/ (2 * ln 2))%R) in *.
  apply Rabs_def1; change (10 ^ 8)%R with (10 * (10 * (10 * (10 * (10 * (10 * (10 * (10 * 1))))))))%R; lra.
Qed.
Print Assumptions C106_alpha_limit.

(** C107: which estimator Count uses (C74 is the low range).  The estimate is above 7 m: the formula of C106_harmonic ... *)
Theorem C107_high_range glog p vs : log_ok glog → 4 ≤ p ≤ 18 → Forall is_bytes vs →
  let h := Rsum_over half_weight (hll_values p vs) in
  (h <= harmonic_limit p * (1 - / 10 ^ 6))%R → (estimate p h <= 2 ^ 61)%R →
  ∃ n, Count_after glog p vs n ∧ rounded_up n (estimate p h).
Proof. intros H. exact (Count_high glog H p vs). Qed.
Print Assumptions C107_high_range.
(** ... below, and linear counting is beyond its limit or there is no empty register: Ertl's estimate. *)
Theorem C107_middle_range glog p vs : log_ok glog → 4 ≤ p ≤ 18 → Forall is_bytes vs →
  (harmonic_limit p * (1 + / 10 ^ 6) <= Rsum_over half_weight (hll_values p vs))%R →
  buckets_hit p vs = 2 ^ p ∨ (IZR (linear_limit p) + / 2 ^ 27 < linear_counting p (2 ^ p - buckets_hit p vs))%R →
  ∃ n z, is_ertl p (hll_values p vs) z ∧ Count_after glog p vs n ∧ rounded_up n (estimate p z).
Proof. intros H. exact (Count_middle glog H p vs). Qed.
Print Assumptions C107_middle_range.

(** Non-vacuity.  At p = 4, a hundred items are in the high range (the estimate
    is about 148); at p = 6, thirty items are in the middle range. *)
Definition many_items : list bytes := map (λ i, [Z.of_nat i; 7; 7; 7]) (seq 0 100).
Lemma many_values : hll_values 4 many_items = [7; 5; 4; 6; 5; 5; 3; 2; 4; 3; 5; 4; 3; 3; 6; 4].
Proof. vm_compute. reflexivity. Qed.
Lemma many_sum : Rsum_over half_weight (hll_values 4 many_items) = (149 / 128)%R.
Proof.
  rewrite many_values. unfold Rsum_over. cbn [fold_right]. unfold half_weight, flajolet_weight.
  change (7 =? 0) with false. change (6 =? 0) with false. change (5 =? 0) with false. change (4 =? 0) with false. change (3 =? 0) with false. change (2 =? 0) with false. cbv iota.
  change (Z.to_nat 7) with 7%nat. change (Z.to_nat 6) with 6%nat. change (Z.to_nat 5) with 5%nat. change (Z.to_nat 4) with 4%nat. change (Z.to_nat 3) with 3%nat. change (Z.to_nat 2) with 2%nat.
  cbn [pow]. lra.
Qed.
Example high_range_nonvacuous : Forall is_bytes many_items ∧ NoDup many_items ∧
  (Rsum_over half_weight (hll_values 4 many_items) <= harmonic_limit 4 * (1 - / 10 ^ 6))%R ∧
  (148 < estimate 4 (Rsum_over half_weight (hll_values 4 many_items)) < 148.5)%R.
Proof.
  split; [apply all_bytes; vm_compute; reflexivity|]. split; [apply NoDup_fmap_2; [by intros x y [= H%Nat2Z.inj]|apply NoDup_seq]|].
  rewrite many_sum. unfold harmonic_limit, estimate, alpha. change (4 =? 4) with true. cbv iota. change (Z.to_nat 4) with 4%nat. cbn [pow]. lra.
Qed.
Example high_range_count glog : log_ok glog → ∃ n, Count_after glog 4 many_items n ∧ n ∈ [148; 149].
Proof.
  intros Hl. destruct high_range_nonvacuous as (H1 & _ & H2 & H3). destruct (C107_high_range glog 4 many_items Hl ltac:(lia) H1 H2) as (n & Hn & L & U).
  { assert (2 ^ 61 = pw 61)%R as E61 by (symmetry; exact (bpow_pow 61)). rewrite E61. change (pw 61) with 2305843009213693952%R. lra. }
  exists n. split; [done|]. change (10 ^ 6)%R with (10 * (10 * (10 * (10 * (10 * (10 * 1))))))%R in *.
  assert (147 < IZR n)%R as Ha by lra. assert (IZR n < 150)%R as Hb by lra. apply lt_IZR in Ha, Hb.
  assert (n = 148 ∨ n = 149) as [->| ->] by lia; [by left|right; by left].
Qed.
Example middle_range_nonvacuous : Forall is_bytes decrease_items ∧
  (harmonic_limit 6 * (1 + / 10 ^ 6) <= Rsum_over half_weight (hll_values 6 decrease_items))%R ∧
  (IZR (linear_limit 6) + / 2 ^ 27 < linear_counting 6 (2 ^ 6 - buckets_hit 6 decrease_items))%R.
Proof.
  split; [exact (decrease_bytes 30)|]. split.
  - assert (count_eq 0 (hll_values 6 decrease_items) = 34) as E by (vm_compute; reflexivity).
    assert (∀ l, / 2 * IZR (count_eq 0 l) <= Rsum_over half_weight l)%R as Hh.
    { unfold Rsum_over. induction l as [|x l IH]; [change (count_eq 0 []) with 0; cbn [fold_right]; lra|].
      rewrite count_eq_cons, plus_IZR. cbn [fold_right]. unfold half_weight at 1, flajolet_weight. destruct (decide (x = 0)) as [->|Hx].
      - change (0 =? 0) with true. cbv iota. lra.
      - rewrite (proj2 (Z.eqb_neq _ _)) by done. pose proof (half_pow (Z.to_nat x)). lra. }
    specialize (Hh (hll_values 6 decrease_items)). rewrite E in Hh. unfold harmonic_limit, alpha. change (6 =? 4) with false. change (6 =? 5) with false. change (6 =? 6) with true. cbv iota.
    change (Z.to_nat 6) with 6%nat. cbn [pow]. lra.
  - assert (buckets_hit 6 decrease_items = 30) as -> by (vm_compute; reflexivity). change (2 ^ 6 - 30) with 34. change (linear_limit 6) with 40. unfold linear_counting. change (2 ^ 6) with 64.
    pose proof (ln_gt_k 64 34 161 (65536) 256 ltac:(lia) ltac:(lia) ltac:(lia) ltac:(vm_compute; reflexivity)) as H2. rewrite INR256 in H2.
    assert (/ 2 ^ 27 <= / 16)%R; [|lra]. replace 16%R with (2 ^ 4)%R by (cbn [pow]; lra). apply Rinv_le_contravar; [apply pow_lt; lra|apply Rle_pow; [lra|lia]].
Qed.
