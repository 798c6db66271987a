(** Properties C19 - C22 and C63 - C65: internal/summary/stat64. *)
From Verif Require Import Base BaseProofs Float64 Float64Spec Float64Proofs Stat64Model Stat64Spec Stat64Proofs
  Stat64RealSpec Stat64RealProofs Stat64FloatSpec Stat64FloatProofs.
From Coq Require Import Reals Lra.
Local Open Scope Z_scope.

(** C19: any sequence of Update, UpdateMulti and Reset on a buffer whose first
    32 bytes are zero yields the fold of the observations since the last Reset,
    and touches only those 32 bytes. *)
Theorem C19_summary_is_fold buf os : (32 ≤ length buf)%nat → take 32 buf = replicate 32 0 →
  ∃ rec, stat_ops buf os = Ok (rec ++ drop 32 buf) ∧ length rec = 32%nat ∧ is_bytes rec ∧
    stat_repr (rec ++ drop 32 buf) (observations os).
Proof. exact (summary_fold buf os). Qed.
Print Assumptions C19_summary_is_fold.
(** C19: Reset makes any buffer a fresh summary. *)
Theorem C19_reset buf os : (32 ≤ length buf)%nat →
  ∃ rec, stat_ops buf (SReset :: os) = Ok (rec ++ drop 32 buf) ∧ length rec = 32%nat ∧
    stat_repr (rec ++ drop 32 buf) (observations os).
Proof. exact (reset_then_ops buf os). Qed.
Print Assumptions C19_reset.
(** C19: batching is irrelevant, on any buffer. *)
Theorem C19_batching buf vs : (32 ≤ length buf)%nat → is_bytes buf →
  stat_ops buf [SMulti vs] = stat_ops buf (map SUpdate vs).
Proof. exact (batching buf vs). Qed.
Print Assumptions C19_batching.
(** C19: a buffer shorter than 32 bytes panics rather than being corrupted. *)
Theorem C19_short_panics s v vs : (length s < 32)%nat → Stat_Update s v = Panic ∧ Stat_UpdateMulti s vs = Panic.
Proof. intros H. exact (conj (short_panics s v H) (short_panics_multi s vs H)). Qed.
Print Assumptions C19_short_panics.

(** C19: New gives a summary of exactly 32 bytes with no observations, which
    then holds the fold of what it is given and stays 32 bytes long. *)
Theorem C19_new os : length Stat_New = 32%nat ∧ stat_repr Stat_New [] ∧
  ∃ rec, stat_ops Stat_New os = Ok rec ∧ length rec = 32%nat ∧ is_bytes rec ∧ stat_repr rec (observations os).
Proof.
  split; [reflexivity|]. assert (32 ≤ length Stat_New)%nat as Hl by (unfold Stat_New; rewrite replicate_length; lia).
  split.
  - destruct (summary_fold Stat_New [] Hl eq_refl) as (rec & E & _ & _ & H). change (drop 32 Stat_New) with (@nil Z) in E, H. rewrite app_nil_r in E, H.
    assert (Ok Stat_New = Ok rec) as E2 by exact E. injection E2 as E2. rewrite E2. exact H.
  - destruct (summary_fold Stat_New os Hl eq_refl) as (rec & E & H1 & H2 & H3).
    change (drop 32 Stat_New) with (@nil Z) in E, H3. rewrite app_nil_r in E, H3. exists rec. auto.
Qed.
Print Assumptions C19_new.

(** C20: the same recurrence without rounding gives the textbook statistics. *)
Theorem C20_exact_welford xs : (2 ≤ length xs)%nat → Z.of_nat (length xs) < 2^64 →
  a_count (runR xs) = Z.of_nat (length xs) ∧ a_sum (runR xs) = Rsum xs ∧ a_mean (runR xs) = Rmean xs ∧
  (a_ss (runR xs) / IZR (u64 (a_count (runR xs) - 1)))%R = Rvariance xs.
Proof. exact (runR_textbook xs). Qed.
Print Assumptions C20_exact_welford.
Theorem C20_exact_mean xs : xs ≠ [] → Z.of_nat (length xs) < 2^64 → a_mean (runR xs) = Rmean xs.
Proof. exact (runR_mean xs). Qed.
Print Assumptions C20_exact_mean.

(** C21: sums of integers are exact while the running totals stay within 2^53. *)
Theorem C21_integer_sums buf os ns : (32 ≤ length buf)%nat → take 32 buf = replicate 32 0 →
  Forall2 is_int (observations os) ns → (∀ k, Z.abs (Zsum (take k ns)) ≤ 2^53) →
  ∃ buf', stat_ops buf os = Ok buf' ∧ Stat_Sum buf' = Ok (f_of_Z (Zsum ns)) ∧ f2r (f_of_Z (Zsum ns)) = IZR (Zsum ns).
Proof.
  intros Hl H0 HF Hb. destruct (summary_fold buf os Hl H0) as (rec & E & _ & _ & (_ & HS & _)).
  exists (rec ++ drop 32 buf). split; [exact E|]. rewrite HS. rewrite (int_sum_exact _ ns HF Hb). split; [reflexivity|].
  specialize (Hb (length ns)). rewrite take_ge in Hb by reflexivity. apply f_of_Z_exact. lia.
Qed.
Print Assumptions C21_integer_sums.
(** C21: ... and then the order of arrival is irrelevant. *)
Theorem C21_order_irrelevant vs us ns ms : Forall2 is_int vs ns → Forall2 is_int us ms → ns ≡ₚ ms →
  Zsum (map Z.abs ns) ≤ 2^53 → sum_spec vs = sum_spec us.
Proof. exact (int_sum_order vs us ns ms). Qed.
Print Assumptions C21_order_irrelevant.

(** C22 holds whenever no two observations differ by more than the largest
    finite float64: the variance is a non-negative number (or +inf), not NaN. *)
Theorem C22_variance_nonneg_partial buf os : (32 ≤ length buf)%nat → take 32 buf = replicate 32 0 →
  2 ≤ Z.of_nat (length (observations os)) < 2^64 →
  Forall (λ v, ffinite v = true) (observations os) → spread_ok (observations os) →
  ∃ buf' var, stat_ops buf os = Ok buf' ∧ Stat_Variance buf' = Ok var ∧ fle f_zero var = true ∧ fisnan var = false.
Proof.
  intros Hl H0 Hn HF Hs. destruct (summary_fold buf os Hl H0) as (rec & E & _ & _ & (_ & _ & _ & HV)).
  exists (rec ++ drop 32 buf), (var_spec (observations os)). split; [exact E|]. split; [exact HV|].
  apply f_nonneg_fle. apply variance_nonneg; assumption.
Qed.
Print Assumptions C22_variance_nonneg_partial.
(** C22 is false in general: two finite observations whose difference overflows
    give variance -inf. *)
Theorem C22_variance_refuted : ∃ v w buf var, ffinite v = true ∧ ffinite w = true ∧
  stat_ops Stat_New [SUpdate v; SUpdate w] = Ok buf ∧ Stat_Variance buf = Ok var ∧ flt var f_zero = true.
Proof.
  exists (f_frombits 0xFFEFFFFFFFFFFFFF), (f_frombits 0x7FEFFFFFFFFFFFFF).
  eexists _, _. repeat split; vm_compute; reflexivity.
Qed.
Print Assumptions C22_variance_refuted.

(** C63: the reported mean lies between the smallest and the largest observation. *)
Theorem C63_mean_in_range buf os : (32 ≤ length buf)%nat → take 32 buf = replicate 32 0 →
  1 ≤ Z.of_nat (length (observations os)) < 2^64 →
  Forall (λ v, ffinite v = true) (observations os) → spread_ok (observations os) →
  ∃ buf' mean lo hi, stat_ops buf os = Ok buf' ∧ Stat_Mean buf' = Ok mean ∧ lo ∈ observations os ∧ hi ∈ observations os ∧
    fle lo mean = true ∧ fle mean hi = true.
Proof.
  intros Hl H0 Hn HF Hs. destruct (summary_fold buf os Hl H0) as (rec & E & _ & _ & (_ & _ & HM & _)).
  destruct (mean_hull _ Hn HF Hs) as (Hm & a & b & Ha & Hb & Hab & Hab').
  assert (HF' := HF). rewrite Forall_forall in HF'.
  exists (rec ++ drop 32 buf), (mean_spec (observations os)), a, b. split; [exact E|]. split; [exact HM|].
  split; [exact Ha|]. split; [exact Hb|]. rewrite !fle_ok by auto. split; assumption.
Qed.
Print Assumptions C63_mean_in_range.

(** C64: accumulated rounding error of Sum (if it did not overflow). *)
Theorem C64_sum_error buf os : (32 ≤ length buf)%nat → take 32 buf = replicate 32 0 →
  ∃ buf' sum, stat_ops buf os = Ok buf' ∧ Stat_Sum buf' = Ok sum ∧
  (ffinite sum = true →
   (Rabs (f2r sum - Rsum (map f2r (observations os))) <=
      ((1 + / 2^53) ^ length (observations os) - 1) * Rabssum (map f2r (observations os)))%R).
Proof.
  intros Hl H0. destruct (summary_fold buf os Hl H0) as (rec & E & _ & _ & (_ & HS & _)).
  exists (rec ++ drop 32 buf), (sum_spec (observations os)). split; [exact E|]. split; [exact HS|].
  exact (sum_error (observations os)).
Qed.
Print Assumptions C64_sum_error.

(** C65: n identical finite observations have that value as mean and variance 0. *)
Theorem C65_constant buf os v n : (32 ≤ length buf)%nat → take 32 buf = replicate 32 0 →
  observations os = replicate n v → ffinite v = true → 2 ≤ Z.of_nat n < 2^64 →
  ∃ buf' mean var, stat_ops buf os = Ok buf' ∧ Stat_Mean buf' = Ok mean ∧ Stat_Variance buf' = Ok var ∧
    ffinite mean = true ∧ f2r mean = f2r v ∧ ffinite var = true ∧ f2r var = 0%R.
Proof.
  intros Hl H0 HO Hv Hn. destruct (summary_fold buf os Hl H0) as (rec & E & _ & _ & (_ & _ & HM & HV)).
  rewrite HO in HM, HV. destruct (const_stats v n Hv Hn) as (H1 & H2 & H3 & H4).
  exists (rec ++ drop 32 buf), (mean_spec (replicate n v)), (var_spec (replicate n v)).
  repeat (split; [assumption|]). assumption.
Qed.
Print Assumptions C65_constant.

(** Non-vacuity: 1, 2, 4 posted one by one and in a batch, after a reset. *)
Definition ex_ops : list sop := [SUpdate (f_of_Z 7); SReset; SUpdate (f_of_Z 1); SMulti [f_of_Z 2; f_of_Z 6]].
Example stat_nonvacuous : ∃ buf, stat_ops Stat_New ex_ops = Ok buf ∧
  (let! c := Stat_Count buf in let! s := Stat_Sum buf in let! m := Stat_Mean buf in let! q := Stat_Variance buf in
   Ok (c, fbits s, fbits m, fbits q)) = Ok (3, fbits (f_of_Z 9), fbits (f_of_Z 3), fbits (f_of_Z 7)).
Proof. eexists. split; [vm_compute; reflexivity|]. vm_compute. reflexivity. Qed.
Example stat_spread_nonvacuous : spread_ok (observations ex_ops) ∧ Forall (λ v, ffinite v = true) (observations ex_ops) ∧
  Forall2 is_int (observations ex_ops) [1; 2; 6] ∧ (∀ k, Z.abs (Zsum (take k [1; 2; 6])) ≤ 2^53).
Proof.
  change (observations ex_ops) with [f_of_Z 1; f_of_Z 2; f_of_Z 6].
  assert (H : ∀ n, 0 ≤ n ≤ 10 → is_int (f_of_Z n) n).
  { intros n Hn. destruct (f_of_Z_exact n) as (? & ? & _); [lia|]. split; assumption. }
  split; [|split; [|split]].
  - assert (B : ∀ n, 0 ≤ n ≤ 10 → (0 <= f2r (f_of_Z n) <= 10)%R).
    { intros n Hn. destruct (H n Hn) as [_ ->]. split; [apply (IZR_le 0)|apply (IZR_le n 10)]; lia. }
    assert (B' : ∀ v, v ∈ [f_of_Z 1; f_of_Z 2; f_of_Z 6] → (0 <= f2r v <= 10)%R).
    { intros v Hv. rewrite !elem_of_cons, elem_of_nil in Hv. destruct Hv as [->|[->|[->|[]]]]; apply B; lia. }
    intros v w Hv%B' Hw%B'. eapply Rle_trans; [|apply (IZR_maxfloat 10); lia].
    rewrite (Rabs_pos_eq 10) by lra. apply Rabs_le. lra.
  - do 3 (constructor; [apply H; lia|]). constructor.
  - do 3 (constructor; [apply H; lia|]). constructor.
  - intros [|[|[|[|k]]]]; vm_compute; discriminate.
Qed.
