(** C109: how far the mean and the variance reported by a statistical summary
    can be from the textbook values, for any sequence of updates. *)
From Verif Require Import Base BaseProofs Float64 Float64Spec Float64Proofs FloatMore FloatRel
  Stat64Model Stat64Spec Stat64Proofs Stat64FloatSpec Stat64RealSpec Stat64ErrSpec Stat64ErrProofs.
From Coq Require Import Reals Lra.
From Flocq Require Import Core.
From stdpp Require Import sets.
Open Scope R_scope.

(** n observations, none larger than M, no two further apart than D (M and D
    are any such bounds): the reported mean is within 2^-53 ((n/2 + 1) M + 3 D)
    of the arithmetic mean. *)
Theorem C109_mean_error buf os M D : (32 ≤ length buf)%nat → take 32 buf = replicate 32 0%Z →
  observations os ≠ [] → (Z.of_nat (length (observations os)) ≤ 2 ^ 40)%Z →
  / 2 ^ 400 <= D <= 2 ^ 400 → within M D (observations os) →
  ∃ buf' mean, stat_ops buf os = Ok buf' ∧ Stat_Mean buf' = Ok mean ∧ ffinite mean = true ∧
  Rabs (f2r mean - Rmean (map f2r (observations os))) <=
    / 2 ^ 53 * ((INR (length (observations os)) / 2 + 1) * M + 3 * D).
Proof.
  intros Hl H0 Hne Hn HD HW. destruct (summary_fold buf os Hl H0) as (rec & E & _ & _ & (_ & _ & HM & _)).
  assert (HD' : pw (-400) <= D <= pw 400).
  { change (-400)%Z with (Z.opp 400). rewrite bpow_opp. change 400%Z with (Z.of_nat 400). rewrite bpow_pow. exact HD. }
  exists (rec ++ drop 32 buf), (mean_spec (observations os)). split; [exact E|]. split; [exact HM|]. split.
  - apply Stat64FloatProofs.mean_hull.
    + destruct (observations os); [done|cbn [length] in *; lia].
    + exact (bounded_finite M D _ HW).
    + exact (bounded_spread M D _ (proj2 HD') HW).
  - rewrite <- uu_eq. exact (mean_err M D _ Hne Hn HD' HW).
Qed.
Print Assumptions C109_mean_error.

(** ... and, for two observations or more, the reported variance is a finite
    number within 2^-53 D ((n + 10) M + (n + 30) D) of the sample variance. *)
Theorem C109_variance_error buf os M D : (32 ≤ length buf)%nat → take 32 buf = replicate 32 0%Z →
  (2 ≤ Z.of_nat (length (observations os)) ≤ 2 ^ 40)%Z →
  / 2 ^ 400 <= D <= 2 ^ 400 → within M D (observations os) →
  ∃ buf' var, stat_ops buf os = Ok buf' ∧ Stat_Variance buf' = Ok var ∧ ffinite var = true ∧
  Rabs (f2r var - Rvariance (map f2r (observations os))) <=
    / 2 ^ 53 * D * ((INR (length (observations os)) + 10) * M + (INR (length (observations os)) + 30) * D).
Proof.
  intros Hl H0 Hn HD HW. destruct (summary_fold buf os Hl H0) as (rec & E & _ & _ & (_ & _ & _ & HV)).
  assert (HD' : pw (-400) <= D <= pw 400).
  { change (-400)%Z with (Z.opp 400). rewrite bpow_opp. change 400%Z with (Z.of_nat 400). rewrite bpow_pow. exact HD. }
  destruct (var_err M D _ Hn HD' HW) as [F B].
  exists (rec ++ drop 32 buf), (var_spec (observations os)). split; [exact E|]. split; [exact HV|]. split; [exact F|].
  rewrite <- uu_eq. exact B.
Qed.
Print Assumptions C109_variance_error.

(** Observations that nearly agree: the bound is relative to the spread D, not
    to M squared, so large values with a small spread keep a usable variance
    (the naive "mean of squares minus square of mean" loses it all).  A million
    readings around 10^9 with spread 1 are answered to within 0.12. *)
Theorem C109_small_spread buf os : (32 ≤ length buf)%nat → take 32 buf = replicate 32 0%Z →
  (2 ≤ Z.of_nat (length (observations os)) ≤ 1000000)%Z → within (10 ^ 9) 1 (observations os) →
  ∃ buf' var, stat_ops buf os = Ok buf' ∧ Stat_Variance buf' = Ok var ∧ ffinite var = true ∧
  Rabs (f2r var - Rvariance (map f2r (observations os))) <= 12 / 100.
Proof.
  intros Hl H0 Hn HW. destruct (C109_variance_error buf os (10 ^ 9) 1 Hl H0 ltac:(lia)) as (buf' & var & H1 & H2 & H3 & H4).
  - assert (1 <= 2 ^ 400) by (apply pow_R1_Rle; lra). split; [|done]. rewrite <- Rinv_1. apply Rinv_le_contravar; lra.
  - exact HW.
  - exists buf', var. split; [done|]. split; [done|]. split; [done|]. eapply Rle_trans; [exact H4|].
    set (n := INR (length (observations os))).
    assert (Hn' : 0 <= n <= 1000000).
    { unfold n. split; [apply pos_INR|]. rewrite INR_IZR_INZ. apply (IZR_le _ 1000000). lia. }
    clearbody n. lra.
Qed.
Print Assumptions C109_small_spread.

(** Non-vacuity: 10^9, 10^9 + 1 and 10^9 + 1 again. *)
Definition err_ops : list sop := [SUpdate (f_of_Z 5); SReset; SUpdate (f_of_Z 999999999); SMulti [f_of_Z 1000000000; f_of_Z 1000000000]].
Example err_nonvacuous : within (10 ^ 9) 1 (observations err_ops) ∧ (2 ≤ Z.of_nat (length (observations err_ops)) ≤ 1000000)%Z.
Proof.
  split; [|cbn; lia]. change (observations err_ops) with [f_of_Z 999999999; f_of_Z 1000000000; f_of_Z 1000000000].
  destruct (f_of_Z_exact 999999999 ltac:(lia)) as (F1 & R1 & _). destruct (f_of_Z_exact 1000000000 ltac:(lia)) as (F2 & R2 & _).
  split.
  - intros v Hv. rewrite !elem_of_cons in Hv. destruct Hv as [->|[->|[->|Hv]]]; [..|by apply elem_of_nil in Hv];
      (split; [done|]); rewrite ?R1, ?R2; apply Rabs_le; lra.
  - intros v w Hv Hw. rewrite !elem_of_cons in Hv, Hw.
    destruct Hv as [->|[->|[->|Hv]]]; [..|by apply elem_of_nil in Hv];
    (destruct Hw as [->|[->|[->|Hw]]]; [..|by apply elem_of_nil in Hw]); rewrite ?R1, ?R2; apply Rabs_le; lra.
Qed.
