(** C110: how far stats.Meanvar and stats.See can be from the textbook values
    they approximate, for any list of observations. *)
From Verif Require Import Base BaseProofs Float64 Float64Spec Float64Proofs FloatMore FloatRel
  Stat64Spec Stat64FloatSpec Stat64RealSpec Stat64RealProofs StatsUtilModel StatsUtilProofs Stat64ErrProofs StatsErrSpec StatsErrProofs.
From stdpp Require Import sets.
From Coq Require Import Reals Lra.
From Flocq Require Import Core.
Notation float := Float64.float.
Open Scope R_scope.

Lemma pw400 : pw 400 = 2 ^ 400. Proof. change 400%Z with (Z.of_nat 400). apply bpow_pow. Qed.
Lemma pw450 : pw 450 = 2 ^ 450. Proof. change 450%Z with (Z.of_nat 450). apply bpow_pow. Qed.
Lemma pwm450 : pw (-450) = / 2 ^ 450. Proof. change (-450)%Z with (Z.opp 450). by rewrite bpow_opp, pw450. Qed.
Lemma eta_val : eta = / 2 ^ 1075.
Proof. unfold eta. change (-1075)%Z with (Z.opp 1075). rewrite bpow_opp. change 1075%Z with (Z.of_nat 1075). by rewrite bpow_pow. Qed.
Lemma pwm1070 : pw (-1070) = / 2 ^ 1070.
Proof. change (-1070)%Z with (Z.opp 1070). rewrite bpow_opp. change 1070%Z with (Z.of_nat 1070). by rewrite bpow_pow. Qed.
Lemma Rdev2_split m xs : xs ≠ [] → Rdev2 m xs / INR (length xs) = Rpopvar xs + (m - Rmean xs) * (m - Rmean xs).
Proof.
  intros H. assert (HI : 1 <= INR (length xs)). { destruct xs; [done|]. cbn [length]. rewrite S_INR. pose proof (pos_INR (length xs)). lra. }
  unfold Rpopvar. rewrite (Rdev2_shift (Rmean xs) m xs). unfold Rmean. field. lra.
Qed.

(** Two observations or more, finite and of magnitude at most 2^400: both
    results are finite; the mean is off by n+1 roundings of the mean magnitude,
    and the second result is the population variance (dividing by n: see C61)
    about the mean returned, up to n+4 roundings. *)
Theorem C110_meanvar_error vs (xs := map f2r vs) (n := length vs) : (2 ≤ n)%nat → (Z.of_nat n ≤ 2 ^ 40)%Z → upto (2 ^ 400) vs →
  ∃ mean var, Stats_Meanvar vs = Ok (mean, var) ∧ ffinite mean = true ∧ ffinite var = true ∧
  Rabs (f2r mean - Rmean xs) <= ((1 + / 2 ^ 53) ^ (n + 1) - 1) * Rmeanabs xs + / 2 ^ 1075 ∧
  (let T := Rpopvar xs + (f2r mean - Rmean xs) * (f2r mean - Rmean xs) in
   Rabs (f2r var - T) <= ((1 + / 2 ^ 53) ^ (n + 4) - 1) * T + / 2 ^ 1070).
Proof.
  intros H2 Hn HU. assert (HM : moderate vs) by (unfold moderate; rewrite pw400; exact HU).
  destruct (mean_moderate vs HM) as (Fm & _ & Em); [lia|]. destruct (var_moderate vs HM) as (Fv & Ev); [lia|].
  eexists _, _. split; [apply Meanvar_many; lia|]. split; [exact Fm|]. split; [exact Fv|].
  rewrite uu_eq, eta_val in Em. rewrite uu_eq, pwm1070 in Ev. unfold uro in *. split.
  - unfold Rmeanabs, xs. rewrite map_length. exact Em.
  - cbv zeta. rewrite <- Rdev2_split; [|unfold xs; destruct vs; [cbn in H2; lia|done]]. unfold xs. rewrite map_length. exact Ev.
Qed.
Print Assumptions C110_meanvar_error.

(** Three observations or more, each equal to the estimate or reasonably far
    from it: the standard error is finite, and off by n+5 roundings at most. *)
Theorem C110_see_error vs e (n := length vs) : (3 ≤ n)%nat → (Z.of_nat n ≤ 2 ^ 40)%Z → ffinite e = true →
  (∀ v, v ∈ vs → ffinite v = true ∧ separated (f2r e) (f2r v)) →
  let T := R_sqrt.sqrt (Rdev2 (f2r e) (map f2r vs) / (INR n - 2)) in
  ffinite (Stats_See vs e) = true ∧ Rabs (f2r (Stats_See vs e) - T) <= ((1 + / 2 ^ 53) ^ (n + 5) - 1) * T.
Proof.
  intros H3 Hn Fe HS. cbv zeta. destruct (See_near vs e H3 Hn Fe) as [F N].
  { intros v Hv. destruct (HS v Hv) as [Fv Hs]. split; [done|]. unfold apart. rewrite pw450, pwm450. exact Hs. }
  split; [done|]. replace (/ 2 ^ 53) with uu by (rewrite uu_eq; done). apply near_abs; [apply sqrt_pos|exact N].
Qed.
Print Assumptions C110_see_error.

(** In plain figures: up to a million observations, the standard error is good
    to nine decimal digits, *)
Lemma million_roundings n : (Z.of_nat n ≤ 1000005)%Z → (1 + / 2 ^ 53) ^ n - 1 <= 2 / 10 ^ 10.
Proof.
  intros Hn. pose proof (up_bern (/ 2 ^ 53) n) as B. assert (Hi : 0 <= INR n <= 1000005). { split; [apply pos_INR|]. rewrite INR_IZR_INZ. apply (IZR_le _ 1000005). lia. }
  set (p := (1 + / 2 ^ 53) ^ n) in *. assert (E : / 2 ^ 53 = / 9007199254740992) by (f_equal; lra). rewrite E in B.
  assert (Hp : p * (1 - INR n * / 9007199254740992) <= 1) by (apply B; lra). nra.
Qed.
Theorem C110_see_million vs e : (3 ≤ length vs ≤ Z.to_nat 1000000)%nat → ffinite e = true →
  (∀ v, v ∈ vs → ffinite v = true ∧ separated (f2r e) (f2r v)) →
  let T := R_sqrt.sqrt (Rdev2 (f2r e) (map f2r vs) / (INR (length vs) - 2)) in
  ffinite (Stats_See vs e) = true ∧ Rabs (f2r (Stats_See vs e) - T) <= 2 / 10 ^ 10 * T.
Proof.
  intros H Fe HS. cbv zeta. destruct (C110_see_error vs e) as [F B]; [lia|lia|done|done|]. split; [done|]. cbv zeta in B. eapply Rle_trans; [exact B|].
  apply Rmult_le_compat_r; [apply sqrt_pos|]. apply million_roundings. lia.
Qed.
Print Assumptions C110_see_million.
(** ... and for numbers up to a thousand the mean is within 3/10^7, and the
    variance within 2/10^10 of the population variance, plus 1/10^12. *)
Theorem C110_meanvar_million vs (xs := map f2r vs) : (2 ≤ length vs ≤ Z.to_nat 1000000)%nat → upto 1000 vs →
  ∃ mean var, Stats_Meanvar vs = Ok (mean, var) ∧ Rabs (f2r mean - Rmean xs) <= 3 / 10 ^ 7 ∧
  Rabs (f2r var - Rpopvar xs) <= 2 / 10 ^ 10 * Rpopvar xs + / 10 ^ 12.
Proof.
  intros H HU. destruct (C110_meanvar_error vs) as (mean & var & E & Fm & Fv & Em & Ev); [lia|lia| |].
  { intros v Hv. destruct (HU v Hv) as [Fv Bv]. split; [done|]. eapply Rle_trans; [exact Bv|].
    apply Rle_trans with (2 ^ 10); [lra|]. apply Rle_pow; [lra|lia]. }
  exists mean, var. split; [exact E|]. fold xs in Em, Ev. cbv zeta in Ev.
  pose proof (million_roundings (length vs + 1) ltac:(lia)) as M1. pose proof (million_roundings (length vs + 4) ltac:(lia)) as M4.
  assert (M10 : 0 <= (1 + / 2 ^ 53) ^ (length vs + 1) - 1). { assert (1 <= (1 + / 2 ^ 53) ^ (length vs + 1)); [|lra]. apply pow_R1_Rle. lra. }
  assert (Hsmall : ∀ k, (100 ≤ k)%nat → 0 < / 2 ^ k <= / 10 ^ 20).
  { intros k Hk. split; [apply Rinv_0_lt_compat, pow_lt; lra|]. apply Rinv_le_contravar; [lra|]. apply Rle_trans with (2 ^ 100); [lra|]. apply Rle_pow; [lra|done]. }
  pose proof (Hsmall 1075%nat ltac:(lia)) as S1. pose proof (Hsmall 1070%nat ltac:(lia)) as S2. clear Hsmall.
  revert Em Ev M1 M4 M10 S1 S2. generalize (/ 2 ^ 1075), (/ 2 ^ 1070), ((1 + / 2 ^ 53) ^ (length vs + 1)), ((1 + / 2 ^ 53) ^ (length vs + 4)).
  intros t1 t2 p1 p4 Em Ev M1 M4 M10 S1 S2.
  assert (HI : 2 <= INR (length vs)) by (apply (le_INR 2); lia).
  assert (HA : 0 <= Rmeanabs xs <= 1000).
  { unfold Rmeanabs. assert (HL : INR (length xs) = INR (length vs)) by (unfold xs; by rewrite map_length). rewrite HL.
    pose proof (Stat64FloatProofs.Rabssum_pos xs). assert (0 < / INR (length vs)) by (apply Rinv_0_lt_compat; lra). split; [apply Rmult_le_pos; lra|].
    apply (Rmult_le_reg_r (INR (length vs))); [lra|]. unfold Rdiv. rewrite Rmult_assoc, Rinv_l, Rmult_1_r by lra. rewrite Rmult_comm. unfold xs. apply Rabssum_bound. intros v Hv. by apply HU. }
  assert (HP : 0 <= Rpopvar xs).
  { unfold Rpopvar. apply Rmult_le_pos; [apply Rdev2_nonneg|]. left. apply Rinv_0_lt_compat. unfold xs. rewrite map_length. lra. }
  assert (Hm : Rabs (f2r mean - Rmean xs) <= 3 / 10 ^ 7) by nra.
  split; [exact Hm|]. set (d := f2r mean - Rmean xs) in *.
  assert (Hdd : 0 <= d * d <= 9 / 10 ^ 14). { split; [apply Rle_0_sqr|]. rewrite <- (abs_sq d). pose proof (Rabs_pos d). nra. }
  set (T := Rpopvar xs + d * d) in *.
  assert (HT : Rabs (f2r var - Rpopvar xs) <= Rabs (f2r var - T) + d * d).
  { replace (f2r var - Rpopvar xs) with ((f2r var - T) + d * d) by (unfold T; ring). eapply Rle_trans; [apply Rabs_triang|]. rewrite (Rabs_pos_eq (d * d)); lra. }
  assert (H4 : (p4 - 1) * T <= 2 / 10 ^ 10 * T) by (apply Rmult_le_compat_r; unfold T; lra). unfold T in H4 at 2. lra.
Qed.
Print Assumptions C110_meanvar_million.

(** Non-vacuity: 1, 2, 3, 6 about 3. *)
Definition c110_vs : list float := map f_of_Z [1; 2; 3; 6]%Z.
Example C110_nonvacuous : (3 ≤ length c110_vs ≤ Z.to_nat 1000000)%nat ∧ upto 1000 c110_vs ∧ ffinite (f_of_Z 3) = true ∧
  (∀ v, v ∈ c110_vs → ffinite v = true ∧ separated (f2r (f_of_Z 3)) (f2r v)).
Proof.
  assert (HZ : ∀ z, (0 <= z <= 6)%Z → ffinite (f_of_Z z) = true ∧ f2r (f_of_Z z) = IZR z).
  { intros z Hz. destruct (f_of_Z_exact z) as (F & R & _); [lia|done]. }
  assert (Hv : ∀ v, v ∈ c110_vs → ∃ z, v = f_of_Z z ∧ (0 <= z <= 6)%Z).
  { intros v Hv. unfold c110_vs in Hv. apply elem_of_list_fmap in Hv as (z & -> & Hz). exists z. split; [done|].
    rewrite !elem_of_cons, elem_of_nil in Hz. lia. }
  split; [unfold c110_vs; rewrite map_length; cbn [length]; lia|]. split; [|split].
  - intros v (z & -> & Hz)%Hv. destruct (HZ z Hz) as [F R]. split; [done|]. rewrite R, Rabs_pos_eq; [apply (IZR_le _ 1000); lia|apply (IZR_le 0); lia].
  - by apply HZ.
  - intros v (z & -> & Hz)%Hv. destruct (HZ z Hz) as [F R]. destruct (HZ 3%Z ltac:(lia)) as [_ R3]. split; [done|]. rewrite R, R3. unfold separated.
    destruct (Z.eq_dec z 3) as [->|Hne]; [by left|right]. rewrite <- minus_IZR, <- abs_IZR.
    assert (HP : 8 <= 2 ^ 450). { apply Rle_trans with (2 ^ 3); [lra|]. apply Rle_pow; [lra|lia]. }
    split.
    + apply Rle_trans with 1; [|apply (IZR_le 1); lia]. rewrite <- Rinv_1. apply Rinv_le_contravar; lra.
    + apply Rle_trans with 8; [apply (IZR_le _ 8); lia|exact HP].
Qed.
