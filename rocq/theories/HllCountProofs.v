From Verif Require Import Base BaseProofs Float64 Float64Spec Float64Proofs BitbucketModel BitbucketSpec BitbucketProofs HllModel HllSpec HllProofs HllCountModel HllCountSpec FloatMore HllCountLoops.
From Coq Require Import ZifyBool ZifyNat.
From Coq Require Import Reals Lra.
From Flocq Require Import Core.
Notation float := Float64.float.
Open Scope R_scope.

Lemma hll_m_eq p : (4 <= p <= 18)%Z → hll_m p = (2 ^ p)%Z.
Proof.
  apply (p_cases (λ p, hll_m p = (2 ^ p)%Z)). clear p. intros p H.
  repeat (apply elem_of_cons in H as [->|H]; [vm_compute; reflexivity|]). by apply elem_of_nil in H.
Qed.
Lemma register_hreg c p j : hll_wf c p → (j < hll_size p)%nat → register c j = hreg c j.
Proof. intros (_ & _ & _ & Hwf & _) Hj. unfold register. by rewrite (Get_Ok _ _ _ Hwf Hj). Qed.
Lemma registers_bvals c p : hll_wf c p → registers c p = bvals (hc_bits c) (hll_size p).
Proof.
  intros Hc. unfold registers, bvals. apply map_ext_in. intros j Hj%in_seq. apply (register_hreg c p); [done|lia].
Qed.
Lemma hreg_range c p j : hll_wf c p → (j < hll_size p)%nat → (0 <= hreg c j <= 63)%Z.
Proof. intros (_ & _ & _ & Hwf & Hw) Hj. pose proof (bval_range _ _ j Hwf Hj) as H. rewrite Hw in H. exact H. Qed.

(** ** harmonic *)
Lemma delta_iv r : (0 <= r <= 63)%Z → iv (fdiv f_one (f_of_Z (shl64 1 r))) (pw (- r)) (pw (- r)).
Proof.
  intros Hr. assert (shl64 1 r = 2 ^ r)%Z as ->.
  { unfold shl64, u64. rewrite Z.shiftl_1_l. apply Z.mod_small. split; [lia|]. apply Z.pow_lt_mono_r; lia. }
  assert (iv (f_of_Z (2 ^ r)) (pw r) (pw r)) as H.
  { destruct (f_of_Z_ok (2 ^ r)) as (F & E & _).
    - apply IZR_maxfloat. assert (0 < 2 ^ r)%Z by lia. assert (2 ^ r <= 2 ^ 1000)%Z by (apply Z.pow_le_mono_r; lia). lia.
    - rewrite <- pw_IZR, rnd_fmt in E by (lia || apply fmt_pw; lia). split; [done|]. lra. }
  assert (pw (- r) * pw r = 1) as E by (rewrite <- bpow_plus; replace (- r + r)%Z with 0%Z by lia; done).
  eapply (fdiv_iv _ _ _ _ _ _ _ _ 0); [exact f_one_iv|exact H|lra|apply pw_pos|apply fmt_pw; lia|lra|apply bpow_ge_0|apply fmt_pw; lia|lra|lia|apply bpow_le; lia].
Qed.
(** what a register adds to the indicator *)
Definition weight (r : Z) : R := pw (- Z.max 1 r).
Lemma weight_le r : 0 < weight r <= / 2.
Proof. unfold weight. split; [apply pw_pos|]. change (/ 2) with (pw (-1)). apply bpow_le. lia. Qed.
Lemma harmonic_loop_ok c p : hll_wf c p → ∀ k i z lo, (i + k = hll_size p)%nat → iv z lo (IZR (Z.of_nat i)) → 0 <= lo → fmt lo →
  ∃ z', harmonic_loop c k (Z.of_nat i) z = Ok z' ∧ iv z' lo (IZR (2 ^ p)) ∧
    ∀ j, (i ≤ j < hll_size p)%nat → weight (hreg c j) <= f2r z'.
Proof.
  intros Hc. pose proof Hc as (Hp & _ & _ & Hwf & _). pose proof (hll_size_Z p Hp) as Hs.
  assert (2 ^ p <= 2 ^ 18)%Z as Hp18 by (apply Z.pow_le_mono_r; lia).
  induction k as [|k IH]; intros i z lo Hi Hz Hlo Flo; cbn [harmonic_loop].
  - exists z. split; [done|]. replace (Z.of_nat i) with (2 ^ p)%Z in Hz by lia. split; [done|]. intros j Hj. lia.
  - rewrite (Get_Ok _ _ i Hwf) by lia. cbn [obind]. pose proof (hreg_range c p i Hc ltac:(lia)) as Hr. unfold hreg in Hr.
    set (r := bval (hc_bits c) i) in *.
    assert (∃ d, iv d (weight r) (weight r) ∧ (if (r =? 0)%Z then harmonic_loop c k (Z.of_nat i + 1) (fadd z f_half) else
       harmonic_loop c k (Z.of_nat i + 1) (fadd z (fdiv f_one (f_of_Z (shl64 1 r))))) = harmonic_loop c k (Z.of_nat i + 1) (fadd z d)) as (d & Hd & ->).
    { destruct (r =? 0)%Z eqn:E0.
      - exists f_half. split; [|done]. assert (weight r = / 2) as ->; [|exact f_half_iv]. unfold weight. replace (Z.max 1 r) with 1%Z by lia. done.
      - eexists. split; [|reflexivity]. unfold weight. replace (Z.max 1 r) with r by lia. apply delta_iv. lia. }
    pose proof (weight_le r) as [W1 W2].
    assert (iv (fadd z d) (Rmax lo (weight r)) (IZR (Z.of_nat i + 1))) as Hz'.
    { eapply (fadd_iv _ _ _ _ _ _ _ _ 53); [exact Hz|exact Hd|lra|lra| | |apply fmt_IZR; lia|rewrite plus_IZR; lra|lia|].
      - unfold Rmax. destruct (Rle_dec _ _); [|done]. apply fmt_pw. lia.
      - unfold Rmax. destruct (Rle_dec _ _); lra.
      - rewrite pw_IZR by lia. apply IZR_le. lia. }
    replace (Z.of_nat i + 1)%Z with (Z.of_nat (S i)) in * by lia.
    destruct (IH (S i) (fadd z d) (Rmax lo (weight r))) as (z' & E & Hz2 & Hj); [lia|done| | |].
    { apply (Rle_trans _ lo); [done|apply Rmax_l]. }
    { unfold Rmax. destruct (Rle_dec _ _); [apply fmt_pw; lia|done]. }
    exists z'. split; [done|]. split; [eapply iv_weaken; [exact Hz2|apply Rmax_l|lra]|].
    intros j Hji. destruct (decide (j = i)) as [->|]; [|apply Hj; lia].
    destruct Hz2 as [_ [Hz2 _]]. pose proof (Rmax_r lo (weight r)). unfold hreg. fold r. lra.
Qed.
Lemma harmonic_ok c p : hll_wf c p → ∃ z, Hll_harmonic c (2 ^ p) = Ok z ∧ iv z 0 (IZR (2 ^ p)) ∧
  ∀ j, (j < hll_size p)%nat → weight (hreg c j) <= f2r z.
Proof.
  intros Hc. pose proof Hc as (Hp & _). unfold Hll_harmonic. destruct f_zero_ok as (Fz & Ez & _).
  destruct (harmonic_loop_ok c p Hc (hll_size p) 0 f_zero 0) as (z & E & H1 & H2); [lia| |lra|apply generic_format_0|].
  { split; [done|]. change (IZR (Z.of_nat 0)) with 0. lra. }
  exists z. split; [exact E|]. split; [done|]. intros j Hj. apply H2. lia.
Qed.

(** ** poisson *)
Lemma fold_hist_ok cn k z e : length cn = 64%nat → (∀ r, (1 ≤ r ≤ k)%nat → ∃ x, cn !! r = Some x ∧ (0 <= x <= 2 ^ 18)%Z) → (k < 64)%nat →
  iv z 0 (pw 40) → ∃ z', fold_hist cn k z = Ok z' ∧ iv z' 0 (pw 40) ∧
    (pw e <= f2r z → (-900 + Z.of_nat k <= e)%Z → pw (e - Z.of_nat k) <= f2r z') ∧
    ∀ r x, (1 ≤ r ≤ k)%nat → cn !! r = Some x → (1 <= x)%Z → pw (- Z.of_nat r) <= f2r z'.
Proof.
  intros Hl. revert z e. induction k as [|k IH]; intros z e Hcn Hk Hz; cbn [fold_hist].
  - exists z. split; [done|]. split; [done|]. split; [intros H _; by rewrite Z.sub_0_r|]. intros r x Hr. lia.
  - destruct (Hcn (S k)) as (x & Hx & Bx); [lia|]. rewrite (index_lookup cn (Z.of_nat (S k)) x) by (done || lia || (rewrite Nat2Z.id; done)). cbn [obind].
    assert (0 <= IZR x <= pw 18) as Bx'. { rewrite pw_IZR by lia. split; apply IZR_le; lia. }
    assert (pw 18 <= pw 40) by (apply bpow_le; lia). assert (pw 41 = 2 * pw 40) as E41 by apply (pw_S 40).
    assert (pw 40 <= pw 41) by (apply bpow_le; lia).
    pose proof (f_of_Z_iv x ltac:(lia)) as Hfx.
    (* z1 is at least half of any representable lower bound of z, or of x *)
    assert (∀ lo, fmt lo → 0 <= lo → lo <= f2r z + IZR x → fmt (/ 2 * lo) → iv (fmul f_half (fadd z (f_of_Z x))) (/ 2 * lo) (pw 40)) as Hstep.
    { intros lo Flo Hl0 Hl1 Fhalf. destruct Hz as [Fz Hz].
      assert (iv (fadd z (f_of_Z x)) lo (pw 41)) as Ha.
      { eapply (fadd_iv _ _ (f2r z) (pw 40) (IZR x) (pw 18) _ _ 41); [split; [done|lra]|eapply iv_weaken; [exact Hfx|lra|lra]|lra|lra|done|lra|apply fmt_pw; lia|lra|lia|lra]. }
      eapply (fmul_iv _ _ _ _ _ _ _ _ 40); [exact f_half_iv|exact Ha|lra|lra|done|lra|apply fmt_pw; lia|lra|lia|lra]. }
    assert (∀ e, (-1000 <= e)%Z → fmt (/ 2 * pw e)) as Fh.
    { intros e' He'. rewrite (pw_P e'). replace (/ 2 * (2 * pw (e' - 1))) with (pw (e' - 1)) by lra. apply fmt_pw. lia. }
    assert (iv (fmul f_half (fadd z (f_of_Z x))) 0 (pw 40)) as Hz1.
    { replace 0 with (/ 2 * 0) by lra. apply Hstep; [apply generic_format_0|lra|destruct Hz; lra|]. rewrite Rmult_0_r. apply generic_format_0. }
    destruct (IH (fmul f_half (fadd z (f_of_Z x))) (e - 1)%Z) as (z' & E & Hz' & Hk1 & Hk2); [intros r Hr; apply Hcn; lia|lia|done|].
    destruct (IH (fmul f_half (fadd z (f_of_Z x))) (-1)%Z) as (z'' & E' & _ & Hk3 & _); [intros r Hr; apply Hcn; lia|lia|done|].
    assert (z'' = z') by congruence. subst z''.
    exists z'. split; [done|]. split; [done|]. split.
    + intros He He2. replace (e - Z.of_nat (S k))%Z with (e - 1 - Z.of_nat k)%Z by lia.
      assert (iv (fmul f_half (fadd z (f_of_Z x))) (/ 2 * pw e) (pw 40)) as [_ [Hlo _]].
      { apply Hstep; [apply fmt_pw; lia|apply bpow_ge_0|lra|apply Fh; lia]. }
      apply Hk1; [|lia]. rewrite (pw_P e) in Hlo. lra.
    + intros r y Hr Hy Hy1. destruct (decide (r = S k)) as [->|].
      * assert (y = x) by congruence. subst y.
        replace (- Z.of_nat (S k))%Z with (-1 - Z.of_nat k)%Z by lia. apply Hk3; [|lia].
        assert (iv (fmul f_half (fadd z (f_of_Z x))) (/ 2 * pw 0) (pw 40)) as [_ [Hlo _]].
        { apply Hstep; [apply fmt_pw; lia|apply bpow_ge_0| |apply Fh; lia]. change (pw 0) with 1. destruct Hz as [_ Hz]. apply IZR_le in Hy1. lra. }
        change (pw 0) with 1 in Hlo. change (pw (-1)) with (/ 2). lra.
      * apply (Hk2 r y); [lia|done|done].
Qed.
