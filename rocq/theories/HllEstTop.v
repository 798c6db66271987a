(** Count in its middle and high ranges. *)
From Verif Require Import Base BaseProofs Float64 Float64Spec Float64Proofs FnvSpec BitbucketModel BitbucketSpec BitbucketProofs HllModel HllSpec HllProofs HllCountModel HllCountSpec
  FloatMore FloatRel RealBounds HllCountLoops HllCountProofs HllCountTop HllCountEst HllEstSpec HllEstArith HllEstSigma HllEstTau HllEstProofs.
From Coq Require Import ZifyBool ZifyNat.
From Coq Require Import Reals Lra.
From Flocq Require Import Core Relative.
Notation float := Float64.float.
Open Scope R_scope.

Lemma div_nonneg a b : 0 <= a → 0 < b → 0 <= a / b.
Proof. intros Ha Hb. apply Rmult_le_pos; [done|]. left. by apply Rinv_0_lt_compat. Qed.
Lemma registers_values c p vs : hll_wf c p → (∀ j, (j < hll_size p)%nat → hreg c j = hll_register p vs (Z.of_nat j)) → registers c p = hll_values p vs.
Proof.
  intros Hc H. apply map_ext_in. intros j [_ Hj]%elem_of_list_In%elem_of_seq. rewrite (register_hreg c p j Hc) by lia. apply H. lia.
Qed.
Lemma values_range p vs r : (4 <= p <= 18)%Z → r ∈ hll_values p vs → (0 <= r <= 65 - p)%Z.
Proof. intros Hp (j & -> & _)%elem_of_list_fmap. by apply register_bound. Qed.
Lemma alpha_tight p : (4 <= p <= 18)%Z → / 2 <= alpha p <= 3 / 4.
Proof.
  intros Hp. split; [apply alpha_af; done|]. unfold alpha. destruct (p =? 4)%Z; [lra|]. destruct (p =? 5)%Z; [lra|]. destruct (p =? 6)%Z; [lra|].
  destruct (p <=? 8)%Z; [|lra]. rewrite pow_nat_pw by lia. pose proof (pw_pos p). pose proof (Rinv_0_lt_compat _ (pw_pos p)).
  apply (Rmult_le_reg_r (1 + 1.079 / pw p)); [unfold Rdiv; nra|]. unfold Rdiv at 1. rewrite Rmult_assoc, Rinv_l; unfold Rdiv; nra.
Qed.
(** the float64 comparison with alpha m / 7 *)
Lemma limit_af p : (4 <= p <= 18)%Z → af (fdiv (fmul (hll_alpha p) (f_of_Z (2 ^ p))) (f_of_Z 7)) (10 * vv) (harmonic_limit p) ∧ / 14 * pw p <= harmonic_limit p <= 3 / 28 * pw p.
Proof.
  intros Hp. pose proof vv_pos as Hv. pose proof vv_val as Ev. destruct (alpha_af p Hp) as [Ha _]. pose proof (alpha_tight p Hp) as Ba.
  assert (16 <= pw p <= pw 18) as Bp by (split; [apply (bpow_le radix2 4); lia|apply bpow_le; lia]).
  change (pw 18) with 262144 in Bp.
  assert (af (f_of_Z (2 ^ p)) 0 (pw p)) as Hm.
  { apply af_iv; [|lra]. rewrite pw_IZR by lia. apply f_of_Z_iv. assert (2 ^ p <= 2 ^ 18)%Z by (apply Z.pow_le_mono_r; lia). lia. }
  assert (af (f_of_Z 7) 0 7) as H7 by (apply af_iv; [apply f_of_Z_iv; lia|lra]).
  assert (∀ a, / 16 <= a <= pw 40 → sz a) as Hsz.
  { intros a Haa. right. pose proof (bpow_le radix2 (-900) (-4) ltac:(lia)). pose proof (bpow_le radix2 40 900 ltac:(lia)). change (pw (-4)) with (/ 16) in *. lra. }
  change (pw 40) with 1099511627776 in Hsz.
  assert (8 <= alpha p * pw p <= 262144) as B1 by nra.
  pose proof (af_mul _ _ _ _ _ _ Ha Hm ltac:(apply Hsz; lra) ltac:(rewrite Ev; lra)) as H1.
  pose proof (af_div _ _ _ _ _ _ H1 H7 ltac:(lra) ltac:(apply Hsz; lra) ltac:(rewrite Ev; lra)) as H2.
  unfold harmonic_limit. rewrite pow_nat_pw by lia. split; [eapply af_weaken; [exact H2|lra]|]. nra.
Qed.
Lemma limit_cmp p z H : (4 <= p <= 18)%Z → af z (pw (-34)) H →
  (H <= harmonic_limit p * (1 - / 10 ^ 6) → fle (fdiv (fmul (hll_alpha p) (f_of_Z (2 ^ p))) (f_of_Z 7)) z = false) ∧
  (harmonic_limit p * (1 + / 10 ^ 6) <= H → fle (fdiv (fmul (hll_alpha p) (f_of_Z (2 ^ p))) (f_of_Z 7)) z = true).
Proof.
  intros Hp Hz. destruct (limit_af p Hp) as [Ht Hr]. pose proof (pw_pos p). pose proof vv_val as Ev.
  assert (pw (-34) = / 17179869184) as E34 by done.
  destruct (af_bounds _ _ _ Hz) as [L1 U1]; [rewrite E34; lra|]. destruct (af_bounds _ _ _ Ht) as [L2 U2]; [rewrite Ev; lra|].
  rewrite E34, Ev in *. change (10 ^ 6) with (10 * (10 * (10 * (10 * (10 * (10 * 1)))))). pose proof (proj1 Ht). pose proof (proj1 Hz).
  assert (0 <= H) by apply Hz.
  split; intros Hc; [apply fle_false; [done|done|lra]|]. apply fle_ok; [done|done|lra].
Qed.

(** sum over the values = sum over the histogram *)
Lemma Rsum_seq_S f i k : Rsum_over f (seq i (S k)) = f i + Rsum_over f (seq (S i) k). Proof. done. Qed.
Lemma Rsum_add {A} (f g : A → R) l : Rsum_over (λ x, f x + g x) l = Rsum_over f l + Rsum_over g l.
Proof. unfold Rsum_over. induction l as [|x l IH]; cbn [fold_right]; [lra|]. rewrite IH. lra. Qed.
Lemma Rsum_ext_in {A} (f g : A → R) l : (∀ x, x ∈ l → f x = g x) → Rsum_over f l = Rsum_over g l.
Proof.
  unfold Rsum_over. induction l as [|x l IH]; intros H; [done|]. cbn [fold_right]. rewrite (H x) by left. rewrite IH; [done|]. intros y Hy. apply H. by right.
Qed.
Lemma Rsum_single f n i k : (i ≤ n < i + k)%nat → Rsum_over (λ j, (if decide (n = j) then 1 else 0) * f j) (seq i k) = f n.
Proof.
  revert i. induction k as [|k IH]; intros i Hn; [lia|]. rewrite Rsum_seq_S. destruct (decide (n = i)) as [<-|Hne].
  - rewrite Rmult_1_l. erewrite (Rsum_ext_in _ (λ _, 0)).
    + assert (∀ l : list nat, Rsum_over (λ _, 0) l = 0) as -> by (unfold Rsum_over; induction l; cbn [fold_right]; lra). lra.
    + intros j Hj%elem_of_seq. rewrite decide_False by lia. lra.
  - rewrite IH by lia. lra.
Qed.
Lemma Rsum_hist (w : Z → R) l K : (∀ r, r ∈ l → (0 <= r < Z.of_nat K)%Z) →
  Rsum_over w l = Rsum_over (λ k, IZR (count_eq (Z.of_nat k) l) * w (Z.of_nat k)) (seq 0 K).
Proof.
  induction l as [|x l IH]; intros H.
  - rewrite (Rsum_ext_in (λ k, IZR (count_eq (Z.of_nat k) []) * w (Z.of_nat k)) (λ _, 0)); [|intros k _; change (count_eq (Z.of_nat k) []) with 0%Z; lra].
    assert (∀ l : list nat, Rsum_over (λ _, 0) l = 0) as -> by (unfold Rsum_over; induction l; cbn [fold_right]; lra). done.
  - pose proof (H x ltac:(left)) as Hx. change (Rsum_over w (x :: l)) with (w x + Rsum_over w l). rewrite IH by (intros r Hr; apply H; by right).
    erewrite (Rsum_ext_in (λ k, IZR (count_eq (Z.of_nat k) (x :: l)) * _)).
    2:{ intros k _. rewrite count_eq_cons, plus_IZR, Rmult_plus_distr_r. reflexivity. }
    rewrite Rsum_add. f_equal. rewrite <- (Z2Nat.id x) at 1 by lia.
    rewrite <- (Rsum_single (λ k, w (Z.of_nat k)) (Z.to_nat x) 0 K) by lia. apply Rsum_ext_in. intros j _.
    destruct (decide (Z.to_nat x = j)); [rewrite decide_True by lia|rewrite decide_False by lia]; done.
Qed.
(** Ertl's indicator is at least the half-weight sum without the saturated registers *)
Lemma tau_nonneg x t : 0 <= x <= 1 → is_tau x t → 0 <= t.
Proof. intros Hx Ht. apply (tau_bounds x t 0 Hx Ht). Qed.
Lemma ertl_ge p vs z : (4 <= p <= 18)%Z → is_ertl p (hll_values p vs) z →
  Rsum_over half_weight (hll_values p vs) - pw p * pw (-47) <= z.
Proof.
  intros Hp (s & t & Hs & Ht & ->). set (l := hll_values p vs) in *. pose proof (values_range p vs) as Hr. fold l in Hr.
  assert (Z.of_nat (length l) = 2 ^ p)%Z as Hlen by (unfold l, hll_values; rewrite fmap_length, seq_length; by apply hll_size_Z).
  assert (∀ v, 0 <= IZR (count_eq v l) <= pw p) as Hc.
  { intros v. rewrite pw_IZR by lia. pose proof (count_eq_bound v l). split; apply IZR_le; lia. }
  rewrite pow_nat_pw in * by lia. pose proof (pw_pos p) as Hpp.
  assert (∀ v, 0 <= IZR (count_eq v l) / pw p <= 1) as Hq.
  { intros v. specialize (Hc v). split; [apply div_nonneg; lra|]. apply (Rmult_le_reg_r (pw p)); [done|]. unfold Rdiv. rewrite Rmult_assoc, Rinv_l; lra. }
  pose proof (sigma_nonneg _ _ (Hq 0%Z) Hs) as Hs'. assert (0 <= t) as Ht' by (eapply tau_nonneg; [|exact Ht]; specialize (Hq (65 - p)%Z); lra).
  assert (IZR (count_eq 0 l) <= pw p * s) as H1.
  { apply (Rmult_le_compat_l (pw p)) in Hs'; [|lra]. replace (pw p * (IZR (count_eq 0 l) / pw p)) with (IZR (count_eq 0 l)) in Hs' by (field; lra). done. }
  assert (0 <= pw p * t / 2 ^ Z.to_nat (64 - p)) as H2 by (apply div_nonneg; [nra|apply pow_lt; lra]).
  rewrite (Rsum_hist half_weight l (S (Z.to_nat (64 - p) + 1))) by (intros r Hin; specialize (Hr r Hp Hin); lia).
  rewrite Rsum_seq_S, seq_app, Rsum_app. change (half_weight (Z.of_nat 0)) with (1 / 2). change (Z.of_nat 0) with 0%Z.
  pose proof (Hc 0%Z) as H0.
  assert (Rsum_over (λ k, IZR (count_eq (Z.of_nat k) l) * half_weight (Z.of_nat k)) (seq 1 (Z.to_nat (64 - p))) =
          Rsum_over (λ k, IZR (count_eq (Z.of_nat k) l) / 2 ^ k) (seq 1 (Z.to_nat (64 - p)))) as ->.
  { apply Rsum_ext_in. intros k Hk%elem_of_seq. unfold half_weight, flajolet_weight. rewrite (proj2 (Z.eqb_neq _ _)) by lia. rewrite Nat2Z.id. done. }
  assert (Rsum_over (λ k, IZR (count_eq (Z.of_nat k) l) * half_weight (Z.of_nat k)) (seq (1 + Z.to_nat (64 - p)) 1) <= pw p * pw (-47)) as H3.
  { cbn [seq]. unfold Rsum_over. cbn [fold_right]. rewrite Rplus_0_r. unfold half_weight, flajolet_weight. rewrite (proj2 (Z.eqb_neq _ _)) by lia.
    rewrite Nat2Z.id, pow_pw, <- bpow_opp. pose proof (Hc (Z.of_nat (1 + Z.to_nat (64 - p)))) as Hk.
    apply Rmult_le_compat; [lra|apply bpow_ge_0|lra|apply bpow_le; lia]. }
  lra.
Qed.

Lemma half_sum_values c p vs : registers c p = hll_values p vs → half_sum c p = Rsum_over half_weight (hll_values p vs).
Proof. intros E. unfold half_sum. by rewrite E. Qed.
Lemma half_ge_empty c p : hll_wf c p → / 2 * IZR (empty_registers c p) <= half_sum c p.
Proof.
  intros Hc. unfold half_sum, empty_registers. generalize (registers c p). intros l. unfold Rsum_over. induction l as [|x l IH]; [change (count_eq 0 []) with 0%Z; cbn [fold_right]; lra|].
  rewrite count_eq_cons, plus_IZR. cbn [fold_right]. unfold half_weight at 1, flajolet_weight. destruct (decide (x = 0%Z)) as [->|Hx].
  - change (0 =? 0)%Z with true. cbv iota. lra.
  - rewrite (proj2 (Z.eqb_neq _ _)) by done. pose proof (half_pow (Z.to_nat x)). lra.
Qed.

Section log.
  Context (glog : float → float) (Hlog : log_ok glog).
  Lemma lin_beyond p v : (4 <= p <= 18)%Z → (1 <= v <= 2 ^ p)%Z → IZR (linear_limit p) < linear_counting p v - pw (-27) →
    fle (linear_estimate glog (2 ^ p) v) (hll_threshold p) = false.
  Proof.
    intros Hp Hv Hl. rewrite (lin_le glog Hlog p v Hp Hv). apply Z.leb_gt, lt_IZR. destruct (lin_n_range glog Hlog p v Hp Hv) as [_ H]. lra.
  Qed.
  Lemma quarter_beyond p v : (4 <= p <= 18)%Z → (1 <= v)%Z → (4 * v <= 2 ^ p)%Z → IZR (linear_limit p) < linear_counting p v - pw (-27).
  Proof.
    intros Hp Hv Hq. unfold linear_counting.
    assert (IZR (2 ^ p) * (2 * ln 2) <= IZR (2 ^ p) * ln (IZR (2 ^ p) / IZR v)) as H1.
    { apply Rmult_le_compat_l; [apply IZR_le; lia|]. replace (2 * ln 2) with (ln 4) by (replace 4 with (2 * 2) by lra; rewrite ln_mult by lra; lra).
      assert (4 <= IZR (2 ^ p) / IZR v) as H4.
      { assert (1 <= IZR v) by (apply (IZR_le 1); lia). apply (Rmult_le_reg_r (IZR v)); [lra|]. unfold Rdiv. rewrite Rmult_assoc, Rinv_l, Rmult_1_r by lra.
        rewrite <- mult_IZR. apply IZR_le. lia. }
      destruct (Rle_lt_or_eq_dec _ _ H4) as [H5|H5]; [left; apply ln_increasing; lra|rewrite H5; lra]. }
    pose proof ln2_lower as Hln. change (2 ^ 53)%Z with 9007199254740992%Z in Hln.
    assert (pw (-27) <= / 100000) as H27 by (change (pw (-27)) with (/ 134217728); lra).
    assert (1000 * linear_limit p + 1 <= 1386 * 2 ^ p)%Z as H2.
    { assert ((1000 * linear_limit p + 1 <=? 1386 * 2 ^ p)%Z = true) as H; [|lia]. clear H1 Hq. each_p p Hp. }
    apply IZR_le in H2. rewrite plus_IZR, !mult_IZR in H2. assert (16 <= IZR (2 ^ p)) as H16.
    { apply (IZR_le 16). assert (2 ^ 4 <= 2 ^ p)%Z by (apply Z.pow_le_mono_r; lia). lia. }
    assert (IZR (2 ^ p) * 1.386 <= IZR (2 ^ p) * (2 * ln 2)) by (apply Rmult_le_compat_l; lra). lra.
  Qed.
  Lemma Count_high p vs : (4 <= p <= 18)%Z → Forall is_bytes vs → let H := Rsum_over half_weight (hll_values p vs) in
    H <= harmonic_limit p * (1 - / 10 ^ 6) → estimate p H <= 2 ^ 61 →
    ∃ n, Count_after glog p vs n ∧ rounded_up n (estimate p H).
  Proof.
    intros Hp Hvs H HH He. destruct (New_Adds_hit p vs Hp Hvs) as (c0 & c & E0 & E & Hc & _ & Hreg).
    pose proof (registers_values c p vs Hc Hreg) as Er. pose proof (half_sum_values c p vs Er) as Eh. fold H in Eh.
    destruct (harmonic_ok c p Hc) as (z & Ez & _). pose proof (harmonic_err c p z Hc Ez) as Hz. rewrite Eh in Hz.
    exists (hll_normalize p z). pose proof Hc as (_ & Hcp & _). split.
    - exists c0, c. split; [done|]. split; [done|]. exists O. intros fuel _. unfold Hll_Count.
      rewrite Hcp, (hll_m_eq p Hp), (CountN_empty c p Hc). cbn [obind]. pose proof (empty_range c p Hc) as Hv.
      destruct (Z.ltb_spec 0 (empty_registers c p)) as [Hpos|Hpos].
      + rewrite (lin_beyond p (empty_registers c p)); [|done|lia|].
        * cbn [andb]. rewrite Ez. cbn [obind]. rewrite (proj1 (limit_cmp p z H Hp Hz) HH). done.
        * apply quarter_beyond; [done|lia|]. pose proof (half_ge_empty c p Hc) as Hh. rewrite Eh in Hh.
          destruct (limit_af p Hp) as [_ Hl]. pose proof (pw_pos p). apply le_IZR. rewrite mult_IZR, <- pw_IZR by lia.
          change (10 ^ 6) with (10 * (10 * (10 * (10 * (10 * (10 * 1)))))) in HH. lra.
      + cbn [andb]. rewrite Ez. cbn [obind]. rewrite (proj1 (limit_cmp p z H Hp Hz) HH). done.
    - pose proof (half_sum_range c p Hc) as [H1 H2]. rewrite Eh in *. pose proof (pw_pos (-63)). pose proof (bpow_le radix2 18 100 ltac:(lia)).
      eapply normalize_err; [done|exact Hz| |lra|done]. split; [apply bpow_ge_0|]. change (pw (-34)) with (/ 17179869184). lra.
  Qed.
  Lemma ertl_middle p vs z : (4 <= p <= 18)%Z → harmonic_limit p * (1 + / 10 ^ 6) <= Rsum_over half_weight (hll_values p vs) →
    is_ertl p (hll_values p vs) z → 0 < z ∧ estimate p z <= 8 * 2 ^ Z.to_nat p.
  Proof.
    intros Hp HH HZ. pose proof (ertl_ge p vs z Hp HZ) as Hz. destruct (limit_af p Hp) as [_ Hl]. pose proof (pw_pos p) as Hpp.
    change (10 ^ 6) with (10 * (10 * (10 * (10 * (10 * (10 * 1)))))) in HH. change (pw (-47)) with (/ 140737488355328) in Hz.
    assert (harmonic_limit p <= z) as H1 by lra. split; [lra|].
    unfold estimate, harmonic_limit in *. rewrite pow_nat_pw in * by lia. pose proof (alpha_tight p Hp) as Ba.
    apply (Rmult_le_reg_r z); [lra|]. unfold Rdiv. rewrite (Rmult_assoc _ (/ z)), Rinv_l, Rmult_1_r by lra. nra.
  Qed.
  Lemma Count_middle p vs : (4 <= p <= 18)%Z → Forall is_bytes vs → harmonic_limit p * (1 + / 10 ^ 6) <= Rsum_over half_weight (hll_values p vs) →
    buckets_hit p vs = (2 ^ p)%Z ∨ IZR (linear_limit p) + / 2 ^ 27 < linear_counting p (2 ^ p - buckets_hit p vs) →
    ∃ n z, is_ertl p (hll_values p vs) z ∧ Count_after glog p vs n ∧ rounded_up n (estimate p z).
  Proof.
    intros Hp Hvs HH Hlin. destruct (New_Adds_hit p vs Hp Hvs) as (c0 & c & E0 & E & Hc & Eb & Hreg).
    pose proof (registers_values c p vs Hc Hreg) as Er. pose proof (half_sum_values c p vs Er) as Eh.
    assert (/ 2 ^ 27 = pw (-27)) as E27. { change (-27)%Z with (Z.opp 27). rewrite bpow_opp. f_equal. symmetry. exact (bpow_pow 27). }
    rewrite E27 in Hlin. pose proof (empty_range c p Hc) as Hv.
    assert (empty_registers c p < 2 ^ p)%Z as Hlt.
    { destruct Hlin as [Hb|Hl]; [assert (0 < 2 ^ p)%Z by (apply Z.pow_pos_nonneg; lia); lia|]. destruct (Z.eq_dec (buckets_hit p vs) 0) as [E0'|]; [|lia]. rewrite E0' in Hl. exfalso.
      unfold linear_counting in Hl. rewrite Z.sub_0_r in Hl. rewrite <- pw_IZR in Hl by lia. pose proof (pw_pos p). unfold Rdiv in Hl. rewrite Rinv_r, ln_1 in Hl by lra.
      pose proof (limit_bound p Hp) as [Hlb _]. apply IZR_le in Hlb. pose proof (pw_pos (-27)). lra. }
    destruct (ertl_exists p (hll_values p vs) Hp) as [Z0 HZ].
    { rewrite <- Er. fold (empty_registers c p). lia. }
    { pose proof (count_eq_bound (65 - p) (hll_values p vs)) as Hcb. unfold hll_values at 3 in Hcb. rewrite fmap_length, seq_length, hll_size_Z in Hcb by done. done. }
    destruct (harmonic_ok c p Hc) as (z & Ez & _). pose proof (harmonic_err c p z Hc Ez) as Hz. rewrite Eh in Hz.
    destruct (poisson_ok c p Hc) as (z' & Ez' & _). pose proof (ertl_middle p vs Z0 Hp HH HZ) as [Zp He].
    exists (hll_normalize p z'), Z0. split; [done|]. pose proof Hc as (_ & Hcp & _). split.
    - exists c0, c. split; [done|]. split; [done|]. exists 100%nat. intros fuel Hf. unfold Hll_Count.
      rewrite Hcp, (hll_m_eq p Hp), (CountN_empty c p Hc). cbn [obind].
      assert (((0 <? empty_registers c p)%Z && fle (linear_estimate glog (2 ^ p) (empty_registers c p)) (hll_threshold p)) = false) as ->.
      { destruct (Z.ltb_spec 0 (empty_registers c p)) as [Hpos|Hpos]; [|done]. cbn [andb]. apply lin_beyond; [done|lia|]. rewrite Eb in *. destruct Hlin as [Hb|Hl]; [lia|lra]. }
      rewrite Ez. cbn [obind]. rewrite (proj2 (limit_cmp p z _ Hp Hz) HH), Ez' by done. done.
    - destruct (poisson_err c p z' Z0 100 Hc ltac:(lia) Hlt ltac:(by rewrite Er) (Ez' 100%nat ltac:(lia))) as [Ha Hb].
      eapply normalize_err; [done|exact Ha|lra|lra|]. eapply Rle_trans; [exact He|]. rewrite pow_nat_pw by lia.
      pose proof (bpow_le radix2 p 18 ltac:(lia)) as H18. change (pw 18) with 262144 in H18. assert (2 ^ 61 = pw 61) as -> by (symmetry; exact (bpow_pow 61)). change (pw 61) with 2305843009213693952. lra.
  Qed.
End log.
