From Verif Require Import Base BaseProofs Float64 Float64Spec Float64Proofs FloatMore FloatRel RealBounds BitbucketModel BitbucketSpec BitbucketProofs BloomModel BloomSpec BloomProofs HllCountModel HllCountLoops HllCountTop BloomSizeModel BloomSizeSpec BloomSizeReal BloomSizeProofs.
From Coq Require Import Reals Lra ZifyBool ZifyNat.
From Flocq Require Import Core Relative.
Notation float := Float64.float.
Open Scope R_scope.

Lemma set_bits_eq b m k : bloom_wf b m k → set_bits b m = count_eq 1 (bvals (bl_bits b) m).
Proof.
  intros (Hw & _). unfold set_bits, bvals. f_equal. apply map_ext_in. intros i Hi. apply in_seq in Hi.
  rewrite (Get_Ok _ _ i Hw) by lia. done.
Qed.
Lemma CountN_set b m k : bloom_wf b m k → BB_CountN (bl_bits b) 1 = Ok (set_bits b m).
Proof. intros H. rewrite (set_bits_eq _ _ _ H). destruct H as (Hw & _). by apply CountN_Ok. Qed.
Lemma set_bits_range b m k : bloom_wf b m k → (0 <= set_bits b m <= Z.of_nat m)%Z.
Proof. intros H. rewrite (set_bits_eq _ _ _ H). pose proof (count_eq_bound 1 (bvals (bl_bits b) m)) as HB. rewrite bvals_length in HB. done. Qed.

(** absolute rounding error of values up to 2^e *)
Lemma rnd_abs r e : (-1000 <= e <= 1000)%Z → Rabs r <= pw e → Rabs (rnd r - r) <= pw (e - 53).
Proof.
  intros He Hr. eapply Rle_trans; [apply error_le_half_ulp; apply valid64|].
  apply (Rle_trans _ (/ 2 * ulp radix2 fexp64 (pw e))).
  - apply Rmult_le_compat_l; [lra|]. apply ulp_le; [apply valid64|apply FLT_exp_monotone|]. rewrite (Rabs_pos_eq (pw e)) by apply bpow_ge_0. done.
  - rewrite ulp_bpow. replace (fexp64 (e + 1)) with (e - 52)%Z by (unfold fexp64, FLT_exp; lia).
    rewrite (pw_P (e - 52)). replace (e - 52 - 1)%Z with (e - 53)%Z by lia. lra.
Qed.
(** 1 - x/m as computed *)
Lemma empty_frac x m : (0 <= x <= m)%Z → (1 <= m <= 2 ^ 53)%Z →
  let t := fsub f_one (fdiv (f_of_Z x) (f_of_Z m)) in
  ffinite t = true ∧ 0 <= f2r t <= 1 ∧ Rabs (f2r t - (1 - IZR x / IZR m)) <= pw (-52) ∧
  (x = 0%Z → f2r t = 1) ∧ (x = m → f2r t = 0).
Proof.
  intros Hx Hm t. assert (1 <= IZR m) as Hm1 by (apply (IZR_le 1); lia).
  assert (0 <= IZR x <= IZR m) as Hx1 by (split; apply IZR_le; lia).
  assert (0 <= IZR x / IZR m <= 1) as Hq.
  { split; [apply Rmult_le_pos; [lra|left; apply Rinv_0_lt_compat; lra]|]. apply (Rmult_le_reg_r (IZR m)); [lra|]. unfold Rdiv. rewrite Rmult_assoc, Rinv_l by lra. lra. }
  pose proof (f_of_Z_iv x ltac:(lia)) as Hq1. pose proof (f_of_Z_iv m ltac:(lia)) as Hq2.
  destruct (fdiv_ok (f_of_Z x) (f_of_Z m)) as [F E]; [apply Hq1|rewrite (iv_eq _ _ Hq2); lra|rewrite (iv_eq _ _ Hq1), (iv_eq _ _ Hq2); apply (abs_max _ 0); [lia|done]|].
  rewrite (iv_eq _ _ Hq1), (iv_eq _ _ Hq2) in E. set (d := fdiv (f_of_Z x) (f_of_Z m)) in *.
  assert (0 <= f2r d <= 1) as Hd. { rewrite E. split; [apply rnd_nonneg; lra|apply rnd_le'; [apply fmt1|lra]]. }
  pose proof (rnd_abs (IZR x / IZR m) 0 ltac:(lia)) as HA. rewrite <- E in HA. change (pw 0) with 1 in HA. rewrite Rabs_pos_eq in HA by lra. specialize (HA ltac:(lra)).
  pose proof f_one_iv as H1. 
  destruct (fsub_ok f_one d) as (Ft & Et); [apply H1|done|rewrite (iv_eq _ _ H1); apply (abs_max _ 0); [lia|change (pw 0) with 1; lra]|].
  rewrite (iv_eq _ _ H1) in Et. fold t in Ft, Et. split; [done|].
  pose proof (rnd_abs (1 - f2r d) 0 ltac:(lia)) as HB. rewrite <- Et in HB. change (pw 0) with 1 in HB. rewrite Rabs_pos_eq in HB by lra. specialize (HB ltac:(lra)).
  change (0 - 53)%Z with (-53)%Z in *. split_and!.
  - rewrite Et. apply rnd_nonneg. lra.
  - rewrite Et. apply rnd_le'; [apply fmt1|lra].
  - rewrite (pw_P (-52)). change (-52 - 1)%Z with (-53)%Z. apply Rabs_le_inv in HA, HB. apply Rabs_le. lra.
  - intros ->. rewrite Et, E. unfold Rdiv. rewrite Rmult_0_l, rnd_0, Rminus_0_r. apply rnd_fmt, fmt1.
  - intros ->. rewrite Et, E. unfold Rdiv. rewrite Rinv_r by lra. rewrite (rnd_fmt 1 fmt1), Rminus_eq_0. apply rnd_0.
Qed.
Lemma fneg_ok x : ffinite x = true → ffinite (fneg x) = true ∧ f2r (fneg x) = - f2r x.
Proof. intros F. destruct (rel_fneg x (f2r x) 0 (rel_exact x F)) as (F' & d & Hd & E). split; [done|]. apply Rabs_le_inv in Hd. replace d with 0 in E by lra. lra. Qed.

(** infinities *)
Notation pinf := (Binary.B754_infinity 53 1024 false).
Lemma fmul_pinf y : ffinite y = true → 0 < f2r y → fmul pinf y = pinf.
Proof.
  Local Transparent fmul ffinite. intros F H. destruct y as [s|s|s pl Hpl|s mm e Hb]; try done; unfold f2r in H; simpl in H; try lra.
  destruct s; [|reflexivity]. exfalso. pose proof (F2R_lt_0 radix2 (Float radix2 (Z.neg mm) e) ltac:(simpl; lia)) as Hn. exact (Rlt_asym _ _ Hn H).
  Local Opaque fmul ffinite.
Qed.
Lemma fdiv_pinf y : ffinite y = true → 0 < f2r y → fdiv pinf y = pinf.
Proof.
  Local Transparent fdiv ffinite. intros F H. destruct y as [s|s|s pl Hpl|s mm e Hb]; try done; unfold f2r in H; simpl in H; try lra.
  destruct s; [|reflexivity]. exfalso. pose proof (F2R_lt_0 radix2 (Float radix2 (Z.neg mm) e) ltac:(simpl; lia)) as Hn. exact (Rlt_asym _ _ Hn H).
  Local Opaque fdiv ffinite.
Qed.
Lemma fneg_ninf : fneg (Binary.B754_infinity 53 1024 true) = pinf. Proof. reflexivity. Qed.
Lemma int_pinf : f_to_int64 (fceil pinf) = (- 2 ^ 63)%Z. Proof. vm_compute. reflexivity. Qed.

Section count.
  Context (glog : float → float) (Hlog : log_all_ok glog).
  Context (b : Bloom) (m : nat) (k : Z) (Hwf : bloom_wf b m k) (Hk : (1 <= k <= 255)%Z).
  Let x := set_bits b m.
  Lemma Count_unfold : Bloom_Count glog b = Ok (f_to_int64 (fceil (fdiv (fmul (fneg (glog (fsub f_one (fdiv (f_of_Z x) (f_of_Z (Z.of_nat m)))))) (f_of_Z (Z.of_nat m))) (f_of_Z k)))).
  Proof.
    unfold Bloom_Count. rewrite (CountN_set _ _ _ Hwf). cbn [obind]. destruct Hwf as (_ & _ & -> & -> & _). done.
  Qed.
  Lemma Count_zero : (Z.of_nat m <= 2 ^ 53)%Z → x = 0%Z → Bloom_Count glog b = Ok 0%Z.
  Proof.
    intros Hm Hx. rewrite Count_unfold. rewrite Hx. f_equal. assert (1 ≤ m)%nat as Hm1 by (unfold bloom_wf in Hwf; tauto).
    destruct (empty_frac 0 (Z.of_nat m) ltac:(lia) ltac:(lia)) as (F & _ & _ & E & _). specialize (E eq_refl). set (t := fsub _ _) in *.
    destruct (Hlog t F ltac:(lra)) as [Fl El]. rewrite E, ln_1, Rabs_R0, Rmult_0_r, Rminus_0_r in El.
    assert (f2r (glog t) = 0) as E0. { pose proof (Rabs_pos (f2r (glog t))). destruct (Req_dec (f2r (glog t)) 0) as [?|Hne]; [done|]. pose proof (Rabs_pos_lt _ Hne). lra. }
    destruct (fneg_ok _ Fl) as [Fn En]. rewrite E0, Ropp_0 in En.
    pose proof (f_of_Z_iv (Z.of_nat m) ltac:(lia)) as Hq1. pose proof (f_of_Z_iv k ltac:(lia)) as Hq2.
    destruct (fmul_ok (fneg (glog t)) (f_of_Z (Z.of_nat m))) as [F1 E1]; [done|apply Hq1|rewrite En, Rmult_0_l, Rabs_R0; pose proof maxfloat_pos; lra|].
    rewrite En, Rmult_0_l, rnd_0 in E1. assert (1 <= IZR k) by (apply (IZR_le 1); lia).
    destruct (fdiv_ok (fmul (fneg (glog t)) (f_of_Z (Z.of_nat m))) (f_of_Z k)) as [F2 E2];
      [done|rewrite (iv_eq _ _ Hq2); lra|rewrite E1; unfold Rdiv; rewrite Rmult_0_l, Rabs_R0; pose proof maxfloat_pos; lra|].
    rewrite E1 in E2. unfold Rdiv in E2. rewrite Rmult_0_l, rnd_0 in E2. set (r := fdiv (fmul _ _) (f_of_Z k)) in *.
    destruct (ceil_int r F2) as (E3 & _). { rewrite E2. pose proof (pw_pos 62). lra. }
    rewrite E3, E2. apply (Zceil_IZR 0).
  Qed.
  Lemma Count_full : (Z.of_nat m <= 2 ^ 53)%Z → log_zero glog → x = Z.of_nat m → Bloom_Count glog b = Ok (- 2 ^ 63)%Z.
  Proof.
    intros Hm Hz Hx. rewrite Count_unfold. rewrite Hx. f_equal. assert (1 ≤ m)%nat as Hm1 by (unfold bloom_wf in Hwf; tauto).
    destruct (empty_frac (Z.of_nat m) (Z.of_nat m) ltac:(lia) ltac:(lia)) as (F & _ & _ & _ & E). specialize (E eq_refl). set (t := fsub _ _) in *.
    rewrite (Hz t F E), fneg_ninf.
    pose proof (f_of_Z_iv (Z.of_nat m) ltac:(lia)) as Hq1. pose proof (f_of_Z_iv k ltac:(lia)) as Hq2.
    rewrite fmul_pinf, fdiv_pinf; [apply int_pinf|apply Hq2|rewrite (iv_eq _ _ Hq2); apply (IZR_lt 0); lia|apply Hq1|rewrite (iv_eq _ _ Hq1); apply (IZR_lt 0); lia].
  Qed.
  Lemma Count_mid : (Z.of_nat m <= 2 ^ 24)%Z → (0 < x < Z.of_nat m)%Z → ∃ c, Bloom_Count glog b = Ok c ∧ (1 <= c)%Z ∧
    fill_estimate (IZR (Z.of_nat m)) (IZR k) (IZR x) - / 8 <= IZR c < fill_estimate (IZR (Z.of_nat m)) (IZR k) (IZR x) + 1 + / 8.
  Proof.
    intros Hm Hx. rewrite Count_unfold. set (M := Z.of_nat m) in *.
    destruct (empty_frac x M ltac:(lia) ltac:(lia)) as (F & Ht & Herr & _). set (t := fsub _ _) in *.
    pose proof uu_val as Eu. assert (pw (-52) = 2 * uu) as E52 by (rewrite (pw_P (-52)); done). rewrite E52, Eu in Herr.
    assert (pw (-40) = / 1099511627776) as E40 by reflexivity. assert (pw (-41) = / 2199023255552) as E41 by reflexivity.
    assert (1 <= IZR M <= 16777216) as HM by (split; [apply (IZR_le 1); lia|apply IZR_le; lia]).
    assert (1 <= IZR x) as Hx1 by (apply (IZR_le 1); lia). assert (IZR x <= IZR M - 1) as Hx2 by (rewrite <- minus_IZR; apply IZR_le; lia).
    assert (1 <= IZR k <= 255) as HK by (split; apply IZR_le; lia).
    set (y := 1 - IZR x / IZR M) in *.
    assert (0 < / IZR M) as HMi by (apply Rinv_0_lt_compat; lra). assert (IZR M * / IZR M = 1) as HMv by (apply Rinv_r; lra).
    assert (/ 16777216 <= / IZR M) as HMl by (apply Rinv_le_contravar; lra).
    assert (/ IZR M <= y <= 1 - / IZR M) as Hy by (unfold y, Rdiv; split; nra).
    apply Rabs_le_inv in Herr. set (e := f2r t - y) in *. assert (f2r t = y + e) as Et by (unfold e; lra).
    assert (0 < f2r t < 1) as Ht1 by lra.
    (* ln t against ln y *)
    assert (Rabs (ln (f2r t) - ln y) <= 5 / 2 * / 9007199254740992 * IZR M) as HLn.
    { assert (ln (f2r t) - ln y = ln (f2r t / y)) as -> by (unfold Rdiv; rewrite ln_mult, ln_Rinv by (try apply Rinv_0_lt_compat; lra); lra).
      assert (f2r t / y = 1 + e * / y) as -> by (rewrite Et; field; lra).
      assert (0 < / y <= IZR M) as Hyi. { split; [apply Rinv_0_lt_compat; lra|]. rewrite <- (Rinv_inv (IZR M)). apply Rinv_le_contravar; lra. }
      assert (Rabs (e * / y) <= 2 * / 9007199254740992 * IZR M) as Hz.
      { rewrite Rabs_mult, (Rabs_pos_eq (/ y)) by lra. apply Rmult_le_compat; [apply Rabs_pos|lra|apply Rabs_le; lra|lra]. }
      set (z := e * / y) in *. apply Rabs_le_inv in Hz. assert (-/ 100 <= z <= / 100) as Hzs by lra.
      pose proof (ln_upper (1 + z) ltac:(lra)) as HU. pose proof (ln_lower (1 + z) ltac:(lra)) as HLw.
      assert (1 - / (1 + z) = z * / (1 + z)) as Ez by (field; lra). rewrite Ez in HLw.
      assert (0 < / (1 + z) <= 5 / 4) as Hi. { split; [apply Rinv_0_lt_compat; lra|]. replace (5 / 4) with (/ (4 / 5)) by lra. apply Rinv_le_contravar; lra. }
      apply Rabs_le. split; nra. }
    assert (/ 33554432 <= - ln (f2r t) <= 18) as HLb.
    { pose proof (ln_upper (f2r t) ltac:(lra)) as HU. split; [lra|].
      assert (ln (pw (-25)) < ln (f2r t)) as Hl. { apply ln_increasing; [apply pw_pos|]. change (pw (-25)) with (/ 33554432). lra. }
      rewrite bpow_exp, ln_exp in Hl. change (IZR radix2) with 2 in Hl. pose proof ln2_bounds. lra. }
    assert (rel (glog t) (ln (f2r t)) (8 * uu)) as HG by (apply glog_rel; [done|done|done]).
    set (L := - ln (f2r t)) in *.
    pose proof (rel_fneg _ _ _ HG) as HN. fold L in HN.
    assert (/ 33554432 <= L * IZR M <= 18 * 16777216) as HLM by (split; nra).
    assert (∀ r, / 33554432 * / 255 <= r <= 18 * 16777216 → mid r) as Hmid.
    { intros r Hr. apply mid_of. assert (pw (-60) = / 1152921504606846976) as -> by reflexivity. assert (pw 70 = 1180591620717411303424) as -> by reflexivity. lra. }
    assert (rel (fmul (fneg (glog t)) (f_of_Z M)) (L * IZR M) (8 * uu + 0 + 2 * uu)) as HP.
    { apply rel_fmul; [done|apply rel_Z; lia|rewrite E40, Eu; lra|rewrite E40; lra|]. apply Hmid. lra. }
    assert (0 < / IZR k <= 1) as HKi. { split; [apply Rinv_0_lt_compat; lra|]. rewrite <- Rinv_1. apply Rinv_le_contravar; lra. }
    assert (/ 255 <= / IZR k) as HKi2 by (apply Rinv_le_contravar; lra).
    assert (/ 33554432 * / 255 <= L * IZR M / IZR k <= 18 * 16777216) as HQb.
    { unfold Rdiv. split; [apply Rmult_le_compat; lra|]. rewrite <- (Rmult_1_r (18 * 16777216)). apply Rmult_le_compat; lra. }
    assert (rel (fdiv (fmul (fneg (glog t)) (f_of_Z M)) (f_of_Z k)) (L * IZR M / IZR k) (8 * uu + 0 + 2 * uu + 0 + 3 * uu)) as HQ.
    { apply rel_fdiv; [done|apply rel_Z; lia|lra|rewrite E40, Eu; lra|rewrite E41; lra|]. by apply Hmid. }
    pose proof (rel_bounds _ _ _ HQ ltac:(lra)) as HB. destruct HQ as [Fr _]. set (r := fdiv (fmul _ _) (f_of_Z k)) in *.
    replace (8 * uu + 0 + 2 * uu + 0 + 3 * uu) with (13 * uu) in HB by ring. rewrite Eu in HB.
    set (Q := L * IZR M / IZR k) in *. assert (0 < f2r r < 2 ^ 30) as Hr by (split; nra).
    assert (pw 62 = 4611686018427387904) as E62 by reflexivity.
    destruct (ceil_int r Fr) as (E3 & _). { rewrite E62. lra. }
    exists (Zceil (f2r r)). rewrite E3. split; [done|].
    pose proof (Zceil_ub (f2r r)) as HU. pose proof (Zceil_lb (f2r r)) as HLw.
    split; [assert (0 < Zceil (f2r r))%Z; [apply lt_IZR; lra|lia]|].
    assert (Rabs (Q - fill_estimate (IZR M) (IZR k) (IZR x)) <= 5 / 64) as HE.
    { assert (Q - fill_estimate (IZR M) (IZR k) (IZR x) = (ln (f2r t) - ln y) * - (IZR M * / IZR k)) as ->.
      { unfold Q, L, fill_estimate. fold y. field. lra. }
      rewrite Rabs_mult. rewrite (Rabs_left1 (- (IZR M * / IZR k))) by nra.
      apply (Rle_trans _ (5 / 2 * / 9007199254740992 * 16777216 * 16777216)); [|lra].
      assert (0 < IZR M * / IZR k) by (apply Rmult_lt_0_compat; lra). assert (IZR M * / IZR k <= 16777216 * 1) by (apply Rmult_le_compat; lra). apply Rmult_le_compat; [apply Rabs_pos|lra|lra|lra]. }
    apply Rabs_le_inv in HE. split; nra.
  Qed.
End count.

Section rate.
  Context (gexp : float → float) (gpow : float → float → float) (Hexp : exp_ok gexp) (Hpow : pow_ok gpow).
  Context (b : Bloom) (m : nat) (k : nat) (Hwf : bloom_wf b m (Z.of_nat k)) (Hm : (Z.of_nat m <= 2 ^ 40)%Z).
  Let x := set_bits b m.
  Lemma ErrorRate_ok : ∃ r, Bloom_ErrorRate gexp gpow b = Ok r ∧ ffinite r = true ∧ 0 <= f2r r <= 1 ∧
    Rabs (f2r r - false_positive_rate (IZR (Z.of_nat m)) k (IZR x)) <= / 2 ^ 32.
  Proof.
    unfold Bloom_ErrorRate. rewrite (CountN_set _ _ _ Hwf). cbn [obind]. fold x.
    pose proof (set_bits_range _ _ _ Hwf) as Hx. fold x in Hx.
    destruct Hwf as (_ & _ & -> & -> & Hk & Hm1). set (M := Z.of_nat m) in *. set (K := Z.of_nat k) in *.
    assert (1 <= IZR M) as HM by (apply (IZR_le 1); lia). assert (0 <= IZR K <= 255) as HK by (split; apply IZR_le; lia).
    assert (0 <= IZR x <= IZR M) as Hx1 by (split; apply IZR_le; lia).
    pose proof (f_of_Z_iv M ltac:(lia)) as Hq1. pose proof (f_of_Z_iv K ltac:(lia)) as Hq2. pose proof (f_of_Z_iv x ltac:(lia)) as Hq3.
    destruct (fneg_ok (f_of_Z K)) as [Fn En]; [apply Hq2|]. rewrite (iv_eq _ _ Hq2) in En.
    assert (IZR K * IZR x <= pw 50) as Hkx. { rewrite pw_IZR by lia. rewrite <- mult_IZR. apply IZR_le. nia. }
    destruct (fmul_ok (fneg (f_of_Z K)) (f_of_Z x)) as [F1 E1]; [done|apply Hq3| |].
    { rewrite En, (iv_eq _ _ Hq3). replace (- IZR K * IZR x) with (- (IZR K * IZR x)) by ring. rewrite Rabs_Ropp. apply (abs_max _ 50); [lia|]. split; [nra|done]. }
    rewrite En, (iv_eq _ _ Hq3) in E1. rewrite rnd_fmt in E1.
    2:{ rewrite <- opp_IZR, <- mult_IZR. apply fmt_IZR. nia. }
    set (z0 := - IZR K * IZR x / IZR M). 
    assert (0 < / IZR M) as HMi by (apply Rinv_0_lt_compat; lra). assert (IZR M * / IZR M = 1) as HMv by (apply Rinv_r; lra).
    assert (-256 <= z0 <= 0) as Hz0.
    { unfold z0, Rdiv. assert (0 <= IZR x * / IZR M <= 1) by (split; nra). split; nra. }
    destruct (fdiv_ok (fmul (fneg (f_of_Z K)) (f_of_Z x)) (f_of_Z M)) as [F2 E2]; [done|rewrite (iv_eq _ _ Hq1); lra| |].
    { rewrite E1, (iv_eq _ _ Hq1). fold z0. apply (Rle_trans _ (pw 8)); [|apply maxfloat_ge; lia]. change (pw 8) with 256. apply Rabs_le. lra. }
    rewrite E1, (iv_eq _ _ Hq1) in E2. fold z0 in E2. set (z := fdiv _ _) in *.
    pose proof (rnd_abs z0 8 ltac:(lia)) as HA. change (pw 8) with 256 in HA. specialize (HA ltac:(apply Rabs_le; lra)). rewrite <- E2 in HA. change (8 - 53)%Z with (-45)%Z in HA.
    assert (f2r z <= 0) as Hz. { rewrite E2. apply rnd_le'; [apply generic_format_0|lra]. }
    destruct (Hexp z F2 Hz) as (Fe & He & Hea).
    assert (/ 2 ^ 45 = pw (-45)) as E45. { change (-45)%Z with (Z.opp 45). rewrite bpow_opp. f_equal. symmetry. exact (bpow_pow 45). }
    rewrite E45 in Hea. pose proof (exp_lipschitz (f2r z) z0 Hz ltac:(lra)) as HLp.
    pose proof f_one_iv as H1.
    destruct (fsub_ok f_one (gexp z)) as (Fs & Es); [apply H1|done|rewrite (iv_eq _ _ H1); apply (abs_max _ 0); [lia|change (pw 0) with 1; lra]|].
    rewrite (iv_eq _ _ H1) in Es. set (s := fsub _ _) in *.
    pose proof (rnd_abs (1 - f2r (gexp z)) 0 ltac:(lia)) as HB. rewrite <- Es in HB. change (pw 0) with 1 in HB. rewrite Rabs_pos_eq in HB by lra. specialize (HB ltac:(lra)).
    change (0 - 53)%Z with (-53)%Z in HB.
    assert (0 <= f2r s <= 1) as Hs. { rewrite Es. split; [apply rnd_nonneg; lra|apply rnd_le'; [apply fmt1|lra]]. }
    destruct (Hpow s k Fs Hs ltac:(lia)) as (Fp & Hp & Hpa). fold K in Fp, Hp, Hpa.
    exists (gpow s (f_of_Z K)). split; [done|]. split; [done|]. split; [done|].
    unfold false_positive_rate. replace (- (INR k * IZR x / IZR M)) with z0 by (unfold z0, K; rewrite <- INR_IZR_INZ; field; lra).
    assert (exp z0 <= 1) as Hez by (rewrite <- exp_0; apply exp_le_compat; lra). pose proof (exp_pos z0) as Hez2.
    pose proof (pow_lipschitz (f2r s) (1 - exp z0) k Hs ltac:(lra)) as HPl.
    assert (pw (-45) = / 35184372088832) as E45' by reflexivity. assert (pw (-53) = / 9007199254740992) as E53 by reflexivity.
    rewrite E45', ?E53 in *.
    assert (Rabs (f2r s - (1 - exp z0)) <= 3 * / 35184372088832) as Hd.
    { apply Rabs_le_inv in HB, Hea. assert (Rabs (exp (f2r z) - exp z0) <= / 35184372088832) as Hq by lra. apply Rabs_le_inv in Hq. apply Rabs_le. lra. }
    assert (INR k = IZR K) as Ek by (unfold K; apply INR_IZR_INZ). rewrite Ek in HPl.
    assert (Rabs (f2r s ^ k - (1 - exp z0) ^ k) <= 255 * (3 * / 35184372088832)) as Hq.
    { eapply Rle_trans; [exact HPl|]. apply Rmult_le_compat; [lra|apply Rabs_pos|lra|done]. }
    assert (/ 2 ^ 40 = / 1099511627776) as E40 by (f_equal; lra). assert (/ 2 ^ 32 = / 4294967296) as E32 by (f_equal; lra). rewrite E40 in Hpa. rewrite E32.
    apply Rabs_le_inv in Hpa, Hq. apply Rabs_le. lra.
  Qed.
End rate.
