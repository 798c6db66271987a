(** Bloom.Count on large filters (supports C80). *)
From Verif Require Import Base BaseProofs Float64 Float64Spec Float64Proofs FloatMore FloatRel RealBounds BitbucketModel BitbucketSpec BitbucketProofs BloomModel BloomSpec BloomProofs HllCountModel HllCountLoops HllCountTop BloomSizeModel BloomSizeSpec BloomSizeReal BloomSizeProofs BloomSizeEst.
From Coq Require Import Reals Lra ZifyBool ZifyNat.
From Flocq Require Import Core Relative.
Notation float := Float64.float.
Open Scope R_scope.
Section count.
  Context (glog : float → float) (Hlog : log_all_ok glog).
  Context (b : Bloom) (m : nat) (k : Z) (Hwf : bloom_wf b m k) (Hk : (1 <= k <= 255)%Z).
  Let x := set_bits b m.
  Let y := 1 - IZR x / IZR (Z.of_nat m).
  Lemma Count_large : (Z.of_nat m <= 2 ^ 50)%Z → (0 < x < Z.of_nat m)%Z → / 1024 <= y → ∃ c, Bloom_Count glog b = Ok c ∧ (1 <= c)%Z ∧
    let d := IZR (Z.of_nat m) / IZR k * (3 / y + 100) / 2 ^ 53 in
    fill_estimate (IZR (Z.of_nat m)) (IZR k) (IZR x) - d <= IZR c < fill_estimate (IZR (Z.of_nat m)) (IZR k) (IZR x) + 1 + d.
  Proof.
    intros Hm Hx Hy0. rewrite (Count_unfold glog b m k Hwf). fold x. set (M := Z.of_nat m) in *.
    destruct (empty_frac x M ltac:(lia) ltac:(lia)) as (F & Ht & Herr & _). set (t := fsub _ _) in *.
    pose proof uu_val as Eu. assert (pw (-52) = 2 * uu) as E52 by (rewrite (pw_P (-52)); done). rewrite E52, Eu in Herr.
    assert (pw (-40) = / 1099511627776) as E40 by reflexivity. assert (pw (-41) = / 2199023255552) as E41 by reflexivity.
    assert (1 <= IZR M <= 1125899906842624) as HM by (split; [apply (IZR_le 1); lia|apply IZR_le; lia]).
    assert (1 <= IZR x) as Hx1 by (apply (IZR_le 1); lia). assert (IZR x <= IZR M - 1) as Hx2 by (rewrite <- minus_IZR; apply IZR_le; lia).
    assert (1 <= IZR k <= 255) as HK by (split; apply IZR_le; lia).
    assert (0 < / IZR M) as HMi by (apply Rinv_0_lt_compat; lra). assert (IZR M * / IZR M = 1) as HMv by (apply Rinv_r; lra).
    assert (/ 1125899906842624 <= / IZR M) as HMl by (apply Rinv_le_contravar; lra).
    assert (y <= 1 - / IZR M) as Hy by (unfold y, Rdiv; nra).
    fold y in Herr. apply Rabs_le_inv in Herr. set (e := f2r t - y) in *. assert (f2r t = y + e) as Et by (unfold e; lra).
    assert (0 < f2r t < 1) as Ht1 by lra.
    assert (0 < / y <= 1024) as Hyi. { split; [apply Rinv_0_lt_compat; lra|]. rewrite <- (Rinv_inv 1024). apply Rinv_le_contravar; lra. }
    assert (Rabs (ln (f2r t) - ln y) <= 5 / 2 * / 9007199254740992 * / y) as HLn.
    { assert (ln (f2r t) - ln y = ln (f2r t / y)) as -> by (unfold Rdiv; rewrite ln_mult, ln_Rinv by (try apply Rinv_0_lt_compat; lra); lra).
      assert (f2r t / y = 1 + e * / y) as -> by (rewrite Et; field; lra).
      assert (Rabs (e * / y) <= 2 * / 9007199254740992 * / y) as Hz.
      { rewrite Rabs_mult, (Rabs_pos_eq (/ y)) by lra. apply Rmult_le_compat_r; [lra|apply Rabs_le; lra]. }
      set (z := e * / y) in *. apply Rabs_le_inv in Hz. assert (-/ 100 <= z <= / 100) as Hzs by lra.
      pose proof (ln_upper (1 + z) ltac:(lra)) as HU. pose proof (ln_lower (1 + z) ltac:(lra)) as HLw.
      assert (1 - / (1 + z) = z * / (1 + z)) as Ez by (field; lra). rewrite Ez in HLw.
      assert (0 < / (1 + z) <= 5 / 4) as Hi. { split; [apply Rinv_0_lt_compat; lra|]. replace (5 / 4) with (/ (4 / 5)) by lra. apply Rinv_le_contravar; lra. }
      apply Rabs_le. split; nra. }
    assert (/ 2251799813685248 <= - ln (f2r t) <= 763 / 100) as HLb.
    { pose proof (ln_upper (f2r t) ltac:(lra)) as HU. split; [lra|].
      assert (ln (pw (-11)) < ln (f2r t)) as Hl. { apply ln_increasing; [apply pw_pos|]. change (pw (-11)) with (/ 2048). lra. }
      rewrite bpow_exp, ln_exp in Hl. change (IZR radix2) with 2 in Hl. pose proof ln2_bounds. lra. }
    assert (rel (glog t) (ln (f2r t)) (8 * uu)) as HG by (apply glog_rel; [done|done|done]).
    set (L := - ln (f2r t)) in *.
    pose proof (rel_fneg _ _ _ HG) as HN. fold L in HN.
    assert (/ 2251799813685248 <= L * IZR M <= 763 / 100 * IZR M) as HLM by (split; nra).
    assert (∀ r, / 2251799813685248 * / 255 <= r <= 763 / 100 * 1125899906842624 → mid r) as Hmid.
    { intros r Hr. apply mid_of. assert (pw (-60) = / 1152921504606846976) as -> by reflexivity. assert (pw 70 = 1180591620717411303424) as -> by reflexivity. lra. }
    assert (rel (fmul (fneg (glog t)) (f_of_Z M)) (L * IZR M) (8 * uu + 0 + 2 * uu)) as HP.
    { apply rel_fmul; [done|apply rel_Z; lia|rewrite E40, Eu; lra|rewrite E40; lra|]. apply Hmid. lra. }
    assert (0 < / IZR k <= 1) as HKi. { split; [apply Rinv_0_lt_compat; lra|]. rewrite <- Rinv_1. apply Rinv_le_contravar; lra. }
    assert (/ 255 <= / IZR k) as HKi2 by (apply Rinv_le_contravar; lra).
    assert (/ 2251799813685248 * / 255 <= L * IZR M / IZR k) as HQb by (unfold Rdiv; apply Rmult_le_compat; lra).
    assert (L * IZR M / IZR k <= 763 / 100 * (IZR M / IZR k)) as HQc.
    { unfold Rdiv. rewrite <- Rmult_assoc. apply Rmult_le_compat_r; lra. }
    assert (HMK : 0 < IZR M / IZR k <= 1125899906842624).
    { unfold Rdiv. split; [apply Rmult_lt_0_compat; lra|]. rewrite <- (Rmult_1_r 1125899906842624). apply Rmult_le_compat; lra. }
    assert (rel (fdiv (fmul (fneg (glog t)) (f_of_Z M)) (f_of_Z k)) (L * IZR M / IZR k) (8 * uu + 0 + 2 * uu + 0 + 3 * uu)) as HQ.
    { apply rel_fdiv; [done|apply rel_Z; lia|lra|rewrite E40, Eu; lra|rewrite E41; lra|]. apply Hmid. lra. }
    pose proof (rel_bounds _ _ _ HQ ltac:(lra)) as HB. destruct HQ as [Fr _]. set (r := fdiv (fmul _ _) (f_of_Z k)) in *.
    replace (8 * uu + 0 + 2 * uu + 0 + 3 * uu) with (13 * uu) in HB by ring. rewrite Eu in HB.
    assert (HE : Rabs (L * IZR M / IZR k - fill_estimate (IZR M) (IZR k) (IZR x)) <= 5 / 2 * / 9007199254740992 * / y * (IZR M / IZR k)).
    { assert (L * IZR M / IZR k - fill_estimate (IZR M) (IZR k) (IZR x) = (ln (f2r t) - ln y) * - (IZR M / IZR k)) as ->.
      { unfold L, fill_estimate. fold y. field. lra. }
      rewrite Rabs_mult, Rabs_Ropp, (Rabs_pos_eq (IZR M / IZR k)) by lra. apply Rmult_le_compat_r; lra. }
    apply Rabs_le_inv in HE. cbv zeta.
    set (Q := L * IZR M / IZR k) in *. set (W := IZR M / IZR k) in *. set (FE := fill_estimate _ _ _) in *.
    assert (0 < f2r r < 2 ^ 55) as Hr by (split; nra).
    assert (pw 62 = 4611686018427387904) as E62 by reflexivity.
    destruct (ceil_int r Fr) as (E3 & _). { rewrite E62. lra. }
    exists (Zceil (f2r r)). rewrite E3. split; [done|].
    pose proof (Zceil_ub (f2r r)) as HU. pose proof (Zceil_lb (f2r r)) as HLw.
    split; [assert (0 < Zceil (f2r r))%Z; [apply lt_IZR; lra|lia]|].
    assert (Ed : W * (3 / y + 100) / 2 ^ 53 = / 9007199254740992 * (3 * (/ y * W) + 100 * W)).
    { replace (2 ^ 53) with 9007199254740992 by lra. unfold Rdiv. ring. }
    rewrite Ed. assert (0 < / y * W) by (apply Rmult_lt_0_compat; lra).
    assert (HR : Rabs (f2r r - Q) <= 101 * / 9007199254740992 * W - / 9007199254740992 * W) by (apply Rabs_le; lra).
    apply Rabs_le_inv in HR. replace (5 / 2 * / 9007199254740992 * / y * W) with (5 / 2 * / 9007199254740992 * (/ y * W)) in HE by ring.
    clear -HE HR HU HLw H. generalize dependent (/ y * W). intros yW HE H. split; lra.
  Qed.
End count.
