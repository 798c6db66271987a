From Verif Require Import Base BaseProofs Float64 Float64Spec Float64Proofs FloatMore FloatRel RealBounds BitbucketModel BitbucketSpec BitbucketProofs BloomModel BloomSpec BloomProofs HllCountModel BloomSizeModel BloomSizeSpec.
From Coq Require Import Reals Lra ZifyBool ZifyNat.
From Flocq Require Import Core Relative.
Notation float := Float64.float.
Open Scope R_scope.
Lemma fmt1 : fmt 1. Proof. apply (fmt_pw 0). lia. Qed.

(** ** constants *)
Lemma f_lit_pow a e : (0 <= a < 2 ^ 53)%Z → (0 <= e <= 60)%Z → ffinite (f_lit a (2 ^ e)) = true ∧ f2r (f_lit a (2 ^ e)) = IZR a / IZR (2 ^ e).
Proof.
  intros Ha He. unfold f_lit. pose proof (f_of_Z_iv a ltac:(lia)) as Hq1.
  destruct (f_of_Z_ok (2 ^ e)) as (F2 & E2 & _). { apply IZR_maxfloat. assert (2 ^ e <= 2 ^ 60)%Z by (apply Z.pow_le_mono_r; lia). lia. }
  rewrite <- pw_IZR in E2 by lia. rewrite rnd_fmt in E2 by (apply fmt_pw; lia). pose proof (pw_pos e) as P.
  assert (fmt (IZR a / pw e)) as Hf. { unfold Rdiv. rewrite <- bpow_opp. apply fmt_F2R; lia. }
  destruct (fdiv_ok (f_of_Z a) (f_of_Z (2 ^ e))) as [F E]; [apply Hq1|rewrite E2; lra| |].
  - rewrite E2, (iv_eq _ _ Hq1). unfold Rdiv. rewrite <- bpow_opp. apply (abs_max _ 53); [lia|]. 
    assert (0 <= IZR a <= pw 53) as Hb. { rewrite pw_IZR by lia. split; apply IZR_le; lia. }
    assert (0 < pw (- e) <= 1) as Hb2. { split; [apply pw_pos|]. apply (bpow_le radix2 (- e) 0). lia. } split; nra.
  - rewrite E2, (iv_eq _ _ Hq1), (rnd_fmt _ Hf) in E. split; [done|]. by rewrite E, pw_IZR by lia.
Qed.
Lemma ln2_bounds : 6243314768165359 / 9007199254740992 < ln 2 < 24973259072661437 / 36028797018963968.
Proof. split; [exact ln2_lower|exact ln2_upper]. Qed.
Lemma f_ln2_rel : rel f_ln2 (ln 2) uu.
Proof.
  destruct (f_lit_pow 6243314768165359 53 ltac:(lia) ltac:(lia)) as [F E]. split; [exact F|].
  change (2 ^ 53)%Z with 9007199254740992%Z in E. pose proof ln2_bounds as L. exists (f2r f_ln2 / ln 2 - 1). split; [|field; lra].
  change (f2r f_ln2 = 6243314768165359 / 9007199254740992) in E. rewrite E. rewrite uu_val. apply Rabs_le. set (l := ln 2) in *.
  assert (0 < / l) by (apply Rinv_0_lt_compat; lra). assert (l * / l = 1) by (apply Rinv_r; lra).
  split; unfold Rdiv in *; nra.
Qed.
Lemma f_ln2sq_rel : rel f_ln2sq (ln 2 * ln 2) (2 * uu).
Proof.
  destruct (f_lit_pow 8655072057804175 54 ltac:(lia) ltac:(lia)) as [F E]. split; [exact F|].
  change (2 ^ 54)%Z with 18014398509481984%Z in E. pose proof ln2_bounds as L. exists (f2r f_ln2sq / (ln 2 * ln 2) - 1). split; [|field; lra].
  change (f2r f_ln2sq = 8655072057804175 / 18014398509481984) in E. rewrite E. rewrite uu_val. apply Rabs_le. set (l := ln 2) in *.
  set (a := 6243314768165359 / 9007199254740992) in *. set (b := 24973259072661437 / 36028797018963968) in *.
  assert (a * a <= l * l) as Hq1 by (unfold a in *; nra). assert (l * l <= b * b) as Hq2 by (unfold a in *; nra).
  assert (8655072057804175 / 18014398509481984 <= a * a * (1 + / 9007199254740992)) as Hq3 by (unfold a; lra).
  assert (b * b * (1 - 2 * / 9007199254740992) <= 8655072057804175 / 18014398509481984) as Hq4 by (unfold b; lra).
  assert (0 < l * l) as Hp by (unfold a in *; nra). assert (0 < / (l * l)) as Hi by (by apply Rinv_0_lt_compat). assert (l * l * / (l * l) = 1) as Hv by (apply Rinv_r; lra).
  set (c := 8655072057804175 / 18014398509481984) in *. set (s := l * l) in *. set (t := / s) in *.
  change (c / s) with (c * t). split; nra.
Qed.

(** ** the logarithm of a float64 in (0, 1) *)
Lemma f2r_pos_ge x : 0 < f2r x → pw (-1074) <= f2r x.
Proof.
  intros H. pose proof (fmt_f2r x) as Fx. 
  pose proof (generic_format_ge_bpow radix2 fexp64 (-1074)) as HG. apply HG; [|done|done]. intros e. unfold fexp64, FLT_exp. lia.
Qed.
Lemma f2r_lt1 x : f2r x < 1 → f2r x <= 1 - pw (-53).
Proof.
  intros H. pose proof (fmt_f2r x) as Fx. pose proof (pred_ge_gt radix2 fexp64 (f2r x) 1 Fx fmt1 H) as HP.
  assert (pred radix2 fexp64 1 = 1 - pw (-53)) as E; [|by rewrite E in HP].
  change 1 with (pw 0). rewrite pred_bpow. reflexivity.
Qed.
Lemma ln_float p : 0 < f2r p < 1 → pw (-53) <= - ln (f2r p) <= 745.
Proof.
  intros Hp. pose proof (f2r_lt1 p ltac:(lra)) as Hq1. pose proof (f2r_pos_ge p ltac:(lra)) as Hq2. split.
  - pose proof (exp_ineq1_le (ln (f2r p))) as H. rewrite exp_ln in H by lra. lra.
  - assert (ln (pw (-1074)) <= ln (f2r p)) as Hl. { destruct (Rle_lt_or_eq_dec _ _ Hq2) as [H|H]; [left; apply ln_increasing; [apply pw_pos|done]|rewrite H; lra]. }
    rewrite bpow_exp, ln_exp in Hl. change (IZR radix2) with 2 in Hl. pose proof ln2_bounds. lra.
Qed.

  Lemma mid_of r : pw (-60) <= r <= pw 70 → mid r.
  Proof.
    intros H. pose proof (pw_pos (-60)). unfold mid. rewrite Rabs_pos_eq by lra.
    pose proof (bpow_le radix2 (-900) (-60) ltac:(lia)). pose proof (bpow_le radix2 70 900 ltac:(lia)). lra.
  Qed.
Section log.
  Context (glog : float → float) (Hlog : log_all_ok glog).
  Context (n : Z) (p : float) (Hn : (1 <= n <= 2 ^ 50)%Z) (Fp : ffinite p = true) (Hp : 0 < f2r p < 1).
  Let N := IZR n.
  Let M := optimal_bits N (f2r p).
  Lemma N_range : 1 <= N <= pw 50.
  Proof. unfold N. rewrite pw_IZR by lia. split; apply IZR_le; lia. Qed.
  Lemma glog_rel : rel (glog p) (ln (f2r p)) (8 * uu).
  Proof.
    destruct (Hlog p Fp ltac:(lra)) as [F H]. split; [done|]. pose proof (ln_float p Hp) as HL. pose proof (pw_pos (-53)).
    set (L := ln (f2r p)) in *. exists (f2r (glog p) / L - 1). split; [|field; lra].
    replace (f2r (glog p) / L - 1) with ((f2r (glog p) - L) / L) by (field; lra). unfold Rdiv. rewrite Rabs_mult, Rabs_inv.
    apply (Rmult_le_reg_r (Rabs L)); [apply Rabs_pos_lt; lra|]. rewrite Rmult_assoc, Rinv_l, Rmult_1_r by (apply Rabs_no_R0; lra).
    eapply Rle_trans; [exact H|]. apply Req_le. f_equal. rewrite uu_eq. lra.
  Qed.
  Lemma M_range : pw (-53) <= M <= pw 61 - 1.
  Proof.
    pose proof N_range as HN. pose proof (ln_float p Hp) as HL. pose proof ln2_bounds as L2. unfold M, optimal_bits.
    set (L := ln (f2r p)) in *. set (l := ln 2) in *. assert (48 / 100 < l * l < 1) as Hl by nra.
    assert (0 < / (l * l)) as Hi by (apply Rinv_0_lt_compat; lra). assert (l * l * / (l * l) = 1) as Hv by (apply Rinv_r; lra).
    assert (/ (l * l) < 25 / 12) as Hi2 by nra. assert (1 < / (l * l)) as Hi3 by nra.
    set (t := / (l * l)) in *. change (- (N * L) / (l * l)) with (- (N * L) * t). pose proof (pw_pos (-53)) as P53.
    assert (pw (-53) <= N * - L <= pw 50 * 745) as Hb.
    { split; [rewrite <- (Rmult_1_l (pw (-53))); apply Rmult_le_compat; lra|apply Rmult_le_compat; lra]. }
    assert (pw 61 = 2048 * pw 50) as E61. { change 61%Z with (11 + 50)%Z. rewrite bpow_plus. f_equal. }
    assert (1 <= pw 50) by (apply (bpow_le radix2 0 50); lia). split.
    - rewrite <- (Rmult_1_r (pw (-53))). replace (- (N * L)) with (N * - L) by ring. apply Rmult_le_compat; lra.
    - replace (- (N * L)) with (N * - L) by ring. assert (N * - L * t <= pw 50 * 745 * (25 / 12)) by (apply Rmult_le_compat; lra). lra.
  Qed.
  Lemma bits_rel : rel (fdiv (fmul (fneg (f_of_Z n)) (glog p)) f_ln2sq) M (15 * uu).
  Proof.
    pose proof N_range as HN. pose proof (ln_float p Hp) as HL. pose proof M_range as HM. pose proof ln2_bounds as L2.
    assert (pw (-40) = / 1099511627776) as E40 by reflexivity. assert (pw (-41) = / 2199023255552) as E41 by reflexivity. pose proof uu_val as Eu.
    pose proof (pw_pos (-53)). pose proof (pw_pos (-60)).
    unfold M, optimal_bits. replace (- (N * ln (f2r p))) with (- N * ln (f2r p)) by ring.
    eapply rel_weaken; [apply (rel_fdiv _ _ _ _ (0 + 8 * uu + 2 * uu) (2 * uu))|rewrite Eu; lra].
    - apply rel_fmul; [apply rel_fneg, rel_Z; lia|apply glog_rel|rewrite E40; lra|rewrite E40, Eu; lra|].
      apply mid_of. replace (- N * ln (f2r p)) with (N * - ln (f2r p)) by ring. set (L := ln (f2r p)) in *.
      assert (pw (-53) <= N * - L <= pw 50 * 745) as Hb.
      { split; [rewrite <- (Rmult_1_l (pw (-53))); apply Rmult_le_compat; lra|apply Rmult_le_compat; lra]. }
      pose proof (bpow_le radix2 (-60) (-53) ltac:(lia)). assert (pw 70 = 1048576 * pw 50) as E70 by (change 70%Z with (20 + 50)%Z; rewrite bpow_plus; f_equal).
      pose proof (pw_pos 50). split; lra.
    - exact f_ln2sq_rel.
    - assert (0 < ln 2 * ln 2); [|lra]. apply Rmult_lt_0_compat; lra.
    - rewrite E40, Eu. lra.
    - rewrite E41, Eu. lra.
    - apply mid_of. replace (- N * ln (f2r p)) with (- (N * ln (f2r p))) by ring. fold (optimal_bits N (f2r p)). fold M.
      pose proof (bpow_le radix2 (-60) (-53) ltac:(lia)). pose proof (bpow_le radix2 61 70 ltac:(lia)). lra.
  Qed.
  Definition size_m : Z := fst (Bloom_mk glog n p).
  Definition size_k : Z := snd (Bloom_mk glog n p).
  Lemma size_m_ok : M * (1 - / 2 ^ 49) <= IZR size_m < M * (1 + / 2 ^ 49) + 1 ∧ (1 <= size_m <= 2 ^ 62)%Z.
  Proof.
    pose proof bits_rel as HR. pose proof M_range as HM. pose proof (pw_pos (-53)) as P53. pose proof uu_val as Eu.
    assert (/ 2 ^ 49 = 16 * uu) as E49 by (rewrite uu_eq; lra).
    pose proof (rel_bounds _ _ _ HR ltac:(lra)) as HB. destruct HR as (F & _). set (t := fdiv _ _) in *.
    assert (0 < f2r t < pw 62) as Ht.
    { assert (pw 62 = 2 * pw 61) as E62 by (apply (pw_S 61)). rewrite Eu in HB. split; nra. }
    destruct (ceil_int t F ltac:(lra)) as (E & Hc & _).
    assert (size_m = Zceil (f2r t)) as Em. { unfold size_m, Bloom_mk. cbn [fst]. fold t. exact E. }
    rewrite Em. pose proof (Zceil_ub (f2r t)) as HU. pose proof (Zceil_lb (f2r t)) as HLb. rewrite E49. rewrite Eu in *.
    split; [split; nra|]. split; [|lia]. assert (0 < Zceil (f2r t))%Z; [|lia]. apply lt_IZR. lra.
  Qed.
  Let K := optimal_hashes (IZR size_m) N.
  Lemma K_pos : 0 < K.
  Proof.
    unfold K, optimal_hashes. destruct size_m_ok as [_ H]. pose proof N_range. pose proof ln2_bounds.
    apply Rmult_lt_0_compat; [|lra]. apply Rdiv_lt_0_compat; [apply (IZR_lt 0); lia|lra].
  Qed.
  Lemma hashes_rel : rel (fdiv (fmul f_ln2 (f_of_Z size_m)) (f_of_Z n)) K (7 * uu).
  Proof.
    destruct size_m_ok as [_ H]. pose proof N_range as HN. pose proof ln2_bounds as L2.
    assert (pw (-40) = / 1099511627776) as E40 by reflexivity. assert (pw (-41) = / 2199023255552) as E41 by reflexivity. pose proof uu_val as Eu.
    assert (1 <= IZR size_m <= pw 62) as Hm. { rewrite pw_IZR by lia. split; apply IZR_le; lia. }
    replace K with (ln 2 * IZR size_m / N) by (unfold K, optimal_hashes; field; lra).
    assert (pw (-60) <= / 2) by (apply (bpow_le radix2 (-60) (-1)); lia). pose proof (bpow_le radix2 62 70 ltac:(lia)) as B70.
    eapply rel_weaken; [apply (rel_fdiv _ _ _ _ (uu + uu + 2 * uu) 0)|lra].
    - apply rel_fmul; [exact f_ln2_rel|apply rel_Zbig; lia|rewrite E40, Eu; lra|rewrite E40, Eu; lra|]. apply mid_of. split; nra.
    - apply rel_Z. lia.
    - lra.
    - rewrite E40, Eu. lra.
    - rewrite E41. lra.
    - apply mid_of. assert (/ pw 50 <= / N <= 1) as HI.
      { split; [apply Rinv_le_contravar; lra|]. rewrite <- Rinv_1. apply Rinv_le_contravar; lra. }
      rewrite <- bpow_opp in HI. pose proof (pw_pos (Z.opp 50)). unfold Rdiv. split.
      + apply (Rle_trans _ (/ 2 * 1 * pw (Z.opp 50))); [|apply Rmult_le_compat; [lra|lra|nra|lra]].
        rewrite Rmult_1_r. change (/ 2) with (pw (-1)). rewrite <- bpow_plus. apply bpow_le. lia.
      + apply (Rle_trans _ (1 * pw 62 * 1)); [|lra]. apply Rmult_le_compat; [nra|lra| |lra]. apply Rmult_le_compat; lra.
  Qed.
  Lemma K_upper : K <= pw 62.
  Proof.
    destruct size_m_ok as [_ H]. pose proof N_range as HN. pose proof ln2_bounds as L2. unfold K, optimal_hashes.
    assert (1 <= IZR size_m <= pw 62) as Hm. { rewrite pw_IZR by lia. split; apply IZR_le; lia. }
    assert (0 < / N <= 1) as HI. { split; [apply Rinv_0_lt_compat; lra|]. rewrite <- Rinv_1. apply Rinv_le_contravar; lra. }
    unfold Rdiv. assert (IZR size_m * / N <= pw 62 * 1) by (apply Rmult_le_compat; lra). assert (0 < IZR size_m * / N) by (apply Rmult_lt_0_compat; lra). nra.
  Qed.
  Lemma size_k_ok : (1 <= size_k <= 255)%Z ∧ IZR size_k < K * (1 + / 2 ^ 50) + 1 ∧ (K * (1 - / 2 ^ 50) <= IZR size_k ∨ (size_k = 255%Z ∧ 254 < K * (1 + / 2 ^ 50))).
  Proof.
    pose proof hashes_rel as HR. pose proof K_pos as HK. pose proof K_upper as HKu. pose proof uu_val as Eu.
    assert (/ 2 ^ 50 = 8 * uu) as E50 by (rewrite uu_eq; lra).
    pose proof (rel_bounds _ _ _ HR ltac:(lra)) as HB. destruct HR as (F & _).
    assert (size_k = if flt (fceil (fdiv (fmul f_ln2 (f_of_Z size_m)) (f_of_Z n))) (f_of_Z 255) then f_to_uint8 (fceil (fdiv (fmul f_ln2 (f_of_Z size_m)) (f_of_Z n))) else 255%Z) as Ek.
    { reflexivity. }
    set (t := fdiv _ _) in *. destruct (fceil_ok t F) as [Fc Ec]. destruct (f_of_Z_exact 255 ltac:(lia)) as (F5 & E5 & _).
    pose proof (Zceil_ub (f2r t)) as HU. pose proof (Zceil_lb (f2r t)) as HLb. rewrite E50, Eu. rewrite Eu in HB.
    assert (0 < f2r t) as Ht by nra.
    destruct (flt (fceil t) (f_of_Z 255)) eqn:Q.
    - apply flt_ok in Q; [|done|done]. rewrite Ec, E5 in Q. apply lt_IZR in Q.
      assert (0 < Zceil (f2r t))%Z as Hpos by (apply lt_IZR; lra).
      assert (size_k = Zceil (f2r t)) as ->.
      { rewrite Ek. unfold f_to_uint8. rewrite (f_to_int64_ok (fceil t) (Zceil (f2r t)) Fc Ec) by lia.
        replace ((- 2 ^ 31 <=? Zceil (f2r t))%Z && (Zceil (f2r t) <? 2 ^ 31)%Z) with true by lia. apply Z.mod_small. lia. }
      split; [lia|]. split; [nra|]. left. nra.
    - assert (¬ (f2r (fceil t) < 255)) as HN. { rewrite <- E5. intros H. apply (flt_ok _ _ Fc F5) in H. congruence. }
      rewrite Ek. split; [lia|]. assert (254 < f2r t). { rewrite Ec in HN. lra. } split; [nra|]. right. split; [done|]. nra.
  Qed.
End log.
