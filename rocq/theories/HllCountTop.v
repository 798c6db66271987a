From Verif Require Import Base BaseProofs Float64 Float64Spec Float64Proofs BitbucketModel BitbucketSpec BitbucketProofs HllModel HllSpec HllProofs HllCountModel HllCountSpec FloatMore HllCountLoops HllCountProofs.
From Coq Require Import ZifyBool ZifyNat.
From Coq Require Import Reals Lra.
From Flocq Require Import Core Relative.
Notation float := Float64.float.
Open Scope R_scope.

Ltac each_p p Hp := pattern p; revert p Hp; apply p_cases; intros p Hp;
  repeat (apply elem_of_cons in Hp as [->|Hp]; [vm_compute; reflexivity|]); by apply elem_of_nil in Hp.

Lemma count_eq_bound v l : (0 <= count_eq v l <= Z.of_nat (length l))%Z.
Proof. unfold count_eq. pose proof (filter_length (λ x, x = v) l). lia. Qed.
Lemma count_eq_pos v l : v ∈ l → (1 <= count_eq v l)%Z.
Proof.
  intros H. unfold count_eq. assert (v ∈ filter (λ x, x = v) l) as H1 by (apply elem_of_list_filter; done).
  destruct (filter _ l); [by apply elem_of_nil in H1|]. cbn. lia.
Qed.
Lemma hreg_in c p j : (j < hll_size p)%nat → hreg c j ∈ bvals (hc_bits c) (hll_size p).
Proof. intros Hj. apply elem_of_list_lookup. exists j. by apply bvals_lookup. Qed.

Local Transparent fadd fmul fdiv ffinite f_inf fceil f_to_int64.
Lemma fadd_inf z : ffinite z = true → fadd z (Binary.B754_infinity 53 1024 false) = Binary.B754_infinity 53 1024 false.
Proof. intros H. by destruct z. Qed.
Lemma m_inf p : (4 <= p <= 18)%Z → fmul (f_of_Z (2 ^ p)) f_inf = Binary.B754_infinity 53 1024 false.
Proof. intros Hp. each_p p Hp. Qed.

Definition plus_inf : float := Binary.B754_infinity 53 1024 false.
Lemma poisson_ok c p : hll_wf c p → ∃ z, (∀ fuel, (100 ≤ fuel)%nat → Hll_poisson fuel c = Ok (Some z)) ∧
  ((empty_registers c p = 2 ^ p)%Z → z = plus_inf) ∧
  ((empty_registers c p < 2 ^ p)%Z → iv z 0 (pw 60) ∧ ∀ j, (j < hll_size p)%nat → (hreg c j <= 64 - p)%Z → weight (hreg c j) <= f2r z).
Proof.
  intros Hc. pose proof Hc as (Hp & Hcp & _ & Hwf & _). pose proof (hll_size_Z p Hp) as Hs.
  unfold empty_registers. rewrite (registers_bvals c p Hc).
  assert (2 ^ p <= 2 ^ 18)%Z as Hp18 by (apply Z.pow_le_mono_r; lia).
  destruct (hist_Ok c p Hc) as (cn & Ecn & Hl & Hcn). set (bv := bvals (hc_bits c) (hll_size p)) in *.
  assert (∀ v, 0 <= count_eq v bv <= 2 ^ p)%Z as Bcn.
  { intros v. pose proof (count_eq_bound v bv) as H. unfold bv in H. rewrite bvals_length in H. fold bv in H. lia. }
  destruct (tau_total (count_eq (65 - p) bv) p) as (t & Et & Ht); [apply Bcn|lia|].
  assert (iv (fmul (f_of_Z (2 ^ p)) t) 0 (pw 40)) as Hz0.
  { eapply (fmul_iv _ _ _ _ _ _ 0 (pw 40) 40); [apply (f_of_Z_iv (2 ^ p)); lia|exact Ht|apply (IZR_le 0); lia|lra|apply generic_format_0|lra|apply fmt_pw; lia| |lia|lra].
    rewrite <- pw_IZR by lia. rewrite <- bpow_plus. apply bpow_le. lia. }
  destruct (fold_hist_ok cn (Z.to_nat (64 - p)) (fmul (f_of_Z (2 ^ p)) t) 0 Hl) as (z1 & E1 & Hz1 & _ & Hlow);
    [intros r Hr; eexists; split; [apply Hcn; lia|pose proof (Bcn (Z.of_nat r)); lia]|lia|done|].
  assert (∀ fuel, (100 ≤ fuel)%nat → Hll_poisson fuel c = match Hll_sigma fuel (count_eq 0 bv) (2 ^ p) with None => Ok None | Some s => Ok (Some (fadd z1 (fmul (f_of_Z (2 ^ p)) s))) end) as HP.
  { intros fuel Hf. unfold Hll_poisson. rewrite Hcp, (hll_m_eq p Hp).
    unfold hll_hist in Ecn. rewrite Hcp, Z.shiftl_1_l in Ecn. rewrite Ecn. cbn [obind].
    rewrite (index_lookup cn (64 - p + 1) (count_eq (65 - p) bv)); [|lia|].
    2: { rewrite Hcn by lia. do 2 f_equal. lia. }
    cbn [obind]. rewrite Et by done. rewrite E1. cbn [obind].
    rewrite (index_lookup cn 0 (count_eq 0 bv)); [|lia|by apply (Hcn 0%nat); lia]. cbn [obind]. done. }
  destruct (decide (count_eq 0 bv = 2 ^ p)%Z) as [E0|E0].
  - exists plus_inf. split; [|split; [done|lia]]. intros fuel Hf. rewrite HP by done. rewrite E0, (sigma_full p fuel) by lia.
    rewrite (m_inf p Hp). do 2 f_equal. apply fadd_inf. apply Hz1.
  - pose proof (Bcn 0%Z) as B0. destruct (sigma_total (count_eq 0 bv) p) as (s & Es & Hsg); [lia|lia|].
    exists (fadd z1 (fmul (f_of_Z (2 ^ p)) s)). split; [intros fuel Hf; rewrite HP by done; rewrite Es by lia; done|]. split; [lia|]. intros _.
    pose proof (pw_pos (- p)) as Hpp. assert (IZR (2 ^ p) * pw (- p) = 1) as Ep.
    { rewrite <- pw_IZR by lia. rewrite <- bpow_plus. replace (p + - p)%Z with 0%Z by lia. done. }
    assert (0 <= IZR (count_eq 0 bv)) as Bc0 by (apply (IZR_le 0); lia).
    assert (iv (fmul (f_of_Z (2 ^ p)) s) (IZR (count_eq 0 bv)) (pw 59)) as Hms.
    { eapply (fmul_iv _ _ _ _ _ _ _ (pw 59) 59); [apply (f_of_Z_iv (2 ^ p)); lia|exact Hsg|apply (IZR_le 0); lia|nra|apply fmt_IZR; lia| |apply fmt_pw; lia| |lia|lra].
      - apply Req_le. rewrite <- Rmult_assoc, (Rmult_comm (IZR (2 ^ p))), Rmult_assoc, Ep. lra.
      - rewrite <- pw_IZR by lia. rewrite <- bpow_plus. apply bpow_le. lia. }
    assert (pw 60 = 2 * pw 59) as E60 by apply (pw_S 59). assert (pw 40 <= pw 59) by (apply bpow_le; lia).
    assert (∀ lo, fmt lo → 0 <= lo → lo <= f2r z1 + IZR (count_eq 0 bv) → iv (fadd z1 (fmul (f_of_Z (2 ^ p)) s)) lo (pw 60)) as HA.
    { intros lo Flo Hlo0 Hlo. destruct Hz1 as [F1 Hz1].
      eapply (fadd_iv _ _ (f2r z1) (pw 40) _ _ lo (pw 60) 60); [split; [done|lra]|exact Hms|lra|lra|done|lra|apply fmt_pw; lia|lra|lia|lra]. }
    split; [apply HA; [apply generic_format_0|lra|destruct Hz1; lra]|].
    intros j Hj Hjr. destruct (HA (weight (hreg c j))) as [_ [Hge _]]; [apply fmt_pw; pose proof (hreg_range c p j Hc Hj); lia|apply bpow_ge_0| |done].
    pose proof (hreg_range c p j Hc Hj) as Hr. pose proof (count_eq_pos (hreg c j) bv (hreg_in c p j Hj)) as H1.
    destruct (decide (hreg c j = 0)%Z) as [E|E].
    + rewrite E in *. apply IZR_le in H1. pose proof (weight_le 0). destruct Hz1 as [_ Hz1]. lra.
    + assert (weight (hreg c j) <= f2r z1); [|lra]. unfold weight. replace (Z.max 1 (hreg c j)) with (Z.of_nat (Z.to_nat (hreg c j))) by lia.
      apply (Hlow (Z.to_nat (hreg c j)) (count_eq (hreg c j) bv)); [lia| |done].
      rewrite Hcn by lia. do 2 f_equal. lia.
Qed.

(** ** the normalised estimate *)
Lemma alpha_le p : (4 <= p <= 18)%Z → fle (hll_alpha p) (f_lit 3 4) = true ∧ fle f_zero (hll_alpha p) = true ∧ ffinite (hll_alpha p) = true.
Proof.
  intros Hp. cut ((fle (hll_alpha p) (f_lit 3 4), fle f_zero (hll_alpha p), ffinite (hll_alpha p)) = (true, true, true)); [intros [= -> -> ->]; done|].
  each_p p Hp.
Qed.
Lemma f34_iv : iv (f_lit 3 4) (3 / 4) (3 / 4).
Proof.
  unfold f_lit. assert (3 / 4 = IZR 3 * pw (-2)) as E by (change (pw (-2)) with (/ 4); lra).
  eapply (fdiv_iv _ _ _ _ _ _ _ _ 0); [apply (f_of_Z_iv 3); lia|apply (f_of_Z_iv 4); lia|lra|lra|rewrite E; apply fmt_F2R; lia|lra|lra|rewrite E; apply fmt_F2R; lia|lra|lia|change (pw 0) with 1; lra].
Qed.
Lemma alpha_iv p : (4 <= p <= 18)%Z → iv (hll_alpha p) 0 (3 / 4).
Proof.
  intros Hp. destruct (alpha_le p Hp) as (H1 & H2 & F). split; [done|].
  apply fle_ok in H1; [|done|apply f34_iv]. apply fle_ok in H2; [|apply f_zero_ok|done]. rewrite (iv_eq _ _ f34_iv) in H1. destruct f_zero_ok as (_ & E & _). lra.
Qed.
Lemma normalize_inf p : (4 <= p <= 18)%Z → hll_normalize p plus_inf = 0%Z.
Proof. intros Hp. each_p p Hp. Qed.
Lemma normalize_ok p z r : (4 <= p <= 18)%Z → ffinite z = true → (0 <= r <= 63 - 2 * p)%Z → pw (- r) <= f2r z → f2r z <= pw 60 →
  (0 <= hll_normalize p z < 2 ^ 63)%Z.
Proof.
  intros Hp Fz Hr Hz Hz2. unfold hll_normalize. rewrite (hll_m_eq p Hp).
  assert (iv (f_of_Z (2 ^ p)) (pw p) (pw p)) as Hm.
  { rewrite pw_IZR by lia. apply f_of_Z_iv. assert (2 ^ p <= 2 ^ 18)%Z by (apply Z.pow_le_mono_r; lia). lia. }
  assert (∀ e, (-1000 <= e)%Z → fmt (3 / 4 * pw e)) as F34.
  { intros e He. replace (3 / 4 * pw e) with (IZR 3 * pw (e - 2)); [apply fmt_F2R; lia|].
    rewrite (pw_P e), (pw_P (e - 1)). replace (e - 1 - 1)%Z with (e - 2)%Z by lia. lra. }
  assert (∀ e, 0 < pw e) as P by (intros; apply pw_pos). pose proof (P p).
  assert (iv (fmul (hll_alpha p) (f_of_Z (2 ^ p))) 0 (3 / 4 * pw p)) as H1.
  { eapply (fmul_iv _ _ _ _ _ _ 0 _ p); [by apply alpha_iv|exact Hm|lra|lra|apply generic_format_0|lra|apply F34; lia|lra|lia|lra]. }
  assert (iv (fmul (fmul (hll_alpha p) (f_of_Z (2 ^ p))) (f_of_Z (2 ^ p))) 0 (3 / 4 * pw (p + p))) as H2.
  { eapply (fmul_iv _ _ _ _ _ _ 0 _ (p + p)); [exact H1|exact Hm|lra|lra|apply generic_format_0|lra|apply F34; lia|rewrite bpow_plus; lra|lia|pose proof (P (p + p)%Z); lra]. }
  assert (iv (fdiv (fmul (fmul (hll_alpha p) (f_of_Z (2 ^ p))) (f_of_Z (2 ^ p))) z) 0 (3 / 4 * pw (p + p + r))) as H3.
  { eapply (fdiv_iv _ _ _ _ (pw (- r)) (pw 60) 0 _ (p + p + r)); [exact H2|split; [done|lra]|lra|apply P|apply generic_format_0|lra|lra|apply F34; lia| |lia|pose proof (P (p + p + r)%Z); lra].
    rewrite Rmult_assoc, <- bpow_plus. replace (p + p + r + - r)%Z with (p + p)%Z by lia. lra. }
  set (h := fdiv _ z) in *. destruct H3 as [Fh Hh]. destruct (fceil_ok h Fh) as [Fc Ec].
  assert (pw (p + p + r) <= pw 63) by (apply bpow_le; lia). pose proof (P 63%Z).
  assert (Zceil (f2r h) <= 3 * 2 ^ 61)%Z as Hu.
  { apply Zceil_glb. rewrite mult_IZR, <- pw_IZR by lia. assert (pw 63 = 4 * pw 61) as E by (change 63%Z with (61 + 1 + 1)%Z; rewrite !pw_S; lra). lra. }
  assert (0 <= Zceil (f2r h))%Z as Hlo. { rewrite <- (Zceil_IZR 0). apply Zceil_le. lra. }
  rewrite (f_to_int64_ok _ _ Fc Ec) by lia. lia.
Qed.

(** ** Count always returns *)
Section log.
  Context (glog : float → float).
  Lemma CountN_empty c p : hll_wf c p → BB_CountN (hc_bits c) 0 = Ok (empty_registers c p).
  Proof. intros Hc. pose proof Hc as (_ & _ & _ & Hwf & _). unfold empty_registers. rewrite (registers_bvals c p Hc). by apply CountN_Ok. Qed.
  Lemma empty_range c p : hll_wf c p → (0 <= empty_registers c p <= 2 ^ p)%Z.
  Proof.
    intros Hc. pose proof Hc as (Hp & _). pose proof (hll_size_Z p Hp). unfold empty_registers, registers.
    pose proof (count_eq_bound 0 (map (register c) (seq 0 (hll_size p)))) as H1. rewrite map_length, seq_length in H1. lia.
  Qed.
  Lemma Count_total c p : hll_wf c p → ∃ n, Count_returns glog c n.
  Proof.
    intros Hc. pose proof Hc as (Hp & Hcp & _). unfold Count_returns, Hll_Count. rewrite Hcp, (hll_m_eq p Hp), (CountN_empty c p Hc). cbn [obind].
    destruct ((0 <? empty_registers c p)%Z && fle _ _); [eexists _, O; done|].
    destruct (harmonic_ok c p Hc) as (z & E & _). rewrite E. cbn [obind].
    destruct (fle _ z); [|eexists _, O; done].
    destruct (poisson_ok c p Hc) as (z' & E' & _). eexists _, 100%nat. intros fuel Hf. rewrite E' by done. cbn [obind option_map]. done.
  Qed.
  Lemma Count_functional c n n' : Count_returns glog c n → Count_returns glog c n' → n = n'.
  Proof. intros [f H] [f' H']. specialize (H (Nat.max f f') ltac:(lia)). specialize (H' (Nat.max f f') ltac:(lia)). congruence. Qed.
  Lemma Harmonic_total c p : hll_wf c p → ∃ n, Hll_HarmonicCount c = Ok n.
  Proof.
    intros Hc. pose proof Hc as (Hp & Hcp & _). unfold Hll_HarmonicCount. rewrite Hcp, (hll_m_eq p Hp).
    destruct (harmonic_ok c p Hc) as (z & E & _). rewrite E. cbn [obind]. eauto.
  Qed.
  Lemma Linear_total c p : hll_wf c p → ∃ n, Hll_LinearCount glog c = Ok n.
  Proof. intros Hc. unfold Hll_LinearCount. rewrite (CountN_empty c p Hc). cbn [obind]. eauto. Qed.
  Lemma Poisson_total c p : hll_wf c p → ∃ n, PoissonCount_returns c n.
  Proof.
    intros Hc. pose proof Hc as (Hp & Hcp & _). unfold PoissonCount_returns, Hll_PoissonCount. rewrite Hcp.
    destruct (poisson_ok c p Hc) as (z' & E' & _). eexists _, 100%nat. intros fuel Hf. rewrite E' by done. cbn [obind option_map]. done.
  Qed.

  (** ** the low range *)
  Context (Hlog : log_ok glog).
  Lemma ln_upper x : 0 < x → ln x <= x - 1.
  Proof. intros Hx. pose proof (exp_ineq1_le (ln x)) as H. rewrite exp_ln in H by done. lra. Qed.
  Lemma ln_lower x : 0 < x → 1 - / x <= ln x.
  Proof. intros Hx. pose proof (ln_upper (/ x) (Rinv_0_lt_compat _ Hx)) as H. rewrite ln_Rinv in H by done. lra. Qed.
  Lemma rnd_rel r : 1 <= r → ∃ e, Rabs e <= pw (-53) ∧ rnd r = r * (1 + e).
  Proof.
    intros Hr. destruct (relative_error_N_FLT_ex radix2 (-1074) 53 eq_refl (λ z, negb (Z.even z)) r) as (e & He & E).
    { rewrite Rabs_pos_eq by lra. apply (Rle_trans _ (pw 0)); [apply bpow_le; lia|]. change (pw 0) with 1. lra. }
    exists e. split; [|exact E]. eapply Rle_trans; [exact He|]. apply Req_le. change (Z.opp 53 + 1)%Z with (-52)%Z. rewrite (pw_P (-52)). change (-52 - 1)%Z with (-53)%Z. lra.
  Qed.
  (** the computed product m*Log(m/v) is within 2^-27 of the real one *)
  Lemma linear_err p v : (4 <= p <= 18)%Z → (1 <= v <= 2 ^ p)%Z →
    let t := fmul (f_of_Z (2 ^ p)) (glog (fdiv (f_of_Z (2 ^ p)) (f_of_Z v))) in
    ffinite t = true ∧ Rabs (f2r t - linear_counting p v) <= pw (-27) ∧ 0 <= f2r t <= pw 23.
  Proof.
    intros Hp Hv t. assert (2 ^ p <= 2 ^ 18)%Z as Hp18 by (apply Z.pow_le_mono_r; lia).
    set (q := IZR (2 ^ p) / IZR v). assert (IZR (2 ^ p) = pw p) as Em by (rewrite pw_IZR by lia; done).
    assert (1 <= IZR v <= pw p) as Hv' by (rewrite <- Em; split; apply IZR_le; lia).
    assert (pw p <= pw 18) as Hpm by (apply bpow_le; lia). assert (pw 4 <= pw p) as Hpm4 by (apply bpow_le; lia). change (pw 4) with 16 in Hpm4.
    assert (1 <= q <= pw p) as Hq.
    { unfold q. rewrite Em. split; apply (Rmult_le_reg_r (IZR v)); try lra; unfold Rdiv; rewrite Rmult_assoc, Rinv_l by lra; nra. }
    assert (iv (fdiv (f_of_Z (2 ^ p)) (f_of_Z v)) 1 (pw p)) as Hd.
    { eapply (fdiv_iv _ _ _ _ _ _ 1 (pw p) p); [apply (f_of_Z_iv (2 ^ p)); lia|apply (f_of_Z_iv v); lia|apply (IZR_le 0); lia|lra|apply fmt1|rewrite Em; lra|lra|apply fmt_pw; lia|rewrite Em; nra|lia|lra]. }
    assert (f2r (fdiv (f_of_Z (2 ^ p)) (f_of_Z v)) = rnd q) as Ed.
    { pose proof (f_of_Z_iv (2 ^ p) ltac:(lia)) as H1. pose proof (f_of_Z_iv v ltac:(lia)) as H2.
      destruct (fdiv_ok (f_of_Z (2 ^ p)) (f_of_Z v)) as (_ & E); [apply H1|rewrite (iv_eq _ _ H2); lra| |].
      - rewrite (iv_eq _ _ H1), (iv_eq _ _ H2). fold q. apply (abs_max _ 18); [lia|]. lra.
      - rewrite (iv_eq _ _ H1), (iv_eq _ _ H2) in E. exact E. }
    set (y := fdiv (f_of_Z (2 ^ p)) (f_of_Z v)) in *. destruct Hd as [Fy Hy].
    destruct (Hlog y Fy) as [Fl Hl]; [lra|].
    (* ln y is within 2^-52 of ln q *)
    destruct (rnd_rel q) as (e & He & Er); [lra|]. rewrite Ed in Hl, Hy. rewrite Er in Hl, Hy.
    assert (pw (-53) <= / 16) as Hs53. { change (/ 16) with (pw (-4)). apply bpow_le. lia. }
    apply Rabs_le_inv in He.
    assert (ln (q * (1 + e)) = ln q + ln (1 + e)) as Eln by (apply ln_mult; lra).
    assert (- (2 * pw (-53)) <= ln (1 + e) <= pw (-53)) as He2.
    { pose proof (ln_upper (1 + e) ltac:(lra)). pose proof (ln_lower (1 + e) ltac:(lra)) as H2. split; [|lra].
      assert (/ (1 + e) <= 1 + 2 * pw (-53)); [|lra].
      apply (Rmult_le_reg_r (1 + e)); [lra|]. rewrite Rinv_l by lra. nra. }
    (* ln y <= 18 *)
    assert (0 <= ln (q * (1 + e)) <= 18) as HL.
    { split.
      - rewrite <- ln_1. destruct (Rle_lt_or_eq_dec 1 (q * (1 + e))) as [H|H]; [lra|left; apply ln_increasing; lra|rewrite <- H; lra].
      - assert (ln (pw p) <= 18) as HB.
        { rewrite <- Em. assert (∀ n : nat, ln (2 ^ n) = INR n * ln 2) as HN.
          { induction n as [|n IH]; [simpl; rewrite ln_1; lra|]. cbn [pow]. rewrite ln_mult by (try apply pow_lt; lra). rewrite IH, S_INR. lra. }
          rewrite <- (Z2Nat.id p) by lia. rewrite IZR_pow2, HN. pose proof (ln_upper 2 ltac:(lra)).
          assert (INR (Z.to_nat p) <= 18) by (rewrite INR_IZR_INZ; apply IZR_le; lia). pose proof (pos_INR (Z.to_nat p)).
          pose proof (ln_lower 2 ltac:(lra)). nra. }
        destruct (Rle_lt_or_eq_dec (q * (1 + e)) (pw p)) as [H|H]; [lra| |rewrite H; lra].
        pose proof (ln_increasing (q * (1 + e)) (pw p) ltac:(lra) H). lra. }
    assert (/ 2 ^ 50 = pw (-50)) as E50. { change (-50)%Z with (Z.opp 50). rewrite bpow_opp. f_equal. symmetry. exact (bpow_pow 50). }
    rewrite E50 in Hl. apply Rabs_le_inv in Hl. set (L := ln (q * (1 + e))) in *. set (g := f2r (glog y)) in *.
    pose proof (pw_pos (-50)) as P50. pose proof (pw_pos (-53)) as P53.
    assert (pw (-50) = 8 * pw (-53)) as E503. { change (-50)%Z with (-53 + 1 + 1 + 1)%Z. rewrite !pw_S. lra. }
    assert (pw (-50) * L <= 144 * pw (-53)) as HLb by nra.
    assert (0 <= g <= 19) as Hg by nra.
    (* the product *)
    assert (iv (f_of_Z (2 ^ p)) (pw p) (pw p)) as Hm by (rewrite <- Em; apply f_of_Z_iv; lia).
    assert (pw 23 = 32 * pw 18) as E23. { change 23%Z with (18 + 1 + 1 + 1 + 1 + 1)%Z. rewrite !pw_S. lra. }
    assert (0 <= pw p * g <= pw 23) as Hprod by nra.
    destruct (fmul_ok (f_of_Z (2 ^ p)) (glog y)) as [Ft Et]; [apply Hm|done|rewrite (iv_eq _ _ Hm); apply (abs_max _ 23); [lia|done]|].
    fold t in Ft, Et. rewrite (iv_eq _ _ Hm) in Et. fold g in Et.
    split; [done|].
    assert (0 <= f2r t <= pw 23) as Hbt. { rewrite Et. split; [apply rnd_nonneg; lra|apply rnd_le'; [apply fmt_pw; lia|lra]]. }
    split; [|done].
    (* rounding of the product *)
    assert (Rabs (f2r t - pw p * g) <= pw (-30)) as Hrnd.
    { rewrite Et. eapply Rle_trans; [apply error_le_half_ulp; apply valid64|].
      apply (Rle_trans _ (/ 2 * ulp radix2 fexp64 (pw 23))).
      - apply Rmult_le_compat_l; [lra|]. apply ulp_le; [apply valid64|apply FLT_exp_monotone|]. rewrite !Rabs_pos_eq; [lra|apply bpow_ge_0|lra].
      - rewrite ulp_bpow. change (fexp64 (23 + 1)) with (-29)%Z. rewrite (pw_P (-29)). change (-29 - 1)%Z with (-30)%Z. lra. }
    apply Rabs_le_inv in Hrnd. unfold linear_counting. fold q. rewrite Em. rewrite Eln in HLb, HL, Hl. fold L in Eln.
    assert (pw (-30) = / 8 * pw (-27)) as E30. { change (-27)%Z with (-30 + 1 + 1 + 1)%Z. rewrite !pw_S. lra. }
    assert (pw 18 * pw (-53) = / 256 * pw (-27)) as E35.
    { rewrite <- bpow_plus. change (18 + -53)%Z with (-35)%Z. change (-27)%Z with (-35 + 1 + 1 + 1 + 1 + 1 + 1 + 1 + 1)%Z. rewrite !pw_S. lra. }
    assert (Rabs (g - ln q) <= 146 * pw (-53)) as Hgl by (apply Rabs_le; lra).
    assert (Rabs (pw p * g - pw p * ln q) <= 146 * (pw 18 * pw (-53))) as Hpg.
    { rewrite <- Rmult_minus_distr_l, Rabs_mult. rewrite (Rabs_pos_eq (pw p)) by lra.
      apply (Rle_trans _ (pw 18 * (146 * pw (-53)))); [|lra]. apply Rmult_le_compat; [lra|apply Rabs_pos|lra|done]. }
    apply Rabs_le_inv in Hpg. apply Rabs_le. pose proof (pw_pos (-27)). lra.
  Qed.
End log.
