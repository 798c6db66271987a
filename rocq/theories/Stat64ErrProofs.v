(** Accumulated rounding error of the running mean and variance of a
    statistical summary (supports C109). *)
From Verif Require Import Base BaseProofs Float64 Float64Spec Float64Proofs FloatMore FloatRel
  Stat64Model Stat64Spec Stat64FloatSpec Stat64FloatProofs Stat64RealSpec Stat64RealProofs Stat64ErrSpec.
From Coq Require Import Reals Lra.
From stdpp Require Import sets.
From Flocq Require Import Core Relative.
Notation float := Float64.float.
Open Scope R_scope.

Definition eta : R := pw (-1075).
Lemma rnd_err r : Rabs (rnd r - r) <= uu * Rabs r + eta.
Proof.
  destruct (Rle_or_lt (pw (-1000)) (Rabs r)) as [H|H].
  - destruct (rnd_rel' r H) as (d & Hd & ->). replace (r * (1 + d) - r) with (d * r) by ring. rewrite Rabs_mult.
    pose proof (Rabs_pos r). pose proof (pw_pos (-1075)). unfold eta. nra.
  - destruct (error_N_FLT radix2 (-1074) 53 eq_refl (λ z, negb (Z.even z)) r) as (e & h & He & Hh & _ & E).
    unfold rnd, fexp64. rewrite E. replace (r * (1 + e) + h - r) with (e * r + h) by ring.
    eapply Rle_trans; [apply Rabs_triang|]. rewrite Rabs_mult. apply Rplus_le_compat.
    + apply Rmult_le_compat_r; [apply Rabs_pos|]. eapply Rle_trans; [exact He|].
      change (Z.opp 53 + 1)%Z with (-52)%Z. rewrite (pw_P (-52)). change (-52 - 1)%Z with (-53)%Z. unfold uu. lra.
    + eapply Rle_trans; [exact Hh|]. rewrite (pw_P (-1074)). change (-1074 - 1)%Z with (-1075)%Z. unfold eta. lra.
Qed.
Lemma rnd_err_plus x y : fmt x → fmt y → Rabs (rnd (x + y) - (x + y)) <= uu * Rabs (x + y).
Proof.
  intros Hx Hy. destruct (rnd_plus x y Hx Hy) as (e & He & ->). replace ((x + y) * (1 + e) - (x + y)) with (e * (x + y)) by ring.
  rewrite Rabs_mult. apply Rmult_le_compat_r; [apply Rabs_pos|]. rewrite uu_eq. exact He.
Qed.
Lemma rnd_err_minus x y : fmt x → fmt y → Rabs (rnd (x - y) - (x - y)) <= uu * Rabs (x - y).
Proof. intros Hx Hy. apply (rnd_err_plus x (- y)); [done|by apply fmt_opp]. Qed.

Lemma uu_pos : 0 < uu. Proof. apply pw_pos. Qed.
Lemma uu_small : uu <= / 9007199254740992. Proof. rewrite uu_val. lra. Qed.

(** ** one step of the mean, over the reals *)
Lemma mean_step_err k M D m mu v d q mN :
  2 <= k <= 2 ^ 40 → 0 <= M → 0 <= D → eta <= uu * uu * D →
  Rabs (v - m) <= D → Rabs (d - (v - m)) <= uu * Rabs (v - m) →
  Rabs (q - d / k) <= uu * Rabs (d / k) + eta →
  Rabs (mN - (m + q)) <= uu * Rabs (m + q) → Rabs mN <= M →
  (k - 1) * Rabs (m - mu) <= ((k - 1) * (k - 1) / 2 + (k - 1)) * (uu * M) + 3 * (k - 1) * (uu * D) →
  k * Rabs (mN - (mu + (v - mu) / k)) <= (k * k / 2 + k) * (uu * M) + 3 * k * (uu * D).
Proof.
  intros Hk HM HD Heta Hdel Hd Hq HmN HmNM IH. pose proof uu_pos as U0. pose proof uu_small as U1.
  assert (K40 : (2 ^ 40 = 1099511627776)%R) by lra. rewrite K40 in Hk. clear K40.
  assert (Hku : k * uu <= / 8000) by nra.
  assert (E : k * (mN - (mu + (v - mu) / k)) = (k - 1) * (m - mu) + k * (mN - (m + q)) + (k * q - d) + (d - (v - m))) by (field; lra).
  rewrite <- (Rabs_pos_eq k) at 1 by lra. rewrite <- Rabs_mult, E. clear E.
  assert (Hd1 : Rabs d <= D * (1 + uu)).
  { replace d with ((d - (v - m)) + (v - m)) by ring. eapply Rle_trans; [apply Rabs_triang|]. nra. }
  assert (Hd2 : Rabs (d - (v - m)) <= uu * D) by nra.
  assert (Hq2 : Rabs (k * q - d) <= uu * (D * (1 + uu)) + k * eta).
  { replace (k * q - d) with (k * (q - d / k)) by (field; lra). rewrite Rabs_mult, (Rabs_pos_eq k) by lra.
    assert (Ek : k * Rabs (d / k) = Rabs d).
    { unfold Rdiv. rewrite Rabs_mult, (Rabs_pos_eq (/ k)) by (left; apply Rinv_0_lt_compat; lra). field. lra. }
    assert (k * Rabs (q - d / k) <= k * (uu * Rabs (d / k) + eta)) by (apply Rmult_le_compat_l; lra).
    replace (k * (uu * Rabs (d / k) + eta)) with (uu * (k * Rabs (d / k)) + k * eta) in H by ring. rewrite Ek in H. nra. }
  assert (Hs : Rabs (m + q) <= M * (1 + 2 * uu)).
  { assert (Rabs (m + q) <= Rabs mN + Rabs (mN - (m + q))).
    { replace (m + q) with (mN - (mN - (m + q))) at 1 by ring. eapply Rle_trans; [apply Rabs_triang|]. rewrite Rabs_Ropp. lra. }
    pose proof (Rabs_pos (m + q)).
    assert (uu * Rabs (m + q) <= / 2 * Rabs (m + q)) by (apply Rmult_le_compat_r; lra).
    assert (uu * Rabs (m + q) <= uu * (2 * M)) by (apply Rmult_le_compat_l; lra). lra. }
  assert (Hm2 : Rabs (k * (mN - (m + q))) <= k * (uu * M) * (1 + 2 * uu)).
  { rewrite Rabs_mult, (Rabs_pos_eq k) by lra. assert (Rabs (mN - (m + q)) <= uu * (M * (1 + 2 * uu))) by nra. nra. }
  assert (Hm1 : Rabs ((k - 1) * (m - mu)) = (k - 1) * Rabs (m - mu)) by (rewrite Rabs_mult, (Rabs_pos_eq (k - 1)); lra).
  eapply Rle_trans; [apply Rabs_triang|]. eapply Rle_trans; [apply Rplus_le_compat_r, Rabs_triang|].
  eapply Rle_trans; [apply Rplus_le_compat_r, Rplus_le_compat_r, Rabs_triang|]. rewrite Hm1.
  set (um := uu * M) in *. set (ud := uu * D) in *. assert (0 <= um) by (unfold um; nra). assert (0 <= ud) by (unfold ud; nra).
  assert (Hke : k * eta <= ud * (k * uu)). { unfold ud. assert (k * eta <= k * (uu * uu * D)) by (apply Rmult_le_compat_l; lra). lra. }
  assert (k * um * (1 + 2 * uu) <= k * um + um * / 4000).
  { replace (k * um * (1 + 2 * uu)) with (k * um + um * (2 * (k * uu))) by ring. apply Rplus_le_compat_l, Rmult_le_compat_l; lra. }
  assert (uu * (D * (1 + uu)) <= ud + ud * / 1000).
  { replace (uu * (D * (1 + uu))) with (ud + ud * uu) by (unfold ud; ring). apply Rplus_le_compat_l, Rmult_le_compat_l; lra. }
  assert (ud * (k * uu) <= ud * / 8000) by (apply Rmult_le_compat_l; lra).
  lra.
Qed.

(** ** one step of the sum of squares, over the reals *)
Lemma abs_mul_diff a b a' b' A A' ea eb : Rabs b <= A → Rabs a' <= A' → Rabs (a - a') <= ea → Rabs (b - b') <= eb →
  Rabs (a * b - a' * b') <= ea * A + A' * eb.
Proof.
  intros. replace (a * b - a' * b') with ((a - a') * b + a' * (b - b')) by ring.
  eapply Rle_trans; [apply Rabs_triang|]. rewrite !Rabs_mult.
  apply Rplus_le_compat; apply Rmult_le_compat; auto using Rabs_pos.
Qed.
Definition Emean (k M D : R) : R := (k / 2 + 1) * (uu * M) + 3 * (uu * D).
Definition Ess (k M D : R) : R := (51 / 100 * k * k + 3 * k) * (uu * D * M) + (k * k + 11 * k) * (uu * D * D).
Lemma ss_step_err k M D ss SS m mu v d mN muN g p ssN :
  2 <= k <= 2 ^ 40 → 0 <= M → 0 <= D → eta <= uu * uu * D * D →
  Rabs (v - m) <= D → Rabs (v - mN) <= D → Rabs (v - mu) <= D →
  Rabs (m - mu) <= Emean k M D → Rabs (mN - muN) <= Emean k M D →
  Rabs (d - (v - m)) <= uu * Rabs (v - m) → Rabs (g - (v - mN)) <= uu * Rabs (v - mN) →
  Rabs (p - d * g) <= uu * Rabs (d * g) + eta →
  Rabs (ssN - (ss + p)) <= uu * Rabs (ss + p) →
  Rabs ss <= 2 * (k - 1) * (D * D) →
  Rabs (ss - SS) <= Ess (k - 1) M D →
  Rabs ssN <= 2 * k * (D * D) ∧ Rabs (ssN - (SS + (v - mu) * (v - muN))) <= Ess k M D.
Proof.
  intros Hk HM HD Heta Hdel Hgam Hdel' He He' Hd Hg Hp HssN Hss IH. pose proof uu_pos as U0. pose proof uu_small as U1.
  assert (K40 : (2 ^ 40 = 1099511627776)%R) by lra. rewrite K40 in Hk. clear K40.
  assert (Hku : k * uu <= / 8000) by nra.
  assert (Hd1 : Rabs d <= D * (1 + uu)).
  { replace d with ((d - (v - m)) + (v - m)) by ring. eapply Rle_trans; [apply Rabs_triang|]. nra. }
  assert (Hg1 : Rabs g <= D * (1 + uu)).
  { replace g with ((g - (v - mN)) + (v - mN)) by ring. eapply Rle_trans; [apply Rabs_triang|]. nra. }
  assert (Hd2 : Rabs (d - (v - mu)) <= Emean k M D + uu * D).
  { replace (d - (v - mu)) with ((d - (v - m)) + (- (m - mu))) by ring. eapply Rle_trans; [apply Rabs_triang|]. rewrite Rabs_Ropp. nra. }
  assert (Hg2 : Rabs (g - (v - muN)) <= Emean k M D + uu * D).
  { replace (g - (v - muN)) with ((g - (v - mN)) + (- (mN - muN))) by ring. eapply Rle_trans; [apply Rabs_triang|]. rewrite Rabs_Ropp. nra. }
  pose proof (abs_mul_diff d g (v - mu) (v - muN) (D * (1 + uu)) D _ _ Hg1 Hdel' Hd2 Hg2) as Hdg.
  assert (HDD : 0 <= D * D) by nra.
  assert (Hdg1 : Rabs (d * g) <= D * D * (1 + 3 * uu)).
  { rewrite Rabs_mult. apply Rle_trans with (D * (1 + uu) * (D * (1 + uu))); [apply Rmult_le_compat; auto using Rabs_pos|].
    replace (D * (1 + uu) * (D * (1 + uu))) with (D * D * ((1 + uu) * (1 + uu))) by ring. apply Rmult_le_compat_l; nra. }
  assert (Hp1 : Rabs (p - d * g) <= uu * (D * D) * (1001 / 1000)).
  { replace (uu * uu * D * D) with (uu * (D * D) * uu) in Heta by ring.
    assert (uu * Rabs (d * g) <= uu * (D * D * (1 + 3 * uu))) by (apply Rmult_le_compat_l; lra).
    assert (0 <= uu * (D * D)) by nra. nra. }
  set (w := uu * (D * D)) in *. assert (Hw : 0 <= w) by (unfold w; nra).
  assert (Hw1 : w <= D * D * / 9000000000000000) by (unfold w; nra).
  assert (Hp2 : Rabs p <= D * D * (101 / 100)).
  { replace p with ((p - d * g) + d * g) by ring. eapply Rle_trans; [apply Rabs_triang|].
    assert (D * D * (1 + 3 * uu) <= D * D * (1 + / 1000)) by (apply Rmult_le_compat_l; lra). lra. }
  assert (Hsp : Rabs (ss + p) <= (2 * k - 99 / 100) * (D * D)).
  { eapply Rle_trans; [apply Rabs_triang|]. nra. }
  assert (Herr : Rabs (ssN - (ss + p)) <= (2 * k - 99/100) * w).
  { unfold w. eapply Rle_trans; [exact HssN|]. replace ((2 * k - 99 / 100) * (uu * (D * D))) with (uu * ((2 * k - 99 / 100) * (D * D))) by ring.
    apply Rmult_le_compat_l; lra. }
  split.
  - replace ssN with ((ssN - (ss + p)) + (ss + p)) by ring. eapply Rle_trans; [apply Rabs_triang|].
    assert ((2 * k - 99/100) * w <= D * D * / 1000).
    { unfold w. replace ((2 * k - 99/100) * (uu * (D * D))) with (D * D * ((2 * k - 99/100) * uu)) by ring.
      apply Rmult_le_compat_l; [done|]. nra. }
    nra.
  - replace (ssN - (SS + (v - mu) * (v - muN))) with ((ssN - (ss + p)) + (ss - SS) + (p - d * g) + (d * g - (v - mu) * (v - muN))) by ring.
    eapply Rle_trans; [apply Rabs_triang|]. eapply Rle_trans; [apply Rplus_le_compat_r, Rabs_triang|].
    eapply Rle_trans; [apply Rplus_le_compat_r, Rplus_le_compat_r, Rabs_triang|].
    set (z := uu * (D * M)). assert (Hz : 0 <= z) by (unfold z; assert (0 <= D * M) by nra; nra).
    assert (EE : (Emean k M D + uu * D) * (D * (1 + uu)) + D * (Emean k M D + uu * D) = ((k / 2 + 1) * z + 4 * w) * (2 + uu)).
    { unfold Emean, z, w. ring. }
    rewrite EE in Hdg. clear EE.
    assert (E1 : Ess (k - 1) M D = (51 / 100 * (k - 1) * (k - 1) + 3 * (k - 1)) * z + ((k - 1) * (k - 1) + 11 * (k - 1)) * w) by (unfold Ess, z, w; ring).
    assert (E2 : Ess k M D = (51 / 100 * k * k + 3 * k) * z + (k * k + 11 * k) * w) by (unfold Ess, z, w; ring).
    rewrite E1 in IH. rewrite E2. clear E1 E2.
    assert (H1 : ((k / 2 + 1) * z + 4 * w) * (2 + uu) <= (k + 2 + / 1000) * z + (8 + / 1000) * w).
    { replace (((k / 2 + 1) * z + 4 * w) * (2 + uu)) with ((k + 2 + (k * uu / 2 + uu)) * z + (8 + 4 * uu) * w) by field.
      apply Rplus_le_compat; apply Rmult_le_compat_r; lra. }
    assert (H2 : (51 / 100 * (k - 1) * (k - 1) + 3 * (k - 1)) * z + (k + 2 + / 1000) * z <= (51 / 100 * k * k + 3 * k) * z).
    { rewrite <- Rmult_plus_distr_r. apply Rmult_le_compat_r; nra. }
    assert (H3 : ((k - 1) * (k - 1) + 11 * (k - 1)) * w + (8 + / 1000) * w + (1001 / 1000) * w + (2 * k - 99/100) * w <= (k * k + 11 * k) * w).
    { rewrite <- !Rmult_plus_distr_r. apply Rmult_le_compat_r; nra. }
    lra.
Qed.

(** ** the whole run *)
Lemma Rsum_near v D (xs : list R) : (∀ x, x ∈ xs → Rabs (v - x) <= D) → Rabs (INR (length xs) * v - Rsum xs) <= INR (length xs) * D.
Proof.
  induction xs as [|x xs IH]; intros H; cbn [length Rsum].
  - simpl. rewrite !Rmult_0_l, Rminus_0_r, Rabs_R0. lra.
  - rewrite S_INR. replace ((INR (length xs) + 1) * v - (x + Rsum xs)) with ((v - x) + (INR (length xs) * v - Rsum xs)) by ring.
    eapply Rle_trans; [apply Rabs_triang|].
    pose proof (H x ltac:(set_solver)). pose proof (IH ltac:(intros; apply H; set_solver)). lra.
Qed.
Lemma mean_near v D (xs : list R) mu : xs ≠ [] → INR (length xs) * mu = Rsum xs → (∀ x, x ∈ xs → Rabs (v - x) <= D) → Rabs (v - mu) <= D.
Proof.
  intros H0 E H. pose proof (Rsum_near v D xs H) as Hn. rewrite <- E in Hn.
  replace (INR (length xs) * v - INR (length xs) * mu) with (INR (length xs) * (v - mu)) in Hn by ring.
  assert (0 < INR (length xs)) by (apply lt_0_INR; destruct xs; [done|cbn; lia]).
  rewrite Rabs_mult, (Rabs_pos_eq (INR _)) in Hn by lra. apply (Rmult_le_reg_l (INR (length xs))); [done|exact Hn].
Qed.
Lemma eta_sq D : pw (-400) <= D → eta <= uu * uu * D * D ∧ eta <= uu * uu * D.
Proof.
  intros H. pose proof (pw_pos (-400)) as P. pose proof uu_pos as U.
  assert (E1 : uu * uu = pw (-106)) by (unfold uu; rewrite <- bpow_plus; done).
  split.
  - apply Rle_trans with (uu * uu * pw (-400) * pw (-400)).
    + rewrite E1, <- !bpow_plus. apply bpow_le. lia.
    + rewrite !Rmult_assoc. apply Rmult_le_compat_l; [lra|]. apply Rmult_le_compat_l; [lra|]. nra.
  - apply Rle_trans with (uu * uu * pw (-400)).
    + rewrite E1, <- !bpow_plus. apply bpow_le. lia.
    + apply Rmult_le_compat_l; [nra|done].
Qed.

Notation bounded_by := within.
Lemma bounded_spread M D vs : D <= pw 400 → bounded_by M D vs → spread_ok vs.
Proof.
  intros HD [_ H] v w Hv Hw. eapply Rle_trans; [by apply H|]. eapply Rle_trans; [exact HD|]. apply maxfloat_ge. lia.
Qed.
Lemma bounded_app M D vs ws : bounded_by M D (vs ++ ws) → bounded_by M D vs.
Proof. intros [H1 H2]. split; intros; [apply H1|apply H2]; set_solver. Qed.
Lemma bounded_finite M D vs : bounded_by M D vs → Forall (λ v, ffinite v = true) vs.
Proof. intros [H _]. apply Forall_forall. intros v Hv. by apply H. Qed.
Lemma hull_near a b m v D : a <= m <= b → Rabs (v - a) <= D → Rabs (v - b) <= D → Rabs (v - m) <= D.
Proof. intros H Ha Hb. apply Raux.Rabs_le_inv in Ha, Hb. apply Rabs_le. lra. Qed.
Lemma hull_abs a b m M : a <= m <= b → Rabs a <= M → Rabs b <= M → Rabs m <= M.
Proof. intros H Ha Hb. apply Raux.Rabs_le_inv in Ha, Hb. apply Rabs_le. lra. Qed.

Lemma welford_err M D vs : vs ≠ [] → (Z.of_nat (length vs) <= 2 ^ 40)%Z → pw (-400) <= D <= pw 400 → bounded_by M D vs →
  let '(_, m, q) := welford vs in let a := runR (map f2r vs) in let n := INR (length vs) in
  ffinite q = true ∧ Rabs (f2r q) <= 2 * n * (D * D) ∧
  n * Rabs (f2r m - a_mean a) <= (n * n / 2 + n) * (uu * M) + 3 * n * (uu * D) ∧
  Rabs (f2r q - a_ss a) <= Ess n M D.
Proof.
  intros Hne Hn HD. pose proof (pw_pos (-400)) as P0. pose proof uu_pos as U0.
  induction vs as [|v vs IH] using rev_ind; [done|]. intros HB. clear Hne.
  rewrite app_length in Hn. cbn [length] in Hn.
  assert (HM : 0 <= M). { destruct HB as [HB _]. destruct (HB v ltac:(set_solver)) as [_ H]. pose proof (Rabs_pos (f2r v)). lra. }
  pose proof (bounded_app _ _ _ _ HB) as HB'.
  pose proof (welford_inv (vs ++ [v]) ltac:(rewrite app_length; cbn [length]; lia) (bounded_finite _ _ _ HB) (bounded_spread M D _ ltac:(lra) HB)) as HN.
  pose proof (welford_inv vs ltac:(lia) (bounded_finite _ _ _ HB') (bounded_spread M D _ ltac:(lra) HB')) as HO.
  rewrite map_app. change (map f2r [v]) with [f2r v]. rewrite runR_app.
  rewrite welford_snoc in *. destruct (welford vs) as [[k m] q] eqn:Ew. cbv zeta in *.
  destruct HO as (-> & Fm & _ & Hm0 & HhO). rewrite Z.mod_small in * by lia.
  destruct HN as (_ & FmN & _ & _ & HhN). specialize (HhN ltac:(by destruct vs)).
  destruct HhN as (aN & bN & HaN & HbN & HabN).
  destruct HB as [HB1 HB2].
  destruct (HB1 v ltac:(set_solver)) as [Fv Mv].
  set (K := f_of_Z (Z.of_nat (length vs) + 1)) in *.
  destruct (f_of_Z_exact (Z.of_nat (length vs) + 1) ltac:(lia)) as (FK & RK & _). fold K in FK, RK.
  destruct (runR_spec (map f2r vs) ltac:(rewrite map_length; lia)) as (Rc & _ & Rm & Rq). rewrite map_length in Rc, Rm.
  unfold observeR, observe. cbn [a_mean a_ss]. rewrite Rc, u64_small by lia.
  replace (IZR (Z.of_nat (length vs) + 1)) with (INR (length vs) + 1) in * by (rewrite plus_IZR, <- INR_IZR_INZ; done).
  rewrite app_length, plus_INR. cbn [length]. change (INR 1) with 1.
  assert (Hgam : Rabs (f2r v - f2r (fadd m (fdiv (fsub v m) K))) <= D).
  { apply (hull_near (f2r aN) (f2r bN)); [done|apply HB2; set_solver|apply HB2; set_solver]. }
  assert (HMN : Rabs (f2r (fadd m (fdiv (fsub v m) K))) <= M).
  { apply (hull_abs (f2r aN) (f2r bN)); [done|apply HB1; set_solver|apply HB1; set_solver]. }
  assert (HDm : D <= maxfloat) by (eapply Rle_trans; [apply HD|apply maxfloat_ge; lia]).
  destruct (fsub_ok v (fadd m (fdiv (fsub v m) K)) Fv FmN ltac:(lra)) as [Fg Rg].
  pose proof (rnd_err_minus (f2r v) (f2r (fadd m (fdiv (fsub v m) K))) (fmt_f2r _) (fmt_f2r _)) as Eg. rewrite <- Rg in Eg.
  destruct (eta_sq D ltac:(lra)) as [Heta2 Heta1].
  destruct (decide (vs = [])) as [->|Hne].
  - assert (Eq : q = f_zero) by (unfold welford in Ew; cbn [fold_left] in Ew; congruence).
    destruct f_zero_ok as (Zf & Zr & _). rewrite (Hm0 eq_refl) in *.
    assert (EN : f2r (fadd m (fdiv (fsub v m) K)) = f2r v).
    { cbn [app] in HaN, HbN. apply elem_of_list_singleton in HaN, HbN. subst aN bN. lra. }
    set (mN := fadd m (fdiv (fsub v m) K)) in *.
    assert (Rg0 : f2r (fsub v mN) = 0) by (rewrite Rg, EN, Rminus_diag_eq by done; apply rnd_0).
    destruct (fsub_ok v m Fv Fm) as [Fd Rd]; [rewrite (Hm0 eq_refl), Rminus_0_r; apply f2r_bound|].
    destruct (fmul_zero (fsub v m) (fsub v mN) Fd Fg) as [Fp Rp]; [rewrite Rg0; ring|].
    set (p := fmul (fsub v m) (fsub v mN)) in *. subst q.
    destruct (fadd_ok f_zero p Zf Fp) as (Fs & Rs & _).
    { rewrite Zr, Rp, Rplus_0_l, Rabs_R0. left. apply maxfloat_pos. }
    rewrite Zr, Rp, Rplus_0_l, rnd_0 in Rs. rewrite Rs, EN. cbn [length map]. change (INR 0) with 0.
    unfold runR. cbn [fold_left a_mean a_ss].
    replace (0 + (f2r v - 0) / (0 + 1)) with (f2r v) by field.
    replace (0 - (0 + (f2r v - 0) * (f2r v - f2r v))) with 0 by ring. rewrite Rminus_diag_eq, Rabs_R0 by done.
    assert (0 <= uu * M) by nra. assert (0 <= uu * D) by nra. unfold Ess.
    assert (0 <= uu * D * M) by nra. assert (0 <= uu * D * D) by nra.
    split; [done|]. split_and!; nra.
  - destruct (IH Hne ltac:(lia) HB') as (Fq & Bq & IHm & IHs). clear IH.
    assert (Hmu : Rabs (f2r v - a_mean (runR (map f2r vs))) <= D).
    { apply (mean_near _ D (map f2r vs)); [by destruct vs|by rewrite map_length|].
      intros x (w & -> & Hw)%elem_of_list_fmap. apply HB2; set_solver. }
    destruct (HhO Hne) as (aO & bO & HaO & HbO & HabO). clear HhO.
    assert (Hdel : Rabs (f2r v - f2r m) <= D).
    { apply (hull_near (f2r aO) (f2r bO)); [done|apply HB2; set_solver|apply HB2; set_solver]. }
    destruct (fsub_ok v m Fv Fm ltac:(lra)) as [Fd Rd].
    pose proof (rnd_err_minus (f2r v) (f2r m) (fmt_f2r _) (fmt_f2r _)) as Ed. rewrite <- Rd in Ed.
    assert (HK : 2 <= INR (length vs) + 1 <= 2 ^ 40).
    { rewrite INR_IZR_INZ, <- plus_IZR. split; [apply (IZR_le 2); destruct vs; [done|cbn [length]; lia]|].
      replace (2 ^ 40) with (IZR (2 ^ 40)) by (rewrite <- (IZR_pow2 40); done). apply IZR_le. lia. }
    assert (HDD : 0 <= D * D <= pw 800).
    { split; [nra|]. change 800%Z with (400 + 400)%Z. rewrite bpow_plus. pose proof (pw_pos 400). nra. }
    assert (Dd : Rabs (f2r (fsub v m)) <= D * (1 + uu)).
    { replace (f2r (fsub v m)) with ((f2r (fsub v m) - (f2r v - f2r m)) + (f2r v - f2r m)) by ring. eapply Rle_trans; [apply Rabs_triang|]. nra. }
    assert (Dg : Rabs (f2r (fsub v (fadd m (fdiv (fsub v m) K)))) <= D * (1 + uu)).
    { replace (f2r (fsub v (fadd m (fdiv (fsub v m) K)))) with ((f2r (fsub v (fadd m (fdiv (fsub v m) K))) - (f2r v - f2r (fadd m (fdiv (fsub v m) K)))) + (f2r v - f2r (fadd m (fdiv (fsub v m) K)))) by ring.
      eapply Rle_trans; [apply Rabs_triang|]. nra. }
    pose proof uu_small as U1.
    destruct (fdiv_ok (fsub v m) K Fd) as [Ff Rf]; [lra| |].
    { rewrite RK. unfold Rdiv. rewrite Rabs_mult, Rabs_inv, (Rabs_pos_eq (INR _ + 1)) by lra.
      apply Rle_div_l; [lra|]. pose proof (Rabs_pos (f2r (fsub v m))). assert (Rabs (f2r (fsub v m)) <= maxfloat) by apply f2r_bound. pose proof maxfloat_pos. nra. }
    pose proof (rnd_err (f2r (fsub v m) / f2r K)) as Ef. rewrite <- Rf, RK in Ef.
    assert (Hadd : ffinite (fadd m (fdiv (fsub v m) K)) = true → f2r (fadd m (fdiv (fsub v m) K)) = rnd (f2r m + f2r (fdiv (fsub v m) K))) by (intros H; by destruct (fadd_finite_inv _ _ H) as (_ & _ & ?)).
    specialize (Hadd FmN).
    pose proof (rnd_err_plus (f2r m) (f2r (fdiv (fsub v m) K)) (fmt_f2r _) (fmt_f2r _)) as Ea. rewrite <- Hadd in Ea.
    set (mN := fadd m (fdiv (fsub v m) K)) in *.
    assert (HP : Rabs (f2r (fsub v m) * f2r (fsub v mN)) <= 2 * pw 800).
    { rewrite Rabs_mult. apply Rle_trans with (D * (1 + uu) * (D * (1 + uu))); [apply Rmult_le_compat; auto using Rabs_pos|]. nra. }
    assert (M801 : 2 * pw 800 <= maxfloat).
    { rewrite <- pw_S. apply maxfloat_ge. lia. }
    destruct (fmul_ok (fsub v m) (fsub v mN) Fd Fg) as (Fp & Rp); [lra|].
    pose proof (rnd_err (f2r (fsub v m) * f2r (fsub v mN))) as Ep. rewrite <- Rp in Ep.
    set (k := INR (length vs) + 1) in *. replace (INR (length vs)) with (k - 1) in * by (unfold k; ring).
    set (mu := a_mean (runR (map f2r vs))) in *. set (SS := a_ss (runR (map f2r vs))) in *.
    set (p := fmul (fsub v m) (fsub v mN)) in *.
    assert (Hmean : k * Rabs (f2r mN - (mu + (f2r v - mu) / k)) <= (k * k / 2 + k) * (uu * M) + 3 * k * (uu * D)).
    { apply (mean_step_err k M D (f2r m) mu (f2r v) (f2r (fsub v m)) (f2r (fdiv (fsub v m) K))); try done; lra. }
    assert (Hbig : Rabs (f2r q + f2r p) <= maxfloat).
    { apply Rle_trans with (pw 843); [|apply maxfloat_ge; lia].
      assert (E43 : pw 843 = 8796093022208 * pw 800) by (change 843%Z with (43 + 800)%Z; rewrite bpow_plus; f_equal; rewrite pw_IZR by lia; done).
      rewrite E43. clear E43. eapply Rle_trans; [apply Rabs_triang|].
      assert (P8 : 1 <= pw 800) by (change 1 with (pw 0); apply bpow_le; lia).
      assert (Pe : eta <= 1) by (change 1 with (pw 0); unfold eta; apply bpow_le; lia).
      assert (Rabs (f2r p) <= 4 * pw 800).
      { replace (f2r p) with ((f2r p - f2r (fsub v m) * f2r (fsub v mN)) + f2r (fsub v m) * f2r (fsub v mN)) by ring.
        eapply Rle_trans; [apply Rabs_triang|]. pose proof (Rabs_pos (f2r (fsub v m) * f2r (fsub v mN))). nra. }
      assert (K40 : (2 ^ 40 = 1099511627776)%R) by lra. rewrite K40 in HK. clear K40.
      assert (2 * (k - 1) * (D * D) <= 2199023255552 * pw 800) by (apply Rmult_le_compat; lra). lra. }
    destruct (fadd_ok q p Fq Fp Hbig) as (Fs & Rs & _).
    pose proof (rnd_err_plus (f2r q) (f2r p) (fmt_f2r _) (fmt_f2r _)) as Es. rewrite <- Rs in Es.
    assert (Hem : Rabs (f2r m - mu) <= Emean k M D).
    { assert (0 <= uu * M) by nra. apply Rle_trans with (Emean (k - 1) M D); [|unfold Emean; nra].
      apply (Rmult_le_reg_l (k - 1)); [lra|]. eapply Rle_trans; [exact IHm|]. unfold Emean. apply Req_le. field. }
    assert (HeN : Rabs (f2r mN - (mu + (f2r v - mu) / k)) <= Emean k M D).
    { apply (Rmult_le_reg_l k); [lra|]. eapply Rle_trans; [exact Hmean|]. unfold Emean. apply Req_le. field. }
    destruct (ss_step_err k M D (f2r q) SS (f2r m) mu (f2r v) (f2r (fsub v m)) (f2r mN) (mu + (f2r v - mu) / k) (f2r (fsub v mN)) (f2r p) (f2r (fadd q p)))
      as [Hs1 Hs2]; try done; try lra.
Qed.

Lemma mean_err M D vs : vs ≠ [] → (Z.of_nat (length vs) <= 2 ^ 40)%Z → pw (-400) <= D <= pw 400 → bounded_by M D vs →
  Rabs (f2r (mean_spec vs) - Rmean (map f2r vs)) <= uu * ((INR (length vs) / 2 + 1) * M + 3 * D).
Proof.
  intros Hne Hn HD HB. pose proof (welford_err M D vs Hne Hn HD HB) as H. unfold mean_spec.
  destruct (welford vs) as [[k m] q]. cbn [fst snd]. cbv zeta in H. destruct H as (_ & _ & H & _).
  rewrite runR_mean in H; [|by destruct vs|rewrite map_length; lia].
  assert (0 < INR (length vs)) by (apply lt_0_INR; destruct vs; [done|cbn; lia]).
  apply (Rmult_le_reg_l (INR (length vs))); [done|]. eapply Rle_trans; [exact H|]. apply Req_le. field.
Qed.
Lemma var_err M D vs : (2 <= Z.of_nat (length vs) <= 2 ^ 40)%Z → pw (-400) <= D <= pw 400 → bounded_by M D vs →
  ffinite (var_spec vs) = true ∧
  Rabs (f2r (var_spec vs) - Rvariance (map f2r vs)) <= uu * D * ((INR (length vs) + 10) * M + (INR (length vs) + 30) * D).
Proof.
  intros Hn HD HB. assert (Hne : vs ≠ []) by (intros ->; cbn in Hn; lia).
  pose proof (welford_err M D vs Hne ltac:(lia) HD HB) as H. unfold var_spec, ss_spec, count_spec.
  destruct (welford vs) as [[k m] q]. cbn [fst snd]. cbv zeta in H. destruct H as (Fq & Bq & _ & H).
  rewrite runR_ss in H by (rewrite map_length; lia). rewrite Z.mod_small by lia.
  destruct (Z.ltb_spec (Z.of_nat (length vs)) 2); [lia|].
  destruct (f_of_Z_exact (Z.of_nat (length vs) - 1) ltac:(lia)) as (FK & RK & _).
  unfold Rvariance. rewrite map_length.
  rewrite minus_IZR, <- INR_IZR_INZ in RK.
  assert (HM : 0 <= M). { destruct HB as [HB _]. destruct vs as [|v vs]; [done|]. destruct (HB v ltac:(set_solver)) as [_ H']. pose proof (Rabs_pos (f2r v)). lra. }
  set (n := INR (length vs)) in *. set (SS := Rdev2 _ _) in *.
  assert (Hn2 : 2 <= n) by (unfold n; rewrite INR_IZR_INZ; apply (IZR_le 2); lia).
  pose proof uu_pos as U0. pose proof (pw_pos (-400)) as P0. pose proof uu_small as U1.
  assert (HDD : 0 <= D * D <= pw 800).
  { split; [nra|]. change 800%Z with (400 + 400)%Z. rewrite bpow_plus. pose proof (pw_pos 400). nra. }
  assert (Hquot : Rabs (f2r q / (n - 1)) <= 4 * (D * D)).
  { unfold Rdiv. rewrite Rabs_mult, (Rabs_pos_eq (/ (n - 1))) by (left; apply Rinv_0_lt_compat; lra).
    apply Rle_div_l; [lra|]. nra. }
  destruct (fdiv_ok q (f_of_Z (Z.of_nat (length vs) - 1)) Fq) as [Fv Rv]; [lra| |].
  { rewrite RK. eapply Rle_trans; [exact Hquot|]. apply Rle_trans with (4 * pw 800); [lra|].
    replace (4 * pw 800) with (pw 802); [apply maxfloat_ge; lia|]. change 802%Z with (2 + 800)%Z. rewrite bpow_plus. f_equal. }
  split; [done|]. pose proof (rnd_err (f2r q / (n - 1))) as Er. rewrite <- RK, <- Rv, RK in Er.
  destruct (eta_sq D ltac:(lra)) as [He _].
  set (V := f2r (fdiv _ _)) in *.
  replace (V - SS / (n - 1)) with ((V - f2r q / (n - 1)) + (f2r q - SS) / (n - 1)) by (field; lra).
  eapply Rle_trans; [apply Rabs_triang|].
  set (w := uu * (D * D)). set (z := uu * (D * M)).
  assert (Hw : 0 <= w) by (unfold w; nra). assert (Hz : 0 <= z) by (unfold z; assert (0 <= D * M) by nra; nra).
  replace (uu * D * ((n + 10) * M + (n + 30) * D)) with ((n + 10) * z + (n + 30) * w) by (unfold w, z; ring).
  assert (E1 : Rabs (V - f2r q / (n - 1)) <= 5 * w).
  { eapply Rle_trans; [exact Er|]. replace (uu * uu * D * D) with (w * uu) in He by (unfold w; ring).
    assert (uu * Rabs (f2r q / (n - 1)) <= uu * (4 * (D * D))) by (apply Rmult_le_compat_l; lra).
    replace (uu * (4 * (D * D))) with (4 * w) in * by (unfold w; ring). nra. }
  assert (E2 : Rabs ((f2r q - SS) / (n - 1)) <= (n + 10) * z + (n + 25) * w).
  { unfold Rdiv. rewrite Rabs_mult, (Rabs_pos_eq (/ (n - 1))) by (left; apply Rinv_0_lt_compat; lra).
    apply Rle_div_l; [lra|]. eapply Rle_trans; [exact H|].
    replace (Ess n M D) with ((51 / 100 * n * n + 3 * n) * z + (n * n + 11 * n) * w) by (unfold Ess, z, w; ring).
    replace (((n + 10) * z + (n + 25) * w) * (n - 1)) with ((n + 10) * (n - 1) * z + (n + 25) * (n - 1) * w) by ring.
    apply Rplus_le_compat; apply Rmult_le_compat_r; nra. }
  lra.
Qed.
