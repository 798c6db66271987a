(** The estimators against the published formulas. *)
From Verif Require Import Base BaseProofs Float64 Float64Spec Float64Proofs BitbucketModel BitbucketSpec BitbucketProofs HllModel HllSpec HllProofs HllCountModel HllCountSpec
  FloatMore FloatRel HllCountLoops HllCountProofs HllCountTop HllEstSpec HllEstArith HllEstSigma HllEstTau.
From Coq Require Import ZifyBool ZifyNat.
From Coq Require Import Reals Lra.
From Flocq Require Import Core Relative.
Notation float := Float64.float.
Open Scope R_scope.

Lemma pow_nat_pw p : (0 <= p)%Z → 2 ^ Z.to_nat p = pw p.
Proof. intros H. rewrite pow_pw, Z2Nat.id by done. done. Qed.
Lemma Rsum_app {A} (f : A → R) l k : Rsum_over f (l ++ k) = Rsum_over f l + Rsum_over f k.
Proof. unfold Rsum_over. induction l as [|x l IH]; cbn; [lra|]. rewrite IH. lra. Qed.
Lemma Rsum_nonneg {A} (f : A → R) l : (∀ x, x ∈ l → 0 <= f x) → 0 <= Rsum_over f l.
Proof.
  unfold Rsum_over. induction l as [|x l IH]; intros H; cbn; [lra|]. pose proof (H x ltac:(left)). specialize (IH ltac:(intros; apply H; by right)). lra.
Qed.

(** ** alpha *)
Lemma af_lit a b : (1 <= a <= 2 ^ 53)%Z → (1 <= b <= 2 ^ 53)%Z → af (f_lit a b) vv (IZR a / IZR b).
Proof.
  intros Ha Hb. unfold f_lit. assert (1 <= IZR a <= pw 53) as Ba by (rewrite pw_IZR by lia; split; apply IZR_le; lia).
  assert (1 <= IZR b <= pw 53) as Bb by (rewrite pw_IZR by lia; split; apply IZR_le; lia).
  assert (/ pw 53 <= / IZR b <= 1) as Bi. { split; [apply Rinv_le_contravar; lra|]. rewrite <- Rinv_1. apply Rinv_le_contravar; lra. }
  rewrite <- bpow_opp in Bi. pose proof (pw_pos (- (53))).
  eapply af_weaken; [apply af_div; [apply af_iv; [apply f_of_Z_iv; lia|lra]|apply af_iv; [apply f_of_Z_iv; lia|lra]|lra| |lra]|lra].
  right. unfold Rdiv. pose proof (bpow_le radix2 (-900) (- (53)) ltac:(lia)). pose proof (bpow_le radix2 53 900 ltac:(lia)). split; nra.
Qed.
Lemma sz_mid a : / 1024 <= a <= 1024 → sz a.
Proof.
  intros H. right. pose proof (bpow_le radix2 (-900) (-10) ltac:(lia)). pose proof (bpow_le radix2 10 900 ltac:(lia)).
  change (pw (-10)) with (/ 1024) in *. change (pw 10) with 1024 in *. lra.
Qed.
Lemma alpha_af p : (4 <= p <= 18)%Z → af (hll_alpha p) (8 * vv) (alpha p) ∧ / 2 <= alpha p <= 1.
Proof.
  intros Hp. pose proof vv_pos as Hv.
  assert (∀ b, (b = 128 ∨ b = 256)%Z → let a := 0.7213 / (1 + 1.079 / IZR b) in
    af (fdiv (f_lit 7213 10000) (fadd f_one (fdiv (f_lit 1079 1000) (f_of_Z b)))) (8 * vv) a ∧ / 2 <= a <= 1) as Hmid.
  { intros b Hb. assert (128 <= IZR b <= 256) as Bb by (split; apply IZR_le; lia).
    assert (af (fdiv (f_lit 1079 1000) (f_of_Z b)) (2 * vv) (1.079 / IZR b)) as H1.
    { eapply af_weaken; [apply (af_div _ _ vv 0); [apply (af_lit 1079 1000); lia|apply af_iv; [apply f_of_Z_iv; lia|lra]|lra| |rewrite vv_val; lra]|lra].
      destruct Hb as [->| ->]; apply sz_mid; lra. }
    assert (af (fadd f_one (fdiv (f_lit 1079 1000) (f_of_Z b))) (3 * vv) (1 + 1.079 / IZR b)) as H2.
    { eapply af_weaken; [apply (af_add _ _ (2 * vv)); [eapply af_weaken; [apply af_iv; [apply f_one_iv|lra]|lra]|exact H1| |rewrite vv_val; lra]|lra].
      destruct Hb as [->| ->]; apply sz_mid; lra. }
    assert (/ 2 <= 0.7213 / (1 + 1.079 / IZR b) <= 1) as Ba.
    { destruct Hb as [->| ->]; split; apply (Rmult_le_reg_r (1 + 1.079 / 128)) || apply (Rmult_le_reg_r (1 + 1.079 / 256)); lra || idtac.
      all: unfold Rdiv; rewrite ?Rmult_assoc, ?Rinv_l by lra; lra. }
    split; [|done].
    eapply af_weaken; [apply (af_div _ _ vv (3 * vv)); [apply (af_lit 7213 10000); lia|exact H2| |apply sz_mid; lra|rewrite vv_val; lra]|lra].
    destruct Hb as [->| ->]; lra. }
  assert (p = 4 ∨ p = 5 ∨ p = 6 ∨ p = 7 ∨ p = 8 ∨ 9 <= p)%Z as [->|[->|[->|[->|[->|H9]]]]] by lia.
  - split; [|unfold alpha; cbn -[IZR Rdiv]; lra]. eapply af_weaken; [apply (af_lit 673 1000); lia|lra].
  - split; [|unfold alpha; cbn -[IZR Rdiv]; lra]. eapply af_weaken; [apply (af_lit 697 1000); lia|lra].
  - split; [|unfold alpha; cbn -[IZR Rdiv]; lra]. eapply af_weaken; [apply (af_lit 709 1000); lia|lra].
  - destruct (Hmid 128%Z ltac:(lia)) as [H1 H2]. assert (alpha 7 = 0.7213 / (1 + 1.079 / 128)) as ->.
    { unfold alpha. change (7 =? 4)%Z with false. change (7 =? 5)%Z with false. change (7 =? 6)%Z with false. change (7 <=? 8)%Z with true. cbv iota. rewrite pow_nat_pw by lia. change (pw 7) with 128. done. }
    split; [exact H1|exact H2].
  - destruct (Hmid 256%Z ltac:(lia)) as [H1 H2]. assert (alpha 8 = 0.7213 / (1 + 1.079 / 256)) as ->.
    { unfold alpha. change (8 =? 4)%Z with false. change (8 =? 5)%Z with false. change (8 =? 6)%Z with false. change (8 <=? 8)%Z with true. cbv iota. rewrite pow_nat_pw by lia. change (pw 8) with 256. done. }
    split; [exact H1|exact H2].
  - assert (alpha p = 7213475 / 10000000) as ->.
    { unfold alpha. assert ((p =? 4)%Z = false) as -> by lia. assert ((p =? 5)%Z = false) as -> by lia. assert ((p =? 6)%Z = false) as -> by lia. assert ((p <=? 8)%Z = false) as -> by lia. lra. }
    assert (hll_alpha p = f_lit 7213475 10000000) as ->.
    { unfold hll_alpha. rewrite (hll_m_eq p Hp). assert (2 ^ 9 <= 2 ^ p)%Z by (apply Z.pow_le_mono_r; lia).
      assert ((2 ^ p <=? 16)%Z = false) as -> by lia. assert ((2 ^ p <=? 32)%Z = false) as -> by lia. assert ((2 ^ p <=? 64)%Z = false) as -> by lia. assert ((256 <? 2 ^ p)%Z = true) as -> by lia. done. }
    split; [|lra]. eapply af_weaken; [apply (af_lit 7213475 10000000); lia|lra].
Qed.

(** ** the normalised estimate *)
Lemma estimate_pos p z : (4 <= p <= 18)%Z → 0 < z → 0 < estimate p z.
Proof.
  intros Hp Hz. unfold estimate. destruct (alpha_af p Hp) as [_ Ha]. rewrite pow_nat_pw by lia. pose proof (pw_pos p).
  apply Rdiv_lt_0_compat; [|done]. apply Rmult_lt_0_compat; [|done]. apply Rmult_lt_0_compat; lra.
Qed.
Lemma normalize_err p z r Z0 : (4 <= p <= 18)%Z → af z r Z0 → 0 <= r <= / 3000000 → 0 < Z0 <= pw 100 → estimate p Z0 <= 2 ^ 61 →
  rounded_up (hll_normalize p z) (estimate p Z0).
Proof.
  intros Hp Hz Hr HZ HE. pose proof vv_pos as Hv. pose proof vv_val as Ev. destruct (alpha_af p Hp) as [Ha Ba].
  assert (16 <= pw p <= pw 18) as Bp by (split; [apply (bpow_le radix2 4); lia|apply bpow_le; lia]).
  change (pw 18) with 262144 in Bp.
  assert (af (f_of_Z (2 ^ p)) 0 (pw p)) as Hm.
  { apply af_iv; [|lra]. rewrite pw_IZR by lia. apply f_of_Z_iv. assert (2 ^ p <= 2 ^ 18)%Z by (apply Z.pow_le_mono_r; lia). lia. }
  assert (∀ a, 1 <= a <= pw 40 → sz a) as Hsz. { intros a Haa. right. pose proof (bpow_le radix2 (-900) 0 ltac:(lia)). pose proof (bpow_le radix2 40 900 ltac:(lia)). change (pw 0) with 1 in *. lra. }
  change (pw 40) with 1099511627776 in Hsz.
  assert (8 <= alpha p * pw p <= 262144) as B1 by nra.
  assert (8 <= alpha p * pw p * pw p <= 262144 * 262144) as B2 by nra.
  pose proof (af_mul _ _ _ _ _ _ Ha Hm ltac:(apply Hsz; lra) ltac:(rewrite Ev; lra)) as H1.
  pose proof (af_mul _ _ _ _ _ _ H1 Hm ltac:(apply Hsz; lra) ltac:(rewrite Ev; lra)) as H2.
  unfold estimate in *. rewrite pow_nat_pw in * by lia. set (e := alpha p * pw p * pw p / Z0) in *.
  assert (2 ^ 61 = pw 61) as E61 by (symmetry; exact (bpow_pow 61)). rewrite E61 in HE.
  assert (pw (-100) <= e) as Be.
  { unfold e. apply (Rmult_le_reg_r Z0); [lra|]. replace (alpha p * pw p * pw p / Z0 * Z0) with (alpha p * pw p * pw p) by (field; lra).
    apply (Rle_trans _ (pw (-100) * pw 100)); [apply Rmult_le_compat_l; [apply bpow_ge_0|lra]|]. rewrite <- bpow_plus. change (pw (-100 + 100)) with 1. lra. }
  assert (sz e) as He. { right. pose proof (bpow_le radix2 (-900) (-100) ltac:(lia)). pose proof (bpow_le radix2 61 900 ltac:(lia)). lra. }
  pose proof (af_div _ _ _ _ _ _ H2 Hz ltac:(lra) He ltac:(rewrite Ev; lra)) as H3. fold e in H3.
  destruct (af_bounds _ _ _ H3) as [L U]; [rewrite Ev; lra|]. pose proof (proj1 H3) as F3.
  unfold hll_normalize. rewrite (hll_m_eq p Hp). set (h := fdiv _ z) in *. pose proof (pw_pos (-100)). assert (pw 62 = 2 * pw 61) as E62 by apply (pw_S 61).
  set (rr := 8 * vv + 0 + vv + 0 + vv + r + vv) in *. assert (0 <= rr <= / 2900000) as Br by (unfold rr; rewrite Ev; lra).
  assert (e * (1 - / 2900000) <= f2r h) as L' by (eapply Rle_trans; [|exact L]; apply Rmult_le_compat_l; lra).
  assert (f2r h <= e * (1 + 2 * / 2900000)) as U' by (eapply Rle_trans; [exact U|]; apply Rmult_le_compat_l; lra).
  destruct (ceil_int h F3) as (-> & _); [lra|]. unfold rounded_up. change (10 ^ 6) with (10 * (10 * (10 * (10 * (10 * (10 * 1)))))).
  pose proof (Zceil_ub (f2r h)). pose proof (Zceil_lb (f2r h)). lra.
Qed.

(** ** harmonic *)
Lemma half_weight_eq r : (0 <= r)%Z → half_weight r = weight r.
Proof.
  intros H. unfold half_weight, flajolet_weight, weight. destruct (r =? 0)%Z eqn:E.
  - replace (Z.max 1 r) with 1%Z by lia. change (pw (- (1))) with (/ 2). lra.
  - replace (Z.max 1 r) with r by lia. rewrite pow_nat_pw by lia. by rewrite bpow_opp.
Qed.
Lemma weight_ge r : (0 <= r <= 63)%Z → pw (-63) <= weight r <= / 2.
Proof. intros H. split; [apply bpow_le; lia|apply weight_le]. Qed.
Definition hsum (c : Counter) (i k : nat) : R := Rsum_over weight (map (hreg c) (seq i k)).
Lemma harmonic_loop_err c p : hll_wf c p → ∀ k i z S0, (i + k = hll_size p)%nat → af z (INR i * vv) S0 → S0 = 0 ∨ pw (-63) <= S0 → S0 <= INR i →
  ∀ z', harmonic_loop c k (Z.of_nat i) z = Ok z' → af z' (INR (i + k) * vv) (S0 + hsum c i k).
Proof.
  intros Hc. pose proof Hc as (Hp & _ & _ & Hwf & _). pose proof (hll_size_Z p Hp) as Hs. pose proof vv_pos as Hv.
  assert (2 ^ p <= 2 ^ 18)%Z as Hp18 by (apply Z.pow_le_mono_r; lia).
  induction k as [|k IH]; intros i z S0 Hi Hz H0 H1 z' E; cbn [harmonic_loop] in E.
  - injection E as <-. rewrite Nat.add_0_r. unfold hsum. cbn. rewrite Rplus_0_r. done.
  - rewrite (Get_Ok _ _ i Hwf) in E by lia. cbn [obind] in E. pose proof (hreg_range c p i Hc ltac:(lia)) as Hr. unfold hreg in Hr.
    set (r := bval (hc_bits c) i) in *.
    assert (∃ d, iv d (weight r) (weight r) ∧ (if (r =? 0)%Z then harmonic_loop c k (Z.of_nat i + 1) (fadd z f_half) else
       harmonic_loop c k (Z.of_nat i + 1) (fadd z (fdiv f_one (f_of_Z (shl64 1 r))))) = harmonic_loop c k (Z.of_nat i + 1) (fadd z d)) as (d & Hd & Ed).
    { destruct (r =? 0)%Z eqn:E0.
      - exists f_half. split; [|done]. assert (weight r = / 2) as ->; [|exact f_half_iv]. unfold weight. replace (Z.max 1 r) with 1%Z by lia. done.
      - eexists. split; [|reflexivity]. unfold weight. replace (Z.max 1 r) with r by lia. apply delta_iv. lia. }
    rewrite Ed in E. pose proof (weight_ge r Hr) as [W1 W2]. pose proof (pw_pos (-63)).
    assert (0 <= S0) as HS0 by (destruct H0; lra).
    assert (0 <= INR i <= 262144) as Bi. { split; [apply pos_INR|]. rewrite INR_IZR_INZ. apply (IZR_le _ 262144). lia. }
    assert (af (fadd z d) (INR (S i) * vv) (S0 + weight r)) as Hz'.
    { eapply af_weaken; [apply (af_add _ _ (INR i * vv)); [exact Hz|eapply af_weaken; [apply af_iv; [exact Hd|lra]|apply Rmult_le_pos; lra]| |]|rewrite S_INR; lra].
      - right. pose proof (bpow_le radix2 (-900) (-63) ltac:(lia)). pose proof (bpow_le radix2 20 900 ltac:(lia)). change (pw 20) with 1048576 in *. lra.
      - rewrite vv_val. lra. }
    replace (Z.of_nat i + 1)%Z with (Z.of_nat (S i)) in E by lia. rewrite Nat.add_succ_r, <- Nat.add_succ_l.
    assert (S0 + hsum c i (S k) = (S0 + weight r) + hsum c (S i) k) as ->.
    { unfold hsum, Rsum_over. cbn [seq map fold_right]. unfold hreg at 1. fold r. lra. }
    apply (IH (S i) (fadd z d)); [lia|exact Hz'|right; lra|rewrite S_INR; lra|exact E].
Qed.
Definition half_sum (c : Counter) (p : Z) : R := Rsum_over half_weight (registers c p).
Lemma hsum_half c p : hll_wf c p → half_sum c p = hsum c 0 (hll_size p).
Proof.
  intros Hc. unfold half_sum, hsum. rewrite (registers_bvals c p Hc). unfold bvals.
  assert (∀ l : list nat, Forall (λ j, (j < hll_size p)%nat) l → Rsum_over half_weight (map (bval (hc_bits c)) l) = Rsum_over weight (map (hreg c) l)) as H.
  { induction 1 as [|j l Hj Hl IH]; [done|]. unfold Rsum_over in *. cbn [map fold_right]. rewrite IH. f_equal. apply half_weight_eq. apply (hreg_range c p j Hc Hj). }
  apply H. apply Forall_forall. intros j Hj%elem_of_seq. lia.
Qed.
Lemma Rsum_le {A} (f : A → R) l b : (∀ x, x ∈ l → f x <= b) → Rsum_over f l <= INR (length l) * b.
Proof.
  unfold Rsum_over. induction l as [|x l IH]; intros H; [cbn; lra|]. cbn [fold_right length]. rewrite S_INR. pose proof (H x ltac:(left)). specialize (IH ltac:(intros; apply H; by right)). lra.
Qed.
Lemma half_sum_range c p : hll_wf c p → pw (-63) <= half_sum c p <= pw 18.
Proof.
  intros Hc. pose proof Hc as (Hp & _). pose proof (hll_size_Z p Hp) as Hs. rewrite (hsum_half c p Hc). unfold hsum.
  assert (2 ^ p <= 2 ^ 18)%Z as Hp18 by (apply Z.pow_le_mono_r; lia). assert (0 < 2 ^ p)%Z by lia.
  assert (∀ x, x ∈ map (hreg c) (seq 0 (hll_size p)) → pw (-63) <= weight x <= / 2) as Hw.
  { intros x (j & -> & Hj%elem_of_seq)%elem_of_list_fmap. apply weight_ge. apply (hreg_range c p j Hc). lia. }
  split.
  - destruct (hll_size p) as [|n] eqn:En; [lia|]. cbn [seq map]. unfold Rsum_over. cbn [fold_right].
    pose proof (Rsum_nonneg weight (map (hreg c) (seq 1 n))) as Hn. unfold Rsum_over in Hn.
    assert (0 <= fold_right (λ x s, weight x + s) 0 (map (hreg c) (seq 1 n))) by (apply Hn; intros; left; apply weight_le).
    pose proof (Hw (hreg c 0) ltac:(cbn; left)). lra.
  - eapply Rle_trans; [apply (Rsum_le _ _ 1)|]. { intros x Hx. pose proof (Hw x Hx). lra. }
    rewrite map_length, seq_length, Rmult_1_r, INR_IZR_INZ, Hs, <- pw_IZR by lia. apply bpow_le. lia.
Qed.
Lemma harmonic_err c p z : hll_wf c p → Hll_harmonic c (2 ^ p) = Ok z → af z (pw (-34)) (half_sum c p).
Proof.
  intros Hc E. pose proof Hc as (Hp & _). pose proof (hll_size_Z p Hp) as Hs. unfold Hll_harmonic in E. destruct f_zero_ok as (Fz & Ez & _).
  pose proof (harmonic_loop_err c p Hc (hll_size p) 0 f_zero 0 ltac:(lia)) as H. cbn [INR] in H.
  rewrite (hsum_half c p Hc). rewrite <- (Rplus_0_l (hsum _ _ _)). eapply af_weaken.
  - apply H; [|by left|lra|exact E]. rewrite Rmult_0_l, <- Ez. apply af_exact; [done|lra].
  - cbn [Nat.add]. rewrite INR_IZR_INZ, Hs, <- pw_IZR by lia. unfold vv. rewrite <- bpow_plus. apply bpow_le. lia.
Qed.
Lemma harmonic_count c p : hll_wf c p → estimate p (half_sum c p) <= 2 ^ 61 →
  ∃ n, Hll_HarmonicCount c = Ok n ∧ rounded_up n (estimate p (half_sum c p)).
Proof.
  intros Hc He. pose proof Hc as (Hp & Hcp & _). unfold Hll_HarmonicCount. rewrite Hcp, (hll_m_eq p Hp).
  destruct (harmonic_ok c p Hc) as (z & E & _). rewrite E. cbn [obind]. eexists. split; [reflexivity|].
  pose proof (half_sum_range c p Hc) as [H1 H2]. pose proof (pw_pos (-63)). pose proof (bpow_le radix2 18 100 ltac:(lia)).
  eapply normalize_err; [done|apply (harmonic_err c p z Hc E)| |lra|done].
  split; [apply bpow_ge_0|]. change (pw (-34)) with (/ 17179869184). lra.
Qed.

(** ** poisson *)
Lemma fold_hist_err cn f k : length cn = 64%nat → (∀ r, (1 ≤ r ≤ k)%nat → cn !! r = Some (f r) ∧ (0 <= f r <= 2 ^ 18)%Z) → (k < 64)%nat →
  ∀ z z' r Z0, 0 <= r → r + 2 * INR k * vv <= 1 → af z r Z0 → Z0 = 0 ∨ pw (-200 + Z.of_nat k) <= Z0 → Z0 <= pw 40 →
  fold_hist cn k z = Ok z' → af z' (r + 2 * INR k * vv) (Z0 / 2 ^ k + Rsum_over (λ j, IZR (f j) / 2 ^ j) (seq 1 k)).
Proof.
  intros Hl. pose proof vv_pos as Hv. induction k as [|k IH]; intros Hcn Hk z z' r Z0 Hr0 Hr Hz HZ HZu E; cbn [fold_hist] in E.
  - injection E as <-. cbn. replace (Z0 / 1 + 0) with Z0 by lra. eapply af_weaken; [exact Hz|lra].
  - destruct (Hcn (S k)) as [Hx Bx]; [lia|]. rewrite (index_lookup cn (Z.of_nat (S k)) (f (S k))) in E by (done || lia || (rewrite Nat2Z.id; done)). cbn [obind] in E.
    set (x := f (S k)) in *. assert (0 <= IZR x <= pw 18) as Bx'. { rewrite pw_IZR by lia. split; apply IZR_le; lia. }
    assert (pw 18 <= pw 39) by (apply bpow_le; lia). assert (pw 40 = 2 * pw 39) as E40 by apply (pw_S 39).
    rewrite S_INR in Hr. pose proof (pos_INR k) as Hk0. assert (0 <= INR k * vv) by (apply Rmult_le_pos; lra).
    assert (0 <= Z0) as HZ0 by (destruct HZ as [|HZ]; [lra|]; pose proof (pw_pos (-200 + Z.of_nat (S k))); lra).
    assert (Z0 + IZR x = 0 ∨ pw (-200 + Z.of_nat (S k)) <= Z0 + IZR x) as HA.
    { destruct HZ as [->|HZ]; [|right; lra]. destruct (decide (x = 0)%Z) as [->|Hn]; [left; lra|right].
      assert (1 <= IZR x) by (apply (IZR_le 1); lia). pose proof (bpow_le radix2 (-200 + Z.of_nat (S k)) 0 ltac:(lia)). change (pw 0) with 1 in *. lra. }
    assert (sz (Z0 + IZR x)) as Sz.
    { destruct HA as [|HA]; [by left|right]. pose proof (bpow_le radix2 (-900) (-200 + Z.of_nat (S k)) ltac:(lia)). pose proof (bpow_le radix2 41 900 ltac:(lia)). assert (pw 41 = 2 * pw 40) by apply (pw_S 40). lra. }
    pose proof (af_add z (f_of_Z x) r Z0 (IZR x) Hz ltac:(eapply af_weaken; [apply af_iv; [apply f_of_Z_iv; lia|lra]|lra]) Sz ltac:(lra)) as Ha1.
    assert (-200 + Z.of_nat (S k) = -200 + Z.of_nat k + 1)%Z as Ek by lia. rewrite Ek, pw_S in HA.
    assert (pw 40 <= pw 900) by (apply bpow_le; lia).
    assert (af (fmul f_half (fadd z (f_of_Z x))) (r + 2 * vv) (/ 2 * (Z0 + IZR x))) as Ha2.
    { eapply af_weaken; [apply (af_mul _ _ 0 (r + vv)); [apply af_iv; [apply f_half_iv|lra]|exact Ha1| |lra]|lra].
      destruct HA as [HA|HA]; [left; rewrite HA; lra|right]. pose proof (bpow_le radix2 (-900) (-200 + Z.of_nat k) ltac:(lia)). lra. }
    assert (Z0 / 2 ^ S k + Rsum_over (λ j, IZR (f j) / 2 ^ j) (seq 1 (S k)) = (/ 2 * (Z0 + IZR x)) / 2 ^ k + Rsum_over (λ j, IZR (f j) / 2 ^ j) (seq 1 k)) as ->.
    { rewrite seq_S, Rsum_app. change (1 + k)%nat with (S k). unfold Rsum_over at 2. cbn [fold_right]. fold x. change (2 ^ S k) with (2 * 2 ^ k). assert (0 < 2 ^ k) by (apply pow_lt; lra). field. lra. }
    replace (r + 2 * INR (S k) * vv) with (r + 2 * vv + 2 * INR k * vv) by (rewrite S_INR; ring).
    apply (IH ltac:(intros j Hj; apply Hcn; lia) ltac:(lia) (fmul f_half (fadd z (f_of_Z x))) z'); [lra|lra|exact Ha2| |lra|exact E].
    destruct HA as [->|HA]; [left; lra|right; lra].
Qed.

Lemma ertl_exists p l : (4 <= p <= 18)%Z → (0 <= count_eq 0 l < 2 ^ p)%Z → (0 <= count_eq (65 - p) l <= 2 ^ p)%Z → ∃ z, is_ertl p l z.
Proof.
  intros Hp H0 H1. unfold is_ertl. rewrite pow_nat_pw by lia. rewrite (pw_IZR p) by lia.
  assert (0 < IZR (2 ^ p)) by (apply (IZR_lt 0); lia). assert (0 < / IZR (2 ^ p)) by (by apply Rinv_0_lt_compat).
  destruct (sigma_exists (IZR (count_eq 0 l) / IZR (2 ^ p))) as [s Hs].
  { assert (0 <= IZR (count_eq 0 l)) by (apply (IZR_le 0); lia). assert (IZR (count_eq 0 l) < IZR (2 ^ p)) by (apply IZR_lt; lia).
    unfold Rdiv. split; [apply Rmult_le_pos; lra|]. rewrite <- (Rinv_r (IZR (2 ^ p))) by lra. by apply Rmult_lt_compat_r. }
  destruct (tau_exists (1 - IZR (count_eq (65 - p) l) / IZR (2 ^ p))) as [t Ht].
  { assert (0 <= IZR (count_eq (65 - p) l)) by (apply (IZR_le 0); lia). assert (IZR (count_eq (65 - p) l) <= IZR (2 ^ p)) by (apply IZR_le; lia).
    assert (0 <= IZR (count_eq (65 - p) l) / IZR (2 ^ p) <= 1); [|lra]. unfold Rdiv. split; [apply Rmult_le_pos; lra|].
    rewrite <- (Rinv_r (IZR (2 ^ p))) by lra. apply Rmult_le_compat_r; lra. }
  eauto 10.
Qed.
Lemma ertl_unique p l z z' : is_ertl p l z → is_ertl p l z' → z = z'.
Proof. intros (s & t & Hs & Ht & ->) (s' & t' & Hs' & Ht' & ->). rewrite (is_sigma_unique _ _ _ Hs Hs'), (is_tau_unique _ _ _ Ht Ht'). done. Qed.
Lemma spart_le x k : 0 <= x <= 1 → spart x k <= 2 ^ k.
Proof.
  intros H. induction k as [|k IH]; [cbn; lra|]. cbn [spart]. unfold sterm. pose proof (xpow_range x (2 ^ S k) H). assert (0 < 2 ^ k) by (apply pow_lt; lra). change (2 ^ S k) with (2 * 2 ^ k). nra.
Qed.
Lemma sigma_nonneg x s : 0 <= x <= 1 → is_sigma x s → x <= s.
Proof.
  intros H Hs. assert (Un_cv (λ n, spart x (S n)) s) as HU.
  { intros e He. destruct (Hs e He) as [N HN]. exists N. intros n Hn. rewrite <- spart_sum. by apply HN. }
  apply (Un_cv_ge _ _ _ 0 HU). intros n _. apply (spart_mono x 0); [done|lia].
Qed.
Lemma poisson_err c p z Z0 fuel : hll_wf c p → (100 <= fuel)%nat → (empty_registers c p < 2 ^ p)%Z → is_ertl p (registers c p) Z0 →
  Hll_poisson fuel c = Ok (Some z) → af z (/ 4000000) Z0 ∧ 0 <= Z0 <= pw 100.
Proof.
  intros Hc Hf. pose proof Hc as (Hp & Hcp & _ & Hwf & _). pose proof (hll_size_Z p Hp) as Hs.
  unfold empty_registers. rewrite (registers_bvals c p Hc). intros Hne (s0 & t0 & Hs0 & Ht0 & EZ) E.
  assert (2 ^ p <= 2 ^ 18)%Z as Hp18 by (apply Z.pow_le_mono_r; lia). pose proof vv_pos as Hv. pose proof vv_val as Ev.
  destruct (hist_Ok c p Hc) as (cn & Ecn & Hl & Hcn). set (bv := bvals (hc_bits c) (hll_size p)) in *.
  assert (∀ v, 0 <= count_eq v bv <= 2 ^ p)%Z as Bcn.
  { intros v. pose proof (count_eq_bound v bv) as H. unfold bv in H. rewrite bvals_length in H. fold bv in H. lia. }
  pose proof (pw_pos p) as Hpp. pose proof (Bcn 0%Z) as B0. pose proof (Bcn (65 - p)%Z) as BQ.
  rewrite pow_nat_pw in Hs0, Ht0, EZ by lia. unfold Rdiv in Hs0, Ht0. rewrite <- bpow_opp in Hs0, Ht0.
  unfold Hll_poisson in E. rewrite Hcp, (hll_m_eq p Hp) in E.
  unfold hll_hist in Ecn. rewrite Hcp, Z.shiftl_1_l in Ecn. rewrite Ecn in E. cbn [obind] in E.
  rewrite (index_lookup cn (64 - p + 1) (count_eq (65 - p) bv)) in E; [|lia|rewrite Hcn by lia; do 2 f_equal; lia]. cbn [obind] in E.
  destruct (tau_total (count_eq (65 - p) bv) p) as (t & Et & Ht); [lia|lia|]. rewrite (Et fuel) in E by lia.
  destruct (tau_err _ p t t0 fuel BQ Hp Hf (Et fuel ltac:(lia)) Ht0) as (At & Lt & Ut).
  assert (16 <= pw p <= 262144) as Bp by (split; [apply (bpow_le radix2 4); lia|apply (bpow_le radix2 p 18); lia]).
  assert (af (f_of_Z (2 ^ p)) 0 (pw p)) as Hm by (apply af_iv; [rewrite pw_IZR by lia; apply f_of_Z_iv; lia|lra]).
  assert (0 <= t0) as Pt by apply At.
  assert (pw (-22) = / 4194304) as E22 by reflexivity.
  assert (pw p * t0 = 0 ∨ pw (-30) <= pw p * t0) as Lmt.
  { destruct Lt as [->|Lt]; [left; lra|right]. change (pw (-30)) with (/ 1073741824). rewrite E22 in Lt. nra. }
  assert (pw p * t0 <= 262144) as Umt by nra.
  assert (af (fmul (f_of_Z (2 ^ p)) t) (pw (-22) + vv) (pw p * t0)) as Hmt.
  { eapply af_weaken; [apply (af_mul _ _ 0 (pw (-22))); [exact Hm|exact At| |rewrite E22; lra]|lra].
    destruct Lmt as [|L]; [by left|right]. pose proof (bpow_le radix2 (-900) (-30) ltac:(lia)). pose proof (bpow_le radix2 18 900 ltac:(lia)). change (pw 18) with 262144 in *. lra. }
  destruct (fold_hist cn (Z.to_nat (64 - p)) (fmul (f_of_Z (2 ^ p)) t)) as [z1| |] eqn:E1; [|done|done]. cbn [obind] in E.
  assert (INR (Z.to_nat (64 - p)) <= 60) as Bq by (rewrite INR_IZR_INZ; apply IZR_le; lia). pose proof (pos_INR (Z.to_nat (64 - p))) as Bq0.
  assert (0 <= INR (Z.to_nat (64 - p)) * vv <= 60 * vv) as Bqv by (split; [apply Rmult_le_pos; lra|apply Rmult_le_compat_r; lra]).
  assert (pw (-22) + vv + 2 * INR (Z.to_nat (64 - p)) * vv <= / 4100000) as Br by (rewrite E22; rewrite Ev in *; lra).
  pose proof (fold_hist_err cn (λ r, count_eq (Z.of_nat r) bv) (Z.to_nat (64 - p)) Hl) as HF.
  assert (af z1 (/ 4100000) (pw p * t0 / 2 ^ Z.to_nat (64 - p) + Rsum_over (λ k, IZR (count_eq (Z.of_nat k) bv) / 2 ^ k) (seq 1 (Z.to_nat (64 - p))))) as Hz1.
  { eapply af_weaken; [eapply HF; [|lia| | |exact Hmt| | |exact E1]|exact Br].
    - intros r Hr. split; [apply Hcn; lia|]. pose proof (Bcn (Z.of_nat r)). lia.
    - rewrite E22; lra.
    - lra.
    - destruct Lmt as [|L]; [by left|right]. eapply Rle_trans; [|exact L]. apply bpow_le. lia.
    - eapply Rle_trans; [exact Umt|]. apply (bpow_le radix2 18 40). lia. }
  assert (∀ k : nat, 0 < / 2 ^ k) as Hi by (intros; apply Rinv_0_lt_compat, pow_lt; lra).
  set (Q := pw p * t0 / 2 ^ Z.to_nat (64 - p)) in *. set (T := Rsum_over _ _) in Hz1, EZ. clear HF.
  assert (0 <= Q <= 262144) as BQ2.
  { unfold Q, Rdiv. pose proof (half_pow (Z.to_nat (64 - p))). destruct Lmt as [->|L]; [rewrite Rmult_0_l; lra|]. pose proof (pw_pos (-30)). split; [apply Rmult_le_pos; lra|]. nra. }
  assert (0 <= T) as BT0.
  { apply Rsum_nonneg. intros k _. unfold Rdiv. apply Rmult_le_pos; [apply (IZR_le 0), Bcn|left; apply Hi]. }
  assert (T <= 60 * 262144) as BT.
  { eapply Rle_trans; [apply (Rsum_le _ _ 262144)|].
    - intros k _. assert (IZR (count_eq (Z.of_nat k) bv) <= 262144) by (apply (IZR_le _ 262144); pose proof (Bcn (Z.of_nat k)); lia).
      assert (0 <= IZR (count_eq (Z.of_nat k) bv)) by (apply (IZR_le 0), Bcn). pose proof (half_pow k). unfold Rdiv. nra.
    - rewrite seq_length. apply Rmult_le_compat_r; lra. }
  rewrite (index_lookup cn 0 (count_eq 0 bv)) in E; [|lia|by apply (Hcn 0%nat); lia]. cbn [obind] in E.
  destruct (sigma_total (count_eq 0 bv) p) as (s & Es & Hsg); [lia|lia|]. rewrite (Es fuel) in E by lia. injection E as <-.
  pose proof (sigma_err (count_eq 0 bv) p s s0 fuel ltac:(lia) Hp ltac:(lia) (Es fuel ltac:(lia)) Hs0) as As.
  pose proof (ratio_iv (count_eq 0 bv) p B0 ltac:(lia)) as [_ Hx]. pose proof (IZR_pw_lt (count_eq 0 bv) p ltac:(lia) ltac:(lia)) as Hlt. pose proof (pw_pos (- p)).
  set (X := IZR (count_eq 0 bv) * pw (- p)) in *.
  assert (0 <= X <= 1) as BX. { split; [apply Rmult_le_pos; [apply (IZR_le 0); lia|lra]|lra]. }
  pose proof (sigma_nonneg X s0 BX Hs0) as Ls.
  (* an upper bound of sigma from the computed value *)
  assert (s0 <= pw 41) as Us.
  { destruct (af_bounds _ _ _ As) as [L _]; [rewrite E22; lra|]. destruct Hsg as [_ [_ Hsu]]. assert (pw 41 = 2 * pw 40) by apply (pw_S 40). rewrite E22 in L. pose proof (pw_pos 40). nra. }
  assert (0 <= pw p * s0) as Pms by (apply Rmult_le_pos; lra).
  assert (pw p * s0 <= pw 60) as Ums.
  { assert (pw 60 = 524288 * pw 41) as -> by (change 524288 with (pw 19); rewrite <- bpow_plus; done). apply Rmult_le_compat; lra. }
  assert (pw p * s0 = 0 ∨ 1 <= pw p * s0) as Lms.
  { destruct (decide (count_eq 0 bv = 0)%Z) as [E0|E0].
    - left. assert (X = 0) as EX by (unfold X; rewrite E0; lra). rewrite EX in Hs0. assert (s0 = 0) as ->; [|lra].
      apply (is_sigma_unique 0); [done|]. intros e He. exists O. intros n _.
      assert (∀ n, sum_f_R0 (λ k, 0 ^ (2 ^ S k) * 2 ^ k) n = 0) as Hz.
      { clear. intros n. assert (∀ k, 0 ^ (2 ^ S k) * 2 ^ k = 0) as H0. { intros k. rewrite pow_i; [lra|]. assert (0 < 2 ^ k)%nat by (apply Nat.neq_0_lt_0, Nat.pow_nonzero; lia). rewrite pow2_S. lia. }
        induction n as [|n IH]; cbn [sum_f_R0]; rewrite H0; [done|]. rewrite IH. lra. }
      rewrite Hz. unfold R_dist. rewrite Rminus_0_r, Rplus_0_r, Rabs_R0. done.
    - right. assert (pw p * X = IZR (count_eq 0 bv)) as EX.
      { unfold X. rewrite <- Rmult_assoc, (Rmult_comm (pw p)), Rmult_assoc, <- bpow_plus. replace (p + - p)%Z with 0%Z by lia. change (pw 0) with 1. lra. }
      assert (1 <= IZR (count_eq 0 bv)) by (apply (IZR_le 1); lia). assert (pw p * X <= pw p * s0) by (apply Rmult_le_compat_l; lra). lra. }
  assert (pw 60 <= pw 900) by (apply bpow_le; lia). pose proof (bpow_le radix2 (-900) 0 ltac:(lia)) as P900. change (pw 0) with 1 in P900.
  assert (af (fmul (f_of_Z (2 ^ p)) s) (pw (-22) + vv) (pw p * s0)) as Hms.
  { eapply af_weaken; [apply (af_mul _ _ 0 (pw (-22))); [exact Hm|exact As| |rewrite E22; lra]|lra]. destruct Lms as [|L]; [by left|right; lra]. }
  assert (pw 61 = 2 * pw 60) as E61 by apply (pw_S 60). assert (pw 61 <= pw 100) by (apply bpow_le; lia). assert (pw 61 <= pw 900) by (apply bpow_le; lia).
  assert (262144 * 100 <= pw 60). { apply (Rle_trans _ (pw 30)); [change (pw 30) with 1073741824; lra|apply bpow_le; lia]. }
  assert (Z0 = (Q + T) + pw p * s0) as EZ' by (rewrite EZ; lra).
  split; [|rewrite EZ'; lra].
  rewrite EZ'. eapply af_weaken; [apply (af_add _ _ (/ 4100000)); [exact Hz1|eapply af_weaken; [exact Hms|rewrite E22, Ev; lra]| |lra]|rewrite Ev; lra].
  (* the sum neither underflows *)
  destruct Lms as [L|L]; [|right; lra]. rewrite L, Rplus_0_r.
  destruct Lmt as [L2|L2].
  - assert (Q = 0) as -> by (unfold Q; rewrite L2; lra). rewrite Rplus_0_l.
    destruct (decide (Forall (λ k, count_eq (Z.of_nat k) bv = 0)%Z (seq 1 (Z.to_nat (64 - p))))) as [HA|HA].
    + left. unfold T. clear -HA. revert HA. generalize (seq 1 (Z.to_nat (64 - p))). intros l HA. unfold Rsum_over.
      induction HA as [|k l Hk Hl' IH]; [done|]. cbn [fold_right]. rewrite Hk, IH. lra.
    + right. split; [|lra]. apply not_Forall_Exists in HA; [|apply _]. apply Exists_exists in HA as (k & Hk & Hkn). cbn in Hkn.
      pose proof Hk as Hk2. apply elem_of_seq in Hk2.
      assert (/ 2 ^ k <= T) as HT.
      { assert (∀ l, k ∈ l → / 2 ^ k <= Rsum_over (λ k, IZR (count_eq (Z.of_nat k) bv) / 2 ^ k) l) as HH; [|by apply HH].
        assert (∀ j : nat, 0 <= IZR (count_eq (Z.of_nat j) bv) / 2 ^ j) as Hnn. { intros j. unfold Rdiv. apply Rmult_le_pos; [apply (IZR_le 0), Bcn|left; apply Hi]. }
        induction l as [|j l IH]; intros Hin; [by apply elem_of_nil in Hin|]. unfold Rsum_over in *. cbn [fold_right]. apply elem_of_cons in Hin as [<-|Hin].
        - pose proof (Rsum_nonneg (λ k, IZR (count_eq (Z.of_nat k) bv) / 2 ^ k) l ltac:(intros; apply Hnn)) as Hr. unfold Rsum_over in Hr.
          assert (1 <= IZR (count_eq (Z.of_nat k) bv)) by (apply (IZR_le 1); pose proof (Bcn (Z.of_nat k)); lia). pose proof (Hi k).
          assert (/ 2 ^ k <= IZR (count_eq (Z.of_nat k) bv) / 2 ^ k); [unfold Rdiv; nra|lra].
        - specialize (IH Hin). pose proof (Hnn j). lra. }
      eapply Rle_trans; [|exact HT]. rewrite pow_pw, <- bpow_opp. apply bpow_le. lia.
  - right. split; [|lra]. assert (pw (-900) <= Q); [|lra]. unfold Q, Rdiv. rewrite pow_pw, <- bpow_opp.
    apply (Rle_trans _ (pw (-30) * pw (- Z.of_nat (Z.to_nat (64 - p))))); [rewrite <- bpow_plus; apply bpow_le; lia|apply Rmult_le_compat_r; [apply bpow_ge_0|done]].
Qed.
Lemma poisson_count c p Z0 : hll_wf c p → (empty_registers c p < 2 ^ p)%Z → is_ertl p (registers c p) Z0 → 0 < Z0 → estimate p Z0 <= 2 ^ 61 →
  ∃ n, PoissonCount_returns c n ∧ rounded_up n (estimate p Z0).
Proof.
  intros Hc Hne HZ HZ0 He. pose proof Hc as (Hp & Hcp & _). unfold PoissonCount_returns, Hll_PoissonCount. rewrite Hcp.
  destruct (poisson_ok c p Hc) as (z & E & _). exists (hll_normalize p z). split.
  - exists 100%nat. intros fuel Hf. rewrite E by done. done.
  - destruct (poisson_err c p z Z0 100 Hc ltac:(lia) Hne HZ (E 100%nat ltac:(lia))) as [Ha Hb]. eapply normalize_err; [done|exact Ha|lra|lra|done].
Qed.
