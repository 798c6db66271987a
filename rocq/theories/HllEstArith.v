(** Relative errors that compose: a is b up to a factor e^r. *)
From Verif Require Import Base BaseProofs Float64 Float64Spec Float64Proofs FloatMore FloatRel.
From Coq Require Import Reals Lra.
From Flocq Require Import Core Relative.
Notation float := Float64.float.
Open Scope R_scope.

Definition vv : R := pw (-52).
Lemma vv_val : vv = / 4503599627370496.
Proof. reflexivity. Qed.
Lemma vv_pos : 0 < vv. Proof. apply pw_pos. Qed.
Definition ap (r a b : R) : Prop := 0 <= b ∧ b * exp (- r) <= a <= b * exp r.

Lemma exp_m r : 0 < exp r. Proof. apply exp_pos. Qed.
Lemma exp_opp_r r : exp r * exp (- r) = 1.
Proof. rewrite <- exp_plus, Rplus_opp_r. apply exp_0. Qed.
Lemma exp_leq a b : a <= b → exp a <= exp b.
Proof. intros [H| ->]; [left; by apply exp_increasing|lra]. Qed.
Lemma exp_ge1 r : 0 <= r → 1 <= exp r.
Proof. intros H. rewrite <- exp_0. by apply exp_leq. Qed.
Lemma exp_le1 r : 0 <= r → exp (- r) <= 1.
Proof. intros H. rewrite <- exp_0. apply exp_leq. lra. Qed.
Lemma exp_small r : 0 <= r <= / 2 → 1 - r <= exp (- r) ∧ exp r <= 1 + 2 * r.
Proof.
  intros H. pose proof (exp_ineq1_le (- r)) as H1. split; [lra|].
  pose proof (exp_opp_r r) as H2. pose proof (exp_m r). assert (exp r * (1 - r) <= 1) by nra. nra.
Qed.
Lemma ap_refl b : 0 <= b → ap 0 b b.
Proof. intros H. split; [done|]. rewrite Ropp_0, exp_0. lra. Qed.
Lemma ap_nonneg r a b : ap r a b → 0 <= a.
Proof. intros (H1 & H2 & _). pose proof (exp_m (- r)). nra. Qed.
Lemma ap_weaken r s a b : ap r a b → r <= s → ap s a b.
Proof.
  intros (H1 & H2 & H3) H. split; [done|]. pose proof (exp_leq (- s) (- r) ltac:(lra)). pose proof (exp_leq r s H).
  split; nra.
Qed.
Lemma ap_mul r s a b c d : ap r a b → ap s c d → ap (r + s) (a * c) (b * d).
Proof.
  intros Hab Hcd. pose proof (ap_nonneg _ _ _ Hab). pose proof (ap_nonneg _ _ _ Hcd). destruct Hab as (H1 & H2 & H3), Hcd as (H4 & H5 & H6).
  split; [by apply Rmult_le_pos|]. rewrite Ropp_plus_distr, !exp_plus. pose proof (exp_m (- r)). pose proof (exp_m (- s)).
  replace (b * d * (exp (- r) * exp (- s))) with ((b * exp (- r)) * (d * exp (- s))) by ring.
  replace (b * d * (exp r * exp s)) with ((b * exp r) * (d * exp s)) by ring.
  split; apply Rmult_le_compat; try done; apply Rmult_le_pos; lra.
Qed.
Lemma ap_add r a b c d : ap r a b → ap r c d → ap r (a + c) (b + d).
Proof. intros (H1 & H2 & H3) (H4 & H5 & H6). split; [lra|]. lra. Qed.
Lemma ap_trans r s a b c : ap r a b → ap s b c → ap (r + s) a c.
Proof.
  intros (H1 & H2 & H3) (H4 & H5 & H6). split; [done|]. rewrite Ropp_plus_distr, !exp_plus.
  pose proof (exp_m r). pose proof (exp_m (- r)). split; nra.
Qed.
Lemma ap_inv r a b : ap r a b → 0 < b → 0 < a ∧ ap r (/ a) (/ b).
Proof.
  intros (H1 & H2 & H3) Hb. pose proof (exp_m r). pose proof (exp_m (- r)). pose proof (exp_opp_r r) as E.
  assert (0 < b * exp (- r)) by nra. split; [lra|]. assert (/ exp r = exp (- r)) as E1 by (symmetry; apply exp_Ropp).
  assert (/ exp (- r) = exp r) as E2 by (rewrite <- exp_Ropp; f_equal; lra).
  split; [left; by apply Rinv_0_lt_compat|]. split.
  - rewrite <- E1, <- Rinv_mult. apply Rinv_le_contravar; lra.
  - rewrite <- E2, <- Rinv_mult. apply Rinv_le_contravar; lra.
Qed.
Lemma ap_div r s a b c d : ap r a b → ap s c d → 0 < d → ap (r + s) (a / c) (b / d).
Proof. intros H1 H2 Hd. unfold Rdiv. apply ap_mul; [done|]. by apply ap_inv. Qed.
Lemma ap_sqrt r a b : ap r a b → ap (r / 2) (sqrt a) (sqrt b).
Proof.
  intros Hab. pose proof (ap_nonneg _ _ _ Hab). destruct Hab as (H1 & H2 & H3).
  assert (∀ t, sqrt (exp t) = exp (t / 2)) as E.
  { intros t. rewrite <- (sqrt_square (exp (t / 2))) by (left; apply exp_pos). f_equal. rewrite <- exp_plus. f_equal. lra. }
  split; [apply sqrt_pos|]. split.
  - replace (- (r / 2)) with (- r / 2) by lra. rewrite <- E, <- sqrt_mult by (done || left; apply exp_pos). by apply sqrt_le_1_alt.
  - rewrite <- E, <- sqrt_mult by (done || left; apply exp_pos). by apply sqrt_le_1_alt.
Qed.
(** the numbers that neither overflow nor underflow *)
Definition sz (a : R) : Prop := a = 0 ∨ pw (-900) <= a <= pw 900.
Lemma ap_rnd a : a = 0 ∨ pw (-1000) <= a → ap vv (rnd a) a.
Proof.
  intros [->|Ha].
  - rewrite rnd_0. split; [lra|]. lra.
  - pose proof (pw_pos (-1000)). split; [lra|]. destruct (rnd_rel' a) as (d & Hd & ->); [rewrite Rabs_pos_eq; lra|].
    apply Rabs_le_inv in Hd. pose proof vv_pos. assert (uu = / 2 * vv) as Eu by (unfold uu, vv; rewrite (pw_P (-52)); change (-52 - 1)%Z with (-53)%Z; lra).
    pose proof (exp_ineq1_le vv). pose proof (exp_opp_r vv). pose proof (exp_m (- vv)).
    assert (exp (- vv) <= 1 - uu). { rewrite Eu. rewrite vv_val in *. nra. }
    split; apply Rmult_le_compat_l; lra.
Qed.
Lemma sz_pert r a b : ap r a b → sz b → r <= 1 → (a = 0 ∨ pw (-1000) <= a) ∧ 0 <= a <= pw 1000.
Proof.
  intros Hab Hb Hr. pose proof (ap_nonneg _ _ _ Hab) as H0. destruct Hab as (H1 & H2 & H3).
  assert (exp r <= 4) as E1. { eapply Rle_trans; [apply exp_leq, Hr|]. pose proof exp_le_3. lra. }
  assert (/ 4 <= exp (- r)) as E2. { rewrite exp_Ropp. apply Rinv_le_contravar; [apply exp_pos|done]. }
  assert (pw (-1000) <= / 4 * pw (-900)) as HA. { change (/ 4) with (pw (-2)). rewrite <- bpow_plus. apply bpow_le. lia. }
  assert (4 * pw 900 <= pw 1000) as HB. { change 4 with (pw 2). rewrite <- bpow_plus. apply bpow_le. lia. }
  pose proof (pw_pos 900). pose proof (pw_pos (-900)).
  destruct Hb as [->|Hb]; [split; [left; lra|lra]|]. split; [right; nra|nra].
Qed.
(** the float x is b up to a factor e^r *)
Definition af (x : float) (r b : R) : Prop := ffinite x = true ∧ ap r (f2r x) b.
Lemma af_exact x : ffinite x = true → 0 <= f2r x → af x 0 (f2r x).
Proof. intros F H. split; [done|]. by apply ap_refl. Qed.
Lemma af_iv x b : iv x b b → 0 <= b → af x 0 b.
Proof. intros H Hb. rewrite <- (iv_eq _ _ H) at 1. apply af_exact; [apply H|]. by rewrite (iv_eq _ _ H). Qed.
Lemma af_weaken x r s b : af x r b → r <= s → af x s b.
Proof. intros [F H] Hs. split; [done|]. by eapply ap_weaken. Qed.
Lemma af_add x y r a b : af x r a → af y r b → sz (a + b) → r <= 1 → af (fadd x y) (r + vv) (a + b).
Proof.
  intros [Fx Hx] [Fy Hy] Hs Hr. pose proof (ap_add _ _ _ _ _ Hx Hy) as H. destruct (sz_pert _ _ _ H Hs Hr) as [H1 H2].
  destruct (fadd_ok x y Fx Fy) as (F & E & _); [apply (abs_max _ 1000); [lia|done]|]. split; [done|]. rewrite E.
  rewrite Rplus_comm. eapply ap_trans; [by apply ap_rnd|done].
Qed.
Lemma af_mul x y r s a b : af x r a → af y s b → sz (a * b) → r + s <= 1 → af (fmul x y) (r + s + vv) (a * b).
Proof.
  intros [Fx Hx] [Fy Hy] Hs Hr. pose proof (ap_mul _ _ _ _ _ _ Hx Hy) as H. destruct (sz_pert _ _ _ H Hs Hr) as [H1 H2].
  destruct (fmul_ok x y Fx Fy) as (F & E); [apply (abs_max _ 1000); [lia|done]|]. split; [done|]. rewrite E.
  rewrite (Rplus_comm (r + s)). eapply ap_trans; [by apply ap_rnd|done].
Qed.
Lemma af_div x y r s a b : af x r a → af y s b → 0 < b → sz (a / b) → r + s <= 1 → af (fdiv x y) (r + s + vv) (a / b).
Proof.
  intros [Fx Hx] [Fy Hy] Hb Hs Hr. pose proof (ap_div _ _ _ _ _ _ Hx Hy Hb) as H. destruct (sz_pert _ _ _ H Hs Hr) as [H1 H2].
  pose proof (ap_inv _ _ _ Hy Hb) as [Hp _].
  destruct (fdiv_ok x y Fx) as (F & E); [lra|apply (abs_max _ 1000); [lia|done]|]. split; [done|]. rewrite E.
  rewrite (Rplus_comm (r + s)). eapply ap_trans; [by apply ap_rnd|done].
Qed.
Lemma af_sqrt x r a : af x r a → 0 < a → sz a → r <= 1 → af (fsqrt x) (r / 2 + vv) (sqrt a).
Proof.
  intros [Fx Hx] Ha Hs Hr. pose proof (sz_pert _ _ _ Hx Hs Hr) as [H1 H2]. pose proof (ap_inv _ _ _ Hx Ha) as [Hp _].
  destruct (fsqrt_ok x Fx) as (F & E); [lra|lra|]. split; [done|]. rewrite E. rewrite (Rplus_comm (r / 2)).
  eapply ap_trans; [apply ap_rnd|by apply ap_sqrt]. right. destruct H1 as [|H1]; [lra|].
  assert (pw (-1000) * pw (-1000) <= pw (-1000)) by (rewrite <- bpow_plus; apply bpow_le; lia).
  rewrite <- (sqrt_square (pw (-1000))) by apply bpow_ge_0. apply sqrt_le_1_alt. lra.
Qed.
Lemma af_bounds x r b : af x r b → 0 <= r <= / 2 → b * (1 - r) <= f2r x <= b * (1 + 2 * r).
Proof. intros (_ & H1 & H2) Hr. destruct (exp_small r Hr) as [H3 H4]. split; nra. Qed.
