(** Termination and bounds of the loops of the estimators. *)
From Verif Require Import Base BaseProofs Float64 Float64Spec Float64Proofs HllCountModel FloatMore.
From Coq Require Import Reals Lra.
From Flocq Require Import Core.
Notation float := Float64.float.
Open Scope R_scope.

Lemma f_one_iv : iv f_one 1 1.
Proof. apply (f_of_Z_iv 1). lia. Qed.
Lemma f_half_iv : iv f_half (/ 2) (/ 2).
Proof.
  unfold f_half, f_lit. assert (pw (-1) = / 2) as E by reflexivity.
  apply (fdiv_iv _ _ 1 1 2 2 _ _ 0); [apply (f_of_Z_iv 1); lia|apply (f_of_Z_iv 2); lia|lra|lra|..]; rewrite <- ?E.
  - apply fmt_pw. lia.
  - rewrite E. lra.
  - rewrite E. lra.
  - apply fmt_pw. lia.
  - rewrite E. lra.
  - lia.
  - apply bpow_le. lia.
Qed.

(** ** sigma *)
Lemma sigma_loop_mono f f' x y z s : sigma_loop f x y z = Some s → (f ≤ f')%nat → sigma_loop f' x y z = Some s.
Proof.
  revert f' x y z. induction f as [|f IH]; intros f' x y z E Hf; [done|]. destruct f' as [|f']; [lia|].
  cbn [sigma_loop] in *. destruct (feq _ z); [done|]. apply IH; [done|lia].
Qed.
(** squares of (2^18-1)/2^18 *)
Fixpoint xf (k : nat) : float :=
  match k with O => fdiv (f_of_Z (2 ^ 18 - 1)) (f_of_Z (2 ^ 18)) | S k => let x := xf k in fmul x x end.
Lemma sq_step x X : ffinite X = true → f2r X <= 1 → iv x 0 (f2r X) →
  ffinite (fmul X X) = true ∧ f2r (fmul X X) <= 1 ∧ iv (fmul x x) 0 (f2r (fmul X X)).
Proof.
  intros FX HX [Fx Hx].
  assert (f2r x * f2r x <= f2r X * f2r X) by (apply Rmult_le_compat; lra).
  assert (f2r X * f2r X <= 1) by nra. assert (0 <= f2r x * f2r x) by nra.
  assert (1 <= pw 0) as Hp1 by (change (pw 0) with 1; lra).
  destruct (fmul_ok X X) as [F1 E1]; [done|done|apply (abs_max _ 0); [lia|lra]|].
  destruct (fmul_ok x x) as [F2 E2]; [done|done|apply (abs_max _ 0); [lia|lra]|].
  split; [done|]. rewrite E1. split.
  - apply rnd_le'; [apply (fmt_pw 0); lia|]. change (pw 0) with 1. lra.
  - split; [done|]. rewrite E2. split; [by apply rnd_nonneg|]. by apply rnd_le.
Qed.
Lemma xf_ok k : ffinite (xf k) = true ∧ 0 <= f2r (xf k) <= 1.
Proof.
  induction k as [|k [IH1 IH2]].
  - cbn [xf]. assert (iv (fdiv (f_of_Z (2 ^ 18 - 1)) (f_of_Z (2 ^ 18))) 0 1) as [H1 H2]; [|done].
    apply (fdiv_iv _ _ (IZR (2 ^ 18 - 1)) (IZR (2 ^ 18 - 1)) (IZR (2 ^ 18)) (IZR (2 ^ 18)) 0 1 0);
      [apply f_of_Z_iv; lia|apply f_of_Z_iv; lia|apply (IZR_le 0); lia|apply (IZR_lt 0); lia|apply generic_format_0| |lra| | |lia|].
    + rewrite Rmult_0_l. apply (IZR_le 0). lia.
    + apply (fmt_pw 0). lia.
    + rewrite Rmult_1_l. apply IZR_le. lia.
    + change (pw 0) with 1. lra.
  - cbn [xf]. destruct (sq_step (xf k) (xf k)) as (H1 & H2 & H3 & H4); [done|lra|split; [done|lra]|]. split; [done|]. lra.
Qed.
Lemma xf27 : f2r (xf 27) <= pw (-200).
Proof.
  assert (fle (xf 27) (fdiv (f_of_Z 1) (f_of_Z (2 ^ 200))) = true) as H by (vm_compute; reflexivity).
  assert (ffinite (fdiv (f_of_Z 1) (f_of_Z (2 ^ 200))) = true) as F by (vm_compute; reflexivity).
  apply fle_ok in H; [|apply xf_ok|done]. eapply Rle_trans; [exact H|]. apply Req_le.
  destruct (f_of_Z_ok (2 ^ 200)) as (F1 & E1 & _); [apply IZR_maxfloat; lia|].
  rewrite <- pw_IZR in E1 by lia. rewrite rnd_fmt in E1 by (apply fmt_pw; lia).
  pose proof (f_of_Z_iv 1 ltac:(lia)) as H1.
  destruct (fdiv_ok (f_of_Z 1) (f_of_Z (2 ^ 200))) as (_ & E); [apply H1|rewrite E1; pose proof (pw_pos 200); lra| |].
  - rewrite E1, (iv_eq _ _ H1). unfold Rdiv. rewrite Rmult_1_l, <- bpow_opp. apply (abs_max _ 0); [lia|]. split; [apply bpow_ge_0|]. apply bpow_le. lia.
  - rewrite E, E1, (iv_eq _ _ H1). unfold Rdiv. rewrite Rmult_1_l, <- bpow_opp. apply rnd_fmt. apply fmt_pw. lia.
Qed.
Lemma two_iv : iv (f_of_Z 2) 2 2.
Proof. apply (f_of_Z_iv 2). lia. Qed.

Lemma sigma_loop_total n k x y z x0 : (k + n = 27)%nat → iv x 0 (f2r (xf k)) →
  iv y (pw (Z.of_nat k)) (pw (Z.of_nat k)) → iv z x0 (pw (Z.of_nat k)) → fmt x0 → pw (-18) <= x0 →
  ∃ s, sigma_loop (S n) x y z = Some s ∧ iv s x0 (pw 40).
Proof.
  revert k x y z. induction n as [|n IH]; intros k x y z Hk Hx Hy Hz Fx0 Hx0.
  - replace k with 27%nat in * by lia. cbn [sigma_loop].
    destruct (sq_step x (xf 27)) as (_ & _ & Hxx); [apply xf_ok|apply xf_ok|done|].
    assert (0 <= pw (-18)) by apply bpow_ge_0.
    assert (iv (fmul x x) 0 (pw (-200))) as Hxx'.
    { destruct (xf_ok 27) as [F B]. destruct Hx as [Fx Hx]. pose proof xf27. pose proof (pw_pos (-200)).
      assert (pw (-200) <= 1) by (apply (bpow_le radix2 (-200) 0); lia).
      apply (fmul_iv x x 0 (pw (-200)) 0 1 0 (pw (-200)) 0); [split; [done|lra]|split; [done|lra]|lra|lra|apply generic_format_0|lra|apply fmt_pw; lia|lra|lia|].
      apply bpow_le. lia. }
    change (Z.of_nat 27) with 27%Z in *.
    assert (iv (fmul (fmul x x) y) 0 (pw (-173))) as Ht.
    { eapply (fmul_iv _ _ 0 _ _ _ 0 (pw (-173)) 0); [exact Hxx'|exact Hy|lra|apply bpow_ge_0|apply generic_format_0|lra|apply fmt_pw; lia| |lia|apply bpow_le; lia].
      rewrite <- bpow_plus. apply bpow_le. lia. }
    destruct Hz as [Fz Hz]. destruct Ht as [Ft Ht].
    assert (pw (-173) <= pw (-18 - 54)) by (apply bpow_le; lia).
    assert (pw (-173) <= 1) by (apply (bpow_le radix2 (-173) 0); lia).
    assert (1 <= pw 27) by (apply (bpow_le radix2 0 27); lia).
    destruct (fadd_ok z (fmul (fmul x x) y)) as (F & E & _); [done|done| |].
    { apply (abs_max _ 28); [lia|]. change 28%Z with (27 + 1)%Z. rewrite pw_S. lra. }
    rewrite (absorb _ _ (-18)) in E; [|apply fmt_f2r|lra|lia|lra].
    assert (feq (fadd z (fmul (fmul x x) y)) z = true) as -> by (apply feq_ok; done).
    eexists. split; [reflexivity|]. split; [done|]. rewrite E. pose proof (bpow_le radix2 27 40 ltac:(lia)). lra.
  - cbn [sigma_loop]. destruct (xf_ok k) as [FX BX].
    destruct (sq_step x (xf k)) as (FX2 & BX2 & Hxx); [done|lra|done|].
    assert (0 <= pw (-18)) by apply bpow_ge_0.
    assert (pw (Z.of_nat k + 1) <= pw 40) by (apply bpow_le; lia).
    assert (iv (fmul (fmul x x) y) 0 (pw (Z.of_nat k))) as Ht.
    { eapply (fmul_iv _ _ 0 1 _ _ 0 (pw (Z.of_nat k)) 40); [eapply iv_weaken; [exact Hxx|lra|lra]|exact Hy|lra|apply bpow_ge_0|apply generic_format_0|lra|apply fmt_pw; lia|lra|lia|].
      apply bpow_le. lia. }
    assert (iv (fadd z (fmul (fmul x x) y)) x0 (pw (Z.of_nat k + 1))) as Hz'.
    { eapply (fadd_iv _ _ _ _ _ _ x0 (pw (Z.of_nat k + 1)) 40); [exact Hz|exact Ht|lra|lra|done|lra|apply fmt_pw; lia|rewrite pw_S; lra|lia|lra]. }
    assert (iv (fmul (f_of_Z 2) y) (pw (Z.of_nat k + 1)) (pw (Z.of_nat k + 1))) as Hy'.
    { eapply (fmul_iv _ _ _ _ _ _ _ _ 40); [exact two_iv|exact Hy|lra|apply bpow_ge_0|apply fmt_pw; lia|rewrite pw_S; lra|apply fmt_pw; lia|rewrite pw_S; lra|lia|lra]. }
    destruct (feq (fadd z (fmul (fmul x x) y)) z) eqn:Q.
    { eexists. split; [reflexivity|]. eapply iv_weaken; [exact Hz'|lra|lra]. }
    replace (Z.of_nat k + 1)%Z with (Z.of_nat (S k)) in * by lia.
    destruct (IH (S k) (fmul x x) (fmul (f_of_Z 2) y) (fadd z (fmul (fmul x x) y))) as (s & E & Hs); [lia|exact Hxx|done|done|done|done|].
    exists s. split; [exact E|done].
Qed.

(** n/2^p *)
Lemma ratio_iv n p : (0 <= n <= 2 ^ p)%Z → (0 <= p <= 30)%Z → iv (fdiv (f_of_Z n) (f_of_Z (2 ^ p))) (IZR n * pw (- p)) (IZR n * pw (- p)).
Proof.
  intros Hn Hp. assert (2 ^ p <= 2 ^ 30)%Z by (apply Z.pow_le_mono_r; lia). assert (2 ^ 30 < 2 ^ 53)%Z by (apply Z.pow_lt_mono_r; lia).
  assert (IZR n * pw (- p) * pw p = IZR n) as E by (rewrite Rmult_assoc, <- bpow_plus; replace (- p + p)%Z with 0%Z by lia; change (pw 0) with 1; lra).
  assert (0 <= IZR n) by (apply (IZR_le 0); lia). pose proof (pw_pos (- p)).
  assert (fmt (IZR n * pw (- p))) by (apply fmt_F2R; lia).
  apply (fdiv_iv _ _ (IZR n) (IZR n) (pw p) (pw p) _ _ 0); [apply f_of_Z_iv; lia|rewrite pw_IZR by lia; apply f_of_Z_iv; lia|done|apply pw_pos|done|rewrite E; lra|apply Rmult_le_pos; lra|done|rewrite E; lra|lia|].
  apply (Rmult_le_reg_r (pw p)); [apply pw_pos|]. rewrite E. change (pw 0) with 1. rewrite Rmult_1_l, pw_IZR by lia. apply IZR_le. lia.
Qed.
Lemma IZR_pw_ge1 n p : (1 <= n)%Z → pw (- p) <= IZR n * pw (- p).
Proof. intros H. apply IZR_le in H. pose proof (pw_pos (- p)). nra. Qed.
Lemma IZR_pw_lt n p : (n <= 2 ^ p - 1)%Z → (0 <= p)%Z → IZR n * pw (- p) <= 1 - pw (- p).
Proof.
  intros H Hp. apply IZR_le in H. rewrite minus_IZR, <- pw_IZR in H by lia. pose proof (pw_pos (- p)).
  assert (pw p * pw (- p) = 1) as E by (rewrite <- bpow_plus; replace (p + - p)%Z with 0%Z by lia; done). nra.
Qed.

Lemma sigma_total c p : (0 <= c < 2 ^ p)%Z → (4 <= p <= 18)%Z →
  ∃ s, (∀ fuel, (40 ≤ fuel)%nat → Hll_sigma fuel c (2 ^ p) = Some s) ∧ iv s (IZR c * pw (- p)) (pw 40).
Proof.
  intros Hc Hp. pose proof (ratio_iv c p ltac:(lia) ltac:(lia)) as Hx.
  pose proof (IZR_pw_lt c p ltac:(lia) ltac:(lia)) as Hlt. pose proof (pw_pos (- p)) as Hpp.
  unfold Hll_sigma. set (x := fdiv (f_of_Z c) (f_of_Z (2 ^ p))) in *.
  assert (feq x f_one = false) as ->.
  { apply feq_false; [apply Hx|apply f_one_iv|]. rewrite (iv_eq _ _ Hx), (iv_eq _ _ f_one_iv). lra. }
  destruct (decide (c = 0)%Z) as [->|Hc0].
  - (* all terms are zero *)
    rewrite Rmult_0_l in *. destruct Hx as [Fx Hx].
    assert (iv (fmul x x) 0 0) as H1.
    { apply (fmul_iv x x 0 0 0 0 0 0 0); try (split; [done|lra]); try apply generic_format_0; try lra; [lia|apply bpow_ge_0]. }
    assert (iv (fmul (fmul x x) f_one) 0 0) as H2.
    { eapply (fmul_iv _ _ 0 0 1 1 0 0 0); [exact H1|apply f_one_iv|lra|lra|apply generic_format_0|lra|apply generic_format_0|lra|lia|apply bpow_ge_0]. }
    assert (iv (fadd x (fmul (fmul x x) f_one)) 0 0) as H3.
    { eapply (fadd_iv _ _ 0 0 0 0 0 0 0); [split; [done|lra]|exact H2|lra|lra|apply generic_format_0|lra|apply generic_format_0|lra|lia|apply bpow_ge_0]. }
    exists (fadd x (fmul (fmul x x) f_one)). split.
    + intros [|fuel] Hf; [lia|]. cbn [sigma_loop].
      assert (feq (fadd x (fmul (fmul x x) f_one)) x = true) as ->; [|done].
      apply feq_ok; [apply H3|done|]. rewrite (iv_eq _ _ H3). lra.
    + eapply iv_weaken; [exact H3|lra|apply bpow_ge_0].
  - pose proof (IZR_pw_ge1 c p ltac:(lia)) as Hge.
    assert (pw (-18) <= pw (- p)) by (apply bpow_le; lia).
    assert (fmt (IZR c * pw (- p))) as Fc.
    { apply fmt_F2R; [|lia]. assert (2 ^ p <= 2 ^ 18)%Z by (apply Z.pow_le_mono_r; lia). lia. }
    destruct (sigma_loop_total 27 0 x f_one x (IZR c * pw (- p))) as (s & E & Hs); [lia| | | |done|lra|].
    + destruct Hx as [Fx Hx]. split; [done|]. split; [lra|].
      pose proof (ratio_iv (2 ^ 18 - 1) 18 ltac:(lia) ltac:(lia)) as H1. change (Z.opp 18) with (-18)%Z in H1. cbn [xf]. rewrite (iv_eq _ _ H1).
      assert (IZR (2 ^ 18 - 1) * pw (-18) = 1 - pw (-18)) as ->.
      { rewrite minus_IZR, <- pw_IZR by lia. rewrite Rmult_minus_distr_r, <- bpow_plus. change (pw (18 + -18)) with 1. lra. }
      lra.
    + exact f_one_iv.
    + eapply iv_weaken; [exact Hx|lra|]. change (pw (Z.of_nat 0)) with 1. lra.
    + exists s. split; [|done]. intros fuel Hf. eapply sigma_loop_mono; [exact E|lia].
Qed.
Lemma sigma_full p fuel : (4 <= p <= 18)%Z → Hll_sigma fuel (2 ^ p) (2 ^ p) = Some f_inf.
Proof.
  intros Hp. unfold Hll_sigma. pose proof (ratio_iv (2 ^ p) p ltac:(lia) ltac:(lia)) as Hx.
  assert (IZR (2 ^ p) * pw (- p) = 1) as E. { rewrite <- pw_IZR by lia. rewrite <- bpow_plus. replace (p + - p)%Z with 0%Z by lia. done. }
  rewrite E in Hx. assert (feq (fdiv (f_of_Z (2 ^ p)) (f_of_Z (2 ^ p))) f_one = true) as ->; [|done].
  apply feq_ok; [apply Hx|apply f_one_iv|]. rewrite (iv_eq _ _ Hx), (iv_eq _ _ f_one_iv). done.
Qed.

(** ** tau *)
Lemma tau_loop_mono f f' x y z s : tau_loop f x y z = Some s → (f ≤ f')%nat → tau_loop f' x y z = Some s.
Proof.
  revert f' x y z. induction f as [|f IH]; intros f' x y z E Hf; [done|]. destruct f' as [|f']; [lia|].
  cbn [tau_loop] in *. destruct (feq _ z); [done|]. apply IH; [done|lia].
Qed.
Lemma fmt1 : fmt 1. Proof. apply (fmt_pw 0). lia. Qed.
Lemma one_minus x : iv x 0 1 → iv (fsub f_one x) 0 1.
Proof.
  intros [Fx Hx]. pose proof (iv_eq _ _ f_one_iv) as E1. pose proof (maxfloat_ge 0 ltac:(lia)). change (pw 0) with 1 in *.
  apply fsub_iv; [apply f_one_iv|done|apply generic_format_0|lra|apply fmt1|lra|lra|lra].
Qed.
(** one iteration keeps x in [2^-18,1] and adds at most 2^-(k+1) *)
Lemma tau_x x : iv x (pw (-18)) 1 → iv (fsqrt x) (pw (-18)) 1.
Proof.
  intros Hx. assert (pw (-18) <= 1) by (apply (bpow_le radix2 (-18) 0); lia). pose proof (pw_pos (-18)).
  eapply (fsqrt_iv x _ _ (pw (-18)) 1); [exact Hx|done|apply fmt_pw; lia|lra|nra|apply fmt1|lra|lra].
Qed.
Lemma tau_term x y k : (0 <= k <= 200)%Z → iv x (pw (-18)) 1 → iv y (pw (- k)) (pw (- k)) → iv (fmul (fmul (fsub f_one x) x) y) 0 (pw (- k)).
Proof.
  intros Hk Hx Hy. pose proof (pw_pos (-18)).
  assert (iv (fsub f_one x) 0 1) as H1 by (apply one_minus; eapply iv_weaken; [exact Hx|lra|lra]).
  assert (iv (fmul (fsub f_one x) x) 0 1) as H2.
  { eapply (fmul_iv _ _ _ _ _ _ 0 1 0); [exact H1|exact Hx|lra|lra|apply generic_format_0|lra|apply fmt1|lra|lia|]. change (pw 0) with 1. lra. }
  eapply (fmul_iv _ _ _ _ _ _ 0 (pw (- k)) 0); [exact H2|exact Hy|lra|apply bpow_ge_0|apply generic_format_0|pose proof (pw_pos (- k)); lra|apply fmt_pw; lia|lra|lia|].
  apply bpow_le. lia.
Qed.
Lemma tau_y y k : (0 <= k <= 200)%Z → iv y (pw (- k)) (pw (- k)) → iv (fmul f_half y) (pw (- (k + 1))) (pw (- (k + 1))).
Proof.
  intros Hk Hy. assert (pw (- (k + 1)) = / 2 * pw (- k)) as E.
  { rewrite (pw_P (- k)). replace (- k - 1)%Z with (- (k + 1))%Z by lia. lra. }
  eapply (fmul_iv _ _ _ _ _ _ _ _ 0); [exact f_half_iv|exact Hy|lra|apply bpow_ge_0|apply fmt_pw; lia|rewrite E; lra|apply fmt_pw; lia|rewrite E; lra|lia|apply bpow_le; lia].
Qed.
Lemma tau_loop_total n k x y z : (k + n = 90)%nat → (1 ≤ k)%nat → iv x (pw (-18)) 1 →
  iv y (pw (- Z.of_nat k)) (pw (- Z.of_nat k)) → iv z (pw (-30)) (IZR (Z.of_nat k)) →
  ∃ s, tau_loop (S n) x y z = Some s ∧ iv s 0 (pw 7).
Proof.
  revert k x y z. induction n as [|n IH]; intros k x y z Hk Hk1 Hx Hy Hz.
  - replace k with 90%nat in * by lia. cbn [tau_loop].
    change (Z.of_nat 90) with 90%Z in *. pose proof (tau_term (fsqrt x) (fmul f_half y) 91 ltac:(lia) (tau_x x Hx) (tau_y y 90 ltac:(lia) Hy)) as Ht. change (Z.opp 91) with (-91)%Z in Ht.
    change (Z.of_nat 90) with 90%Z in *. set (t := fmul (fmul (fsub f_one (fsqrt x)) (fsqrt x)) (fmul f_half y)) in *.
    destruct Hz as [Fz Hz]. destruct Ht as [Ft Ht]. pose proof (pw_pos (-30)).
    assert (pw (-91) <= pw (-30 - 54)) by (apply bpow_le; lia).
    assert (pw (-91) <= 1) by (apply (bpow_le radix2 (-91) 0); lia). assert (pw 7 = 128) by reflexivity.
    destruct (fadd_ok z t) as (F & E & _); [done|done|apply (abs_max _ 7); [lia|lra]|].
    rewrite (absorb _ _ (-30)) in E; [|apply fmt_f2r|lra|lia|lra].
    assert (feq (fadd z t) z = true) as -> by (apply feq_ok; done).
    eexists. split; [reflexivity|]. split; [done|]. rewrite E. lra.
  - cbn [tau_loop].
    pose proof (tau_y y (Z.of_nat k) ltac:(lia) Hy) as Hy'.
    pose proof (tau_term (fsqrt x) (fmul f_half y) (Z.of_nat k + 1) ltac:(lia) (tau_x x Hx) Hy') as Ht.
    set (t := fmul (fmul (fsub f_one (fsqrt x)) (fsqrt x)) (fmul f_half y)) in *.
    assert (pw 7 = 128) by reflexivity. pose proof (pw_pos (-30)).
    assert (pw (- (Z.of_nat k + 1)) <= 1) by (apply (bpow_le radix2 _ 0); lia).
    assert (IZR (Z.of_nat k + 1) <= 128) by (apply IZR_le; lia).
    assert (iv (fadd z t) (pw (-30)) (IZR (Z.of_nat k + 1))) as Hz'.
    { eapply (fadd_iv _ _ _ _ _ _ (pw (-30)) (IZR (Z.of_nat k + 1)) 7); [exact Hz|exact Ht|lra|lra|apply fmt_pw; lia|lra|apply fmt_IZR; lia|rewrite plus_IZR; lra|lia|lra]. }
    destruct (feq (fadd z t) z) eqn:Q.
    { eexists. split; [reflexivity|]. eapply iv_weaken; [exact Hz'|lra|lra]. }
    replace (Z.of_nat k + 1)%Z with (Z.of_nat (S k)) in * by lia.
    destruct (IH (S k) (fsqrt x) (fmul f_half y) (fadd z t)) as (s & E & Hs); [lia|lia|by apply tau_x|done|done|].
    exists s. split; [exact E|done].
Qed.
Lemma tau_total c p : (0 <= c <= 2 ^ p)%Z → (4 <= p <= 18)%Z →
  ∃ s, (∀ fuel, (100 ≤ fuel)%nat → Hll_tau fuel c (2 ^ p) = Some s) ∧ iv s 0 (pw 7).
Proof.
  intros Hc Hp. unfold Hll_tau. pose proof (ratio_iv c p ltac:(lia) ltac:(lia)) as [Fx Hx].
  set (r := fdiv (f_of_Z c) (f_of_Z (2 ^ p))) in *.
  assert (2 ^ p <= 2 ^ 18)%Z by (apply Z.pow_le_mono_r; lia).
  assert (1 - IZR c * pw (- p) = IZR (2 ^ p - c) * pw (- p)) as E0.
  { rewrite minus_IZR, Rmult_minus_distr_r, <- (pw_IZR p) by lia. rewrite <- bpow_plus. replace (p + - p)%Z with 0%Z by lia. change (pw 0) with 1. lra. }
  assert (iv (fsub f_one r) (IZR (2 ^ p - c) * pw (- p)) (IZR (2 ^ p - c) * pw (- p))) as H0.
  { pose proof (iv_eq _ _ f_one_iv) as E1. pose proof (pw_pos (- p)).
    assert (0 <= IZR (2 ^ p - c) * pw (- p)) by (apply Rmult_le_pos; [apply (IZR_le 0); lia|lra]).
    assert (0 <= IZR c * pw (- p)) by (apply Rmult_le_pos; [apply (IZR_le 0); lia|lra]).
    pose proof (maxfloat_ge 0 ltac:(lia)). change (pw 0) with 1 in *.
    assert (fmt (IZR (2 ^ p - c) * pw (- p))) by (apply fmt_F2R; lia).
    apply fsub_iv; [apply f_one_iv|done|done|lra|done|lra|lra|lra]. }
  assert (fsign (fsub f_one r) = false ∨ c ≠ (2 ^ p)%Z) as Hsg.
  { destruct (decide (c = 2 ^ p)%Z) as [->|]; [left|by right].
    subst r. clear -Hp. assert (p ∈ [4;5;6;7;8;9;10;11;12;13;14;15;16;17;18]%Z) as Hin.
    { rewrite !elem_of_cons. lia. }
    repeat (apply elem_of_cons in Hin as [->|Hin]; [vm_compute; reflexivity|]). by apply elem_of_nil in Hin. }
  set (x := fsub f_one r) in *. clearbody x. clear Hx Fx r E0.
  pose proof (pw_pos (- p)) as Hpp. pose proof (pw_pos (-18)) as Hp18. pose proof (pw_pos (-30)) as Hp30.
  assert (pw 7 = 128) by reflexivity.
  (* the two degenerate starting points stop at once *)
  assert (∀ t, iv (fmul (fmul (fsub f_one (fsqrt x)) (fsqrt x)) (fmul f_half f_one)) 0 0 → t = fadd f_zero (fmul (fmul (fsub f_one (fsqrt x)) (fsqrt x)) (fmul f_half f_one)) →
    (∀ fuel, (100 ≤ fuel)%nat → tau_loop fuel x f_one f_zero = Some t) ∧ iv t 0 (pw 7)) as HD.
  { intros t Ht ->. destruct f_zero_ok as (Fz & Ez & _).
    assert (iv (fadd f_zero (fmul (fmul (fsub f_one (fsqrt x)) (fsqrt x)) (fmul f_half f_one))) 0 0) as Hq3.
    { eapply (fadd_iv _ _ 0 0 0 0 0 0 0); [split; [done|lra]|exact Ht|lra|lra|apply generic_format_0|lra|apply generic_format_0|lra|lia|apply bpow_ge_0]. }
    split; [|eapply iv_weaken; [exact Hq3|lra|lra]].
    intros [|fuel] Hf; [lia|]. cbn [tau_loop].
    assert (feq (fadd f_zero (fmul (fmul (fsub f_one (fsqrt x)) (fsqrt x)) (fmul f_half f_one))) f_zero = true) as ->; [|done].
    apply feq_ok; [apply Hq3|done|]. rewrite (iv_eq _ _ Hq3). lra. }
  assert (iv (fmul f_half f_one) (/ 2) (/ 2)) as Hy1.
  { assert (pw (-1) = / 2) as E by reflexivity. rewrite <- E. apply (tau_y f_one 0); [lia|exact f_one_iv]. }
  destruct (decide (c = 2 ^ p)%Z) as [->|Hcm].
  - rewrite Z.sub_diag, Rmult_0_l in H0. destruct Hsg as [Hsg|]; [|done]. destruct H0 as [Fx Hx].
    destruct (fsqrt_ok x) as (F & E); [done|lra|done|].
    assert (f2r x = 0) as Ex by lra. rewrite Ex, sqrt_0, rnd_0 in E.
    assert (iv (fsqrt x) 0 0) as Hs by (split; [done|lra]).
    assert (iv (fsub f_one (fsqrt x)) 0 1) as Hq1 by (apply one_minus; eapply iv_weaken; [exact Hs|lra|lra]).
    eexists. apply HD; [|reflexivity].
    assert (iv (fmul (fsub f_one (fsqrt x)) (fsqrt x)) 0 0) as Hq2.
    { eapply (fmul_iv _ _ 0 1 0 0 0 0 0); [exact Hq1|exact Hs|lra|lra|apply generic_format_0|lra|apply generic_format_0|lra|lia|apply bpow_ge_0]. }
    eapply (fmul_iv _ _ 0 0 _ _ 0 0 0); [exact Hq2|exact Hy1|lra|lra|apply generic_format_0|lra|apply generic_format_0|lra|lia|apply bpow_ge_0].
  - pose proof (IZR_pw_ge1 (2 ^ p - c) p ltac:(lia)) as Hge.
    assert (pw (-18) <= pw (- p)) by (apply bpow_le; lia).
    destruct (decide (c = 0)%Z) as [->|Hc0].
    + assert (IZR (2 ^ p - 0) * pw (- p) = 1) as E. { rewrite Z.sub_0_r, <- pw_IZR by lia. rewrite <- bpow_plus. replace (p + - p)%Z with 0%Z by lia. done. }
      rewrite E in H0. assert (iv (fsqrt x) 1 1) as Hs.
      { eapply (fsqrt_iv x 1 1 1 1); [exact H0|lra|apply fmt1|lra|lra|apply fmt1|lra|lra]. }
      pose proof (maxfloat_ge 0 ltac:(lia)). change (pw 0) with 1 in *.
      assert (iv (fsub f_one (fsqrt x)) 0 0) as Hq1.
      { apply fsub_iv; [apply f_one_iv|apply Hs|apply generic_format_0| |apply generic_format_0| |lra|lra]; rewrite (iv_eq _ _ f_one_iv), (iv_eq _ _ Hs); lra. }
      eexists. apply HD; [|reflexivity].
      assert (iv (fmul (fsub f_one (fsqrt x)) (fsqrt x)) 0 0) as Hq2.
      { eapply (fmul_iv _ _ 0 0 1 1 0 0 0); [exact Hq1|exact Hs|lra|lra|apply generic_format_0|lra|apply generic_format_0|lra|lia|apply bpow_ge_0]. }
      eapply (fmul_iv _ _ 0 0 _ _ 0 0 0); [exact Hq2|exact Hy1|lra|lra|apply generic_format_0|lra|apply generic_format_0|lra|lia|apply bpow_ge_0].
    + pose proof (IZR_pw_lt (2 ^ p - c) p ltac:(lia) ltac:(lia)) as Hlt.
      assert (iv x (pw (-18)) (1 - pw (-18))) as Hx by (eapply iv_weaken; [exact H0|lra|lra]). clear H0.
      assert (pw (-18) = / 262144) as E18. { change (-18)%Z with (Z.opp 18). rewrite (bpow_opp radix2 18), pw_IZR by lia. change (IZR (2 ^ 18)) with 262144. done. }
      assert (pw (-9) = / 512) as E9. { change (-9)%Z with (Z.opp 9). rewrite (bpow_opp radix2 9), pw_IZR by lia. change (IZR (2 ^ 9)) with 512. done. }
      assert (pw (-19) = / 524288) as E19. { change (-19)%Z with (Z.opp 19). rewrite (bpow_opp radix2 19), pw_IZR by lia. change (IZR (2 ^ 19)) with 524288. done. }
      assert (fmt (1 - pw (-19))) as F19.
      { replace (1 - pw (-19)) with (IZR (2 ^ 19 - 1) * pw (-19)); [apply fmt_F2R; lia|].
        rewrite minus_IZR, <- pw_IZR, Rmult_minus_distr_r, <- bpow_plus by lia. change (pw (19 + -19)) with 1. lra. }
      assert (iv (fsqrt x) (pw (-9)) (1 - pw (-19))) as Hs.
      { eapply (fsqrt_iv x _ _ (pw (-9)) (1 - pw (-19))); [exact Hx|lra|apply fmt_pw; lia|lra|rewrite E9, E18; lra|done|lra|rewrite E19, E18; lra]. }
      pose proof (maxfloat_ge 0 ltac:(lia)). change (pw 0) with 1 in *.
      assert (iv (fsub f_one (fsqrt x)) (pw (-19)) 1) as Hq1.
      { destruct Hs as [Fs Hs]. apply fsub_iv; [apply f_one_iv|done|apply fmt_pw; lia| |apply fmt1| |lra|lra]; rewrite (iv_eq _ _ f_one_iv); lra. }
      assert (iv (fmul (fsub f_one (fsqrt x)) (fsqrt x)) (pw (-28)) 1) as Hq2.
      { eapply (fmul_iv _ _ _ _ _ _ (pw (-28)) 1 0); [exact Hq1|exact Hs|lra|lra|apply fmt_pw; lia| |apply fmt1|lra|lia|change (pw 0) with 1; lra].
        rewrite <- bpow_plus. apply bpow_le. lia. }
      assert (iv (fmul (fmul (fsub f_one (fsqrt x)) (fsqrt x)) (fmul f_half f_one)) (pw (-30)) 1) as Hq3.
      { eapply (fmul_iv _ _ _ _ _ _ (pw (-30)) 1 0); [exact Hq2|exact Hy1|apply bpow_ge_0|lra|apply fmt_pw; lia| |apply fmt1|lra|lia|change (pw 0) with 1; lra].
        change (/ 2) with (pw (-1)). rewrite <- bpow_plus. apply bpow_le. lia. }
      set (t := fmul (fmul (fsub f_one (fsqrt x)) (fsqrt x)) (fmul f_half f_one)) in *.
      assert (iv (fadd f_zero t) (pw (-30)) 1) as Hq4.
      { destruct f_zero_ok as (Fz & Ez & _).
        eapply (fadd_iv _ _ 0 0 _ _ (pw (-30)) 1 0); [split; [done|lra]|exact Hq3|lra|lra|apply fmt_pw; lia|lra|apply fmt1|lra|lia|change (pw 0) with 1; lra]. }
      destruct (tau_loop_total 89 1 (fsqrt x) (fmul f_half f_one) (fadd f_zero t)) as (s & E & Hs'); [lia|lia| | |exact Hq4|].
      { eapply iv_weaken; [exact Hs| |lra]. rewrite E18, E9. lra. }
      { exact Hy1. }
      assert (∃ s', tau_loop 91 x f_one f_zero = Some s' ∧ iv s' 0 (pw 7)) as (s' & E' & Hs2).
      { change 91%nat with (S 90). cbn [tau_loop]. fold t. destruct (feq (fadd f_zero t) f_zero).
        - eexists. split; [reflexivity|]. eapply iv_weaken; [exact Hq4|lra|lra].
        - exists s. split; [exact E|done]. }
      exists s'. split; [|done]. intros fuel Hf. eapply tau_loop_mono; [exact E'|lia].
Qed.
