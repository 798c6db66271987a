(** Bounds of exp by its Taylor polynomials, decided on integers, and ln 2 to 2^-55. *)
From Verif Require Import Base.
From Coq Require Import Reals Lra.
Open Scope R_scope.

Definition taylor (x : R) (i : nat) : R := / INR (fact i) * x ^ i.
Lemma exp_series x : Un_cv (λ n, sum_f_R0 (taylor x) n) (exp x).
Proof. unfold exp. destruct (exist_exp x) as [l Hl]. exact Hl. Qed.
Lemma exp_ge_taylor x n : 0 <= x → sum_f_R0 (taylor x) n <= exp x.
Proof.
  intros Hx. apply sum_incr; [apply exp_series|]. intros i. unfold taylor.
  apply Rmult_le_pos; [left; apply Rinv_0_lt_compat, INR_fact_lt_0|by apply pow_le].
Qed.
Lemma exp_opp_ge_taylor x n : 0 <= x <= 1 → sum_f_R0 (taylor (- x)) (S (2 * n)) <= exp (- x).
Proof.
  intros Hx. assert (∀ i, taylor (- x) i = tg_alt (taylor x) i) as E.
  { intros i. unfold taylor, tg_alt. replace (- x) with (-1 * x) by ring. rewrite Rpow_mult_distr. ring. }
  rewrite (sum_eq (taylor (- x)) (tg_alt (taylor x))) by (intros; apply E).
  apply (alternated_series_ineq (taylor x) (exp (- x)) n).
  - intros i. unfold taylor. rewrite fact_simpl, mult_INR. cbn [pow].
    pose proof (INR_fact_lt_0 i). assert (1 <= INR (S i)) by (rewrite S_INR; pose proof (pos_INR i); lra).
    assert (0 <= x ^ i) by (apply pow_le; lra). rewrite Rinv_mult.
    assert (0 < / INR (fact i)) by (by apply Rinv_0_lt_compat).
    assert (/ INR (S i) <= 1). { rewrite <- Rinv_1. apply Rinv_le_contravar; lra. }
    assert (0 < / INR (S i)) by (apply Rinv_0_lt_compat; lra).
    replace (/ INR (S i) * / INR (fact i) * (x * x ^ i)) with ((/ INR (S i) * x) * (/ INR (fact i) * x ^ i)) by ring.
    rewrite <- (Rmult_1_l (/ INR (fact i) * x ^ i)) at 2. apply Rmult_le_compat_r; [apply Rmult_le_pos; lra|]. nra.
  - pose proof (cv_speed_pow_fact x) as H. intros eps He. destruct (H eps He) as [N HN]. exists N. intros m Hm.
    specialize (HN m Hm). unfold taylor. rewrite Rmult_comm. exact HN.
  - pose proof (exp_series (- x)) as H. intros eps He. destruct (H eps He) as [N HN]. exists N. intros m Hm.
    specialize (HN m Hm). rewrite <- (sum_eq (taylor (- x)) (tg_alt (taylor x))) by (intros; apply E). exact HN.
Qed.
(** numerator of the Taylor polynomial of degree n at a/d over the denominator d^n n! *)
Fixpoint tnum (a d : Z) (n : nat) : Z :=
  match n with O => 1 | S m => (tnum a d m * d * Z.of_nat n + a ^ Z.of_nat n)%Z end.
Fixpoint tden (d : Z) (n : nat) : Z :=
  match n with O => 1 | S m => (tden d m * d * Z.of_nat n)%Z end.
Lemma tden_eq d n : IZR (tden d n) = IZR d ^ n * INR (fact n).
Proof.
  induction n as [|n IH]; [simpl; lra|]. change (tden d (S n)) with (tden d n * d * Z.of_nat (S n))%Z.
  rewrite !mult_IZR, IH, <- INR_IZR_INZ, fact_simpl, mult_INR. simpl pow. ring.
Qed.
Lemma tnum_eq a d n : (0 < d)%Z → sum_f_R0 (taylor (IZR a / IZR d)) n = IZR (tnum a d n) / IZR (tden d n).
Proof.
  intros Hd. assert (0 < IZR d) as Hd' by (by apply IZR_lt). induction n as [|n IH]; [unfold taylor; simpl; field|].
  rewrite tech5, IH. change (tnum a d (S n)) with (tnum a d n * d * Z.of_nat (S n) + a ^ Z.of_nat (S n))%Z.
  change (tden d (S n)) with (tden d n * d * Z.of_nat (S n))%Z.
  rewrite plus_IZR, !mult_IZR, <- pow_IZR, <- !INR_IZR_INZ. unfold taylor.
  assert (0 < IZR d ^ n) by (by apply pow_lt). pose proof (INR_fact_lt_0 n).
  assert (0 < INR (S n)) by (apply lt_0_INR; lia).
  rewrite fact_simpl, mult_INR, tden_eq. unfold Rdiv at 2. rewrite Rpow_mult_distr, pow_inv. simpl (_ ^ S n). field. lra.
Qed.
Lemma exp_gt_q a d p q n : (0 <= a)%Z → (0 < d)%Z → (0 < q)%Z → (p * tden d n <? tnum a d n * q)%Z = true →
  IZR p / IZR q < exp (IZR a / IZR d).
Proof.
  intros Ha Hd Hq H. apply Z.ltb_lt, IZR_lt in H. rewrite !mult_IZR in H.
  assert (0 < IZR d) by (by apply IZR_lt). assert (0 < IZR q) by (by apply IZR_lt). assert (0 <= IZR a) by (by apply IZR_le).
  eapply Rlt_le_trans; [|apply (exp_ge_taylor _ n); apply Rmult_le_pos; [done|left; by apply Rinv_0_lt_compat]].
  rewrite tnum_eq by done. assert (0 < IZR (tden d n)). { rewrite tden_eq. apply Rmult_lt_0_compat; [by apply pow_lt|apply INR_fact_lt_0]. }
  apply (Rmult_lt_reg_r (IZR q * IZR (tden d n))); [by apply Rmult_lt_0_compat|].
  replace (IZR p / IZR q * (IZR q * IZR (tden d n))) with (IZR p * IZR (tden d n)) by (field; lra).
  replace (IZR (tnum a d n) / IZR (tden d n) * (IZR q * IZR (tden d n))) with (IZR (tnum a d n) * IZR q) by (field; lra). done.
Qed.
Lemma exp_opp_gt_q a d p q n : (0 <= a <= d)%Z → (0 < d)%Z → (0 < q)%Z → (p * tden d (S (2 * n)) <? tnum (- a) d (S (2 * n)) * q)%Z = true →
  IZR p / IZR q < exp (- (IZR a / IZR d)).
Proof.
  intros Ha Hd Hq H. apply Z.ltb_lt, IZR_lt in H. rewrite !mult_IZR in H. set (N := S (2 * n)) in *.
  assert (0 < IZR d) by (by apply IZR_lt). assert (0 < IZR q) by (by apply IZR_lt). assert (0 <= IZR a <= IZR d) by (split; apply IZR_le; lia).
  eapply Rlt_le_trans; [|apply (exp_opp_ge_taylor _ n)].
  2:{ split; [apply Rmult_le_pos; [lra|left; by apply Rinv_0_lt_compat]|]. apply (Rmult_le_reg_r (IZR d)); [done|]. unfold Rdiv. rewrite Rmult_assoc, Rinv_l by lra. lra. }
  fold N. replace (- (IZR a / IZR d)) with (IZR (- a) / IZR d) by (rewrite opp_IZR; field; lra).
  rewrite tnum_eq by done. assert (0 < IZR (tden d N)). { rewrite tden_eq. apply Rmult_lt_0_compat; [by apply pow_lt|apply INR_fact_lt_0]. }
  apply (Rmult_lt_reg_r (IZR q * IZR (tden d N))); [by apply Rmult_lt_0_compat|].
  replace (IZR p / IZR q * (IZR q * IZR (tden d N))) with (IZR p * IZR (tden d N)) by (field; lra).
  replace (IZR (tnum (- a) d N) / IZR (tden d N) * (IZR q * IZR (tden d N))) with (IZR (tnum (- a) d N) * IZR q) by (field; lra). done.
Qed.
(** math.Ln2 rounded to float64 is 6243314768165359 / 2^53 *)
Lemma ln2_lower : IZR 6243314768165359 / IZR (2 ^ 53) < ln 2.
Proof.
  apply exp_lt_inv. rewrite exp_ln by lra.
  pose proof (exp_opp_gt_q 6243314768165359 (2 ^ 53) 1 2 10 ltac:(lia) ltac:(lia) ltac:(lia) ltac:(vm_compute; reflexivity)) as H.
  rewrite exp_Ropp in H. set (e := exp _) in *. assert (0 < e) by apply exp_pos.
  apply (Rmult_lt_compat_r e) in H; [|done]. rewrite Rinv_l in H by lra. lra.
Qed.
Lemma ln2_upper : ln 2 < IZR (4 * 6243314768165359 + 1) / IZR (2 ^ 55).
Proof.
  apply exp_lt_inv. rewrite exp_ln by lra.
  pose proof (exp_gt_q (4 * 6243314768165359 + 1) (2 ^ 55) 2 1 20 ltac:(lia) ltac:(lia) ltac:(lia) ltac:(vm_compute; reflexivity)) as H. lra.
Qed.
