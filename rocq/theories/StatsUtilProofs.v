From Verif Require Import Base BaseProofs Float64 Float64Spec Float64Proofs Stat64Model Stat64Spec Stat64RealSpec Stat64RealProofs StatsUtilModel StatsUtilSpec.
From Coq Require Import Reals Lra.
From Flocq Require Import Core.
Notation float := Float64.float.

Lemma fold_Rplus xs a : fold_left Rplus xs a = (a + Rsum xs)%R.
Proof. revert a. induction xs as [|x xs IH]; intros a; cbn [fold_left Rsum]; [lra|]. rewrite IH. lra. Qed.
Lemma fold_sqdev c xs a : fold_left (λ acc v, (acc + (v - c) * (v - c))%R) xs a = (a + Rdev2 c xs)%R.
Proof. revert a. induction xs as [|x xs IH]; intros a; cbn [fold_left Rdev2]; [lra|]. rewrite IH. lra. Qed.

Lemma meanvarR_many nan xs : (2 ≤ length xs)%nat →
  meanvarR nan xs = Ok (Rmean xs, (Rdev2 (Rmean xs) xs / INR (length xs))%R).
Proof.
  intros Hn. unfold meanvarR, meanvar. rewrite !Req_bool_false.
  - unfold sum_loop, sqdev_loop. rewrite fold_Rplus, fold_sqdev, <- INR_IZR_INZ, !Rplus_0_l. done.
  - intros E%eq_IZR. lia.
  - intros E%eq_IZR. lia.
Qed.
Lemma meanvarR_one nan x : meanvarR nan [x] = Ok (x, nan).
Proof. unfold meanvarR, meanvar. cbn [length]. change (Z.of_nat 1) with 1. rewrite Req_bool_false by lra. rewrite Req_bool_true by done. done. Qed.
Lemma meanvarR_none nan : meanvarR nan [] = Ok (nan, nan).
Proof. unfold meanvarR, meanvar. by rewrite Req_bool_true. Qed.

Lemma Rdev2_nonneg c xs : (0 <= Rdev2 c xs)%R.
Proof. induction xs as [|x xs IH]; cbn [Rdev2]; [lra|]. pose proof (Rle_0_sqr (x - c)) as H. unfold Rsqr in H. lra. Qed.
Lemma Rdev2_zero c xs : Rdev2 c xs = 0%R → ∀ x, x ∈ xs → x = c.
Proof.
  induction xs as [|y xs IH]; cbn [Rdev2]; intros E x Hx; [by apply elem_of_nil in Hx|].
  pose proof (Rdev2_nonneg c xs). pose proof (Rle_0_sqr (y - c)) as Hs. unfold Rsqr in Hs.
  apply elem_of_cons in Hx as [->|Hx]; [|apply IH; [lra|done]].
  assert ((y - c) * (y - c) = 0)%R as E2 by lra. apply Rmult_integral in E2. lra.
Qed.
Lemma biased xs x y : (2 ≤ length xs)%nat → x ∈ xs → y ∈ xs → x ≠ y →
  (Rdev2 (Rmean xs) xs / INR (length xs) < Rvariance xs)%R.
Proof.
  intros Hn Hx Hy Hxy. unfold Rvariance. pose proof (le_INR _ _ Hn) as Hn'. change (INR 2) with 2%R in Hn'.
  assert (0 < Rdev2 (Rmean xs) xs)%R.
  { destruct (Rdev2_nonneg (Rmean xs) xs) as [|E]; [done|]. exfalso. apply Hxy.
    rewrite (Rdev2_zero _ _ (eq_sym E) x Hx). symmetry. by apply (Rdev2_zero _ _ (eq_sym E)). }
  unfold Rdiv. apply Rmult_lt_compat_l; [done|]. apply Rinv_lt_contravar; nra.
Qed.

(** ** never negative, in float64, whatever the observations *)
Local Transparent fadd fsub fmul fdiv flt feq fisnan ffinite f_of_Z f_zero.
Definition nn (x : float) : Prop := fisnan x = true ∨ f_nonneg x.
Lemma nan_fadd_l x y : fisnan x = true → fisnan (fadd x y) = true.
Proof. by destruct x, y. Qed.
Lemma nan_fadd_r x y : fisnan y = true → fisnan (fadd x y) = true.
Proof. by destruct x, y. Qed.
Lemma nn_fadd x y : nn x → nn y → nn (fadd x y).
Proof.
  intros [Hx|Hx] [Hy|Hy]; [left; by apply nan_fadd_l|left; by apply nan_fadd_l|left; by apply nan_fadd_r|].
  right. by apply fadd_nonneg.
Qed.
Lemma nn_square x : nn (fmul x x).
Proof.
  destruct (ffinite x) eqn:F.
  - right. apply fmul_nonneg; [done..|]. nra.
  - destruct x as [| [] | |]; try done; [right; by left|right; by left|left; done].
Qed.
Lemma nn_fdiv x y : nn x → ffinite y = true → (0 < f2r y)%R → nn (fdiv x y).
Proof. intros [Hx|Hx] Hy Hp; [left; by destruct x, y|]. right. by apply fdiv_nonneg. Qed.
Lemma nn_zero : nn f_zero.
Proof. right. right. destruct f_zero_ok as (H1 & H2 & _). split; [done|]. rewrite H2. lra. Qed.
Lemma nn_not_neg x : nn x → flt x f_zero = false.
Proof.
  intros [H|[H|[H1 H2]]]; [by destruct x|rewrite H; reflexivity|].
  destruct (flt x f_zero) eqn:E; [|done]. apply flt_ok in E; [|done|apply f_zero_ok].
  destruct f_zero_ok as (_ & H3 & _). lra.
Qed.
Lemma nn_sqdev c vs : nn (sqdev_loop f_zero fadd fsub fmul c vs).
Proof.
  unfold sqdev_loop. generalize nn_zero. generalize f_zero. induction vs as [|v vs IH]; intros a Ha; [done|].
  cbn [fold_left]. apply IH. apply nn_fadd; [done|apply nn_square].
Qed.
Lemma feq_ok x y : ffinite x = true → ffinite y = true → (feq x y = true ↔ f2r x = f2r y).
Proof.
  intros Hx Hy. unfold feq, Bits.b64_compare. rewrite Binary.Bcompare_correct by done. unfold f2r.
  destruct (Rcompare_spec (Binary.B2R 53 1024 x) (Binary.B2R 53 1024 y)); split; try done; lra.
Qed.
Lemma feq_false x y : ffinite x = true → ffinite y = true → f2r x ≠ f2r y → feq x y = false.
Proof. intros Hx Hy H. destruct (feq x y) eqn:E; [|done]. by apply feq_ok in E. Qed.
Lemma int_ok n : 0 ≤ n ≤ 2^53 → ffinite (f_of_Z n) = true ∧ f2r (f_of_Z n) = IZR n.
Proof. intros H. destruct (f_of_Z_exact n) as (? & ? & _); [lia|done]. Qed.

Lemma Meanvar_many vs : (2 ≤ length vs)%nat → Z.of_nat (length vs) ≤ 2^53 →
  Stats_Meanvar vs = Ok (fdiv (sum_spec vs) (f_of_Z (Z.of_nat (length vs))),
    fdiv (sqdev_loop f_zero fadd fsub fmul (fdiv (sum_spec vs) (f_of_Z (Z.of_nat (length vs)))) vs) (f_of_Z (Z.of_nat (length vs)))).
Proof.
  intros H1 H2. unfold Stats_Meanvar, meanvar.
  destruct (int_ok (Z.of_nat (length vs))) as [F1 E1]; [lia|]. destruct (int_ok 0) as [F0 E0]; [lia|]. destruct (int_ok 1) as [F2 E2]; [lia|].
  rewrite !feq_false; [done|done|done| |done|done|]; rewrite E1, ?E0, ?E2; intros E%eq_IZR; lia.
Qed.
Lemma Meanvar_none : Stats_Meanvar [] = Ok (f_nan, f_nan).
Proof.
  unfold Stats_Meanvar, meanvar. cbn [length]. change (Z.of_nat 0) with 0. destruct (int_ok 0) as [F0 _]; [lia|].
  destruct (feq (f_of_Z 0) (f_of_Z 0)) eqn:E; [done|]. exfalso. assert (feq (f_of_Z 0) (f_of_Z 0) = true) by by apply feq_ok. congruence.
Qed.
Lemma Meanvar_one v : Stats_Meanvar [v] = Ok (v, f_nan).
Proof.
  unfold Stats_Meanvar, meanvar. cbn [length]. change (Z.of_nat 1) with 1. destruct (int_ok 0) as [F0 E0]; [lia|]. destruct (int_ok 1) as [F1 E1]; [lia|].
  rewrite feq_false; [|done|done|rewrite E0, E1; lra].
  destruct (feq (f_of_Z 1) (f_of_Z 1)) eqn:E; [done|]. exfalso. assert (feq (f_of_Z 1) (f_of_Z 1) = true) by by apply feq_ok. congruence.
Qed.
Lemma Meanvar_never_negative vs m v : Z.of_nat (length vs) ≤ 2^53 → Stats_Meanvar vs = Ok (m, v) → flt v f_zero = false.
Proof.
  intros Hn. destruct vs as [|a [|b vs]].
  - rewrite Meanvar_none. intros [= <- <-]. vm_compute. reflexivity.
  - rewrite Meanvar_one. intros [= <- <-]. vm_compute. reflexivity.
  - rewrite Meanvar_many by (cbn [length] in *; lia).
    assert (∀ x y, Ok (x, y) = Ok (m, v) → y = v) as E0 by (by intros ? ? [= _ ->]). intros E%E0. rewrite <- E. clear E E0. apply nn_not_neg.
    assert (2 ≤ Z.of_nat (length (a :: b :: vs))) as Hl by (cbn [length]; lia).
    revert Hl Hn. generalize (Z.of_nat (length (a :: b :: vs))) as n. intros n Hl Hn. destruct (int_ok n) as [F1 E1]; [lia|].
    apply nn_fdiv; [apply (nn_sqdev _ (a :: b :: vs))|done|]. rewrite E1. apply (IZR_lt 0). lia.
Qed.
Lemma Sum_is_fold vs : Stats_Sum vs = sum_spec vs.
Proof. done. Qed.
