(** <= on float64 values that are not NaN is a total preorder (infinities included). *)
From Verif Require Import Base Float64.
From Flocq Require Import IEEE754.Binary.
From Flocq Require Core.Raux.
From Coq Require Import Reals Lra.
Local Open Scope Z_scope.
Local Transparent fle fisnan flt.
Local Definition f2r (x : float) : R := Binary.B2R 53 1024 x.

Lemma fle_finite x y : Binary.is_finite 53 1024 x = true → Binary.is_finite 53 1024 y = true → fle x y = true ↔ (f2r x <= f2r y)%R.
Proof.
  intros Hx Hy. unfold fle, Bits.b64_compare. rewrite Bcompare_correct by done. unfold f2r.
  destruct (Raux.Rcompare_spec (B2R 53 1024 x) (B2R 53 1024 y)); split; try done; lra.
Qed.
(** position of a non-NaN value on the extended line *)
Local Definition lvl (x : float) : Z := match x with B754_infinity _ _ s => if s then -1 else 1 | _ => 0 end.
Lemma fle_lvl x y : fisnan x = false → fisnan y = false →
  fle x y = true ↔ lvl x < lvl y ∨ (lvl x = lvl y ∧ (lvl x = 0 → (f2r x <= f2r y)%R)).
Proof.
  intros Hx Hy.
  destruct (Binary.is_finite 53 1024 x) eqn:Fx.
  - assert (lvl x = 0) as Lx by (by destruct x). destruct (Binary.is_finite 53 1024 y) eqn:Fy.
    + assert (lvl y = 0) as Ly by (by destruct y). rewrite fle_finite by done. rewrite Lx, Ly. intuition lia.
    + destruct y as [|[]| |]; try done; unfold fle; (destruct x as [[]|[]| |[]]; try done); simpl; split; try done; intuition lia.
  - destruct x as [|[]| |]; try done; unfold fle; destruct y as [[]|[]| |[]]; try done; simpl; split; try done; intuition lia.
Qed.
Lemma fle_refl x : fisnan x = false → fle x x = true.
Proof. intros H. apply fle_lvl; [done..|]. right. split; [done|]. intros _. lra. Qed.
Lemma fle_trans x y z : fisnan x = false → fisnan y = false → fisnan z = false → fle x y = true → fle y z = true → fle x z = true.
Proof.
  intros Hx Hy Hz H1%fle_lvl H2%fle_lvl; [|done..]. apply fle_lvl; [done..|].
  destruct H1 as [H1|[H1 H1']], H2 as [H2|[H2 H2']]; [left; lia..|right]. split; [lia|]. intros H0. 
  specialize (H1' H0). specialize (H2' ltac:(lia)). lra.
Qed.
Lemma fle_total x y : fisnan x = false → fisnan y = false → fle x y = false → fle y x = true.
Proof.
  intros Hx Hy H. apply fle_lvl; [done..|]. destruct (Z.lt_total (lvl x) (lvl y)) as [H1|[H1|H1]].
  - exfalso. assert (fle x y = true) by (apply fle_lvl; [done..|by left]). congruence.
  - right. split; [done|]. intros H0. destruct (Rle_dec (f2r y) (f2r x)) as [|Hn]; [done|]. exfalso.
    assert (fle x y = true); [|congruence]. apply fle_lvl; [done..|]. right. split; [done|]. intros _. lra.
  - by left.
Qed.
Lemma fle_nan_l x y : fisnan x = true → fle x y = false.
Proof. by destruct x. Qed.
Lemma fle_nan_r x y : fisnan y = true → fle x y = false.
Proof. destruct y; try done. intros _. unfold fle. by destruct x as [[]|[]| |[]]. Qed.
