From Verif Require Import Base BaseProofs Stat64Model Stat64RealSpec.
From Coq Require Import Reals Lra.

Lemma Rsum_app xs ys : Rsum (xs ++ ys) = (Rsum xs + Rsum ys)%R.
Proof. induction xs as [|x xs IH]; simpl; [lra|]. rewrite IH. lra. Qed.
Lemma Rdev2_app c xs ys : Rdev2 c (xs ++ ys) = (Rdev2 c xs + Rdev2 c ys)%R.
Proof. induction xs as [|x xs IH]; simpl; [lra|]. rewrite IH. lra. Qed.
Lemma Rdev2_shift c d xs : Rdev2 d xs = (Rdev2 c xs + 2 * (c - d) * (Rsum xs - INR (length xs) * c) + INR (length xs) * (c - d) * (c - d))%R.
Proof.
  induction xs as [|x xs IH]; cbn [Rdev2 Rsum length]; [simpl; ring|]. rewrite IH, S_INR. ring.
Qed.
Lemma runR_app xs x : runR (xs ++ [x]) = observeR (runR xs) x.
Proof. unfold runR. by rewrite fold_left_app. Qed.

Lemma runR_spec xs : Z.of_nat (length xs) < 2^64 →
  a_count (runR xs) = Z.of_nat (length xs) ∧
  a_sum (runR xs) = Rsum xs ∧
  (INR (length xs) * a_mean (runR xs) = Rsum xs)%R ∧
  a_ss (runR xs) = Rdev2 (a_mean (runR xs)) xs.
Proof.
  induction xs as [|x xs IH] using rev_ind; intros Hn.
  - unfold runR. cbn. repeat split; ring.
  - rewrite app_length in Hn. cbn [length] in Hn.
    destruct IH as (Hc & Hs & Hm & Hq); [lia|].
    rewrite runR_app. unfold observeR, observe. cbn [a_count a_sum a_mean a_ss].
    rewrite Hc, Hs, Hq, app_length. cbn [length]. rewrite u64_small by lia.
    set (m := a_mean (runR xs)) in *. rewrite Rsum_app, Rdev2_app. cbn [Rsum Rdev2].
    replace (IZR (Z.of_nat (length xs) + 1)) with (INR (length xs + 1)) by (rewrite INR_IZR_INZ; f_equal; lia).
    rewrite plus_INR. set (n := INR (length xs)) in *.
    assert (0 <= n)%R by apply pos_INR. change (INR 1) with 1%R.
    split_and!; [lia|ring| |].
    + rewrite <- Hm. field. lra.
    + rewrite (Rdev2_shift m (m + (x - m) / (n + 1)) xs). fold n. rewrite <- Hm. field. lra.
Qed.
Lemma runR_mean xs : xs ≠ [] → Z.of_nat (length xs) < 2^64 → a_mean (runR xs) = Rmean xs.
Proof.
  intros H0 Hn. destruct (runR_spec xs Hn) as (_ & _ & Hm & _). unfold Rmean. rewrite <- Hm.
  field. apply not_0_INR. destruct xs; done.
Qed.
Lemma runR_ss xs : Z.of_nat (length xs) < 2^64 → a_ss (runR xs) = Rdev2 (Rmean xs) xs.
Proof.
  intros Hn. destruct xs as [|x xs]; [done|].
  destruct (runR_spec (x :: xs) Hn) as (_ & _ & _ & ->). by rewrite runR_mean.
Qed.
Lemma runR_textbook xs : (2 ≤ length xs)%nat → Z.of_nat (length xs) < 2^64 →
  a_count (runR xs) = Z.of_nat (length xs) ∧ a_sum (runR xs) = Rsum xs ∧ a_mean (runR xs) = Rmean xs ∧
  (a_ss (runR xs) / IZR (u64 (a_count (runR xs) - 1)))%R = Rvariance xs.
Proof.
  intros H2 Hn. destruct (runR_spec xs Hn) as (Hc & Hs & _ & _). split_and!; [done|done| |].
  - apply runR_mean; [by destruct xs; simpl in *; [lia|]|done].
  - rewrite runR_ss, Hc by done. unfold Rvariance. f_equal. rewrite u64_small by lia.
    rewrite minus_IZR, <- INR_IZR_INZ. done.
Qed.
