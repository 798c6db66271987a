(** From the number of registers hit to what Count returns. *)
From Coq Require Import ZifyBool ZifyNat.
From Verif Require Import Base FnvSpec Float64 Float64Spec BitbucketModel HllModel HllSpec HllCountModel HllCountSpec HllCountTop HllCountEst HllCountMore HllCountProps.
From Coq Require Import Reals Lra.
Open Scope Z_scope.

Lemma count_functional glog p vs n m : Count_after glog p vs n → Count_after glog p vs m → n = m.
Proof. apply C17_deterministic. Qed.
(** linear counting with at most R registers hit, bounded without logarithms *)
Lemma linear_le p b R : 4 ≤ p ≤ 18 → 0 ≤ b ≤ R → R < 2 ^ p → (linear_counting p (2 ^ p - b) <= IZR (2 ^ p * R) / IZR (2 ^ p - R))%R.
Proof.
  intros Hp Hb HR. unfold linear_counting. assert (0 < 2 ^ p) as H0 by lia.
  assert (0 < IZR (2 ^ p))%R as P by (by apply IZR_lt). assert (0 < IZR (2 ^ p - R))%R as P1 by (apply IZR_lt; lia).
  assert (0 < IZR (2 ^ p - b))%R as P2 by (apply IZR_lt; lia).
  assert (IZR (2 ^ p) / IZR (2 ^ p - b) <= IZR (2 ^ p) / IZR (2 ^ p - R))%R as HD.
  { unfold Rdiv. apply Rmult_le_compat_l; [lra|]. apply Rinv_le_contravar; [done|]. apply IZR_le. lia. }
  assert (0 < IZR (2 ^ p) / IZR (2 ^ p - b))%R as P3 by (apply Rdiv_lt_0_compat; done).
  pose proof (ln_upper _ P3) as HU. rewrite mult_IZR. unfold Rdiv at 2. rewrite Rmult_assoc. apply Rmult_le_compat_l; [lra|].
  assert (IZR R * / IZR (2 ^ p - R) = IZR (2 ^ p) / IZR (2 ^ p - R) - 1)%R as ->; [|lra].
  rewrite minus_IZR in *. field. lra.
Qed.
(** the bound on Count, decided on integers *)
Definition bound_ok (p R B : Z) : bool :=
  (0 <=? R) && (R <? 2 ^ p) && ((2 ^ p * R) * 2 ^ 27 + (2 ^ p - R) <=? linear_limit p * (2 ^ p - R) * 2 ^ 27) &&
  ((2 ^ p * R) * 2 ^ 27 + (2 ^ p - R) <=? B * (2 ^ p - R) * 2 ^ 27).
Lemma frac_le a b c : 0 < b → a * 2 ^ 27 + b <= c * b * 2 ^ 27 → (IZR a / IZR b + / 2 ^ 27 <= IZR c)%R.
Proof.
  intros Hb H. apply IZR_le in H. rewrite !plus_IZR, !mult_IZR in H. assert (0 < IZR b)%R as P by (by apply IZR_lt).
  assert (IZR (2 ^ 27) = 2 ^ 27)%R as E by (change 27 with (Z.of_nat 27); rewrite <- pow_IZR; reflexivity). rewrite E in H.
  assert (0 < 2 ^ 27)%R as P2 by (apply pow_lt; lra). set (k := (2 ^ 27)%R) in *. clearbody k.
  apply (Rmult_le_reg_r (IZR b * k)); [by apply Rmult_lt_0_compat|].
  replace ((IZR a / IZR b + / k) * (IZR b * k))%R with (IZR a * k + IZR b)%R by (field; lra). lra.
Qed.
Lemma count_bound glog p vs R B n : log_ok glog → 4 ≤ p ≤ 18 → Forall is_bytes vs → buckets_hit p vs ≤ R → bound_ok p R B = true →
  Count_after glog p vs n → n ≤ B.
Proof.
  intros Hlog Hp Hvs Hb HB Hn. unfold bound_ok in HB. rewrite !andb_true_iff, !Z.leb_le, Z.ltb_lt in HB. destruct HB as (((H0 & H1) & H2) & H3).
  pose proof (buckets_hit_nonneg p vs) as Hb0. pose proof (linear_le p _ R Hp (conj Hb0 Hb) H1) as HL.
  apply frac_le in H2; [|lia]. apply frac_le in H3; [|lia].
  destruct (C74_low_range glog p vs Hlog Hp Hvs ltac:(lia) ltac:(lra)) as (n' & Hn' & [_ Hr] & _).
  assert (n' = n) as -> by (eapply count_functional; done). apply Z.lt_succ_r, lt_IZR. rewrite succ_IZR. lra.
Qed.
Lemma seqZ_forallb f p : forallb f (seqZ 4 15) = true → 4 ≤ p ≤ 18 → f p = true.
Proof. intros H Hp. rewrite forallb_forall in H. apply H, elem_of_list_In, elem_of_seqZ. lia. Qed.
