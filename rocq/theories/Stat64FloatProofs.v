From Verif Require Import Base BaseProofs Float64 Float64Spec Float64Proofs Stat64Model Stat64Spec Stat64Proofs Stat64RealSpec Stat64FloatSpec.
From Coq Require Import Reals Lra Psatz.
From stdpp Require Import sets.
Local Open Scope Z_scope.

(** ** integer sums *)
Lemma Zsum_snoc ns n : Zsum (ns ++ [n]) = Zsum ns + n.
Proof. unfold Zsum. by rewrite fold_left_app. Qed.
Lemma sum_snoc vs v : sum_spec (vs ++ [v]) = fadd (sum_spec vs) v.
Proof. unfold sum_spec. by rewrite fold_left_app. Qed.

Lemma int_sum_exact vs ns : Forall2 is_int vs ns → (∀ k, Z.abs (Zsum (take k ns)) ≤ 2^53) →
  sum_spec vs = f_of_Z (Zsum ns).
Proof.
  revert ns. induction vs as [|v vs IH] using rev_ind; intros ns HF Hb.
  - apply Forall2_nil_inv_l in HF as ->. done.
  - apply Forall2_app_inv_l in HF as (ns0 & nl & H1 & H2 & ->).
    apply Forall2_cons_inv_l in H2 as (n & ? & [Hv Hvn] & H2 & ->). apply Forall2_nil_inv_l in H2 as ->.
    rewrite sum_snoc, Zsum_snoc.
    assert (Hb0 : ∀ k, Z.abs (Zsum (take k ns0)) ≤ 2^53).
    { intros k. destruct (decide (k ≤ length ns0)%nat) as [Hk|Hk].
      - specialize (Hb k). by rewrite take_app_le in Hb.
      - rewrite take_ge by lia. specialize (Hb (length ns0)). by rewrite take_app in Hb. }
    rewrite (IH ns0 H1 Hb0).
    assert (Hs : Z.abs (Zsum ns0) ≤ 2^53) by (specialize (Hb0 (length ns0)); by rewrite take_ge in Hb0).
    assert (Ht : Z.abs (Zsum ns0 + n) ≤ 2^53).
    { specialize (Hb (length (ns0 ++ [n]))). rewrite take_ge in Hb by done. by rewrite Zsum_snoc in Hb. }
    destruct (f_of_Z_exact (Zsum ns0)) as (F1 & F2 & F3); [lia|].
    destruct (f_of_Z_exact (Zsum ns0 + n)) as (G1 & G2 & G3); [lia|].
    assert (E : (f2r (f_of_Z (Zsum ns0)) + f2r v)%R = IZR (Zsum ns0 + n)) by (rewrite F2, Hvn, plus_IZR; done).
    destruct (fadd_ok (f_of_Z (Zsum ns0)) v) as (A1 & A2 & A3); [done|done|rewrite E; apply IZR_maxfloat; lia|].
    rewrite E in A2, A3. apply float_inj; [done|done| |].
    + rewrite A2, G2. apply rnd_fmt, fmt_IZR. lia.
    + rewrite A3, G3, F3. destruct (Z.ltb_spec (Zsum ns0 + n) 0) as [Hlt|Hge].
      * rewrite Raux.Rcompare_Lt; [done|]. by apply (IZR_lt _ 0).
      * destruct (decide (Zsum ns0 + n = 0)) as [E0|N0].
        -- rewrite E0, Raux.Rcompare_Eq by done.
           destruct (Z.ltb_spec (Zsum ns0) 0) as [Hn|Hn]; [|done]. cbn [andb].
           assert (Hp : (0 < f2r v)%R) by (rewrite Hvn; apply (IZR_lt 0); lia).
           destruct (fsign v) eqn:Es; [|done]. apply f2r_sign in Es; [lra|done|lra].
        -- rewrite Raux.Rcompare_Gt; [done|]. apply (IZR_lt 0). lia.
Qed.
Lemma int_sum_small vs ns : Forall2 is_int vs ns → Zsum (map Z.abs ns) ≤ 2^53 →
  sum_spec vs = f_of_Z (Zsum ns).
Proof.
  intros HF Hb. apply int_sum_exact; [done|]. intros k.
  assert (H : ∀ l, Z.abs (Zsum l) ≤ Zsum (map Z.abs l)).
  { intros l. induction l as [|x l IH] using rev_ind; [done|]. rewrite map_app. cbn [map]. rewrite !Zsum_snoc. lia. }
  assert (H0 : ∀ l a, Zsum (map Z.abs l) ≤ Zsum (map Z.abs (l ++ a))).
  { intros l a. induction a as [|x a IH] using rev_ind; [by rewrite app_nil_r|].
    rewrite app_assoc, map_app. cbn [map]. rewrite Zsum_snoc. lia. }
  specialize (H (take k ns)). specialize (H0 (take k ns) (drop k ns)). rewrite take_drop in H0. lia.
Qed.
Lemma Zsum_perm ns ms : ns ≡ₚ ms → Zsum ns = Zsum ms.
Proof.
  assert (H : ∀ l a, fold_left Z.add l a = a + Zsum l).
  { unfold Zsum. induction l as [|x l IH]; intros a; cbn [fold_left]; [lia|]. rewrite (IH (a + x)), (IH (0 + x)). lia. }
  unfold Zsum. intros Hp. induction Hp; cbn [fold_left]; [done| | |congruence].
  - rewrite !(H _ (0 + x)). unfold Zsum. lia.
  - rewrite (H l (0 + y + x)), (H l (0 + x + y)). lia.
Qed.
Lemma int_sum_order vs us ns ms : Forall2 is_int vs ns → Forall2 is_int us ms → ns ≡ₚ ms →
  Zsum (map Z.abs ns) ≤ 2^53 → sum_spec vs = sum_spec us.
Proof.
  intros H1 H2 Hp Hb. rewrite (int_sum_small vs ns), (int_sum_small us ms); [by rewrite (Zsum_perm ns ms)|done| |done|done].
  rewrite <- (Zsum_perm (map Z.abs ns)); [done|]. by rewrite Hp.
Qed.

(** ** error of the running sum *)
Lemma Rabssum_app xs ys : Rabssum (xs ++ ys) = (Rabssum xs + Rabssum ys)%R.
Proof. induction xs as [|x xs IH]; simpl; [lra|]. rewrite IH. lra. Qed.
Lemma Rabssum_pos xs : (0 <= Rabssum xs)%R.
Proof. induction xs as [|x xs IH]; simpl; [lra|]. pose proof (Rabs_pos x). lra. Qed.
Lemma Rsum_snoc xs x : Rsum (xs ++ [x]) = (Rsum xs + x)%R.
Proof. induction xs as [|y xs IH]; simpl; [lra|]. rewrite IH. lra. Qed.
Lemma Rsum_abs xs : (Rabs (Rsum xs) <= Rabssum xs)%R.
Proof. induction xs as [|x xs IH]; simpl; [rewrite Rabs_R0; lra|]. pose proof (Rabs_triang x (Rsum xs)). lra. Qed.
Lemma sum_error vs : ffinite (sum_spec vs) = true →
  (Rabs (f2r (sum_spec vs) - Rsum (map f2r vs)) <= ((1 + uro) ^ length vs - 1) * Rabssum (map f2r vs))%R.
Proof.
  induction vs as [|v vs IH] using rev_ind; intros Hf.
  - cbn. destruct f_zero_ok as (_ & E & _). unfold sum_spec. cbn [fold_left]. rewrite E, Rminus_0_r, Rabs_R0. lra.
  - rewrite sum_snoc in *. apply fadd_finite_inv in Hf as (H1 & H2 & E). specialize (IH H1).
    rewrite E. destruct (rnd_plus (f2r (sum_spec vs)) (f2r v)) as (e & He & ->); [apply fmt_f2r|apply fmt_f2r|].
    rewrite map_app, Rabssum_app, app_length. cbn [map Rabssum length]. rewrite Rsum_snoc, pow_add.
    set (s := f2r (sum_spec vs)) in *. set (S := Rsum (map f2r vs)) in *. set (A := Rabssum (map f2r vs)) in *.
    set (x := f2r v). set (p := ((1 + uro) ^ length vs)%R) in *.
    assert (Hp : (1 <= p)%R) by (apply pow_R1_Rle; destruct uro_bounds; lra).
    assert (HA : (Rabs S <= A)%R) by apply Rsum_abs.
    destruct uro_bounds as [Hu _]. pose proof (Rabs_pos x). pose proof (Rabs_pos S). pose proof (Rabs_pos e).
    replace ((s + x) * (1 + e) - (S + x))%R with ((s - S) * (1 + e) + (S + x) * e)%R by ring.
    eapply Rle_trans; [apply Rabs_triang|]. rewrite !Rabs_mult.
    assert (H1e : (Rabs (1 + e) <= 1 + uro)%R).
    { eapply Rle_trans; [apply Rabs_triang|]. rewrite Rabs_R1. lra. }
    pose proof (Rabs_pos (1 + e)). pose proof (Rabs_pos (s - S)).
    pose proof (Rabs_triang S x). pose proof (Rabs_pos (S + x)).
    assert (Rabs (s - S) * Rabs (1 + e) <= (p - 1) * A * (1 + uro))%R by (apply Rmult_le_compat; lra).
    assert (Rabs (S + x) * Rabs e <= (A + Rabs x) * uro)%R by (apply Rmult_le_compat; lra).
    assert (0 <= (p - 1) * uro * Rabs x)%R by (apply Rmult_le_pos; [apply Rmult_le_pos; lra|lra]).
    assert (0 <= (p - 1) * Rabs x)%R by (apply Rmult_le_pos; lra).
    simpl. nra.
Qed.

(** ** the mean stays in the hull, the deviations are never negative *)
Lemma welford_snoc vs v : welford (vs ++ [v]) =
  let '(k, mean, ss) := welford vs in
  let k' := (k + 1) mod 2^64 in
  let mean' := fadd mean (fdiv (fsub v mean) (f_of_Z k')) in
  (k', mean', fadd ss (fmul (fsub v mean) (fsub v mean'))).
Proof. unfold welford. rewrite fold_left_app. cbn [fold_left]. destruct (fold_left _ vs _) as [[k m] q]. done. Qed.

Lemma rnd_IZR_ge2 n : 2 ≤ n → (2 <= rnd (IZR n))%R.
Proof.
  intros H. rewrite <- (rnd_fmt 2) by (apply (fmt_IZR 2); lia). apply rnd_le. by apply (IZR_le 2).
Qed.


Lemma welford_inv vs : Z.of_nat (length vs) < 2^64 → Forall (λ v, ffinite v = true) vs → spread_ok vs →
  let '(k, m, q) := welford vs in
  k = Z.of_nat (length vs) ∧ ffinite m = true ∧ f_nonneg q ∧
  (vs = [] → f2r m = 0%R) ∧
  (vs ≠ [] → ∃ a b, a ∈ vs ∧ b ∈ vs ∧ (f2r a <= f2r m <= f2r b)%R).
Proof.
  induction vs as [|v vs IH] using rev_ind; intros Hn HF Hsp.
  - cbn. destruct f_zero_ok as (Z1 & Z2 & _). split_and!; try done.
    right. split; [done|rewrite Z2; lra].
  - rewrite app_length in Hn. cbn [length] in Hn. apply Forall_app in HF as [HF Hv]. apply Forall_cons_1 in Hv as [Hv _].
    specialize (IH ltac:(lia) HF ltac:(intros x y Hx Hy; apply Hsp; set_solver)).
    rewrite welford_snoc. destruct (welford vs) as [[k m] q]. destruct IH as (-> & Hm & Hq & Hm0 & Hhull).
    cbv zeta. rewrite Z.mod_small by lia. set (k := Z.of_nat (length vs) + 1) in *.
    assert (Hd : (Rabs (f2r v - f2r m) <= maxfloat)%R).
    { destruct vs as [|u vs'].
      - rewrite Hm0, Rminus_0_r by done. apply f2r_bound.
      - destruct Hhull as (a & b & Ha & Hb & Hab); [done|].
        pose proof (Hsp v a ltac:(set_solver) ltac:(set_solver)) as H1.
        pose proof (Hsp v b ltac:(set_solver) ltac:(set_solver)) as H2.
        apply Raux.Rabs_le_inv in H1, H2. apply Rabs_le. lra. }
    destruct (fsub_ok v m Hv Hm Hd) as [Df Dr].
    destruct (f_of_Z_ok k) as (Kf & Kr & _); [apply IZR_maxfloat; unfold k; lia|].
    set (K := f2r (f_of_Z k)) in *.
    assert (HK : K = 1%R ∧ vs = [] ∨ (2 <= K)%R).
    { destruct vs as [|u vs']; [left; split; [|done]|right; rewrite Kr; apply rnd_IZR_ge2; cbn [length] in *; unfold k; lia].
      rewrite Kr. apply (rnd_fmt 1). apply (fmt_IZR 1). lia. }
    assert (HK1 : (1 <= K)%R) by (destruct HK as [[-> _]|?]; lra).
    assert (HD : (Rabs (f2r (fsub v m)) <= maxfloat)%R) by apply f2r_bound.
    destruct (fdiv_ok (fsub v m) (f_of_Z k) Df) as [Qf Qr]; [fold K; lra| |].
    { fold K. unfold Rdiv. rewrite Rabs_mult, Rabs_inv, (Rabs_pos_eq K) by lra.
      apply Rle_div_l; [lra|]. pose proof (Rabs_pos (f2r (fsub v m))). nra. }
    fold K in Qr. rewrite Dr in Qr.
    (* the exact m + q *)
    assert (Hst : (f2r m <= f2r v ∧ f2r m <= rnd (f2r m + f2r (fdiv (fsub v m) (f_of_Z k))) <= f2r v ∨
                   f2r v <= f2r m ∧ f2r v <= rnd (f2r m + f2r (fdiv (fsub v m) (f_of_Z k))) <= f2r m)%R).
    { rewrite Qr. destruct (Rle_or_lt (f2r m) (f2r v)) as [H|H]; [left|right]; (split; [lra|]).
      - apply mean_step_up; [apply fmt_f2r|apply fmt_f2r|done|done|tauto|]. intros E1. apply Hm0. destruct HK as [[_ ?]|?]; [done|lra].
      - apply mean_step_down; [apply fmt_f2r|apply fmt_f2r|lra|done|tauto|]. intros E1. apply Hm0. destruct HK as [[_ ?]|?]; [done|lra]. }
    assert (Hsum : (Rabs (f2r m + f2r (fdiv (fsub v m) (f_of_Z k))) <= maxfloat)%R).
    { (* otherwise the rounded value would exceed the largest float *)
      rewrite Qr in *. pose proof (f2r_bound m) as Bm. pose proof (f2r_bound v) as Bv.
      apply Raux.Rabs_le_inv in Bm, Bv. apply Rabs_le.
      assert (Hq2 : (f2r m <= f2r v → 0 <= rnd (rnd (f2r v - f2r m) / K) ∧ rnd (rnd (f2r v - f2r m)/K) <= f2r v - f2r m)%R).
      { intros Hle. split.
        - apply rnd_nonneg. apply Rmult_le_pos; [apply rnd_nonneg; lra|left; apply Rinv_0_lt_compat; lra].
        - apply mean_quot_le; [apply fmt_f2r|apply fmt_f2r|done|done|tauto|].
          intros E1. apply Hm0. destruct HK as [[_ ?]|?]; [done|lra]. }
      assert (Hq3 : (f2r v <= f2r m → rnd (rnd (f2r v - f2r m) / K) <= 0 ∧ - (f2r m - f2r v) <= rnd (rnd (f2r v - f2r m)/K))%R).
      { intros Hle. replace (rnd (rnd (f2r v - f2r m) / K)) with (- rnd (rnd (f2r m - f2r v) / K))%R.
        - split.
          + cut (0 <= rnd (rnd (f2r m - f2r v) / K))%R; [lra|].
            apply rnd_nonneg. apply Rmult_le_pos; [apply rnd_nonneg; lra|left; apply Rinv_0_lt_compat; lra].
          + apply Ropp_le_contravar. replace (f2r m - f2r v)%R with (- f2r v - - f2r m)%R by ring.
            apply mean_quot_le; [apply fmt_opp, fmt_f2r|apply fmt_opp, fmt_f2r|lra|done|tauto|].
            intros E1. rewrite Hm0; [lra|]. destruct HK as [[_ ?]|?]; [done|lra].
        - replace (f2r m - f2r v)%R with (- (f2r v - f2r m))%R by ring. rewrite rnd_opp.
          replace (- rnd (f2r v - f2r m) / K)%R with (- (rnd (f2r v - f2r m) / K))%R by (unfold Rdiv; ring).
          rewrite rnd_opp. ring. }
      destruct (Rle_or_lt (f2r m) (f2r v)) as [H|H].
      - specialize (Hq2 H). lra.
      - specialize (Hq3 ltac:(lra)). lra. }
    destruct (fadd_ok m (fdiv (fsub v m) (f_of_Z k)) Hm Qf Hsum) as (Mf & Mr & _).
    set (m' := fadd m (fdiv (fsub v m) (f_of_Z k))) in *. rewrite <- Mr in Hst.
    destruct (fsub_ok v m' Hv Mf) as [Ef Er].
    { apply Raux.Rabs_le_inv in Hd. apply Rabs_le. destruct Hst as [[? ?]|[? ?]]; lra. }
    split_and!.
    + rewrite app_length. cbn [length]. unfold k. lia.
    + done.
    + apply fadd_nonneg; [done|]. apply fmul_nonneg; [done|done|]. rewrite Dr, Er.
      destruct Hst as [[? ?]|[? ?]].
      * apply Rmult_le_pos; apply rnd_nonneg; lra.
      * replace (rnd (f2r v - f2r m) * rnd (f2r v - f2r m'))%R with (rnd (f2r m - f2r v) * rnd (f2r m' - f2r v))%R.
        -- apply Rmult_le_pos; apply rnd_nonneg; lra.
        -- replace (f2r m - f2r v)%R with (- (f2r v - f2r m))%R by ring.
           replace (f2r m' - f2r v)%R with (- (f2r v - f2r m'))%R by ring. rewrite !rnd_opp. ring.
    + intros E%(f_equal length). rewrite app_length in E. cbn in E. lia.
    + intros _. destruct vs as [|u vs'].
      * exists v, v. rewrite Hm0 in Hst by done.
        assert (E : f2r m' = f2r v).
        { rewrite Mr, Qr, Hm0 by done. destruct HK as [[-> _]|Habs].
          - rewrite Rplus_0_l, Rminus_0_r, (rnd_fmt (f2r v)) by apply fmt_f2r. unfold Rdiv. rewrite Rinv_1, Rmult_1_r.
            rewrite !(rnd_fmt (f2r v)) by apply fmt_f2r. done.
          - exfalso. rewrite Kr in Habs. change (IZR k) with 1%R in Habs. rewrite (rnd_fmt 1) in Habs; [lra|]. apply (fmt_IZR 1); lia. }
        rewrite E. split; [set_solver|split; [set_solver|lra]].
      * destruct Hhull as (a & b & Ha & Hb & Hab); [done|].
        destruct Hst as [[H1 H2]|[H1 H2]].
        -- exists a, v. split; [set_solver|split; [set_solver|lra]].
        -- exists v, b. split; [set_solver|split; [set_solver|lra]].
Qed.

Lemma fmul_zero x y : ffinite x = true → ffinite y = true → (f2r x * f2r y = 0)%R →
  ffinite (fmul x y) = true ∧ f2r (fmul x y) = 0%R.
Proof.
  intros Hx Hy H0. destruct (fmul_ok x y Hx Hy) as [H1 H2]; [rewrite H0, Rabs_R0; left; apply maxfloat_pos|].
  split; [done|]. rewrite H2, H0. apply rnd_0.
Qed.
Lemma welford_const v n : ffinite v = true → Z.of_nat n < 2^64 →
  let '(k, m, q) := welford (replicate n v) in
  k = Z.of_nat n ∧ ffinite m = true ∧ ffinite q = true ∧ f2r q = 0%R ∧ (n ≠ 0%nat → f2r m = f2r v).
Proof.
  intros Hv. assert (Hw : ∀ n, Z.of_nat n < 2^64 → let '(k, m, _) := welford (replicate n v) in
     k = Z.of_nat n ∧ ffinite m = true ∧ (n = 0%nat → f2r m = 0%R) ∧ (n ≠ 0%nat → f2r m = f2r v)).
  { clear n. intros n Hn. pose proof (welford_inv (replicate n v)) as H. rewrite replicate_length in H.
    specialize (H Hn). destruct (welford (replicate n v)) as [[k m] q].
    destruct H as (-> & Hm & _ & H0 & Hh); [by apply Forall_replicate| |].
    - intros x y [-> _]%elem_of_replicate [-> _]%elem_of_replicate.
      rewrite Rminus_diag_eq, Rabs_R0 by done. left. apply maxfloat_pos.
    - split_and!; [done|done|intros ->; by apply H0|]. intros Hn0. destruct Hh as (a & b & Ha & Hb & Hab).
      { by destruct n. } apply elem_of_replicate in Ha as [-> _], Hb as [-> _]. lra. }
  induction n as [|n IH]; intros Hn.
  - cbn. destruct f_zero_ok as (Z1 & Z2 & _). done.
  - specialize (IH ltac:(lia)). pose proof (Hw n ltac:(lia)) as Hn1. pose proof (Hw (S n) Hn) as HS.
    rewrite replicate_S_end in HS |- *. rewrite welford_snoc in HS |- *.
    destruct (welford (replicate n v)) as [[k m] q]. cbv zeta in *.
    destruct IH as (-> & Hm & Hq & Hq0 & _). destruct Hn1 as (_ & _ & Hm0 & Hm1).
    destruct HS as (H1 & H2 & _ & H3). specialize (H3 ltac:(done)).
    set (m' := fadd m _) in *.
    assert (Hmm : f2r m = 0%R ∨ f2r m = f2r v) by (destruct n; [left; by apply Hm0|right; by apply Hm1]).
    destruct (fsub_ok v m Hv Hm) as [Df Dr].
    { destruct Hmm as [E|E]; rewrite E; [rewrite Rminus_0_r; apply f2r_bound|]. rewrite Rminus_diag_eq, Rabs_R0 by done. left; apply maxfloat_pos. }
    destruct (fsub_ok v m' Hv H2) as [Ef Er].
    { rewrite H3, Rminus_diag_eq, Rabs_R0 by done. left; apply maxfloat_pos. }
    rewrite H3, Rminus_diag_eq, rnd_0 in Er by done.
    destruct (fmul_zero (fsub v m) (fsub v m') Df Ef) as [Pf Pr]; [rewrite Er; ring|].
    destruct (fadd_ok q (fmul (fsub v m) (fsub v m')) Hq Pf) as (Sf & Sr & _).
    { rewrite Hq0, Pr, Rplus_0_l, Rabs_R0. left; apply maxfloat_pos. }
    split_and!; [done|done|done| |done]. rewrite Sr, Hq0, Pr, Rplus_0_l. apply rnd_0.
Qed.

(** ** through the bytes of the summary *)
Lemma variance_nonneg vs : 2 ≤ Z.of_nat (length vs) < 2^64 → Forall (λ v, ffinite v = true) vs → spread_ok vs →
  f_nonneg (var_spec vs).
Proof.
  intros Hn HF Hs. pose proof (welford_inv vs ltac:(lia) HF Hs) as H. unfold var_spec, ss_spec, count_spec.
  destruct (welford vs) as [[k m] q]. destruct H as (_ & _ & Hq & _). cbn [fst snd].
  rewrite Z.mod_small by lia. destruct (Z.ltb_spec (Z.of_nat (length vs)) 2); [lia|].
  destruct (f_of_Z_ok (Z.of_nat (length vs) - 1)) as (Kf & Kr & _); [apply IZR_maxfloat; lia|].
  apply fdiv_nonneg; [done|done|]. rewrite Kr.
  apply Rlt_le_trans with 1%R; [lra|]. rewrite <- (rnd_fmt 1) by (apply (fmt_IZR 1); lia). apply rnd_le.
  apply (IZR_le 1). lia.
Qed.
Lemma mean_hull vs : 1 ≤ Z.of_nat (length vs) < 2^64 → Forall (λ v, ffinite v = true) vs → spread_ok vs →
  ffinite (mean_spec vs) = true ∧ ∃ a b, a ∈ vs ∧ b ∈ vs ∧ (f2r a <= f2r (mean_spec vs) <= f2r b)%R.
Proof.
  intros Hn HF Hs. pose proof (welford_inv vs ltac:(lia) HF Hs) as H. unfold mean_spec.
  destruct (welford vs) as [[k m] q]. destruct H as (_ & Hm & _ & _ & Hh). cbn [fst snd].
  split; [done|]. apply Hh. destruct vs; [cbn in Hn; lia|done].
Qed.
Lemma const_stats v n : ffinite v = true → 2 ≤ Z.of_nat n < 2^64 →
  f2r (mean_spec (replicate n v)) = f2r v ∧ ffinite (mean_spec (replicate n v)) = true ∧
  f2r (var_spec (replicate n v)) = 0%R ∧ ffinite (var_spec (replicate n v)) = true.
Proof.
  intros Hv Hn. pose proof (welford_const v n Hv ltac:(lia)) as H. unfold mean_spec, var_spec, ss_spec, count_spec.
  destruct (welford (replicate n v)) as [[k m] q]. destruct H as (_ & Hm & Hq & Hq0 & Hmv). cbn [fst snd].
  rewrite replicate_length, Z.mod_small by lia. destruct (Z.ltb_spec (Z.of_nat n) 2); [lia|].
  destruct (f_of_Z_ok (Z.of_nat n - 1)) as (Kf & Kr & _); [apply IZR_maxfloat; lia|].
  assert (HK : (1 <= f2r (f_of_Z (Z.of_nat n - 1)))%R).
  { rewrite Kr, <- (rnd_fmt 1) by (apply (fmt_IZR 1); lia). apply rnd_le. apply (IZR_le 1). lia. }
  destruct (fdiv_ok q (f_of_Z (Z.of_nat n - 1)) Hq) as [Vf Vr]; [lra| |].
  { rewrite Hq0. unfold Rdiv. rewrite Rmult_0_l, Rabs_R0. left; apply maxfloat_pos. }
  split_and!; [apply Hmv; lia|done| |done]. rewrite Vr, Hq0. unfold Rdiv. rewrite Rmult_0_l. apply rnd_0.
Qed.
