(** Relative error of the sums of squares in stats.See and stats.Meanvar
    (supports C110). *)
From Verif Require Import Base BaseProofs Float64 Float64Spec Float64Proofs FloatMore FloatRel
  Stat64Spec Stat64FloatSpec Stat64FloatProofs Stat64RealSpec Stat64RealProofs StatsUtilModel StatsUtilProofs Stat64ErrProofs.
From stdpp Require Import sets.
From Coq Require Import Reals Lra.
From Flocq Require Import Core Relative.
Notation float := Float64.float.
Open Scope R_scope.

Lemma pow_le1 x n : 0 <= x <= 1 → x ^ n <= 1.
Proof. intros H. apply Rle_trans with (1 ^ n); [by apply pow_incr|rewrite pow1; lra]. Qed.
(** x is r up to k roundings *)
Definition near (k : nat) (x r : R) : Prop := r * (1 - uu) ^ k <= x <= r * (1 + uu) ^ k.
Lemma up_pos k : 0 < (1 + uu) ^ k. Proof. apply pow_lt. pose proof uu_pos. lra. Qed.
Lemma dn_pos k : 0 < (1 - uu) ^ k. Proof. apply pow_lt. pose proof uu_small. lra. Qed.
Lemma up_mono k l : (k <= l)%nat → (1 + uu) ^ k <= (1 + uu) ^ l. Proof. intros. apply Rle_pow; [pose proof uu_pos; lra|done]. Qed.
Lemma dn_mono k l : (k <= l)%nat → (1 - uu) ^ l <= (1 - uu) ^ k.
Proof.
  intros H. replace l with (k + (l - k))%nat by lia. rewrite pow_add. pose proof (dn_pos k). pose proof uu_pos. pose proof uu_small.
  assert (HA : (1 - uu) ^ (l - k) <= 1) by (apply pow_le1; lra).
  apply Rle_trans with ((1 - uu) ^ k * 1); [apply Rmult_le_compat_l; lra|lra].
Qed.
Lemma near_mono k l x r : (k <= l)%nat → 0 <= r → near k x r → near l x r.
Proof.
  intros H Hr [H1 H2]. pose proof (up_mono k l H). pose proof (dn_mono k l H). split.
  - eapply Rle_trans; [|exact H1]. by apply Rmult_le_compat_l.
  - eapply Rle_trans; [exact H2|]. by apply Rmult_le_compat_l.
Qed.
Lemma near_pos k x r : 0 <= r → near k x r → 0 <= x.
Proof. intros Hr [H _]. pose proof (dn_pos k). nra. Qed.
Lemma near_0 x : near 0 x x. Proof. unfold near. simpl. lra. Qed.
Lemma near_plus k x r y s : near k x r → near k y s → near k (x + y) (r + s).
Proof. unfold near. intros. rewrite !Rmult_plus_distr_r. lra. Qed.
Lemma near_err k x r e : 0 <= r → near k x r → Rabs e <= uu → near (S k) (x * (1 + e)) r.
Proof.
  intros Hr [H1 H2] He. apply Raux.Rabs_le_inv in He. pose proof (up_pos k). pose proof (dn_pos k). pose proof uu_small.
  assert (0 <= r * (1 - uu) ^ k) by nra. unfold near. rewrite <- !tech_pow_Rmult. split; nra.
Qed.
Lemma near_div k x r c : 0 < c → near k x r → near k (x / c) (r / c).
Proof.
  intros Hc [H1 H2]. unfold near, Rdiv. assert (0 < / c) by (by apply Rinv_0_lt_compat). split; nra.
Qed.
Lemma near_sqrt k x r : 0 <= r → near k x r → near k (sqrt x) (sqrt r).
Proof.
  intros Hr [H1 H2]. pose proof (up_pos k) as U. pose proof (dn_pos k) as D. pose proof uu_pos. pose proof uu_small.
  assert (U1 : 1 <= (1 + uu) ^ k) by (apply pow_R1_Rle; lra).
  assert (D1 : (1 - uu) ^ k <= 1) by (apply pow_le1; lra).
  split.
  - apply Rle_trans with (sqrt (r * (1 - uu) ^ k)); [|by apply sqrt_le_1_alt].
    rewrite sqrt_mult by lra. apply Rmult_le_compat_l; [apply sqrt_pos|].
    rewrite <- (sqrt_square ((1 - uu) ^ k)) at 1 by lra. apply sqrt_le_1_alt. nra.
  - apply Rle_trans with (sqrt (r * (1 + uu) ^ k)); [by apply sqrt_le_1_alt|].
    rewrite sqrt_mult by lra. apply Rmult_le_compat_l; [apply sqrt_pos|].
    rewrite <- (sqrt_square ((1 + uu) ^ k)) at 2 by lra. apply sqrt_le_1_alt. nra.
Qed.

(** one square *)
Lemma abs_sq d : Rabs d * Rabs d = d * d.
Proof. rewrite <- Rabs_mult. apply Rabs_pos_eq. apply Rle_0_sqr. Qed.
Definition apart (e v : R) : Prop := v = e ∨ pw (-450) <= Rabs (v - e) <= pw 450.
Lemma square_near v e : ffinite v = true → ffinite e = true → apart (f2r e) (f2r v) →
  ffinite (fmul (fsub v e) (fsub v e)) = true ∧ near 3 (f2r (fmul (fsub v e) (fsub v e))) ((f2r v - f2r e) * (f2r v - f2r e)) ∧
  (f2r v - f2r e) * (f2r v - f2r e) <= pw 900.
Proof.
  intros Fv Fe Ha. set (d := f2r v - f2r e) in *. pose proof uu_pos as U0. pose proof uu_small as U1.
  assert (Hd : Rabs d <= pw 450).
  { destruct Ha as [Hz|[_ H]]; [|exact H]. assert (d = 0) as -> by (unfold d; lra). rewrite Rabs_R0. left. apply pw_pos. }
  destruct (fsub_ok v e Fv Fe) as [Fd Rd]. { eapply Rle_trans; [exact Hd|]. apply maxfloat_ge. lia. }
  fold d in Rd. destruct (rnd_plus (f2r v) (- f2r e) (fmt_f2r _) (fmt_opp _ (fmt_f2r _))) as (a & Ha1 & Ea).
  change (f2r v + - f2r e) with d in Ea. rewrite <- Rd in Ea. unfold uro in Ha1. rewrite <- uu_eq in Ha1.
  assert (Dd : d * d <= pw 900).
  { change 900%Z with (450 + 450)%Z. rewrite bpow_plus, <- (abs_sq d). apply Rmult_le_compat; auto using Rabs_pos. }
  assert (Ha2 := Ha1). apply Raux.Rabs_le_inv in Ha2.
  assert (Dd0 : 0 <= d * d) by apply Rle_0_sqr.
  assert (E2 : f2r (fsub v e) * f2r (fsub v e) = d * d * (1 + a) * (1 + a)) by (rewrite Ea; ring).
  assert (Hn2 : near 2 (d * d * (1 + a) * (1 + a)) (d * d)).
  { apply near_err; [done| |done]. apply near_err; [done| |done]. apply near_0. }
  destruct (fmul_ok (fsub v e) (fsub v e) Fd Fd) as [Fp Rp].
  { rewrite E2, Rabs_pos_eq by (by apply (near_pos 2 _ (d * d))). apply Rle_trans with (2 * pw 900).
    - destruct Hn2 as [_ H]. eapply Rle_trans; [exact H|]. assert (H2 : (1 + uu) ^ 2 <= 2) by (simpl; nra). rewrite (Rmult_comm 2). apply Rmult_le_compat; [done|left; apply up_pos|done|done].
    - rewrite <- pw_S. apply maxfloat_ge. lia. }
  split; [done|]. split; [|done]. rewrite Rp, E2.
  destruct Ha as [Hz|[Hlo _]].
  - assert (d = 0) as -> by (unfold d; lra). rewrite !Rmult_0_l, rnd_0. unfold near. lra.
  - destruct (rnd_rel' (d * d * (1 + a) * (1 + a))) as (b & Hb & ->).
    + rewrite Rabs_pos_eq by (by apply (near_pos 2 _ (d * d))). destruct Hn2 as [H _]. eapply Rle_trans; [|exact H].
      assert (pw (-900) <= d * d). { change (-900)%Z with (-450 + -450)%Z. rewrite bpow_plus, <- (abs_sq d). pose proof (pw_pos (-450)). fold d in Hlo. apply Rmult_le_compat; lra. }
      assert (pw (-1000) <= / 2 * pw (-900)). { change (/ 2) with (pw (-1)). rewrite <- bpow_plus. apply bpow_le. lia. }
      assert (/ 2 <= (1 - uu) ^ 2) by (simpl; nra). pose proof (pw_pos (-900)). nra.
    + by apply near_err.
Qed.

(** the sum of squares *)
Lemma up_bern x n : 0 <= x → (1 + x) ^ n * (1 - INR n * x) <= 1.
Proof.
  intros Hx. induction n as [|n IH]; [simpl; lra|]. rewrite S_INR, <- tech_pow_Rmult.
  assert (0 <= (1 + x) ^ n) by (apply pow_le; lra). pose proof (pos_INR n). eapply Rle_trans; [|exact IH].
  replace ((1 + x) * (1 + x) ^ n * (1 - (INR n + 1) * x)) with ((1 + x) ^ n * (1 - INR n * x - (INR n + 1) * (x * x))) by ring.
  apply Rmult_le_compat_l; [done|]. assert (0 <= x * x) by nra. nra.
Qed.
Lemma dn_bern x n : 0 <= x <= 1 → 1 - INR n * x <= (1 - x) ^ n.
Proof.
  intros Hx. induction n as [|n IH]; [simpl; lra|]. rewrite S_INR, <- tech_pow_Rmult. pose proof (pos_INR n).
  apply Rle_trans with ((1 - x) * (1 - INR n * x)); [|apply Rmult_le_compat_l; lra].
  assert (0 <= INR n * (x * x)) by (apply Rmult_le_pos; nra). nra.
Qed.
Lemma dn_ge2 n : (Z.of_nat n <= 2 ^ 41)%Z → / 2 <= (1 - uu) ^ n.
Proof.
  intros Hn. pose proof uu_pos. pose proof uu_small. pose proof (dn_bern uu n ltac:(lra)) as B.
  assert (Hi : 0 <= INR n <= 2199023255552). { split; [apply pos_INR|]. rewrite INR_IZR_INZ. apply (IZR_le _ 2199023255552). lia. }
  assert (Hs : INR n * uu <= / 2) by nra. lra.
Qed.
Lemma up_le2 n : (Z.of_nat n <= 2 ^ 41)%Z → (1 + uu) ^ n <= 2.
Proof.
  intros Hn. pose proof uu_pos. pose proof (up_bern uu n ltac:(lra)) as B. pose proof uu_small.
  assert (Hi : 0 <= INR n <= 2199023255552). { split; [apply pos_INR|]. rewrite INR_IZR_INZ. apply (IZR_le _ 2199023255552). lia. }
  assert (Hs : INR n * uu <= / 2) by nra. pose proof (up_pos n). nra.
Qed.
Lemma sqdev_near vs e : ffinite e = true → (∀ v, v ∈ vs → ffinite v = true ∧ apart (f2r e) (f2r v)) → (Z.of_nat (length vs) <= 2 ^ 40)%Z →
  let s := sqdev_loop f_zero fadd fsub fmul e vs in
  ffinite s = true ∧ near (length vs + 3) (f2r s) (Rdev2 (f2r e) (map f2r vs)) ∧ Rdev2 (f2r e) (map f2r vs) <= INR (length vs) * pw 900.
Proof.
  intros Fe. induction vs as [|v vs IH] using rev_ind; intros HB Hn; cbv zeta.
  - destruct f_zero_ok as (F & E & _). split; [exact F|]. unfold sqdev_loop. cbn [fold_left]. rewrite E. simpl. unfold near. lra.
  - rewrite app_length in Hn. cbn [length] in Hn. destruct IH as (Fs & Hs & Bs); [intros; apply HB; set_solver|lia|].
    destruct (HB v ltac:(set_solver)) as [Fv Hv]. destruct (square_near v e Fv Fe Hv) as (Fp & Hp & Bp).
    unfold sqdev_loop in *. rewrite fold_left_app. cbn [fold_left]. rewrite map_app, Rdev2_app. cbn [map Rdev2]. rewrite Rplus_0_r.
    set (s := fold_left _ _ _) in *. set (p := fmul _ _) in *. set (S := Rdev2 _ _) in *. set (d2 := (f2r v - f2r e) * (f2r v - f2r e)) in *.
    rewrite app_length, plus_INR. cbn [length]. change (INR 1) with 1.
    assert (Hd0 : 0 <= d2) by apply Rle_0_sqr. assert (HS0 : 0 <= S) by apply Rdev2_nonneg.
    assert (Hsum : near (length vs + 3) (f2r s + f2r p) (S + d2)).
    { apply near_plus; [done|]. apply (near_mono 3); [lia|done|done]. }
    assert (Hup : (1 + uu) ^ (length vs + 3) <= 2).
    { apply up_le2. lia. }
    destruct (fadd_ok s p Fs Fp) as (Fr & Rr & _).
    { assert (Hp0 : 0 <= f2r s + f2r p) by (eapply near_pos; [|exact Hsum]; lra). rewrite (Rabs_pos_eq _ Hp0). destruct Hsum as [_ H]. eapply Rle_trans; [exact H|].
      apply Rle_trans with (pw 43 * pw 900).
      - assert (Hi : 0 <= INR (length vs) <= 1099511627776). { split; [apply pos_INR|]. rewrite INR_IZR_INZ. apply (IZR_le _ 1099511627776). lia. }
        assert (P9 : 0 < pw 900) by apply pw_pos. rewrite (pw_IZR 43) by lia. change (IZR (2 ^ 43)) with 8796093022208.
        apply Rle_trans with ((S + d2) * 2); [apply Rmult_le_compat_l; lra|].
        assert (INR (length vs) * pw 900 <= 1099511627776 * pw 900) by (apply Rmult_le_compat_r; lra). lra.
      - rewrite <- bpow_plus. apply maxfloat_ge. lia. }
    split; [done|]. split; [|lra].
    destruct (rnd_plus (f2r s) (f2r p) (fmt_f2r _) (fmt_f2r _)) as (a & Ha & Ea). unfold uro in Ha. rewrite <- uu_eq in Ha. rewrite Rr, Ea.
    replace (length vs + 1 + 3)%nat with (Datatypes.S (length vs + 3)) by lia. apply near_err; [lra|done|done].
Qed.

Lemma sum_sq_lower e vs : (∀ v, v ∈ vs → apart e v) → Rdev2 e vs = 0 ∨ pw (-900) <= Rdev2 e vs.
Proof.
  induction vs as [|v vs IH]; intros H; cbn [Rdev2]; [by left|]. pose proof (Rdev2_nonneg e vs). pose proof (Rle_0_sqr (v - e)) as Hsq. unfold Rsqr in Hsq.
  destruct (H v ltac:(set_solver)) as [->|[Hl _]].
  - destruct IH as [->|]; [intros; apply H; set_solver|left; ring|right; lra].
  - right. assert (pw (-900) <= (v - e) * (v - e)); [|lra].
    change (-900)%Z with (-450 + -450)%Z. rewrite bpow_plus, <- (abs_sq (v - e)). pose proof (pw_pos (-450)). apply Rmult_le_compat; lra.
Qed.
(** a quotient by an exact integer count *)
Lemma quot_near k x r n (c := IZR n) : (1 <= n <= 2 ^ 40)%Z → (Z.of_nat k <= 2 ^ 41)%Z → ffinite x = true → 0 <= r → near k (f2r x) r → r <= pw 950 → r = 0 ∨ pw (-900) <= r →
  ffinite (fdiv x (f_of_Z n)) = true ∧ near (S k) (f2r (fdiv x (f_of_Z n))) (r / c).
Proof.
  intros Hn Hk Fx Hr Hx Hu Hl. destruct (f_of_Z_exact n ltac:(lia)) as (FK & RK & _).
  assert (Hc : 1 <= c <= 1099511627776). { unfold c. split; [apply (IZR_le 1); lia|apply (IZR_le _ 1099511627776); lia]. }
  pose proof (near_pos _ _ _ Hr Hx) as Hx0. pose proof (up_le2 k Hk) as H2.
  assert (Hq : near k (f2r x / c) (r / c)) by (apply near_div; [lra|done]).
  assert (Hrc : 0 <= r / c) by (apply Rmult_le_pos; [done|left; apply Rinv_0_lt_compat; lra]).
  assert (Hxc : 0 <= f2r x / c) by (apply Rmult_le_pos; [done|left; apply Rinv_0_lt_compat; lra]).
  destruct (fdiv_ok x (f_of_Z n) Fx) as [Fq Rq]; rewrite ?RK; fold c.
  - lra.
  - rewrite Rabs_pos_eq by done. apply Rle_trans with (2 * pw 950); [|rewrite <- pw_S; apply maxfloat_ge; lia].
    apply Rle_div_l; [lra|]. destruct Hx as [_ Hx]. pose proof (pw_pos 950). assert (f2r x <= 2 * pw 950) by nra. nra.
  - split; [done|]. rewrite RK in Rq. fold c in Rq. rewrite Rq. destruct Hl as [->|Hl].
    + unfold Rdiv in *. rewrite Rmult_0_l in *. destruct Hq as [Q1 Q2]. rewrite Rmult_0_l in *. assert (f2r x * / c = 0) as -> by lra. rewrite rnd_0. unfold near. lra.
    + destruct (rnd_rel' (f2r x / c)) as (b & Hb & ->); [|by apply near_err].
      rewrite Rabs_pos_eq by done. destruct Hq as [Q1 _]. eapply Rle_trans; [|exact Q1].
      assert (D2 : / 2 <= (1 - uu) ^ k) by (by apply dn_ge2).
      assert (pw (-950) <= r / c).
      { apply (Rmult_le_reg_r c); [lra|]. unfold Rdiv. rewrite Rmult_assoc, Rinv_l, Rmult_1_r by lra. eapply Rle_trans; [|exact Hl].
        apply Rle_trans with (pw (-950) * 1125899906842624); [apply Rmult_le_compat_l; [left; apply pw_pos|lra]|].
        replace 1125899906842624 with (pw 50) by (rewrite pw_IZR by lia; done). rewrite <- bpow_plus. apply bpow_le. lia. }
      assert (pw (-1000) <= / 2 * pw (-950)). { change (/ 2) with (pw (-1)). rewrite <- bpow_plus. apply bpow_le. lia. }
      pose proof (pw_pos (-950)). nra.
Qed.


Local Transparent fsqrt ffinite.
(** a square root of a value that is not negative, whatever the sign of a zero *)
Lemma fsqrt_near k x r : ffinite x = true → 0 <= r → (Z.of_nat k <= 2 ^ 41)%Z → near k (f2r x) r → r = 0 ∨ pw (-950) <= r →
  ffinite (fsqrt x) = true ∧ near (S k) (f2r (fsqrt x)) (R_sqrt.sqrt r).
Proof.
  intros Fx Hr Hk Hx Hl. pose proof (near_pos _ _ _ Hr Hx) as H0.
  assert (HS : ffinite (fsqrt x) = true ∧ f2r (fsqrt x) = rnd (R_sqrt.sqrt (f2r x))).
  { destruct (Rle_lt_or_eq_dec _ _ H0) as [Hlt|Heq]; [apply fsqrt_ok; [done|done|lra]|].
    rewrite <- Heq, sqrt_0, rnd_0. destruct x as [s|s| |s m ex He]; try done. exfalso.
    destruct s.
    - assert (f2r (Binary.B754_finite 53 1024 true m ex He) < 0) as Hn; [|lra]. apply (F2R_lt_0 radix2 (Float radix2 (Z.neg m) ex)). apply Pos2Z.neg_is_neg.
    - assert (0 < f2r (Binary.B754_finite 53 1024 false m ex He)) as Hn; [|lra]. apply (F2R_gt_0 radix2 (Float radix2 (Z.pos m) ex)). apply Pos2Z.is_pos. }
  destruct HS as [FS RS]. split; [exact FS|]. rewrite RS. pose proof (near_sqrt k _ _ Hr Hx) as Hs.
  destruct Hl as [->|Hl].
  - rewrite sqrt_0 in *. unfold near in Hs. assert (R_sqrt.sqrt (f2r x) = 0) as -> by lra. rewrite rnd_0. unfold near. lra.
  - destruct (rnd_rel' (R_sqrt.sqrt (f2r x))) as (b & Hb & ->); [|by apply near_err; [apply sqrt_pos| |]].
    rewrite Rabs_pos_eq by apply sqrt_pos. destruct Hs as [Hs _]. eapply Rle_trans; [|exact Hs].
    assert (D2 : / 2 <= (1 - uu) ^ k) by (by apply dn_ge2).
    assert (pw (-475) <= R_sqrt.sqrt r).
    { rewrite <- (sqrt_square (pw (-475))) by (left; apply pw_pos). apply sqrt_le_1_alt. rewrite <- bpow_plus. exact Hl. }
    assert (pw (-1000) <= / 2 * pw (-475)). { change (/ 2) with (pw (-1)). rewrite <- bpow_plus. apply bpow_le. lia. }
    pose proof (pw_pos (-475)). nra.
Qed.
Local Opaque fsqrt ffinite.
Lemma near_abs k x r : 0 <= r → near k x r → Rabs (x - r) <= ((1 + uu) ^ k - 1) * r.
Proof.
  intros Hr [H1 H2]. pose proof uu_pos. pose proof uu_small. pose proof (dn_bern uu k ltac:(lra)).
  assert (1 + INR k * uu <= (1 + uu) ^ k) by (apply poly; lra). apply Rabs_le. nra.
Qed.
Lemma See_near vs e : (3 <= length vs)%nat → (Z.of_nat (length vs) <= 2 ^ 40)%Z → ffinite e = true →
  (∀ v, v ∈ vs → ffinite v = true ∧ apart (f2r e) (f2r v)) →
  ffinite (Stats_See vs e) = true ∧ near (length vs + 5) (f2r (Stats_See vs e)) (R_sqrt.sqrt (Rdev2 (f2r e) (map f2r vs) / (INR (length vs) - 2))).
Proof.
  intros Hn3 Hn Fe HB. destruct (sqdev_near vs e Fe HB Hn) as (Fs & Hs & Bs).
  set (R := Rdev2 (f2r e) (map f2r vs)) in *. set (n := length vs) in *.
  assert (HR : 0 <= R) by apply Rdev2_nonneg.
  assert (Hi : 3 <= INR n <= 1099511627776). { rewrite INR_IZR_INZ. split; [apply (IZR_le 3)|apply (IZR_le _ 1099511627776)]; lia. }
  assert (Hlow : R = 0 ∨ pw (-900) <= R).
  { apply sum_sq_lower. intros r Hr. apply elem_of_list_fmap in Hr as (v & -> & Hv). by apply HB. }
  assert (HRu : R <= pw 950).
  { eapply Rle_trans; [exact Bs|]. apply Rle_trans with (pw 40 * pw 900); [|rewrite <- bpow_plus; apply bpow_le; lia].
    apply Rmult_le_compat_r; [left; apply pw_pos|]. rewrite (pw_IZR 40) by lia. change (IZR (2 ^ 40)) with 1099511627776. lra. }
  destruct (quot_near (n + 3) (sqdev_loop f_zero fadd fsub fmul e vs) R (Z.of_nat n - 2)) as [Fq Hq]; [lia|lia|exact Fs|done|exact Hs|done|done|].
  rewrite minus_IZR, <- INR_IZR_INZ in Hq. unfold Stats_See, see. fold n. replace (n + 5)%nat with (S (S (n + 3))) by lia.
  apply fsqrt_near; [done| |lia|done|].
  - apply Rmult_le_pos; [done|left; apply Rinv_0_lt_compat; lra].
  - destruct Hlow as [->|Hl]; [left; unfold Rdiv; ring|right].
    apply (Rmult_le_reg_r (INR n - 2)); [lra|]. unfold Rdiv. rewrite Rmult_assoc, Rinv_l, Rmult_1_r by lra. eapply Rle_trans; [|exact Hl].
    apply Rle_trans with (pw (-950) * pw 50); [|rewrite <- bpow_plus; apply bpow_le; lia].
    apply Rmult_le_compat_l; [left; apply pw_pos|]. rewrite (pw_IZR 50) by lia. change (IZR (2 ^ 50)) with 1125899906842624. lra.
Qed.

(** ** stats.Meanvar: absolute slack instead of a lower bound *)
Definition nearA (k : nat) (a x r : R) : Prop := r * (1 - uu) ^ k - a <= x <= r * (1 + uu) ^ k + a.
Lemma eta_pos : 0 < eta. Proof. apply pw_pos. Qed.
Lemma nearA_mono k l a b x r : (k <= l)%nat → a <= b → 0 <= r → nearA k a x r → nearA l b x r.
Proof.
  intros H Hab Hr [H1 H2]. pose proof (up_mono k l H). pose proof (dn_mono k l H).
  assert (r * (1 + uu) ^ k <= r * (1 + uu) ^ l) by (by apply Rmult_le_compat_l).
  assert (r * (1 - uu) ^ l <= r * (1 - uu) ^ k) by (by apply Rmult_le_compat_l). unfold nearA. lra.
Qed.
Lemma nearA_plus k a x r b y s : nearA k a x r → nearA k b y s → nearA k (a + b) (x + y) (r + s).
Proof. unfold nearA. intros. rewrite !Rmult_plus_distr_r. lra. Qed.
Lemma nearA_err k a x r e : 0 <= r → 0 <= a → nearA k a x r → Rabs e <= uu → nearA (S k) (a * (1 + uu)) (x * (1 + e)) r.
Proof.
  intros Hr Ha [H1 H2] He. apply Raux.Rabs_le_inv in He. pose proof (up_pos k). pose proof (dn_pos k). pose proof uu_small. pose proof uu_pos.
  assert (0 <= r * (1 - uu) ^ k) by nra. assert (0 <= r * (1 + uu) ^ k) by nra. unfold nearA. rewrite <- !tech_pow_Rmult.
  assert (A1 : (r * (1 - uu) ^ k - a) * (1 + e) <= x * (1 + e)) by (apply Rmult_le_compat_r; lra).
  assert (A2 : x * (1 + e) <= (r * (1 + uu) ^ k + a) * (1 + e)) by (apply Rmult_le_compat_r; lra).
  split; nra.
Qed.
Lemma nearA_rnd k a x r : 0 <= r → 0 <= a → nearA k a x r → nearA (S k) (a * (1 + uu) + eta) (rnd x) r.
Proof.
  intros Hr Ha [H1 H2]. pose proof (rnd_err x) as E. pose proof (up_pos k). pose proof (dn_pos k). pose proof uu_small. pose proof uu_pos.
  assert (R1 : 0 <= r * (1 - uu) ^ k) by nra. assert (R2 : 0 <= r * (1 + uu) ^ k) by nra. unfold nearA. rewrite <- !tech_pow_Rmult.
  assert (HD : r * (1 - uu) ^ k <= r * (1 + uu) ^ k). { apply Rmult_le_compat_l; [done|]. apply Rle_trans with 1; [apply pow_le1; lra|apply pow_R1_Rle; lra]. }
  apply Raux.Rabs_le_inv in E.
  assert (Ex : rnd x <= (r * (1 + uu) ^ k + a) * (1 + uu) + eta).
  { unfold Rabs in E. destruct (Rcase_abs x); nra. }
  assert (Ey : (r * (1 - uu) ^ k) * (1 - uu) - a * (1 + uu) - eta <= rnd x).
  { unfold Rabs in E. destruct (Rcase_abs x); nra. }
  split; nra.
Qed.
Lemma nearA_div k a x r c : 0 < c → nearA k a x r → nearA k (a / c) (x / c) (r / c).
Proof. intros Hc [H1 H2]. unfold nearA, Rdiv. assert (0 < / c) by (by apply Rinv_0_lt_compat). split; nra. Qed.
Lemma nearA_abs k a x r : 0 <= r → nearA k a x r → Rabs (x - r) <= ((1 + uu) ^ k - 1) * r + a.
Proof.
  intros Hr [H1 H2]. pose proof uu_pos. pose proof uu_small. pose proof (dn_bern uu k ltac:(lra)).
  assert (1 + INR k * uu <= (1 + uu) ^ k) by (apply poly; lra). apply Rabs_le. nra.
Qed.
Lemma square_nearA v e : ffinite v = true → ffinite e = true → Rabs (f2r v - f2r e) <= pw 450 →
  ffinite (fmul (fsub v e) (fsub v e)) = true ∧ nearA 3 eta (f2r (fmul (fsub v e) (fsub v e))) ((f2r v - f2r e) * (f2r v - f2r e)) ∧
  (f2r v - f2r e) * (f2r v - f2r e) <= pw 900.
Proof.
  intros Fv Fe Hd. set (d := f2r v - f2r e) in *. pose proof uu_pos as U0. pose proof uu_small as U1.
  destruct (fsub_ok v e Fv Fe) as [Fd Rd]. { eapply Rle_trans; [exact Hd|]. apply maxfloat_ge. lia. }
  fold d in Rd. destruct (rnd_plus (f2r v) (- f2r e) (fmt_f2r _) (fmt_opp _ (fmt_f2r _))) as (a & Ha1 & Ea).
  change (f2r v + - f2r e) with d in Ea. rewrite <- Rd in Ea. unfold uro in Ha1. rewrite <- uu_eq in Ha1.
  assert (Dd : d * d <= pw 900).
  { change 900%Z with (450 + 450)%Z. rewrite bpow_plus, <- (abs_sq d). apply Rmult_le_compat; auto using Rabs_pos. }
  assert (Dd0 : 0 <= d * d) by apply Rle_0_sqr.
  assert (E2 : f2r (fsub v e) * f2r (fsub v e) = d * d * (1 + a) * (1 + a)) by (rewrite Ea; ring).
  assert (Hn2 : near 2 (d * d * (1 + a) * (1 + a)) (d * d)).
  { apply near_err; [done| |done]. apply near_err; [done| |done]. apply near_0. }
  destruct (fmul_ok (fsub v e) (fsub v e) Fd Fd) as [Fp Rp].
  { rewrite E2, Rabs_pos_eq by (by apply (near_pos 2 _ (d * d))). apply Rle_trans with (2 * pw 900).
    - destruct Hn2 as [_ H]. eapply Rle_trans; [exact H|]. assert (H2 : (1 + uu) ^ 2 <= 2) by (simpl; nra). rewrite (Rmult_comm 2). apply Rmult_le_compat; [done|left; apply up_pos|done|done].
    - rewrite <- pw_S. apply maxfloat_ge. lia. }
  split; [done|]. split; [|done]. rewrite Rp, E2.
  assert (HA : nearA 2 0 (d * d * (1 + a) * (1 + a)) (d * d)) by (unfold nearA, near in *; lra).
  apply nearA_rnd in HA; [|done|lra]. apply (nearA_mono 3 3 _ eta) in HA; [done|done|lra|done].
Qed.
Definition slack (n : nat) : R := INR n * eta * (1 + uu) ^ n.
Lemma slack_pos n : 0 <= slack n.
Proof. unfold slack. pose proof (pos_INR n). pose proof eta_pos. pose proof (up_pos n). apply Rmult_le_pos; [nra|lra]. Qed.
Lemma slack_S n : (slack n + eta) * (1 + uu) <= slack (S n).
Proof.
  unfold slack. rewrite S_INR, <- tech_pow_Rmult. pose proof (pos_INR n). pose proof eta_pos. pose proof uu_pos.
  assert (1 <= (1 + uu) ^ n) by (apply pow_R1_Rle; lra). set (p := (1 + uu) ^ n) in *.
  replace ((INR n + 1) * eta * ((1 + uu) * p)) with ((INR n * eta * p + eta * p) * (1 + uu)) by ring.
  apply Rmult_le_compat_r; nra.
Qed.
Lemma sqdev_nearA vs e : ffinite e = true → (∀ v, v ∈ vs → ffinite v = true ∧ Rabs (f2r v - f2r e) <= pw 450) → (Z.of_nat (length vs) <= 2 ^ 40)%Z →
  let s := sqdev_loop f_zero fadd fsub fmul e vs in
  ffinite s = true ∧ nearA (length vs + 3) (slack (length vs)) (f2r s) (Rdev2 (f2r e) (map f2r vs)) ∧ Rdev2 (f2r e) (map f2r vs) <= INR (length vs) * pw 900.
Proof.
  intros Fe. induction vs as [|v vs IH] using rev_ind; intros HB Hn; cbv zeta.
  - destruct f_zero_ok as (F & E & _). split; [exact F|]. unfold sqdev_loop. cbn [fold_left]. rewrite E. unfold slack, nearA. simpl. lra.
  - rewrite app_length in Hn. cbn [length] in Hn. destruct IH as (Fs & Hs & Bs); [intros; apply HB; set_solver|lia|].
    destruct (HB v ltac:(set_solver)) as [Fv Hv]. destruct (square_nearA v e Fv Fe Hv) as (Fp & Hp & Bp).
    unfold sqdev_loop in *. rewrite fold_left_app. cbn [fold_left]. rewrite map_app, Rdev2_app. cbn [map Rdev2]. rewrite Rplus_0_r.
    set (s := fold_left _ _ _) in *. set (p := fmul _ _) in *. set (S := Rdev2 _ _) in *. set (d2 := (f2r v - f2r e) * (f2r v - f2r e)) in *.
    rewrite app_length, plus_INR. cbn [length]. change (INR 1) with 1.
    assert (Hd0 : 0 <= d2) by apply Rle_0_sqr. assert (HS0 : 0 <= S) by apply Rdev2_nonneg.
    pose proof (slack_pos (length vs)) as Hsl. pose proof eta_pos as Het.
    assert (Hsum : nearA (length vs + 3) (slack (length vs) + eta) (f2r s + f2r p) (S + d2)).
    { apply nearA_plus; [done|]. apply (nearA_mono 3 _ eta); [lia|lra|done|done]. }
    assert (Hup : (1 + uu) ^ (length vs + 3) <= 2) by (apply up_le2; lia).
    assert (Hup0 : (1 + uu) ^ length vs <= 2) by (apply up_le2; lia).
    assert (Hi : 0 <= INR (length vs) <= 1099511627776). { split; [apply pos_INR|]. rewrite INR_IZR_INZ. apply (IZR_le _ 1099511627776). lia. }
    assert (P9 : 1 <= pw 900) by (change 1 with (pw 0); apply bpow_le; lia).
    assert (Hslu : slack (length vs) + eta <= pw 900).
    { unfold slack. assert (eta <= pw (-60)) by (apply bpow_le; lia).
      assert (E60 : pw (-60) = / 1152921504606846976). { change (-60)%Z with (Z.opp 60). rewrite bpow_opp, (pw_IZR 60) by lia. done. }
      rewrite E60 in *. assert (0 <= (1 + uu) ^ length vs) by (left; apply up_pos).
      assert (INR (length vs) * eta <= 1099511627776 * / 1152921504606846976) by (apply Rmult_le_compat; lra).
      assert (0 <= INR (length vs) * eta) by (apply Rmult_le_pos; lra).
      assert (INR (length vs) * eta * (1 + uu) ^ length vs <= 1099511627776 * / 1152921504606846976 * 2) by (apply Rmult_le_compat; lra). lra. }
    destruct (fadd_ok s p Fs Fp) as (Fr & Rr & _).
    { apply Rle_trans with (pw 44 * pw 900); [|rewrite <- bpow_plus; apply maxfloat_ge; lia].
      assert (INR (length vs) * pw 900 <= 1099511627776 * pw 900) by (apply Rmult_le_compat_r; lra).
      rewrite (pw_IZR 44) by lia. change (IZR (2 ^ 44)) with 17592186044416.
      assert (HU : (S + d2) * (1 + uu) ^ (length vs + 3) <= (S + d2) * 2) by (apply Rmult_le_compat_l; lra).
      assert (HL : 0 <= (S + d2) * (1 - uu) ^ (length vs + 3)) by (apply Rmult_le_pos; [lra|left; apply dn_pos]).
      destruct Hsum as [H1 H2]. apply Rabs_le. lra. }
    split; [done|]. split; [|lra].
    destruct (rnd_plus (f2r s) (f2r p) (fmt_f2r _) (fmt_f2r _)) as (a & Ha & Ea). unfold uro in Ha. rewrite <- uu_eq in Ha. rewrite Rr, Ea.
    replace (length vs + 1 + 3)%nat with (Datatypes.S (length vs + 3)) by lia. replace (length vs + 1)%nat with (Datatypes.S (length vs)) by lia.
    apply (nearA_mono (Datatypes.S (length vs + 3)) _ ((slack (length vs) + eta) * (1 + uu))); [done|apply slack_S|lra|]. apply nearA_err; [lra|lra|done|done].
Qed.
(** the running sum and the mean of moderate values *)
Lemma Rabssum_bound M vs : (∀ v, v ∈ vs → Rabs (f2r v) <= M) → Rabssum (map f2r vs) <= INR (length vs) * M.
Proof.
  induction vs as [|v vs IH]; intros H; [simpl; lra|]. cbn [map Rabssum length]. rewrite S_INR.
  pose proof (H v ltac:(set_solver)). assert (Rabssum (map f2r vs) <= INR (length vs) * M) by (apply IH; set_solver). lra.
Qed.
Definition moderate (vs : list float) : Prop := ∀ v, v ∈ vs → ffinite v = true ∧ Rabs (f2r v) <= pw 400.
Lemma sum_moderate vs : moderate vs → (Z.of_nat (length vs) <= 2 ^ 40)%Z →
  ffinite (sum_spec vs) = true ∧ Rabs (f2r (sum_spec vs)) <= 2 * INR (length vs) * pw 400.
Proof.
  intros H Hn. assert (HF : ffinite (sum_spec vs) = true).
  { induction vs as [|v vs IH] using rev_ind.
    - by destruct f_zero_ok as (F & _).
    - rewrite app_length in Hn. cbn [length] in Hn. assert (Hm : moderate vs) by (intros w Hw; apply H; set_solver).
      specialize (IH Hm ltac:(lia)). rewrite sum_snoc. destruct (H v ltac:(set_solver)) as [Fv Bv].
      pose proof (sum_error vs IH) as HE. unfold uro in HE. rewrite <- uu_eq in HE.
      assert (HA : Rabssum (map f2r vs) <= INR (length vs) * pw 400) by (apply Rabssum_bound; intros; by apply Hm).
      pose proof (Stat64FloatProofs.Rsum_abs (map f2r vs)) as HS. pose proof (Rabssum_pos (map f2r vs)) as HP.
      assert (Hup : (1 + uu) ^ length vs <= 2) by (apply up_le2; lia).
      assert (Hi : 0 <= INR (length vs) <= 1099511627776). { split; [apply pos_INR|]. rewrite INR_IZR_INZ. apply (IZR_le _ 1099511627776). lia. }
      apply fadd_ok; [done|done|]. apply Rle_trans with (pw 44 * pw 400); [|rewrite <- bpow_plus; apply maxfloat_ge; lia].
      rewrite (pw_IZR 44) by lia. change (IZR (2 ^ 44)) with 17592186044416. pose proof (pw_pos 400).
      eapply Rle_trans; [apply Rabs_triang|].
      assert (Hs : Rabs (f2r (sum_spec vs)) <= Rabs (f2r (sum_spec vs) - Rsum (map f2r vs)) + Rabs (Rsum (map f2r vs))).
      { eapply Rle_trans; [|apply Rabs_triang]. apply Req_le. f_equal. ring. }
      assert (((1 + uu) ^ length vs - 1) * Rabssum (map f2r vs) <= 1 * Rabssum (map f2r vs)) by (apply Rmult_le_compat_r; lra).
      assert (INR (length vs) * pw 400 <= 1099511627776 * pw 400) by (apply Rmult_le_compat_r; lra). lra. }
  split; [exact HF|].
  pose proof (sum_error vs HF) as HE. unfold uro in HE. rewrite <- uu_eq in HE.
  assert (HA : Rabssum (map f2r vs) <= INR (length vs) * pw 400) by (apply Rabssum_bound; intros; by apply H).
  pose proof (Stat64FloatProofs.Rsum_abs (map f2r vs)) as HS. pose proof (Rabssum_pos (map f2r vs)) as HP.
  assert (Hup : (1 + uu) ^ length vs <= 2) by (apply up_le2; lia).
  assert (Hs : Rabs (f2r (sum_spec vs)) <= Rabs (f2r (sum_spec vs) - Rsum (map f2r vs)) + Rabs (Rsum (map f2r vs))).
  { eapply Rle_trans; [|apply Rabs_triang]. apply Req_le. f_equal. ring. }
  assert (((1 + uu) ^ length vs - 1) * Rabssum (map f2r vs) <= 1 * Rabssum (map f2r vs)) by (apply Rmult_le_compat_r; lra). lra.
Qed.
Lemma mean_moderate vs (n := INR (length vs)) (mean := fdiv (sum_spec vs) (f_of_Z (Z.of_nat (length vs)))) :
  moderate vs → (1 <= Z.of_nat (length vs) <= 2 ^ 40)%Z →
  ffinite mean = true ∧ Rabs (f2r mean) <= pw 402 ∧
  Rabs (f2r mean - Rmean (map f2r vs)) <= ((1 + uu) ^ (length vs + 1) - 1) * (Rabssum (map f2r vs) / n) + eta.
Proof.
  intros HM Hn. destruct (sum_moderate vs HM ltac:(lia)) as [Fs Bs]. destruct (f_of_Z_exact (Z.of_nat (length vs)) ltac:(lia)) as (FK & RK & _).
  assert (Hi : 1 <= n <= 1099511627776). { unfold n. rewrite INR_IZR_INZ. split; [apply (IZR_le 1); lia|apply (IZR_le _ 1099511627776); lia]. }
  rewrite <- INR_IZR_INZ in RK. fold n in RK, Bs. pose proof (pw_pos 400) as P4.
  assert (Hin : 0 < / n) by (apply Rinv_0_lt_compat; lra).
  assert (HB : Rabs (f2r (sum_spec vs) / n) <= pw 401).
  { unfold Rdiv. rewrite Rabs_mult, (Rabs_pos_eq (/ n)) by lra. apply (Rmult_le_reg_r n); [lra|]. rewrite Rmult_assoc, Rinv_l, Rmult_1_r by lra.
    eapply Rle_trans; [exact Bs|]. change 401%Z with (400 + 1)%Z. rewrite pw_S. lra. }
  destruct (fdiv_ok (sum_spec vs) (f_of_Z (Z.of_nat (length vs))) Fs) as [Fq Rq]; rewrite ?RK; [lra| |].
  { eapply Rle_trans; [exact HB|]. apply maxfloat_ge. lia. }
  fold mean in Fq, Rq. split; [done|]. rewrite RK in Rq.
  pose proof (rnd_err (f2r (sum_spec vs) / n)) as ER. rewrite <- Rq in ER. pose proof uu_small as U1. pose proof uu_pos as U0. pose proof eta_pos as E0.
  split.
  - assert (eta <= pw 400) by (apply bpow_le; lia). change 402%Z with (401 + 1)%Z. rewrite pw_S. change 401%Z with (400 + 1)%Z in *. rewrite pw_S in *.
    assert (Rabs (f2r mean) <= Rabs (f2r mean - f2r (sum_spec vs) / n) + Rabs (f2r (sum_spec vs) / n)).
    { eapply Rle_trans; [|apply Rabs_triang]. apply Req_le. f_equal. ring. } nra.
  - pose proof (sum_error vs Fs) as HE. unfold uro in HE. rewrite <- uu_eq in HE. unfold Rmean. rewrite map_length. fold n.
    set (s := f2r (sum_spec vs)) in *. set (S := Rsum (map f2r vs)) in *. set (A := Rabssum (map f2r vs)) in *.
    pose proof (Stat64FloatProofs.Rsum_abs (map f2r vs)) as HS. fold S A in HS. pose proof (Rabssum_pos (map f2r vs)) as HP. fold A in HP.
    set (p := (1 + uu) ^ length vs) in *. assert (Hp : 1 <= p) by (apply pow_R1_Rle; lra).
    rewrite pow_add, pow_1. fold p.
    assert (Hd : Rabs (s / n - S / n) <= (p - 1) * (A / n)).
    { replace (s / n - S / n) with ((s - S) * / n) by (unfold Rdiv; ring). rewrite Rabs_mult, (Rabs_pos_eq (/ n)) by lra. unfold Rdiv. rewrite <- Rmult_assoc. apply Rmult_le_compat_r; lra. }
    assert (Hs : Rabs (s / n) <= p * (A / n)).
    { assert (Rabs s <= p * A). { assert (Rabs s <= Rabs (s - S) + Rabs S). { eapply Rle_trans; [|apply Rabs_triang]. apply Req_le. f_equal. ring. } lra. }
      unfold Rdiv. rewrite Rabs_mult, (Rabs_pos_eq (/ n)) by lra. rewrite <- Rmult_assoc. apply Rmult_le_compat_r; lra. }
    assert (Rabs (f2r mean - S / n) <= Rabs (f2r mean - s / n) + Rabs (s / n - S / n)).
    { eapply Rle_trans; [|apply Rabs_triang]. apply Req_le. f_equal. ring. }
    assert (uu * Rabs (s / n) <= uu * (p * (A / n))) by (apply Rmult_le_compat_l; lra). lra.
Qed.
Lemma var_moderate vs (n := INR (length vs)) (mean := fdiv (sum_spec vs) (f_of_Z (Z.of_nat (length vs))))
  (var := fdiv (sqdev_loop f_zero fadd fsub fmul mean vs) (f_of_Z (Z.of_nat (length vs)))) :
  moderate vs → (1 <= Z.of_nat (length vs) <= 2 ^ 40)%Z →
  ffinite var = true ∧ Rabs (f2r var - Rdev2 (f2r mean) (map f2r vs) / n) <= ((1 + uu) ^ (length vs + 4) - 1) * (Rdev2 (f2r mean) (map f2r vs) / n) + pw (-1070).
Proof.
  intros HM Hn. destruct (mean_moderate vs HM Hn) as (Fm & Bm & _). fold mean in Fm, Bm.
  destruct (sqdev_nearA vs mean Fm) as (Fq & Hq & Bq); [|lia|].
  { intros v Hv. destruct (HM v Hv) as [Fv Bv]. split; [done|]. apply Rle_trans with (2 * pw 402).
    - assert (pw 400 <= pw 402) by (apply bpow_le; lia). unfold Rminus. eapply Rle_trans; [apply Rabs_triang|]. rewrite Rabs_Ropp. lra.
    - rewrite <- pw_S. apply bpow_le. lia. }
  fold n in Bq. set (q := sqdev_loop f_zero fadd fsub fmul mean vs) in *. set (R := Rdev2 (f2r mean) (map f2r vs)) in *.
  destruct (f_of_Z_exact (Z.of_nat (length vs)) ltac:(lia)) as (FK & RK & _).
  assert (Hi : 1 <= n <= 1099511627776). { unfold n. rewrite INR_IZR_INZ. split; [apply (IZR_le 1); lia|apply (IZR_le _ 1099511627776); lia]. }
  rewrite <- INR_IZR_INZ in RK. fold n in RK. assert (Hin : 0 < / n) by (apply Rinv_0_lt_compat; lra).
  assert (HR : 0 <= R) by apply Rdev2_nonneg.
  assert (HRn : 0 <= R / n) by (apply Rmult_le_pos; lra).
  assert (HRu : R / n <= pw 900). { unfold Rdiv. apply (Rmult_le_reg_r n); [lra|]. rewrite Rmult_assoc, Rinv_l, Rmult_1_r by lra. lra. }
  pose proof uu_pos as U0. pose proof uu_small as U1. pose proof eta_pos as E0.
  assert (Hup0 : (1 + uu) ^ length vs <= 2) by (apply up_le2; lia).
  assert (Hup3 : (1 + uu) ^ (length vs + 3) <= 2) by (apply up_le2; lia).
  assert (Hsl : slack (length vs) / n <= 2 * eta).
  { unfold slack. fold n. replace (n * eta * (1 + uu) ^ length vs / n) with (eta * (1 + uu) ^ length vs) by (field; lra). nra. }
  assert (Hsl0 : 0 <= slack (length vs) / n) by (apply Rmult_le_pos; [apply slack_pos|lra]).
  assert (Hd : nearA (length vs + 3) (2 * eta) (f2r q / n) (R / n)).
  { apply (nearA_mono _ _ _ _ _ _ (le_n _) Hsl HRn). apply nearA_div; [lra|done]. }
  assert (He9 : eta <= pw 900) by (apply bpow_le; lia).
  destruct (fdiv_ok q (f_of_Z (Z.of_nat (length vs))) Fq) as [Fv Rv]; rewrite ?RK; [lra| |].
  { apply Rle_trans with (4 * pw 900).
    - destruct Hd as [H1 H2]. assert (0 <= R / n * (1 - uu) ^ (length vs + 3)) by (apply Rmult_le_pos; [done|left; apply dn_pos]).
      assert (R / n * (1 + uu) ^ (length vs + 3) <= R / n * 2) by (apply Rmult_le_compat_l; lra). apply Rabs_le. lra.
    - replace (4 * pw 900) with (2 * (2 * pw 900)) by ring. rewrite <- !pw_S. apply maxfloat_ge. lia. }
  fold var in Fv, Rv. split; [done|]. rewrite RK in Rv. rewrite Rv. apply nearA_rnd in Hd; [|done|lra].
  replace (length vs + 4)%nat with (S (length vs + 3)) by lia. apply nearA_abs; [done|].
  refine (nearA_mono _ _ _ _ _ _ (le_n _) _ HRn Hd).
  assert (pw (-1070) = 32 * eta). { unfold eta. change 32 with (pw 5). rewrite <- bpow_plus. done. } nra.
Qed.
