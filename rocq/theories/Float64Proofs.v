From Verif Require Import Base Float64 Float64Spec.
From Coq Require Import Reals Lra Psatz.
From Flocq Require Import Core Plus_error Mult_error Relative.
From Flocq Require IEEE754.Binary IEEE754.BinarySingleNaN IEEE754.Bits.
Local Transparent fadd fsub fmul fdiv fsqrt fneg fabs flt fle feq fgt fisnan ffinite f_of_Z fbits f_frombits f_nan f_inf f_zero.

Notation float := Float64.float.
Definition fexp64 : Z → Z := FLT_exp (-1074) 53.
Definition rnd (r : R) : R := round radix2 fexp64 ZnearestE r.
Definition fmt (r : R) : Prop := generic_format radix2 fexp64 r.
Global Instance prec53 : Prec_gt_0 53. Proof. reflexivity. Qed.
Global Instance valid64 : Valid_exp fexp64. Proof. apply FLT_exp_valid. apply prec53. Qed.
Lemma fexp_eq : SpecFloat.fexp 53 1024 = fexp64. Proof. reflexivity. Qed.

Lemma fmt_f2r x : fmt (f2r x).
Proof. apply (Binary.generic_format_B2R 53 1024). Qed.
Lemma rnd_fmt r : fmt r → rnd r = r.
Proof. intros H. unfold rnd. apply round_generic; [apply valid_rnd_N|done]. Qed.
Lemma fmt_rnd r : fmt (rnd r).
Proof. unfold rnd, fmt. apply generic_format_round; [apply valid64|apply valid_rnd_N]. Qed.
Lemma rnd_le a b : (a <= b)%R → (rnd a <= rnd b)%R.
Proof. intros H. unfold rnd. apply round_le; [apply valid64|apply valid_rnd_N|done]. Qed.
Lemma rnd_opp a : rnd (- a) = (- rnd a)%R.
Proof. unfold rnd. rewrite round_NE_opp. done. Qed.
Lemma rnd_0 : rnd 0 = 0%R.
Proof. apply rnd_fmt. apply generic_format_0. Qed.
Lemma fmt_opp a : fmt a → fmt (- a).
Proof. apply generic_format_opp. Qed.

Lemma IZR_pow2 (n : nat) : IZR (2 ^ Z.of_nat n) = (2 ^ n)%R.
Proof. rewrite <- pow_IZR. done. Qed.
Lemma bpow_pow (n : nat) : bpow radix2 (Z.of_nat n) = (2 ^ n)%R.
Proof. rewrite <- IZR_Zpower by lia. rewrite <- IZR_pow2. done. Qed.
Lemma bpow1024 : bpow radix2 1024 = (2^1024)%R.
Proof. exact (bpow_pow 1024). Qed.

Lemma f2r_bound x : (Rabs (f2r x) <= maxfloat)%R.
Proof.
  pose proof (Binary.abs_B2R_le_emax_minus_prec 53 1024 eq_refl x) as H.
  unfold maxfloat, f2r. change (1024 - 53) with (Z.of_nat 971) in H. rewrite bpow_pow, bpow1024 in H. exact H.
Qed.
Lemma maxfloat_lt : (maxfloat < 2^1024)%R.
Proof. unfold maxfloat. assert (0 < 2^971)%R by (apply pow_lt; lra). lra. Qed.
Lemma maxfloat_pos : (0 < maxfloat)%R.
Proof.
  unfold maxfloat. replace 1024%nat with (971 + 53)%nat by lia. rewrite pow_add.
  assert (0 < 2^971)%R by (apply pow_lt; lra). assert (1 < 2^53)%R by (apply Rlt_pow_R1; [lra|lia]).
  nra.
Qed.
Lemma fmt_maxfloat : fmt maxfloat.
Proof.
  apply generic_format_FLT. exists (Float radix2 (2^53 - 1) 971); [|cbn; lia|cbn; lia].
  unfold F2R. cbn [Fnum Fexp]. unfold maxfloat. rewrite minus_IZR. change (2^53) with (2 ^ Z.of_nat 53).
  rewrite IZR_pow2. change 971 with (Z.of_nat 971). rewrite bpow_pow.
  replace 1024%nat with (53 + 971)%nat by lia. rewrite pow_add. ring.
Qed.
Lemma rnd_bound r : (Rabs r <= maxfloat)%R → (Rabs (rnd r) <= maxfloat)%R.
Proof.
  intros H. apply Rabs_le_inv in H. apply Rabs_le. split.
  - rewrite <- (rnd_fmt (- maxfloat)) by apply fmt_opp, fmt_maxfloat. apply rnd_le, H.
  - rewrite <- (rnd_fmt maxfloat) by apply fmt_maxfloat. apply rnd_le, H.
Qed.
Lemma rnd_lt1024 r : (Rabs r <= maxfloat)%R → Rlt_bool (Rabs (rnd r)) (bpow radix2 1024) = true.
Proof. intros H. apply Rlt_bool_true. rewrite bpow1024. eapply Rle_lt_trans; [by apply rnd_bound|apply maxfloat_lt]. Qed.

Definition fsign (x : float) : bool := Binary.Bsign 53 1024 x.

Lemma fadd_ok x y : ffinite x = true → ffinite y = true → (Rabs (f2r x + f2r y) <= maxfloat)%R →
  ffinite (fadd x y) = true ∧ f2r (fadd x y) = rnd (f2r x + f2r y) ∧
  fsign (fadd x y) = match Rcompare (f2r x + f2r y) 0 with Eq => fsign x && fsign y | Lt => true | Gt => false end.
Proof.
  intros Hx Hy Hb. pose proof (Binary.Bplus_correct 53 1024 eq_refl eq_refl Bits.binop_nan_pl64 BinarySingleNaN.mode_NE x y Hx Hy) as H.
  rewrite fexp_eq in H. fold (f2r x) (f2r y) in H. change (BinarySingleNaN.round_mode BinarySingleNaN.mode_NE) with ZnearestE in H.
  fold (rnd (f2r x + f2r y)) in H. rewrite rnd_lt1024 in H by done. destruct H as (H1 & H2 & H3). split_and!; [exact H2|exact H1|exact H3].
Qed.
Lemma fsub_ok x y : ffinite x = true → ffinite y = true → (Rabs (f2r x - f2r y) <= maxfloat)%R →
  ffinite (fsub x y) = true ∧ f2r (fsub x y) = rnd (f2r x - f2r y).
Proof.
  intros Hx Hy Hb. pose proof (Binary.Bminus_correct 53 1024 eq_refl eq_refl Bits.binop_nan_pl64 BinarySingleNaN.mode_NE x y Hx Hy) as H.
  rewrite fexp_eq in H. fold (f2r x) (f2r y) in H. change (BinarySingleNaN.round_mode BinarySingleNaN.mode_NE) with ZnearestE in H.
  fold (rnd (f2r x - f2r y)) in H. rewrite rnd_lt1024 in H by done. destruct H as (H1 & H2 & H3). split_and!; [exact H2|exact H1].
Qed.
Lemma fdiv_ok x y : ffinite x = true → f2r y ≠ 0%R → (Rabs (f2r x / f2r y) <= maxfloat)%R →
  ffinite (fdiv x y) = true ∧ f2r (fdiv x y) = rnd (f2r x / f2r y).
Proof.
  intros Hx Hy Hb. pose proof (Binary.Bdiv_correct 53 1024 eq_refl eq_refl Bits.binop_nan_pl64 BinarySingleNaN.mode_NE x y Hy) as H.
  rewrite fexp_eq in H. fold (f2r x) (f2r y) in H. change (BinarySingleNaN.round_mode BinarySingleNaN.mode_NE) with ZnearestE in H.
  fold (rnd (f2r x / f2r y)) in H. rewrite rnd_lt1024 in H by done. destruct H as (H1 & H2 & H3). split_and!; [etrans; [exact H2|exact Hx]|exact H1].
Qed.
Lemma fmul_ok x y : ffinite x = true → ffinite y = true → (Rabs (f2r x * f2r y) <= maxfloat)%R →
  ffinite (fmul x y) = true ∧ f2r (fmul x y) = rnd (f2r x * f2r y).
Proof.
  intros Hx Hy Hb. pose proof (Binary.Bmult_correct 53 1024 eq_refl eq_refl Bits.binop_nan_pl64 BinarySingleNaN.mode_NE x y) as H.
  rewrite fexp_eq in H. fold (f2r x) (f2r y) in H. change (BinarySingleNaN.round_mode BinarySingleNaN.mode_NE) with ZnearestE in H.
  fold (rnd (f2r x * f2r y)) in H. rewrite rnd_lt1024 in H by done. destruct H as (H1 & H2 & H3). split; [|exact H1].
  etrans; [exact H2|]. change (ffinite x && ffinite y = true). by rewrite Hx, Hy.
Qed.
Lemma f_of_Z_ok n : (Rabs (IZR n) <= maxfloat)%R →
  ffinite (f_of_Z n) = true ∧ f2r (f_of_Z n) = rnd (IZR n) ∧
  fsign (f_of_Z n) = match Rcompare (IZR n) 0 with Eq => false | Lt => true | Gt => false end.
Proof.
  intros Hb. pose proof (Binary.binary_normalize_correct 53 1024 eq_refl eq_refl BinarySingleNaN.mode_NE n 0 false) as H.
  rewrite fexp_eq in H. change (BinarySingleNaN.round_mode BinarySingleNaN.mode_NE) with ZnearestE in H.
  replace (F2R (Float radix2 n 0)) with (IZR n) in H by (unfold F2R; cbn; ring).
  fold (rnd (IZR n)) in H. rewrite rnd_lt1024 in H by done. destruct H as (H1 & H2 & H3). split_and!; [exact H2|exact H1|exact H3].
Qed.
Lemma IZR_maxfloat n : -2^1000 ≤ n ≤ 2^1000 → (Rabs (IZR n) <= maxfloat)%R.
Proof.
  intros [H1 H2]. assert (H : (2^1000 <= maxfloat)%R).
  { unfold maxfloat. replace 1024%nat with (971 + 53)%nat by lia. replace 1000%nat with (971+29)%nat by lia. rewrite !pow_add.
    assert (0 < 2^971)%R by (apply pow_lt; lra). assert (2^29 <= 2^53 - 1)%R by (simpl; lra). nra. }
  apply Rabs_le. change (2^1000) with (2^Z.of_nat 1000) in *. rewrite <- IZR_pow2 in H. 
  apply IZR_le in H1, H2. rewrite opp_IZR in H1. lra.
Qed.
Lemma f_zero_ok : ffinite f_zero = true ∧ f2r f_zero = 0%R ∧ fsign f_zero = false.
Proof.
  unfold f_zero. destruct (f_of_Z_ok 0) as (H1 & H2 & H3); [apply IZR_maxfloat; lia|].
  split_and!; [done|rewrite H2; apply rnd_0|]. rewrite H3. rewrite Rcompare_Eq; done.
Qed.
(** integers up to 2^53 are representable *)
Lemma fmt_IZR n : -2^53 ≤ n ≤ 2^53 → fmt (IZR n).
Proof.
  intros H. destruct (decide (Z.abs n = 2^53)) as [E|E].
  - apply generic_format_FLT. exists (Float radix2 (Z.sgn n) 53); [|cbn; lia|cbn; lia].
    unfold F2R. cbn [Fnum Fexp]. change 53 with (Z.of_nat 53). rewrite bpow_pow, <- IZR_pow2, <- mult_IZR. f_equal.
    change (Z.of_nat 53) with 53. lia.
  - apply generic_format_FLT. exists (Float radix2 n 0); [|cbn; lia|cbn; lia].
    unfold F2R. cbn. ring.
Qed.
Lemma f_of_Z_exact n : -2^53 ≤ n ≤ 2^53 →
  ffinite (f_of_Z n) = true ∧ f2r (f_of_Z n) = IZR n ∧ fsign (f_of_Z n) = (n <? 0).
Proof.
  intros H. destruct (f_of_Z_ok n) as (H1 & H2 & H3); [apply IZR_maxfloat; lia|].
  split_and!; [done|rewrite H2; apply rnd_fmt, fmt_IZR; done|]. rewrite H3.
  destruct (Z.ltb_spec n 0).
  - rewrite Rcompare_Lt; [done|]. by apply (IZR_lt n 0).
  - destruct (decide (n = 0)) as [->|]; [rewrite Rcompare_Eq; done|]. rewrite Rcompare_Gt; [done|]. apply (IZR_lt 0 n). lia.
Qed.
Lemma float_inj x y : ffinite x = true → ffinite y = true → f2r x = f2r y → fsign x = fsign y → x = y.
Proof. intros. by apply (Binary.B2R_Bsign_inj 53 1024). Qed.

(** comparisons *)
Lemma fle_ok x y : ffinite x = true → ffinite y = true → (fle x y = true ↔ (f2r x <= f2r y)%R).
Proof.
  intros Hx Hy. unfold fle, Bits.b64_compare. rewrite (Binary.Bcompare_correct 53 1024 x y Hx Hy).
  fold (f2r x) (f2r y). destruct (Rcompare_spec (f2r x) (f2r y)); split; try done; lra.
Qed.
Lemma flt_ok x y : ffinite x = true → ffinite y = true → (flt x y = true ↔ (f2r x < f2r y)%R).
Proof.
  intros Hx Hy. unfold flt, Bits.b64_compare. rewrite (Binary.Bcompare_correct 53 1024 x y Hx Hy).
  fold (f2r x) (f2r y). destruct (Rcompare_spec (f2r x) (f2r y)); split; try done; lra.
Qed.

(** sign versus real value *)
Lemma f2r_sign x : ffinite x = true → f2r x ≠ 0%R → (fsign x = true ↔ (f2r x < 0)%R).
Proof.
  destruct x as [s|s|s p H|s m e H]; intros Hf H0; try (by exfalso); unfold fsign, f2r in *; cbn [Binary.B2R Binary.Bsign] in *.
  destruct s; cbn [SpecFloat.cond_Zopp] in *.
  - split; [intros _|done]. by apply F2R_lt_0.
  - split; [done|intros Hlt]. pose proof (F2R_gt_0 radix2 (Float radix2 (Z.pos m) e) ltac:(done)). lra.
Qed.
Lemma ovf_inf s x : Binary.B2FF 53 1024 x = Binary.binary_overflow 53 1024 BinarySingleNaN.mode_NE s →
  x = Binary.B754_infinity 53 1024 s.
Proof. destruct x; try discriminate. cbn. intros [= ->]. done. Qed.
Lemma ovf_nz r : Rlt_bool (Rabs (rnd r)) (bpow radix2 1024) = false → r ≠ 0%R.
Proof.
  intros H ->. rewrite rnd_0, Rabs_R0 in H. rewrite Rlt_bool_true in H; [done|]. apply bpow_gt_0.
Qed.
Lemma rnd_nonneg r : (0 <= r)%R → (0 <= rnd r)%R.
Proof. intros. rewrite <- rnd_0. by apply rnd_le. Qed.

Lemma fmul_nonneg x y : ffinite x = true → ffinite y = true → (0 <= f2r x * f2r y)%R → f_nonneg (fmul x y).
Proof.
  intros Hx Hy H0. pose proof (Binary.Bmult_correct 53 1024 eq_refl eq_refl Bits.binop_nan_pl64 BinarySingleNaN.mode_NE x y) as H.
  rewrite fexp_eq in H. fold (f2r x) (f2r y) in H. change (BinarySingleNaN.round_mode BinarySingleNaN.mode_NE) with ZnearestE in H.
  fold (rnd (f2r x * f2r y)) in H. destruct (Rlt_bool _ _) eqn:E.
  - destruct H as (H1 & H2 & _). right. split.
    + etrans; [exact H2|]. change (ffinite x && ffinite y = true). by rewrite Hx, Hy.
    + unfold f2r at 1. unfold fmul, Bits.b64_mult. eapply Rle_trans; [|apply Req_le; symmetry; exact H1]. by apply rnd_nonneg.
  - left. apply ovf_inf in H. apply ovf_nz in E. unfold f_plus_inf. etrans; [exact H|]. f_equal.
    assert (f2r x ≠ 0%R) by (intros E0; rewrite E0 in E; lra). assert (f2r y ≠ 0%R) by (intros E0; rewrite E0 in E; lra).
    pose proof (f2r_sign x Hx ltac:(done)) as Sx. pose proof (f2r_sign y Hy ltac:(done)) as Sy.
    unfold fsign in *. destruct (Binary.Bsign 53 1024 x), (Binary.Bsign 53 1024 y); try done; exfalso.
    + assert (f2r x < 0)%R by (by apply Sx). assert (¬ f2r y < 0)%R by (intros ?%Sy; done). nra.
    + assert (f2r y < 0)%R by (by apply Sy). assert (¬ f2r x < 0)%R by (intros ?%Sx; done). nra.
Qed.
Lemma fadd_nonneg x y : f_nonneg x → f_nonneg y → f_nonneg (fadd x y).
Proof.
  intros [->|[Hx Hx0]] [->|[Hy Hy0]].
  - left. done.
  - left. destruct y as [s|s|s p H|s m e H]; try (by exfalso); done.
  - left. destruct x as [s|s|s p H|s m e H]; try (by exfalso); done.
  - pose proof (Binary.Bplus_correct 53 1024 eq_refl eq_refl Bits.binop_nan_pl64 BinarySingleNaN.mode_NE x y Hx Hy) as H.
    rewrite fexp_eq in H. fold (f2r x) (f2r y) in H. change (BinarySingleNaN.round_mode BinarySingleNaN.mode_NE) with ZnearestE in H.
    fold (rnd (f2r x + f2r y)) in H. destruct (Rlt_bool _ _) eqn:E.
    + destruct H as (H1 & H2 & _). right. split; [exact H2|].
      unfold f2r at 1. unfold fadd, Bits.b64_plus. eapply Rle_trans; [|apply Req_le; symmetry; exact H1]. apply rnd_nonneg. lra.
    + destruct H as [H HS]. apply ovf_inf in H. left. unfold f_plus_inf. etrans; [exact H|]. f_equal.
      apply ovf_nz in E. destruct (Req_dec (f2r x) 0) as [Ex|Ex].
      * rewrite HS. destruct (Binary.Bsign 53 1024 y) eqn:Es; [|done]. apply f2r_sign in Es; [lra|done|lra].
      * destruct (Binary.Bsign 53 1024 x) eqn:Es; [|done]. apply f2r_sign in Es; [lra|done|lra].
Qed.
Lemma fdiv_nonneg x y : f_nonneg x → ffinite y = true → (0 < f2r y)%R → f_nonneg (fdiv x y).
Proof.
  intros [->|[Hx Hx0]] Hy Hy0.
  - left. assert (Hs : fsign y = false).
    { destruct (fsign y) eqn:Es; [|done]. apply f2r_sign in Es; [lra|done|lra]. }
    destruct y as [s|s|s p H|s m e H]; try (by exfalso).
    + unfold f2r in Hy0. simpl in Hy0. lra.
    + unfold fsign in Hs. cbn in Hs. subst s. done.
  - pose proof (Binary.Bdiv_correct 53 1024 eq_refl eq_refl Bits.binop_nan_pl64 BinarySingleNaN.mode_NE x y) as H.
    fold (f2r y) in H. specialize (H ltac:(lra)).
    rewrite fexp_eq in H. fold (f2r x) (f2r y) in H. change (BinarySingleNaN.round_mode BinarySingleNaN.mode_NE) with ZnearestE in H.
    fold (rnd (f2r x / f2r y)) in H.
    assert (Hq : (0 <= f2r x / f2r y)%R) by (apply Rmult_le_pos; [done|left; by apply Rinv_0_lt_compat]).
    destruct (Rlt_bool _ _) eqn:E.
    + destruct H as (H1 & H2 & _). right. split; [etrans; [exact H2|exact Hx]|].
      unfold f2r at 1. unfold fdiv, Bits.b64_div. eapply Rle_trans; [|apply Req_le; symmetry; exact H1]. by apply rnd_nonneg.
    + apply ovf_inf in H. left. unfold f_plus_inf. etrans; [exact H|]. f_equal. apply ovf_nz in E.
      assert (f2r x ≠ 0%R) by (intros E0; rewrite E0 in E; unfold Rdiv in E; lra).
      assert (fsign x = false) as Sx. { destruct (fsign x) eqn:Es; [|done]. apply f2r_sign in Es; [lra|done|lra]. }
      assert (fsign y = false) as Sy. { destruct (fsign y) eqn:Es; [|done]. apply f2r_sign in Es; [lra|done|lra]. }
      unfold fsign in *. by rewrite Sx, Sy.
Qed.
Lemma f_nonneg_fle x : f_nonneg x → fle f_zero x = true ∧ fisnan x = false.
Proof.
  intros [->|[Hx H0]].
  - split; vm_compute; reflexivity.
  - destruct f_zero_ok as (Z1 & Z2 & _). split; [apply fle_ok; [done|done|rewrite Z2; done]|].
    destruct x; done.
Qed.

(** a finite sum has finite operands and is correctly rounded *)
Lemma fadd_finite_inv x y : ffinite (fadd x y) = true →
  ffinite x = true ∧ ffinite y = true ∧ f2r (fadd x y) = rnd (f2r x + f2r y).
Proof.
  intros Hf. assert (Hxy : ffinite x = true ∧ ffinite y = true).
  { clear -Hf. destruct x as [s|s|s p H|s m e H], y as [s'|s'|s' p' H'|s' m' e' H']; try (split; reflexivity); exfalso;
    cbn in Hf; try discriminate; destruct s, s'; discriminate. }
  destruct Hxy as [Hx Hy]. split_and!; [done|done|].
  pose proof (Binary.Bplus_correct 53 1024 eq_refl eq_refl Bits.binop_nan_pl64 BinarySingleNaN.mode_NE x y Hx Hy) as H.
  rewrite fexp_eq in H. fold (f2r x) (f2r y) in H. change (BinarySingleNaN.round_mode BinarySingleNaN.mode_NE) with ZnearestE in H.
  fold (rnd (f2r x + f2r y)) in H. destruct (Rlt_bool _ _) eqn:E.
  - exact (proj1 H).
  - destruct H as [H _]. apply ovf_inf in H. exfalso. unfold fadd, Bits.b64_plus, ffinite in Hf.
    match type of H with ?a = _ => match type of Hf with Binary.is_finite _ _ ?b = _ => change b with a in Hf end end.
    rewrite H in Hf. done.
Qed.
Lemma Rle_div_l a b c : (0 < c)%R → (a <= b * c)%R → (a / c <= b)%R.
Proof.
  intros Hc H. apply (Rmult_le_reg_r c); [done|]. unfold Rdiv. rewrite Rmult_assoc, Rinv_l; lra.
Qed.
Definition uro : R := (/ 2 ^ 53)%R.
Lemma uro_eq : u_ro radix2 53 = uro.
Proof.
  assert (E : bpow radix2 (Z.opp 53 + 1) = (/ 2 ^ 52)%R) by (rewrite <- bpow_pow; exact (bpow_opp radix2 52)).
  unfold u_ro, uro. rewrite E, <- Rinv_mult. reflexivity.
Qed.
Lemma uro_bounds : (0 < uro)%R ∧ (uro < / 1000)%R.
Proof.
  unfold uro. split; [apply Rinv_0_lt_compat, pow_lt; lra|].
  apply Rinv_lt_contravar; simpl; lra.
Qed.
Lemma rnd_plus x y : fmt x → fmt y → ∃ eps, (Rabs eps <= uro)%R ∧ rnd (x + y) = ((x + y) * (1 + eps))%R.
Proof.
  intros Hx Hy. destruct (FLT_plus_error_N_ex radix2 (-1074) 53 (λ z, negb (Z.even z)) x y Hx Hy) as (e & He & E).
  exists e. split; [|exact E]. eapply Rle_trans; [exact He|]. rewrite uro_eq. destruct uro_bounds.
  apply Rle_div_l; [lra|]. nra.
Qed.

(** the rounded step of the mean stays between the old mean and the observation *)
Lemma mean_quot_le m v K : fmt m → fmt v → (m <= v)%R → (1 <= K)%R → (K = 1 ∨ 2 <= K)%R →
  (K = 1%R → m = 0%R) → (rnd (rnd (v - m) / K) <= v - m)%R.
Proof.
  intros Hm Hv Hle HK1 HK HK0. set (d := (v - m)%R). assert (Hd : (0 <= d)%R) by (unfold d; lra).
  assert (Hdelta : (0 <= rnd d)%R) by by apply rnd_nonneg.
  assert (Hdiv : (rnd d / K <= rnd d)%R).
    { apply Rle_div_l; [lra|]. nra. }
    destruct (Rle_dec (Rabs (v + - m)) (bpow radix2 (53 + -1074))) as [Hs|Hs].
    - assert (Hf : fmt d) by (apply (FLT_format_plus_small radix2 (-1074) 53); [done|by apply fmt_opp|done]).
      rewrite (rnd_fmt d) in * by done. rewrite <- (rnd_fmt d) at 2 by done. by apply rnd_le.
    - destruct HK as [->|HK].
      { pose proof (HK0 eq_refl) as E0. assert (Hf : fmt d) by (replace d with v by (unfold d; lra); done).
        rewrite (rnd_fmt d) in * by done. rewrite <- (rnd_fmt d) at 2 by done. by apply rnd_le. }
      assert (Hd' : (bpow radix2 (-1021) <= d)%R).
      { rewrite Rabs_pos_eq in Hs by (unfold d in Hd; lra). change (53 + -1074) with (-1021) in Hs. unfold d. lra. }
      assert (Hdl : (bpow radix2 (-1021) <= rnd d)%R).
      { rewrite <- (rnd_fmt (bpow radix2 (-1021))).
        - by apply rnd_le.
        - apply generic_format_bpow. unfold fexp64, FLT_exp. lia. }
      assert (Hhalf : fmt (rnd d * bpow radix2 (-1))).
      { apply mult_bpow_exact_FLT; [apply fmt_rnd|].
        assert (-1021 < mag radix2 (rnd d))%Z; [|lia].
        apply mag_gt_bpow. rewrite Rabs_pos_eq by done. done. }
      assert (H2 : (rnd (rnd d / K) <= rnd d / 2)%R).
      { replace (rnd d / 2)%R with (rnd (rnd d * bpow radix2 (-1))) by (rewrite rnd_fmt by done; simpl; lra).
        apply rnd_le. apply Rle_div_l; [lra|]. simpl. change (IZR (Z.pow_pos 2 1)) with 2%R. nra. }
      destruct (rnd_plus v (- m)) as (e & He & E); [done|by apply fmt_opp|].
      change (v + - m)%R with d in E. destruct uro_bounds as [_ Hu]. 
      assert (Rabs e < / 1000)%R by lra. apply Rabs_lt_inv in H. rewrite E in H2 |- *. rewrite E in Hdelta. nra.
Qed.
Lemma mean_step_up m v K : fmt m → fmt v → (m <= v)%R → (1 <= K)%R → (K = 1 ∨ 2 <= K)%R →
  (K = 1%R → m = 0%R) →
  (m <= rnd (m + rnd (rnd (v - m) / K)) <= v)%R.
Proof.
  intros Hm Hv Hle HK1 HK HK0. pose proof (mean_quot_le m v K Hm Hv Hle HK1 HK HK0) as Hq.
  assert (Hq0 : (0 <= rnd (rnd (v - m) / K))%R).
  { apply rnd_nonneg. apply Rmult_le_pos; [apply rnd_nonneg; lra|]. left. apply Rinv_0_lt_compat. lra. }
  split.
  - rewrite <- (rnd_fmt m) at 1 by done. apply rnd_le. lra.
  - eapply Rle_trans; [|apply Req_le, (rnd_fmt v Hv)]. apply rnd_le. lra.
Qed.
Lemma mean_step_down m v K : fmt m → fmt v → (v <= m)%R → (1 <= K)%R → (K = 1 ∨ 2 <= K)%R →
  (K = 1%R → m = 0%R) →
  (v <= rnd (m + rnd (rnd (v - m) / K)) <= m)%R.
Proof.
  intros Hm Hv Hle HK1 HK HK0.
  pose proof (mean_step_up (- m) (- v) K) as H.
  replace (rnd (m + rnd (rnd (v - m) / K))) with (- rnd (- m + rnd (rnd (- v - - m) / K)))%R.
  - cut (- m <= rnd (- m + rnd (rnd (- v - - m) / K)) <= - v)%R; [lra|].
    apply H; auto using fmt_opp; [lra|intros; rewrite HK0 by done; lra].
  - replace (- v - - m)%R with (- (v - m))%R by lra. rewrite rnd_opp.
    replace (- rnd (v - m) / K)%R with (- (rnd (v - m) / K))%R by (unfold Rdiv; lra). rewrite rnd_opp, <- Ropp_plus_distr, rnd_opp. lra.
Qed.
