(** Relative error of a float64 with respect to a real number. *)
From Verif Require Import Base BaseProofs Float64 Float64Spec Float64Proofs FloatMore HllCountModel.
From Coq Require Import Reals Lra.
From Flocq Require Import Core Relative.
Notation float := Float64.float.
Open Scope R_scope.

Definition uu : R := pw (-53).
Lemma uu_eq : uu = / 2 ^ 53.
Proof. unfold uu. change (-53)%Z with (Z.opp 53). rewrite bpow_opp. f_equal. exact (bpow_pow 53). Qed.
Lemma uu_val : uu = / 9007199254740992.
Proof. rewrite uu_eq. f_equal. lra. Qed.
Definition rel (x : float) (r e : R) : Prop := ffinite x = true ∧ ∃ d, Rabs d <= e ∧ f2r x = r * (1 + d).
Definition mid (r : R) : Prop := pw (-900) <= Rabs r <= pw 900.

Lemma rnd_rel' r : pw (-1000) <= Rabs r → ∃ d, Rabs d <= uu ∧ rnd r = r * (1 + d).
Proof.
  intros Hr. destruct (relative_error_N_FLT_ex radix2 (-1074) 53 eq_refl (λ z, negb (Z.even z)) r) as (e & He & E).
  { eapply Rle_trans; [|exact Hr]. apply bpow_le. lia. }
  exists e. split; [|exact E]. eapply Rle_trans; [exact He|]. apply Req_le. change (Z.opp 53 + 1)%Z with (-52)%Z. rewrite (pw_P (-52)). change (-52 - 1)%Z with (-53)%Z. unfold uu. lra.
Qed.
Lemma rel_weaken x r e e' : rel x r e → e <= e' → rel x r e'.
Proof. intros (F & d & Hd & E) He. split; [done|]. exists d. split; [lra|done]. Qed.
Lemma rel_fneg x r e : rel x r e → rel (fneg x) (- r) e.
Proof.
  Local Transparent fneg ffinite. intros (F & d & Hd & E). unfold rel, fneg, f2r, Bits.b64_opp, ffinite in *.
  split; [rewrite Binary.is_finite_Bopp; done|]. exists d. split; [done|]. rewrite Binary.B2R_Bopp. unfold f2r in E. rewrite E. lra.
  Local Opaque fneg ffinite.
Qed.
Lemma rel_exact x : ffinite x = true → rel x (f2r x) 0.
Proof. intros F. split; [done|]. exists 0. rewrite Rabs_R0. split; lra. Qed.
Lemma rel_Z n : (- 2 ^ 53 <= n <= 2 ^ 53)%Z → rel (f_of_Z n) (IZR n) 0.
Proof. intros H. destruct (f_of_Z_exact n H) as (F & E & _). split; [done|]. exists 0. rewrite Rabs_R0. split; [lra|]. rewrite E. lra. Qed.

(** combination of three small relative errors *)
Lemma comb3 d1 d2 d3 e1 e2 : Rabs d1 <= e1 → Rabs d2 <= e2 → Rabs d3 <= uu → e1 <= pw (-40) → e2 <= pw (-40) →
  ∃ d, Rabs d <= e1 + e2 + 2 * uu ∧ (1 + d1) * (1 + d2) * (1 + d3) = 1 + d.
Proof.
  intros Hq1 Hq2 Hq3 L1 L2. exists (d1 + d2 + d3 + d1 * d2 + d3 * (d1 + d2 + d1 * d2)). split; [|ring].
  assert (pw (-40) = / 1099511627776) as E40 by reflexivity. rewrite E40 in *. pose proof uu_val as Eu. 
  assert (Rabs (d1 * d2) <= / 1099511627776 * / 1099511627776) as Hp.
  { rewrite Rabs_mult. apply Rmult_le_compat; try apply Rabs_pos; lra. }
  assert (Rabs (d3 * (d1 + d2 + d1 * d2)) <= uu * (/ 100)) as Hp3.
  { rewrite Rabs_mult. apply Rmult_le_compat; try apply Rabs_pos; [lra|].
    apply Rabs_le_inv in Hq1, Hq2, Hp. apply Rabs_le. lra. }
  apply Rabs_le_inv in Hq1, Hq2, Hq3, Hp, Hp3. apply Rabs_le. rewrite Eu in *. lra.
Qed.
Lemma inv_rel d e : Rabs d <= e → e <= pw (-40) → ∃ d', Rabs d' <= e + / 2 * uu ∧ / (1 + d) = 1 + d'.
Proof.
  intros Hd He. exists (/ (1 + d) - 1). split; [|lra].
  assert (pw (-40) = / 1099511627776) as E40 by reflexivity. rewrite E40 in *. pose proof uu_val as Eu.
  apply Rabs_le_inv in Hd. replace (/ (1 + d) - 1) with (- d + d * d * / (1 + d)) by (field; lra).
  assert (0 <= d * d * / (1 + d) <= / 2 * uu) as H.
  { assert (0 < / (1 + d) <= 2) as Hi. { split; [apply Rinv_0_lt_compat; lra|]. rewrite <- (Rinv_inv 2). apply Rinv_le_contravar; lra. }
    assert (0 <= d * d <= / 1099511627776 * / 1099511627776) by (split; nra). split; [nra|]. rewrite Eu. nra. }
  apply Rabs_le. lra.
Qed.
Lemma mid_max r : Rabs r <= pw 901 → Rabs r <= maxfloat.
Proof. intros H. eapply Rle_trans; [exact H|]. apply maxfloat_ge. lia. Qed.
Lemma mid_pert r d : mid r → Rabs d <= / 2 → pw (-1000) <= Rabs (r * (1 + d)) ∧ Rabs (r * (1 + d)) <= pw 901.
Proof.
  intros [H1 H2] Hd. rewrite Rabs_mult. apply Rabs_le_inv in Hd. rewrite (Rabs_pos_eq (1 + d)) by lra.
  assert (pw (-1000) <= / 2 * pw (-900)) as HA. { change (/ 2) with (pw (-1)). rewrite <- bpow_plus. apply bpow_le. lia. }
  assert (pw 901 = 2 * pw 900) as HB by (apply (pw_S 900)). pose proof (pw_pos (-900)). split; nra.
Qed.
Lemma rel_fmul x y a b e1 e2 : rel x a e1 → rel y b e2 → e1 <= pw (-40) → e2 <= pw (-40) → mid (a * b) → rel (fmul x y) (a * b) (e1 + e2 + 2 * uu).
Proof.
  intros (Fx & d1 & Hd1 & Ex) (Fy & d2 & Hd2 & Ey) L1 L2 Hm.
  assert (∃ d, Rabs d <= / 2 ∧ (1 + d1) * (1 + d2) = 1 + d) as (d & Hd & Ed).
  { destruct (comb3 d1 d2 0 e1 e2) as (d & Hd & E); [done|done|rewrite Rabs_R0; apply bpow_ge_0|done|done|]. exists d.
    split; [|lra]. eapply Rle_trans; [exact Hd|]. assert (pw (-40) = / 1099511627776) as E40 by reflexivity. rewrite E40 in *. rewrite uu_val. lra. }
  assert (f2r x * f2r y = a * b * (1 + d)) as Ep by (rewrite Ex, Ey, <- Ed; ring).
  destruct (mid_pert _ d Hm Hd) as [Hp1 Hp2].
  destruct (fmul_ok x y Fx Fy) as [F E]; [rewrite Ep; by apply mid_max|].
  destruct (rnd_rel' (a * b * (1 + d)) Hp1) as (d3 & Hd3 & E3).
  destruct (comb3 d1 d2 d3 e1 e2 Hd1 Hd2 Hd3 L1 L2) as (d' & Hd' & E').
  split; [done|]. exists d'. split; [done|]. rewrite E, Ep, E3, <- E', <- Ed. ring.
Qed.
Lemma rel_fdiv x y a b e1 e2 : rel x a e1 → rel y b e2 → b ≠ 0 → e1 <= pw (-40) → e2 <= pw (-41) → mid (a / b) → rel (fdiv x y) (a / b) (e1 + e2 + 3 * uu).
Proof.
  intros (Fx & d1 & Hd1 & Ex) (Fy & d2 & Hd2 & Ey) Hb L1 L2 Hm.
  assert (pw (-40) = / 1099511627776) as E40 by reflexivity. assert (pw (-41) = / 2199023255552) as E41 by reflexivity. rewrite E41 in L2.
  destruct (inv_rel d2 e2) as (d2' & Hd2' & Ei); [done|rewrite E40; lra|].
  assert (e2 + / 2 * uu <= pw (-40)) as L2' by (rewrite E40, uu_val; lra).
  assert (∃ d, Rabs d <= / 2 ∧ (1 + d1) * (1 + d2') = 1 + d) as (d & Hd & Ed).
  { destruct (comb3 d1 d2' 0 e1 (e2 + / 2 * uu)) as (d & Hd & E); [done|done|rewrite Rabs_R0; apply bpow_ge_0|done|done|]. exists d.
    split; [|lra]. eapply Rle_trans; [exact Hd|]. rewrite E40 in *. rewrite uu_val in *. lra. }
  assert (1 + d2 ≠ 0) as Hn. { apply Rabs_le_inv in Hd2. lra. }
  assert (f2r x / f2r y = a / b * (1 + d)) as Ep by (rewrite Ex, Ey, <- Ed, <- Ei; field; done).
  destruct (mid_pert _ d Hm Hd) as [Hp1 Hp2].
  destruct (fdiv_ok x y Fx) as [F E]; [rewrite Ey; by apply Rmult_integral_contrapositive|rewrite Ep; by apply mid_max|].
  destruct (rnd_rel' (a / b * (1 + d)) Hp1) as (d3 & Hd3 & E3).
  destruct (comb3 d1 d2' d3 e1 (e2 + / 2 * uu) Hd1 Hd2' Hd3 L1 L2') as (d' & Hd' & E').
  split; [done|]. exists d'. split; [pose proof (pw_pos (-53)); unfold uu in *; lra|]. rewrite E, Ep, E3, <- E', <- Ed. ring.
Qed.
Lemma rel_bounds x r e : rel x r e → 0 <= r → r * (1 - e) <= f2r x <= r * (1 + e).
Proof. intros (_ & d & Hd & ->) Hr. apply Rabs_le_inv in Hd. split; apply Rmult_le_compat_l; lra. Qed.
(** rounding of an integer beyond 2^53 *)
Lemma rel_Zbig n : (1 <= n <= 2 ^ 63)%Z → rel (f_of_Z n) (IZR n) uu.
Proof.
  intros H. assert (1 <= IZR n) by (apply (IZR_le 1); lia). destruct (f_of_Z_ok n) as (F & E & _); [apply IZR_maxfloat; lia|].
  destruct (rnd_rel' (IZR n)) as (d & Hd & E3). { rewrite Rabs_pos_eq by lra. apply (Rle_trans _ (pw 0)); [apply bpow_le; lia|change (pw 0) with 1; lra]. }
  split; [done|]. exists d. split; [done|]. by rewrite E.
Qed.
(** math.Ceil and int(...) of a value known up to a relative error *)
Lemma ceil_int x : ffinite x = true → -1 < f2r x < pw 62 → f_to_int64 (fceil x) = Zceil (f2r x) ∧ (0 <= Zceil (f2r x) <= 2 ^ 62)%Z ∧
  ffinite (fceil x) = true ∧ f2r (fceil x) = IZR (Zceil (f2r x)).
Proof.
  intros F H. destruct (fceil_ok x F) as [Fc Ec].
  assert (0 <= Zceil (f2r x) <= 2 ^ 62)%Z as Hr.
  { split. - assert (-1 < Zceil (f2r x))%Z; [|lia]. apply lt_IZR. pose proof (Zceil_ub (f2r x)). lra.
    - apply Zceil_glb. rewrite <- pw_IZR by lia. lra. }
  split; [|done]. apply f_to_int64_ok; [done|done|lia].
Qed.
