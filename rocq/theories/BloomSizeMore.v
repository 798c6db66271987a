From Verif Require Import Base FnvSpec BaseProofs Float64 Float64Spec Float64Proofs FloatMore FloatRel RealBounds BitbucketModel BitbucketSpec BitbucketProofs BloomModel BloomSpec BloomProofs HllCountModel HllCountLoops HllCountTop HllCountMore BloomSizeModel BloomSizeSpec BloomSizeReal BloomSizeProofs BloomSizeTop BloomSizeEst.
From Coq Require Import Reals Lra ZifyBool ZifyNat.
From Flocq Require Import Core Relative.
Notation float := Float64.float.
Open Scope R_scope.

(** ** New(0, p) *)
Lemma mk_zero glog p : log_all_ok glog → ffinite p = true → 0 < f2r p → Bloom_mk glog 0 p = (0%Z, 255%Z).
Proof.
  intros Hlog Fp Hp. destruct (Hlog p Fp Hp) as [Fl _].
  destruct (f_of_Z_exact 0 ltac:(lia)) as (F0 & E0 & _). destruct (fneg_ok _ F0) as [Fn En]. rewrite E0, Ropp_0 in En.
  destruct (fmul_ok (fneg (f_of_Z 0)) (glog p)) as [F1 E1]; [done|done|rewrite En, Rmult_0_l, Rabs_R0; pose proof maxfloat_pos; lra|].
  rewrite En, Rmult_0_l, rnd_0 in E1.
  destruct (f_lit_pow 8655072057804175 54 ltac:(lia) ltac:(lia)) as [Fc Ec]. fold f_ln2sq in Fc, Ec.
  assert (f2r f_ln2sq ≠ 0) as Hne. { rewrite Ec. change (2 ^ 54)%Z with 18014398509481984%Z. lra. }
  destruct (fdiv_ok (fmul (fneg (f_of_Z 0)) (glog p)) f_ln2sq) as [F2 E2]; [done|done|rewrite E1; unfold Rdiv; rewrite Rmult_0_l, Rabs_R0; pose proof maxfloat_pos; lra|].
  rewrite E1 in E2. unfold Rdiv in E2. rewrite Rmult_0_l, rnd_0 in E2.
  destruct (ceil_int _ F2) as (E3 & _). { rewrite E2. pose proof (pw_pos 62). lra. }
  rewrite E2 in E3. rewrite (Zceil_IZR 0) in E3.
  assert (flt (fceil (fdiv (fmul f_ln2 (f_of_Z 0)) (f_of_Z 0))) (f_of_Z 255) = false) as E4 by (vm_compute; reflexivity).
  unfold Bloom_mk. rewrite E3. cbv zeta. rewrite E4. done.
Qed.
Lemma Add_zero_panics b v : bl_m b = 0%Z → (1 <= bl_k b)%Z → Bloom_Add b v = Panic.
Proof.
  intros Hm Hk. unfold Bloom_Add, newHasher. rewrite Hm. destruct (Z.to_nat (bl_k b)) as [|n] eqn:E; [lia|]. cbn [bloom_add_loop].
  change (Z.land 0 1 =? 0)%Z with true. cbv iota. unfold h_next. cbn [h_m h_a h_b]. reflexivity.
Qed.

(** ** full filters *)
Lemma count_full l : count_eq 1 l = Z.of_nat (length l) → ∀ x, x ∈ l → x = 1%Z.
Proof.
  induction l as [|y l IH]; intros H x Hx; [by apply elem_of_nil in Hx|]. unfold count_eq in *. cbn [filter length] in *.
  pose proof (filter_length (λ z, z = 1%Z) l) as HL. destruct (decide (y = 1%Z)) as [E|E].
  - rewrite filter_cons_True in H by done. cbn [length] in H. apply elem_of_cons in Hx as [->|Hx]; [done|]. apply IH; [lia|done].
  - rewrite filter_cons_False in H by done. lia.
Qed.
Lemma full_Has b m k v : bloom_wf b m k → set_bits b m = Z.of_nat m → is_bytes v → Bloom_Has b v = Ok true.
Proof.
  intros Hb Hf Hv. pose proof (bstate_any b m k Hb) as HS. rewrite (bstate_Has _ _ _ _ _ Hv HS). rewrite bool_decide_true; [done|].
  apply Forall_forall. intros x Hx. pose proof (m_range _ _ _ Hb) as Hr. pose proof (bloom_positions_range (Z.of_nat m) (Z.to_nat k) v x ltac:(lia) Hx) as Hx'.
  apply elem_of_list_filter. rewrite (set_bits_eq _ _ _ Hb) in Hf. destruct Hb as (Hw & _). split.
  - rewrite <- (Z2Nat.id x) by lia. rewrite (Get_Ok _ _ _ Hw) by lia. f_equal. apply (count_full (bvals (bl_bits b) m)); [by rewrite bvals_length|].
    apply elem_of_list_lookup. exists (Z.to_nat x). apply bvals_lookup. lia.
  - apply elem_of_list_In, in_map_iff. exists (Z.to_nat x). split; [lia|]. apply in_seq. lia.
Qed.
(** ** odd sizes never use the last bit *)
Lemma count_lt l x : x ∈ l → x ≠ 1%Z → (count_eq 1 l < Z.of_nat (length l))%Z.
Proof. intros Hx Hne. pose proof (count_eq_bound 1 l) as HB. destruct (decide (count_eq 1 l = Z.of_nat (length l))) as [E|E]; [|lia]. by pose proof (count_full l E x Hx). Qed.
Lemma odd_not_full m k os : (3 ≤ m)%nat → Z.odd (Z.of_nat m) = true → size_ok m 1 → (0 ≤ k < 256)%Z → Forall blop_ok os →
  ∃ b0 b, Bloom_NewBits (Z.of_nat m) k = Ok b0 ∧ bloom_ops b0 os = Ok b ∧ bloom_wf b m k ∧ (set_bits b m < Z.of_nat m)%Z.
Proof.
  intros Hm Hodd Hs Hk Hos. destruct (bstate_New m k ltac:(lia) Hs Hk) as (b0 & E0 & H0).
  destruct (bstate_ops b0 m k os H0 Hos) as (b & E & Hb). exists b0, b. destruct Hb as [Hwf HS]. split_and!; [done|done|done|].
  rewrite (set_bits_eq _ _ _ Hwf). rewrite <- (bvals_length (bl_bits b) m) at 2. apply (count_lt _ 0%Z); [|done].
  apply elem_of_list_lookup. exists (m - 1)%nat. rewrite bvals_lookup by lia. f_equal.
  specialize (HS (m - 1)%nat ltac:(lia)). destruct Hwf as (Hw & _). rewrite (Get_Ok _ _ _ Hw) in HS by lia.
  rewrite decide_False in HS; [congruence|]. unfold bloom_covered. intros Hin%elem_of_list_In. apply in_concat in Hin as (l & Hl0 & Hl%elem_of_list_In). apply in_map_iff in Hl0 as (v & <- & _).
  pose proof (bloom_seq_range (fnv1_spec v) (if Z.even (fnv1a_spec v) then fnv1a_spec v + 1 else fnv1a_spec v)%Z (bloom_mod (Z.of_nat m)) (Z.to_nat k)) as HR.
  unfold bloom_mod in *. replace (Z.odd (Z.of_nat m) && (2 <? Z.of_nat m)%Z) with true in * by (rewrite Hodd; lia).
  specialize (HR (Z.of_nat (m - 1)) ltac:(lia)). unfold bloom_positions in Hl. unfold bloom_mod in Hl. rewrite Hodd in Hl. replace (2 <? Z.of_nat m)%Z with true in Hl by lia. apply HR in Hl. lia.
Qed.

(** ** math functions that satisfy the assumptions: the correctly rounded ones *)
Lemma rnd_small_rel r : pw (-60) <= Rabs r → Rabs (rnd r - r) <= pw (-52) * Rabs r.
Proof.
  intros Hr. destruct (rnd_rel' r) as (d & Hd & E). { eapply Rle_trans; [|exact Hr]. apply bpow_le. lia. }
  rewrite E. replace (r * (1 + d) - r) with (d * r) by ring. rewrite Rabs_mult. apply Rmult_le_compat_r; [apply Rabs_pos|].
  eapply Rle_trans; [exact Hd|]. apply bpow_le. lia.
Qed.
Lemma log_rounded_all_ok : log_all_ok log_rounded.
Proof.
  intros x Fx Hx. assert (/ 2 ^ 50 = pw (-50)) as E50. { change (-50)%Z with (Z.opp 50). rewrite bpow_opp. f_equal. symmetry. exact (bpow_pow 50). }
  destruct (Rle_lt_dec 1 (f2r x)) as [H|H].
  - pose proof (log_rounded_ok x Fx H) as [F E]. split; [done|].
    assert (0 <= ln (f2r x)) as H0. { rewrite <- ln_1. destruct (Rle_lt_or_eq_dec _ _ H) as [H'|H']; [left; apply ln_increasing; lra|rewrite <- H'; lra]. }
    rewrite (Rabs_pos_eq (ln (f2r x))) by done. exact E.
  - pose proof (ln_float x ltac:(lra)) as HL. pose proof (pw_pos (-53)).
    assert (Rabs (ln (f2r x)) = - ln (f2r x)) as EA by (apply Rabs_left; lra).
    destruct (f_of_R_ok (ln (f2r x))) as [F E]. { rewrite EA. apply (Rle_trans _ (pw 10)); [change (pw 10) with 1024; lra|apply maxfloat_ge; lia]. }
    unfold log_rounded. split; [done|]. rewrite E, E50. eapply Rle_trans; [apply rnd_small_rel|].
    + rewrite EA. pose proof (bpow_le radix2 (-60) (-53) ltac:(lia)). lra.
    + apply Rmult_le_compat_r; [apply Rabs_pos|]. apply bpow_le. lia.
Qed.
Definition exp_rounded (x : float) : float := f_of_R (exp (f2r x)).
Lemma unit_rounded r : 0 <= r <= 1 → ffinite (f_of_R r) = true ∧ 0 <= f2r (f_of_R r) <= 1 ∧ Rabs (f2r (f_of_R r) - r) <= pw (-53).
Proof.
  intros Hr. destruct (f_of_R_ok r) as [F E]. { apply (abs_max _ 0); [lia|]. change (pw 0) with 1. lra. }
  split; [done|]. rewrite E. split; [split; [apply rnd_nonneg; lra|apply rnd_le'; [apply fmt1|lra]]|].
  apply (rnd_abs r 0); [lia|]. change (pw 0) with 1. rewrite Rabs_pos_eq; lra.
Qed.
Lemma exp_rounded_ok : exp_ok exp_rounded.
Proof.
  intros x Fx Hx. unfold exp_rounded. pose proof (exp_pos (f2r x)). assert (exp (f2r x) <= 1) by (rewrite <- exp_0; by apply exp_le_compat).
  destruct (unit_rounded (exp (f2r x))) as (F & B & E); [lra|]. split_and!; [done|lra|lra|]. eapply Rle_trans; [exact E|].
  assert (/ 2 ^ 45 = pw (-45)) as ->. { change (-45)%Z with (Z.opp 45). rewrite bpow_opp. f_equal. symmetry. exact (bpow_pow 45). } apply bpow_le. lia.
Qed.
Definition pow_rounded (x y : float) : float := f_of_R (f2r x ^ Z.to_nat (Zfloor (f2r y))).
Lemma pow_rounded_ok : pow_ok pow_rounded.
Proof.
  intros x k Fx Hx Hk. unfold pow_rounded. destruct (f_of_Z_exact (Z.of_nat k) ltac:(lia)) as (_ & E & _). rewrite E, Zfloor_IZR, Nat2Z.id.
  destruct (unit_rounded (f2r x ^ k)) as (F & B & E2). { split; [apply pow_le; lra|]. rewrite <- (pow1 k). apply pow_incr. lra. }
  split_and!; [done|lra|lra|]. eapply Rle_trans; [exact E2|].
  assert (/ 2 ^ 40 = pw (-40)) as ->. { change (-40)%Z with (Z.opp 40). rewrite bpow_opp. f_equal. symmetry. exact (bpow_pow 40). } apply bpow_le. lia.
Qed.
(** ** numbers *)
Lemma rate_half : 81 / 101 <= (1 - exp (- (7 / 2))) ^ 7.
Proof.
  pose proof (exp_gt_q 7 2 33 1 16 ltac:(lia) ltac:(lia) ltac:(lia) ltac:(vm_compute; reflexivity)) as H.
  assert (exp (- (7 / 2)) <= / 33) as H2. { rewrite exp_Ropp. apply Rinv_le_contravar; lra. }
  apply (Rle_trans _ ((32 / 33) ^ 7)); [lra|]. apply pow_incr. lra.
Qed.
Lemma rate_full1 : 1 - exp (- 1) <= 64 / 100.
Proof.
  pose proof (exp_opp_gt_q 1 1 36 100 5 ltac:(lia) ltac:(lia) ltac:(lia) ltac:(vm_compute; reflexivity)) as H.
  replace (- (1 / 1)) with (- (1)) in H by lra. change (-1) with (- (1)). lra.
Qed.
