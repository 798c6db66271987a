(** Count is never negative unless every register is large; it can decrease;
    a correctly rounded logarithm exists. *)
From Verif Require Import Base BaseProofs FnvSpec Float64 Float64Spec Float64Proofs BitbucketModel BitbucketSpec BitbucketProofs HllModel HllSpec HllProofs HllCountModel HllCountSpec FloatMore HllCountLoops HllCountProofs HllCountTop HllCountEst.
From Coq Require Import ZifyBool ZifyNat.
From Coq Require Import Reals Lra.
From Flocq Require Import Core Relative.
Notation float := Float64.float.
Open Scope R_scope.

Section log.
  Context (glog : float → float) (Hlog : log_ok glog).
  Lemma Count_nonneg c p j n : hll_wf c p → (j < hll_size p)%nat → (hreg c j <= 63 - 2 * p)%Z → Count_returns glog c n → (0 <= n < 2 ^ 63)%Z.
  Proof.
    intros Hc Hj Hjr [f0 Hn]. pose proof Hc as (Hp & Hcp & _). specialize (Hn (100 + f0)%nat ltac:(lia)).
    unfold Hll_Count in Hn. rewrite Hcp, (hll_m_eq p Hp), (CountN_empty c p Hc) in Hn. cbn [obind] in Hn.
    pose proof (empty_range c p Hc) as Hr. pose proof (hreg_range c p j Hc Hj) as Hjr0.
    assert (∀ z, ffinite z = true → weight (hreg c j) <= f2r z → f2r z <= pw 60 → (0 <= hll_normalize p z < 2 ^ 63)%Z) as HN.
    { intros z Fz Hw Hz. apply (normalize_ok p z (Z.max 1 (hreg c j))); [done|done|lia|exact Hw|done]. }
    destruct ((0 <? empty_registers c p)%Z && fle _ _) eqn:El.
    - injection Hn as <-. destruct (lin_estimate glog Hlog p (empty_registers c p) Hp ltac:(lia)) as (_ & _ & ->).
      destruct (lin_n_range glog Hlog p (empty_registers c p) Hp ltac:(lia)). lia.
    - destruct (harmonic_ok c p Hc) as (z & E & [Fz Hz] & Hw). rewrite E in Hn. cbn [obind] in Hn.
      destruct (fle _ z).
      + destruct (poisson_ok c p Hc) as (z' & E' & H1 & H2). rewrite E' in Hn by lia. cbn [obind option_map] in Hn. injection Hn as <-.
        destruct (decide (empty_registers c p = 2 ^ p)%Z) as [Ee|Ee]; [rewrite H1, normalize_inf by done; lia|].
        destruct H2 as [[Fz' Hz'] H2]; [lia|]. apply HN; [done|apply H2; [done|lia]|lra].
      + injection Hn as <-. apply HN; [done|by apply Hw|]. apply (Rle_trans _ (IZR (2 ^ p))); [lra|]. rewrite <- pw_IZR by lia. apply bpow_le. lia.
  Qed.
  Lemma Count_after_nonneg p vs j n : (4 <= p <= 18)%Z → Forall is_bytes vs → (0 <= j < 2 ^ p)%Z → (hll_register p vs j <= 63 - 2 * p)%Z →
    Count_after glog p vs n → (0 <= n < 2 ^ 63)%Z.
  Proof.
    intros Hp Hvs Hj Hr Hn. destruct (New_Adds_hit p vs Hp Hvs) as (c0 & c & E0 & E & Hc & Hem & Hreg).
    destruct Hn as (c0' & c' & E0' & E' & Hn). rewrite E0 in E0'. injection E0' as <-. rewrite E in E'. injection E' as <-.
    pose proof (hll_size_Z p Hp). apply (Count_nonneg c p (Z.to_nat j) n Hc); [lia| |done]. rewrite Hreg by lia. by rewrite Z2Nat.id by lia.
  Qed.
  Lemma some_empty p vs : (4 <= p <= 18)%Z → (Z.of_nat (length vs) < 2 ^ p)%Z → ∃ j, (0 <= j < 2 ^ p)%Z ∧ (hll_register p vs j = 0)%Z.
  Proof.
    intros Hp Hl. set (bs := map (λ v, hll_bucket p (fnv1_spec v)) vs).
    destruct (decide (Exists (λ j, j ∉ bs) (map Z.of_nat (seq 0 (Z.to_nat (2 ^ p)))))) as [H|H].
    - apply Exists_exists in H as (j & (i & -> & Hi)%elem_of_list_fmap & Hj). apply elem_of_seq in Hi. exists (Z.of_nat i). split; [lia|].
      destruct (decide (hll_register p vs (Z.of_nat i) = 0)%Z); [done|]. exfalso. apply Hj. by apply register_pos.
    - apply not_Exists_Forall in H; [|apply _]. exfalso.
      assert (length (map Z.of_nat (seq 0 (Z.to_nat (2 ^ p)))) <= length bs)%nat as Hle.
      { apply submseteq_length, NoDup_submseteq; [apply NoDup_fmap_2; [intros ?? ?; lia|apply NoDup_ListNoDup, seq_NoDup]|].
        intros x Hx. rewrite Forall_forall in H. specialize (H x Hx). destruct (decide (x ∈ bs)); [done|]. by destruct (H n). }
      unfold bs in Hle. rewrite !map_length, seq_length in Hle. lia.
  Qed.
End log.

(** ** bounds on the logarithm *)
Lemma exp_bounds n x : 0 <= x < 1 → (1 + x) ^ n <= exp (INR n * x) ∧ exp (INR n * x) * (1 - x) ^ n <= 1.
Proof.
  intros Hk. assert (exp (INR n * x) = exp x ^ n) as ->.
  { induction n as [|n IH]; [simpl; rewrite Rmult_0_l; apply exp_0|]. rewrite S_INR, Rmult_plus_distr_r, Rmult_1_l, exp_plus, IH. simpl. ring. }
  split.
  - apply pow_incr. split; [lra|]. apply exp_ineq1_le.
  - rewrite <- Rpow_mult_distr. apply (Rle_trans _ (1 ^ n)); [|rewrite pow1; lra]. apply pow_incr. split; [apply Rmult_le_pos; [left; apply exp_pos|lra]|].
    pose proof (exp_ineq1_le (- x)) as H. rewrite exp_Ropp in H. pose proof (exp_pos x) as P.
    apply (Rmult_le_compat_l (exp x)) in H; [|lra]. rewrite Rinv_r in H by lra. lra.
Qed.
(** ln(a/b) compared with n k/d, decided on integers *)
Lemma ln_lt_k a b k d n : (0 < a)%Z → (0 < b)%Z → (0 <= k < d)%Z → (a * d ^ Z.of_nat n <? b * (d + k) ^ Z.of_nat n)%Z = true →
  ln (IZR a / IZR b) < INR n * (IZR k / IZR d).
Proof.
  intros Ha Hb Hk H. apply Z.ltb_lt, IZR_lt in H. rewrite !mult_IZR, <- !pow_IZR, plus_IZR in H.
  assert (0 <= IZR k) by (apply IZR_le; lia). assert (IZR k < IZR d) by (apply IZR_lt; lia).
  assert (0 <= IZR k / IZR d < 1) as Hx.
  { split; [apply Rmult_le_pos; [lra|left; apply Rinv_0_lt_compat; lra]|]. apply (Rmult_lt_reg_r (IZR d)); [lra|]. unfold Rdiv. rewrite Rmult_assoc, Rinv_l by lra. lra. }
  destruct (exp_bounds n _ Hx) as [Hq1 _].
  assert (0 < IZR a) by (by apply IZR_lt). assert (0 < IZR b) by (by apply IZR_lt).
  apply exp_lt_inv. rewrite exp_ln by (apply Rdiv_lt_0_compat; lra). eapply Rlt_le_trans; [|exact Hq1].
  assert (0 < IZR d ^ n) by (apply pow_lt; lra).
  apply (Rmult_lt_reg_r (IZR b * IZR d ^ n)); [apply Rmult_lt_0_compat; lra|].
  replace (IZR a / IZR b * (IZR b * IZR d ^ n)) with (IZR a * IZR d ^ n) by (field; lra).
  replace ((1 + IZR k / IZR d) ^ n * (IZR b * IZR d ^ n)) with (IZR b * ((1 + IZR k / IZR d) * IZR d) ^ n) by (rewrite Rpow_mult_distr; ring).
  replace ((1 + IZR k / IZR d) * IZR d) with (IZR d + IZR k) by (field; lra). exact H.
Qed.
Lemma ln_gt_k a b k d n : (0 < a)%Z → (0 < b)%Z → (0 <= k < d)%Z → (b * d ^ Z.of_nat n <? a * (d - k) ^ Z.of_nat n)%Z = true →
  INR n * (IZR k / IZR d) < ln (IZR a / IZR b).
Proof.
  intros Ha Hb Hk H. apply Z.ltb_lt, IZR_lt in H. rewrite !mult_IZR, <- !pow_IZR, minus_IZR in H.
  assert (0 <= IZR k) by (apply IZR_le; lia). assert (IZR k < IZR d) by (apply IZR_lt; lia).
  assert (0 <= IZR k / IZR d < 1) as Hx.
  { split; [apply Rmult_le_pos; [lra|left; apply Rinv_0_lt_compat; lra]|]. apply (Rmult_lt_reg_r (IZR d)); [lra|]. unfold Rdiv. rewrite Rmult_assoc, Rinv_l by lra. lra. }
  destruct (exp_bounds n _ Hx) as [_ Hq1].
  assert (0 < IZR a) by (by apply IZR_lt). assert (0 < IZR b) by (by apply IZR_lt).
  apply exp_lt_inv. rewrite exp_ln by (apply Rdiv_lt_0_compat; lra).
  set (e := exp _) in *. set (w := 1 - IZR k / IZR d) in *. assert (0 < w) as Hw by (unfold w; lra).
  assert (0 < w ^ n) as Hwn by (by apply pow_lt). assert (0 < IZR d ^ n) as Hd by (apply pow_lt; lra).
  replace (IZR d - IZR k) with (w * IZR d) in H by (unfold w; field; lra). rewrite Rpow_mult_distr in H.
  assert (IZR b < IZR a * w ^ n) as Hq2. { apply (Rmult_lt_reg_r (IZR d ^ n)); [done|]. rewrite Rmult_assoc. exact H. }
  apply (Rmult_lt_reg_r (w ^ n)); [done|]. eapply Rle_lt_trans; [exact Hq1|].
  apply (Rmult_lt_reg_r (IZR b)); [done|]. replace (IZR a / IZR b * w ^ n * IZR b) with (IZR a * w ^ n) by (field; lra). lra.
Qed.
Lemma INR256 : INR 256 = 256. Proof. rewrite INR_IZR_INZ. reflexivity. Qed.

(** ** Count can decrease *)
Definition digits_x (l : list Z) : bytes := l ++ [120%Z].
Definition decrease_items : list bytes := map digits_x
  [[49;48;48];[51;48;48];[54;48;48];[55;48;48];[56;48;48];[57;49;48];[49;49;48;48];[49;52;48;48];[49;54;48;48];[50;49;48;48];
   [50;50;48;48];[50;51;48;48];[50;52;48;48];[50;57;53;48];[51;50;48;48];[52;48;48;48];[52;49;48;48];[52;50;48;48];[52;54;48;48];[52;55;48;48];
   [52;57;48;48];[53;48;48;48];[53;49;48;48];[53;50;48;48];[53;56;48;48];[53;57;48;48];[54;50;48;48];[54;53;48;48];[54;54;48;48];[55;52;48;48]]%Z.
Lemma all_bytes (l : list bytes) : forallb (forallb is_byteb) l = true → Forall is_bytes l.
Proof.
  intros H. apply Forall_forall. intros v Hv. rewrite forallb_forall in H. apply elem_of_list_In, H in Hv. rewrite forallb_forall in Hv.
  apply Forall_forall. intros b Hb. apply elem_of_list_In, Hv in Hb. unfold is_byteb in Hb. unfold is_byte. lia.
Qed.
Lemma decrease_bytes n : Forall is_bytes (take n decrease_items).
Proof. apply Forall_take, all_bytes. vm_compute. reflexivity. Qed.

Section decrease.
  Context (glog : float → float) (Hlog : log_ok glog).
  Lemma lin_n_35 : lin_n glog 6 35 = 39%Z.
  Proof.
    destruct (linear_err glog Hlog 6 35 ltac:(lia) ltac:(lia)) as (_ & He & _). fold (lin_t glog 6 35) in He. apply Rabs_le_inv in He.
    unfold linear_counting in He. change (2 ^ 6)%Z with 64%Z in He.
    pose proof (ln_lt_k 64 35 155 (65536) 256 ltac:(lia) ltac:(lia) ltac:(lia) ltac:(vm_compute; reflexivity)) as H1.
    pose proof (ln_gt_k 64 35 153 (65536) 256 ltac:(lia) ltac:(lia) ltac:(lia) ltac:(vm_compute; reflexivity)) as H2.
    rewrite INR256 in H1, H2. 
    assert (pw (-27) <= / 16) by (change (/ 16) with (pw (-4)); apply bpow_le; lia).
    apply Zceil_imp. change (39 - 1)%Z with 38%Z. lra.
  Qed.
  Lemma lin_n_34 : (41 <= lin_n glog 6 34)%Z.
  Proof.
    destruct (lin_n_range glog Hlog 6 34 ltac:(lia) ltac:(lia)) as [_ [He _]].
    unfold linear_counting in He. change (2 ^ 6)%Z with 64%Z in He.
    pose proof (ln_gt_k 64 34 161 (65536) 256 ltac:(lia) ltac:(lia) ltac:(lia) ltac:(vm_compute; reflexivity)) as H2.
    rewrite INR256 in H2. 
    assert (pw (-27) <= / 16) by (change (/ 16) with (pw (-4)); apply bpow_le; lia).
    assert (40 < IZR (lin_n glog 6 34)) as H3 by lra. apply lt_IZR in H3. lia.
  Qed.
  Lemma decrease_first : Count_after glog 6 (take 29 decrease_items) 39.
  Proof.
    assert (buckets_hit 6 (take 29 decrease_items) = 29%Z) as Hb by (vm_compute; reflexivity).
    pose proof (Count_after_low glog Hlog 6 (take 29 decrease_items) ltac:(lia) (decrease_bytes 29)) as H. rewrite Hb in H.
    change (2 ^ 6 - 29)%Z with 35%Z in H. rewrite lin_n_35 in H. apply H; [lia|]. vm_compute. discriminate.
  Qed.
  Lemma decrease_second : Count_after glog 6 decrease_items 37.
  Proof.
    destruct (New_Adds_hit 6 decrease_items ltac:(lia)) as (c0 & c & E0 & E & Hc & Hem & _); [apply (decrease_bytes 30)|].
    exists c0, c. split; [done|]. split; [done|].
    assert (buckets_hit 6 decrease_items = 30%Z) as Hb by (vm_compute; reflexivity). rewrite Hb in Hem. change (2 ^ 6 - 30)%Z with 34%Z in Hem.
    exists 100%nat. intros fuel Hf. unfold Hll_Count. rewrite (CountN_empty c 6 Hc), Hem. cbn [obind].
    pose proof Hc as (_ & Hcp & _). rewrite Hcp. change (hll_m 6) with (2 ^ 6)%Z.
    rewrite (lin_le glog Hlog 6 34 ltac:(lia) ltac:(lia)). pose proof lin_n_34 as H34. change (linear_limit 6) with 40%Z.
    replace (lin_n glog 6 34 <=? 40)%Z with false by lia. cbn [andb Z.ltb Z.compare].
    destruct (poisson_ok c 6 Hc) as (z & Hz & _). rewrite Hz by lia. pose proof (Hz 100%nat ltac:(lia)) as Ez.
    destruct (harmonic_ok c 6 Hc) as (h & Eh & _). rewrite Eh. cbn [obind option_map].
    vm_compute in E0. injection E0 as <-. vm_compute in E. injection E as <-.
    match type of Ez with Hll_poisson 100 ?c = _ => set (cc := c) in * end.
    assert ((let! z := Hll_poisson 100 cc in Ok (option_map (hll_normalize 6) z)) = Ok (Some 37%Z)) as E37 by (vm_compute; reflexivity).
    assert ((let! z := Hll_harmonic cc (2 ^ 6) in Ok (fle (fdiv (fmul (hll_alpha 6) (f_of_Z (2 ^ 6))) (f_of_Z 7)) z)) = Ok true) as Et by (vm_compute; reflexivity).
    rewrite Eh in Et. rewrite Ez in E37. cbn [obind option_map] in Et, E37. injection Et as ->. done.
  Qed.
End decrease.

(** ** sixteen items whose count is negative *)
Definition negative_items : list bytes :=
  [[50;2;40;19;21;13;29;28;28;11;19;13];[48;1;15;46;123;24;10;29;110;15;20;4];[48;53;31;5;13;10;114;44;29;55;27;14];[49;235;4;243;54;14;53;25;2;10;24;4];[49;224;9;119;58;237;5;22;38;23;5;18];[50;125;5;39;20;6;7;13;21;17;12;14];[50;45;53;1;13;25;6;20;11;108;42;7];[53;21;121;5;5;2;23;251;26;13;27;8];[54;3;121;12;114;0;53;16;5;114;31;30];[48;52;3;254;98;42;17;23;2;3;95;14];[50;32;226;112;1;14;26;30;59;4;26;3];[48;19;11;3;25;21;249;41;15;15;33;5];[48;46;23;26;111;6;47;127;26;48;29;16];[50;113;24;22;0;28;40;250;1;100;53;6];[49;31;120;19;13;8;63;5;1;8;120;10];[50;11;8;46;40;45;23;8;23;1;116;10]]%Z.
Lemma negative_bytes : Forall is_bytes negative_items.
Proof. apply all_bytes. vm_compute. reflexivity. Qed.
Lemma negative_count glog : Count_after glog 4 negative_items (- 2 ^ 63).
Proof.
  destruct (New_Adds 4 negative_items ltac:(lia) negative_bytes) as (c0 & c & E0 & E & Hc & _). exists c0, c. split; [done|]. split; [done|].
  exists 100%nat. intros fuel Hf. 
  unfold Hll_Count. vm_compute in E0. injection E0 as <-. vm_compute in E. injection E as <-. vm_compute. reflexivity.
Qed.

(** ** LinearCount with no empty register *)
Lemma m_div_0 p : (4 <= p <= 18)%Z → fdiv (f_of_Z (2 ^ p)) (f_of_Z 0) = plus_inf.
Proof. intros Hp. each_p p Hp. Qed.
Lemma m_inf_int p : (4 <= p <= 18)%Z → f_to_int64 (fceil (fmul (f_of_Z (2 ^ p)) plus_inf)) = (- 2 ^ 63)%Z.
Proof. intros Hp. each_p p Hp. Qed.
Lemma linear_full glog c p : hll_wf c p → empty_registers c p = 0%Z → glog plus_inf = plus_inf → Hll_LinearCount glog c = Ok (- 2 ^ 63)%Z.
Proof.
  intros Hc Hv Hg. pose proof Hc as (Hp & Hcp & _). unfold Hll_LinearCount. rewrite (CountN_empty c p Hc), Hv, Hcp, (hll_m_eq p Hp). cbn [obind]. f_equal.
  unfold linear_estimate. rewrite (m_div_0 p Hp), Hg. by apply m_inf_int.
Qed.

(** ** a logarithm that satisfies log_ok: the correctly rounded one *)
Definition f_of_R (r : R) : float :=
  Binary.binary_normalize 53 1024 eq_refl eq_refl BinarySingleNaN.mode_NE (ZnearestE (scaled_mantissa radix2 fexp64 r)) (cexp radix2 fexp64 r) false.
Definition log_rounded (x : float) : float := f_of_R (ln (f2r x)).
Lemma rnd_idem r : rnd (rnd r) = rnd r.
Proof. apply round_generic; [apply valid_rnd_N|]. apply generic_format_round; [apply valid64|apply valid_rnd_N]. Qed.
Lemma f_of_R_ok r : Rabs r <= maxfloat → ffinite (f_of_R r) = true ∧ f2r (f_of_R r) = rnd r.
Proof.
  intros Hr. pose proof (Binary.binary_normalize_correct 53 1024 eq_refl eq_refl BinarySingleNaN.mode_NE (ZnearestE (scaled_mantissa radix2 fexp64 r)) (cexp radix2 fexp64 r) false) as H.
  rewrite fexp_eq in H. change (BinarySingleNaN.round_mode BinarySingleNaN.mode_NE) with ZnearestE in H.
  change (F2R (Float radix2 (ZnearestE (scaled_mantissa radix2 fexp64 r)) (cexp radix2 fexp64 r))) with (rnd r) in H.
  fold (rnd (rnd r)) in H. rewrite rnd_idem, rnd_lt1024 in H by done.
  destruct H as (H1 & H2 & _). split; [exact H2|exact H1].
Qed.
Lemma gt1_format x : fmt x → 1 < x → 1 + pw (-52) <= x.
Proof.
  intros Fx Hx. pose proof (succ_le_lt radix2 fexp64 1 x fmt1 Fx Hx) as H. 
  assert (succ radix2 fexp64 1 = 1 + pw (-52)) as E.
  { rewrite succ_eq_pos by lra. f_equal. change 1 with (pw 0). rewrite ulp_bpow. reflexivity. }
  by rewrite E in H.
Qed.
Lemma log_rounded_ok : log_ok log_rounded.
Proof.
  intros x Fx Hx. assert (fmt (f2r x)) as Fm by apply fmt_f2r.
  assert (0 <= ln (f2r x)) as H0. { rewrite <- ln_1. destruct (Rle_lt_or_eq_dec _ _ Hx) as [H|H]; [left; apply ln_increasing; lra|rewrite <- H; lra]. }
  assert (Rabs (ln (f2r x)) <= maxfloat) as Hb.
  { rewrite Rabs_pos_eq by done. pose proof (ln_upper (f2r x) ltac:(lra)) as H1. pose proof (f2r_bound x) as H2. apply Rabs_le_inv in H2. lra. }
  destruct (f_of_R_ok _ Hb) as [F E]. unfold log_rounded. split; [done|]. rewrite E.
  assert (/ 2 ^ 50 = pw (-50)) as E50. { change (-50)%Z with (Z.opp 50). rewrite bpow_opp. f_equal. symmetry. exact (bpow_pow 50). }
  rewrite E50. destruct (Rle_lt_or_eq_dec _ _ Hx) as [H|H].
  - pose proof (gt1_format _ Fm H) as H1. pose proof (ln_lower (f2r x) ltac:(lra)) as H2.
    assert (pw (-53) <= 1 - / f2r x) as H3.
    { apply (Rmult_le_reg_r (f2r x)); [lra|]. rewrite Rmult_minus_distr_r, Rinv_l by lra.
      assert (pw (-53) = / 2 * pw (-52)) as E2. { rewrite (pw_P (-52)). change (-52 - 1)%Z with (-53)%Z. lra. }
      assert (pw (-52) <= / 2) by (change (/ 2) with (pw (-1)); apply bpow_le; lia). pose proof (pw_pos (-52)). nra. }
    set (l := ln (f2r x)) in *.
    pose proof (relative_error_N_FLT radix2 (-1074) 53 eq_refl (λ z, negb (Z.even z)) l) as HR.
    rewrite (Rabs_pos_eq l) in HR by lra. eapply Rle_trans; [apply HR|].
    + apply (Rle_trans _ (pw (-53))); [apply bpow_le; lia|lra].
    + change (Z.opp 53 + 1)%Z with (-52)%Z. assert (pw (-52) <= pw (-50)) by (apply bpow_le; lia). nra.
  - rewrite <- H, ln_1, rnd_0, Rminus_0_r, Rabs_R0, Rmult_0_r. lra.
Qed.
