(** Count in the linear counting range, empty and one-item counters. *)
From Verif Require Import Base BaseProofs FnvSpec Float64 Float64Spec Float64Proofs BitbucketModel BitbucketSpec BitbucketProofs HllModel HllSpec HllProofs HllCountModel HllCountSpec FloatMore HllCountLoops HllCountProofs HllCountTop.
From Coq Require Import ZifyBool ZifyNat.
From Coq Require Import Reals Lra.
From Flocq Require Import Core Relative.
Notation float := Float64.float.

(** ** registers hit *)
Lemma register_pos p vs j : (4 <= p <= 18)%Z → (hll_register p vs j ≠ 0)%Z ↔ j ∈ map (λ v, hll_bucket p (fnv1_spec v)) vs.
Proof.
  intros Hp. destruct (register_max p vs j Hp) as [H1 H2]. split.
  - intros Hn. destruct H2 as [(v & Hv & Hb & _)|[_ H2]]; [|done]. apply elem_of_list_fmap. eauto.
  - intros (v & -> & Hv)%elem_of_list_fmap. pose proof (H1 v Hv eq_refl). pose proof (rank_range p (fnv1_spec v) Hp). lia.
Qed.
Lemma count_eq_compl l : (count_eq 0 l = Z.of_nat (length l) - Z.of_nat (length (filter (λ x, x ≠ 0%Z) l)))%Z.
Proof.
  unfold count_eq. induction l as [|x l IH]; [done|]. rewrite !filter_cons. destruct (decide (x = 0%Z)) as [->|];
  [rewrite decide_False by (intros H; by apply H)|rewrite decide_True by done]; cbn [length]; lia.
Qed.
Lemma filter_map_length {A B} (f : A → B) (P : B → Prop) `{!∀ x, Decision (P x)} l :
  length (filter P (map f l)) = length (filter (λ x, P (f x)) l).
Proof. induction l as [|x l IH]; [done|]. cbn [map]. rewrite !filter_cons. destruct (decide (P (f x))); cbn [length]; congruence. Qed.
Lemma empty_hit p vs c : (4 <= p <= 18)%Z → Forall is_bytes vs → hll_wf c p →
  (∀ j, (j < hll_size p)%nat → BB_Get (hc_bits c) (Z.of_nat j) = Ok (hll_register p vs (Z.of_nat j))) →
  empty_registers c p = (2 ^ p - buckets_hit p vs)%Z.
Proof.
  intros Hp Hvs Hc Hreg. pose proof (hll_size_Z p Hp) as Hs. unfold empty_registers. rewrite count_eq_compl.
  unfold registers at 1. rewrite map_length, seq_length, Hs. f_equal. unfold buckets_hit. f_equal.
  unfold registers. rewrite filter_map_length. rewrite <- (map_length Z.of_nat).
  apply Permutation_length. apply NoDup_Permutation.
  - apply NoDup_fmap_2; [intros ?? H; lia|]. apply NoDup_filter, NoDup_ListNoDup, seq_NoDup.
  - apply NoDup_remove_dups.
  - intros x. rewrite elem_of_remove_dups. split.
    + intros (j & -> & Hj)%elem_of_list_fmap. apply elem_of_list_filter in Hj as [Hn Hj]. apply elem_of_seq in Hj.
      apply register_pos; [done|]. unfold register in Hn. rewrite Hreg in Hn by lia. done.
    + intros Hx. assert (0 <= x < 2 ^ p)%Z as Hr.
      { apply elem_of_list_fmap in Hx as (v & -> & Hv). rewrite Forall_forall in Hvs.
        apply bucket_range; [done|]. by apply fnv1_range, Hvs. }
      apply elem_of_list_fmap. exists (Z.to_nat x). split; [lia|]. apply elem_of_list_filter. split; [|apply elem_of_seq; lia].
      unfold register. rewrite Hreg by lia. replace (Z.of_nat (Z.to_nat x)) with x by lia. by apply register_pos.
Qed.

Lemma New_Adds_hit p vs : (4 <= p <= 18)%Z → Forall is_bytes vs →
  ∃ c0 c, Hll_New p = Ok c0 ∧ Hll_Adds c0 vs = Ok c ∧ hll_wf c p ∧ empty_registers c p = (2 ^ p - buckets_hit p vs)%Z ∧
    ∀ j, (j < hll_size p)%nat → hreg c j = hll_register p vs (Z.of_nat j).
Proof.
  intros Hp Hvs. destruct (New_Adds p vs Hp Hvs) as (c0 & c & E0 & E & Hc & Hreg). exists c0, c. split_and!; try done.
  - by apply empty_hit.
  - intros j Hj. rewrite <- (register_hreg c p j Hc Hj). unfold register. by rewrite Hreg.
Qed.

Open Scope R_scope.
Lemma threshold_ok p : (4 <= p <= 18)%Z → ffinite (hll_threshold p) = true ∧ f2r (hll_threshold p) = IZR (linear_limit p).
Proof.
  intros Hp. assert (hll_threshold p = f_of_Z (linear_limit p)) as ->.
  { pattern p; revert p Hp; apply p_cases; intros p Hp; repeat (apply elem_of_cons in Hp as [->|Hp]; [reflexivity|]); by apply elem_of_nil in Hp. }
  assert (0 <= linear_limit p <= 2 ^ 53)%Z as Hb.
  { assert (((0 <=? linear_limit p) && (linear_limit p <=? 2 ^ 53))%Z = true) as H; [|lia]. each_p p Hp. }
  pose proof (f_of_Z_iv (linear_limit p) Hb) as H. split; [apply H|by apply iv_eq].
Qed.
Lemma limit_bound p : (4 <= p <= 18)%Z → (10 <= linear_limit p <= 350000)%Z.
Proof. intros Hp. assert (((10 <=? linear_limit p) && (linear_limit p <=? 350000))%Z = true) as H; [|lia]. each_p p Hp. Qed.

Section log.
  Context (glog : float → float) (Hlog : log_ok glog).
  Definition lin_t (p v : Z) : float := fmul (f_of_Z (2 ^ p)) (glog (fdiv (f_of_Z (2 ^ p)) (f_of_Z v))).
  Definition lin_n (p v : Z) : Z := Zceil (f2r (lin_t p v)).
  Lemma lin_n_range p v : (4 <= p <= 18)%Z → (1 <= v <= 2 ^ p)%Z → (0 <= lin_n p v <= 2 ^ 23)%Z ∧
    linear_counting p v - pw (-27) <= IZR (lin_n p v) < linear_counting p v + 1 + pw (-27).
  Proof.
    intros Hp Hv. destruct (linear_err glog Hlog p v Hp Hv) as (F & He & Hr). fold (lin_t p v) in *. apply Rabs_le_inv in He.
    unfold lin_n. pose proof (Zceil_ub (f2r (lin_t p v))) as H1. pose proof (Zceil_lb (f2r (lin_t p v))) as H2.
    split; [|lra]. split; [rewrite <- (Zceil_IZR 0); apply Zceil_le; lra|].
    apply Zceil_glb. rewrite <- pw_IZR by lia. lra.
  Qed.
  Lemma lin_estimate p v : (4 <= p <= 18)%Z → (1 <= v <= 2 ^ p)%Z →
    ffinite (linear_estimate glog (2 ^ p) v) = true ∧ f2r (linear_estimate glog (2 ^ p) v) = IZR (lin_n p v) ∧ f_to_int64 (linear_estimate glog (2 ^ p) v) = lin_n p v.
  Proof.
    intros Hp Hv. destruct (linear_err glog Hlog p v Hp Hv) as (F & He & Hr). fold (lin_t p v) in *.
    destruct (fceil_ok _ F) as [Fc Ec]. unfold linear_estimate. fold (lin_t p v). split; [done|]. split; [done|].
    destruct (lin_n_range p v Hp Hv) as [Hb _]. apply f_to_int64_ok; [done|done|lia].
  Qed.
  Lemma lin_le p v : (4 <= p <= 18)%Z → (1 <= v <= 2 ^ p)%Z →
    fle (linear_estimate glog (2 ^ p) v) (hll_threshold p) = (lin_n p v <=? linear_limit p)%Z.
  Proof.
    intros Hp Hv. destruct (lin_estimate p v Hp Hv) as (F & E & _). destruct (threshold_ok p Hp) as [Ft Et].
    destruct (Z.leb_spec (lin_n p v) (linear_limit p)) as [H|H].
    - apply fle_ok; [done|done|]. rewrite E, Et. by apply IZR_le.
    - apply fle_false; [done|done|]. rewrite E, Et. by apply IZR_lt.
  Qed.
  Lemma Count_low c p : hll_wf c p → (1 <= empty_registers c p)%Z → (lin_n p (empty_registers c p) <= linear_limit p)%Z →
    Count_returns glog c (lin_n p (empty_registers c p)).
  Proof.
    intros Hc Hv Hle. pose proof Hc as (Hp & Hcp & _). pose proof (empty_range c p Hc) as Hr. exists O. intros fuel _.
    unfold Hll_Count. rewrite Hcp, (hll_m_eq p Hp), (CountN_empty c p Hc). cbn [obind].
    rewrite lin_le by (done || lia). replace (0 <? empty_registers c p)%Z with true by lia. replace (_ <=? _)%Z with true by lia. cbn [andb].
    do 2 f_equal. apply lin_estimate; [done|lia].
  Qed.
  Lemma lc_lower p v : (4 <= p <= 18)%Z → (1 <= v <= 2 ^ p)%Z → IZR (2 ^ p - v) <= linear_counting p v.
  Proof.
    intros Hp Hv. unfold linear_counting. rewrite minus_IZR. assert (1 <= IZR v <= IZR (2 ^ p)) as Hv' by (split; apply IZR_le; lia).
    set (m := IZR (2 ^ p)) in *. set (w := IZR v) in *. pose proof (ln_lower (m / w)) as H. 
    assert (0 < m / w) as Hq by (apply Rdiv_lt_0_compat; lra). specialize (H Hq).
    apply (Rle_trans _ (m * (1 - / (m / w)))); [|apply Rmult_le_compat_l; lra].
    apply Req_le. field. lra.
  Qed.
  Lemma lc_step p v v' : (4 <= p <= 18)%Z → (1 <= v' < v)%Z → (v <= 2 ^ p)%Z → linear_counting p v + 1 <= linear_counting p v'.
  Proof.
    intros Hp Hv Hv2. unfold linear_counting. assert (1 <= IZR v') by (apply IZR_le; lia). assert (IZR v' + 1 <= IZR v) by (rewrite <- plus_IZR; apply IZR_le; lia).
    assert (IZR v <= IZR (2 ^ p)) by (apply IZR_le; lia).
    set (m := IZR (2 ^ p)) in *. set (w := IZR v) in *. set (w' := IZR v') in *.
    assert (ln (m / w') = ln (m / w) + ln (w / w')) as ->.
    { rewrite <- ln_mult; [f_equal; field; lra|apply Rdiv_lt_0_compat; lra|apply Rdiv_lt_0_compat; lra]. }
    pose proof (ln_lower (w / w') ltac:(apply Rdiv_lt_0_compat; lra)) as H2.
    assert (/ w <= ln (w / w')) as H3.
    { eapply Rle_trans; [|exact H2]. replace (1 - / (w / w')) with ((w - w') * / w) by (field; lra).
      assert (0 < / w) by (apply Rinv_0_lt_compat; lra). nra. }
    assert (1 <= m * / w) as H4.
    { apply (Rmult_le_reg_r w); [lra|]. rewrite Rmult_assoc, Rinv_l by lra. lra. }
    nra.
  Qed.
  Lemma lin_n_ge p v : (4 <= p <= 18)%Z → (1 <= v <= 2 ^ p)%Z → (2 ^ p - v <= lin_n p v)%Z.
  Proof.
    intros Hp Hv. destruct (lin_n_range p v Hp Hv) as [_ [H _]]. pose proof (lc_lower p v Hp Hv) as H1.
    assert (pw (-27) <= / 2) by (change (/ 2) with (pw (-1)); apply bpow_le; lia).
    assert (IZR (2 ^ p - v) < IZR (lin_n p v) + 1) as H2 by lra. rewrite <- plus_IZR in H2. apply lt_IZR in H2. lia.
  Qed.
  Lemma lin_n_mono p v v' : (4 <= p <= 18)%Z → (1 <= v' <= v)%Z → (v <= 2 ^ p)%Z → (lin_n p v <= lin_n p v')%Z.
  Proof.
    intros Hp Hv Hv2. destruct (decide (v' = v)) as [->|]; [lia|].
    pose proof (lc_step p v v' Hp ltac:(lia) Hv2) as H1.
    destruct (linear_err glog Hlog p v Hp ltac:(lia)) as (_ & He & _). destruct (linear_err glog Hlog p v' Hp ltac:(lia)) as (_ & He' & _).
    fold (lin_t p v) (lin_t p v') in *. apply Rabs_le_inv in He, He'.
    assert (pw (-27) <= / 4) by (change (/ 4) with (pw (-2)); apply bpow_le; lia).
    apply Zceil_le. lra.
  Qed.
  (** empty counter *)
  Lemma lin_n_full p : (4 <= p <= 18)%Z → lin_n p (2 ^ p) = 0%Z.
  Proof.
    intros Hp. assert (1 <= 2 ^ p)%Z as Hone by lia.
    assert (lin_n p (2 ^ p) <= 0)%Z.
    2: { destruct (lin_n_range p (2 ^ p) Hp ltac:(lia)). lia. }
    (* m / m = 1 exactly and Log(1) = 0 *)
    assert (2 ^ p <= 2 ^ 18)%Z as Hp18 by (apply Z.pow_le_mono_r; lia).
    pose proof (ratio_iv (2 ^ p) p ltac:(lia) ltac:(lia)) as Hq. set (y := fdiv _ _) in *.
    assert (IZR (2 ^ p) * pw (- p) = 1) as Ep.
    { rewrite <- pw_IZR by lia. rewrite <- bpow_plus. replace (p + - p)%Z with 0%Z by lia. done. }
    rewrite Ep in Hq. pose proof (iv_eq _ _ Hq) as Ey. destruct Hq as [Fy _]. destruct (Hlog y Fy) as [Fl Hl]; [lra|].
    rewrite Ey, ln_1, Rmult_0_r, Rminus_0_r in Hl. pose proof (Rabs_pos (f2r (glog y))) as H0.
    assert (f2r (glog y) = 0) as E0. { destruct (Req_dec (f2r (glog y)) 0) as [|Hn]; [done|]. pose proof (Rabs_pos_lt _ Hn). lra. }
    pose proof (f_of_Z_iv (2 ^ p) ltac:(lia)) as Hm.
    assert (iv (lin_t p (2 ^ p)) 0 0) as Ht.
    { unfold lin_t. fold y. eapply (fmul_iv _ _ _ _ 0 0 0 0 0); [exact Hm|split; [done|lra]|apply (IZR_le 0); lia|lra|apply generic_format_0|lra|apply generic_format_0|lra|lia|apply bpow_ge_0]. }
    unfold lin_n. rewrite (iv_eq _ _ Ht). change 0 with (IZR 0). by rewrite Zceil_IZR.
  Qed.
  (** one register in use *)
  Lemma ln_one m : 16 <= m → 1 + / (8 * m) <= m * ln (m / (m - 1)) <= 16 / 15.
  Proof.
    intros Hm. assert (0 < m / (m - 1)) as Hq by (apply Rdiv_lt_0_compat; lra). split.
    - set (x := / m). assert (x * m = 1) as Ex by (apply Rinv_l; lra). assert (0 < x) by (apply Rinv_0_lt_compat; lra). assert (x <= / 16) by (apply Rinv_le_contravar; lra).
      assert (x + x * x / 8 <= ln (m / (m - 1))) as H1.
      { set (d := x + x * x / 8). assert (m / (m - 1) = / (1 - x)) as -> by (unfold x; field; lra).
        rewrite ln_Rinv by lra. apply Ropp_le_cancel. rewrite Ropp_involutive.
        rewrite <- (ln_exp (- d)). 
        assert (1 - x <= exp (- d)) as He.
        { replace (- d) with (- d / 2 + - d / 2) by lra. rewrite exp_plus. pose proof (exp_ineq1_le (- d / 2)) as H2.
          assert (0 <= 1 + - d / 2) by (unfold d; nra).
          apply (Rle_trans _ ((1 + - d / 2) * (1 + - d / 2))); [|apply Rmult_le_compat; lra].
          unfold d. nra. }
        destruct (Rle_lt_or_eq_dec _ _ He) as [H2|H2]; [left; apply ln_increasing; lra|rewrite H2; lra]. }
      replace (/ (8 * m)) with (x / 8) by (unfold x; field; lra).
      apply (Rle_trans _ (m * (x + x * x / 8))); [|apply Rmult_le_compat_l; lra]. nra.
    - pose proof (ln_upper _ Hq) as H. apply (Rle_trans _ (m * (m / (m - 1) - 1))); [apply Rmult_le_compat_l; lra|].
      replace (m * (m / (m - 1) - 1)) with (1 + / (m - 1)) by (field; lra).
      assert (/ (m - 1) <= / 15) by (apply Rinv_le_contravar; lra). lra.
  Qed.
  Lemma lin_n_one p : (4 <= p <= 18)%Z → lin_n p (2 ^ p - 1) = 2%Z.
  Proof.
    intros Hp. assert (2 ^ 4 <= 2 ^ p <= 2 ^ 18)%Z as Hp18 by (split; apply Z.pow_le_mono_r; lia).
    destruct (linear_err glog Hlog p (2 ^ p - 1) Hp ltac:(lia)) as (_ & He & _). fold (lin_t p (2 ^ p - 1)) in He. apply Rabs_le_inv in He.
    assert (16 <= IZR (2 ^ p)) as H16 by (apply IZR_le; lia). assert (IZR (2 ^ p) <= pw 18) as H18 by (rewrite pw_IZR by lia; apply IZR_le; lia).
    pose proof (ln_one _ H16) as [H1 H2]. unfold linear_counting in He. rewrite minus_IZR in He. 
    assert (pw (-21) <= / (8 * IZR (2 ^ p))) as H3.
    { change (-21)%Z with (Z.opp 21). rewrite bpow_opp. apply Rinv_le_contravar; [lra|]. change 21%Z with (18 + 1 + 1 + 1)%Z. rewrite !pw_S. lra. }
    assert (pw (-27) < pw (-21)) by (apply bpow_lt; lia). assert (pw (-27) <= / 4) by (change (/ 4) with (pw (-2)); apply bpow_le; lia).
    apply Zceil_imp. change (2 - 1)%Z with 1%Z. lra.
  Qed.

  (** ** statements about the items added *)
  Lemma buckets_hit_nonneg p vs : (0 <= buckets_hit p vs)%Z. Proof. unfold buckets_hit. lia. Qed.
  Lemma Count_after_total p vs : (4 <= p <= 18)%Z → Forall is_bytes vs → ∃ n, Count_after glog p vs n.
  Proof.
    intros Hp Hvs. destruct (New_Adds_hit p vs Hp Hvs) as (c0 & c & E0 & E & Hc & _). destruct (Count_total glog c p Hc) as (n & Hn). exists n, c0, c. done.
  Qed.
  Lemma Count_after_functional p vs n n' : Count_after glog p vs n → Count_after glog p vs n' → n = n'.
  Proof. intros (c0 & c & E0 & E & H) (c0' & c' & E0' & E' & H'). rewrite E0 in E0'. injection E0' as <-. rewrite E in E'. injection E' as <-. eapply Count_functional; eauto. Qed.
  Lemma Count_after_low p vs : (4 <= p <= 18)%Z → Forall is_bytes vs → (buckets_hit p vs < 2 ^ p)%Z →
    (lin_n p (2 ^ p - buckets_hit p vs) <= linear_limit p)%Z → Count_after glog p vs (lin_n p (2 ^ p - buckets_hit p vs)).
  Proof.
    intros Hp Hvs Hb Hle. destruct (New_Adds_hit p vs Hp Hvs) as (c0 & c & E0 & E & Hc & Hem & _). exists c0, c. split; [done|]. split; [done|].
    rewrite <- Hem in *. apply Count_low; [done|lia|done].
  Qed.
  Lemma Count_empty p : (4 <= p <= 18)%Z → Count_after glog p [] 0.
  Proof.
    intros Hp. pose proof (limit_bound p Hp). pose proof (Count_after_low p [] Hp (Forall_nil_2 _)) as H1. change (buckets_hit p []) with 0%Z in H1.
    rewrite Z.sub_0_r, lin_n_full in H1 by done. assert (0 < 2 ^ p)%Z by lia. apply H1; lia.
  Qed.
  Lemma remove_dups_same {A} `{EqDecision A} (x : A) l : l ≠ [] → (∀ y, y ∈ l → y = x) → remove_dups l = [x].
  Proof.
    induction l as [|y l IH]; [done|]. intros _ H. assert (y = x) as -> by (apply H; left). cbn [remove_dups].
    destruct (decide_rel _ x l) as [Hin|Hin]; [apply IH; [by intros ->; apply elem_of_nil in Hin|intros z Hz; apply H; by right]|].
    destruct l as [|z l]; [done|]. exfalso. apply Hin. rewrite <- (H z) by (right; left). left.
  Qed.
  Lemma Count_one p vs v : (4 <= p <= 18)%Z → is_bytes v → vs ≠ [] → (∀ u, u ∈ vs → u = v) → Count_after glog p vs 2.
  Proof.
    intros Hp Hv Hne Hall. pose proof (limit_bound p Hp). assert (Forall is_bytes vs) as Hvs by (apply Forall_forall; intros u Hu; by rewrite (Hall u Hu)).
    assert (buckets_hit p vs = 1%Z) as Hb.
    { unfold buckets_hit. rewrite (remove_dups_same (hll_bucket p (fnv1_spec v))); [done|by destruct vs|]. intros y (u & -> & Hu)%elem_of_list_fmap. by rewrite (Hall u Hu). }
    assert (2 ^ 4 <= 2 ^ p)%Z by (apply Z.pow_le_mono_r; lia).
    pose proof (Count_after_low p vs Hp Hvs) as H1. rewrite Hb, lin_n_one in H1 by done. apply H1; lia.
  Qed.
End log.
