From Verif Require Import Base BaseProofs FnvModel FnvSpec FnvProofs BitbucketModel BitbucketSpec BitbucketProofs
  BitbucketSerProofs BitbucketTop HllModel HllSpec.
From Coq Require Import ZifyBool ZifyNat.
Ltac Zify.zify_post_hook ::= Z.div_mod_to_equations.

(** a collection whose buckets fill its bytes exactly is determined by its values *)
Lemma bytes_ext (d1 d2 : bytes) : is_bytes d1 → is_bytes d2 → length d1 = length d2 →
  (∀ j, 0 ≤ j < 8 * Z.of_nat (length d1) → dbit d1 j = dbit d2 j) → d1 = d2.
Proof.
  intros H1 H2 Hl Hd. apply list_eq. intros i. destruct (decide (i < length d1)%nat) as [Hi|Hi].
  - rewrite (list_lookup_lookup_total_lt d1 i), (list_lookup_lookup_total_lt d2 i) by lia. f_equal.
    apply Z.bits_inj'. intros k Hk. destruct (Z.ltb_spec k 8) as [Hk8|Hk8].
    + specialize (Hd (8 * Z.of_nat i + (7 - k)) ltac:(lia)). unfold dbit in Hd.
      replace ((8 * Z.of_nat i + (7 - k)) / 8) with (Z.of_nat i) in Hd by lia.
      replace (7 - (8 * Z.of_nat i + (7 - k)) mod 8) with k in Hd by lia.
      rewrite Nat2Z.id in Hd. exact Hd.
    + rewrite !testbit_byte; [done|by apply lookup_total_is_byte; [|lia]|lia|by apply lookup_total_is_byte|lia].
  - rewrite !lookup_ge_None_2 by lia. done.
Qed.
Lemma bvals_inj b1 b2 n : wf b1 n → wf b2 n → bb_w b1 = bb_w b2 → (Z.of_nat n * bb_w b1) mod 8 = 0 →
  (∀ i, (i < n)%nat → bval b1 i = bval b2 i) → b1 = b2.
Proof.
  intros H1 H2 Hw Hm Hv.
  assert (bb_data b1 = bb_data b2) as Hd.
  { apply bytes_ext; [apply (wf_bytes _ _ H1)|apply (wf_bytes _ _ H2)|by rewrite (wf_len _ _ H1), (wf_len _ _ H2), Hw|].
    intros j Hj. rewrite (wf_len _ _ H1), dlen_Z in Hj by apply (wf_size _ _ H1).
    destruct (wf_size _ _ H1) as [Hw8 Hsz].
    pose proof (Z.div_mod (Z.of_nat n * bb_w b1) 8 ltac:(lia)) as Hdm.
    assert (Hjn : j < Z.of_nat n * bb_w b1) by lia.
    pose proof (Z.div_mod j (bb_w b1) ltac:(lia)) as Hj1.
    pose proof (Z.mod_pos_bound j (bb_w b1) ltac:(lia)) as Hj2.
    assert (Hi : 0 ≤ j / bb_w b1 < Z.of_nat n).
    { split; [apply Z.div_pos; lia|apply Z.div_lt_upper_bound; lia]. }
    specialize (Hv (Z.to_nat (j / bb_w b1)) ltac:(lia)).
    destruct (off_ok n (bb_w b1) (Z.to_nat (j / bb_w b1)) (wf_size _ _ H1) ltac:(lia)) as (_ & O1 & O2).
    apply (f_equal (λ x, Z.testbit x (bb_w b1 - 1 - j mod bb_w b1))) in Hv. cbv beta in Hv.
    unfold bval in Hv. rewrite <- Hw in Hv.
    rewrite !field_bit in Hv;
      [|apply (wf_bytes _ _ H2)|lia|lia|rewrite (wf_len _ _ H2), <- Hw; lia|lia
       |apply (wf_bytes _ _ H1)|lia|lia|rewrite (wf_len _ _ H1); lia|lia].
    replace (bb_w b1 - 1 - j mod bb_w b1 <? bb_w b1) with true in Hv by lia.
    rewrite Z2Nat.id in Hv by lia.
    replace (j / bb_w b1 * bb_w b1 + bb_w b1 - 1 - (bb_w b1 - 1 - j mod bb_w b1)) with j in Hv by nia.
    exact Hv. }
  pose proof (wf_n _ _ H1) as N1. pose proof (wf_n _ _ H2) as N2.
  destruct b1, b2; simpl in *. congruence.
Qed.

(** ** Add *)
Lemma p_cases (P : Z → Prop) : (∀ p, p ∈ [4;5;6;7;8;9;10;11;12;13;14;15;16;17;18] → P p) → ∀ p, 4 ≤ p ≤ 18 → P p.
Proof. intros H p Hp. apply H. rewrite !elem_of_cons. lia. Qed.
Lemma mask_shift p : 4 ≤ p ≤ 18 → Z.shiftr (hll_mask p) (64 - p) = Z.ones p.
Proof. 
  revert p. apply p_cases. intros p Hp.
  assert (H : Forall (λ p, Z.shiftr (hll_mask p) (64 - p) = Z.ones p) [4;5;6;7;8;9;10;11;12;13;14;15;16;17;18])
    by (repeat constructor).
  rewrite Forall_forall in H. by apply H.
Qed.
Lemma bucket_range p h : 4 ≤ p ≤ 18 → 0 ≤ h < 2^64 → 0 ≤ hll_bucket p h < 2^p.
Proof.
  intros Hp Hh. unfold hll_bucket. split; [apply Z.div_pos; [lia|apply Z.pow_pos_nonneg; lia]|].
  apply Z.div_lt_upper_bound; [apply Z.pow_pos_nonneg; lia|]. rewrite <- Z.pow_add_r by lia.
  replace (64 - p + p) with 64 by lia. lia.
Qed.
Lemma idx_Ok p h : 4 ≤ p ≤ 18 → 0 ≤ h < 2^64 →
  s64 (Z.shiftr (Z.land h (hll_mask p)) (u8 (64 - p))) = hll_bucket p h.
Proof.
  intros Hp Hh. rewrite u8_small by lia. rewrite Z.shiftr_land, mask_shift, Z.land_ones by lia.
  rewrite Z.shiftr_div_pow2 by lia. fold (hll_bucket p h).
  pose proof (bucket_range p h Hp Hh) as Hr. rewrite Z.mod_small by done.
  apply s64_small. assert (2^p ≤ 2^18) by (apply Z.pow_le_mono_r; lia). lia.
Qed.
Lemma land_pow2 h k : 0 ≤ k → (Z.land h (2^k) =? 0) = negb (Z.testbit h k).
Proof.
  intros Hk. destruct (Z.testbit h k) eqn:E; simpl.
  - apply Z.eqb_neq. intros H. apply (f_equal (λ x, Z.testbit x k)) in H.
    rewrite Z.land_spec, E, Z.pow2_bits_true, Z.testbit_0_l in H by lia. done.
  - apply Z.eqb_eq. apply Z.bits_inj'. intros n Hn. rewrite Z.land_spec, Z.testbit_0_l.
    rewrite Z.pow2_bits_eqb by lia. destruct (Z.eqb_spec k n) as [->|]; [by rewrite E|apply andb_false_r].
Qed.
Lemma rho_Ok h n : ∀ rho, 0 ≤ rho → rho + Z.of_nat n < 256 →
  hll_rho h (match n with O => 0 | S n => 2 ^ Z.of_nat n end) rho n = rho + leading_zeros n h.
Proof.
  induction n as [|n IH]; intros rho Hr Hn; cbn [hll_rho leading_zeros]; [lia|].
  rewrite land_pow2 by lia. rewrite negb_involutive. destruct (Z.testbit h (Z.of_nat n)); [lia|].
  rewrite u8_small by lia.
  replace (Z.shiftr (2 ^ Z.of_nat n) 1) with (match n with O => 0 | S n => 2 ^ Z.of_nat n end).
  - rewrite IH by lia. lia.
  - destruct n as [|n]; [done|]. rewrite Z.shiftr_div_pow2 by lia.
    replace (Z.of_nat (S n)) with (Z.of_nat n + 1) by lia. rewrite Z.pow_add_r by lia. rewrite Z.div_mul; [done|lia].
Qed.
Lemma leading_zeros_range n x : 0 ≤ leading_zeros n x ≤ Z.of_nat n.
Proof. induction n as [|n IH]; cbn [leading_zeros]; [lia|]. destruct (Z.testbit x (Z.of_nat n)); lia. Qed.
Lemma rank_range p h : 4 ≤ p ≤ 18 → 1 ≤ hll_rank p h ≤ 65 - p.
Proof. intros Hp. unfold hll_rank. pose proof (leading_zeros_range (Z.to_nat (64 - p)) h). lia. Qed.
Lemma rho_rank p h : 4 ≤ p ≤ 18 → hll_rho h (shl64 1 (u8 (63 - p))) 1 (Z.to_nat (64 - p)) = hll_rank p h.
Proof.
  intros Hp. unfold hll_rank. rewrite <- (rho_Ok h _ 1) by lia. f_equal.
  destruct (Z.to_nat (64 - p)) as [|n] eqn:E; [lia|]. replace (Z.of_nat n) with (63 - p) by lia.
  unfold shl64. rewrite u8_small by lia. rewrite Z.shiftl_1_l. apply u64_small.
  split; [apply Z.pow_nonneg; lia|apply Z.pow_lt_mono_r; lia].
Qed.

Lemma hll_size_Z p : 4 ≤ p ≤ 18 → Z.of_nat (hll_size p) = 2^p.
Proof. intros. unfold hll_size. rewrite Z2Nat.id; [done|]. apply Z.pow_nonneg; lia. Qed.
Lemma hll_size_ok p : 4 ≤ p ≤ 18 → size_ok (hll_size p) 6.
Proof.
  intros Hp. split; [lia|]. rewrite hll_size_Z by done. assert (2^p ≤ 2^18) by (apply Z.pow_le_mono_r; lia). lia.
Qed.

(** registers of a counter as values *)
Definition hreg (c : Counter) (j : nat) : Z := bval (hc_bits c) j.
Definition bucket_of p (v : bytes) : Z := hll_bucket p (fnv1_spec v).
Definition rank_of p (v : bytes) : Z := hll_rank p (fnv1_spec v).

Lemma fnv1_range v : is_bytes v → 0 ≤ fnv1_spec v < 2^64.
Proof. intros Hv. rewrite <- Sum64_spec. by apply Sum64_range. Qed.

Lemma Add_Ok c p v : hll_wf c p → is_bytes v →
  ∃ c', Hll_Add c v = Ok c' ∧ hll_wf c' p ∧
    ∀ j, (j < hll_size p)%nat → hreg c' j =
      (if decide (bucket_of p v = Z.of_nat j) then Z.max (hreg c j) (rank_of p v) else hreg c j).
Proof.
  intros (Hp & Hcp & Hcm & Hwf & Hw) Hv. pose proof (fnv1_range v Hv) as Hh.
  unfold Hll_Add. rewrite Sum64_spec, Hcp, Hcm, idx_Ok, rho_rank by done.
  pose proof (bucket_range p _ Hp Hh) as Hb. pose proof (rank_range p (fnv1_spec v) Hp) as Hr.
  set (j0 := Z.to_nat (hll_bucket p (fnv1_spec v))).
  assert (Hj0 : (j0 < hll_size p)%nat) by (unfold hll_size; lia).
  replace (hll_bucket p (fnv1_spec v)) with (Z.of_nat j0) by lia.
  rewrite (Get_Ok _ _ j0 Hwf Hj0). cbn [obind].
  destruct (Z.ltb_spec (bval (hc_bits c) j0) (hll_rank p (fnv1_spec v))) as [Hlt|Hge].
  - rewrite (Set_Ok _ _ _ _ Hwf Hj0) by lia. cbn [obind]. rewrite Hw. change (cap 6) with 63.
    rewrite Z.min_l by lia. eexists. split; [done|].
    assert (Hc : 0 ≤ hll_rank p (fnv1_spec v) ≤ cap (bb_w (hc_bits c))) by (rewrite Hw; change (cap 6) with 63; lia).
    split.
    + unfold hll_wf. cbn [hc_p hc_mask hc_bits]. split; [done|]. split; [done|]. split; [done|]. split; [by apply bput_wf|done].
    + intros j Hj. unfold hreg. cbn [hc_bits]. unfold bucket_of, rank_of.
      destruct (decide (hll_bucket p (fnv1_spec v) = Z.of_nat j)) as [E|E].
      * assert (j0 = j) as <- by lia. rewrite (bput_same _ _ _ _ Hwf Hj0 Hc). lia.
      * apply (bput_other _ _ _ _ _ Hwf Hj0 Hj); [lia|done].
  - exists c. split; [done|]. split; [done|]. intros j Hj. unfold hreg, bucket_of, rank_of.
    destruct (decide (hll_bucket p (fnv1_spec v) = Z.of_nat j)) as [E|E]; [|done].
    assert (j0 = j) as <- by lia. lia.
Qed.

(** ** the specification's registers *)
Lemma fold_max_app l k : fold_right Z.max 0 (l ++ k) = Z.max (fold_right Z.max 0 l) (fold_right Z.max 0 k).
Proof.
  induction l as [|x l IH]; cbn [fold_right app].
  - assert (0 ≤ fold_right Z.max 0 k) by (induction k; simpl; lia). lia.
  - rewrite IH. lia.
Qed.
Lemma fold_max_nonneg l : 0 ≤ fold_right Z.max 0 l.
Proof. induction l; simpl; lia. Qed.
Lemma register_snoc p vs v j : hll_register p (vs ++ [v]) j =
  Z.max (hll_register p vs j) (if decide (bucket_of p v = j) then Z.max (rank_of p v) 0 else 0).
Proof.
  unfold hll_register. rewrite map_app, filter_app, map_app, fold_max_app. f_equal.
  simpl. rewrite filter_cons, filter_nil. unfold bucket_of.
  destruct (decide (hll_bucket p (fnv1_spec v) = j)); done.
Qed.
Lemma register_nonneg p vs j : 0 ≤ hll_register p vs j.
Proof. apply fold_max_nonneg. Qed.
Lemma fold_max_le l x : x ∈ l → x ≤ fold_right Z.max 0 l.
Proof. induction 1; simpl; lia. Qed.
Lemma fold_max_bound l B : 0 ≤ B → (∀ x, x ∈ l → x ≤ B) → fold_right Z.max 0 l ≤ B.
Proof.
  intros HB. induction l as [|x l IH]; intros H; simpl; [done|].
  apply Z.max_lub; [apply H; left|apply IH; intros; apply H; by right].
Qed.
Lemma register_mono p vs us j : (∀ v, v ∈ vs → v ∈ us) → hll_register p vs j ≤ hll_register p us j.
Proof.
  intros Hsub. unfold hll_register. apply fold_max_bound; [apply fold_max_nonneg|].
  intros x Hx. apply fold_max_le. apply elem_of_list_fmap in Hx. destruct Hx as (h & -> & Hh).
  apply elem_of_list_filter in Hh. destruct Hh as [Hb Hh]. apply elem_of_list_fmap in Hh. destruct Hh as (v & -> & Hv).
  apply elem_of_list_fmap. eexists. split; [done|]. apply elem_of_list_filter. split; [done|].
  apply elem_of_list_fmap. exists v. auto.
Qed.
Lemma register_bound p vs j : 4 ≤ p ≤ 18 → 0 ≤ hll_register p vs j ≤ 65 - p.
Proof.
  intros Hp. split; [apply register_nonneg|]. apply fold_max_bound; [lia|].
  intros x Hx. apply elem_of_list_fmap in Hx. destruct Hx as (h & -> & _). apply rank_range. done.
Qed.
(** the register is the maximum: attained, or zero when the bucket is empty *)
Lemma register_max p vs j : 4 ≤ p ≤ 18 →
  (∀ v, v ∈ vs → hll_bucket p (fnv1_spec v) = j → hll_rank p (fnv1_spec v) ≤ hll_register p vs j) ∧
  ((∃ v, v ∈ vs ∧ hll_bucket p (fnv1_spec v) = j ∧ hll_register p vs j = hll_rank p (fnv1_spec v)) ∨
   ((∀ v, v ∈ vs → hll_bucket p (fnv1_spec v) ≠ j) ∧ hll_register p vs j = 0)).
Proof.
  intros Hp. induction vs as [|v vs IH] using rev_ind.
  - split; [by intros v ?%elem_of_nil|]. right. split; [by intros v ?%elem_of_nil|done].
  - destruct IH as [IH1 IH2]. rewrite register_snoc. unfold bucket_of, rank_of.
    pose proof (rank_range p (fnv1_spec v) Hp) as Hr.
    pose proof (register_nonneg p vs j) as Hn.
    destruct (decide (hll_bucket p (fnv1_spec v) = j)) as [E|E].
    + split.
      * intros u [Hu| ->%elem_of_list_singleton]%elem_of_app Hb; [specialize (IH1 u Hu Hb)|]; lia.
      * left. destruct (Z.max_spec (hll_register p vs j) (Z.max (hll_rank p (fnv1_spec v)) 0)) as [[H1 H2]|[H1 H2]]; rewrite H2.
        -- exists v. rewrite elem_of_app, elem_of_list_singleton. split_and!; [auto|done|lia].
        -- destruct IH2 as [(u & Hu & Hb & Eq)|[_ H0]]; [|lia].
           exists u. rewrite elem_of_app. auto.
    + rewrite Z.max_l by lia. split.
      * intros u [Hu| ->%elem_of_list_singleton]%elem_of_app Hb; [by apply IH1|done].
      * destruct IH2 as [(u & Hu & Hb & Eq)|[Hno H0]].
        -- left. exists u. rewrite elem_of_app. auto.
        -- right. split; [|done]. intros u [Hu| ->%elem_of_list_singleton]%elem_of_app; [by apply Hno|done].
Qed.

Lemma Adds_Ok p vs : ∀ c us, hll_wf c p → (∀ j, (j < hll_size p)%nat → hreg c j = hll_register p us (Z.of_nat j)) →
  Forall is_bytes vs →
  ∃ c', Hll_Adds c vs = Ok c' ∧ hll_wf c' p ∧
    ∀ j, (j < hll_size p)%nat → hreg c' j = hll_register p (us ++ vs) (Z.of_nat j).
Proof.
  induction vs as [|v vs IH]; intros c us Hc Hus Hvs; cbn [Hll_Adds].
  - exists c. rewrite app_nil_r. done.
  - inversion_clear Hvs as [|? ? Hv Hvs']. destruct (Add_Ok c p v Hc Hv) as (c1 & E1 & Hc1 & Hr1).
    rewrite E1. cbn [obind]. destruct (IH c1 (us ++ [v]) Hc1) as (c2 & E2 & Hc2 & Hr2); [|done|].
    + intros j Hj. rewrite Hr1, register_snoc by done.
      pose proof (rank_range p (fnv1_spec v) ltac:(apply Hc)) as Hr. unfold rank_of.
      pose proof (register_nonneg p us (Z.of_nat j)).
      rewrite Hus by done. destruct (decide _); lia.
    + exists c2. rewrite <- app_assoc in Hr2. done.
Qed.
Lemma New_Ok p : 4 ≤ p ≤ 18 → ∃ c, Hll_New p = Ok c ∧ hll_wf c p ∧ ∀ j, (j < hll_size p)%nat → hreg c j = 0.
Proof.
  intros Hp. unfold Hll_New. replace ((p <? 4) || (18 <? p)) with false by lia.
  destruct (wf_New (hll_size p) 6 (hll_size_ok p Hp)) as (b & E & Hwf & Hw & Hv).
  rewrite Z.shiftl_1_l. rewrite hll_size_Z in E by done. rewrite E. cbn [obind]. eexists. split; [done|]. split.
  - unfold hll_wf. cbn [hc_p hc_mask hc_bits]. tauto.
  - intros j Hj. unfold hreg. cbn [hc_bits]. pose proof (bvals_lookup b _ j Hj) as H. rewrite Hv in H.
    apply lookup_replicate in H. naive_solver.
Qed.
Lemma New_panics p : ¬ 4 ≤ p ≤ 18 → Hll_New p = Panic.
Proof. intros. unfold Hll_New. replace ((p <? 4) || (18 <? p)) with true by lia. done. Qed.

Lemma New_Adds p vs : 4 ≤ p ≤ 18 → Forall is_bytes vs →
  ∃ c0 c, Hll_New p = Ok c0 ∧ Hll_Adds c0 vs = Ok c ∧ hll_wf c p ∧
    ∀ j, (j < hll_size p)%nat → BB_Get (hc_bits c) (Z.of_nat j) = Ok (hll_register p vs (Z.of_nat j)).
Proof.
  intros Hp Hvs. destruct (New_Ok p Hp) as (c0 & E0 & Hc0 & Hr0).
  destruct (Adds_Ok p vs c0 [] Hc0 ltac:(intros j Hj; rewrite Hr0; done) Hvs) as (c & E & Hc & Hr).
  exists c0, c. split_and!; [done|done|apply Hc ..|].
  intros j Hj. destruct Hc as (_ & _ & _ & Hwf & _). rewrite (Get_Ok _ _ _ Hwf Hj). f_equal. apply Hr. done.
Qed.

Lemma hll_ext c1 c2 p : hll_wf c1 p → hll_wf c2 p → (∀ j, (j < hll_size p)%nat → hreg c1 j = hreg c2 j) → c1 = c2.
Proof.
  intros (Hp & P1 & M1 & W1 & B1) (_ & P2 & M2 & W2 & B2) Hr.
  assert (hc_bits c1 = hc_bits c2) as Hb.
  { apply (bvals_inj _ _ (hll_size p)); [done|done|congruence| |done].
    rewrite B1, hll_size_Z by done. replace p with (4 + (p - 4)) by lia. rewrite Z.pow_add_r by lia.
    change (2^4) with 16. replace (16 * 2 ^ (p - 4) * 6) with (12 * 2 ^ (p - 4) * 8) by lia. apply Z.mod_mul. lia. }
  destruct c1, c2; simpl in *. congruence.
Qed.
Lemma same_set_same_state p vs us : 4 ≤ p ≤ 18 → Forall is_bytes vs → Forall is_bytes us →
  (∀ v, v ∈ vs ↔ v ∈ us) →
  ∃ c0 c, Hll_New p = Ok c0 ∧ Hll_Adds c0 vs = Ok c ∧ Hll_Adds c0 us = Ok c.
Proof.
  intros Hp Hvs Hus Hset. destruct (New_Ok p Hp) as (c0 & E0 & Hc0 & Hr0).
  destruct (Adds_Ok p vs c0 [] Hc0 ltac:(intros j Hj; rewrite Hr0; done) Hvs) as (c1 & E1 & Hc1 & Hr1).
  destruct (Adds_Ok p us c0 [] Hc0 ltac:(intros j Hj; rewrite Hr0; done) Hus) as (c2 & E2 & Hc2 & Hr2).
  exists c0, c1. split_and!; [done|done|]. rewrite E2. f_equal. apply (hll_ext c2 c1 p); [done|done|].
  intros j Hj. rewrite Hr1, Hr2 by done. simpl. apply Z.le_antisymm; apply register_mono; naive_solver.
Qed.
(** adding an item twice, on arbitrary registers *)
Lemma Add_idem c p v c1 : hll_wf c p → is_bytes v → Hll_Add c v = Ok c1 → Hll_Add c1 v = Ok c1.
Proof.
  intros Hc Hv E. destruct (Add_Ok c p v Hc Hv) as (c1' & E1 & Hc1 & Hr1). rewrite E in E1. injection E1 as <-.
  destruct (Add_Ok c1 p v Hc1 Hv) as (c2 & E2 & Hc2 & Hr2). rewrite E2. f_equal. apply (hll_ext c2 c1 p); [done|done|].
  intros j Hj. rewrite Hr2, !Hr1 by done. destruct (decide _); lia.
Qed.
Lemma Add_comm c p v u c1 c2 : hll_wf c p → is_bytes v → is_bytes u →
  Hll_Adds c [v; u] = Ok c1 → Hll_Adds c [u; v] = Ok c2 → c1 = c2.
Proof.
  intros Hc Hv Hu. cbn [Hll_Adds].
  destruct (Add_Ok c p v Hc Hv) as (cv & Ev & Hcv & Hrv). rewrite Ev. cbn [obind].
  destruct (Add_Ok cv p u Hcv Hu) as (cvu & Evu & Hcvu & Hrvu). rewrite Evu. cbn [obind].
  destruct (Add_Ok c p u Hc Hu) as (cu & Eu & Hcu & Hru). rewrite Eu. cbn [obind].
  destruct (Add_Ok cu p v Hcu Hv) as (cuv & Euv & Hcuv & Hruv). rewrite Euv. cbn [obind].
  intros [= <-] [= <-]. apply (hll_ext _ _ p); [done|done|].
  intros j Hj. rewrite Hrvu, Hrv, Hruv, Hru by done.
  destruct (decide (bucket_of p v = Z.of_nat j)); destruct (decide (bucket_of p u = Z.of_nat j)); lia.
Qed.

(** ** the histogram of poisson *)
Definition histo (n : nat) (rs : list Z) : list Z := map (λ r, count_eq (Z.of_nat r) rs) (seq 0 n).
Lemma count_eq_cons v x l : count_eq v (x :: l) = (if decide (x = v) then 1 else 0) + count_eq v l.
Proof. unfold count_eq. rewrite filter_cons. destruct (decide (x = v)); cbn [length]; lia. Qed.
Lemma hist_loop_Ok c p : hll_wf c p → (∀ j, (j < hll_size p)%nat → hreg c j ≤ 63) →
  ∀ k i cn, (i + k = hll_size p)%nat → length cn = 64%nat →
  ∃ cn', hll_hist_loop c k (Z.of_nat i) cn = Ok cn' ∧ length cn' = 64%nat ∧
    ∀ r, (r < 64)%nat → cn' !!! r = cn !!! r + count_eq (Z.of_nat r) (drop i (bvals (hc_bits c) (hll_size p))).
Proof.
  intros Hc Hle. destruct Hc as (Hp & _ & _ & Hwf & Hw).
  induction k as [|k IH]; intros i cn Hi Hl; cbn [hll_hist_loop].
  - exists cn. split_and!; [done|done|]. intros r Hr. rewrite drop_ge by (rewrite bvals_length; lia).
    unfold count_eq. simpl. lia.
  - rewrite (Get_Ok _ _ i Hwf) by lia. cbn [obind].
    pose proof (bval_range _ _ i Hwf ltac:(lia)) as Hr. specialize (Hle i ltac:(lia)). unfold hreg in Hle.
    set (x := bval (hc_bits c) i) in *.
    destruct (lookup_lt_is_Some_2 cn (Z.to_nat x) ltac:(lia)) as [y Hy].
    rewrite (index_lookup cn x y) by (done || lia). cbn [obind].
    rewrite store_Ok by lia. cbn [obind]. replace (Z.of_nat i + 1) with (Z.of_nat (S i)) by lia.
    destruct (IH (S i) (<[Z.to_nat x := y + 1]> cn) ltac:(lia) ltac:(by rewrite insert_length)) as (cn' & E & Hl' & Hc').
    exists cn'. split_and!; [done|done|]. intros r Hr'. rewrite Hc' by done.
    rewrite (drop_S (bvals (hc_bits c) (hll_size p)) x i) by (apply bvals_lookup; lia).
    rewrite count_eq_cons. destruct (decide (x = Z.of_nat r)) as [E'|E'].
    + replace (Z.to_nat x) with r by lia. rewrite list_lookup_total_insert by lia.
      replace (Z.to_nat x) with r in Hy by lia. rewrite (list_lookup_total_correct _ _ _ Hy). lia.
    + rewrite list_lookup_total_insert_ne by lia. lia.
Qed.
Lemma hist_Ok c p : hll_wf c p →
  ∃ cn, hll_hist c = Ok cn ∧ length cn = 64%nat ∧
   ∀ r, (r < 64)%nat → cn !! r = Some (count_eq (Z.of_nat r) (bvals (hc_bits c) (hll_size p))).
Proof.
  intros Hc. unfold hll_hist. assert (Hc' := Hc). destruct Hc as (Hp & Hcp & _ & Hwf & Hw). rewrite Hcp, Z.shiftl_1_l.
  destruct (hist_loop_Ok c p Hc') with (k := hll_size p) (i := 0%nat) (cn := replicate 64 0) as (cn & E & Hl & Hcn).
  - intros j Hj. pose proof (bval_range _ _ j Hwf Hj) as H. rewrite Hw in H. change (cap 6) with 63 in H. unfold hreg. lia.
  - lia.
  - done.
  - exists cn. split; [exact E|]. split; [done|]. intros r Hr. rewrite list_lookup_lookup_total_lt by lia. f_equal.
    rewrite Hcn by done. rewrite lookup_total_replicate_2 by lia. rewrite drop_0. lia.
Qed.

(** ** serialisation *)
Lemma Hll_serial_length p d : length (hll_serial p d) = (12 + length d)%nat.
Proof. unfold hll_serial. rewrite app_length, serial_length. simpl. lia. Qed.
Lemma Hll_ReadFrom_trunc c p c0 r j : hll_wf c p → Z.of_nat j < Hll_Len c →
  delivers r (take j (hll_serial p (bb_data (hc_bits c)))) →
  ∃ c' r', Hll_ReadFrom c0 r = Ok (Z.of_nat j, Some ErrUnexpectedEOF, c', r').
Proof.
  intros (Hp & Hcp & Hcm & Hwf & Hw) Hj Hd. unfold Hll_ReadFrom.
  unfold Hll_Len, HllHdrLen in Hj. assert (Hbl : BB_Len (hc_bits c) = 10 + Z.of_nat (length (bb_data (hc_bits c)))) by (unfold BB_Len, BBhdrLen; lia).
  destruct (decide (j < 2)%nat) as [Hj1|Hj1].
  - assert (Hlt : length (take j (hll_serial p (bb_data (hc_bits c)))) = j) by (rewrite take_length, Hll_serial_length; lia).
    destruct (read_full_delivers_trunc r _ 2 Hd ltac:(lia)) as (r1 & E1). rewrite E1, Hlt.
    destruct (0 <? j)%nat; cbn [noEOF]; by eexists _, _.
  - destruct (read_full_delivers r _ 2 Hd ltac:(rewrite take_length, Hll_serial_length; lia)) as (r1 & E1 & Hd1). rewrite E1.
    rewrite take_take, Nat.min_l by lia. rewrite skipn_firstn_comm in Hd1.
    unfold hll_serial in *. cbn [take app] in *. cbn [drop] in Hd1. rewrite take_0. rewrite drop_0 in Hd1.
    change (index [1; p] 0) with (Ok 1 : outcome Z). cbn [obind].
    change (negb (1 =? HllVersion)) with false. cbn match.
    change (index [1; p] 1) with (Ok p). cbn [obind].
    rewrite <- Hw in Hd1 at 1.
    destruct (ReadFrom_truncated _ _ (hc_bits c0) r1 (j - 2) Hwf ltac:(lia) Hd1) as (b' & r' & E).
    rewrite E. cbn [obind noEOF length]. replace (Z.of_nat 2 + Z.of_nat (j - 2)) with (Z.of_nat j) by lia. by eexists _, _.
Qed.
Lemma Hll_roundtrip c p : hll_wf c p →
  let s := hll_serial p (bb_data (hc_bits c)) in
  Z.of_nat (length s) = Hll_Len c ∧ Hll_Len c = Hll_LenOf p ∧
  (∀ out, Hll_WriteTo c (Writer out None) = (Hll_Len c, None, Writer (out ++ s) None)) ∧
  (∀ c0 r, delivers r s → Hll_ReadFrom c0 r = Ok (Hll_Len c, None, c, [])) ∧
  (∀ rest, Hll_WithBytes (s ++ rest) = Ok c).
Proof.
  intros (Hp & Hcp & Hcm & Hwf & Hw) s. split_and!.
  - unfold s. rewrite Hll_serial_length. unfold Hll_Len, HllHdrLen, BB_Len. lia.
  - unfold Hll_Len, Hll_LenOf. f_equal. pose proof (wf_repr _ _ Hwf) as (_ & _ & _ & _ & _ & HL & _).
    rewrite HL. rewrite bvals_length, Hw. rewrite Z.shiftl_1_l.
    assert (2^p ≤ 2^18) by (apply Z.pow_le_mono_r; lia). assert (0 ≤ 2^p) by (apply Z.pow_nonneg; lia).
    rewrite u64_small, s64_small by lia. rewrite hll_size_Z by done. done.
  - intros out. unfold Hll_WriteTo, write. cbn [w_room w_out].
    rewrite (WriteTo_Ok _ _ _ Hwf). unfold Hll_Len, HllHdrLen, s, hll_serial.
    rewrite Hw, Hcp, <- app_assoc. done.
  - intros c0 r Hd. unfold Hll_ReadFrom.
    destruct (read_full_delivers r _ 2 Hd ltac:(unfold s; rewrite Hll_serial_length; lia)) as (r1 & E1 & Hd1). rewrite E1.
    unfold s, hll_serial in *. cbn [take app] in *. cbn [drop] in Hd1. rewrite take_0. rewrite drop_0 in Hd1.
    change (index [1; p] 0) with (Ok 1 : outcome Z). cbn [obind].
    change (negb (1 =? HllVersion)) with false. cbn match.
    change (index [1; p] 1) with (Ok p). cbn [obind].
    rewrite <- Hw in Hd1 at 1. rewrite (ReadFrom_delivers _ _ _ r1 Hwf Hd1). cbn [obind read].
    unfold Hll_Len, HllHdrLen. cbn [length]. rewrite <- Hcm. rewrite <- Hcp at 1.
    destruct c as [p0 m0 b0]. cbn [hc_p hc_mask hc_bits]. do 4 f_equal. lia.
  - intros rest. unfold Hll_WithBytes, s, hll_serial. rewrite <- app_assoc.
    rewrite (index_lookup _ 0 1) by done. cbn [obind].
    change (negb (1 =? HllVersion)) with false. cbn match.
    rewrite (index_lookup _ 1 p) by done. cbn [obind].
    rewrite slice_Ok by (cbn [app length]; lia). cbn [obind].
    change (Z.to_nat 2) with 2%nat. rewrite take_ge by (rewrite drop_length; lia).
    cbn [app drop]. rewrite drop_0. rewrite <- Hw. rewrite (WithBytes_serial _ _ rest Hwf). cbn [obind].
    rewrite <- Hcm. rewrite <- Hcp at 1. destruct c; done.
Qed.
Lemma Hll_write_through c p rest v : hll_wf c p → is_bytes v →
  let buf := hll_serial p (bb_data (hc_bits c)) ++ rest in
  Hll_WithBytes buf = Ok c ∧
  ∃ c', Hll_Add c v = Ok c' ∧ hll_wf c' p ∧
    Hll_flush buf c' = hll_serial p (bb_data (hc_bits c')) ++ rest ∧
    Hll_WithBytes (Hll_flush buf c') = Ok c'.
Proof.
  intros Hc Hv buf. destruct (Hll_roundtrip c p Hc) as (_ & _ & _ & _ & HW). split; [apply HW|].
  destruct (Add_Ok c p v Hc Hv) as (c' & E & Hc' & _). exists c'. split; [done|]. split; [done|].
  assert (Hf : Hll_flush buf c' = hll_serial p (bb_data (hc_bits c')) ++ rest).
  { destruct Hc as (_ & _ & _ & Hwf & Hw). destruct Hc' as (_ & _ & _ & Hwf' & Hw').
    unfold Hll_flush, buf, hll_serial. cbn [app take drop]. rewrite take_0, drop_0. do 2 f_equal.
    unfold BB_flush, splice, bb_serial. rewrite <- !app_assoc.
    rewrite (app_assoc [1; 6]), (app_assoc [1; 6]).
    rewrite take10_app by (rewrite app_length, put64_length; done).
    rewrite <- drop_drop. rewrite drop10_app by (rewrite app_length, put64_length; done).
    simpl app. do 2 f_equal.
    assert (length (bb_data (hc_bits c')) = length (bb_data (hc_bits c))) as ->
      by (rewrite (wf_len _ _ Hwf), (wf_len _ _ Hwf'), Hw, Hw'; done).
    by rewrite drop_app. }
  split; [done|]. rewrite Hf. destruct (Hll_roundtrip c' p Hc') as (_ & _ & _ & _ & HW'). apply HW'.
Qed.

(** ** the weakness of FNV-1 on last bytes (C18) *)
Lemma fnv1_last_byte pre a : is_bytes pre → is_byte a → 
  fnv1_spec (pre ++ [a]) / 256 = fnv1_spec (pre ++ [0]) / 256.
Proof.
  intros Hp Ha. unfold fnv1_spec. rewrite !fold_left_app. cbn [fold_left].
  set (x := (_ * _) mod 2^64). rewrite Z.lxor_0_r. change 256 with (2^8). rewrite <- !Z.shiftr_div_pow2 by lia.
  rewrite Z.shiftr_lxor. rewrite (Z.shiftr_div_pow2 a) by lia. unfold is_byte in Ha. rewrite (Z.div_small a) by (change (2^8) with 256; lia).
  apply Z.lxor_0_r.
Qed.
Lemma same_last_byte_register p pre a b : 4 ≤ p ≤ 18 → is_bytes pre → is_byte a → is_byte b →
  hll_bucket p (fnv1_spec (pre ++ [a])) = hll_bucket p (fnv1_spec (pre ++ [b])).
Proof.
  intros Hp Hpre Ha Hb. unfold hll_bucket.
  replace (2^(64 - p)) with (256 * 2^(56 - p)) by (change 256 with (2^8); rewrite <- Z.pow_add_r by lia; f_equal; lia).
  assert (0 < 2^(56 - p)) by (apply Z.pow_pos_nonneg; lia).
  rewrite <- !Z.div_div by lia. rewrite (fnv1_last_byte pre a), (fnv1_last_byte pre b) by done. done.
Qed.
Lemma same_prefix_one_register p pre l : 4 ≤ p ≤ 18 → is_bytes pre → is_bytes l →
  ∃ j0 c0 c, Hll_New p = Ok c0 ∧ Hll_Adds c0 (map (λ a, pre ++ [a]) l) = Ok c ∧
    ∀ j, (j < hll_size p)%nat → Z.of_nat j ≠ j0 → BB_Get (hc_bits c) (Z.of_nat j) = Ok 0.
Proof.
  intros Hp Hpre Hl. exists (hll_bucket p (fnv1_spec (pre ++ [0]))).
  destruct (New_Adds p (map (λ a, pre ++ [a]) l) Hp) as (c0 & c & E0 & E & _ & HR).
  { apply Forall_forall. intros v Hv. apply elem_of_list_fmap in Hv. destruct Hv as (a & -> & Ha).
    apply is_bytes_app. split; [done|]. constructor; [|constructor]. unfold is_bytes in Hl. rewrite Forall_forall in Hl. by apply Hl. }
  exists c0, c. split_and!; [done|done|]. intros j Hj Hne. rewrite HR by done. f_equal.
  destruct (register_max p (map (λ a, pre ++ [a]) l) (Z.of_nat j) Hp) as [_ [(v & Hv & Hb & _)|[_ H0]]]; [|done].
  apply elem_of_list_fmap in Hv. destruct Hv as (a & -> & Ha). exfalso. apply Hne. rewrite <- Hb.
  apply same_last_byte_register; [done|done| |unfold is_byte; lia]. unfold is_bytes in Hl. rewrite Forall_forall in Hl. by apply Hl.
Qed.
