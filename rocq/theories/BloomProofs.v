From Verif Require Import Base BaseProofs FnvModel FnvSpec FnvProofs BitbucketModel BitbucketSpec BitbucketProofs
  BitbucketSerProofs BitbucketTop BloomModel BloomSpec.
From Coq Require Import ZifyBool ZifyNat.
Ltac Zify.zify_post_hook ::= Z.div_mod_to_equations.

Lemma land_1_even x : (Z.land x 1 =? 0) = Z.even x.
Proof.
  change 1 with (Z.ones 1) at 1. rewrite Z.land_ones by lia. change (2^1) with 2.
  rewrite Zmod_even. destruct (Z.even x); done.
Qed.

Lemma bloom_mod_range m : 1 ≤ m → 1 ≤ bloom_mod m ≤ m.
Proof. intros. unfold bloom_mod. destruct (Z.odd m && (2 <? m)) eqn:E; lia. Qed.

Lemma newHasher_eq v m : is_bytes v → 1 ≤ m < 2^63 →
  newHasher v m = Hasher (fnv1_spec v) (if Z.even (fnv1a_spec v) then fnv1a_spec v + 1 else fnv1a_spec v) (bloom_mod m).
Proof.
  intros Hv Hm. unfold newHasher. cbn [fst Fnv64_Write Fnv64a_Write]. unfold Fnv64_Sum64, Fnv64a_Sum64.
  change (fnv1_loop New64 v) with (Sum64 v). change (fnv1a_loop New64a v) with (Sum64a v).
  rewrite Sum64_spec, !land_1_even.
  pose proof (Sum64a_range v) as Hr. rewrite Sum64a_spec in *.
  assert (Hb : (if Z.even (fnv1a_spec v) then u64 (fnv1a_spec v + 1) else fnv1a_spec v) =
    (if Z.even (fnv1a_spec v) then fnv1a_spec v + 1 else fnv1a_spec v)).
  { destruct (Z.even (fnv1a_spec v)) eqn:Ev; [|done]. apply u64_small.
    rewrite Zeven_mod in Ev. unfold Zeq_bool in Ev. change (2^64) with (2 * 2^63) in *.
    destruct (fnv1a_spec v mod 2 ?= 0) eqn:E2; try discriminate. apply Z.compare_eq in E2.
    lia. }
  rewrite Hb. unfold bloom_mod. rewrite <- Z.negb_even. destruct (Z.even m) eqn:Em; [done|]. simpl.
  destruct (Z.ltb_spec 2 m); [|done]. rewrite s64_small by lia. done.
Qed.

Lemma bloom_seq_range a b m k x : 1 ≤ m → x ∈ bloom_seq a b m k → 0 ≤ x < m.
Proof.
  intros Hm. revert a. induction k as [|k IH]; intros a; simpl; [by intros ?%elem_of_nil|].
  rewrite elem_of_cons. intros [->|H]; [apply Z.mod_pos_bound; lia|by eapply IH].
Qed.
Lemma bloom_positions_range m k v x : 1 ≤ m → x ∈ bloom_positions m k v → 0 ≤ x < m.
Proof.
  intros Hm H. apply bloom_seq_range in H; [|pose proof (bloom_mod_range m Hm); lia].
  pose proof (bloom_mod_range m Hm). lia.
Qed.

Lemma add_loop_Ok n : ∀ bits m a b M, wf bits m → bb_w bits = 1 → 1 ≤ M ≤ Z.of_nat m →
  ∃ bits', bloom_add_loop bits (Hasher a b M) n = Ok bits' ∧ wf bits' m ∧ bb_w bits' = 1 ∧
    ∀ i, (i < m)%nat → BB_Get bits' (Z.of_nat i) =
      (if decide (Z.of_nat i ∈ bloom_seq a b M n) then Ok 1 else BB_Get bits (Z.of_nat i)).
Proof.
  induction n as [|n IH]; intros bits m a b M Hwf Hw HM; cbn [bloom_add_loop].
  - exists bits. split_and!; [done|done|done|]. intros i Hi. rewrite decide_False; [done|]. apply not_elem_of_nil.
  - pose proof (wf_n_range _ _ Hwf) as Hr.
    unfold h_next. cbn [h_m h_a h_b]. rewrite (u64_small M) by lia. replace (M =? 0) with false by lia. cbn [obind].
    pose proof (Z.mod_pos_bound a M ltac:(lia)) as Hp.
    rewrite (s64_small (a mod M)) by lia.
    assert (HX : (Z.to_nat (a mod M) < m)%nat) by lia.
    destruct (Set_get bits m (Z.to_nat (a mod M)) 1 Hwf HX ltac:(lia)) as (b1 & E1 & Hwf1 & Hw1 & Hg1 & Hg2).
    rewrite Z2Nat.id in E1, Hg1 by lia. rewrite E1. cbn [obind]. rewrite Hw in *.
    destruct (IH b1 m (u64 (a + b) mod M) b M Hwf1 Hw1 HM) as (b2 & E2 & Hwf2 & Hw2 & Hg).
    exists b2. split_and!; [done|done|done|]. intros i Hi. rewrite Hg by done. cbn [bloom_seq].
    change (u64 (a + b)) with ((a + b) mod 2^64).
    destruct (decide (Z.of_nat i ∈ bloom_seq (((a + b) mod 2 ^ 64) mod M) b M n)) as [H|H].
    + rewrite decide_True; [done|]. apply elem_of_cons. auto.
    + destruct (decide (Z.of_nat i = a mod M)) as [E|E].
      * rewrite decide_True by (apply elem_of_cons; auto). rewrite E. exact Hg1.
      * rewrite decide_False by (rewrite elem_of_cons; tauto). apply Hg2; [done|lia].
Qed.

Lemma has_loop_Ok n : ∀ bits m a b M (P : Z → Prop) `{!∀ x, Decision (P x)}, wf bits m → 1 ≤ M ≤ Z.of_nat m →
  (∀ i, (i < m)%nat → BB_Get bits (Z.of_nat i) = Ok (if decide (P (Z.of_nat i)) then 1 else 0)) →
  bloom_has_loop bits (Hasher a b M) n = Ok (bool_decide (Forall P (bloom_seq a b M n))).
Proof.
  induction n as [|n IH]; intros bits m a b M P HP Hwf HM Hg; cbn [bloom_has_loop].
  - rewrite bool_decide_true; [done|constructor].
  - pose proof (wf_n_range _ _ Hwf) as Hr.
    unfold h_next. cbn [h_m h_a h_b]. rewrite (u64_small M) by lia. replace (M =? 0) with false by lia. cbn [obind].
    pose proof (Z.mod_pos_bound a M ltac:(lia)) as Hp.
    rewrite (s64_small (a mod M)) by lia.
    pose proof (Hg (Z.to_nat (a mod M)) ltac:(lia)) as E. rewrite Z2Nat.id in E by lia. rewrite E. cbn [obind].
    change (u64 (a + b)) with ((a + b) mod 2^64). cbn [bloom_seq].
    destruct (decide (P (a mod M))) as [H|H]; simpl.
    + rewrite (IH bits m _ b M P HP) by done. f_equal. apply bool_decide_ext. rewrite Forall_cons. tauto.
    + rewrite bool_decide_false; [done|]. rewrite Forall_cons. tauto.
Qed.

(** the state of a filter: the set of its one-bits *)
Definition bstate (b : Bloom) (m : nat) (k : Z) (S : list Z) : Prop :=
  bloom_wf b m k ∧
  ∀ i, (i < m)%nat → BB_Get (bl_bits b) (Z.of_nat i) = Ok (if decide (Z.of_nat i ∈ S) then 1 else 0).
Lemma m_range b m k : bloom_wf b m k → 1 ≤ Z.of_nat m < 2^63.
Proof. intros (Hwf & _ & _ & _ & _ & Hm). pose proof (wf_n_range _ _ Hwf). lia. Qed.

Lemma bstate_Add b m k S v : is_bytes v → bstate b m k S →
  ∃ b', Bloom_Add b v = Ok b' ∧ bstate b' m k (S ++ bloom_positions (Z.of_nat m) (Z.to_nat k) v).
Proof.
  intros Hv [Hb HS]. pose proof (m_range _ _ _ Hb) as Hr. destruct Hb as (Hwf & Hw & Hm & Hk & Hk8 & Hm1).
  unfold Bloom_Add. rewrite Hm, Hk. rewrite newHasher_eq by done.
  destruct (add_loop_Ok (Z.to_nat k) (bl_bits b) m (fnv1_spec v)
     (if Z.even (fnv1a_spec v) then fnv1a_spec v + 1 else fnv1a_spec v) (bloom_mod (Z.of_nat m)) Hwf Hw
     (bloom_mod_range (Z.of_nat m) ltac:(lia))) as (bits' & E & Hwf' & Hw' & Hg).
  rewrite E. cbn [obind]. eexists. split; [done|]. split; [unfold bloom_wf; cbn [bl_bits bl_m bl_k]; tauto|].
  intros i Hi. cbn [bl_bits]. rewrite Hg by done. unfold bloom_positions. cbv zeta.
  rewrite HS by done.
  destruct (decide (Z.of_nat i ∈ bloom_seq _ _ _ _)) as [H1|H1].
  - rewrite decide_True; [done|]. apply elem_of_app. auto.
  - destruct (decide (Z.of_nat i ∈ S)) as [H2|H2].
    + rewrite decide_True; [done|]. apply elem_of_app. auto.
    + rewrite decide_False; [done|]. rewrite elem_of_app. tauto.
Qed.
Lemma bstate_Has b m k S v : is_bytes v → bstate b m k S →
  Bloom_Has b v = Ok (bool_decide (Forall (λ x, x ∈ S) (bloom_positions (Z.of_nat m) (Z.to_nat k) v))).
Proof.
  intros Hv [Hb HS]. pose proof (m_range _ _ _ Hb) as Hr. destruct Hb as (Hwf & Hw & Hm & Hk & Hk8 & Hm1).
  unfold Bloom_Has. rewrite Hm, Hk, newHasher_eq by done.
  apply (has_loop_Ok _ _ m); [done|apply bloom_mod_range; lia|done].
Qed.
Lemma replicate0_get (m : nat) b : wf b m → bvals b m = replicate m 0 → ∀ i, (i < m)%nat → BB_Get b (Z.of_nat i) = Ok 0.
Proof.
  intros Hwf Hv i Hi. rewrite (Get_Ok b m i Hwf Hi). f_equal.
  pose proof (bvals_lookup b m i Hi) as H. rewrite Hv in H. apply lookup_replicate in H. naive_solver.
Qed.
Lemma bstate_Reset b m k S : bstate b m k S → bstate (Bloom_Reset b) m k [].
Proof.
  intros [(Hwf & Hw & Hm & Hk & Hk8 & Hm1) HS]. destruct (wf_Reset _ _ Hwf) as [Hwf' Hv'].
  split; [unfold bloom_wf; cbn [bl_bits bl_m bl_k]; tauto|]. intros i Hi. cbn [bl_bits Bloom_Reset].
  rewrite decide_False by apply not_elem_of_nil.
  apply (replicate0_get m _ Hwf'); [|done]. rewrite Hv'.
  rewrite <- (bvals_length (bl_bits b) m) at 2. generalize (bvals (bl_bits b) m). intros l. induction l; simpl; congruence.
Qed.
Lemma bstate_New m k : (1 ≤ m)%nat → size_ok m 1 → 0 ≤ k < 256 →
  ∃ b, Bloom_NewBits (Z.of_nat m) k = Ok b ∧ bstate b m k [].
Proof.
  intros Hm Hs Hk. destruct (wf_New m 1 Hs) as (b0 & E & Hwf & Hw & Hv).
  unfold Bloom_NewBits. rewrite E. cbn [obind]. eexists. split; [done|]. split; [unfold bloom_wf; cbn [bl_bits bl_m bl_k]; tauto|].
  intros i Hi. rewrite decide_False by apply not_elem_of_nil. by apply (replicate0_get m).
Qed.

Lemma covered_app m k vs us : bloom_covered m k (vs ++ us) = bloom_covered m k vs ++ bloom_covered m k us.
Proof. unfold bloom_covered. by rewrite map_app, concat_app. Qed.
Lemma members_app os o : bloom_members (os ++ [o]) = match o with BAdd v => bloom_members os ++ [v] | BReset => [] end.
Proof. unfold bloom_members. rewrite fold_left_app. done. Qed.

Lemma bloom_ops_app b os o : bloom_ops b (os ++ [o]) = (let! b := bloom_ops b os in bloom_op b o).
Proof.
  revert b. induction os as [|o' os IH]; intros b; simpl; [by destruct (bloom_op b o)|].
  destruct (bloom_op b o'); simpl; [apply IH|done|done].
Qed.
Lemma bstate_ops b m k os : bstate b m k [] → Forall blop_ok os →
  ∃ b', bloom_ops b os = Ok b' ∧ bstate b' m k (bloom_covered (Z.of_nat m) (Z.to_nat k) (bloom_members os)).
Proof.
  intros Hb. induction os as [|o os IH] using rev_ind; intros Hos; [by exists b|].
  apply Forall_app in Hos. destruct Hos as [Hos Ho]. rewrite Forall_singleton in Ho.
  destruct (IH Hos) as (b1 & E1 & Hb1). rewrite bloom_ops_app, E1, members_app. cbn [obind].
  destruct o as [v|]; cbn [bloom_op].
  - destruct (bstate_Add b1 m k _ v Ho Hb1) as (b2 & E2 & Hb2). exists b2. split; [done|].
    rewrite covered_app. replace (bloom_covered (Z.of_nat m) (Z.to_nat k) [v]) with (bloom_positions (Z.of_nat m) (Z.to_nat k) v); [done|].
    unfold bloom_covered. simpl. by rewrite app_nil_r.
  - eexists. split; [done|]. by apply (bstate_Reset _ _ _ _ Hb1).
Qed.

Lemma bloom_history m k os : (1 ≤ m)%nat → size_ok m 1 → 0 ≤ k < 256 → Forall blop_ok os →
  ∃ b0 b, Bloom_NewBits (Z.of_nat m) k = Ok b0 ∧ bloom_ops b0 os = Ok b ∧ bloom_wf b m k ∧
    ∀ v, is_bytes v → Bloom_Has b v = Ok (bool_decide
       (Forall (λ x, x ∈ bloom_covered (Z.of_nat m) (Z.to_nat k) (bloom_members os))
               (bloom_positions (Z.of_nat m) (Z.to_nat k) v))).
Proof.
  intros Hm Hs Hk Hos. destruct (bstate_New m k Hm Hs Hk) as (b0 & E0 & Hb0).
  destruct (bstate_ops b0 m k os Hb0 Hos) as (b & E & Hb). exists b0, b. split_and!; [done|done|apply Hb|].
  intros v Hv. by apply bstate_Has.
Qed.
Lemma no_false_negatives m k os v : (1 ≤ m)%nat → size_ok m 1 → 0 ≤ k < 256 → Forall blop_ok os →
  v ∈ bloom_members os →
  ∃ b0 b, Bloom_NewBits (Z.of_nat m) k = Ok b0 ∧ bloom_ops b0 os = Ok b ∧ Bloom_Has b v = Ok true.
Proof.
  intros Hm Hs Hk Hos Hv. destruct (bloom_history m k os Hm Hs Hk Hos) as (b0 & b & E0 & E & _ & HH).
  exists b0, b. split_and!; [done|done|]. rewrite HH.
  - rewrite bool_decide_true; [done|]. apply Forall_forall. intros x Hx. unfold bloom_covered.
    apply elem_of_list_In, in_concat. exists (bloom_positions (Z.of_nat m) (Z.to_nat k) v).
    split; [|by apply elem_of_list_In]. apply in_map. by apply elem_of_list_In.
  - clear -Hos Hv. revert Hv. induction os as [|o os IH] using rev_ind; [by intros ?%elem_of_nil|].
    apply Forall_app in Hos. destruct Hos as [Hos Ho]. rewrite Forall_singleton in Ho.
    rewrite members_app. destruct o as [u|]; [|by intros ?%elem_of_nil].
    rewrite elem_of_app, elem_of_list_singleton. intros [H| ->]; auto.
Qed.

(** an arbitrary well-formed filter has a state *)
Lemma bstate_any b m k : bloom_wf b m k → bstate b m k
  (filter (λ x, BB_Get (bl_bits b) x = Ok 1) (map Z.of_nat (seq 0 m))).
Proof.
  intros Hb. split; [done|]. intros i Hi. destruct Hb as (Hwf & Hw & _).
  pose proof (bval_range _ _ i Hwf Hi) as Hr. rewrite Hw in Hr. change (cap 1) with 1 in Hr.
  pose proof (Get_Ok _ _ _ Hwf Hi) as E.
  destruct (decide (bval (bl_bits b) i = 1)) as [H|H].
  - rewrite decide_True; [by rewrite E, H|]. apply elem_of_list_filter. split; [by rewrite E, H|].
    apply elem_of_list_In, in_map, in_seq. lia.
  - rewrite decide_False; [rewrite E; f_equal; lia|]. intros [H1 _]%elem_of_list_filter. congruence.
Qed.
Lemma bloom_Add_mono b m k u : bloom_wf b m k → is_bytes u →
  ∃ b', Bloom_Add b u = Ok b' ∧ bloom_wf b' m k ∧ Bloom_Has b' u = Ok true ∧
    ∀ v, is_bytes v → Bloom_Has b v = Ok true → Bloom_Has b' v = Ok true.
Proof.
  intros Hb Hu. pose proof (bstate_any b m k Hb) as Hs.
  destruct (bstate_Add _ _ _ _ u Hu Hs) as (b' & E & Hs'). exists b'. split_and!; [done|apply Hs'| |].
  - rewrite (bstate_Has _ _ _ _ u Hu Hs'). rewrite bool_decide_true; [done|].
    apply Forall_forall. intros x Hx. apply elem_of_app. auto.
  - intros v Hv. rewrite (bstate_Has _ _ _ _ v Hv Hs), (bstate_Has _ _ _ _ v Hv Hs').
    intros H. injection H as H. apply bool_decide_eq_true in H. rewrite bool_decide_true; [done|].
    eapply Forall_impl; [exact H|]. intros x Hx. apply elem_of_app. auto.
Qed.
Lemma positions_nonempty m k v : (1 ≤ k)%nat → bloom_positions m k v ≠ [].
Proof. destruct k; [lia|]. done. Qed.
Lemma bloom_Reset_empty b m k v : bloom_wf b m k → 1 ≤ k → is_bytes v →
  bloom_wf (Bloom_Reset b) m k ∧ Bloom_Has (Bloom_Reset b) v = Ok false.
Proof.
  intros Hb Hk Hv. pose proof (bstate_Reset _ _ _ _ (bstate_any b m k Hb)) as Hs. split; [apply Hs|].
  rewrite (bstate_Has _ _ _ _ v Hv Hs). rewrite bool_decide_false; [done|].
  pose proof (positions_nonempty (Z.of_nat m) (Z.to_nat k) v ltac:(lia)) as Hne.
  destruct (bloom_positions (Z.of_nat m) (Z.to_nat k) v) as [|x l]; [done|].
  rewrite Forall_cons. intros [H _]. by apply elem_of_nil in H.
Qed.
Lemma bloom_New_empty m k v : (1 ≤ m)%nat → size_ok m 1 → 1 ≤ k < 256 → is_bytes v →
  ∃ b, Bloom_NewBits (Z.of_nat m) k = Ok b ∧ Bloom_Has b v = Ok false.
Proof.
  intros Hm Hs Hk Hv. destruct (bstate_New m k Hm Hs ltac:(lia)) as (b & E & Hb). exists b. split; [done|].
  rewrite (bstate_Has _ _ _ _ v Hv Hb). rewrite bool_decide_false; [done|].
  pose proof (positions_nonempty (Z.of_nat m) (Z.to_nat k) v ltac:(lia)) as Hne.
  destruct (bloom_positions (Z.of_nat m) (Z.to_nat k) v) as [|x l]; [done|].
  rewrite Forall_cons. intros [H _]. by apply elem_of_nil in H.
Qed.

(** serialisation *)
Lemma Bloom_serial_length m k d : length (bloom_serial m k d) = (12 + length d)%nat.
Proof. unfold bloom_serial. rewrite app_length, serial_length. simpl. lia. Qed.
Lemma Bloom_WriteTo_Ok b m k out : bloom_wf b m k →
  Bloom_WriteTo b (Writer out None) = (Bloom_Len b, None, Writer (out ++ bloom_serial m k (bb_data (bl_bits b))) None).
Proof.
  intros (Hwf & Hw & Hm & Hk & Hk8 & Hm1). unfold Bloom_WriteTo, write. cbn [w_room w_out].
  rewrite (WriteTo_Ok _ m _ Hwf). unfold Bloom_Len, BloomHdrLen, bloom_serial.
  rewrite Hw, Hk, <- app_assoc. done.
Qed.
Lemma Bloom_ReadFrom_Ok b m k b0 r : bloom_wf b m k → delivers r (bloom_serial m k (bb_data (bl_bits b))) →
  Bloom_ReadFrom b0 r = Ok (Bloom_Len b, None, b, []).
Proof.
  intros (Hwf & Hw & Hm & Hk & Hk8 & Hm1) Hd. unfold Bloom_ReadFrom.
  destruct (read_full_delivers r _ 2 Hd ltac:(rewrite Bloom_serial_length; lia)) as (r1 & E1 & Hd1). rewrite E1.
  unfold bloom_serial in *. cbn [take app] in *. cbn [drop] in Hd1. rewrite take_0.
  change (index [1; k] 0) with (Ok 1 : outcome Z). cbn [obind].
  change (negb (1 =? BloomVersion)) with false. cbn match.
  change (index [1; k] 1) with (Ok k). cbn [obind]. rewrite drop_0 in Hd1.
  rewrite <- Hw in Hd1 at 1. rewrite (ReadFrom_delivers _ m _ r1 Hwf Hd1). cbn [obind read].
  unfold Bloom_Len, BloomHdrLen. cbn [length].
  unfold BB_Count. rewrite (wf_n _ _ Hwf), <- Hm, <- Hk. destruct b as [bits0 m0 k0]. cbn [bl_bits bl_m bl_k]. do 4 f_equal. lia.
Qed.
Lemma Bloom_ReadFrom_trunc b m k b0 r j : bloom_wf b m k → Z.of_nat j < Bloom_Len b →
  delivers r (take j (bloom_serial m k (bb_data (bl_bits b)))) →
  ∃ b' r', Bloom_ReadFrom b0 r = Ok (Z.of_nat j, Some ErrUnexpectedEOF, b', r').
Proof.
  intros (Hwf & Hw & Hm & Hk & Hk8 & Hm1) Hj Hd. unfold Bloom_ReadFrom.
  unfold Bloom_Len, BloomHdrLen in Hj.
  destruct (decide (j < 2)%nat) as [Hj1|Hj1].
  - assert (Hlt : length (take j (bloom_serial m k (bb_data (bl_bits b)))) = j) by (rewrite take_length, Bloom_serial_length; lia).
    destruct (read_full_delivers_trunc r _ 2 Hd ltac:(lia)) as (r1 & E1). rewrite E1, Hlt.
    destruct (0 <? j)%nat; cbn [noEOF]; by eexists _, _.
  - destruct (read_full_delivers r _ 2 Hd ltac:(rewrite take_length, Bloom_serial_length; lia)) as (r1 & E1 & Hd1). rewrite E1.
    rewrite take_take, Nat.min_l by lia. rewrite skipn_firstn_comm in Hd1.
    unfold bloom_serial in *. cbn [take app] in *. cbn [drop] in Hd1. rewrite take_0. rewrite drop_0 in Hd1.
    change (index [1; k] 0) with (Ok 1 : outcome Z). cbn [obind].
    change (negb (1 =? BloomVersion)) with false. cbn match.
    change (index [1; k] 1) with (Ok k). cbn [obind].
    rewrite <- Hw in Hd1 at 1.
    destruct (ReadFrom_truncated _ m (BB [] 0 0) r1 (j - 2) Hwf ltac:(lia) Hd1) as (b' & r' & E).
    rewrite E. cbn [obind noEOF length]. replace (Z.of_nat 2 + Z.of_nat (j - 2)) with (Z.of_nat j) by lia. by eexists _, _.
Qed.
Lemma Bloom_WithBytes_Ok b m k rest : bloom_wf b m k →
  Bloom_WithBytes (bloom_serial m k (bb_data (bl_bits b)) ++ rest) = Ok b.
Proof.
  intros (Hwf & Hw & Hm & Hk & Hk8 & Hm1). unfold Bloom_WithBytes, bloom_serial. rewrite <- app_assoc.
  rewrite (index_lookup _ 0 1) by done. cbn [obind].
  change (negb (1 =? BloomVersion)) with false. cbn match.
  rewrite (index_lookup _ 1 k) by done. cbn [obind].
  rewrite slice_Ok by (cbn [app length]; lia). cbn [obind].
  change (Z.to_nat 2) with 2%nat. rewrite take_ge by (rewrite drop_length; lia).
  cbn [app drop]. rewrite drop_0. rewrite <- Hw. rewrite (WithBytes_serial _ _ rest Hwf). cbn [obind].
  unfold BB_Count. rewrite (wf_n _ _ Hwf), <- Hm, <- Hk. destruct b; done.
Qed.
Lemma Bloom_roundtrip b m k : bloom_wf b m k →
  let s := bloom_serial m k (bb_data (bl_bits b)) in
  Z.of_nat (length s) = Bloom_Len b ∧
  (∀ out, Bloom_WriteTo b (Writer out None) = (Bloom_Len b, None, Writer (out ++ s) None)) ∧
  (∀ b0 r, delivers r s → Bloom_ReadFrom b0 r = Ok (Bloom_Len b, None, b, [])) ∧
  (∀ rest, Bloom_WithBytes (s ++ rest) = Ok b).
Proof.
  intros Hb s. split_and!.
  - unfold s. rewrite Bloom_serial_length. unfold Bloom_Len, BloomHdrLen, BB_Len. lia.
  - intros out. by apply Bloom_WriteTo_Ok.
  - intros b0 r. by apply Bloom_ReadFrom_Ok.
  - intros rest. by apply Bloom_WithBytes_Ok.
Qed.
Lemma Bloom_write_through b m k rest u : bloom_wf b m k → is_bytes u →
  ∃ b', Bloom_Add b u = Ok b' ∧
    Bloom_flush (bloom_serial m k (bb_data (bl_bits b)) ++ rest) b' = bloom_serial m k (bb_data (bl_bits b')) ++ rest.
Proof.
  intros Hb Hu. destruct (bloom_Add_mono b m k u Hb Hu) as (b' & E & Hb' & _). exists b'. split; [done|].
  destruct Hb as (Hwf & Hw & _). destruct Hb' as (Hwf' & Hw' & _).
  unfold Bloom_flush, bloom_serial. cbn [app take drop]. rewrite take_0, drop_0. do 2 f_equal.
  unfold BB_flush, splice, bb_serial. rewrite <- !app_assoc.
  rewrite (app_assoc [1; 1]), (app_assoc [1; 1]).
  rewrite take10_app by (rewrite app_length, put64_length; done).
  rewrite <- drop_drop. rewrite drop10_app by (rewrite app_length, put64_length; done).
  simpl app. do 2 f_equal.
  assert (length (bb_data (bl_bits b')) = length (bb_data (bl_bits b))) as ->
    by (rewrite (wf_len _ _ Hwf), (wf_len _ _ Hwf'), Hw, Hw'; done).
  by rewrite drop_app.
Qed.
