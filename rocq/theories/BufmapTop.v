From Coq Require Import ZifyBool ZifyNat.
From Verif Require Import Base BaseProofs BufmapModel BufmapSpec BufmapProofs.
Local Open Scope Z_scope.

Lemma wedged_slot l s m k x : inv l s m → k ≠ 0 → 0 ≤ x < l → key_at m x = k → wedged m k ↔ ∃ sl, m_keys m !! Z.to_nat x = Some sl ∧ sl_mu sl = true.
Proof.
  intros I Hk Hx Ex. split.
  - intros (n & sl & L & Ek & Em). pose proof (lookup_lt_Some _ _ _ L) as Hn. rewrite (i_keys _ _ _ I) in Hn.
    assert (Z.of_nat n = x) as <-; [|rewrite Nat2Z.id; eauto]. apply (place_unique I); try lia; unfold key_at; rewrite Nat2Z.id, L; cbn.
    + congruence.
    + unfold key_at in Ex. rewrite Ex. done.
  - intros (sl & L & Em). exists (Z.to_nat x), sl. split; [done|]. split; [|done]. unfold key_at in Ex. by rewrite L in Ex.
Qed.
Lemma wedged_absent l s m k : inv l s m → (∀ x, 0 ≤ x < l → key_at m x ≠ k) → ¬ wedged m k.
Proof.
  intros I H (n & sl & L & Ek & Em). pose proof (lookup_lt_Some _ _ _ L) as Hn. rewrite (i_keys _ _ _ I) in Hn.
  apply (H (Z.of_nat n)); [lia|]. unfold key_at. rewrite Nat2Z.id, L. done.
Qed.

Definition result_of (r : outcome unit) : call (outcome unit) := match r with Panic => Panics | r => Ret r end.

(** everything about one update *)
Lemma Update_full l s m k fn : inv l s m → is_key k → fn_ok fn →
  (record m k = None ∧ (∀ x, x ∈ probe_slots l k → key_at m x ≠ k ∧ key_at m x ≠ 0) ∧ Update m k fn = (m, Ret (Err ErrOutOfSlots))) ∨
  (wedged m k ∧ (∃ r, record m k = Some r) ∧ Update m k fn = (m, Hangs)) ∨
  (¬ wedged m k ∧ (∃ x, x ∈ probe_slots l k ∧ (key_at m x = k ∨ (key_at m x = 0 ∧ record m k = None))) ∧ ∃ m', let '(d, r) := fn (default (zeros s) (record m k)) (first_flag l m k) in
     Update m k fn = (m', result_of r) ∧ record m' k = Some d ∧ length d = Z.to_nat s ∧ inv l s m' ∧
     (wedged m' k ↔ r = Panic) ∧
     (∀ k', is_key k' → k' ≠ k → record m' k' = record m k' ∧ (wedged m' k' ↔ wedged m k')) ∧
     (∀ y, 0 ≤ y < l → key_at m y ≠ 0 → key_at m' y = key_at m y)).
Proof.
  intros I Hk Hfn. pose proof (Update_eq l s m k fn I Hk Hfn) as E. assert (k ≠ 0) as Hk0 by (unfold is_key in Hk; lia).
  destruct (upd_target l m k) as [x|] eqn:Et.
  2:{ left. pose proof (proj1 (upd_target_none l m k) Et) as Hn. split; [|done]. apply (record_absent l s); [done|].
      intros x Hx Ex. destruct (present_probe l s m k x I Hk0 Hx Ex) as [Hc _]. congruence. }
  right. destruct E as (sl & L & E). destruct (upd_target_spec _ _ _ _ _ I Et) as (i & Hi & Ex & Hx & Hor & Hm).
  destruct (keys_lookup I x Hx) as (sl' & L' & _ & Esl). rewrite L in L'. injection L' as <-.
  destruct (sl_mu sl) eqn:Emu.
  - left. assert (key_at m x = k) as Hkx.
    { destruct Hor as [|H0]; [done|]. rewrite (i_empty _ _ _ I _ _ L) in Emu by congruence. done. }
    split; [|split; [|done]].
    + apply (wedged_slot l s m k x); eauto.
    + eexists. by apply (record_present l s m k x).
  - right. destruct (seq_even_odd (sl_seq sl)) as (P1 & P2 & P3 & P4).
    { by destruct (i_seq _ _ _ I _ _ L) as (Q1 & Q2 & Q3). }
    { destruct (i_seq _ _ _ I _ _ L) as (Q1 & Q2 & Q3). rewrite <- Q3, Emu. done. }
    assert (Hrec : default (zeros s) (record m k) = bytes_at m x ∧ ¬ wedged m k ∧ (key_at m x = k ∨ (key_at m x = 0 ∧ record m k = None))).
    { destruct (key_dec m l k) as [(y & Hy & Ey)|Hn].
      - destruct (present_probe l s m k y I Hk0 Hy Ey) as [Hc _]. assert (y = x) as -> by congruence. rewrite (record_present l s m k x) by done. split; [done|].
        split; [|auto].
        rewrite (wedged_slot l s m k x) by done. intros (sl2 & L2 & E2). congruence.
      - rewrite (record_absent l s) by done. split; [|split; [by apply (wedged_absent l s)|]].
        + cbn. unfold zeros. symmetry. apply (i_zero _ _ _ I); [done|]. destruct Hor; [|done]. exfalso. by eapply Hn.
        + destruct Hor; [|auto]. exfalso. by eapply Hn. }
    destruct Hrec as (Hrec & Hw & Hpr). split; [done|]. split.
    { exists x. split; [|done]. rewrite probe_slots_eq. apply elem_of_list_lookup. exists i. apply probe_lookup. split; [lia|done]. }
    rewrite Hrec. destruct (fn _ _) as [d r] eqn:Ef.
    pose proof (fn_len _ _ _ _ _ Hfn Ef) as Hd. rewrite (bytes_at_len I) in Hd by done.
    assert (G : ∀ sl', sl_key sl' = k → inv l s (set_slot m x sl' d) → record (set_slot m x sl' d) k = Some d ∧
      (wedged (set_slot m x sl' d) k ↔ sl_mu sl' = true) ∧
      (∀ k', is_key k' → k' ≠ k → record (set_slot m x sl' d) k' = record m k' ∧ (wedged (set_slot m x sl' d) k' ↔ wedged m k')) ∧
      (∀ y, 0 ≤ y < l → key_at m y ≠ 0 → key_at (set_slot m x sl' d) y = key_at m y)).
    { intros sl' Ek I'. assert (Kx : key_at (set_slot m x sl' d) x = k). { rewrite (key_at_set I) by lia. by rewrite decide_True. }
      split; [|split; [|split]].
      - rewrite (record_present l s _ k x) by done. rewrite (bytes_at_set I) by done. by rewrite decide_True.
      - rewrite (wedged_slot l s _ k x) by done. cbn [set_slot m_keys]. rewrite list_lookup_insert by (rewrite (i_keys _ _ _ I); lia).
        split; [intros (? & [= <-] & ?); done|eauto].
      - intros k' Hk' Hne. assert (k' ≠ 0) by (unfold is_key in Hk'; lia).
        destruct (key_dec m l k') as [(y & Hy & Ey)|Hn].
        + assert (x ≠ y) by (intros ->; destruct Hor; congruence).
          assert (Ky : key_at (set_slot m x sl' d) y = k'). { rewrite (key_at_set I) by lia. by rewrite decide_False. }
          rewrite (record_present l s _ k' y I') by done. rewrite (record_present l s m k' y) by done. rewrite (bytes_at_set I) by done. rewrite decide_False by done.
          split; [done|]. rewrite (wedged_slot l s _ k' y I') by done. rewrite (wedged_slot l s m k' y) by done.
          cbn [set_slot m_keys]. rewrite list_lookup_insert_ne by lia. done.
        + assert (Hn' : ∀ y, 0 ≤ y < l → key_at (set_slot m x sl' d) y ≠ k').
          { intros y Hy. rewrite (key_at_set I) by lia. destruct (decide (x = y)); [congruence|by apply Hn]. }
          rewrite !(record_absent l s) by done. split; [done|]. split; intros HH; exfalso; revert HH; by apply (wedged_absent l s).
      - intros y Hy Hn. rewrite (key_at_set I) by lia. destruct (decide (x = y)) as [->|]; [|done]. destruct Hor; congruence. }
    assert (Hflip : ∀ sl', sl_key sl' = k → 0 ≤ sl_seq sl' < 2^32 → (sl_mu sl' = true ↔ sl_seq sl' mod 2 = 1) → inv l s (set_slot m x sl' d)).
    { intros sl' H1 H2 H3. apply (set_inv I x sl' d Hx Hd k i); done. }
    destruct r as [u|e|].
    + set (sl' := Slot k (u32 (u32 (sl_seq sl + 1) + 1)) false) in *. assert (I' : inv l s (set_slot m x sl' d)) by (apply Hflip; cbn; [done..|]; split; congruence).
      exists (set_slot m x sl' d). destruct (G sl' eq_refl I') as (G1 & G2 & G3 & G4). split; [exact E|].
      split; [exact G1|]. split; [exact Hd|]. split; [exact I'|]. split; [|split; [exact G3|exact G4]]. rewrite G2. cbn. split; done.
    + set (sl' := Slot k (u32 (u32 (sl_seq sl + 1) + 1)) false) in *. assert (I' : inv l s (set_slot m x sl' d)) by (apply Hflip; cbn; [done..|]; split; congruence).
      exists (set_slot m x sl' d). destruct (G sl' eq_refl I') as (G1 & G2 & G3 & G4). split; [exact E|].
      split; [exact G1|]. split; [exact Hd|]. split; [exact I'|]. split; [|split; [exact G3|exact G4]]. rewrite G2. cbn. split; done.
    + set (sl' := Slot k (u32 (sl_seq sl + 1)) true) in *. assert (I' : inv l s (set_slot m x sl' d)) by (apply Hflip; cbn; [done..|]; split; congruence).
      exists (set_slot m x sl' d). destruct (G sl' eq_refl I') as (G1 & G2 & G3 & G4). split; [exact E|].
      split; [exact G1|]. split; [exact Hd|]. split; [exact I'|]. split; [|split; [exact G3|exact G4]]. rewrite G2. cbn. split; done.
Qed.

(** ** the init flag *)
Lemma first_flag_absent l s m k : inv l s m → is_key k → record m k = None → first_flag l m k = true.
Proof.
  intros I Hk Hr. unfold first_flag. destruct (Z.eqb_spec (key_at m (home l k)) k) as [E|]; [|done]. exfalso.
  assert (Hh : 0 ≤ home l k < l). { unfold home. apply Z.mod_pos_bound. pose proof (l_pos I). lia. }
  rewrite (record_present l s m k (home l k) I) in Hr; [done|unfold is_key in Hk; lia|done|done].
Qed.
Lemma Update_flag l s m k fn : inv l s m → is_key k → fn_ok fn → Update m k fn = Update m k (λ d _, fn d (first_flag l m k)).
Proof.
  intros I Hk Hf. pose proof (Update_eq l s m k fn I Hk Hf) as E1.
  pose proof (Update_eq l s m k (λ d _, fn d (first_flag l m k)) I Hk (λ d _, Hf d _)) as E2.
  destruct (upd_target l m k); [|by rewrite E1, E2]. destruct E1 as (sl & L & E1), E2 as (sl2 & L2 & E2).
  assert (sl2 = sl) as -> by congruence. destruct (sl_mu sl); by rewrite E1, E2.
Qed.

(** ** Get *)
Lemma Get_absent l s m k buf : inv l s m → is_key k → record m k = None → Get m k buf = Ret None.
Proof.
  intros I Hk Hr. unfold Get. rewrite (get_probe_find I) by (unfold is_key, maxReprobe in *; lia). unfold maxReprobe. rewrite <- probe_slots_eq.
  rewrite (find_absent l s); [done|done|]. intros x Hx Ex. rewrite (record_present l s m k x) in Hr; [done|done|unfold is_key in Hk; lia|done|done].
Qed.
Lemma Get_present l s m k x buf : inv l s m → is_key k → 0 ≤ x < l → key_at m x = k →
  (wedged m k → Get m k buf = Hangs) ∧
  (¬ wedged m k → x * (s + 1) ≤ l * s → Get m k buf = Ret (Some (gocopy buf (take (Z.to_nat x) (drop (Z.to_nat (x*s)) (m_values m)))))) ∧
  (¬ wedged m k → l * s < x * (s + 1) → Get m k buf = Panics).
Proof.
  intros I Hk Hx Ex. assert (k ≠ 0) by (unfold is_key in Hk; lia). unfold Get. rewrite (get_probe_find I) by (unfold is_key, maxReprobe in *; lia). unfold maxReprobe. rewrite <- probe_slots_eq.
  destruct (present_probe l s m k x I) as [_ ->]; [done..|]. destruct (keys_lookup I x Hx) as (sl & L & -> & Esl).
  pose proof (wedged_slot l s m k x I ltac:(done) Hx Ex) as W. destruct (i_seq _ _ _ I _ _ L) as (Q1 & Q2 & Q3).
  pose proof (i_dims _ _ _ I) as (D1 & D2 & D3).
  split; [|split].
  - intros Hw. apply W in Hw as (sl' & L' & E'). rewrite L in L'. injection L' as <-. apply Q3 in E'. by rewrite E'.
  - intros Hw Hb. destruct (Z.eqb_spec (sl_seq sl mod 2) 1) as [E1|]. { exfalso. apply Hw, W. exists sl. split; [done|]. by apply Q3. }
    rewrite (i_s _ _ _ I). rewrite !s64_small by nia. unfold slice. rewrite (i_vals _ _ _ I).
    replace ((0 <=? x*s) && (x*s <=? x*(s+1)) && (x*(s+1) <=? Z.of_nat (Z.to_nat (l*s)))) with true by nia.
    do 4 f_equal. lia.
  - intros Hw Hb. destruct (Z.eqb_spec (sl_seq sl mod 2) 1) as [E1|]. { exfalso. apply Hw, W. exists sl. split; [done|]. by apply Q3. }
    rewrite (i_s _ _ _ I). rewrite !s64_small by nia. unfold slice. rewrite (i_vals _ _ _ I).
    replace ((0 <=? x*s) && (x*s <=? x*(s+1)) && (x*(s+1) <=? Z.of_nat (Z.to_nat (l*s)))) with false by nia. done.
Qed.
Lemma gocopy_prefix (buf vals : bytes) (n s : nat) : length buf = s → (s ≤ length vals)%nat → (n ≤ length vals)%nat →
  gocopy buf (take n vals) = take (Nat.min n s) (take s vals) ++ drop (Nat.min n s) buf.
Proof.
  intros H1 H2 H3. unfold gocopy. rewrite take_length. replace (length buf `min` (n `min` length vals))%nat with (Nat.min n s) by lia.
  rewrite !take_take. f_equal. f_equal. lia.
Qed.
(** a buffer of the record size gets the first x bytes of the record in slot x *)
Lemma Get_prefix l s m k x buf : inv l s m → is_key k → 0 ≤ x < l → key_at m x = k → ¬ wedged m k → x * (s + 1) ≤ l * s → length buf = Z.to_nat s →
  ∃ r, record m k = Some r ∧ Get m k buf = Ret (Some (take (Nat.min (Z.to_nat x) (Z.to_nat s)) r ++ drop (Nat.min (Z.to_nat x) (Z.to_nat s)) buf)).
Proof.
  intros I Hk Hx Ex Hw Hb Hl. exists (bytes_at m x). split. { apply (record_present l s); try done. unfold is_key in Hk. lia. }
  destruct (Get_present l s m k x buf I Hk Hx Ex) as (_ & -> & _); [|done|done]. do 2 f_equal. pose proof (i_dims _ _ _ I) as (D1 & D2 & D3).
  pose proof (i_vals _ _ _ I) as Hv.
  rewrite (gocopy_prefix buf _ _ (Z.to_nat s)); [|done|rewrite drop_length; nia|rewrite drop_length; nia].
  unfold bytes_at. rewrite (i_s _ _ _ I). done.
Qed.

(** ** permanence *)
Lemma Update_keys l s m k fn m' r y : inv l s m → 0 ≤ k < 2^64 → fn_ok fn → Update m k fn = (m', r) → 0 ≤ y < l → key_at m y ≠ 0 → key_at m' y = key_at m y.
Proof.
  intros I Hk Hf E Hy Hn. destruct (decide (k = 0)) as [->|H0]. { unfold Update in E. cbn in E. by injection E as <- <-. }
  assert (is_key k) as Hk' by (unfold is_key; lia).
  destruct (Update_full l s m k fn I Hk' Hf) as [(_ & _ & E')|[(_ & _ & E')|(_ & _ & m2 & H)]].
  - rewrite E in E'. by injection E' as -> ->.
  - rewrite E in E'. by injection E' as -> ->.
  - destruct (fn _ _) as [d o]. destruct H as (E' & _ & _ & _ & _ & _ & H). rewrite E in E'. injection E' as -> ->. by apply H.
Qed.

(** ** histories *)
Lemma probe_slots_range l k x : 0 < l → x ∈ probe_slots l k → 0 ≤ x < l.
Proof. intros Hl Hx. rewrite probe_slots_eq in Hx. apply elem_of_list_lookup in Hx as [j Hj]. apply probe_lookup in Hj as [_ ->]. by apply probe_range. Qed.
Definition full_for (l : Z) (m : Map) (k : Z) : Prop := ∀ x, x ∈ probe_slots l k → key_at m x ≠ k ∧ key_at m x ≠ 0.
Lemma full_absent l s m k : inv l s m → is_key k → full_for l m k → record m k = None.
Proof.
  intros I Hk H. apply (record_absent l s); [done|]. intros x Hx Ex.
  destruct (present_probe l s m k x I) as [Hc _]; [unfold is_key in Hk; lia|done|done|]. apply upd_target_none in H. congruence.
Qed.
Lemma full_stays l s m k k0 fn m' r : inv l s m → 0 ≤ k0 < 2^64 → fn_ok fn → Update m k0 fn = (m', r) → full_for l m k → full_for l m' k.
Proof.
  intros I Hk0 Hf E H x Hx. destruct (H x Hx). assert (0 ≤ x < l) by (apply (probe_slots_range l k); [pose proof (l_pos I); lia|done]).
  by rewrite (Update_keys l s m k0 fn m' r x I Hk0 Hf E) by done.
Qed.
Lemma full_refused l s m k fn : inv l s m → is_key k → fn_ok fn → full_for l m k → Update m k fn = (m, Ret (Err ErrOutOfSlots)).
Proof.
  intros I Hk Hf H. pose proof (Update_eq l s m k fn I Hk Hf) as E. apply upd_target_none in H. by rewrite H in E.
Qed.
Lemma refused_stays l s us m k m' rs : inv l s m → Forall (λ u, is_key u.1 ∧ fn_ok u.2) us → is_key k → full_for l m k → run m us = (m', rs) →
  inv l s m' ∧ record m' k = None ∧ Forall (eq (Ret (Err ErrOutOfSlots))) (results_of k us rs).
Proof.
  revert m rs. induction us as [|[k0 fn] us IH]; intros m rs I HF Hk Hfull E; cbn [run] in E.
  { injection E as <- <-. split; [done|]. split; [by apply (full_absent l s)|]. constructor. }
  destruct (Update m k0 fn) as [m1 r] eqn:E1. destruct (run m1 us) as [m2' rs'] eqn:E2. injection E as -> <-.
  inversion_clear HF as [|? ? (Hk0 & Hf) HF']. cbn [fst snd] in *.
  assert (0 ≤ k0 < 2^64) by (unfold is_key in Hk0; lia).
  assert (I1 : inv l s m1) by (apply (Update_inv l s m k0 fn m1 r); auto).
  destruct (IH m1 rs' I1 HF' Hk) as (H1 & H2 & H3); [by apply (full_stays l s m k k0 fn m1 r)|done|]. split; [done|]. split; [done|].
  unfold results_of. cbn. destruct (decide (k0 = k)) as [->|]; [|exact H3]. constructor; [|exact H3].
  rewrite (full_refused l s) in E1 by done. congruence.
Qed.

Lemma run_history l s us m m' rs : inv l s m → Forall (λ u, is_key u.1 ∧ fn_ok u.2 ∧ BufmapSpec.never_panics u.2) us → (∀ k, is_key k → ¬ wedged m k) →
  run m us = (m', rs) → inv l s m' ∧ (∀ k, is_key k → ¬ wedged m' k) ∧ ∀ k, is_key k →
  (record m k = None ∧ record m' k = None ∧ Forall (eq (Ret (Err ErrOutOfSlots))) (results_of k us rs)) ∨
  ∃ inits, length inits = length (updates_of k us) ∧ (record m k = None → inits ≠ [] → head inits = Some true) ∧
    let '(d, os) := apply_fns (default (zeros s) (record m k)) (zip (updates_of k us) inits) in
    (updates_of k us ≠ [] → record m' k = Some d) ∧ (updates_of k us = [] → record m' k = record m k) ∧ results_of k us rs = map result_of os.
Proof.
  revert m rs. induction us as [|[k0 fn] us IH]; intros m rs I HF Hw E; cbn [run] in E.
  { injection E as <- <-. split; [done|]. split; [done|]. intros k Hk. right. exists []. split; [done|]. split; [done|]. cbn. done. }
  destruct (Update m k0 fn) as [m1 r] eqn:E1. destruct (run m1 us) as [m2 rs'] eqn:E2. injection E as <- <-.
  inversion_clear HF as [|? ? (Hk0 & Hf & Hnp) HF']. cbn [fst snd] in *.
  assert (Hrk : ∀ k, results_of k ((k0, fn) :: us) (r :: rs') = if decide (k0 = k) then r :: results_of k us rs' else results_of k us rs').
  { intros k. unfold results_of. cbn. destruct (decide (k0 = k)); done. }
  assert (Huk : ∀ k, updates_of k ((k0, fn) :: us) = if decide (k0 = k) then fn :: updates_of k us else updates_of k us).
  { intros k. unfold updates_of. cbn. destruct (decide (k0 = k)); done. }
  destruct (Update_full l s m k0 fn I Hk0 Hf) as [(Hr & Hfull & E')|[(Hc & _)|(_ & _ & m1' & H)]]; [|by destruct (Hw k0)|].
  - rewrite E1 in E'. injection E' as -> ->. destruct (IH m rs' I HF' Hw E2) as (I2 & Hw2 & IHk). split; [done|]. split; [done|].
    intros k Hk. rewrite Hrk, Huk. destruct (decide (k0 = k)) as [->|Hne]; [|by apply IHk]. left. split; [done|].
    destruct (refused_stays l s us m k m2 rs' I) as (_ & H2 & H3); [|done..|].
    { eapply Forall_impl; [exact HF'|]. intros u Hu. cbn. by destruct Hu as (? & ? & _). }
    split; [done|]. by constructor.
  - destruct (fn (default (zeros s) (record m k0)) (first_flag l m k0)) as [d o] eqn:Ef.
    destruct H as (E' & Hrec & Hlen & I1 & Hw1 & Hoth & _). rewrite E1 in E'. injection E' as <- ->.
    assert (o ≠ Panic) as Ho. { specialize (Hnp (default (zeros s) (record m k0)) (first_flag l m k0)). by rewrite Ef in Hnp. }
    assert (Hw' : ∀ k, is_key k → ¬ wedged m1 k).
    { intros k Hk. destruct (decide (k = k0)) as [->|Hne]; [by rewrite Hw1|]. destruct (Hoth k Hk Hne) as [_ ->]. by apply Hw. }
    destruct (IH m1 rs' I1 HF' Hw' E2) as (I2 & Hw2 & IHk). split; [done|]. split; [done|].
    intros k Hk. rewrite Hrk, Huk. destruct (decide (k0 = k)) as [->|Hne].
    + right. destruct (IHk k Hk) as [(Hc & _)|(inits & Hl & _ & Happ)]; [congruence|].
      exists (first_flag l m k :: inits). split; [cbn; lia|]. split.
      { intros Hn _. cbn. f_equal. by apply (first_flag_absent l s). }
      rewrite Hrec in Happ. cbn [zip_with apply_fns]. cbn [default id] in Happ. rewrite Ef.
      destruct (apply_fns d (zip (updates_of k us) inits)) as [d' os] eqn:Ea. destruct Happ as (A1 & A2 & A3).
      split; [|split; [done|]].
      * intros _. destruct (updates_of k us) eqn:Eu; [|by apply A1]. rewrite A2 by done. destruct inits; [|done]. cbn in Ea. injection Ea as <- <-. done.
      * cbn [map]. by rewrite A3.
    + destruct (Hoth k Hk ltac:(done)) as [Hrk' _]. specialize (IHk k Hk). rewrite Hrk' in IHk. exact IHk.
Qed.

Lemma New_not_wedged l s m k : dims_ok l s → BufmapModel.New l s = Ok m → ¬ wedged m k.
Proof. intros Hd. rewrite New_ok by done. intros [= <-]. intros (n & sl & L & _ & Em). cbn in L. apply lookup_replicate in L as [-> _]. done. Qed.
Lemma New_record l s m k : dims_ok l s → is_key k → BufmapModel.New l s = Ok m → record m k = None.
Proof.
  intros Hd Hk E. pose proof (New_inv l s m Hd E) as I. apply (record_absent l s); [done|]. intros x Hx.
  rewrite New_ok in E by done. injection E as <-. unfold key_at. cbn. rewrite lookup_replicate_2 by lia. cbn. unfold is_key in Hk. lia.
Qed.

(** an update of one key does not change what any Get of another key returns *)
Lemma Get_other l s m k fn m' r k' buf : inv l s m → is_key k → fn_ok fn → Update m k fn = (m', r) → is_key k' → k' ≠ k → length buf = Z.to_nat s → Get m' k' buf = Get m k' buf.
Proof.
  intros I Hk Hf E Hk' Hne Hl. destruct (Update_full l s m k fn I Hk Hf) as [(_ & _ & E')|[(_ & _ & E')|(_ & _ & m2 & H)]]; [by rewrite E in E'; injection E' as -> ->..|].
  destruct (fn _ _) as [d o]. destruct H as (E' & _ & _ & I' & _ & Hoth & Hkeys). rewrite E in E'. injection E' as <- ->. destruct (Hoth k' Hk' Hne) as [Hrec Hw]. assert (k' ≠ 0) as Hk0 by (unfold is_key in Hk'; lia).
  destruct (key_dec m l k') as [(x & Hx & Ex)|Hn].
  - assert (key_at m' x = k') as Ex' by (rewrite Hkeys; congruence).
    destruct (Get_present l s m k' x buf I Hk' Hx Ex) as (G1 & _ & G3). destruct (Get_present l s m' k' x buf I' Hk' Hx Ex') as (G1' & _ & G3').
    destruct (keys_lookup I x Hx) as (sl & L & _). pose proof (wedged_slot l s m k' x I Hk0 Hx Ex) as W. destruct (sl_mu sl) eqn:Em.
    + assert (wedged m k') as Hwk by (apply W; eauto). rewrite G1, G1' by tauto. done.
    + assert (¬ wedged m k') as Hwk. { rewrite W. intros (sl2 & L2 & E2). congruence. }
      destruct (decide (x * (s + 1) ≤ l * s)) as [Hle|Hgt].
      * destruct (Get_prefix l s m k' x buf I Hk' Hx Ex Hwk Hle Hl) as (d1 & D1 & ->). destruct (Get_prefix l s m' k' x buf I' Hk' Hx Ex') as (d2 & D2 & ->); [tauto|done|done|]. congruence.
      * rewrite G3, G3' by (tauto || lia). done.
  - rewrite (record_absent l s m k' I Hn) in Hrec. rewrite (Get_absent l s m k' buf I Hk'), (Get_absent l s m' k' buf I' Hk' Hrec); [done|]. by apply (record_absent l s).
Qed.
