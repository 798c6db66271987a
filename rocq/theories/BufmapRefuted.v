From Coq Require Import ZifyBool ZifyNat.
From Verif Require Import Base BaseProofs BufmapModel BufmapSpec BufmapProofs BufmapTop.
Local Open Scope Z_scope.

(** the first update of a new map *)
Lemma first_update_weak l s m k fn : dims_ok l s → New l s = Ok m → is_key k → fn_ok fn → (fn (zeros s) true).2 ≠ Panic →
  ∃ m' r, Update m k fn = (m', Ret r) ∧ inv l s m' ∧ key_at m' (home l k) = k ∧ ¬ wedged m' k ∧ record m' k = Some (fn (zeros s) true).1 ∧
  (∀ y, 0 ≤ y < l → y ≠ home l k → key_at m' y = 0).
Proof.
  intros Hd E Hk Hf Hnp. pose proof (New_inv l s m Hd E) as I.
  assert (Hh : 0 ≤ home l k < l). { unfold home. apply Z.mod_pos_bound. destruct Hd. lia. }
  assert (K0 : ∀ x, 0 ≤ x < l → key_at m x = 0).
  { intros x Hx. rewrite New_ok in E by done. injection E as <-. unfold key_at. cbn. rewrite lookup_replicate_2 by lia. done. }
  destruct (Update_full l s m k fn I Hk Hf) as [(_ & Hfull & _)|[(Hw & _)|(_ & _ & m' & H)]].
  - exfalso. destruct (Hfull (home l k)) as [_ Hc]; [|by rewrite K0 in Hc]. rewrite probe_slots_eq, <- probe_home. left.
  - by destruct (New_not_wedged l s m k Hd E).
  - rewrite (New_record l s m k Hd Hk E) in H. cbn [default] in H.
    rewrite (first_flag_absent l s m k I Hk) in H by (by apply (New_record l s)).
    pose proof (Update_eq l s m k fn I Hk Hf) as E2.
    assert (Et : upd_target l m k = Some (home l k)). { unfold upd_target. rewrite probe_slots_eq. cbn [seq map find]. rewrite probe_home, K0 by done. by rewrite orb_true_r. }
    rewrite Et in E2. destruct E2 as (sl & L & E2). rewrite (i_empty _ _ _ I _ _ L) in E2.
    2:{ destruct (keys_lookup I _ Hh) as (sl2 & L2 & _ & Ek). rewrite K0 in Ek by done. congruence. }
    rewrite (i_zero _ _ _ I) in E2 by auto. rewrite (first_flag_absent l s m k I Hk) in E2 by (by apply (New_record l s)).
    specialize (Hf (zeros s) true). change (replicate (Z.to_nat s) 0) with (zeros s) in E2.
    destruct (fn (zeros s) true) as [d r]. cbn [snd fst] in *. destruct H as (H1 & H2 & H3 & H4 & H5 & H6 & H7).
    assert (∃ sl', sl_key sl' = k ∧ Update m k fn = (set_slot m (home l k) sl' d, Ret r)) as (sl' & Hsl' & E3).
    { destruct r as [u|e|]; [eexists; split; [|exact E2]; done..|done]. }
    assert (m' = set_slot m (home l k) sl' d) as -> by (rewrite E3 in H1; congruence). exists (set_slot m (home l k) sl' d), r. split; [done|]. split; [done|].
    assert (Hd' : length d = Z.to_nat s) by done.
    split; [|split; [|split]].
    + rewrite (key_at_set I _ _ _ Hh) by lia. by rewrite decide_True.
    + by rewrite H5.
    + done.
    + intros y Hy Hne. rewrite (key_at_set I _ _ _ Hh) by lia. rewrite decide_False by done. by apply K0.
Qed.
Lemma first_update l s m k fn : dims_ok l s → New l s = Ok m → is_key k → fn_ok fn → BufmapSpec.never_panics fn →
  ∃ m' r, Update m k fn = (m', Ret r) ∧ inv l s m' ∧ key_at m' (home l k) = k ∧ ¬ wedged m' k ∧ record m' k = Some (fn (zeros s) true).1 ∧
  (∀ y, 0 ≤ y < l → y ≠ home l k → key_at m' y = 0).
Proof. intros Hd E Hk Hf Hnp. by apply first_update_weak. Qed.

Lemma slot0_reads_nothing l s m k fn buf : dims_ok l s → New l s = Ok m → is_key k → fn_ok fn → BufmapSpec.never_panics fn → k mod l = 0 → length buf = Z.to_nat s →
  Get (Update m k fn).1 k buf = Ret (Some buf) ∧ record (Update m k fn).1 k = Some (fn (zeros s) true).1.
Proof.
  intros Hd E Hk Hf Hnp Hm Hl. destruct (first_update l s m k fn Hd E Hk Hf Hnp) as (m' & r & -> & I & Kh & Hw & Hr & _). cbn [fst].
  split; [|done]. unfold home in Kh. rewrite Hm in Kh. pose proof Hd as (?&?&?).
  destruct (Get_prefix l s m' k 0 buf I Hk ltac:(lia) Kh Hw ltac:(nia) Hl) as (r' & _ & ->). cbn. done.
Qed.
Lemma last_slot_panics l s m fn buf : dims_ok l s → s + 1 < l → New l s = Ok m → fn_ok fn → BufmapSpec.never_panics fn →
  Get (Update m (l - 1) fn).1 (l - 1) buf = Panics.
Proof.
  intros Hd Hs E Hf Hnp. pose proof Hd as (?&?&?). assert (Hk : is_key (l-1)) by (unfold is_key; nia).
  destruct (first_update l s m (l-1) fn Hd E Hk Hf Hnp) as (m' & r & -> & I & Kh & Hw & Hr & _). cbn [fst].
  unfold home in Kh. rewrite Z.mod_small in Kh by lia.
  destruct (Get_present l s m' (l-1) (l-1) buf I Hk ltac:(lia) Kh) as (_ & _ & ->); [done|done|nia].
Qed.

(** a key that is not in its home slot sees init = true at every update *)
Lemma displaced_flag l s m k : inv l s m → is_key k → key_at m (home l k) ≠ k → first_flag l m k = true.
Proof. intros I Hk H. unfold first_flag. destruct (Z.eqb_spec (key_at m (home l k)) k); done. Qed.
Lemma run_keys l s us m m' rs y : inv l s m → Forall (λ u, 0 ≤ u.1 < 2^64 ∧ fn_ok u.2) us → run m us = (m', rs) → 0 ≤ y < l → key_at m y ≠ 0 →
  inv l s m' ∧ key_at m' y = key_at m y.
Proof.
  revert m rs. induction us as [|[k0 fn] us IH]; intros m rs I HF E Hy Hn; cbn [run] in E; [by injection E as <- <-|].
  destruct (Update m k0 fn) as [m1 r] eqn:E1. destruct (run m1 us) as [m2' rs'] eqn:E2. injection E as -> <-.
  inversion_clear HF as [|? ? (Hk0 & Hf) HF']. cbn [fst snd] in *.
  pose proof (Update_inv l s m k0 fn m1 r I Hk0 Hf E1) as I1. pose proof (Update_keys l s m k0 fn m1 r y I Hk0 Hf E1 Hy Hn) as K1.
  destruct (IH m1 rs' I1 HF' E2 Hy) as [I2 K2]; [congruence|]. split; [done|congruence].
Qed.

(** wedged records stay wedged *)
Lemma wedged_stays l s m k k0 fn m' r : inv l s m → is_key k → 0 ≤ k0 < 2^64 → fn_ok fn → Update m k0 fn = (m', r) → wedged m k → wedged m' k.
Proof.
  intros I Hk Hk0 Hf E Hw. destruct (decide (k0 = 0)) as [->|H0]. { unfold Update in E. cbn in E. by injection E as <- <-. }
  assert (is_key k0) as Hk0' by (unfold is_key; lia).
  destruct (Update_full l s m k0 fn I Hk0' Hf) as [(_ & _ & E')|[(_ & _ & E')|(Hnw & _ & m2 & H)]].
  - rewrite E in E'. by injection E' as -> ->.
  - rewrite E in E'. by injection E' as -> ->.
  - destruct (fn _ _) as [d o]. destruct H as (E' & _ & _ & _ & _ & H & _). rewrite E in E'. injection E' as <- ->.
    destruct (decide (k = k0)) as [->|Hne]; [done|]. by apply (H k Hk Hne).
Qed.
Lemma wedged_run l s us m k m' rs : inv l s m → is_key k → Forall (λ u, 0 ≤ u.1 < 2^64 ∧ fn_ok u.2) us → run m us = (m', rs) → wedged m k →
  inv l s m' ∧ wedged m' k.
Proof.
  revert m rs. induction us as [|[k0 fn] us IH]; intros m rs I Hk HF E Hw; cbn [run] in E; [by injection E as <- <-|].
  destruct (Update m k0 fn) as [m1 r] eqn:E1. destruct (run m1 us) as [m2' rs'] eqn:E2. injection E as -> <-.
  inversion_clear HF as [|? ? (Hk0 & Hf) HF']. cbn [fst snd] in *.
  apply (IH m1 rs'); try done; [by apply (Update_inv l s m k0 fn m1 r)|by apply (wedged_stays l s m k k0 fn m1 r)].
Qed.
Lemma wedged_hangs l s m k fn buf : inv l s m → is_key k → fn_ok fn → wedged m k → Update m k fn = (m, Hangs) ∧ Get m k buf = Hangs.
Proof.
  intros I Hk Hf Hw. split.
  - destruct (Update_full l s m k fn I Hk Hf) as [(_ & Hfull & _)|[(_ & _ & E')|(Hnw & _)]]; [|done|done].
    destruct (key_dec m l k) as [(x & Hx & Ex)|Hn]; [|exfalso; revert Hw; by apply (wedged_absent l s)].
    destruct (present_probe l s m k x I) as [Hc _]; [unfold is_key in Hk; lia|done|done|]. apply upd_target_none in Hfull. congruence.
  - destruct (key_dec m l k) as [(x & Hx & Ex)|Hn]; [|exfalso; revert Hw; by apply (wedged_absent l s)].
    by apply (Get_present l s m k x buf I Hk Hx Ex).
Qed.
Lemma panic_wedges l s m k fn m' : inv l s m → is_key k → fn_ok fn → Update m k fn = (m', Panics) → inv l s m' ∧ wedged m' k.
Proof.
  intros I Hk Hf E. destruct (Update_full l s m k fn I Hk Hf) as [(_ & _ & E')|[(_ & _ & E')|(_ & _ & m2 & H)]]; [congruence..|].
  destruct (fn _ _) as [d o]. destruct H as (E' & _ & _ & I' & H & _). rewrite E in E'. destruct o; [done..|]. injection E' as <-. split; [done|]. by apply H.
Qed.

(** key zero *)
Lemma get_zero l s m buf : inv l s m → (∃ x, x ∈ probe_slots l 0 ∧ key_at m x = 0) ↔ Get m 0 buf ≠ Ret None.
Proof.
  intros I. unfold Get. rewrite (get_probe_find I) by (unfold maxReprobe; lia). unfold maxReprobe. rewrite <- probe_slots_eq.
  pose proof (find_spec (λ x, key_at m x =? 0) (probe_slots l 0)) as F. destruct (find _ _) as [x|].
  - destruct F as (i & Hi & Hp & _). assert (Hx : x ∈ probe_slots l 0) by (by apply elem_of_list_lookup_2 in Hi).
    split; [intros _|intros _; exists x; split; [done|lia]].
    destruct (keys_lookup I x) as (sl & _ & -> & _). { apply (probe_slots_range l 0); [pose proof (l_pos I); lia|done]. }
    destruct (sl_seq sl mod 2 =? 1); [discriminate|]. destruct (slice _ _ _); discriminate.
  - split; [|done]. intros (x & Hx & E). specialize (F x Hx). lia.
Qed.
