(** Properties C33 - C38 and C43: the record map, one call at a time. *)
From Verif Require Import Base BufmapModel BufmapSpec BufmapProofs BufmapTop BufmapRefuted.
Local Open Scope Z_scope.

(** ** C35/C36: histories.  For every sequence of updates of a new map with
    functions that may fail but do not panic, and for every key: either all the
    key's updates were refused and it has no record, or all were applied, in
    order, to a record that started zeroed, and returned what the functions
    returned.  The other keys' updates do not appear in the key's record. *)
Theorem C36_histories l s m us m' rs : dims_ok l s → New l s = Ok m →
  Forall (λ u, is_key u.1 ∧ fn_ok u.2 ∧ BufmapSpec.never_panics u.2) us → run m us = (m', rs) → ∀ k, is_key k →
  (record m' k = None ∧ Forall (eq (Ret (Err ErrOutOfSlots))) (results_of k us rs)) ∨
  ∃ inits d os, length inits = length (updates_of k us) ∧ (inits ≠ [] → head inits = Some true) ∧
    apply_fns (zeros s) (zip (updates_of k us) inits) = (d, os) ∧
    record m' k = (if decide (updates_of k us = []) then None else Some d) ∧
    results_of k us rs = map Ret os.
Proof.
  intros Hd E HF Hr k Hk. pose proof (New_inv l s m Hd E) as I.
  destruct (run_history l s us m m' rs I HF (λ k _, New_not_wedged l s m k Hd E) Hr) as (_ & _ & H).
  pose proof (New_record l s m k Hd Hk E) as Hn. destruct (H k Hk) as [(_ & H1 & H2)|(inits & H1 & H2 & H3)]; [by left|right].
  rewrite Hn in H2, H3. cbn [default] in H3. destruct (apply_fns _ _) as [d os] eqn:Ea. destruct H3 as (H3 & H4 & H5).
  exists inits, d, os. split; [done|]. split; [by apply H2|]. split; [done|]. split.
  - destruct (decide _) as [En|En]; auto.
  - rewrite H5. assert (Forall (λ o, o ≠ Panic) os) as Ho.
    { assert (Hnp : Forall BufmapSpec.never_panics (updates_of k us)).
      { unfold updates_of. clear -HF. induction HF as [|u us (_ & _ & Hu) HF IH]; [constructor|]. cbn. destruct (decide _); [by constructor|done]. }
      revert Ea Hnp. clear. generalize (updates_of k us) as fs, (zeros s) as z. intros fs. revert inits d os. induction fs as [|f fs IH]; intros [|i inits] d os z Ea Hnp; cbn in Ea.
      1-3: injection Ea as <- <-; constructor.
      inversion_clear Hnp as [|? ? Hf Hnp']. destruct (f z i) as [z1 r] eqn:Ef. destruct (apply_fns z1 _) as [d1 os1] eqn:E1. injection Ea as <- <-. constructor; [|by eapply IH].
      specialize (Hf z i). by rewrite Ef in Hf. }
    clear -Ho. induction Ho as [|[] os Ho1 Ho2 IH]; cbn; try done; by rewrite IH.
Qed.
Print Assumptions C36_histories.

(** C36 for one update, of any function, in any state: no other key's record changes. *)
Theorem C36_other_records l s m k fn m' r k' : dims_ok l s → reach l s m → is_key k → fn_ok fn → Update m k fn = (m', r) →
  is_key k' → k' ≠ k → record m' k' = record m k'.
Proof.
  intros Hd Hr Hk Hf E Hk' Hne. pose proof (reach_inv l s m Hd Hr) as I.
  destruct (Update_full l s m k fn I Hk Hf) as [(_ & _ & E')|[(_ & _ & E')|(_ & _ & m2 & H)]].
  1-2: rewrite E in E'; by injection E' as -> ->.
  destruct (fn _ _) as [d o]. destruct H as (E' & _ & _ & _ & _ & H & _). rewrite E in E'. injection E' as <- ->. by apply H.
Qed.
Print Assumptions C36_other_records.
(** ... nor what Get returns for it. *)
Theorem C36_other_gets l s m k fn m' r k' buf : dims_ok l s → reach l s m → is_key k → fn_ok fn → Update m k fn = (m', r) →
  is_key k' → k' ≠ k → length buf = Z.to_nat s → Get m' k' buf = Get m k' buf.
Proof. intros Hd Hr. pose proof (reach_inv l s m Hd Hr) as I. exact (Get_other l s m k fn m' r k' buf I). Qed.
Print Assumptions C36_other_gets.

(** ** C35.  ErrOutOfSlots exactly when the key is absent and its 11 probe slots
    all hold other keys; the map is unchanged; and it is for ever. *)
Theorem C35_out_of_slots l s m k : dims_ok l s → reach l s m → is_key k →
  (∀ x, x ∈ probe_slots l k → key_at m x ≠ 0 ∧ key_at m x ≠ k) ↔
  (∀ fn, fn_ok fn → Update m k fn = (m, Ret (Err ErrOutOfSlots))).
Proof.
  intros Hd Hr Hk. pose proof (reach_inv l s m Hd Hr) as I. split.
  - intros H fn Hf. apply (full_refused l s); try done. intros x Hx. by destruct (H x Hx).
  - intros H. destruct (decide (upd_target l m k = None)) as [E|E]. { pose proof (proj1 (upd_target_none l m k) E) as E3. intros x Hx. by destruct (E3 x Hx). }
    exfalso. destruct (upd_target l m k) as [x|] eqn:Et; [|done].
    specialize (H (λ d _, (d, Err ErrUser)) (λ d _, eq_refl)). pose proof (Update_eq l s m k (λ d _, (d, Err ErrUser)) I Hk (λ d _, eq_refl)) as E2.
    rewrite Et in E2. destruct E2 as (sl & L & E2). rewrite H in E2. destruct (sl_mu sl); congruence.
Qed.
Print Assumptions C35_out_of_slots.
Theorem C35_refusal_permanent l s m k us m' rs : dims_ok l s → reach l s m → is_key k →
  (∀ x, x ∈ probe_slots l k → key_at m x ≠ 0 ∧ key_at m x ≠ k) →
  Forall (λ u, is_key u.1 ∧ fn_ok u.2) us → run m us = (m', rs) →
  record m' k = None ∧ Forall (eq (Ret (Err ErrOutOfSlots))) (results_of k us rs) ∧ ∀ buf, Get m' k buf = Ret None.
Proof.
  intros Hd Hr Hk H HF E. pose proof (reach_inv l s m Hd Hr) as I.
  destruct (refused_stays l s us m k m' rs I HF Hk) as (H1 & H2 & H3); [|done|]. { intros x Hx. by destruct (H x Hx). }
  split; [done|]. split; [done|]. intros buf. by apply (Get_absent l s).
Qed.
Print Assumptions C35_refusal_permanent.
(** An accepted update is applied to the key's one record, zeroed at first; every
    key with a record is found by Get, whatever happened in between. *)
Theorem C35_accepted l s m k fn m' r : dims_ok l s → reach l s m → is_key k → fn_ok fn → ¬ wedged m k →
  (∃ x, x ∈ probe_slots l k ∧ (key_at m x = 0 ∨ key_at m x = k)) → Update m k fn = (m', r) →
  ∃ init, let '(d, o) := fn (default (zeros s) (record m k)) init in
    record m' k = Some d ∧ r = match o with Panic => Panics | o => Ret o end.
Proof.
  intros Hd Hr Hk Hf Hw (x & Hx & Hkx) E. pose proof (reach_inv l s m Hd Hr) as I.
  destruct (Update_full l s m k fn I Hk Hf) as [(_ & Hfull & E')|[(Hw' & _ & E')|(_ & _ & m2 & H)]].
  - destruct (Hfull x Hx). destruct Hkx; done.
  - done.
  - exists (first_flag l m k). destruct (fn _ _) as [d o]. destruct H as (E' & H & _). rewrite E in E'. injection E' as <- ->. done.
Qed.
Print Assumptions C35_accepted.
Theorem C35_found l s m k : dims_ok l s → reach l s m → is_key k →
  (record m k = None → ∀ buf, Get m k buf = Ret None) ∧
  (∀ d, record m k = Some d → (∀ buf, Get m k buf ≠ Ret None) ∧
     ∀ us m' rs, Forall (λ u, 0 ≤ u.1 < 2^64 ∧ fn_ok u.2) us → run m us = (m', rs) → (∃ d', record m' k = Some d') ∧ ∀ buf, Get m' k buf ≠ Ret None).
Proof.
  intros Hd Hr Hk. pose proof (reach_inv l s m Hd Hr) as I. split; [intros H buf; by apply (Get_absent l s)|].
  intros d Hrec. destruct (key_dec m l k) as [(x & Hx & Ex)|Hn]; [|rewrite (record_absent l s) in Hrec by done; done].
  assert (Hk0 : k ≠ 0) by (unfold is_key in Hk; lia).
  assert (G : ∀ m, inv l s m → key_at m x = k → ∀ buf, Get m k buf ≠ Ret None).
  { clear -Hk Hx. intros m I Ex buf. unfold Get. rewrite (get_probe_find I) by (unfold is_key, maxReprobe in *; lia). unfold maxReprobe. rewrite <- probe_slots_eq.
    destruct (present_probe l s m k x I) as [_ ->]; [unfold is_key in Hk; lia|done|done|]. destruct (index _ _); try done. destruct (_ =? _); [done|]. by destruct (slice _ _ _). }
  split; [by apply G|]. intros us m' rs HF E. destruct (run_keys l s us m m' rs x I HF E Hx ltac:(congruence)) as [I' K'].
  split; [eexists; by apply (record_present l s m' k x); try done; congruence|]. apply G; [done|congruence].
Qed.
Print Assumptions C35_found.

(** ** C33.  What Get really returns: the first x bytes of the record in slot x. *)
Theorem C33_get_exact l s m k x buf : dims_ok l s → reach l s m → is_key k → 0 ≤ x < l → key_at m x = k → ¬ wedged m k → length buf = Z.to_nat s →
  x * (s + 1) ≤ l * s → ∃ d, record m k = Some d ∧ let n := Nat.min (Z.to_nat x) (Z.to_nat s) in Get m k buf = Ret (Some (take n d ++ drop n buf)).
Proof. intros Hd Hr. pose proof (reach_inv l s m Hd Hr) as I. intros. by apply (Get_prefix l s). Qed.
Print Assumptions C33_get_exact.
(** Partial: Get reads the whole record in the slots s .. l*s/(s+1); missing: the
    lower slots (truncated) and the higher ones (panic, C34). *)
Theorem C33_get_partial l s m k x buf : dims_ok l s → reach l s m → is_key k → 0 ≤ x < l → key_at m x = k → ¬ wedged m k → length buf = Z.to_nat s →
  s ≤ x → x * (s + 1) ≤ l * s → Get m k buf = Ret (record m k).
Proof.
  intros Hd Hr Hk Hx Ex Hw Hl Hs Hb. pose proof (reach_inv l s m Hd Hr) as I. destruct (Get_prefix l s m k x buf I Hk Hx Ex Hw Hb Hl) as (d & Hd' & ->).
  rewrite Hd'. replace (Nat.min (Z.to_nat x) (Z.to_nat s)) with (Z.to_nat s) by lia. rewrite drop_ge by lia. rewrite app_nil_r. do 2 f_equal. apply take_ge.
  rewrite (record_present l s m k x) in Hd'; try done; [|unfold is_key in Hk; lia]. injection Hd' as <-. rewrite (bytes_at_len I) by done. lia.
Qed.
Print Assumptions C33_get_partial.
(** Refuted, for every size: the record stored in slot 0 is never read back. *)
Theorem C33_refuted l s m k fn buf : dims_ok l s → New l s = Ok m → is_key k → fn_ok fn → BufmapSpec.never_panics fn → k mod l = 0 → length buf = Z.to_nat s →
  Get (Update m k fn).1 k buf = Ret (Some buf) ∧ record (Update m k fn).1 k = Some (fn (zeros s) true).1.
Proof. exact (slot0_reads_nothing l s m k fn buf). Qed.
Print Assumptions C33_refuted.

(** ** C34.  Refuted for every map with more than s+1 slots (the demo has 5000
    slots and records of 900 and 416 bytes); true for maps with at most s+1. *)
Theorem C34_refuted l s m fn buf : dims_ok l s → s + 1 < l → New l s = Ok m → fn_ok fn → BufmapSpec.never_panics fn →
  Get (Update m (l - 1) fn).1 (l - 1) buf = Panics.
Proof. exact (last_slot_panics l s m fn buf). Qed.
Print Assumptions C34_refuted.
Theorem C34_small_maps_partial l s m k buf : dims_ok l s → l ≤ s + 1 → reach l s m → is_key k → Get m k buf ≠ Panics.
Proof.
  intros Hd Hls Hr Hk. pose proof (reach_inv l s m Hd Hr) as I. destruct (key_dec m l k) as [(x & Hx & Ex)|Hn].
  - destruct (Get_present l s m k x buf I Hk Hx Ex) as (G1 & G2 & _). destruct Hd as (?&?&?).
    destruct (keys_lookup I x Hx) as (sl & L & _ & Esl). assert (k ≠ 0) by (unfold is_key in Hk; lia).
    pose proof (wedged_slot l s m k x I ltac:(done) Hx Ex) as W.
    destruct (sl_mu sl) eqn:Em; [rewrite G1; [done|apply W; eauto]|].
    rewrite G2; [done| |nia]. rewrite W. intros (sl' & L' & E'). congruence.
  - by rewrite (Get_absent l s m k buf I Hk) by (by apply (record_absent l s)).
Qed.
Print Assumptions C34_small_maps_partial.

(** ** C37.  Partial: the first update of a key sees init = true, and no later one
    does if the key is in its home slot. *)
Theorem C37_init_partial l s m k fn : dims_ok l s → reach l s m → is_key k → fn_ok fn →
  (record m k = None → Update m k fn = Update m k (λ d _, fn d true)) ∧
  (record m k ≠ None → key_at m (home l k) = k → Update m k fn = Update m k (λ d _, fn d false)).
Proof.
  intros Hd Hr Hk Hf. pose proof (reach_inv l s m Hd Hr) as I. split.
  - intros Hn. rewrite (Update_flag l s m k fn I Hk Hf) at 1. by rewrite (first_flag_absent l s m k I Hk Hn).
  - intros _ Hh. rewrite (Update_flag l s m k fn I Hk Hf) at 1. unfold first_flag. by rewrite Hh, Z.eqb_refl.
Qed.
Print Assumptions C37_init_partial.
(** Refuted: a key whose home slot belongs to another key is told init = true at
    every update, for ever. *)
Theorem C37_refuted l s m k us m' rs fn : dims_ok l s → reach l s m → is_key k → fn_ok fn →
  key_at m (home l k) ≠ 0 → key_at m (home l k) ≠ k →
  Forall (λ u, 0 ≤ u.1 < 2^64 ∧ fn_ok u.2) us → run m us = (m', rs) → Update m' k fn = Update m' k (λ d _, fn d true).
Proof.
  intros Hd Hr Hk Hf Hn Hne HF E. pose proof (reach_inv l s m Hd Hr) as I.
  assert (Hh : 0 ≤ home l k < l). { unfold home. apply Z.mod_pos_bound. destruct Hd. lia. }
  destruct (run_keys l s us m m' rs (home l k) I HF E Hh Hn) as [I' K']. rewrite (Update_flag l s m' k fn I' Hk Hf) at 1.
  by rewrite (displaced_flag l s) by (done || congruence).
Qed.
Print Assumptions C37_refuted.

(** ** C38. Update refuses key 0.  Get(0) claims to have found it as soon as one of
    its probe slots is free (in particular in a new map): refuted. *)
Theorem C38_update m fn : Update m 0 fn = (m, Ret (Err ErrInvalidKey)).
Proof. reflexivity. Qed.
Print Assumptions C38_update.
Theorem C38_get_zero_refuted l s m buf : dims_ok l s → reach l s m →
  Get m 0 buf ≠ Ret None ↔ ∃ x, x ∈ probe_slots l 0 ∧ key_at m x = 0.
Proof. intros Hd Hr. pose proof (reach_inv l s m Hd Hr) as I. by rewrite (get_zero l s m buf I). Qed.
Print Assumptions C38_get_zero_refuted.

(** ** C43 (refuted): after an update function panics, every later Update and Get
    of the key hangs, whatever else happens; the other keys are unaffected. *)
Theorem C43_refuted l s m k fn m' us m'' rs fn' buf : dims_ok l s → reach l s m → is_key k → fn_ok fn → Update m k fn = (m', Panics) →
  Forall (λ u, 0 ≤ u.1 < 2^64 ∧ fn_ok u.2) us → run m' us = (m'', rs) → fn_ok fn' →
  (Update m'' k fn').2 = Hangs ∧ Get m'' k buf = Hangs.
Proof.
  intros Hd Hr Hk Hf E HF E2 Hf'. pose proof (reach_inv l s m Hd Hr) as I. destruct (panic_wedges l s m k fn m' I Hk Hf E) as [I' W'].
  destruct (wedged_run l s us m' k m'' rs I' Hk HF E2 W') as [I2 W2]. destruct (wedged_hangs l s m'' k fn' buf I2 Hk Hf' W2) as [-> ->]. done.
Qed.
Print Assumptions C43_refuted.
Theorem C43_no_panic_no_hang_partial l s m us m' rs : dims_ok l s → New l s = Ok m →
  Forall (λ u, is_key u.1 ∧ fn_ok u.2 ∧ BufmapSpec.never_panics u.2) us → run m us = (m', rs) →
  Forall (λ r, ∃ o, r = Ret o) rs ∧ ∀ k buf, is_key k → Get m' k buf ≠ Hangs.
Proof.
  intros Hd E HF Hr. pose proof (New_inv l s m Hd E) as I.
  destruct (run_history l s us m m' rs I HF (λ k _, New_not_wedged l s m k Hd E) Hr) as (I' & Hw' & _).
  assert (Hw : ∀ k, is_key k → ¬ wedged m k) by (intros; by apply (New_not_wedged l s)).
  split.
  - clear I' Hw' E. revert m rs I Hw Hr. induction HF as [|[k fn] us (Hk & Hf & Hp) HF IH]; intros m rs I Hw Hr; cbn [run] in Hr.
    { injection Hr as <- <-. constructor. }
    destruct (Update m k fn) as [m1 r] eqn:E1. destruct (run m1 us) as [m2 rs'] eqn:E2. injection Hr as <- <-. cbn [fst snd] in *.
    destruct (run_history l s [(k, fn)] m m1 [r] I) as (I1 & Hw1 & _); [apply Forall_singleton; done|done|cbn; by rewrite E1|].
    constructor; [|by eapply (IH m1)].
    destruct (Update_full l s m k fn I Hk Hf) as [(_ & _ & E')|[(W & _ & E')|(_ & _ & m3 & H)]]; [rewrite E1 in E'; injection E' as -> ->; eauto|by destruct (Hw k Hk)|].
    specialize (Hp (default (zeros s) (record m k)) (first_flag l m k)). destruct (fn _ _) as [d o]. destruct H as (E' & _). rewrite E1 in E'. injection E' as <- ->. destruct o; cbn; eauto. done.
  - intros k buf Hk. destruct (key_dec m' l k) as [(x & Hx & Ex)|Hn].
    + destruct (Get_present l s m' k x buf I' Hk Hx Ex) as (_ & G2 & G3). specialize (Hw' k Hk). destruct (decide (x * (s+1) ≤ l * s)); [by rewrite G2|rewrite G3; try done; lia].
    + by rewrite (Get_absent l s m' k buf I' Hk) by (by apply (record_absent l s)).
Qed.
Print Assumptions C43_no_panic_no_hang_partial.

(** a concrete history: three keys, two of them sharing a home slot, the third
    lives in a slot Get reads completely *)
Definition push (b : Z) : update_fn := λ d init, (take (length d) ((b + (if init then 100 else 0)) :: d), Ok ()).
Lemma push_ok b : fn_ok (push b).
Proof. intros d i. cbn. rewrite take_length. cbn. lia. Qed.
Lemma push_np b : BufmapSpec.never_panics (push b).
Proof. done. Qed.
Example bufmap_nonvacuous : dims_ok 20 3 ∧
  ∃ m, New 20 3 = Ok m ∧
  let us := [(5, push 1); (25, push 2); (5, push 3); (25, push 4)] in
  Forall (λ u, is_key u.1 ∧ fn_ok u.2 ∧ BufmapSpec.never_panics u.2) us ∧
  let m' := (run m us).1 in
  record m' 5 = Some [3; 101; 0] ∧ record m' 25 = Some [104; 102; 0] ∧ Get m' 5 [7;7;7] = Ret (Some [3; 101; 0]) ∧
  key_at m' (home 20 25) = 5 ∧ Get m' 25 [7;7;7] = Ret (Some [104; 102; 0]) ∧ Get m' 45 [7;7;7] = Ret None.
Proof.
  split; [unfold dims_ok; lia|]. eexists. split; [reflexivity|].
  split. { repeat (apply Forall_cons; split; [split; [unfold is_key; cbn; lia|split; [apply push_ok|apply push_np]]|]). by apply Forall_nil. }
  vm_compute. repeat split.
Qed.
