From Coq Require Import ZifyBool ZifyNat.
From Verif Require Import Base BaseProofs Probe BufmapModel BufmapSpec BufconcModel BufconcSpec BufconcProofs BufconcInv BufconcStep BufconcTop BufconcLive.
Local Open Scope Z_scope.

(** a goroutine that waits for another one: for the mutex of a slot, or for an even sequence number *)
Definition spins (m : Map) (p : pc) : bool :=
  match p with ULock x _ => sl_mu (sl m x) | GSeq1 x _ => negb (sl_seq (sl m x) mod 2 =? 0) | _ => false end.
(** the step in front of the goroutine changes a sequence number *)
Definition bumps (p : pc) : bool := match p with USeq1 _ _ | USeq2 _ _ _ => true | _ => false end.

Section fair.
(** R: what a repeated read costs; B: what a change of a sequence number may cost all
    readers together; q: a bound for the accesses of an update function *)
Context (R B q : nat).
Definition op_fits (o : op) : Prop := match o with OGet k buf => (length buf + 3 ≤ R)%nat | OUpdate k fn => costs fn q end.
Definition fits2 (m : Map) (o : op) (p : pc) (f : nat) : Prop :=
  match o, p with
  | OGet k buf, GLoad i => ((11 - i) + length buf + 3 ≤ f)%nat
  | OGet k buf, GSeq1 x _ => (length buf + 3 ≤ f)%nat
  | OGet k buf, GCopy x q j _ => (again m x q buf + (length buf - j) + 2 ≤ f)%nat
  | OGet k buf, GSeq2 x q _ => (again m x q buf + 2 ≤ f)%nat
  | OUpdate k fn, ULoad i _ => (3 * (11 - i) + q + 5 + 2 * B ≤ f)%nat
  | OUpdate k fn, UCas i _ => (3 * (11 - i) + q + 4 + 2 * B ≤ f)%nat
  | OUpdate k fn, UReload i _ => (3 * (11 - i) + q + 3 + 2 * B ≤ f)%nat
  | OUpdate k fn, ULock _ _ => (q + 5 + 2 * B ≤ f)%nat
  | OUpdate k fn, USeq1 _ _ => (q + 4 + 2 * B ≤ f)%nat
  | OUpdate k fn, UFn _ _ p => ∃ q', bounded q' p ∧ (q' + 3 + B ≤ f)%nat
  | OUpdate k fn, USeq2 _ _ _ => (3 + B ≤ f)%nat
  | OUpdate k fn, UUnlock _ _ => (2 ≤ f)%nat
  | _, PRet _ => (1 ≤ f)%nat
  | _, _ => False
  end.
Definition call_cost : nat := 33 + q + 5 + 2 * B + 11 + R.
Lemma fits2_start m o : op_fits o → fits2 m o (start o) call_cost.
Proof. unfold call_cost. destruct o as [k buf|k fn]; cbn; [lia|]. intros _. destruct (k =? 0); cbn; lia. Qed.
Lemma fits2_mono m o p f f' : fits2 m o p f → (f ≤ f')%nat → fits2 m o p f'.
Proof. intros H Hf. destruct o, p; cbn in *; try done; try lia. destruct H as (q' & ? & ?). exists q'. split; [done|lia]. Qed.
Lemma fits2_pos m o p f : fits2 m o p f → (1 ≤ f)%nat.
Proof. destruct o, p; cbn; try done; try lia. intros (q' & ? & ?). lia. Qed.

Lemma spin_step l s c h t o p : inv l s c h → c_threads c !! t = Some (Some (o, p)) → spins (c_map c) p = true → step_call (c_map c) t o p = (c_map c, p, []).
Proof.
  intros I L Hs. pose proof (v_shape _ _ _ _ I) as Hsh. destruct (v_thr _ _ _ _ I t o p L) as (h1 & h2 & _ & _ & Ht).
  destruct o as [k buf|k fn]; destruct p; try done; cbn [spins thr] in Hs, Ht; cbn [step_call].
  - destruct Ht as (Hx & _). rewrite (index_sl Hsh) by done. apply negb_true_iff in Hs. by rewrite Hs.
  - destruct Ht as (_ & Hx & _). rewrite (index_sl Hsh) by done. by rewrite Hs.
Qed.
Lemma own_fits l s c h t o p m' p' es f : inv l s c h → c_threads c !! t = Some (Some (o, p)) → op_fits o → spins (c_map c) p = false → (∀ r, p ≠ PRet r) →
  step_call (c_map c) t o p = (m', p', es) → fits2 (c_map c) o p f → ∃ f', fits2 m' o p' f' ∧ (f' + 1 + (if bumps p then B else 0) ≤ f)%nat.
Proof.
  intros I L Ho Hs Hnr E Hf. pose proof (v_dims _ _ _ _ I) as Hd. pose proof (v_shape _ _ _ _ I) as Hsh. assert (0 < l < 2^63) as Hl by (destruct Hd as (?&?&?); nia).
  destruct (v_thr _ _ _ _ I t o p L) as (h1 & h2 & _ & _ & Ht).
  destruct o as [k buf|k fn]; destruct p as [i|y b'|y q' j b'|y q' b'|i init|i y|i y|y init|y init|y init p|y init r|y r|r]; try done; cbn [step_call fits2 op_fits spins bumps] in E, Hf, Ho, Hs |- *; try (by destruct (Hnr r)).
  - destruct Ht as (Hk & Hi & _). rewrite (sh_l _ _ _ Hsh), pos_probe in E by (done || lia). cbn [obind] in E. rewrite (index_sl Hsh) in E by (apply probe_range; lia). injection E as <- <- <-. exists (f - 1)%nat. split; [|lia].
    destruct (_ =? k); cbn; [lia|]. unfold greprobe. destruct (Nat.ltb_spec maxReprobe (S i)); cbn; unfold maxReprobe in *; lia.
  - destruct Ht as (Hx & _). rewrite (index_sl Hsh) in E by done. apply negb_false_iff in Hs. rewrite Hs in E. exists (f - 1)%nat. split; [|lia].
    destruct (slice _ _ _); injection E as <- <- <-; [|cbn; lia..]. destruct (_ <? _)%nat; cbn; unfold again; rewrite Z.eqb_refl; lia.
  - destruct Ht as (Hx & _ & _ & [Hb _] & Hj & _). injection E as <- <- <-. exists (f - 1)%nat. split; [|lia]. unfold ncopy in Hj. destruct (_ <? _); cbn; lia.
  - destruct Ht as (Hx & _). rewrite (index_sl Hsh) in E by done. injection E as <- <- <-. exists (f - 1)%nat. split; [|lia]. unfold again in Hf. destruct (_ =? _); cbn; lia.
  - destruct Ht as (Hk & Hi & _). rewrite (sh_l _ _ _ Hsh), pos_probe in E by (done || lia). cbn [obind] in E. rewrite (index_sl Hsh) in E by (apply probe_range; lia). injection E as <- <- <-. exists (f - 1)%nat. split; [|lia].
    destruct (_ =? k); [|destruct (_ =? 0)]; cbn; lia.
  - destruct Ht as (Hk & Hi & _ & _ & -> & _). rewrite (index_sl Hsh) in E by (apply probe_range; lia). exists (f - 1)%nat. split; [|lia]. destruct (_ =? 0); injection E as <- <- <-; cbn; lia.
  - destruct Ht as (Hk & Hi & _ & _ & -> & _). rewrite (index_sl Hsh) in E by (apply probe_range; lia). injection E as <- <- <-. exists (f - 1)%nat. split; [|lia].
    destruct (_ =? k); [cbn; lia|]. unfold reprobe. destruct (Nat.ltb_spec maxReprobe (S i)); cbn; unfold maxReprobe in *; lia.
  - destruct Ht as (Hk & Hx & Ek & _). rewrite (index_sl Hsh) in E by done. rewrite Hs in E. injection E as <- <- <-. exists (f - 1)%nat. split; [|lia]. cbn; lia.
  - destruct Ht as (Hk & Hx & Ek & _). destruct Ho as [Hc1 Hc2]. rewrite (index_sl Hsh) in E by done. injection E as <- <- <-. exists (f - 1 - B)%nat. split; [|lia]. exists q. split; [by destruct init|lia].
  - destruct Ht as (Hk & Hx & Ek & _). destruct Hf as (q' & Hq & Hf). rewrite (slice_slot Hd Hsh) in E by done. exists (f - 1)%nat. split; [|lia]. destruct q' as [|q']; [done|]. cbn [bounded] in Hq.
    destruct p as [r|i g|i v g].
    + destruct r; injection E as <- <- <-; cbn; lia.
    + destruct (_ && _); injection E as <- <- <-; [|cbn; lia]. exists q'. split; [done|lia].
    + destruct (_ && _); injection E as <- <- <-; [|cbn; lia]. exists q'. split; [done|lia].
  - destruct Ht as (Hk & Hx & Ek & _). rewrite (index_sl Hsh) in E by done. injection E as <- <- <-. exists (f - 1 - B)%nat. cbn. lia.
  - destruct Ht as (Hk & Hx & Ek & _). rewrite (index_sl Hsh) in E by done. injection E as <- <- <-. exists (f - 1)%nat. cbn. lia.
Qed.
(** what a step of another goroutine costs *)
Lemma other_fits l s c h t o p m' p' es t2 o2 p2 f : inv l s c h → c_threads c !! t = Some (Some (o, p)) → step_call (c_map c) t o p = (m', p', es) →
  c_threads c !! t2 = Some (Some (o2, p2)) → op_fits o2 → fits2 (c_map c) o2 p2 f → fits2 m' o2 p2 (f + if bumps p then R else 0)%nat.
Proof.
  intros I L E L2 Ho Hf. pose proof (v_dims _ _ _ _ I) as Hd. pose proof (v_shape _ _ _ _ I) as Hsh. destruct (v_thr _ _ _ _ I t2 o2 p2 L2) as (i1 & i2 & _ & _ & Ht2).
  destruct (bumps p) eqn:Hb.
  - destruct o2 as [k2 buf2|k2 fn2], p2; cbn [fits2 op_fits] in *; try done; try lia; [..|destruct Hf as (q' & ? & ?); exists q'; split; [done|lia]]; unfold again in *; repeat case_match; lia.
  - assert (∀ x, 0 ≤ x < l → sl_seq (sl m' x) = sl_seq (sl (c_map c) x)) as Hseq.
    { intros x Hx. destruct o as [k' b|k' fn]; destruct p as [i|y b'|y q' j b'|y q' b'|i init|i y|i y|y init|y init|y init p|y init r|y r|r]; try done; cbn [step_call] in E;
        repeat match type of E with context [match ?q with _ => _ end] => destruct q eqn:? end; injection E as <- <- <-; try done;
        match goal with H : index _ _ = Ok _ |- _ => pose proof (index_range _ _ _ H) as Hr; rewrite (sh_keys _ _ _ Hsh) in Hr; assert (0 ≤ y < l) as Hy by (destruct Hd as (?&?&?); lia); rewrite (index_sl Hsh) in H by done; injection H as <- end;
        rewrite (sl_set Hsh) by (done || lia); by destruct (decide (y = x)) as [->|]. }
    rewrite Nat.add_0_r. destruct o2 as [k2 buf2|k2 fn2], p2; cbn [fits2] in *; try done; destruct Ht2 as (Hx & _); unfold again in *; by rewrite Hseq.
Qed.
Lemma free_fits m o2 p2 f m' : fits2 m o2 p2 f → m_keys m' = m_keys m → fits2 m' o2 p2 f.
Proof. intros Hf E. destruct o2 as [k2 buf2|k2 fn2], p2; cbn [fits2] in *; try done; unfold again, sl in *; by rewrite E. Qed.
End fair.
(** somebody holds what a goroutine waits for, and does not wait *)
Lemma waits_for l s c h t o p : inv l s c h → (∀ k, ¬ dead k h) → c_threads c !! t = Some (Some (o, p)) → spins (c_map c) p = true →
  ∃ t' o' p', c_threads c !! t' = Some (Some (o', p')) ∧ spins (c_map c) p' = false.
Proof.
  intros I Hnd L Hs. destruct (v_thr _ _ _ _ I t o p L) as (h1 & h2 & _ & _ & Ht).
  assert (∃ x, 0 ≤ x < l ∧ (sl_mu (sl (c_map c) x) = true ∨ (sl_seq (sl (c_map c) x) mod 2 =? 0) = false)) as (x & Hx & Hw).
  { destruct o as [k buf|k fn]; destruct p; try done; cbn [spins thr] in Hs, Ht; [destruct Ht as (Hx & _); apply negb_true_iff in Hs; eauto|destruct Ht as (_ & Hx & _); eauto]. }
  destruct (phase I Hx) as [(Hmu & Hbal & _)|[(_ & _ & t' & o' & p' & L' & Hc & _)|(_ & _ & Hd & _)]].
  - exfalso. destruct Hw as [Hw|Hw]; [congruence|]. apply (even_balance I Hx) in Hbal. congruence.
  - exists t', o', p'. split; [done|]. by destruct p'.
  - by apply Hnd in Hd.
Qed.
