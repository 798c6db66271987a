(** Properties C13 - C16, C18: internal/summary/hll (register part). *)
From Verif Require Import Base FnvSpec BitbucketModel BitbucketSpec BitbucketProofs HllModel HllSpec HllProofs.

(** C13: the state depends only on the set of items. *)
Theorem C13_set_semantics p vs us : 4 ≤ p ≤ 18 → Forall is_bytes vs → Forall is_bytes us →
  (∀ v, v ∈ vs ↔ v ∈ us) →
  ∃ c0 c, Hll_New p = Ok c0 ∧ Hll_Adds c0 vs = Ok c ∧ Hll_Adds c0 us = Ok c.
Proof. exact (same_set_same_state p vs us). Qed.
Print Assumptions C13_set_semantics.
(** C13: re-adding an item changes nothing, whatever the registers held. *)
Theorem C13_idempotent c p v c1 : hll_wf c p → is_bytes v → Hll_Add c v = Ok c1 → Hll_Add c1 v = Ok c1.
Proof. exact (Add_idem c p v c1). Qed.
Print Assumptions C13_idempotent.
(** C13: two items can be added in either order, whatever the registers held. *)
Theorem C13_commutes c p v u c1 c2 : hll_wf c p → is_bytes v → is_bytes u →
  Hll_Adds c [v; u] = Ok c1 → Hll_Adds c [u; v] = Ok c2 → c1 = c2.
Proof. exact (Add_comm c p v u c1 c2). Qed.
Print Assumptions C13_commutes.

(** C14: register j holds [hll_register p vs j] ... *)
Theorem C14_registers p vs : 4 ≤ p ≤ 18 → Forall is_bytes vs →
  ∃ c0 c, Hll_New p = Ok c0 ∧ Hll_Adds c0 vs = Ok c ∧ hll_wf c p ∧
    ∀ j, (j < hll_size p)%nat → BB_Get (hc_bits c) (Z.of_nat j) = Ok (hll_register p vs (Z.of_nat j)).
Proof. exact (New_Adds p vs). Qed.
Print Assumptions C14_registers.
(** ... which is the maximum rank of the items of bucket j, or 0 if there is none ... *)
Theorem C14_register_is_max p vs j : 4 ≤ p ≤ 18 →
  (∀ v, v ∈ vs → hll_bucket p (fnv1_spec v) = j → hll_rank p (fnv1_spec v) ≤ hll_register p vs j) ∧
  ((∃ v, v ∈ vs ∧ hll_bucket p (fnv1_spec v) = j ∧ hll_register p vs j = hll_rank p (fnv1_spec v)) ∨
   ((∀ v, v ∈ vs → hll_bucket p (fnv1_spec v) ≠ j) ∧ hll_register p vs j = 0)).
Proof. exact (register_max p vs j). Qed.
Print Assumptions C14_register_is_max.
(** ... and at most 65-p, hence below 64. *)
Theorem C14_register_bound p vs j : 4 ≤ p ≤ 18 → 0 ≤ hll_register p vs j ≤ 65 - p.
Proof. exact (register_bound p vs j). Qed.
Print Assumptions C14_register_bound.

(** C15: New panics exactly outside [4,18]; see C14_registers for Add. *)
Theorem C15_new_panics p : ¬ 4 ≤ p ≤ 18 → Hll_New p = Panic.
Proof. exact (New_panics p). Qed.
Print Assumptions C15_new_panics.
(** C15: Add never panics on a counter with arbitrary registers (as WithBytes may yield). *)
Theorem C15_add_safe c p v : hll_wf c p → is_bytes v →
  ∃ c', Hll_Add c v = Ok c' ∧ hll_wf c' p ∧
    ∀ j, (j < hll_size p)%nat → hreg c' j =
      (if decide (hll_bucket p (fnv1_spec v) = Z.of_nat j) then Z.max (hreg c j) (hll_rank p (fnv1_spec v)) else hreg c j).
Proof. exact (Add_Ok c p v). Qed.
Print Assumptions C15_add_safe.
(** C15: the histogram Count builds never indexes outside its 64 cells, and is
    the histogram of the registers. *)
Theorem C15_histogram_safe c p : hll_wf c p →
  ∃ cn, hll_hist c = Ok cn ∧ length cn = 64%nat ∧
   ∀ r, (r < 64)%nat → cn !! r = Some (count_eq (Z.of_nat r) (bvals (hc_bits c) (hll_size p))).
Proof. exact (hist_Ok c p). Qed.
Print Assumptions C15_histogram_safe.

(** C16 *)
Theorem C16_roundtrip c p : hll_wf c p →
  let s := hll_serial p (bb_data (hc_bits c)) in
  Z.of_nat (length s) = Hll_Len c ∧ Hll_Len c = Hll_LenOf p ∧
  (∀ out, Hll_WriteTo c (Writer out None) = (Hll_Len c, None, Writer (out ++ s) None)) ∧
  (∀ c0 r, delivers r s → Hll_ReadFrom c0 r = Ok (Hll_Len c, None, c, [])) ∧
  (∀ rest, Hll_WithBytes (s ++ rest) = Ok c).
Proof. exact (Hll_roundtrip c p). Qed.
Print Assumptions C16_roundtrip.
Theorem C16_write_through c p rest v : hll_wf c p → is_bytes v →
  let buf := hll_serial p (bb_data (hc_bits c)) ++ rest in
  Hll_WithBytes buf = Ok c ∧
  ∃ c', Hll_Add c v = Ok c' ∧ hll_wf c' p ∧
    Hll_flush buf c' = hll_serial p (bb_data (hc_bits c')) ++ rest ∧
    Hll_WithBytes (Hll_flush buf c') = Ok c'.
Proof. exact (Hll_write_through c p rest v). Qed.
Print Assumptions C16_write_through.

(** C18 is false: values differing only in their last byte always fall in the
    same register, at every precision and for every prefix. *)
Theorem C18_last_byte_refuted p pre a b : 4 ≤ p ≤ 18 → is_bytes pre → is_byte a → is_byte b →
  hll_bucket p (fnv1_spec (pre ++ [a])) = hll_bucket p (fnv1_spec (pre ++ [b])).
Proof. exact (same_last_byte_register p pre a b). Qed.
Print Assumptions C18_last_byte_refuted.
(** Consequence: after adding any of the 256 values pre++[a], at most one
    register is non-zero. *)
Theorem C18_one_register_refuted p pre l : 4 ≤ p ≤ 18 → is_bytes pre → is_bytes l →
  ∃ j0 c0 c, Hll_New p = Ok c0 ∧ Hll_Adds c0 (map (λ a, pre ++ [a]) l) = Ok c ∧
    ∀ j, (j < hll_size p)%nat → Z.of_nat j ≠ j0 → BB_Get (hc_bits c) (Z.of_nat j) = Ok 0.
Proof. exact (same_prefix_one_register p pre l). Qed.
Print Assumptions C18_one_register_refuted.

(** Non-vacuity *)
Example hll_nonvacuous : ∃ c0 c, Hll_New 4 = Ok c0 ∧ Hll_Adds c0 [[97]; [98; 7]; [97]; [1; 2; 3]] = Ok c ∧ hll_wf c 4 ∧
  BB_CountN (hc_bits c) 0 = Ok 13.
Proof.
  destruct (New_Adds 4 [[97]; [98; 7]; [97]; [1; 2; 3]] ltac:(lia)) as (c0 & c & E0 & E & Hc & _).
  { repeat constructor; unfold is_byte; lia. }
  exists c0, c. split_and!; [done|done|apply Hc ..|].
  vm_compute in E0. injection E0 as <-. vm_compute in E. injection E as <-. vm_compute. reflexivity.
Qed.
