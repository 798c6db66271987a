(** Properties C10 - C12: internal/summary/bloom. *)
From Verif Require Import Base FnvSpec BitbucketModel BitbucketSpec BloomModel BloomSpec BloomProofs.

(** C10: whatever else was added, a value added since the last Reset is reported present. *)
Theorem C10_no_false_negatives m k os v : (1 ≤ m)%nat → size_ok m 1 → 0 ≤ k < 256 → Forall blop_ok os →
  v ∈ bloom_members os →
  ∃ b0 b, Bloom_NewBits (Z.of_nat m) k = Ok b0 ∧ bloom_ops b0 os = Ok b ∧ Bloom_Has b v = Ok true.
Proof. exact (no_false_negatives m k os v). Qed.
Print Assumptions C10_no_false_negatives.
(** C10, exact characterisation: Has answers true precisely when all k positions
    of the value are covered by the values added since the last Reset. *)
Theorem C10_has_exact m k os : (1 ≤ m)%nat → size_ok m 1 → 0 ≤ k < 256 → Forall blop_ok os →
  ∃ b0 b, Bloom_NewBits (Z.of_nat m) k = Ok b0 ∧ bloom_ops b0 os = Ok b ∧ bloom_wf b m k ∧
    ∀ v, is_bytes v → Bloom_Has b v = Ok (bool_decide
       (Forall (λ x, x ∈ bloom_covered (Z.of_nat m) (Z.to_nat k) (bloom_members os))
               (bloom_positions (Z.of_nat m) (Z.to_nat k) v))).
Proof. exact (bloom_history m k os). Qed.
Print Assumptions C10_has_exact.

(** C11: serialisation restores an identical filter, so every Has answer is preserved. *)
Theorem C11_roundtrip b m k : bloom_wf b m k →
  let s := bloom_serial m k (bb_data (bl_bits b)) in
  Z.of_nat (length s) = Bloom_Len b ∧
  (∀ out, Bloom_WriteTo b (Writer out None) = (Bloom_Len b, None, Writer (out ++ s) None)) ∧
  (∀ b0 r, delivers r s → Bloom_ReadFrom b0 r = Ok (Bloom_Len b, None, b, [])) ∧
  (∀ rest, Bloom_WithBytes (s ++ rest) = Ok b).
Proof. exact (Bloom_roundtrip b m k). Qed.
Print Assumptions C11_roundtrip.
(** C11: adding through a filter opened on a buffer leaves the buffer holding
    the serialisation of the new filter. *)
Theorem C11_write_through b m k rest u : bloom_wf b m k → is_bytes u →
  ∃ b', Bloom_Add b u = Ok b' ∧
    Bloom_flush (bloom_serial m k (bb_data (bl_bits b)) ++ rest) b' = bloom_serial m k (bb_data (bl_bits b')) ++ rest.
Proof. exact (Bloom_write_through b m k rest u). Qed.
Print Assumptions C11_write_through.

(** C12: membership only grows under Add, on a filter of arbitrary content. *)
Theorem C12_monotone b m k u : bloom_wf b m k → is_bytes u →
  ∃ b', Bloom_Add b u = Ok b' ∧ bloom_wf b' m k ∧ Bloom_Has b' u = Ok true ∧
    ∀ v, is_bytes v → Bloom_Has b v = Ok true → Bloom_Has b' v = Ok true.
Proof. exact (bloom_Add_mono b m k u). Qed.
Print Assumptions C12_monotone.
(** C12: a new filter contains nothing. *)
Theorem C12_new_empty m k v : (1 ≤ m)%nat → size_ok m 1 → 1 ≤ k < 256 → is_bytes v →
  ∃ b, Bloom_NewBits (Z.of_nat m) k = Ok b ∧ Bloom_Has b v = Ok false.
Proof. exact (bloom_New_empty m k v). Qed.
Print Assumptions C12_new_empty.
(** C12: Reset empties any filter. *)
Theorem C12_reset_empty b m k v : bloom_wf b m k → 1 ≤ k → is_bytes v →
  bloom_wf (Bloom_Reset b) m k ∧ Bloom_Has (Bloom_Reset b) v = Ok false.
Proof. exact (bloom_Reset_empty b m k v). Qed.
Print Assumptions C12_reset_empty.

(** Non-vacuity: a 37 bit, 3 hash filter with two members (a third value absent). *)
Example bloom_nonvacuous : size_ok 37 1 ∧ Forall blop_ok [BAdd [9]; BReset; BAdd [97; 98]; BAdd [0]] ∧
  [97; 98] ∈ bloom_members [BAdd [9]; BReset; BAdd [97; 98]; BAdd [0]] ∧
  (∃ b, (let! b := Bloom_NewBits 37 3 in bloom_ops b [BAdd [9]; BReset; BAdd [97; 98]; BAdd [0]]) = Ok b ∧
    bloom_wf b 37 3 ∧ Bloom_Has b [97; 98] = Ok true ∧ Bloom_Has b [5] = Ok false).
Proof.
  assert (H : size_ok 37 1) by (unfold size_ok; lia).
  split; [done|]. split; [repeat constructor; unfold is_byte; lia|]. split; [vm_compute; left|].
  eexists. split; [vm_compute; reflexivity|]. split; [|split; vm_compute; reflexivity].
  unfold bloom_wf. split_and!; try (done || lia).
  constructor; [done|done|repeat constructor; unfold is_byte; lia|reflexivity].
Qed.
