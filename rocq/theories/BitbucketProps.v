(** Properties C04 - C09: internal/bitbucket. *)
From Verif Require Import Base BaseProofs BitbucketModel BitbucketSpec BitbucketProofs BitbucketSerProofs BitbucketTop.

(** C04: on any collection of n buckets, whatever its contents, Set(i,v) makes
    Get(i) = min(v, 2^w-1) and leaves every other bucket alone. *)
Theorem C04_set_get b n i v : wf b n → (i < n)%nat → 0 ≤ v < 256 →
  ∃ b', BB_Set b (Z.of_nat i) v = Ok b' ∧ wf b' n ∧ bb_w b' = bb_w b ∧
    BB_Get b' (Z.of_nat i) = Ok (Z.min v (cap (bb_w b))) ∧
    ∀ j, (j < n)%nat → j ≠ i → BB_Get b' (Z.of_nat j) = BB_Get b (Z.of_nat j).
Proof. exact (Set_get b n i v). Qed.
Print Assumptions C04_set_get.

(** C05: IncN(i,v) adds v, saturating at 2^w-1, and leaves every other bucket alone. *)
Theorem C05_incn_saturates b n i v x : wf b n → (i < n)%nat → 0 ≤ v < 256 →
  BB_Get b (Z.of_nat i) = Ok x →
  ∃ b', BB_IncN b (Z.of_nat i) v = Ok b' ∧ wf b' n ∧ bb_w b' = bb_w b ∧
    BB_Get b' (Z.of_nat i) = Ok (Z.min (x + v) (cap (bb_w b))) ∧
    ∀ j, (j < n)%nat → j ≠ i → BB_Get b' (Z.of_nat j) = BB_Get b (Z.of_nat j).
Proof. exact (IncN_get b n i v x). Qed.
Print Assumptions C05_incn_saturates.

(** C06: from New(n,w), every sequence of Set/IncN/Reset behaves like an array
    of n saturating counters, for every observer. *)
Theorem C06_refines_array n w os : size_ok n w → Forall (bop_ok n) os →
  ∃ b0 b, BB_New (Z.of_nat n) w = Ok b0 ∧ bb_ops b0 os = Ok b ∧ wf b n ∧
    repr w b (fold_left (arr_op w) os (replicate n 0)).
Proof. exact (New_ops_repr n w os). Qed.
Print Assumptions C06_refines_array.

(** C07: WriteTo emits exactly Len bytes in the documented layout; ReadFrom
    (whatever the receiver held before, however the bytes are delivered) and
    WithBytes restore an equal collection. *)
Theorem C07_roundtrip b n : wf b n →
  let s := bb_serial n (bb_w b) (bb_data b) in
  Z.of_nat (length s) = BB_Len b ∧
  (∀ out, BB_WriteTo b (Writer out None) = (BB_Len b, None, Writer (out ++ s) None)) ∧
  (∀ b0 r, delivers r s → BB_ReadFrom b0 r = Ok (BB_Len b, None, b, [])) ∧
  (∀ rest, BB_WithBytes (s ++ rest) = Ok b).
Proof. exact (roundtrip b n). Qed.
Print Assumptions C07_roundtrip.

(** C07, failing writer: the count reported is the number of bytes the writer
    accepted, which are a prefix of the serialisation; nil error only if all. *)
Theorem C07_write_fail b n out k : wf b n →
  ∃ m e w', BB_WriteTo b (Writer out (Some k)) = (Z.of_nat m, e, w') ∧
   w_out w' = out ++ take m (bb_serial n (bb_w b) (bb_data b)) ∧
   (e = None ↔ Z.of_nat k >= BB_Len b) ∧
   (e = None → Z.of_nat m = BB_Len b) ∧ (e ≠ None → m = k).
Proof. exact (WriteTo_fail b n out k). Qed.
Print Assumptions C07_write_fail.

(** C08 full statement, for WithBytes: no input panics, and a success is a
    usable collection.  It is FALSE: witnesses below. *)
Definition C08_WithBytes_full : Prop := ∀ buf, is_bytes buf →
  match BB_WithBytes buf with
  | Ok b => ∀ i, 0 ≤ i < bb_n b → ∃ v, BB_Get b i = Ok v
  | Err _ => True
  | Panic => False
  end.
(** header: version 1, width 8, n = 2^61: n*w overflows to 0 *)
Theorem C08_withbytes_refuted : ¬ C08_WithBytes_full.
Proof. exact WithBytes_refuted. Qed.
Print Assumptions C08_withbytes_refuted.
(** header: version 1, width 7, n = 2^61: negative length, slice bounds panic *)
Theorem C08_withbytes_panics_refuted : ∃ buf, is_bytes buf ∧ BB_WithBytes buf = Panic.
Proof. exact WithBytes_panics. Qed.
Print Assumptions C08_withbytes_panics_refuted.
(** ReadFrom accepts an unsupported width (9), panics on a negative length, and
    accepts trailing bytes from a reader that returns them together with io.EOF. *)
Theorem C08_readfrom_refuted :
  (∃ r b r', BB_ReadFrom (BB [] 0 1) r = Ok (12, None, b, r') ∧ BB_Width b = 9) ∧
  (∃ r, BB_ReadFrom (BB [] 0 1) r = Panic) ∧
  (∃ s t r b, t ≠ [] ∧ r = [EvData s; EvDataEOF t] ∧ BB_ReadFrom (BB [] 0 1) r = Ok (13, None, b, []) ∧ BB_Len b = 11).
Proof. exact ReadFrom_refuted. Qed.
Print Assumptions C08_readfrom_refuted.

(** C08 restricted to headers announcing a size that can exist: WithBytes
    succeeds exactly on serialised collections (plus trailing bytes), yielding
    that collection, and otherwise returns an error. *)
Theorem C08_withbytes_partial buf : is_bytes buf → sane_header buf →
  (∃ b n, BB_WithBytes buf = Ok b ∧ wf b n ∧ ∃ rest, buf = bb_serial n (bb_w b) (bb_data b) ++ rest) ∨
  (BB_WithBytes buf = Err ErrShortBuffer ∧
    ∀ b n rest, wf b n → buf ≠ bb_serial n (bb_w b) (bb_data b) ++ rest).
Proof. exact (WithBytes_sane_iff buf). Qed.
Print Assumptions C08_withbytes_partial.
(** short input, wrong version and widths above 8 are errors, not panics *)
Theorem C08_withbytes_rejects buf : is_bytes buf →
  (length buf < 10)%nat ∨ buf !! 0%nat ≠ Some 1 ∨ (∃ w, buf !! 1%nat = Some w ∧ 8 < w) →
  ∃ e, BB_WithBytes buf = Err e.
Proof. exact (WithBytes_reject buf). Qed.
Print Assumptions C08_withbytes_rejects.
(** ReadFrom with a sane header, from a reader delivering any chunks and then
    EOF or a failure (data never combined with EOF): no panic, and success only
    if the chunks are exactly one serialised collection. *)
Theorem C08_readfrom_partial b0 cs err : is_bytes (concat cs) → sane_header (concat cs) →
  ∃ k e b r, BB_ReadFrom b0 (plain cs err) = Ok (k, e, b, r) ∧
    (e = None → err = false ∧ ∃ n, wf b n ∧ concat cs = bb_serial n (bb_w b) (bb_data b) ∧ k = BB_Len b).
Proof. exact (ReadFrom_plain b0 cs err). Qed.
Print Assumptions C08_readfrom_partial.

(** C09: operations on a collection opened on a buffer turn the buffer into the
    serialisation of the changed collection; header and trailing bytes stay. *)
Theorem C09_write_through buf b n rest os : wf b n →
  buf = bb_serial n (bb_w b) (bb_data b) ++ rest → Forall (bop_ok n) os →
  BB_WithBytes buf = Ok b ∧
  ∃ b', bb_ops b os = Ok b' ∧
    BB_flush buf b' = bb_serial n (bb_w b) (bb_data b') ++ rest ∧
    BB_WithBytes (BB_flush buf b') = Ok b' ∧
    ∀ a, repr (bb_w b) b a → repr (bb_w b) b' (fold_left (arr_op (bb_w b)) os a).
Proof. exact (write_through buf b n rest os). Qed.
Print Assumptions C09_write_through.

(** Non-vacuity: a 5 x 3-bit collection after a few operations. *)
Example bitbucket_nonvacuous :
  size_ok 5 3 ∧ Forall (bop_ok 5) [OpSet 2 6; OpInc 2 1; OpInc 4 200; OpSet 0 3] ∧
  (∃ b, (let! b := BB_New 5 3 in bb_ops b [OpSet 2 6; OpInc 2 1; OpInc 4 200; OpSet 0 3]) = Ok b ∧
     wf b 5 ∧ BB_Get b 2 = Ok 7 ∧ BB_Get b 4 = Ok 7 ∧ BB_Get b 0 = Ok 3 ∧ BB_Get b 1 = Ok 0 ∧ BB_CountN b 7 = Ok 2 ∧
     sane_header (bb_serial 5 3 (bb_data b) ++ [9]) ∧
     delivers [EvData [1; 3; 5; 0]; EvData [0; 0; 0; 0; 0; 0]; EvDataEOF (bb_data b)] (bb_serial 5 3 (bb_data b))).
Proof.
  assert (size_ok 5 3) by (unfold size_ok; lia).
  split; [done|]. split; [repeat constructor; lia|]. eexists. split; [vm_compute; reflexivity|].
  split_and!; try reflexivity.
  - constructor; simpl; [done|done|unfold is_bytes; repeat constructor; unfold is_byte; lia|reflexivity].
  - exists 3, (put64 5). split_and!; [reflexivity|reflexivity|]. exact H.
  - apply (dl_data [1; 3; 5; 0] _ [0; 0; 0; 0; 0; 0; 99; 142]); [done|].
    apply (dl_data [0; 0; 0; 0; 0; 0] _ [99; 142]); [done|]. constructor.
Qed.
