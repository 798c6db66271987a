(** Properties C82 - C83: interrupted writes, truncated streams and truncated
    buffers of the three serialised structures (bit buckets, bloom filters,
    hyperloglog counters). *)
From Verif Require Import Base BaseProofs BitbucketModel BitbucketSpec BitbucketProofs BitbucketSerProofs
  FnvModel FnvSpec BloomModel BloomSpec BloomProofs HllModel HllSpec HllProofs SerProofs.

(** C82: a stream that ends anywhere before the last byte of a serialisation,
    however it is fragmented, is reported by ReadFrom as io.ErrUnexpectedEOF
    together with the number of bytes received; it is never accepted and never
    reported as a clean io.EOF. *)
Theorem C82_bitbucket_truncated b n b0 r j : wf b n → Z.of_nat j < BB_Len b →
  delivers r (take j (bb_serial n (bb_w b) (bb_data b))) →
  ∃ b' r', BB_ReadFrom b0 r = Ok (Z.of_nat j, Some ErrUnexpectedEOF, b', r').
Proof. exact (ReadFrom_truncated b n b0 r j). Qed.
Print Assumptions C82_bitbucket_truncated.
Theorem C82_bloom_truncated b m k b0 r j : bloom_wf b m k → Z.of_nat j < Bloom_Len b →
  delivers r (take j (bloom_serial m k (bb_data (bl_bits b)))) →
  ∃ b' r', Bloom_ReadFrom b0 r = Ok (Z.of_nat j, Some ErrUnexpectedEOF, b', r').
Proof. exact (Bloom_ReadFrom_trunc b m k b0 r j). Qed.
Print Assumptions C82_bloom_truncated.
Theorem C82_hll_truncated c p c0 r j : hll_wf c p → Z.of_nat j < Hll_Len c →
  delivers r (take j (hll_serial p (bb_data (hc_bits c)))) →
  ∃ c' r', Hll_ReadFrom c0 r = Ok (Z.of_nat j, Some ErrUnexpectedEOF, c', r').
Proof. exact (Hll_ReadFrom_trunc c p c0 r j). Qed.
Print Assumptions C82_hll_truncated.
(** C82: with a writer that fails after [room] bytes, WriteTo reports exactly
    the bytes that were accepted, they are a prefix of the serialisation, and
    the error is nil exactly when everything was accepted. *)
Theorem C82_bloom_write_fail b m k out room : bloom_wf b m k →
  ∃ j e w', Bloom_WriteTo b (Writer out (Some room)) = (Z.of_nat j, e, w') ∧
   w_out w' = out ++ take j (bloom_serial m k (bb_data (bl_bits b))) ∧
   (e = None ↔ Z.of_nat room >= Bloom_Len b) ∧
   (e = None → Z.of_nat j = Bloom_Len b) ∧ (e ≠ None → j = room).
Proof. exact (Bloom_WriteTo_fail b m k out room). Qed.
Print Assumptions C82_bloom_write_fail.
Theorem C82_hll_write_fail c p out room : hll_wf c p →
  ∃ j e w', Hll_WriteTo c (Writer out (Some room)) = (Z.of_nat j, e, w') ∧
   w_out w' = out ++ take j (hll_serial p (bb_data (hc_bits c))) ∧
   (e = None ↔ Z.of_nat room >= Hll_Len c) ∧
   (e = None → Z.of_nat j = Hll_Len c) ∧ (e ≠ None → j = room).
Proof. exact (Hll_WriteTo_fail c p out room). Qed.
Print Assumptions C82_hll_write_fail.

(** C83: opening a buffer that holds only a proper prefix of a serialisation.
    A bit bucket reports io.ErrShortBuffer; a bloom filter or a counter does so
    too once the prefix has two bytes, and with fewer it panics, so the claim
    that a truncated buffer is always an error is false for them. *)
Theorem C83_bitbucket_short_buffer b n j : wf b n → Z.of_nat j < BB_Len b →
  BB_WithBytes (take j (bb_serial n (bb_w b) (bb_data b))) = Err ErrShortBuffer.
Proof. exact (BB_WithBytes_trunc b n j). Qed.
Print Assumptions C83_bitbucket_short_buffer.
Theorem C83_bloom_short_buffer_partial b m k j : bloom_wf b m k → Z.of_nat j < Bloom_Len b → (2 ≤ j)%nat →
  Bloom_WithBytes (take j (bloom_serial m k (bb_data (bl_bits b)))) = Err ErrShortBuffer.
Proof.
  intros H Hj H2. rewrite Bloom_WithBytes_trunc by done.
  by replace (j <? 2)%nat with false by (symmetry; apply Nat.ltb_ge; done).
Qed.
Print Assumptions C83_bloom_short_buffer_partial.
Theorem C83_hll_short_buffer_partial c p j : hll_wf c p → Z.of_nat j < Hll_Len c → (2 ≤ j)%nat →
  Hll_WithBytes (take j (hll_serial p (bb_data (hc_bits c)))) = Err ErrShortBuffer.
Proof.
  intros H Hj H2. rewrite Hll_WithBytes_trunc by done.
  by replace (j <? 2)%nat with false by (symmetry; apply Nat.ltb_ge; done).
Qed.
Print Assumptions C83_hll_short_buffer_partial.
Theorem C83_panics_refuted :
  Bloom_WithBytes [] = Panic ∧ Bloom_WithBytes [1] = Panic ∧ Hll_WithBytes [] = Panic ∧ Hll_WithBytes [1] = Panic.
Proof. by vm_compute. Qed.
Print Assumptions C83_panics_refuted.

(** Non-vacuity: a counter and a filter that meet the hypotheses, and a
    truncated reader with an awkward fragmentation. *)
Example ser_nonvacuous :
  (∃ c, Hll_New 4 = Ok c ∧ hll_wf c 4 ∧ Hll_Len c = 24) ∧
  (∃ b, Bloom_NewBits 37 3 = Ok b ∧ bloom_wf b 37 3 ∧ Bloom_Len b = 17 ∧
    delivers [EvData [1]; EvData [3; 1; 1]; EvDataEOF [37; 0; 0]] (take 7 (bloom_serial 37 3 (bb_data (bl_bits b)))) ∧
    Bloom_ReadFrom b [EvData [1]; EvData [3; 1; 1]; EvDataEOF [37; 0; 0]] =
      Ok (7, Some ErrUnexpectedEOF, BL (BB [] 0 0) 37 3, [])).
Proof.
  split.
  - destruct (Hll_New 4) as [c| |] eqn:E; [|discriminate E..]. exists c. split; [done|].
    destruct (New_Ok 4 ltac:(lia)) as (c' & E' & Hwf & _). rewrite E in E'. injection E' as <-. split; [done|].
    injection E as <-. reflexivity.
  - eexists. split; [vm_compute; reflexivity|]. split_and!; try reflexivity.
    + split_and!; try done; try lia. constructor; simpl; [done|unfold size_ok; lia| |done].
      unfold is_bytes; repeat constructor; unfold is_byte; lia.
    + apply (dl_data [1] _ [3; 1; 1; 37; 0; 0]); [done|]. apply (dl_data [3; 1; 1] _ [37; 0; 0]); [done|]. constructor.
Qed.
