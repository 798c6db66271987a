(** Failing writers, truncated streams and truncated buffers for the three
    serialised structures: lemmas behind SerProps.v. *)
From Verif Require Import Base BaseProofs BitbucketModel BitbucketSpec BitbucketProofs BitbucketSerProofs
  FnvModel FnvSpec BloomModel BloomSpec BloomProofs HllModel HllSpec HllProofs.
From Coq Require Import ZifyBool ZifyNat.
Ltac Zify.zify_post_hook ::= Z.div_mod_to_equations.

Lemma Bloom_WriteTo_fail b m k out room : bloom_wf b m k →
  ∃ j e w', Bloom_WriteTo b (Writer out (Some room)) = (Z.of_nat j, e, w') ∧
   w_out w' = out ++ take j (bloom_serial m k (bb_data (bl_bits b))) ∧
   (e = None ↔ Z.of_nat room >= Bloom_Len b) ∧
   (e = None → Z.of_nat j = Bloom_Len b) ∧ (e ≠ None → j = room).
Proof.
  intros (Hwf & Hw & Hm & Hk & Hk8 & Hm1). unfold Bloom_WriteTo, write. cbn [w_room w_out length].
  unfold Bloom_Len, BloomHdrLen, bloom_serial. rewrite Hk.
  assert (HL : 10 ≤ BB_Len (bl_bits b)) by (unfold BB_Len; lia).
  destruct (Nat.leb_spec 2 room) as [H|H].
  - destruct (WriteTo_fail (bl_bits b) m (out ++ [BloomVersion; k]) (room - 2) Hwf) as (j & e & w' & E & Ho & He1 & He2 & He3).
    rewrite E. exists (2 + j)%nat, e, w'. rewrite Hw in Ho. split_and!.
    + replace (Z.of_nat (2 + j)) with (Z.of_nat 2 + Z.of_nat j) by lia. by destruct e.
    + rewrite Ho, <- app_assoc. done.
    + rewrite He1. lia.
    + intros He. apply He2 in He. lia.
    + intros He. apply He3 in He. lia.
  - exists room. eexists _, _. split; [done|]. cbn [w_out]. split_and!.
    + destruct room as [|[|r]]; [done|done|lia].
    + split; [done|lia].
    + done.
    + done.
Qed.
Lemma Hll_WriteTo_fail c p out room : hll_wf c p →
  ∃ j e w', Hll_WriteTo c (Writer out (Some room)) = (Z.of_nat j, e, w') ∧
   w_out w' = out ++ take j (hll_serial p (bb_data (hc_bits c))) ∧
   (e = None ↔ Z.of_nat room >= Hll_Len c) ∧
   (e = None → Z.of_nat j = Hll_Len c) ∧ (e ≠ None → j = room).
Proof.
  intros (Hp & Hcp & Hcm & Hwf & Hw). unfold Hll_WriteTo, write. cbn [w_room w_out length].
  unfold Hll_Len, HllHdrLen, hll_serial. rewrite Hcp.
  assert (HL : 10 ≤ BB_Len (hc_bits c)) by (unfold BB_Len; lia).
  destruct (Nat.leb_spec 2 room) as [H|H].
  - destruct (WriteTo_fail (hc_bits c) _ (out ++ [HllVersion; p]) (room - 2) Hwf) as (j & e & w' & E & Ho & He1 & He2 & He3).
    rewrite E. exists (2 + j)%nat, e, w'. rewrite Hw in Ho. split_and!.
    + replace (Z.of_nat (2 + j)) with (Z.of_nat 2 + Z.of_nat j) by lia. by destruct e.
    + rewrite Ho, <- app_assoc. done.
    + rewrite He1. lia.
    + intros He. apply He2 in He. lia.
    + intros He. apply He3 in He. lia.
  - exists room. eexists _, _. split; [done|]. cbn [w_out]. split_and!.
    + destruct room as [|[|r]]; [done|done|lia].
    + split; [done|lia].
    + done.
    + done.
Qed.

Lemma BB_WithBytes_trunc b n j : wf b n → Z.of_nat j < BB_Len b →
  BB_WithBytes (take j (bb_serial n (bb_w b) (bb_data b))) = Err ErrShortBuffer.
Proof.
  intros Hwf Hj. pose proof (wf_n_range b n Hwf) as Hr. destruct Hwf as [Hn Hs Hb Hl]. unfold BB_Len in Hj.
  destruct (decide (j < 10)%nat) as [Hj1|Hj1].
  - unfold BB_WithBytes. rewrite take_length, serial_length. unfold BBhdrLen.
    replace (_ <? 10) with true by lia. done.
  - unfold bb_serial. rewrite app_assoc, take_app_ge by (rewrite app_length, put64_length; simpl; lia).
    rewrite <- app_assoc.
    rewrite WithBytes_sane by done. rewrite app_length, put64_length. cbn [length].
    rewrite take_length, Hl. replace (_ <? _)%nat with true by lia. done.
Qed.
Lemma Bloom_WithBytes_trunc b m k j : bloom_wf b m k → Z.of_nat j < Bloom_Len b →
  Bloom_WithBytes (take j (bloom_serial m k (bb_data (bl_bits b)))) = if (j <? 2)%nat then Panic else Err ErrShortBuffer.
Proof.
  intros (Hwf & Hw & Hm & Hk & Hk8 & Hm1) Hj. unfold Bloom_Len, BloomHdrLen in Hj.
  unfold Bloom_WithBytes, bloom_serial.
  destruct j as [|[|j]]; [reflexivity|reflexivity|].
  cbn [app take].
  rewrite (index_lookup _ 0 1) by done. cbn [obind].
  change (negb (1 =? BloomVersion)) with false. cbn match.
  rewrite (index_lookup _ 1 k) by done. cbn [obind].
  rewrite slice_Ok by (cbn [app length]; lia). cbn [obind].
  change (Z.to_nat 2) with 2%nat. rewrite take_ge by (rewrite drop_length; lia).
  cbn [app drop]. rewrite drop_0. rewrite <- Hw. rewrite (BB_WithBytes_trunc _ m) by (done || lia). done.
Qed.
Lemma Hll_WithBytes_trunc c p j : hll_wf c p → Z.of_nat j < Hll_Len c →
  Hll_WithBytes (take j (hll_serial p (bb_data (hc_bits c)))) = if (j <? 2)%nat then Panic else Err ErrShortBuffer.
Proof.
  intros (Hp & Hcp & Hcm & Hwf & Hw) Hj. unfold Hll_Len, HllHdrLen in Hj.
  unfold Hll_WithBytes, hll_serial.
  destruct j as [|[|j]]; [reflexivity|reflexivity|].
  cbn [app take].
  rewrite (index_lookup _ 0 1) by done. cbn [obind].
  change (negb (1 =? HllVersion)) with false. cbn match.
  rewrite (index_lookup _ 1 p) by done. cbn [obind].
  rewrite slice_Ok by (cbn [app length]; lia). cbn [obind].
  change (Z.to_nat 2) with 2%nat. rewrite take_ge by (rewrite drop_length; lia).
  cbn [app drop]. rewrite drop_0. rewrite <- Hw. rewrite (BB_WithBytes_trunc _ (hll_size p)) by (done || lia). done.
Qed.
