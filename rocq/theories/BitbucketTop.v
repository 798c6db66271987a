(** The lemmas behind BitbucketProps.v, in their final form. *)
From Verif Require Import Base BaseProofs BitbucketModel BitbucketSpec BitbucketProofs BitbucketSerProofs.
From Coq Require Import ZifyBool ZifyNat.
Ltac Zify.zify_post_hook ::= Z.div_mod_to_equations.

Lemma Set_get b n i v : wf b n → (i < n)%nat → 0 ≤ v < 256 →
  ∃ b', BB_Set b (Z.of_nat i) v = Ok b' ∧ wf b' n ∧ bb_w b' = bb_w b ∧
    BB_Get b' (Z.of_nat i) = Ok (Z.min v (cap (bb_w b))) ∧
    ∀ j, (j < n)%nat → j ≠ i → BB_Get b' (Z.of_nat j) = BB_Get b (Z.of_nat j).
Proof.
  intros Hwf Hi Hv. rewrite (Set_Ok b n i v Hwf Hi) by lia. eexists. split; [done|].
  pose proof (cap_range (bb_w b) ltac:(apply (wf_size _ _ Hwf))) as Hc.
  assert (Hwf' : wf (bput b i (Z.min v (cap (bb_w b)))) n) by (by apply bput_wf).
  split_and!; [done|done| |].
  - rewrite (Get_Ok _ n) by done. f_equal. apply (bput_same b n); [done|done|lia].
  - intros j Hj Hij. rewrite (Get_Ok _ n j Hwf'), (Get_Ok _ n j Hwf) by done. f_equal.
    apply (bput_other b n); [done|done|done|done|lia].
Qed.
Lemma IncN_get b n i v x : wf b n → (i < n)%nat → 0 ≤ v < 256 →
  BB_Get b (Z.of_nat i) = Ok x →
  ∃ b', BB_IncN b (Z.of_nat i) v = Ok b' ∧ wf b' n ∧ bb_w b' = bb_w b ∧
    BB_Get b' (Z.of_nat i) = Ok (Z.min (x + v) (cap (bb_w b))) ∧
    ∀ j, (j < n)%nat → j ≠ i → BB_Get b' (Z.of_nat j) = BB_Get b (Z.of_nat j).
Proof.
  intros Hwf Hi Hv Hx. rewrite (Get_Ok b n i Hwf Hi) in Hx. injection Hx as <-.
  rewrite (IncN_Ok b n i v Hwf Hi Hv). eexists. split; [done|].
  pose proof (cap_range (bb_w b) ltac:(apply (wf_size _ _ Hwf))) as Hc.
  pose proof (bval_range b n i Hwf Hi) as Hr.
  assert (Hwf' : wf (bput b i (Z.min (bval b i + v) (cap (bb_w b)))) n) by (by apply bput_wf).
  split_and!; [done|done| |].
  - rewrite (Get_Ok _ n) by done. f_equal. apply (bput_same b n); [done|done|lia].
  - intros j Hj Hij. rewrite (Get_Ok _ n j Hwf'), (Get_Ok _ n j Hwf) by done. f_equal.
    apply (bput_other b n); [done|done|done|done|lia].
Qed.
Lemma New_ops_repr n w os : size_ok n w → Forall (bop_ok n) os →
  ∃ b0 b, BB_New (Z.of_nat n) w = Ok b0 ∧ bb_ops b0 os = Ok b ∧ wf b n ∧
    repr w b (fold_left (arr_op w) os (replicate n 0)).
Proof.
  intros Hs Hos. destruct (wf_New n w Hs) as (b0 & E & Hwf & Hw & Hv).
  destruct (ops_sim os b0 n w Hwf Hw Hos) as (b & E2 & Hwf2 & Hw2 & Hv2).
  exists b0, b. rewrite <- Hv, <- Hv2, <- Hw2. split_and!; [by rewrite Hw2|done|done|by apply wf_repr].
Qed.
Lemma roundtrip b n : wf b n →
  let s := bb_serial n (bb_w b) (bb_data b) in
  Z.of_nat (length s) = BB_Len b ∧
  (∀ out, BB_WriteTo b (Writer out None) = (BB_Len b, None, Writer (out ++ s) None)) ∧
  (∀ b0 r, delivers r s → BB_ReadFrom b0 r = Ok (BB_Len b, None, b, [])) ∧
  (∀ rest, BB_WithBytes (s ++ rest) = Ok b).
Proof.
  intros Hwf s. split_and!.
  - unfold s. rewrite serial_length. unfold BB_Len. lia.
  - intros out. by apply WriteTo_Ok.
  - intros b0 r. by apply ReadFrom_delivers.
  - intros rest. by apply WithBytes_serial.
Qed.
Lemma repr_unique b n a : wf b n → repr (bb_w b) b a → a = bvals b n.
Proof.
  intros Hwf (H1 & _ & H3 & _). unfold BB_Count in H3. rewrite (wf_n _ _ Hwf) in H3.
  apply list_eq. intros i. destruct (decide (i < n)%nat) as [Hi|Hi].
  - destruct (H1 i ltac:(lia)) as (v & Hv & _ & Hg). rewrite (Get_Ok b n i Hwf Hi) in Hg. injection Hg as <-.
    rewrite Hv. symmetry. by apply bvals_lookup.
  - rewrite !lookup_ge_None_2; [done| |]; rewrite ?bvals_length; lia.
Qed.
Lemma write_through buf b n rest os : wf b n →
  buf = bb_serial n (bb_w b) (bb_data b) ++ rest → Forall (bop_ok n) os →
  BB_WithBytes buf = Ok b ∧
  ∃ b', bb_ops b os = Ok b' ∧
    BB_flush buf b' = bb_serial n (bb_w b) (bb_data b') ++ rest ∧
    BB_WithBytes (BB_flush buf b') = Ok b' ∧
    ∀ a, repr (bb_w b) b a → repr (bb_w b) b' (fold_left (arr_op (bb_w b)) os a).
Proof.
  intros Hwf Hbuf Hos. split; [rewrite Hbuf; by apply WithBytes_serial|].
  destruct (ops_sim os b n (bb_w b) Hwf eq_refl Hos) as (b' & E & Hwf' & Hw' & Hv').
  exists b'. destruct (ops_flush buf b n os b' rest Hwf Hbuf Hos E) as [Hf _].
  rewrite Hf. split_and!; [done|by rewrite Hw'|by apply WithBytes_serial|].
  intros a Ha. rewrite (repr_unique b n a Hwf Ha). rewrite <- Hv', <- Hw'. by apply wf_repr.
Qed.

Lemma WithBytes_refuted : ¬ (∀ buf, is_bytes buf →
  match BB_WithBytes buf with
  | Ok b => ∀ i, 0 ≤ i < bb_n b → ∃ v, BB_Get b i = Ok v
  | Err _ => True
  | Panic => False
  end).
Proof.
  intros H. specialize (H ([1; 8] ++ put64 (2^61)) ltac:(bytes_ok)).
  assert (E : BB_WithBytes ([1; 8] ++ put64 (2^61)) = Ok (BB [] (2^61) 8)) by (vm_compute; reflexivity).
  rewrite E in H. destruct (H 0) as [v Hv]; [cbn [bb_n]; lia|].
  assert (E2 : BB_Get (BB [] (2^61) 8) 0 = Panic) by (vm_compute; reflexivity).
  rewrite E2 in Hv. discriminate.
Qed.
Lemma WithBytes_panics : ∃ buf, is_bytes buf ∧ BB_WithBytes buf = Panic.
Proof.
  exists ([1; 7] ++ put64 (2^61)). split; [bytes_ok|vm_compute; reflexivity].
Qed.
Lemma ReadFrom_refuted :
  (∃ r b r', BB_ReadFrom (BB [] 0 1) r = Ok (12, None, b, r') ∧ BB_Width b = 9) ∧
  (∃ r, BB_ReadFrom (BB [] 0 1) r = Panic) ∧
  (∃ s t r b, t ≠ [] ∧ r = [EvData s; EvDataEOF t] ∧ BB_ReadFrom (BB [] 0 1) r = Ok (13, None, b, []) ∧ BB_Len b = 11).
Proof.
  split_and!.
  - exists [EvData ([1; 9] ++ put64 1 ++ [0; 0])]. do 2 eexists. split; reflexivity.
  - exists [EvData ([1; 7] ++ put64 (2^61))]. reflexivity.
  - exists ([1; 8] ++ put64 1 ++ [5]), [6; 7]. do 2 eexists. split_and!; [done|reflexivity|reflexivity|reflexivity].
Qed.
