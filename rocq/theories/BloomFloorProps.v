(** Property C112: does a bloom filter have the false positive rate it was made for? *)
From stdpp Require Import list.
From Verif Require Import Base Float64 Float64Spec BitbucketModel BitbucketSpec BloomModel BloomSpec BloomProofs HllCountModel BloomSizeModel BloomSizeSpec BloomSizeProofs BloomSizeProps BloomFloorSpec BloomFloorProofs HllSuffixSpec HllSuffixProofs.
From Coq Require Import Reals Lra ZifyBool ZifyNat.
Open Scope Z_scope.

(** Whatever is in a filter of m bits, and whatever its number of hash functions: of all the pairs (v, w)
    of two of N >= 8 m^2 values at least one in 8 m^2 is a false positive: if v is added, w is reported. *)
Theorem C112_floor b m k vs : bloom_wf b m k → Forall is_bytes vs → NoDup vs →
  let M := Z.of_nat m in let N := Z.of_nat (length vs) in
  (N * N ≤ 4 * M * M * (false_positives b vs + N)) ∧ (8 * M * M ≤ N → N * N ≤ 8 * M * M * false_positives b vs).
Proof.
  intros Hb Hvs Hnd M N. pose proof (floor b m k vs Hb Hvs Hnd) as H. fold M N in H. split; [exact H|]. intros HN.
  assert (0 ≤ N) as H0 by (unfold N; lia). assert (8 * M * M * N ≤ N * N) as H1 by (apply Z.mul_le_mono_nonneg_r; lia). lia.
Qed.
Print Assumptions C112_floor.
(** So C112 is false of small rates: a filter made for up to a thousand items at a rate of 2^-60 has a
    rate of at least 2^-36 (16 million times as much) as soon as it holds one item, averaged over the
    item and the question, whatever values they are drawn from. *)
Theorem C112_small_rate_refuted glog n p vs : log_all_ok glog → 1 ≤ n ≤ 1000 → ffinite p = true → f2r p = (/ 2 ^ 60)%R →
  Forall is_bytes vs → NoDup vs → 2 ^ 36 ≤ Z.of_nat (length vs) →
  ∃ b, Bloom_New glog n p = Ok b ∧ Z.of_nat (length vs) * Z.of_nat (length vs) ≤ 2 ^ 36 * false_positives b vs.
Proof.
  intros Hl Hn Fp Ep Hvs Hnd HN. assert (0 < / 2 ^ 60 < 1)%R as Hp. { split; [apply Rinv_0_lt_compat, pow_lt; lra|]. rewrite <- Rinv_1. apply Rinv_lt_contravar; [rewrite Rmult_1_l; apply pow_lt; lra|]. apply Rlt_pow_R1; [lra|lia]. }
  destruct (C78_sizing glog n p Hl ltac:(lia) Fp ltac:(rewrite Ep; exact Hp)) as (b & m & E & _ & Hwf & _ & [_ Hm] & _).
  exists b. split; [exact E|]. rewrite Ep in Hm. unfold optimal_bits in Hm. rewrite ln_Rinv in Hm by (apply pow_lt; lra).
  assert (ln (2 ^ 60) = 60 * ln 2)%R as E60. { rewrite <- (Rpower_pow 60 2) by lra. unfold Rpower. rewrite ln_exp. f_equal. simpl. lra. }
  rewrite E60 in Hm. pose proof ln2_bounds as [HL _].
  assert (- (IZR n * - (60 * ln 2)) / (ln 2 * ln 2) = IZR n * (60 / ln 2))%R as E2 by (field; lra). rewrite E2 in Hm.
  assert (60 / ln 2 < 87)%R as H87. { apply (Rmult_lt_reg_r (ln 2)); [lra|]. unfold Rdiv. rewrite Rmult_assoc, Rinv_l by lra. lra. }
  assert (0 < 60 / ln 2)%R as H0 by (apply Rdiv_lt_0_compat; lra).
  assert (1 <= IZR n <= 1000)%R as Hn' by (split; apply IZR_le; lia).
  assert (IZR n * (60 / ln 2) <= 87000)%R as H1. { replace 87000%R with (1000 * 87)%R by lra. apply Rmult_le_compat; lra. }
  assert (/ 2 ^ 49 <= / 87000)%R as H49. { apply Rinv_le_contravar; [lra|]. cbn [pow]. lra. }
  assert (0 < / 2 ^ 49)%R as H49' by (apply Rinv_0_lt_compat, pow_lt; lra).
  assert (IZR (Z.of_nat m) < 87002)%R as Hm'.
  { eapply Rlt_le_trans; [exact Hm|]. assert (IZR n * (60 / ln 2) * (1 + / 2 ^ 49) <= 87000 * (1 + / 87000))%R; [|lra].
    apply Rmult_le_compat; try lra. apply Rmult_le_pos; lra. }
  apply lt_IZR in Hm'. pose proof (floor b m (bl_k b) vs Hwf Hvs Hnd) as H.
  set (M := Z.of_nat m) in *. set (N := Z.of_nat (length vs)) in *. assert (0 ≤ M) as HM by (unfold M; lia).
  assert (M * M ≤ 87002 * 87002) as HMM by (apply Z.mul_le_mono_nonneg; lia).
  assert (0 ≤ false_positives b vs) as HF by (unfold false_positives; lia). set (F := false_positives b vs) in *.
  assert (4 * M * M * (F + N) ≤ 2 ^ 35 * (F + N)) as H2 by (apply Z.mul_le_mono_nonneg_r; lia).
  assert (2 ^ 36 * N ≤ N * N) as H3 by (apply Z.mul_le_mono_nonneg_r; lia). lia.
Qed.
Print Assumptions C112_small_rate_refuted.
(** such sets of values and such a rate exist *)
Example C112_nonvacuous : (∃ glog, log_all_ok glog) ∧ (ffinite (f_lit 1 (2 ^ 60)) = true ∧ f2r (f_lit 1 (2 ^ 60)) = (/ 2 ^ 60)%R) ∧
  ∃ vs, Forall is_bytes vs ∧ NoDup vs ∧ 2 ^ 36 ≤ Z.of_nat (length vs).
Proof.
  split; [destruct bloom_size_nonvacuous as ((g & Hg & _) & _); by exists g|]. split.
  - destruct (f_lit_pow 1 60) as [F E]; [lia|lia|]. split; [exact F|]. rewrite E. unfold Rdiv. rewrite Rmult_1_l. f_equal. change 60 with (Z.of_nat 60). rewrite <- pow_IZR. reflexivity.
  - exists (digit_strings 11). split; [|split; [apply digit_strings_NoDup|rewrite digit_strings_length; change (10 ^ Z.of_nat 11) with 100000000000; lia]].
    apply Forall_forall. intros v Hv. apply digits_are_bytes. by apply (digit_strings_ok 11).
Qed.
(** the count at work: in the filter that New(1, 1/128) makes (11 bits, 8 hash functions), of the
    90 pairs of the ten values 00 ... 09 (1 in 128 would be 1) *)
Example C112_counted : match Bloom_NewBits 11 8 with Ok b => false_positives b (take 10 (digit_strings 2)) | _ => 0 end = 9.
Proof. vm_compute. reflexivity. Qed.
