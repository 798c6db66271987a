From Verif Require Import Base BaseProofs Float64 Float64Spec Float64Proofs FloatMore FloatRel RealBounds BitbucketModel BitbucketSpec BitbucketProofs BloomModel BloomSpec BloomProofs HllCountModel HllCountLoops BloomSizeModel BloomSizeSpec BloomSizeReal BloomSizeProofs.
From Coq Require Import Reals Lra ZifyBool ZifyNat.
From Flocq Require Import Core Relative.
Notation float := Float64.float.
Open Scope R_scope.

Section New.
  Context (glog : float → float) (Hlog : log_all_ok glog).
  Context (n : Z) (p : float) (Hn : (1 <= n <= 2 ^ 50)%Z) (Fp : ffinite p = true) (Hp : 0 < f2r p < 1).
  Lemma New_ok : ∃ b (m : nat), Bloom_New glog n p = Ok b ∧ bloom_wf b m (bl_k b) ∧ (1 <= bl_k b <= 255)%Z ∧ Bloom_Len b = Bloom_LenOf glog n p ∧
    size_ok m 1 ∧ Bloom_NewBits (Z.of_nat m) (bl_k b) = Ok b ∧ Z.of_nat m = size_m glog n p ∧ bl_k b = size_k glog n p.
  Proof.
    destruct (size_m_ok glog Hlog n p Hn Fp Hp) as [_ Hm]. destruct (size_k_ok glog Hlog n p Hn Fp Hp) as [Hk _].
    set (m := size_m glog n p) in *. set (k := size_k glog n p) in *.
    assert (size_ok (Z.to_nat m) 1) as Hs by (unfold size_ok; lia).
    destruct (bstate_New (Z.to_nat m) k ltac:(lia) Hs ltac:(lia)) as (b & Eb & Hb). rewrite Z2Nat.id in Eb by lia.
    destruct Hb as [Hwf _].
    assert (bl_k b = k) as Ek. { unfold bloom_wf in Hwf. tauto. }
    exists b, (Z.to_nat m). rewrite Z2Nat.id by lia. rewrite Ek. split_and!; try done; try lia.
    change (Bloom_LenOf glog n p) with (BloomHdrLen + BB_LenOf m 1)%Z. unfold Bloom_Len. unfold bloom_wf in Hwf. destruct Hwf as (Hw & Hw1 & _).
      unfold BB_Len, BB_LenOf. pose proof (bb_length_ok (Z.to_nat m) 1 Hs) as HL. rewrite Z2Nat.id in HL by lia. rewrite HL.
      rewrite (wf_len _ _ Hw), Hw1. rewrite (dlen_Z _ 1 Hs), Z2Nat.id by lia. done.
  Qed.
  Lemma New_rate : / 2 ^ 253 <= f2r p →
    false_positive_rate (IZR (size_m glog n p)) (Z.to_nat (size_k glog n p)) (IZR n) <= 2 * f2r p * (1 + / 2 ^ 38).
  Proof.
    intros Hp2. destruct (size_m_ok glog Hlog n p Hn Fp Hp) as [Hmb Hm]. destruct (size_k_ok glog Hlog n p Hn Fp Hp) as (Hk & Hk2 & Hk3).
    pose proof (N_range n p Hn Fp) as HN. pose proof (ln_float p Hp) as HL. pose proof ln2_bounds as L2. pose proof uu_val as Eu.
    set (m := size_m glog n p) in *. set (k := size_k glog n p) in *. set (K := optimal_hashes (IZR m) (IZR n)) in *.
    set (N := IZR n) in *. set (L := - ln (f2r p)) in *. set (l := ln 2) in *.
    assert (1 <= IZR m) as Hm1 by (apply (IZR_le 1); lia).
    assert (0 < / N) as HNi by (apply Rinv_0_lt_compat; lra). assert (N * / N = 1) as HNv by (apply Rinv_r; lra).
    assert (0 < K) as HK. { unfold K, optimal_hashes, Rdiv. fold l. apply Rmult_lt_0_compat; [nra|lra]. }
    assert (/ 2 ^ 49 = 16 * uu) as E49 by (rewrite uu_eq; lra). assert (/ 2 ^ 50 = 8 * uu) as E50 by (rewrite uu_eq; lra).
    (* K against L / l *)
    assert (optimal_bits N (f2r p) = N * (L / (l * l))) as EM by (unfold optimal_bits, L; fold l; field; lra).
    rewrite E49, EM in Hmb. rewrite E50 in Hk2, Hk3.
    assert (K = IZR m * / N * l) as EK by reflexivity.
    assert (L / l * (1 - 16 * uu) <= K <= L / l * (1 + 16 * uu) + l) as HKb.
    { assert (L / (l * l) * (1 - 16 * uu) <= IZR m * / N) as Hq1.
      { apply (Rmult_le_reg_l N); [lra|]. replace (N * (IZR m * / N)) with (IZR m) by (field; lra). lra. }
      assert (IZR m * / N <= L / (l * l) * (1 + 16 * uu) + 1) as Hq2.
      { apply (Rmult_le_reg_l N); [lra|]. replace (N * (IZR m * / N)) with (IZR m) by (field; lra). lra. }
      rewrite EK. replace (L / l) with (L / (l * l) * l) by (field; lra). rewrite Eu in *. split; nra. }
    assert (L <= 253 * l) as HL253.
    { assert (ln (/ 2 ^ 253) <= ln (f2r p)) as Hq1.
      { assert (0 < / 2 ^ 253) by (apply Rinv_0_lt_compat, pow_lt; lra).
        destruct (Rle_lt_or_eq_dec _ _ Hp2) as [H'|H']; [left; by apply ln_increasing|rewrite H'; lra]. }
      rewrite ln_Rinv in Hq1 by (apply pow_lt; lra). 
      assert (ln (2 ^ 253) = 253 * l) as E253. { rewrite <- (exp_ln 2) at 1 by lra. rewrite exp_INR, ln_exp. rewrite INR_IZR_INZ. reflexivity. }
      rewrite E253 in Hq1. unfold L. lra. }
    assert (L / l <= 253) as HLl. { apply (Rmult_le_reg_r l); [lra|]. replace (L / l * l) with L by (field; lra). lra. }
    assert (0 < L / l) as HLp. { apply Rdiv_lt_0_compat; [|lra]. pose proof (pw_pos (-53)). lra. }
    assert (K * (1 + 8 * uu) < 254) as HK254. { rewrite Eu in *. nra. }
    destruct Hk3 as [Hk3|[_ Hk3]]; [|lra].
    assert (INR (Z.to_nat k) = IZR k) as Ek by (rewrite INR_IZR_INZ, Z2Nat.id by lia; done).
    assert (0 <= 8 * uu < 1) as H8 by (rewrite Eu; lra).
    assert (K * (1 - 8 * uu) <= INR (Z.to_nat k) < K * (1 + 8 * uu) + 1) as Hk4 by (rewrite Ek; lra).
    pose proof (rate_bound K (Z.to_nat k) (8 * uu) HK H8 Hk4) as HR.
    unfold false_positive_rate. replace (INR (Z.to_nat k) * N / IZR m) with (INR (Z.to_nat k) / K * l).
    2:{ rewrite EK. field. lra. }
    eapply Rle_trans; [exact HR|]. rewrite (Rmult_assoc 2 (f2r p)). apply Rmult_le_compat_l; [lra|].
    (* exp (-K(1-8u) l) <= p exp (25 u L) *)
    assert (exp (- (K * (1 - 8 * uu) * ln 2)) <= exp (- L + 24 * uu * L)) as Hq1.
    { apply exp_le_compat. fold l.
      assert (L / l * (1 - 16 * uu) * (1 - 8 * uu) * l <= K * (1 - 8 * uu) * l) as Hq.
      { apply Rmult_le_compat_r; [lra|]. apply Rmult_le_compat_r; [rewrite Eu; lra|lra]. }
      replace (L / l * (1 - 16 * uu) * (1 - 8 * uu) * l) with (L * (1 - 24 * uu + 128 * (uu * uu))) in Hq by (field; lra).
      assert (0 <= L * (uu * uu)) by (apply Rmult_le_pos; [pose proof (pw_pos (-53)); lra|nra]). lra. }
    eapply Rle_trans; [exact Hq1|]. rewrite exp_plus. unfold L at 1. rewrite Ropp_involutive, exp_ln by lra.
    apply Rmult_le_compat_l; [lra|].
    (* exp y <= 1 / (1 - y) *)
    set (y := 24 * uu * L). assert (0 <= y <= 24 * uu * 745) as Hy by (unfold y; rewrite Eu; pose proof (pw_pos (-53)); split; nra).
    pose proof (exp_ineq1_le (- y)) as Hq2. rewrite exp_Ropp in Hq2. pose proof (exp_pos y) as Hq3.
    assert (exp y * (1 - y) <= 1) as Hq4. { apply (Rmult_le_compat_l (exp y)) in Hq2; [|lra]. rewrite Rinv_r in Hq2 by lra. lra. }
    assert (/ 2 ^ 38 = / 274877906944) as E38 by (f_equal; lra). rewrite E38. rewrite Eu in Hy.
    apply Rnot_lt_le. intros Hlt. assert (1 < exp y * (1 - y)); [|lra]. nra.
  Qed.
End New.
