(** Position of a float64 on the line of all float64 values, from its bits. *)
From Coq Require Import ZifyBool ZifyNat.
From Verif Require Import Base Float64.
From Flocq Require Import Core.Zaux IEEE754.Binary IEEE754.Bits.
Notation float := Float64.float.
Local Open Scope Z_scope.
Local Transparent fbits f_frombits flt fle feq fgt fisnan ffinite fneg fabs.

(** the magnitude bits with the sign bit as sign *)
Definition ord_of_bits (n : Z) : Z := if n <? 2^63 then n else 2^63 - n.
Definition ford (x : float) : Z := ord_of_bits (fbits x).
Definition inf_ord : Z := 0x7FF0000000000000.

Lemma join_eq s m e : join_bits 52 11 s m e = (if s then 2^63 else 0) + e * 2^52 + m.
Proof. unfold join_bits. rewrite Z.shiftl_mul_pow2 by lia. change (Zpower 2 11) with (2^11). destruct s; lia. Qed.
Definition ffin_mag (m : positive) (e : Z) : Z := Z.pos m + (e + 1074) * 2^52.
Lemma bounded_facts m e : SpecFloat.bounded 53 1024 m e = true → -1074 ≤ e ≤ 971 ∧ Z.pos m < 2^53 ∧ (e = -1074 ∨ 2^52 ≤ Z.pos m).
Proof.
  intros H. unfold SpecFloat.bounded, SpecFloat.canonical_mantissa in H. apply andb_prop in H as [H1 H2].
  apply Zeq_bool_eq in H1. apply Zle_bool_imp_le in H2. unfold SpecFloat.fexp, SpecFloat.emin in H1. rewrite Digits.Zpos_digits2_pos in H1.
  pose proof (Digits.Zdigits_correct radix2 (Z.pos m)) as Hd. change (Z.abs (Z.pos m)) with (Z.pos m) in Hd.
  set (d := Digits.Zdigits radix2 (Z.pos m)) in *. change (radix_val radix2) with 2 in Hd. assert (0 < d). { apply Digits.Zdigits_gt_0. done. }
  assert (d ≤ 53) by lia. split; [lia|]. split.
  - eapply Z.lt_le_trans; [apply Hd|]. apply (Z.pow_le_mono_r 2); lia.
  - destruct (decide (e = -1074)); [by left|]. right. assert (d = 53) as -> by lia. apply Hd.
Qed.
Lemma fbits_zero s : fbits (B754_zero 53 1024 s) = if s then 2^63 else 0.
Proof. unfold fbits, bits_of_b64, bits_of_binary_float. rewrite join_eq. destruct s; lia. Qed.
Lemma fbits_inf s : fbits (B754_infinity 53 1024 s) = (if s then 2^63 else 0) + inf_ord.
Proof. unfold fbits, bits_of_b64, bits_of_binary_float. rewrite join_eq. unfold inf_ord. change (Zpower 2 11) with (2^11). destruct s; lia. Qed.
Lemma fbits_fin s m e H : fbits (B754_finite 53 1024 s m e H) = (if s then 2^63 else 0) + ffin_mag m e.
Proof.
  unfold fbits, bits_of_b64, bits_of_binary_float. pose proof (bounded_facts m e H) as (B1 & B2 & B3). change (Zpower 2 52) with (2^52).
  destruct (Z.leb_spec 0 (Z.pos m - 2^52)); rewrite join_eq; unfold ffin_mag, SpecFloat.emin; [lia|]. destruct B3; [subst e|]; lia.
Qed.
Lemma mag_range m e : SpecFloat.bounded 53 1024 m e = true → 0 < ffin_mag m e < inf_ord.
Proof. intros H. pose proof (bounded_facts m e H) as (B1 & B2 & B3). unfold ffin_mag, inf_ord. lia. Qed.
(** what [ford] is, by cases *)
Definition sgn_z (s : bool) (n : Z) : Z := if s then - n else n.
Lemma ford_zero s : ford (B754_zero 53 1024 s) = 0.
Proof. unfold ford, ord_of_bits. rewrite fbits_zero. by destruct s. Qed.
Lemma ford_inf s : ford (B754_infinity 53 1024 s) = sgn_z s inf_ord.
Proof. unfold ford, ord_of_bits. rewrite fbits_inf. by destruct s. Qed.
Lemma ford_fin s m e H : ford (B754_finite 53 1024 s m e H) = sgn_z s (ffin_mag m e).
Proof. unfold ford, ord_of_bits. rewrite fbits_fin. pose proof (mag_range m e H). unfold inf_ord in *. destruct s; cbn [sgn_z]; case_match; lia. Qed.
Lemma mag_lt m1 e1 m2 e2 : SpecFloat.bounded 53 1024 m1 e1 = true → SpecFloat.bounded 53 1024 m2 e2 = true → e1 < e2 → ffin_mag m1 e1 < ffin_mag m2 e2.
Proof. intros H1 H2 Hlt. pose proof (bounded_facts m1 e1 H1) as (B1 & B2 & B3). pose proof (bounded_facts m2 e2 H2) as (C1 & C2 & C3). unfold ffin_mag. lia. Qed.

(** comparison is comparison of positions *)
Lemma compare_ord x y : fisnan x = false → fisnan y = false → b64_compare x y = Some (ford x ?= ford y).
Proof.
  intros Hx Hy. destruct x as [s1|s1| |s1 m1 e1 H1]; [| |done|]; (destruct y as [s2|s2| |s2 m2 e2 H2]; [| |done|]);
    rewrite ?ford_zero, ?ford_inf, ?ford_fin; unfold b64_compare, Bcompare, BinarySingleNaN.Bcompare; cbn [B2BSN BinarySingleNaN.B2SF SpecFloat.SFcompare]; f_equal;
    try (pose proof (mag_range m1 e1 H1)); try (pose proof (mag_range m2 e2 H2)).
  all: try (by destruct s1). all: try (by destruct s2). all: try (destruct s1, s2; done).
  all: try (destruct s1; symmetry; cbn [sgn_z]; first [apply Z.compare_lt_iff; lia|apply Z.compare_gt_iff; lia]).
  all: try (destruct s2; symmetry; cbn [sgn_z]; first [apply Z.compare_lt_iff; lia|apply Z.compare_gt_iff; lia]).
  all: try (unfold inf_ord in *; destruct s1, s2; cbn [sgn_z]; symmetry; first [apply Z.compare_lt_iff; lia|apply Z.compare_gt_iff; lia]).
  destruct s1, s2; cbn [sgn_z].
  - rewrite Z.compare_opp. destruct (Z.compare_spec e1 e2) as [->|Hlt|Hgt].
    + change (CompOpp (Pos.compare m1 m2) = (ffin_mag m2 e2 ?= ffin_mag m1 e2)). rewrite <- Pos.compare_antisym. unfold ffin_mag. rewrite !(Z.add_comm (Z.pos _)), Zcompare_plus_compat. done.
    + symmetry. apply Z.compare_gt_iff. by apply mag_lt.
    + symmetry. apply Z.compare_lt_iff. by apply mag_lt.
  - symmetry. apply Z.compare_lt_iff. lia.
  - symmetry. apply Z.compare_gt_iff. lia.
  - destruct (Z.compare_spec e1 e2) as [->|Hlt|Hgt].
    + unfold ffin_mag. rewrite !(Z.add_comm (Z.pos _)), Zcompare_plus_compat. done.
    + symmetry. apply Z.compare_lt_iff. by apply mag_lt.
    + symmetry. apply Z.compare_gt_iff. by apply mag_lt.
Qed.
Lemma flt_ord x y : fisnan x = false → fisnan y = false → flt x y = true ↔ ford x < ford y.
Proof. intros Hx Hy. unfold flt. rewrite compare_ord by done. destruct (Z.compare_spec (ford x) (ford y)); split; (done || lia). Qed.
Lemma feq_ord x y : fisnan x = false → fisnan y = false → feq x y = true ↔ ford x = ford y.
Proof. intros Hx Hy. unfold feq. rewrite compare_ord by done. destruct (Z.compare_spec (ford x) (ford y)); split; (done || lia). Qed.
Lemma ford_range x : fisnan x = false → - inf_ord ≤ ford x ≤ inf_ord.
Proof.
  destruct x as [s1|s1| |s1 m1 e1 H1]; [| |done|]; intros _; rewrite ?ford_zero, ?ford_inf, ?ford_fin; [unfold inf_ord; lia|unfold inf_ord; destruct s1; cbn; lia|].
  pose proof (mag_range m1 e1 H1). destruct s1; cbn [sgn_z]; lia.
Qed.
(** bits *)
Lemma fbits_frombits n : 0 ≤ n < 2^64 → fbits (f_frombits n) = n.
Proof. intros H. apply (bits_of_binary_float_of_bits 52 11 eq_refl eq_refl eq_refl). lia. Qed.
Lemma fbits_nan s p H : ∃ m, 0 < m < 2^52 ∧ fbits (B754_nan 53 1024 s p H) = (if s then 2^63 else 0) + inf_ord + m.
Proof.
  exists (Z.pos p). split.
  - unfold nan_pl in H. apply Z.ltb_lt in H. rewrite Digits.Zpos_digits2_pos in H. split; [lia|].
    pose proof (Digits.Zdigits_correct radix2 (Z.pos p)) as [_ Hd]. change (Z.abs (Z.pos p)) with (Z.pos p) in Hd. eapply Z.lt_le_trans; [exact Hd|]. apply (Z.pow_le_mono_r 2); lia.
  - unfold fbits, bits_of_b64, bits_of_binary_float. rewrite join_eq. unfold inf_ord. change (Zpower 2 11) with (2^11). destruct s; lia.
Qed.
Lemma frombits_ok n : 0 ≤ n < 2^64 → (n mod 2^63 ≤ inf_ord ↔ fisnan (f_frombits n) = false) ∧ ford (f_frombits n) = ord_of_bits n.
Proof.
  intros H. split; [|unfold ford; by rewrite fbits_frombits]. pose proof (fbits_frombits n H) as E. destruct (f_frombits n) as [s|s|s p Hp|s m e He].
  - rewrite fbits_zero in E. split; [done|]. intros _. unfold inf_ord. destruct s; subst n; vm_compute; discriminate.
  - rewrite fbits_inf in E. split; [done|]. intros _. unfold inf_ord in *. destruct s; subst n; vm_compute; discriminate.
  - destruct (fbits_nan s p Hp) as (m & Hm & Em). rewrite Em in E. split; [|done]. intros Hn. exfalso. unfold inf_ord in *.
    assert (n mod 2^63 = 0x7FF0000000000000 + m); [|lia]. destruct s; subst n; [|rewrite Z.mod_small; lia]. rewrite <- Z.add_assoc. replace (2^63 + (0x7FF0000000000000 + m)) with (0x7FF0000000000000 + m + 1 * 2^63) by lia. rewrite Z.mod_add by lia. apply Z.mod_small. lia.
  - rewrite fbits_fin in E. split; [done|]. intros _. pose proof (mag_range m e He). unfold inf_ord in *.
    assert (n mod 2^63 = ffin_mag m e); [|lia]. destruct s; subst n; [|rewrite Z.mod_small; lia]. replace (2^63 + ffin_mag m e) with (ffin_mag m e + 1 * 2^63) by lia. rewrite Z.mod_add by lia. apply Z.mod_small. lia.
Qed.
(** every position is taken *)
Lemma ford_surj z : - inf_ord ≤ z ≤ inf_ord → ∃ x, fisnan x = false ∧ ford x = z.
Proof.
  intros H. unfold inf_ord in H. exists (f_frombits (if z <? 0 then 2^63 - z else z)).
  destruct (frombits_ok (if z <? 0 then 2^63 - z else z)) as [H1 H2]; [case_match; lia|]. rewrite H2. split.
  - apply H1. unfold inf_ord. destruct (Z.ltb_spec z 0); [|rewrite Z.mod_small; lia]. replace (2^63 - z) with (- z + 1 * 2^63) by lia. rewrite Z.mod_add by lia. rewrite Z.mod_small; lia.
  - unfold ord_of_bits. destruct (Z.ltb_spec z 0); case_match; lia.
Qed.
(** positions from bits *)
Lemma fbits_cases x : fisnan x = false → 0 ≤ fbits x ≤ inf_ord ∧ ford x = fbits x ∨ 2^63 ≤ fbits x ≤ 2^63 + inf_ord ∧ ford x = 2^63 - fbits x.
Proof.
  destruct x as [s|s| |s m e H]; [| |done|]; intros _; rewrite ?ford_zero, ?ford_inf, ?ford_fin, ?fbits_zero, ?fbits_inf, ?fbits_fin; try (pose proof (mag_range m e H)); unfold inf_ord in *; destruct s; cbn [sgn_z]; lia.
Qed.
Lemma ford_f2r_inf x : fisnan x = false → ffinite x = false ↔ ford x = inf_ord ∨ ford x = - inf_ord.
Proof.
  destruct x as [s|s| |s m e H]; [| |done|]; intros _; rewrite ?ford_zero, ?ford_inf, ?ford_fin; try (pose proof (mag_range m e H)); unfold inf_ord in *; (split; [|cbn [ffinite is_finite]]); try done; destruct s; cbn [sgn_z]; try lia; intros; lia.
Qed.
