From Coq Require Import ZifyBool ZifyNat.
From Verif Require Import Base BaseProofs Float64 Float64Spec Float64Proofs StatsUtilProofs FloatBits FltUtilModel FltUtilSpec.
From Coq Require Import Reals Lra.
From Flocq Require Import Core.
From Flocq Require IEEE754.Binary IEEE754.BinarySingleNaN IEEE754.Bits.
Notation float := Float64.float.
Local Open Scope Z_scope.
Local Transparent fadd fsub fmul fdiv fsqrt flt fle feq fgt fisnan ffinite f_of_Z f_zero fabs fneg f_nan f_inf.

Lemma max_ord : fisnan f_max = false ∧ ford f_max = inf_ord - 1.
Proof. split; vm_compute; reflexivity. Qed.
Lemma neg_max_ord : fisnan (fneg f_max) = false ∧ ford (fneg f_max) = - (inf_ord - 1).
Proof. split; vm_compute; reflexivity. Qed.
Lemma zero_ord : fisnan f_zero = false ∧ ford f_zero = 0.
Proof. split; vm_compute; reflexivity. Qed.
Lemma flt_nan x y : fisnan x = true ∨ fisnan y = true → flt x y = false.
Proof. intros [H|H]; [by destruct x|]. destruct y; try done. by destruct x as [[]|[]| |[]]. Qed.
Lemma feq_nan x y : fisnan x = true ∨ fisnan y = true → feq x y = false.
Proof. intros [H|H]; [by destruct x|]. destruct y; try done. by destruct x as [[]|[]| |[]]. Qed.
Lemma fle_nan x y : fisnan x = true ∨ fisnan y = true → fle x y = false.
Proof. intros [H|H]; [by destruct x|]. destruct y; try done. by destruct x as [[]|[]| |[]]. Qed.
Lemma fisinf_ord x : fisinf x = true ↔ is_inf x.
Proof.
  destruct (fisnan x) eqn:N.
  - unfold fisinf, fgt. rewrite !flt_nan by auto. split; [done|]. intros [s ->]. done.
  - destruct max_ord as [M1 M2], neg_max_ord as [M3 M4]. unfold fisinf, fgt. rewrite orb_true_iff, !flt_ord, M2, M4 by done. pose proof (ford_range x N) as Hr. split.
    + intros H. assert (ffinite x = false) as F by (apply ford_f2r_inf; [done|lia]). destruct x as [|s| |]; [discriminate F| |discriminate N|discriminate F]. by exists s.
    + intros [s ->]. rewrite ford_inf. unfold inf_ord. destruct s; cbn [sgn_z]; lia.
Qed.
Lemma next_ord x : fisnan x = false → fisnan (nextafter x f_max) = false ∧
  ford (nextafter x f_max) = if decide (ford x = inf_ord - 1) then ford x else if decide (ford x = inf_ord) then inf_ord - 1 else ford x + 1.
Proof.
  intros N. destruct max_ord as [M1 M2], zero_ord as [Z1 Z2]. unfold nextafter. rewrite N, M1. cbn [orb].
  destruct (feq x f_max) eqn:E1.
  { apply feq_ord in E1; [|done..]. rewrite decide_True by lia. split; [exact N|reflexivity]. }
  assert (ford x ≠ inf_ord - 1) as H1. { intros H. assert (feq x f_max = true); [|congruence]. apply feq_ord; [done..|lia]. }
  rewrite decide_False by done. destruct (feq x f_zero) eqn:E2.
  { apply feq_ord in E2; [|done..]. rewrite Z2 in E2. rewrite E2, decide_False by done. split; vm_compute; reflexivity. }
  assert (ford x ≠ 0) as H2. { intros H. assert (feq x f_zero = true); [|congruence]. apply feq_ord; [done..|lia]. }
  assert (fgt f_max x = bool_decide (ford x < inf_ord - 1)) as ->. { apply eq_bool_prop_intro. rewrite bool_decide_spec. unfold fgt. rewrite Is_true_true, flt_ord by done. lia. }
  assert (fgt x f_zero = bool_decide (0 < ford x)) as ->. { apply eq_bool_prop_intro. rewrite bool_decide_spec. unfold fgt. rewrite Is_true_true, flt_ord by done. lia. }
  pose proof (ford_range x N) as Hr. pose proof (fbits_cases x N) as Hb.
  assert (∀ n, 0 ≤ n < 2^64 → u64 n = n) as Hu by (intros n Hn; unfold u64; by rewrite Z.mod_small).
  assert (∀ n z, 0 ≤ n < 2^64 → (0 ≤ n ≤ inf_ord ∧ z = n) ∨ (2^63 ≤ n ≤ 2^63 + inf_ord ∧ z = 2^63 - n) → fisnan (f_frombits n) = false ∧ ford (f_frombits n) = z) as Hf.
  { intros n z Hn Hz. destruct (frombits_ok n Hn) as [A B]. rewrite B. unfold ord_of_bits, inf_ord in *. split.
    - apply A. destruct Hz as [[Hz _]|[Hz _]]; [rewrite Z.mod_small; lia|]. replace n with (n - 2^63 + 1 * 2^63) by lia. rewrite Z.mod_add by lia. rewrite Z.mod_small; lia.
    - destruct (Z.ltb_spec n (2^63)); lia. }
  unfold inf_ord in *. destruct (decide (ford x = 0x7FF0000000000000)) as [Ei|Ei].
  - rewrite bool_decide_eq_false_2 by lia. rewrite bool_decide_eq_true_2 by lia. cbn [Bool.eqb]. rewrite Hu by lia. apply Hf; lia.
  - rewrite (bool_decide_eq_true_2 (ford x < _)) by lia. destruct (decide (0 < ford x)).
    + rewrite bool_decide_eq_true_2 by lia. cbn [Bool.eqb]. rewrite Hu by lia. apply Hf; lia.
    + rewrite bool_decide_eq_false_2 by lia. cbn [Bool.eqb]. rewrite Hu by lia. apply Hf; lia.
Qed.
Lemma adjacent_ord a b : fisnan a = false → fisnan b = false → AdjacentEqual64 a b = true ↔ Z.abs (ford a - ford b) ≤ 1.
Proof.
  intros Ha Hb. unfold AdjacentEqual64. destruct (next_ord a Ha) as [N1 O1], (next_ord b Hb) as [N2 O2].
  rewrite !orb_true_iff, !feq_ord, O1, O2 by done. pose proof (ford_range a Ha). pose proof (ford_range b Hb). unfold inf_ord in *. repeat case_decide; lia.
Qed.
Lemma adjacent_nan a b : fisnan a = true ∨ fisnan b = true → AdjacentEqual64 a b = false.
Proof.
  intros H. unfold AdjacentEqual64. rewrite feq_nan by done.
  assert (fisnan f_nan = true) as Nn by (vm_compute; reflexivity). rewrite !feq_nan; [done| |].
  - destruct H as [H|H]; [right; unfold nextafter; by rewrite H|by left].
  - destruct H as [H|H]; [by left|right; unfold nextafter; by rewrite H].
Qed.
Lemma adjacent_between a b : fisnan a = false → fisnan b = false → AdjacentEqual64 a b = true ↔ ¬ ∃ c, strictly_between a c b.
Proof.
  intros Ha Hb. rewrite adjacent_ord by done. split.
  - intros H (c & [[H1 H2]|[H1 H2]]); (assert (fisnan c = false) as Nc by (destruct (fisnan c) eqn:E; [|done]; rewrite flt_nan in H1 by auto; done)); apply flt_ord in H1, H2; (done || lia).
  - intros H. destruct (decide (Z.abs (ford a - ford b) ≤ 1)) as [|Hn]; [done|]. exfalso. apply H. pose proof (ford_range a Ha). pose proof (ford_range b Hb).
    destruct (ford_surj (Z.min (ford a) (ford b) + 1)) as (c & Nc & Oc); [lia|]. exists c. unfold strictly_between. rewrite !flt_ord by done. lia.
Qed.
Lemma Equiv64_spec a b : Equiv64 a b = true ↔ (is_inf a ∧ is_inf b) ∨ (is_nan a ∧ is_nan b) ∨ (ffinite a = true ∧ ffinite b = true ∧ f2r a = f2r b).
Proof.
  unfold Equiv64, is_nan. destruct (fisinf a && fisinf b) eqn:Ei.
  { apply andb_prop in Ei as [Hi1 Hi2]. rewrite fisinf_ord in Hi1, Hi2. tauto. }
  assert (¬ (is_inf a ∧ is_inf b)) as Hi. { rewrite <- !fisinf_ord. intros [H1 H2]. rewrite H1, H2 in Ei. discriminate Ei. }
  destruct (fisnan a && fisnan b) eqn:En. { apply andb_prop in En. tauto. }
  destruct (ffinite a) eqn:Fa, (ffinite b) eqn:Fb.
  - rewrite (StatsUtilProofs.feq_ok a b) by done. split; [tauto|]. intros [H|[[H1 H2]|H]]; [tauto| |tauto]. by rewrite H1, H2 in En.
  - split; [|intros [H|[[H1 H2]|H]]; [tauto| |naive_solver]; by rewrite H1, H2 in En]. intros H. exfalso. clear -H Fa Fb En. destruct b as [|s| |]; [discriminate Fb| | |discriminate Fb]; destruct a as [[]|[]| |[]]; try discriminate Fa; try destruct s; discriminate H.
  - split; [|intros [H|[[H1 H2]|H]]; [tauto| |naive_solver]; by rewrite H1, H2 in En]. intros H. exfalso. clear -H Fa Fb En. destruct a as [|s| |]; [discriminate Fa| | |discriminate Fa]; destruct b as [[]|[]| |[]]; try discriminate Fb; try destruct s; discriminate H.
  - split; [|intros [H|[[H1 H2]|H]]; [tauto| |naive_solver]; by rewrite H1, H2 in En]. intros H. exfalso. destruct a as [|s| |]; try done. destruct b as [|s'| |]; [done| |done|done]. apply Hi. split; eexists; done.
Qed.

(** ** Close64 *)
Lemma fabs_ok x : ffinite (fabs x) = ffinite x ∧ f2r (fabs x) = Rabs (f2r x) ∧ (fisnan x = false → fisnan (fabs x) = false ∧ fsign (fabs x) = false).
Proof.
  split; [apply Binary.is_finite_Babs|]. split; [apply Binary.B2R_Babs|]. by destruct x.
Qed.
Lemma fsub_cases x y : ffinite x = true → ffinite y = true →
  (ffinite (fsub x y) = true ∧ f2r (fsub x y) = rnd (f2r x - f2r y)) ∨ ∃ s, fsub x y = Binary.B754_infinity 53 1024 s.
Proof.
  intros Hx Hy. pose proof (Binary.Bminus_correct 53 1024 eq_refl eq_refl Bits.binop_nan_pl64 BinarySingleNaN.mode_NE x y Hx Hy) as H.
  rewrite fexp_eq in H. fold (f2r x) (f2r y) in H. change (BinarySingleNaN.round_mode BinarySingleNaN.mode_NE) with ZnearestE in H.
  fold (rnd (f2r x - f2r y)) in H. destruct (Rlt_bool _ _); [left; destruct H as (H1 & H2 & _); by split|]. right. destruct H as (H1 & _). apply ovf_inf in H1. by eexists.
Qed.
Lemma fdiv_cases x y : ffinite x = true → f2r y ≠ 0%R →
  (ffinite (fdiv x y) = true ∧ f2r (fdiv x y) = rnd (f2r x / f2r y)) ∨ fdiv x y = Binary.B754_infinity 53 1024 (xorb (fsign x) (fsign y)).
Proof.
  intros Hx Hy. pose proof (Binary.Bdiv_correct 53 1024 eq_refl eq_refl Bits.binop_nan_pl64 BinarySingleNaN.mode_NE x y Hy) as H.
  rewrite fexp_eq in H. fold (f2r x) (f2r y) in H. change (BinarySingleNaN.round_mode BinarySingleNaN.mode_NE) with ZnearestE in H.
  fold (rnd (f2r x / f2r y)) in H. destruct (Rlt_bool _ _); [left; destruct H as (H1 & H2 & _); split; [etrans; [exact H2|exact Hx]|exact H1]|]. right. by apply ovf_inf in H.
Qed.
Lemma fle_ord x y : fisnan x = false → fisnan y = false → fle x y = true ↔ ford x ≤ ford y.
Proof. intros Hx Hy. unfold fle. rewrite compare_ord by done. destruct (Z.compare_spec (ford x) (ford y)); split; (done || lia). Qed.
Lemma fin_not_nan x : ffinite x = true → fisnan x = false.
Proof. by destruct x. Qed.
Lemma ford_le0 x : ffinite x = true → ford x ≤ 0 ↔ (f2r x <= 0)%R.
Proof.
  intros F. destruct zero_ord as [Z1 Z2]. destruct f_zero_ok as (F0 & E0 & _). rewrite <- Z2, <- (fle_ord x f_zero), (fle_ok x f_zero), E0; [done|done|done|by apply fin_not_nan|done].
Qed.
Lemma close_neg a b tol : ffinite a = true → ffinite b = true → (f2r a < 0)%R → fle f_zero tol = true → Close64 a b tol = true.
Proof.
  intros Fa Fb Ha Ht. assert (fisnan tol = false) as Nt. { destruct (fisnan tol) eqn:E; [|done]. rewrite fle_nan in Ht by auto. done. }
  unfold Close64. apply orb_true_iff. right. destruct zero_ord as [Z1 Z2]. apply fle_ord in Ht; [|done..]. rewrite Z2 in Ht.
  assert (fisnan (fsub a b) = false) as Ns. { destruct (fsub_cases a b Fa Fb) as [[H _]|[s ->]]; [by apply fin_not_nan|done]. }
  destruct (fabs_ok (fsub a b)) as (_ & _ & G). destruct (G Ns) as [Nd Sd]. revert Nd Sd. generalize (fabs (fsub a b)). intros d Nd Sd.
  assert (fsign a = true) as Sa. { apply f2r_sign; [done|lra|done]. }
  assert (fisnan (fdiv d a) = false ∧ ford (fdiv d a) ≤ 0) as [Nq Hq].
  { destruct (ffinite d) eqn:Fd.
    - destruct (fdiv_cases d a Fd) as [[F E]| ->]; [lra| |].
      + split; [by apply fin_not_nan|]. apply ford_le0; [done|]. rewrite E. rewrite <- rnd_0. apply rnd_le.
        assert (0 <= f2r d)%R. { destruct (Rle_dec 0 (f2r d)) as [|Hn]; [done|]. exfalso. assert (fsign d = true); [|congruence]. apply f2r_sign; [done|lra|lra]. }
        unfold Rdiv. pose proof (Rinv_lt_0_compat _ Ha). nra.
      + rewrite Sd, Sa. rewrite ford_inf. split; [done|]. unfold inf_ord. cbn. lia.
    - destruct d as [|s| |]; try done. unfold fsign in Sd. cbn in Sd. subst s. destruct a as [s|s| |s m e H]; try done; [unfold f2r in Ha; cbn in Ha; lra|]. unfold fsign in Sa. cbn in Sa. subst s.
      change (fdiv _ _) with (Binary.B754_infinity 53 1024 true). rewrite ford_inf. split; [done|]. unfold inf_ord. cbn. lia. }
  apply fle_ord; [done..|lia].
Qed.
Lemma rnd_flt x : ∃ eps eta, (Rabs eps <= /2^53)%R ∧ (Rabs eta <= bpow radix2 (-1075))%R ∧ rnd x = (x * (1 + eps) + eta)%R.
Proof.
  destruct (Relative.error_N_FLT radix2 (-1074) 53 eq_refl (λ z, negb (Z.even z)) x) as (eps & eta & H1 & H2 & _ & E). exists eps, eta. split; [|split; [|exact E]].
  - replace (/ 2^53)%R with (/ 2 * bpow radix2 (- (53) + 1))%R; [exact H1|]. change (- (53) + 1)%Z with (- (52))%Z. rewrite bpow_opp. change 52%Z with (Z.of_nat 52). rewrite bpow_pow. change 53%nat with (S 52). rewrite <- (tech_pow_Rmult 2 52). field.
  - replace (bpow radix2 (-1075)) with (/ 2 * bpow radix2 (-1074))%R; [exact H2|]. change (-1074)%Z with (-1075 + 1)%Z. rewrite bpow_plus. change (bpow radix2 1) with 2%R. field.
Qed.
Lemma close_sound a b tol : ffinite a = true → ffinite b = true → ffinite tol = true → (0 < f2r a)%R → Close64 a b tol = true →
  AdjacentEqual64 a b = true ∨ (Rabs (f2r a - f2r b) <= (f2r tol + bpow radix2 (-1074)) * (1 + / 2^51) * f2r a)%R.
Proof.
  intros Fa Fb Ft Ha H. unfold Close64 in H. apply orb_true_iff in H as [H|H]; [by left|]. right.
  destruct (fabs_ok (fsub a b)) as (Ff & Fv & G). destruct (fsub_cases a b Fa Fb) as [[Fs Es]|[s Es]].
  2:{ exfalso. rewrite Es in H. destruct a as [s'|s'| |s' m e He]; try done; [unfold f2r in Ha; cbn in Ha; lra|]. destruct s'; [unfold f2r in Ha; pose proof (F2R_lt_0 radix2 (Float radix2 (Z.neg m) e) ltac:(done)) as Hn; cbn in Ha; change (F2R _) with (F2R (Float radix2 (Z.neg m) e)) in Ha; lra|].
      destruct s; (change (fdiv _ _) with (Binary.B754_infinity 53 1024 false) in H); destruct tol as [[]|[]| |[]]; done. }
  assert (fsign a = false) as Sa. { destruct (fsign a) eqn:E; [|done]. apply f2r_sign in E; [lra|done|lra]. }
  destruct (G (fin_not_nan _ Fs)) as [_ Sd].
  destruct (fdiv_cases (fabs (fsub a b)) a) as [[Fq Eq]|Eq]; [congruence|lra| |].
  2:{ exfalso. rewrite Eq, Sd, Sa in H. destruct tol as [[]|[]| |[]]; done. }
  apply fle_ok in H; [|done..]. rewrite Eq, Fv, Es in H.
  destruct (rnd_plus (f2r a) (- f2r b)) as (e & He & Er); [apply fmt_f2r|apply fmt_opp, fmt_f2r|]. change (f2r a + - f2r b)%R with (f2r a - f2r b)%R in Er. rewrite Er in H.
  rewrite Rabs_mult in H. unfold uro in He. destruct (rnd_flt (Rabs (f2r a - f2r b) * Rabs (1 + e) / f2r a)) as (eps & eta & H1 & H2 & E2). rewrite E2 in H. clear E2.
  set (D := Rabs (f2r a - f2r b)) in *. assert (0 <= D)%R by apply Rabs_pos. apply Rabs_le_inv in He, H1, H2.
  assert (/ 2 ^ 53 = / 9007199254740992)%R as U by (f_equal; cbn; lra). rewrite U in *. assert (/ 2 ^ 51 = / 2251799813685248)%R as U2 by (f_equal; cbn; lra). rewrite U2 in *.
  rewrite (Rabs_pos_eq (1 + e)) in H by lra. set (u := (/ 9007199254740992)%R) in *. assert (0 < u < / 1000)%R as Hu by (unfold u; lra).
  assert (0 < bpow radix2 (-1075))%R by apply bpow_gt_0. assert (bpow radix2 (-1074) = 2 * bpow radix2 (-1075))%R as E3. { change (-1074)%Z with (1 + -1075)%Z. rewrite bpow_plus. done. } rewrite E3. set (h := bpow radix2 (-1075)) in *.
  assert (D * (1 - u) * (1 - u) <= (f2r tol + h) * f2r a)%R as Hm.
  { assert (D * (1 + e) / f2r a * (1 + eps) <= f2r tol + h)%R as H4 by lra.
    apply (Rmult_le_compat_r (f2r a)) in H4; [|lra]. replace (D * (1 + e) / f2r a * (1 + eps) * f2r a)%R with (D * (1 + e) * (1 + eps))%R in H4 by (field; lra).
    eapply Rle_trans; [|exact H4]. apply Rmult_le_compat; [nra|lra| |lra]. apply Rmult_le_compat_l; lra. }
  assert (0 <= f2r tol + h)%R as Hp. { destruct (Rle_dec 0 (f2r tol + h)) as [|Hn]; [done|]. exfalso. assert ((f2r tol + h) * f2r a < 0)%R by nra. assert (0 <= D * (1 - u) * (1 - u))%R; [|lra]. apply Rmult_le_pos; [apply Rmult_le_pos|]; lra. }
  assert (1 <= (1 - u) * (1 - u) * (1 + / 2251799813685248))%R as H5 by (unfold u; lra).
  apply Rle_trans with (D * ((1 - u) * (1 - u) * (1 + / 2251799813685248)))%R; [nra|].
  apply Rle_trans with ((f2r tol + h) * f2r a * (1 + / 2251799813685248))%R; [|].
  - replace (D * ((1 - u) * (1 - u) * (1 + / 2251799813685248)))%R with (D * (1 - u) * (1 - u) * (1 + / 2251799813685248))%R by ring. apply Rmult_le_compat_r; [lra|done].
  - assert (0 <= h * f2r a * (1 + / 2251799813685248))%R by (apply Rmult_le_pos; [apply Rmult_le_pos|]; lra). lra.
Qed.
Lemma close_complete a b tol : ffinite a = true → ffinite b = true → ffinite tol = true → (0 < f2r a)%R → (Rabs (f2r a - f2r b) <= maxfloat)%R →
  (Rabs (f2r a - f2r b) * (1 + / 2^53) <= f2r tol * f2r a)%R → Close64 a b tol = true.
Proof.
  intros Fa Fb Ft Ha Hm H. unfold Close64. apply orb_true_iff. right. destruct (fabs_ok (fsub a b)) as (Ff & Fv & _).
  destruct (fsub_ok a b Fa Fb Hm) as (Fs & Es). rewrite Fs in Ff. rewrite Es in Fv.
  destruct (rnd_plus (f2r a) (- f2r b)) as (e & He & Er); [apply fmt_f2r|apply fmt_opp, fmt_f2r|]. change (f2r a + - f2r b)%R with (f2r a - f2r b)%R in Er. rewrite Er, Rabs_mult in Fv. unfold uro in He.
  assert (0 <= Rabs (f2r a - f2r b))%R by apply Rabs_pos.
  assert (0 <= f2r (fabs (fsub a b)) / f2r a <= f2r tol)%R as Hq.
  { split; [apply Rmult_le_pos; [rewrite Fv; apply Rmult_le_pos; apply Rabs_pos|left; by apply Rinv_0_lt_compat]|].
    apply (Rmult_le_reg_r (f2r a)); [done|]. unfold Rdiv. rewrite Rmult_assoc, Rinv_l by lra. rewrite Rmult_1_r, Fv. eapply Rle_trans; [|exact H]. apply Rmult_le_compat_l; [done|].
    eapply Rle_trans; [apply Rabs_triang|]. rewrite Rabs_R1. lra. }
  pose proof (f2r_bound tol) as Hb. destruct (fdiv_ok (fabs (fsub a b)) a) as (Fq & Eq); [done|lra| |].
  { rewrite Rabs_pos_eq by lra. rewrite Rabs_pos_eq in Hb by lra. lra. }
  apply fle_ok; [done..|]. rewrite Eq. rewrite <- (rnd_fmt (f2r tol)) by apply fmt_f2r. apply rnd_le. lra.
Qed.
Lemma Equiv64_equivalence : (∀ a, Equiv64 a a = true) ∧ (∀ a b, Equiv64 a b = Equiv64 b a) ∧ (∀ a b c, Equiv64 a b = true → Equiv64 b c = true → Equiv64 a c = true).
Proof.
  assert (∀ a b, Equiv64 a b = true → Equiv64 b a = true) as Hs. { intros a b. rewrite !Equiv64_spec. intros [?|[?|(? & ? & ?)]]; tauto || (right; right; auto). }
  split; [|split].
  - intros a. apply Equiv64_spec. destruct (ffinite a) eqn:F; [right; right; auto|]. destruct a as [s|s| |s m e H]; [discriminate F|left; split; by eexists|right; left; split; reflexivity|discriminate F].
  - intros a b. destruct (Equiv64 a b) eqn:E1, (Equiv64 b a) eqn:E2; try reflexivity; [apply Hs in E1|apply Hs in E2]; congruence.
  - intros a b c. rewrite !Equiv64_spec. intros H1 H2. assert (is_inf b → ffinite b = true → False) as X1. { by intros [s ->]. } assert (is_inf b → is_nan b → False) as X2. { intros [s ->]. unfold is_nan. by intros. }
    assert (is_nan b → ffinite b = true → False) as X3. { unfold is_nan. intros H F. apply fin_not_nan in F. congruence. }
    destruct H1 as [H1|[H1|(? & ? & ?)]], H2 as [H2|[H2|(? & ? & ?)]]; try tauto. right; right. split; [done|]. split; [done|]. congruence.
Qed.
Lemma equiv_or_close a b tol : EquivOrCloseFloat64 a b tol = true ↔ Equiv64 a b = true ∨ Close64 a b tol = true.
Proof.
  unfold EquivOrCloseFloat64, Equiv64. destruct (fisinf a && fisinf b); [tauto|]. destruct (fisnan a && fisnan b); [tauto|]. split; [auto|]. intros [H|H]; [|done]. unfold Close64, AdjacentEqual64. by rewrite H.
Qed.
