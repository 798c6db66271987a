From Verif Require Import Base BaseProofs Float64 Stat64Model Stat64Spec.
From Coq Require Import ZifyBool ZifyNat.
Ltac Zify.zify_post_hook ::= Z.div_mod_to_equations.

Lemma fbits_range x : 0 ≤ fbits x < 2^64.
Proof. apply (Bits.bits_of_binary_float_range 52 11); lia. Qed.
Lemma f_frombits_bits x : f_frombits (fbits x) = x.
Proof. exact (Bits.binary_float_of_bits_of_binary_float 52 11 eq_refl eq_refl eq_refl x). Qed.
Lemma getf_putf x : getf (putf x) = x.
Proof. unfold getf, putf. rewrite get64_put64 by apply fbits_range. apply f_frombits_bits. Qed.
Lemma putf_length x : length (putf x) = 8%nat.
Proof. apply put64_length. Qed.
Lemma putf_bytes x : is_bytes (putf x).
Proof. apply put64_bytes. Qed.

(** the record of an accumulator *)
Definition enc (a : acc float) : bytes :=
  put64 (a_count a) ++ putf (a_sum a) ++ putf (a_mean a) ++ putf (a_ss a).
Lemma enc_length a : length (enc a) = 32%nat.
Proof. unfold enc. rewrite !app_length, put64_length, !putf_length. done. Qed.
Lemma enc_bytes a : is_bytes (enc a).
Proof. unfold enc. rewrite !is_bytes_app. auto using put64_bytes, putf_bytes. Qed.
Definition acc0 : acc float := Acc 0 f_zero f_zero f_zero.
Lemma acc0_count : 0 ≤ a_count acc0 < 2^64.
Proof. unfold acc0. cbn [a_count]. lia. Qed.
Lemma enc_zero : enc acc0 = replicate 32 0.
Proof. vm_compute. reflexivity. Qed.

Lemma slice_at (pre x post : bytes) lo hi : lo = Z.of_nat (length pre) → hi = lo + Z.of_nat (length x) →
  slice (pre ++ x ++ post) lo hi = Ok x.
Proof.
  intros -> ->. rewrite slice_Ok by (rewrite ?app_length; lia).
  rewrite Nat2Z.id, drop_app. replace (Z.to_nat _) with (length x) by lia. by rewrite take_app.
Qed.
Lemma splice_at (pre x post y : bytes) lo : lo = length pre → length y = length x →
  splice (pre ++ x ++ post) lo y = pre ++ y ++ post.
Proof.
  intros -> Hl. unfold splice. rewrite take_app, <- drop_drop, drop_app, Hl, drop_app. done.
Qed.

Lemma slice_at0 (x post : bytes) hi : hi = Z.of_nat (length x) → slice (x ++ post) 0 hi = Ok x.
Proof. intros ->. by apply (slice_at [] x post). Qed.
Lemma splice_at0 (x post y : bytes) : length y = length x → splice (x ++ post) 0 y = y ++ post.
Proof. intros. by apply (splice_at [] x post y). Qed.

Lemma load_enc a rest : 0 ≤ a_count a < 2^64 → stat_load (enc a ++ rest) = Ok a.
Proof.
  intros Hc. unfold stat_load, stat_u64, stat_f64, enc. rewrite <- !app_assoc.
  rewrite (slice_at0 (put64 (a_count a))) by (rewrite ?put64_length; done). cbn [obind].
  rewrite (slice_at (put64 (a_count a)) (putf (a_sum a))) by (rewrite ?put64_length, ?putf_length; done). cbn [obind].
  rewrite (app_assoc (put64 _) (putf (a_sum a))).
  rewrite (slice_at (put64 (a_count a) ++ putf (a_sum a)) (putf (a_mean a)))
    by (rewrite ?app_length, ?put64_length, ?putf_length; done). cbn [obind].
  rewrite (app_assoc _ (putf (a_mean a))).
  rewrite (slice_at ((put64 (a_count a) ++ putf (a_sum a)) ++ putf (a_mean a)) (putf (a_ss a)))
    by (rewrite ?app_length, ?put64_length, ?putf_length; done). cbn [obind].
  rewrite !getf_putf, get64_put64 by done. destruct a; done.
Qed.
Lemma save_enc a b rest : stat_save (enc a ++ rest) b = Ok (enc b ++ rest).
Proof.
  unfold stat_save, stat_put, enc. rewrite <- !app_assoc.
  rewrite (slice_at0 (put64 (a_count a))) by (rewrite ?put64_length; done). cbn [obind].
  change (Z.to_nat 0) with 0%nat. rewrite (splice_at0 (put64 (a_count a))) by (rewrite ?put64_length; done).
  rewrite (slice_at (put64 (a_count b)) (putf (a_sum a))) by (rewrite ?put64_length, ?putf_length; done). cbn [obind].
  rewrite (splice_at (put64 (a_count b)) (putf (a_sum a))) by (rewrite ?put64_length, ?putf_length; done).
  rewrite (app_assoc (put64 _) (putf (a_sum b))).
  rewrite (slice_at (put64 (a_count b) ++ putf (a_sum b)) (putf (a_mean a)))
    by (rewrite ?app_length, ?put64_length, ?putf_length; done). cbn [obind].
  rewrite (splice_at (put64 (a_count b) ++ putf (a_sum b)) (putf (a_mean a)))
    by (rewrite ?app_length, ?put64_length, ?putf_length; done).
  rewrite (app_assoc _ (putf (a_mean b))).
  rewrite (slice_at ((put64 (a_count b) ++ putf (a_sum b)) ++ putf (a_mean b)) (putf (a_ss a)))
    by (rewrite ?app_length, ?put64_length, ?putf_length; done). cbn [obind].
  rewrite (splice_at ((put64 (a_count b) ++ putf (a_sum b)) ++ putf (a_mean b)) (putf (a_ss a)))
    by (rewrite ?app_length, ?put64_length, ?putf_length; done).
  by rewrite <- !app_assoc.
Qed.
Lemma observe_count a v : 0 ≤ a_count (observe64 a v) < 2^64.
Proof. apply u64_range. Qed.
Lemma fold_count vs a : 0 ≤ a_count a < 2^64 → 0 ≤ a_count (fold_left observe64 vs a) < 2^64.
Proof. revert a. induction vs as [|v vs IH]; intros a Ha; [done|]. apply IH, observe_count. Qed.

Lemma Update_enc a rest v : 0 ≤ a_count a < 2^64 → Stat_Update (enc a ++ rest) v = Ok (enc (observe64 a v) ++ rest).
Proof. intros Ha. unfold Stat_Update. rewrite load_enc by done. apply save_enc. Qed.
Lemma UpdateMulti_enc a rest vs : 0 ≤ a_count a < 2^64 →
  Stat_UpdateMulti (enc a ++ rest) vs = Ok (enc (fold_left observe64 vs a) ++ rest).
Proof. intros Ha. unfold Stat_UpdateMulti. rewrite load_enc by done. apply save_enc. Qed.
Lemma Reset_enc a rest : Stat_Reset (enc a ++ rest) = enc acc0 ++ rest.
Proof.
  unfold Stat_Reset, gocopy, zeroStats64. rewrite app_length, enc_length, replicate_length.
  replace (Nat.min (32 + length rest) 32) with 32%nat by lia.
  rewrite take_ge by (rewrite replicate_length; lia). rewrite enc_zero. f_equal.
Qed.
(** Reset on a buffer of arbitrary content *)
Lemma Reset_any s : (32 ≤ length s)%nat → Stat_Reset s = enc acc0 ++ drop 32 s.
Proof.
  intros Hs. unfold Stat_Reset, gocopy, zeroStats64. rewrite replicate_length.
  replace (Nat.min (length s) 32) with 32%nat by lia. rewrite take_ge by (rewrite replicate_length; lia).
  by rewrite enc_zero.
Qed.

Lemma ops_enc os : ∀ a vs rest, 0 ≤ a_count a < 2^64 → a = fold_left observe64 vs acc0 →
  stat_ops (enc a ++ rest) os = Ok (enc (fold_left observe64
     (fold_left (λ acc o, match o with SUpdate v => acc ++ [v] | SMulti vs => acc ++ vs | SReset => [] end) os vs) acc0) ++ rest).
Proof.
  induction os as [|o os IH]; intros a vs rest Ha Hvs; cbn [stat_ops fold_left]; [by rewrite <- Hvs|].
  destruct o as [v|us|]; cbn [stat_op].
  - rewrite Update_enc by done. cbn [obind]. apply IH; [apply observe_count|].
    rewrite fold_left_app, <- Hvs. done.
  - rewrite UpdateMulti_enc by done. cbn [obind]. apply IH; [by apply fold_count|].
    rewrite fold_left_app, <- Hvs. done.
  - rewrite Reset_enc. cbn [obind]. apply IH; [apply acc0_count|reflexivity].
Qed.

Lemma fold_spec vs : ∀ c s m q, 
  fold_left observe64 vs (Acc c s m q) =
  let w := fold_left (λ '(k, mean, ss) v,
    let k' := (k + 1) mod 2^64 in
    let mean' := fadd mean (fdiv (fsub v mean) (f_of_Z k')) in
    (k', mean', fadd ss (fmul (fsub v mean) (fsub v mean')))) vs (c, m, q) in
  Acc w.1.1 (fold_left fadd vs s) w.1.2 w.2.
Proof.
  induction vs as [|v vs IH]; intros c s m q; cbn [fold_left]; [done|].
  unfold observe64 at 2, observe. cbn [a_count a_sum a_mean a_ss]. rewrite IH. done.
Qed.
Lemma welford_count vs : ∀ c m q, 0 ≤ c < 2^64 →
  (fold_left (λ '(k, mean, ss) v,
    let k' := (k + 1) mod 2^64 in
    let mean' := fadd mean (fdiv (fsub v mean) (f_of_Z k')) in
    (k', mean', fadd ss (fmul (fsub v mean) (fsub v mean')))) vs (c, m, q)).1.1 = (c + Z.of_nat (length vs)) mod 2^64.
Proof.
  induction vs as [|v vs IH]; intros c m q Hc; cbn [fold_left length].
  - simpl. rewrite Z.mod_small; lia.
  - rewrite IH by (apply Z.mod_pos_bound; lia). rewrite Zplus_mod_idemp_l. f_equal. lia.
Qed.
Lemma acc_spec vs : fold_left observe64 vs acc0 = Acc (count_spec vs) (sum_spec vs) (mean_spec vs) (ss_spec vs).
Proof.
  unfold acc0. rewrite fold_spec. cbv zeta. f_equal. rewrite welford_count by lia. done.
Qed.

Lemma repr_enc a rest vs : a = Acc (count_spec vs) (sum_spec vs) (mean_spec vs) (ss_spec vs) → stat_repr (enc a ++ rest) vs.
Proof.
  intros ->. set (a := Acc _ _ _ _). 
  assert (Hc : 0 ≤ a_count a < 2^64) by (apply Z.mod_pos_bound; lia).
  pose proof (load_enc a rest Hc) as HL. unfold stat_load in HL.
  destruct (stat_u64 (enc a ++ rest) 0) as [c| |] eqn:E0; try discriminate. cbn [obind] in HL.
  destruct (stat_f64 (enc a ++ rest) 8) as [s| |] eqn:E1; try discriminate. cbn [obind] in HL.
  destruct (stat_f64 (enc a ++ rest) 16) as [m| |] eqn:E2; try discriminate. cbn [obind] in HL.
  destruct (stat_f64 (enc a ++ rest) 24) as [q| |] eqn:E3; try discriminate. cbn [obind] in HL.
  injection HL as -> -> -> ->.
  unfold stat_repr, Stat_Count, Stat_Sum, Stat_Mean, Stat_Variance. rewrite E0, E1, E2, E3. cbn [obind].
  split_and!; [done|done|done|]. unfold var_spec. destruct (Z.ltb_spec (count_spec vs) 2) as [H|H]; [done|].
  rewrite u64_small; [done|]. cbn [a_count] in Hc. unfold a in Hc. cbn [a_count] in Hc. lia.
Qed.

Lemma summary_fold buf os : (32 ≤ length buf)%nat → take 32 buf = replicate 32 0 →
  ∃ rec, stat_ops buf os = Ok (rec ++ drop 32 buf) ∧ length rec = 32%nat ∧ is_bytes rec ∧
    stat_repr (rec ++ drop 32 buf) (observations os).
Proof.
  intros Hl H0.
  assert (E : enc acc0 ++ drop 32 buf = buf) by (rewrite enc_zero, <- H0; apply take_drop).
  pose proof (ops_enc os acc0 [] (drop 32 buf) acc0_count eq_refl) as HO. rewrite E in HO. rewrite HO.
  eexists. split; [done|]. split; [apply enc_length|]. split; [apply enc_bytes|].
  apply repr_enc. apply acc_spec.
Qed.
Lemma reset_then_ops buf os : (32 ≤ length buf)%nat →
  ∃ rec, stat_ops buf (SReset :: os) = Ok (rec ++ drop 32 buf) ∧ length rec = 32%nat ∧
    stat_repr (rec ++ drop 32 buf) (observations os).
Proof.
  intros Hl. cbn [stat_ops stat_op obind]. rewrite Reset_any by done.
  rewrite (ops_enc os acc0 [] (drop 32 buf) acc0_count eq_refl).
  eexists. split; [done|]. split; [apply enc_length|]. apply repr_enc. apply acc_spec.
Qed.
Lemma slice_no_err (s : bytes) a b : (∃ x, slice s a b = Ok x) ∨ slice s a b = Panic.
Proof. unfold slice. destruct (_ && _); [left; by eexists|by right]. Qed.
Lemma short_load s : (length s < 32)%nat → stat_load s = Panic.
Proof.
  intros Hs. assert (H : slice s 24 (24 + 8) = Panic).
  { unfold slice. destruct (_ && _) eqn:E; [lia|done]. }
  unfold stat_load, stat_u64, stat_f64.
  destruct (slice_no_err s 0 (0+8)) as [[x ->]| ->]; cbn [obind]; [|done].
  destruct (slice_no_err s 8 (8+8)) as [[y ->]| ->]; cbn [obind]; [|done].
  destruct (slice_no_err s 16 (16+8)) as [[z ->]| ->]; cbn [obind]; [|done].
  rewrite H. done.
Qed.
Lemma short_panics s v : (length s < 32)%nat → Stat_Update s v = Panic.
Proof. intros Hs. unfold Stat_Update. by rewrite short_load. Qed.
Lemma short_panics_multi s vs : (length s < 32)%nat → Stat_UpdateMulti s vs = Panic.
Proof. intros Hs. unfold Stat_UpdateMulti. by rewrite short_load. Qed.
(** an arbitrary 32 byte prefix is the encoding of some accumulators *)
Lemma putf_getf l : is_bytes l → length l = 8%nat → putf (getf l) = l.
Proof.
  intros Hb Hl. unfold putf, getf.
  assert (E : fbits (f_frombits (get64 l)) = get64 l).
  { apply (Bits.bits_of_binary_float_of_bits 52 11 eq_refl eq_refl eq_refl (get64 l)). by apply get64_range. }
  rewrite E. by apply put64_get64.
Qed.
Lemma enc_any s : (32 ≤ length s)%nat → is_bytes s →
  ∃ a, 0 ≤ a_count a < 2^64 ∧ s = enc a ++ drop 32 s.
Proof.
  intros Hl Hb. exists (Acc (get64 (take 8 s)) (getf (take 8 (drop 8 s))) (getf (take 8 (drop 16 s))) (getf (take 8 (drop 24 s)))).
  unfold enc. cbn [a_count a_sum a_mean a_ss].
  split; [apply get64_range; [by apply is_bytes_take|rewrite take_length; lia]|].
  rewrite !putf_getf, put64_get64 by (first [by apply is_bytes_take|by apply is_bytes_take, is_bytes_drop|rewrite ?take_length, ?drop_length; lia]).
  rewrite <- !app_assoc.
  rewrite <- (take_drop 8 s) at 1. f_equal.
  rewrite <- (take_drop 8 (drop 8 s)) at 1. f_equal. rewrite drop_drop. change (8+8)%nat with 16%nat.
  rewrite <- (take_drop 8 (drop 16 s)) at 1. f_equal. rewrite drop_drop. change (16+8)%nat with 24%nat.
  rewrite <- (take_drop 8 (drop 24 s)) at 1. f_equal. rewrite drop_drop. done.
Qed.
Lemma updates_enc vs : ∀ a rest, 0 ≤ a_count a < 2^64 →
  stat_ops (enc a ++ rest) (map SUpdate vs) = Ok (enc (fold_left observe64 vs a) ++ rest).
Proof.
  induction vs as [|v vs IH]; intros a rest Ha; [done|]. cbn [map stat_ops stat_op fold_left].
  rewrite Update_enc by done. cbn [obind]. apply IH, observe_count.
Qed.
Lemma batching buf vs : (32 ≤ length buf)%nat → is_bytes buf →
  stat_ops buf [SMulti vs] = stat_ops buf (map SUpdate vs).
Proof.
  intros Hl Hb. destruct (enc_any buf Hl Hb) as (a & Ha & ->). rewrite updates_enc by done.
  cbn [stat_ops stat_op]. rewrite UpdateMulti_enc by done. done.
Qed.
