From Verif Require Import Base BaseProofs FnvModel FnvSpec.
From Coq Require Import ZifyBool ZifyNat Znumtheory.
Ltac Zify.zify_post_hook ::= Z.div_mod_to_equations.

Lemma fnv1_loop_fold h d :
  fnv1_loop h d = fold_left (λ h c, Z.lxor ((h * 1099511628211) mod 2^64) c) d h.
Proof. revert h. induction d as [|c d IH]; intros h; [done|]. apply IH. Qed.
Lemma fnv1a_loop_fold h d :
  fnv1a_loop h d = fold_left (λ h c, (Z.lxor h c * 1099511628211) mod 2^64) d h.
Proof. revert h. induction d as [|c d IH]; intros h; [done|]. apply IH. Qed.
Lemma fnv1_loop_app h d1 d2 : fnv1_loop h (d1 ++ d2) = fnv1_loop (fnv1_loop h d1) d2.
Proof. revert h. induction d1 as [|c d1 IH]; intros h; [done|]. apply IH. Qed.
Lemma fnv1a_loop_app h d1 d2 : fnv1a_loop h (d1 ++ d2) = fnv1a_loop (fnv1a_loop h d1) d2.
Proof. revert h. induction d1 as [|c d1 IH]; intros h; [done|]. apply IH. Qed.
Lemma str1_loop_eq pre str h :
  str1_loop (pre ++ str) (length str) (length pre) h = fnv1_loop h str.
Proof.
  revert pre h. induction str as [|c str IH]; intros pre h; [done|].
  cbn [str1_loop length fnv1_loop].
  rewrite (list_lookup_total_middle pre str c (length pre) eq_refl).
  specialize (IH (pre ++ [c]) (xor64 (mul64 h) c)).
  rewrite <- app_assoc, app_length in IH. cbn [length app] in IH. rewrite Nat.add_1_r in IH. exact IH.
Qed.
Lemma str1a_loop_eq pre str h :
  str1a_loop (pre ++ str) (length str) (length pre) h = fnv1a_loop h str.
Proof.
  revert pre h. induction str as [|c str IH]; intros pre h; [done|].
  cbn [str1a_loop length fnv1a_loop].
  rewrite (list_lookup_total_middle pre str c (length pre) eq_refl).
  specialize (IH (pre ++ [c]) (mul64 (xor64 h c))).
  rewrite <- app_assoc, app_length in IH. cbn [length app] in IH. rewrite Nat.add_1_r in IH. exact IH.
Qed.

Lemma String64_eq str : String64 str = Sum64 str.
Proof. exact (str1_loop_eq [] str offset64). Qed.
Lemma String64a_eq str : String64a str = Sum64a str.
Proof. exact (str1a_loop_eq [] str offset64). Qed.
Lemma Sum64_spec d : Sum64 d = fnv1_spec d.
Proof. apply fnv1_loop_fold. Qed.
Lemma Sum64a_spec d : Sum64a d = fnv1a_spec d.
Proof. apply fnv1a_loop_fold. Qed.

Lemma land_255 x : Z.land x 255 = x mod 256.
Proof. change 255 with (Z.ones 8). rewrite Z.land_ones by lia. done. Qed.
Lemma shiftr_land n k : 0 ≤ k → Z.land (Z.shiftr n k) 255 = (n / 2^k) mod 256.
Proof. intros. rewrite land_255, Z.shiftr_div_pow2 by lia. done. Qed.

Lemma be64_top n : 0 ≤ n < 2^64 → Z.shiftr n 56 = (n / 2^(8*7)) mod 256.
Proof.
  intros Hn. rewrite Z.shiftr_div_pow2 by lia. rewrite Z.mod_small; [done|].
  change (8*7) with 56. split; [apply Z.div_pos; lia|]. apply Z.div_lt_upper_bound; [lia|].
  change (2^56*256) with (2^64). lia.
Qed.

Lemma Fnv64_WriteUint64_eq s n : 0 ≤ n < 2^64 → Fnv64_WriteUint64 s n = fnv1_loop s (be64 n).
Proof.
  intros Hn. unfold Fnv64_WriteUint64, be64. cbn [map fnv1_loop]. cbv zeta.
  rewrite <- be64_top by done. rewrite !shiftr_land by lia.
  change (8*6) with 48. change (8*5) with 40. change (8*4) with 32. change (8*3) with 24.
  change (8*2) with 16. change (8*1) with 8. change (8*0) with 0. change (2^0) with 1.
  rewrite Z.div_1_r, land_255. done.
Qed.
Lemma Fnv64a_WriteUint64_eq s n : 0 ≤ n < 2^64 → Fnv64a_WriteUint64 s n = fnv1a_loop s (be64 n).
Proof.
  intros Hn. unfold Fnv64a_WriteUint64, be64. cbn [map fnv1a_loop]. cbv zeta.
  rewrite <- be64_top by done. rewrite !shiftr_land by lia.
  change (8*6) with 48. change (8*5) with 40. change (8*4) with 32. change (8*3) with 24.
  change (8*2) with 16. change (8*1) with 8. change (8*0) with 0. change (2^0) with 1.
  rewrite Z.div_1_r, land_255. done.
Qed.

Lemma written_snoc calls c : written (calls ++ [c]) =
  match c with CReset => [] | _ => written calls ++ wcall_bytes c end.
Proof. unfold written. rewrite fold_left_app. done. Qed.
Lemma calls64_loop cs : Forall wcall_ok cs →
  fold_left call64 cs New64 = fnv1_loop offset64 (written cs).
Proof.
  induction cs as [|c cs IH] using rev_ind; intros H; [done|].
  apply Forall_app in H as [Hcs Hc]. rewrite Forall_singleton in Hc.
  rewrite fold_left_app, written_snoc. cbn [fold_left]. rewrite IH by done.
  destruct c as [d|d|b|n|]; cbn [call64 wcall_bytes]; rewrite ?fnv1_loop_app; [done| |done| |done].
  - exact (str1_loop_eq [] d _).
  - apply Fnv64_WriteUint64_eq. exact Hc.
Qed.
Lemma calls64a_loop cs : Forall wcall_ok cs →
  fold_left call64a cs New64a = fnv1a_loop offset64 (written cs).
Proof.
  induction cs as [|c cs IH] using rev_ind; intros H; [done|].
  apply Forall_app in H as [Hcs Hc]. rewrite Forall_singleton in Hc.
  rewrite fold_left_app, written_snoc. cbn [fold_left]. rewrite IH by done.
  destruct c as [d|d|b|n|]; cbn [call64a wcall_bytes]; rewrite ?fnv1a_loop_app; [done| |done| |done].
  - exact (str1a_loop_eq [] d _).
  - apply Fnv64a_WriteUint64_eq. exact Hc.
Qed.

(** ** range and injectivity *)
Lemma mul64_range h : 0 ≤ mul64 h < 2^64.
Proof. apply u64_range. Qed.
Lemma xor64_range h c : 0 ≤ h < 2^64 → is_byte c → 0 ≤ xor64 h c < 2^64.
Proof. intros Hh Hc. apply lxor_range; [lia|lia|]. unfold is_byte in Hc. change (2^64) with (256*2^56). lia. Qed.
Lemma fnv1_loop_range h d : 0 ≤ h < 2^64 → is_bytes d → 0 ≤ fnv1_loop h d < 2^64.
Proof.
  intros Hh Hd. revert h Hh. induction Hd as [|c d Hc Hd IH]; intros h Hh; [done|].
  cbn [fnv1_loop]. apply IH. apply xor64_range; [apply mul64_range|done].
Qed.
Lemma fnv1a_loop_range h d : 0 ≤ h < 2^64 → 0 ≤ fnv1a_loop h d < 2^64.
Proof.
  revert h. induction d as [|c d IH]; intros h Hh; [done|].
  cbn [fnv1a_loop]. apply IH. apply mul64_range.
Qed.
Lemma offset64_range : 0 ≤ offset64 < 2^64.
Proof. unfold offset64. lia. Qed.
Lemma Sum64_range d : is_bytes d → 0 ≤ Sum64 d < 2^64.
Proof. intros. apply fnv1_loop_range; [apply offset64_range|done]. Qed.
Lemma Sum64a_range d : 0 ≤ Sum64a d < 2^64.
Proof. intros. apply fnv1a_loop_range, offset64_range. Qed.

(** the inverse of the prime modulo 2^64 *)
Definition prime_inv : Z := 14886173955864302971.
Lemma prime_inv_ok : (prime64 * prime_inv) mod 2^64 = 1.
Proof. vm_compute. reflexivity. Qed.
Lemma mul64_inj h1 h2 : 0 ≤ h1 < 2^64 → 0 ≤ h2 < 2^64 → mul64 h1 = mul64 h2 → h1 = h2.
Proof.
  unfold mul64, u64. intros H1 H2 H.
  assert (E : ∀ h, 0 ≤ h < 2^64 → ((h * prime64) mod 2^64 * prime_inv) mod 2^64 = h).
  { intros h Hh. rewrite Zmult_mod_idemp_l, <- Z.mul_assoc, <- Zmult_mod_idemp_r, prime_inv_ok.
    rewrite Z.mul_1_r. by apply Z.mod_small. }
  rewrite <- (E h1 H1), <- (E h2 H2), H. done.
Qed.
Lemma xor64_inj_l h1 h2 c : xor64 h1 c = xor64 h2 c → h1 = h2.
Proof.
  unfold xor64. intros H.
  assert (Z.lxor (Z.lxor h1 c) c = Z.lxor (Z.lxor h2 c) c) as H' by (by rewrite H).
  rewrite !Z.lxor_assoc, Z.lxor_nilpotent, !Z.lxor_0_r in H'. done.
Qed.
Lemma xor64_inj_r h c1 c2 : xor64 h c1 = xor64 h c2 → c1 = c2.
Proof. unfold xor64. rewrite !(Z.lxor_comm h). apply xor64_inj_l. Qed.
Lemma fnv1_loop_inj h1 h2 d : 0 ≤ h1 < 2^64 → 0 ≤ h2 < 2^64 → is_bytes d →
  fnv1_loop h1 d = fnv1_loop h2 d → h1 = h2.
Proof.
  intros H1 H2 Hd. revert h1 h2 H1 H2. induction Hd as [|c d Hc Hd IH]; intros h1 h2 H1 H2 H; [done|].
  cbn [fnv1_loop] in H. apply IH in H; [| apply xor64_range; [apply mul64_range|done] ..].
  apply xor64_inj_l in H. by apply mul64_inj.
Qed.
Lemma fnv1a_loop_inj h1 h2 d : 0 ≤ h1 < 2^64 → 0 ≤ h2 < 2^64 → is_bytes d →
  fnv1a_loop h1 d = fnv1a_loop h2 d → h1 = h2.
Proof.
  intros H1 H2 Hd. revert h1 h2 H1 H2. induction Hd as [|c d Hc Hd IH]; intros h1 h2 H1 H2 H; [done|].
  cbn [fnv1a_loop] in H. apply IH in H; [|apply mul64_range ..].
  apply mul64_inj in H; [| by apply xor64_range ..]. by apply xor64_inj_l in H.
Qed.
Lemma Sum64_one_byte pre a b post : is_bytes pre → is_bytes post → is_byte a → is_byte b → a ≠ b →
  Sum64 (pre ++ a :: post) ≠ Sum64 (pre ++ b :: post).
Proof.
  intros Hpre Hpost Ha Hb Hne H. unfold Sum64 in H. rewrite !fnv1_loop_app in H. cbn [fnv1_loop] in H.
  apply fnv1_loop_inj in H; [|apply xor64_range; [apply mul64_range|done] ..|done].
  apply xor64_inj_r in H. done.
Qed.
Lemma Sum64a_one_byte pre a b post : is_bytes pre → is_bytes post → is_byte a → is_byte b → a ≠ b →
  Sum64a (pre ++ a :: post) ≠ Sum64a (pre ++ b :: post).
Proof.
  intros Hpre Hpost Ha Hb Hne H. unfold Sum64a in H. rewrite !fnv1a_loop_app in H. cbn [fnv1a_loop] in H.
  pose proof (fnv1a_loop_range offset64 pre offset64_range) as Hr.
  apply fnv1a_loop_inj in H; [|apply mul64_range ..|done].
  apply mul64_inj in H; [|by apply xor64_range ..]. apply xor64_inj_r in H. done.
Qed.

(** ** Sum *)
Lemma fnv_sum_app n buf : fnv_sum n buf = buf ++ fnv_sum n [].
Proof. done. Qed.
Lemma fnv_sum_be n : fnv_sum n [] = be64 n.
Proof.
  unfold fnv_sum, be64, u8. rewrite !Z.shiftr_div_pow2 by lia. cbn [map app].
  change (8*7) with 56. change (8*6) with 48. change (8*5) with 40. change (8*4) with 32. change (8*3) with 24.
  change (8*2) with 16. change (8*1) with 8. change (8*0) with 0. change (2^0) with 1.
  rewrite Z.div_1_r. done.
Qed.
Lemma be_dec_be64 n : 0 ≤ n < 2^64 → be_dec (be64 n) = n.
Proof.
  intros Hn. unfold be64, be_dec. cbn [map fold_left].
  change (8*7) with 56. change (8*6) with 48. change (8*5) with 40. change (8*4) with 32. change (8*3) with 24.
  change (8*2) with 16. change (8*1) with 8. change (8*0) with 0. change (2^0) with 1.
  change (2^8) with 256. change (2^16) with (256*256). change (2^24) with (256*256*256).
  change (2^32) with (256*256*256*256). change (2^40) with (256*256*256*256*256).
  change (2^48) with (256*256*256*256*256*256). change (2^56) with (256*256*256*256*256*256*256).
  change (2^64) with (256*(256*256*256*256*256*256*256)) in Hn.
  rewrite Z.div_1_r. rewrite <- !Z.div_div by lia.
  set (n1 := n / 256). set (n2 := n1 / 256). set (n3 := n2 / 256). set (n4 := n3 / 256).
  set (n5 := n4/256). set (n6 := n5/256). set (n7 := n6/256). 
  assert (0 ≤ n7 < 256) by (subst n1 n2 n3 n4 n5 n6 n7; lia).
  rewrite (Z.mod_small n7) by lia. 
  pose proof (Z.div_mod n 256 ltac:(lia)) as E0. fold n1 in E0.
  pose proof (Z.div_mod n1 256 ltac:(lia)) as E1. fold n2 in E1.
  pose proof (Z.div_mod n2 256 ltac:(lia)) as E2. fold n3 in E2.
  pose proof (Z.div_mod n3 256 ltac:(lia)) as E3. fold n4 in E3.
  pose proof (Z.div_mod n4 256 ltac:(lia)) as E4. fold n5 in E4.
  pose proof (Z.div_mod n5 256 ltac:(lia)) as E5. fold n6 in E5.
  pose proof (Z.div_mod n6 256 ltac:(lia)) as E6. fold n7 in E6.
  clearbody n1 n2 n3 n4 n5 n6 n7.
  set (r0 := n mod 256) in *. set (r1 := n1 mod 256) in *. set (r2 := n2 mod 256) in *.
  set (r3 := n3 mod 256) in *. set (r4 := n4 mod 256) in *. set (r5 := n5 mod 256) in *. set (r6 := n6 mod 256) in *.
  clearbody r0 r1 r2 r3 r4 r5 r6. lia.
Qed.
Lemma be64_length n : length (be64 n) = 8%nat.
Proof. done. Qed.
Lemma be64_bytes n : is_bytes (be64 n).
Proof.
  unfold be64, is_bytes. apply Forall_map, Forall_forall. intros i _. unfold is_byte.
  apply Z.mod_pos_bound. lia.
Qed.
Lemma fnv_sum_ok n buf : 0 ≤ n < 2^64 →
  ∃ tail, fnv_sum n buf = buf ++ tail ∧ length tail = 8%nat ∧ is_bytes tail ∧ be_dec tail = n.
Proof.
  intros Hn. exists (be64 n). rewrite fnv_sum_app, fnv_sum_be.
  split_and!; [done|done|apply be64_bytes|by apply be_dec_be64].
Qed.
Lemma fnv1_streaming calls : Forall wcall_ok calls →
  let all := written calls in
  Fnv64_Sum64 (fold_left call64 calls New64) = fnv1_spec all ∧
  Sum64 all = fnv1_spec all ∧ String64 all = fnv1_spec all.
Proof.
  intros H all. split_and!; [|apply Sum64_spec|rewrite String64_eq; apply Sum64_spec].
  unfold Fnv64_Sum64. rewrite calls64_loop by done. apply Sum64_spec.
Qed.
Lemma fnv1a_streaming calls : Forall wcall_ok calls →
  let all := written calls in
  Fnv64a_Sum64 (fold_left call64a calls New64a) = fnv1a_spec all ∧
  Sum64a all = fnv1a_spec all ∧ String64a all = fnv1a_spec all.
Proof.
  intros H all. split_and!; [|apply Sum64a_spec|rewrite String64a_eq; apply Sum64a_spec].
  unfold Fnv64a_Sum64. rewrite calls64a_loop by done. apply Sum64a_spec.
Qed.
Lemma written_bytes calls : Forall wcall_ok calls → is_bytes (written calls).
Proof.
  induction calls as [|c cs IH] using rev_ind; intros H; [constructor|].
  apply Forall_app in H as [Hcs Hc]. rewrite Forall_singleton in Hc. rewrite written_snoc.
  specialize (IH Hcs).
  destruct c as [d|d|b|n|]; simpl in Hc; [| | | |constructor]; apply is_bytes_app; (split; [done|]); [done|done|by constructor|apply be64_bytes].
Qed.
Lemma calls64_range calls : Forall wcall_ok calls → 0 ≤ fold_left call64 calls New64 < 2^64.
Proof.
  intros H. rewrite calls64_loop by done. apply fnv1_loop_range; [apply offset64_range|].
  by apply written_bytes.
Qed.
Lemma calls64a_range calls : Forall wcall_ok calls → 0 ≤ fold_left call64a calls New64a < 2^64.
Proof. intros H. rewrite calls64a_loop by done. apply fnv1a_loop_range, offset64_range. Qed.
Lemma fnv1_sum_ok calls buf : Forall wcall_ok calls →
  let s := fold_left call64 calls New64 in
  ∃ tail, Fnv64_Sum s buf = buf ++ tail ∧ length tail = 8%nat ∧ is_bytes tail ∧ be_dec tail = Fnv64_Sum64 s.
Proof. intros H s. apply fnv_sum_ok, calls64_range, H. Qed.
Lemma fnv1a_sum_ok calls buf : Forall wcall_ok calls →
  let s := fold_left call64a calls New64a in
  ∃ tail, Fnv64a_Sum s buf = buf ++ tail ∧ length tail = 8%nat ∧ is_bytes tail ∧ be_dec tail = Fnv64a_Sum64 s.
Proof. intros H s. apply fnv_sum_ok, calls64a_range, H. Qed.
