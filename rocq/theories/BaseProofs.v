(** Lemmas about the shared vocabulary. *)
From Verif Require Import Base.
From Coq Require Import ZifyBool ZifyNat.
Ltac Zify.zify_post_hook ::= Z.div_mod_to_equations.

Lemma u64_range x : 0 ≤ u64 x < 2^64.
Proof. unfold u64. apply Z.mod_pos_bound. reflexivity. Qed.
Lemma u8_range x : 0 ≤ u8 x < 2^8.
Proof. unfold u8. apply Z.mod_pos_bound. reflexivity. Qed.
Lemma u16_range x : 0 ≤ u16 x < 2^16.
Proof. unfold u16. apply Z.mod_pos_bound. reflexivity. Qed.
Lemma u32_range x : 0 ≤ u32 x < 2^32.
Proof. unfold u32. apply Z.mod_pos_bound. reflexivity. Qed.
Lemma u64_small x : 0 ≤ x < 2^64 → u64 x = x.
Proof. intros. unfold u64. apply Z.mod_small. lia. Qed.
Lemma u32_small x : 0 ≤ x < 2^32 → u32 x = x.
Proof. intros. unfold u32. apply Z.mod_small. lia. Qed.
Lemma u16_small x : 0 ≤ x < 2^16 → u16 x = x.
Proof. intros. unfold u16. apply Z.mod_small. lia. Qed.
Lemma u8_small x : 0 ≤ x < 2^8 → u8 x = x.
Proof. intros. unfold u8. apply Z.mod_small. lia. Qed.
Lemma s64_small x : -2^63 ≤ x < 2^63 → s64 x = x.
Proof. intros. unfold s64. rewrite Z.mod_small; lia. Qed.
Lemma s64_range x : -2^63 ≤ s64 x < 2^63.
Proof. unfold s64. pose proof (Z.mod_pos_bound (x + 2^63) (2^64) eq_refl). lia. Qed.
Lemma u64_u64 x : u64 (u64 x) = u64 x.
Proof. apply u64_small, u64_range. Qed.

(** ** little endian *)
Lemma le_enc_length k x : length (le_enc k x) = k.
Proof. revert x. induction k as [|k IH]; intros x; simpl; [done|]. by rewrite IH. Qed.
Lemma le_enc_bytes k x : is_bytes (le_enc k x).
Proof.
  revert x. induction k as [|k IH]; intros x; simpl; constructor; [|apply IH].
  unfold is_byte. apply Z.mod_pos_bound. lia.
Qed.
Lemma le_dec_enc k x : 0 ≤ x < 256 ^ Z.of_nat k → le_dec (le_enc k x) = x.
Proof.
  revert x. induction k as [|k IH]; intros x Hx.
  - simpl in *. lia.
  - cbn [le_enc le_dec]. rewrite IH.
    + pose proof (Z.div_mod x 256 ltac:(lia)). lia.
    + rewrite Nat2Z.inj_succ, Z.pow_succ_r in Hx by lia. split.
      * apply Z.div_pos; lia.
      * apply Z.div_lt_upper_bound; lia.
Qed.
Lemma le_enc_dec l : is_bytes l → le_enc (length l) (le_dec l) = l.
Proof.
  induction 1 as [|b l Hb Hl IH]; [done|].
  cbn [length le_enc le_dec]. unfold is_byte in Hb.
  replace ((b + 256 * le_dec l) mod 256) with b by lia.
  replace ((b + 256 * le_dec l) / 256) with (le_dec l) by lia.
  by rewrite IH.
Qed.
Lemma le_dec_range l : is_bytes l → 0 ≤ le_dec l < 256 ^ Z.of_nat (length l).
Proof.
  induction 1 as [|b l Hb Hl IH]; [simpl; lia|].
  cbn [length le_dec]. unfold is_byte in Hb. rewrite Nat2Z.inj_succ, Z.pow_succ_r by lia. lia.
Qed.
Lemma put64_length x : length (put64 x) = 8%nat.
Proof. apply le_enc_length. Qed.
Lemma put64_bytes x : is_bytes (put64 x).
Proof. apply le_enc_bytes. Qed.
Lemma get64_put64 x : 0 ≤ x < 2^64 → get64 (put64 x) = x.
Proof. intros Hx. unfold get64, put64. apply le_dec_enc. exact Hx. Qed.
Lemma put64_get64 l : is_bytes l → length l = 8%nat → put64 (get64 l) = l.
Proof. intros Hl Hlen. unfold get64, put64. rewrite <- Hlen. by apply le_enc_dec. Qed.
Lemma get64_range l : is_bytes l → length l = 8%nat → 0 ≤ get64 l < 2^64.
Proof. intros Hl Hlen. pose proof (le_dec_range l Hl) as H. rewrite Hlen in H. exact H. Qed.

(** ** bits *)
Lemma testbit_high a n k : 0 ≤ a < 2^k → 0 ≤ k ≤ n → Z.testbit a n = false.
Proof.
  intros Ha Hn. destruct (decide (a = 0)) as [->|Hne]; [apply Z.testbit_0_l|].
  apply Z.bits_above_log2; [lia|].
  assert (Z.log2 a < k) by (apply Z.log2_lt_pow2; lia). lia.
Qed.
Lemma bits_lt a k : 0 ≤ k → 0 ≤ a → (∀ n, k ≤ n → Z.testbit a n = false) → a < 2^k.
Proof.
  intros Hk Ha Hb. destruct (decide (a = 0)) as [->|Hne]; [apply Z.pow_pos_nonneg; lia|].
  apply Z.log2_lt_pow2; [lia|].
  destruct (decide (Z.log2 a < k)) as [|Hge]; [done|].
  pose proof (Hb (Z.log2 a) ltac:(lia)) as H. rewrite Z.bit_log2 in H by lia. discriminate.
Qed.
Lemma lxor_range a b k : 0 ≤ k → 0 ≤ a < 2^k → 0 ≤ b < 2^k → 0 ≤ Z.lxor a b < 2^k.
Proof.
  intros Hk Ha Hb.
  assert (Hn : 0 ≤ Z.lxor a b) by (apply Z.lxor_nonneg; lia).
  split; [done|]. apply bits_lt; [done|done|].
  intros n Hn'. rewrite Z.lxor_spec, (testbit_high a n k), (testbit_high b n k) by lia. done.
Qed.
Lemma land_range a b k : 0 ≤ k → 0 ≤ a < 2^k → 0 ≤ b → 0 ≤ Z.land a b < 2^k.
Proof.
  intros Hk Ha Hb.
  assert (Hn : 0 ≤ Z.land a b) by (apply Z.land_nonneg; lia).
  split; [done|]. apply bits_lt; [done|done|].
  intros n Hn'. rewrite Z.land_spec, (testbit_high a n k) by lia. done.
Qed.
Lemma lor_range a b k : 0 ≤ k → 0 ≤ a < 2^k → 0 ≤ b < 2^k → 0 ≤ Z.lor a b < 2^k.
Proof.
  intros Hk Ha Hb.
  assert (Hn : 0 ≤ Z.lor a b) by (apply Z.lor_nonneg; lia).
  split; [done|]. apply bits_lt; [done|done|].
  intros n Hn'. rewrite Z.lor_spec, (testbit_high a n k), (testbit_high b n k) by lia. done.
Qed.

(** ** lists *)
Lemma is_bytes_app l k : is_bytes (l ++ k) ↔ is_bytes l ∧ is_bytes k.
Proof. apply Forall_app. Qed.
Lemma is_bytes_take n l : is_bytes l → is_bytes (take n l).
Proof. intros. by apply Forall_take. Qed.
Lemma is_bytes_drop n l : is_bytes l → is_bytes (drop n l).
Proof. intros. by apply Forall_drop. Qed.
Lemma is_bytes_replicate0 n : is_bytes (replicate n 0).
Proof. apply Forall_replicate. unfold is_byte. lia. Qed.

Lemma splice_length {A} (l : list A) lo p :
  (lo + length p ≤ length l)%nat → length (splice l lo p) = length l.
Proof. intros H. unfold splice. rewrite !app_length, take_length, drop_length. lia. Qed.
Lemma take_splice {A} (l : list A) lo p : (lo ≤ length l)%nat → take lo (splice l lo p) = take lo l.
Proof.
  intros H. unfold splice. rewrite take_app_le by (rewrite take_length; lia).
  by rewrite take_take, Nat.min_id.
Qed.
Lemma slice_splice_same {A} (l : list A) lo p :
  (lo ≤ length l)%nat → take (length p) (drop lo (splice l lo p)) = p.
Proof.
  intros H. unfold splice. rewrite drop_app_ge by (rewrite take_length; lia).
  rewrite take_length, Nat.min_l by lia.
  rewrite Nat.sub_diag, drop_0. by rewrite take_app.
Qed.
Lemma splice_lookup_lt {A} (l : list A) lo p i :
  (lo ≤ length l)%nat → (i < lo)%nat → splice l lo p !! i = l !! i.
Proof.
  intros H Hi. unfold splice. rewrite lookup_app_l by (rewrite take_length; lia).
  by apply lookup_take.
Qed.
Lemma splice_lookup_ge {A} (l : list A) lo p i :
  (lo ≤ length l)%nat → (lo + length p ≤ i)%nat → splice l lo p !! i = l !! i.
Proof.
  intros H Hi. unfold splice. rewrite lookup_app_r by (rewrite take_length; lia).
  rewrite take_length, Nat.min_l by lia.
  rewrite lookup_app_r by lia. rewrite lookup_drop. f_equal. lia.
Qed.
Lemma splice_lookup_in {A} (l : list A) lo p i :
  (lo ≤ length l)%nat → (lo ≤ i < lo + length p)%nat → splice l lo p !! i = p !! (i - lo)%nat.
Proof.
  intros H Hi. unfold splice. rewrite lookup_app_r by (rewrite take_length; lia).
  rewrite take_length, Nat.min_l by lia. rewrite lookup_app_l by lia. done.
Qed.
Lemma splice_bytes l lo p : is_bytes l → is_bytes p → is_bytes (splice l lo p).
Proof.
  intros. unfold splice. apply is_bytes_app; split; [by apply is_bytes_take|].
  apply is_bytes_app; split; [done|by apply is_bytes_drop].
Qed.
Lemma splice_nil_all {A} (l p : list A) : length p = length l → splice l 0 p = p.
Proof. intros H. unfold splice. rewrite take_0. simpl. rewrite drop_ge by lia. apply app_nil_r. Qed.
Lemma slice_splice_disjoint {A} (l : list A) lo p a n :
  (lo + length p ≤ length l)%nat → (a + n ≤ lo ∨ lo + length p ≤ a)%nat →
  take n (drop a (splice l lo p)) = take n (drop a l).
Proof.
  intros H Hd. apply list_eq. intros i.
  destruct (decide (i < n)%nat) as [Hi|Hi].
  - rewrite !lookup_take, !lookup_drop by done.
    destruct Hd; [apply splice_lookup_lt|apply splice_lookup_ge]; lia.
  - rewrite !lookup_take_ge by lia. done.
Qed.

Lemma gocopy_length {A} (d s : list A) : length (gocopy d s) = length d.
Proof. unfold gocopy. rewrite app_length, take_length, drop_length. lia. Qed.
Lemma gocopy_exact {A} (d s : list A) : length s = length d → gocopy d s = s.
Proof.
  intros H. unfold gocopy. rewrite H, Nat.min_id. rewrite take_ge by lia.
  rewrite drop_ge by lia. apply app_nil_r.
Qed.

Lemma index_Ok {A} (l : list A) i a : index l i = Ok a ↔ 0 ≤ i ∧ l !! Z.to_nat i = Some a.
Proof.
  unfold index. split.
  - destruct (_ && _) eqn:E; [|done]. destruct (l !! _) eqn:E2; [|done]. intros [= ->]. split; [lia|done].
  - intros [Hi Hl]. pose proof (lookup_lt_Some _ _ _ Hl) as Hlt.
    rewrite Hl. replace (_ && _) with true by lia. done.
Qed.
Lemma index_lookup {A} (l : list A) i a : 0 ≤ i → l !! Z.to_nat i = Some a → index l i = Ok a.
Proof. intros. by apply index_Ok. Qed.
Lemma store_Ok {A} (l : list A) i a : 0 ≤ i < Z.of_nat (length l) → store l i a = Ok (<[Z.to_nat i := a]> l).
Proof. intros. unfold store. replace (_ && _) with true by lia. done. Qed.
Lemma slice_Ok {A} (l : list A) lo hi :
  0 ≤ lo ≤ hi → hi ≤ Z.of_nat (length l) → slice l lo hi = Ok (take (Z.to_nat (hi - lo)) (drop (Z.to_nat lo) l)).
Proof. intros. unfold slice. replace (_ && _ && _) with true by lia. done. Qed.

(** ** readers *)
Lemma read_loop_delivers r l : delivers r l → ∀ k, (k ≤ length l)%nat →
  ∃ r', read_loop r k = (take k l, None, r') ∧ delivers r' (drop k l).
Proof.
  induction 1 as [|c r|c r l Hc Hr IH]; intros k Hk.
  - simpl in Hk. assert (k = 0%nat) as -> by lia. exists []. split; [done|]. constructor.
  - destruct k as [|k]; [exists (EvDataEOF c :: r); split; [done|constructor]|]. cbn [read_loop].
    destruct (Nat.ltb_spec (length c) (S k)) as [Hlt|Hge]; [lia|].
    destruct (Nat.eqb_spec (length c) (S k)) as [E|E].
    + exists []. rewrite take_ge by lia. rewrite drop_ge by lia. split; [done|constructor].
    + eexists. split; [done|]. constructor.
  - destruct k as [|k]; [exists (EvData c :: r); split; [done|by constructor]|]. cbn [read_loop].
    rewrite app_length in Hk.
    destruct (Nat.leb_spec (length c) (S k)) as [Hle|Hlt].
    + destruct (IH (S k - length c)%nat ltac:(lia)) as (r' & E & Hd). rewrite E. exists r'.
      rewrite take_app_ge, drop_app_ge by lia. done.
    + eexists. split; [by rewrite take_app_le by lia|]. rewrite drop_app_le by lia.
      constructor; [|done]. intros H. apply (f_equal length) in H. rewrite drop_length in H. simpl in H. lia.
Qed.
Lemma read_full_delivers r l k : delivers r l → (k ≤ length l)%nat →
  ∃ r', read_full r k = (take k l, None, r') ∧ delivers r' (drop k l).
Proof.
  intros Hd Hk. destruct (read_loop_delivers r l Hd k Hk) as (r' & E & Hd'). exists r'.
  unfold read_full. rewrite E. done.
Qed.
Lemma read_delivers_nil r k : delivers r [] → read k r = ([], Some ErrEOF, []).
Proof.
  intros H. inversion H as [|c r0|c r0 l Hc Hr E1 E2]; subst; simpl; [done|done|].
  destruct c; [done|discriminate].
Qed.
Lemma read_full_delivers_short r l k : delivers r l → (length l < k)%nat →
  ∃ e r', read_full r k = (l, Some e, r') ∧ (e = ErrEOF ∨ e = ErrUnexpectedEOF).
Proof.
  intros Hd Hk.
  assert (∃ r', read_loop r k = (l, Some ErrEOF, r')) as (r' & E).
  { revert k Hk. induction Hd as [|c r|c r l Hc Hr IH]; intros k Hk.
    - destruct k; simpl in *; [lia|]. by eexists.
    - destruct k as [|k]; [lia|]. cbn [read_loop]. replace (length c <? S k)%nat with true by lia. by eexists.
    - destruct k as [|k]; [lia|]. cbn [read_loop]. rewrite app_length in Hk.
      replace (length c <=? S k)%nat with true by lia.
      destruct (IH (S k - length c)%nat ltac:(lia)) as (r' & E). rewrite E. by eexists. }
  unfold read_full. rewrite E. destruct (0 <? length l)%nat; eauto 10.
Qed.

Lemma read_full_delivers_trunc r l k : delivers r l → (length l < k)%nat →
  ∃ r', read_full r k = (l, Some (if (0 <? length l)%nat then ErrUnexpectedEOF else ErrEOF), r').
Proof.
  intros Hd Hk. destruct (read_full_delivers_short r l k Hd Hk) as (e & r' & E & _).
  unfold read_full in *.
  destruct (read_loop r k) as [[d e1] r1] eqn:El.
  assert (e1 = Some ErrEOF ∧ d = l) as [-> ->].
  { clear E e r'. revert k Hk d e1 r1 El. induction Hd as [|c r|c r l Hc Hr IH]; intros k Hk d e1 r1 El.
    - destruct k; simpl in *; [lia|]. by injection El as <- <- <-.
    - destruct k as [|k]; [lia|]. cbn [read_loop] in El. replace (length c <? S k)%nat with true in El by lia.
      by injection El as <- <- <-.
    - destruct k as [|k]; [lia|]. cbn [read_loop] in El. rewrite app_length in Hk.
      replace (length c <=? S k)%nat with true in El by lia.
      destruct (read_loop r (S k - length c)) as [[d' e'] r2] eqn:E2. injection El as <- <- <-.
      destruct (IH (S k - length c)%nat ltac:(lia) _ _ _ E2) as [-> ->]. done. }
  destruct (0 <? length l)%nat; by eexists.
Qed.

(** a reader producing the chunks [cs] (some possibly empty), then EOF or an error *)
Definition plain (cs : list bytes) (err : bool) : reader := map EvData cs ++ (if err then [EvErr] else []).
Lemma read_loop_plain cs err : ∀ k, ∃ d e cs', read_loop (plain cs err) k = (d, e, plain cs' err) ∧
  concat cs = d ++ concat cs' ∧
  (match e with None => length d = k | Some e => (length d < k)%nat ∧ cs' = [] ∧ e = if err then ErrRead else ErrEOF end).
Proof.
  induction cs as [|c cs IH]; intros k.
  - destruct k as [|k]; [exists [], None, []; destruct err; done|].
    exists [], (Some (if err then ErrRead else ErrEOF)), []. destruct err; simpl; split_and!; done || lia.
  - destruct k as [|k]; [exists [], None, (c :: cs); done|].
    unfold plain. cbn [map app read_loop].
    destruct (Nat.leb_spec (length c) (S k)) as [Hle|Hlt].
    + destruct (IH (S k - length c)%nat) as (d & e & cs' & E & H1 & H2).
      exists (c ++ d), e, cs'. unfold plain in E. rewrite E. split_and!; [done|simpl; by rewrite H1, app_assoc|].
      rewrite app_length. destruct e; destruct_and?; split_and?; try done; lia.
    + exists (take (S k) c), None, (drop (S k) c :: cs). split_and!; [done| |rewrite take_length; lia].
      simpl concat. rewrite app_assoc, take_drop. done.
Qed.

(** checking literals *)
Lemma is_bytes_b l : forallb is_byteb l = true → is_bytes l.
Proof.
  unfold is_bytes. rewrite forallb_forall, Forall_forall. intros H x Hx.
  apply elem_of_list_In in Hx. specialize (H x Hx). unfold is_byteb, is_byte in *. lia.
Qed.
Ltac bytes_ok := apply is_bytes_b; vm_compute; reflexivity.
