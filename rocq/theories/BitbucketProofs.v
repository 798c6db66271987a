From Verif Require Import Base BaseProofs BitbucketModel BitbucketSpec.
From Coq Require Import ZifyBool ZifyNat.
Ltac Zify.zify_post_hook ::= Z.div_mod_to_equations.

(** bit j of a byte string, most significant bit of each byte first *)
Definition dbit (d : bytes) (j : Z) : bool := Z.testbit (d !!! Z.to_nat (j / 8)) (7 - j mod 8).

Lemma lookup_total_is_byte d i : is_bytes d → (i < length d)%nat → is_byte (d !!! i).
Proof.
  intros Hd Hi. destruct (lookup_lt_is_Some_2 d i Hi) as [x Hx].
  rewrite (list_lookup_total_correct _ _ _ Hx). unfold is_bytes in Hd. rewrite Forall_lookup in Hd. eauto.
Qed.
Lemma testbit_u16 x n : 0 ≤ n → Z.testbit (u16 x) n = Z.testbit x n && (n <? 16).
Proof.
  intros. unfold u16. rewrite <- Z.land_ones by lia. rewrite Z.land_spec. f_equal.
  rewrite Z.testbit_ones_nonneg by lia. done.
Qed.
Lemma testbit_u8 x n : 0 ≤ n → Z.testbit (u8 x) n = Z.testbit x n && (n <? 8).
Proof.
  intros. unfold u8. rewrite <- Z.land_ones by lia. rewrite Z.land_spec. f_equal.
  rewrite Z.testbit_ones_nonneg by lia. done.
Qed.
Lemma testbit_byte b n : is_byte b → 8 ≤ n → Z.testbit b n = false.
Proof. intros Hb Hn. apply (testbit_high _ _ 8); unfold is_byte in Hb; change (2^8) with 256; lia. Qed.

(** ** extract *)
Definition window (d : bytes) (idx : nat) : Z :=
  Z.lor (Z.shiftl (d !!! idx) 8) (if (idx <? length d - 1)%nat then d !!! S idx else 0).
Lemma window_bit d idx n : is_bytes d → (idx < length d)%nat → 0 ≤ n < 16 →
  Z.testbit (window d idx) n =
    (if 8 * Z.of_nat idx + 15 - n <? 8 * Z.of_nat (length d) then dbit d (8 * Z.of_nat idx + 15 - n) else false).
Proof.
  intros Hd Hi Hn. unfold window. rewrite Z.lor_spec, Z.shiftl_spec by lia.
  pose proof (lookup_total_is_byte d idx Hd Hi) as Hb0.
  destruct (Z.ltb_spec n 8) as [Hn8|Hn8].
  - rewrite (Z.testbit_neg_r _ (n - 8)) by lia. rewrite orb_false_l.
    destruct (Nat.ltb_spec idx (length d - 1)) as [Hl|Hl].
    + replace (_ <? _) with true by lia. unfold dbit. f_equal; [f_equal|]; lia.
    + replace (_ <? _) with false by lia. apply Z.testbit_0_l.
  - replace (_ <? _) with true by lia.
    assert (Z.testbit (if (idx <? length d - 1)%nat then d !!! S idx else 0) n = false) as ->.
    { destruct (Nat.ltb_spec idx (length d - 1)) as [Hl|Hl]; [|apply Z.testbit_0_l].
      apply testbit_byte; [apply lookup_total_is_byte; [done|lia]|lia]. }
    rewrite orb_false_r. unfold dbit. f_equal; [f_equal|]; lia.
Qed.
Lemma window_range d idx : is_bytes d → (idx < length d)%nat → 0 ≤ window d idx < 2^16.
Proof.
  intros Hd Hi. pose proof (lookup_total_is_byte d idx Hd Hi) as Hb0. unfold is_byte in Hb0.
  unfold window. apply lor_range; [lia| |].
  - rewrite Z.shiftl_mul_pow2 by lia. change (2^8) with 256. change (2^16) with (256*256). lia.
  - destruct (Nat.ltb_spec idx (length d - 1)) as [Hl|Hl]; [|lia].
    pose proof (lookup_total_is_byte d (S idx) Hd ltac:(lia)) as Hb1. unfold is_byte in Hb1.
    change (2^16) with (256*256). lia.
Qed.

Lemma extract_Ok b o l : is_bytes (bb_data b) → 1 ≤ l ≤ 8 → 0 ≤ o →
  o + l ≤ 8 * Z.of_nat (length (bb_data b)) →
  bb_extract b o l = Ok (window (bb_data b) (Z.to_nat (o / 8)), 16 - o mod 8 - l,
     Z.shiftl (Z.ones l) (16 - o mod 8 - l), o / 8).
Proof.
  intros Hd Hl Ho Hle. unfold bb_extract. set (d := bb_data b) in *.
  rewrite (Z.quot_div_nonneg o 8), (Z.rem_mod_nonneg o 8) by lia.
  assert (Hi : (Z.to_nat (o / 8) < length d)%nat) by lia.
  destruct (lookup_lt_is_Some_2 d _ Hi) as [d0 Hd0].
  rewrite (index_lookup d (o/8) d0) by (done || lia). cbn [obind].
  pose proof (lookup_total_is_byte d _ Hd Hi) as Hb0. unfold is_byte in Hb0.
  rewrite (list_lookup_total_correct _ _ _ Hd0) in Hb0.
  assert (Hs0 : u16 (Z.shiftl d0 8) = Z.shiftl d0 8).
  { apply u16_small. rewrite Z.shiftl_mul_pow2 by lia. change (2^8) with 256. change (2^16) with (256*256). lia. }
  assert (Hmod : u8 (o mod 8) = o mod 8) by (apply u8_small; lia).
  assert (Hsh : u8 (u8 (16 - o mod 8) - l) = 16 - o mod 8 - l).
  { rewrite (u8_small (16 - _)) by lia. apply u8_small. lia. }
  assert (Hmask : u16 (Z.shiftl (u16 (u16 (Z.shiftl 1 l) - 1)) (16 - o mod 8 - l)) = Z.shiftl (Z.ones l) (16 - o mod 8 - l)).
  { assert (E1 : u16 (Z.shiftl 1 l) = 2^l).
    { rewrite Z.shiftl_1_l. apply u16_small. split; [apply Z.pow_nonneg; lia|]. apply Z.pow_lt_mono_r; lia. }
    rewrite E1. 
    assert (1 ≤ 2^l) by (pose proof (Z.pow_pos_nonneg 2 l ltac:(lia) ltac:(lia)); lia).
    rewrite (u16_small (2^l - 1)) by (assert (2^l < 2^16) by (apply Z.pow_lt_mono_r; lia); lia).
    rewrite Z.ones_equiv. unfold Z.pred. replace (2^l + -1) with (2^l - 1) by lia.
    apply u16_small. rewrite Z.shiftl_mul_pow2 by lia.
    assert (2^l * 2^(16 - o mod 8 - l) = 2^(16 - o mod 8)) by (rewrite <- Z.pow_add_r by lia; f_equal; lia).
    assert (2^(16 - o mod 8) ≤ 2^16) by (apply Z.pow_le_mono_r; lia).
    assert (0 < 2^(16 - o mod 8 - l)) by (apply Z.pow_pos_nonneg; lia). nia. }
  rewrite Hs0, Hmod, Hsh, Hmask. unfold window. fold d. rewrite (list_lookup_total_correct _ _ _ Hd0).
  destruct (Z.ltb_spec (o/8) (Z.of_nat (length d) - 1)) as [Hlt|Hge].
  - replace (Z.to_nat (o / 8) <? length d - 1)%nat with true by lia.
    destruct (lookup_lt_is_Some_2 d (S (Z.to_nat (o/8))) ltac:(lia)) as [d1 Hd1].
    rewrite (index_lookup d (o/8+1) d1); [|lia|].
    + cbn [obind]. rewrite (list_lookup_total_correct _ _ _ Hd1). done.
    + rewrite <- Hd1. f_equal. lia.
  - replace (Z.to_nat (o / 8) <? length d - 1)%nat with false by lia.
    cbn [obind]. rewrite Z.lor_0_r. done.
Qed.

(** testbit of the masks *)
Lemma testbit_mask l s n : 0 ≤ l → 0 ≤ s → 0 ≤ n →
  Z.testbit (Z.shiftl (Z.ones l) s) n = (s <=? n) && (n <? s + l).
Proof.
  intros. rewrite Z.shiftl_spec by lia. destruct (Z.leb_spec s n) as [Hs|Hs].
  - rewrite Z.testbit_ones_nonneg by lia. simpl. lia.
  - rewrite Z.testbit_neg_r by lia. done.
Qed.

(** the field of l bits at bit offset o *)
Definition field (d : bytes) (o l : Z) : Z :=
  Z.shiftr (Z.land (window d (Z.to_nat (o/8))) (Z.shiftl (Z.ones l) (16 - o mod 8 - l))) (16 - o mod 8 - l).
Lemma field_bit d o l n : is_bytes d → 1 ≤ l ≤ 8 → 0 ≤ o → o + l ≤ 8 * Z.of_nat (length d) → 0 ≤ n →
  Z.testbit (field d o l) n = (if n <? l then dbit d (o + l - 1 - n) else false).
Proof.
  intros Hd Hl Ho Hle Hn. unfold field. rewrite Z.shiftr_spec, Z.land_spec by lia.
  rewrite testbit_mask by lia. 
  destruct (Z.ltb_spec n l) as [Hnl|Hnl].
  - rewrite window_bit by (done || lia).
    replace ((16 - o mod 8 - l <=? n + (16 - o mod 8 - l)) && _) with true by lia.
    rewrite andb_true_r. replace (_ <? _) with true by lia. f_equal. lia.
  - replace ((16 - o mod 8 - l <=? n + (16 - o mod 8 - l)) && _) with false by lia. apply andb_false_r.
Qed.
Lemma field_range d o l : is_bytes d → 1 ≤ l ≤ 8 → 0 ≤ o → o + l ≤ 8 * Z.of_nat (length d) →
  0 ≤ field d o l < 2^l.
Proof.
  intros Hd Hl Ho Hle.
  assert (0 ≤ field d o l).
  { unfold field. apply Z.shiftr_nonneg, Z.land_nonneg. left. apply window_range; [done|lia]. }
  split; [done|]. apply bits_lt; [lia|done|]. intros n Hn. rewrite field_bit by (done || lia).
  replace (_ <? _) with false by lia. done.
Qed.
Lemma field_ext d1 o1 d2 o2 l : is_bytes d1 → is_bytes d2 → 1 ≤ l ≤ 8 → 0 ≤ o1 → 0 ≤ o2 →
  o1 + l ≤ 8 * Z.of_nat (length d1) → o2 + l ≤ 8 * Z.of_nat (length d2) →
  (∀ k, 0 ≤ k < l → dbit d1 (o1 + k) = dbit d2 (o2 + k)) → field d1 o1 l = field d2 o2 l.
Proof.
  intros. apply Z.bits_inj'. intros n Hn. rewrite !field_bit by done.
  destruct (Z.ltb_spec n l); [|done].
  replace (o1 + l - 1 - n) with (o1 + (l - 1 - n)) by lia.
  replace (o2 + l - 1 - n) with (o2 + (l - 1 - n)) by lia. auto with lia.
Qed.

Lemma get_Ok b o l : is_bytes (bb_data b) → 1 ≤ l ≤ 8 → 0 ≤ o →
  o + l ≤ 8 * Z.of_nat (length (bb_data b)) → bb_get b o l = Ok (field (bb_data b) o l).
Proof.
  intros Hd Hl Ho Hle. unfold bb_get. rewrite extract_Ok by done. cbn [obind].
  f_equal. apply u8_small. pose proof (field_range (bb_data b) o l Hd Hl Ho Hle).
  assert (2^l ≤ 2^8) by (apply Z.pow_le_mono_r; lia). unfold field in *. lia.
Qed.

(** the window with the field replaced by v *)
Definition newword (d : bytes) (o l v : Z) : Z :=
  Z.lor (Z.ldiff (window d (Z.to_nat (o/8))) (Z.shiftl (Z.ones l) (16 - o mod 8 - l)))
        (u16 (Z.shiftl v (16 - o mod 8 - l))).
Definition newdata (d : bytes) (o l v : Z) : bytes :=
  let idx := Z.to_nat (o / 8) in
  let nw := newword d o l v in
  let d' := <[idx := u8 (Z.shiftr (Z.land nw 0xff00) 8)]> d in
  if (idx <? length d - 1)%nat then <[S idx := u8 (Z.land nw 0x00ff)]> d' else d'.

Lemma put_Ok b o l v : is_bytes (bb_data b) → 0 ≤ o → 1 ≤ l → o + l ≤ 8 * Z.of_nat (length (bb_data b)) →
  bb_put b (o / 8) (newword (bb_data b) o l v) = Ok (BB (newdata (bb_data b) o l v) (bb_n b) (bb_w b)).
Proof.
  intros Hd Ho Hl Hle. unfold bb_put, newdata. rewrite store_Ok by lia. cbn [obind].
  rewrite insert_length.
  destruct (Z.ltb_spec (o/8) (Z.of_nat (length (bb_data b)) - 1)) as [Hlt|Hge].
  - replace (Z.to_nat (o / 8) <? length (bb_data b) - 1)%nat with true by lia.
    rewrite store_Ok by (rewrite ?insert_length; lia). cbn [obind].
    replace (Z.to_nat (o/8+1)) with (S (Z.to_nat (o/8))) by lia. done.
  - replace (Z.to_nat (o / 8) <? length (bb_data b) - 1)%nat with false by lia. done.
Qed.
Lemma newdata_length d o l v : length (newdata d o l v) = length d.
Proof. unfold newdata; cbv zeta. destruct (_ <? _)%nat; rewrite !insert_length; done. Qed.
Lemma newdata_bytes d o l v : is_bytes d → is_bytes (newdata d o l v).
Proof.
  intros Hd. unfold newdata; cbv zeta.
  assert (∀ x, is_byte (u8 x)) by (intros; apply u8_range).
  destruct (_ <? _)%nat; repeat apply Forall_insert; done || auto.
Qed.

Lemma newword_bit d o l v n : is_bytes d → 1 ≤ l ≤ 8 → 0 ≤ o → o + l ≤ 8 * Z.of_nat (length d) →
  0 ≤ v < 2^l → 0 ≤ n < 16 →
  Z.testbit (newword d o l v) n =
    let s := 16 - o mod 8 - l in
    if (s <=? n) && (n <? s + l) then Z.testbit v (n - s) else Z.testbit (window d (Z.to_nat (o/8))) n.
Proof.
  intros Hd Hl Ho Hle Hv Hn. unfold newword. cbv zeta.
  rewrite Z.lor_spec, Z.ldiff_spec, testbit_mask, testbit_u16, Z.shiftl_spec by lia.
  replace (n <? 16) with true by lia. rewrite andb_true_r.
  destruct (Z.leb_spec (16 - o mod 8 - l) n) as [H1|H1].
  - destruct (Z.ltb_spec n (16 - o mod 8 - l + l)) as [H2|H2]; simpl.
    + by rewrite andb_false_r.
    + rewrite andb_true_r. rewrite (testbit_high v _ l) by lia. apply orb_false_r.
  - simpl. rewrite andb_true_r. rewrite (Z.testbit_neg_r v) by lia. apply orb_false_r.
Qed.

Lemma newdata_dbit d o l v j : is_bytes d → 1 ≤ l ≤ 8 → 0 ≤ o → o + l ≤ 8 * Z.of_nat (length d) →
  0 ≤ v < 2^l → 0 ≤ j < 8 * Z.of_nat (length d) →
  dbit (newdata d o l v) j =
    if (o <=? j) && (j <? o + l) then Z.testbit v (o + l - 1 - j) else dbit d j.
Proof.
  intros Hd Hl Ho Hle Hv Hj.
  set (idx := Z.to_nat (o/8)). assert (Hidx : (idx < length d)%nat) by lia.
  assert (HW : ∀ n, 0 ≤ n < 16 → 8 * Z.of_nat idx + 15 - n < 8 * Z.of_nat (length d) →
     Z.testbit (newword d o l v) n =
     let j := 8 * Z.of_nat idx + 15 - n in
     if (o <=? j) && (j <? o + l) then Z.testbit v (o + l - 1 - j) else dbit d j).
  { intros n Hn Hlt. cbv zeta. rewrite newword_bit by done. cbv zeta. fold idx.
    rewrite window_bit by done. replace (_ <? 8 * Z.of_nat (length d)) with true by lia.
    destruct ((o <=? 8 * Z.of_nat idx + 15 - n) && (8 * Z.of_nat idx + 15 - n <? o + l)) eqn:E.
    - replace (_ && _) with true by lia. f_equal. lia.
    - replace (_ && _) with false by lia. done. }
  assert (Hhi : ∀ n, 0 ≤ n < 8 → Z.testbit (u8 (Z.shiftr (Z.land (newword d o l v) 0xff00) 8)) n =
     Z.testbit (newword d o l v) (n + 8)).
  { intros n Hn. rewrite testbit_u8, Z.shiftr_spec, Z.land_spec by lia.
    change 0xff00 with (Z.shiftl (Z.ones 8) 8). rewrite testbit_mask by lia.
    replace (_ && (n + 8 <? _)) with true by lia. replace (n <? 8) with true by lia.
    by rewrite !andb_true_r. }
  assert (Hlo : ∀ n, 0 ≤ n < 8 → Z.testbit (u8 (Z.land (newword d o l v) 0x00ff)) n =
     Z.testbit (newword d o l v) n).
  { intros n Hn. rewrite testbit_u8, Z.land_spec by lia.
    change 0x00ff with (Z.ones 8). rewrite Z.testbit_ones_nonneg by lia.
    replace (n <? 8) with true by lia. by rewrite !andb_true_r. }
  unfold newdata; cbv zeta. fold idx.
  destruct (decide (j / 8 = Z.of_nat idx)) as [Ej|Ej]; [|destruct (decide (j / 8 = Z.of_nat idx + 1)) as [Ej'|Ej']].
  - assert (Hres : dbit (<[idx:=u8 (Z.shiftr (Z.land (newword d o l v) 65280) 8)]> d) j =
       if (o <=? j) && (j <? o + l) then Z.testbit v (o + l - 1 - j) else dbit d j).
    { unfold dbit at 1. replace (Z.to_nat (j/8)) with idx by lia.
      rewrite list_lookup_total_insert by done. rewrite Hhi by lia.
      rewrite HW by lia. cbv zeta. replace (8 * Z.of_nat idx + 15 - (7 - j mod 8 + 8)) with j by lia. done. }
    destruct (_ <? _)%nat; [|done]. rewrite <- Hres. unfold dbit.
    rewrite list_lookup_total_insert_ne by lia. done.
  - replace (idx <? length d - 1)%nat with true by lia.
    unfold dbit at 1. replace (Z.to_nat (j/8)) with (S idx) by lia.
    rewrite list_lookup_total_insert by (rewrite ?insert_length; lia).
    rewrite Hlo by lia. rewrite HW by lia. cbv zeta.
    replace (8 * Z.of_nat idx + 15 - (7 - j mod 8)) with j by lia. done.
  - replace (_ && _) with false by lia.
    unfold dbit. destruct (_ <? _)%nat; rewrite ?list_lookup_total_insert_ne by lia; done.
Qed.

Lemma field_newdata_same d o l v : is_bytes d → 1 ≤ l ≤ 8 → 0 ≤ o → o + l ≤ 8 * Z.of_nat (length d) →
  0 ≤ v < 2^l → field (newdata d o l v) o l = v.
Proof.
  intros Hd Hl Ho Hle Hv. apply Z.bits_inj'. intros n Hn.
  rewrite field_bit by (rewrite ?newdata_length; auto using newdata_bytes).
  destruct (Z.ltb_spec n l) as [H|H].
  - rewrite newdata_dbit by (done || lia). replace (_ && _) with true by lia. f_equal. lia.
  - symmetry. apply (testbit_high v n l); lia.
Qed.
Lemma field_newdata_other d o l v o' : is_bytes d → 1 ≤ l ≤ 8 → 0 ≤ o → o + l ≤ 8 * Z.of_nat (length d) →
  0 ≤ v < 2^l → 0 ≤ o' → o' + l ≤ 8 * Z.of_nat (length d) → o' + l ≤ o ∨ o + l ≤ o' →
  field (newdata d o l v) o' l = field d o' l.
Proof.
  intros. apply field_ext; rewrite ?newdata_length; auto using newdata_bytes.
  intros k Hk. rewrite newdata_dbit by (done || lia). replace (_ && _) with false by lia. done.
Qed.

(** ** well-formed collections *)
Lemma bb_length_ok n w : size_ok n w → bb_length (Z.of_nat n) w = (Z.of_nat n * w + 7) / 8.
Proof.
  intros [Hw Hn]. unfold bb_length. rewrite (s64_small (_ * _)) by nia.
  rewrite s64_small by nia. apply Z.quot_div_nonneg; nia.
Qed.
Lemma dlen_Z n w : size_ok n w → Z.of_nat (dlen n w) = (Z.of_nat n * w + 7) / 8.
Proof. intros [Hw Hn]. unfold dlen. rewrite Z2Nat.id; [done|]. apply Z.div_pos; nia. Qed.

Lemma off_ok n w i : size_ok n w → (i < n)%nat →
  s64 (Z.of_nat i * w) = Z.of_nat i * w ∧ 0 ≤ Z.of_nat i * w ∧ Z.of_nat i * w + w ≤ 8 * Z.of_nat (dlen n w).
Proof.
  intros Hs Hi. rewrite (dlen_Z n w Hs). destruct Hs as [Hw Hn].
  assert (Z.of_nat i * w + w ≤ Z.of_nat n * w) by nia.
  split_and!; [apply s64_small; nia|nia|]. 
  pose proof (Z.div_mod (Z.of_nat n * w + 7) 8 ltac:(lia)).
  pose proof (Z.mod_pos_bound (Z.of_nat n * w + 7) 8 ltac:(lia)). lia.
Qed.

(** value of bucket i *)
Definition bval (b : BitBucket) (i : nat) : Z := field (bb_data b) (Z.of_nat i * bb_w b) (bb_w b).

Lemma Get_Ok b n i : wf b n → (i < n)%nat → BB_Get b (Z.of_nat i) = Ok (bval b i).
Proof.
  intros [Hn Hs Hb Hl] Hi. unfold BB_Get, bval.
  destruct (off_ok n (bb_w b) i Hs Hi) as (E & H1 & H2). rewrite E.
  apply get_Ok; [done|apply Hs|done|by rewrite Hl].
Qed.
Lemma bval_range b n i : wf b n → (i < n)%nat → 0 ≤ bval b i ≤ cap (bb_w b).
Proof.
  intros [Hn Hs Hb Hl] Hi. unfold bval, cap.
  destruct (off_ok n (bb_w b) i Hs Hi) as (E & H1 & H2).
  pose proof (field_range (bb_data b) (Z.of_nat i * bb_w b) (bb_w b) Hb (proj1 Hs) H1 ltac:(rewrite Hl; done)). lia.
Qed.
Lemma max8_ok w : 1 ≤ w ≤ 8 → bb_max8 w = cap w.
Proof.
  intros Hw. unfold bb_max8, cap. assert (w = 1 ∨ w = 2 ∨ w = 3 ∨ w = 4 ∨ w = 5 ∨ w = 6 ∨ w = 7 ∨ w = 8) as H by lia.
  decompose [or] H; subst; reflexivity.
Qed.
Lemma cap_range w : 1 ≤ w ≤ 8 → 1 ≤ cap w < 256.
Proof.
  intros Hw. unfold cap. assert (2^1 ≤ 2^w) by (apply Z.pow_le_mono_r; lia).
  assert (2^w ≤ 2^8) by (apply Z.pow_le_mono_r; lia). change (2^1) with 2 in *. change (2^8) with 256 in *. lia.
Qed.

Definition bput (b : BitBucket) (i : nat) (v : Z) : BitBucket :=
  BB (newdata (bb_data b) (Z.of_nat i * bb_w b) (bb_w b) v) (bb_n b) (bb_w b).
Lemma bput_wf b n i v : wf b n → wf (bput b i v) n.
Proof.
  intros [Hn Hs Hb Hl]. constructor; simpl; [done|done|by apply newdata_bytes|by rewrite newdata_length].
Qed.
Lemma bput_same b n i v : wf b n → (i < n)%nat → 0 ≤ v ≤ cap (bb_w b) → bval (bput b i v) i = v.
Proof.
  intros [Hn Hs Hb Hl] Hi Hv. unfold bval, bput. simpl.
  destruct (off_ok n (bb_w b) i Hs Hi) as (E & H1 & H2).
  apply field_newdata_same; [done|apply Hs|done|by rewrite Hl|unfold cap in Hv; lia].
Qed.
Lemma bput_other b n i j v : wf b n → (i < n)%nat → (j < n)%nat → i ≠ j → 0 ≤ v ≤ cap (bb_w b) →
  bval (bput b i v) j = bval b j.
Proof.
  intros [Hn Hs Hb Hl] Hi Hj Hij Hv. unfold bval, bput. simpl.
  destruct (off_ok n (bb_w b) i Hs Hi) as (E & H1 & H2).
  destruct (off_ok n (bb_w b) j Hs Hj) as (E' & H1' & H2').
  apply field_newdata_other; rewrite ?Hl; try done; [apply Hs|unfold cap in Hv; lia|].
  destruct Hs as [Hw _]. nia.
Qed.

Lemma Set_Ok b n i v : wf b n → (i < n)%nat → 0 ≤ v →
  BB_Set b (Z.of_nat i) v = Ok (bput b i (Z.min v (cap (bb_w b)))).
Proof.
  intros [Hn Hs Hb Hl] Hi Hv. unfold BB_Set, bb_set.
  destruct (off_ok n (bb_w b) i Hs Hi) as (E & H1 & H2). rewrite E.
  rewrite max8_ok by apply Hs.
  replace (if cap (bb_w b) <? v then cap (bb_w b) else v) with (Z.min v (cap (bb_w b)))
    by (destruct (Z.ltb_spec (cap (bb_w b)) v); lia).
  rewrite extract_Ok; [|done|apply Hs|done|by rewrite Hl]. cbn [obind].
  apply (put_Ok b (Z.of_nat i * bb_w b) (bb_w b) (Z.min v (cap (bb_w b)))); [done|done|apply Hs|by rewrite Hl].
Qed.
Lemma IncN_Ok b n i v : wf b n → (i < n)%nat → 0 ≤ v < 256 →
  BB_IncN b (Z.of_nat i) v = Ok (bput b i (Z.min (bval b i + v) (cap (bb_w b)))).
Proof.
  intros Hwf Hi Hv. pose proof (bval_range b n i Hwf Hi) as Hr. destruct Hwf as [Hn Hs Hb Hl].
  unfold BB_IncN, bb_incn.
  destruct (off_ok n (bb_w b) i Hs Hi) as (E & H1 & H2). rewrite E.
  pose proof (cap_range (bb_w b) (proj1 Hs)) as Hc.
  rewrite max8_ok by apply Hs.
  rewrite extract_Ok; [|done|apply Hs|done|by rewrite Hl]. cbn [obind].
  fold (field (bb_data b) (Z.of_nat i * bb_w b) (bb_w b)). fold (bval b i).
  assert (Hm16 : u16 (u16 (Z.shiftl 1 (bb_w b)) - 1) = cap (bb_w b)).
  { destruct Hs as [Hw _]. unfold cap. clear -Hw. revert Hw. generalize (bb_w b). intros w Hw.
    assert (w = 1 ∨ w = 2 ∨ w = 3 ∨ w = 4 ∨ w = 5 ∨ w = 6 ∨ w = 7 ∨ w = 8) as H by lia.
    decompose [or] H; subst; reflexivity. }
  rewrite Hm16.
  set (v' := if cap (bb_w b) <? v then cap (bb_w b) else v).
  assert (Hv' : v' = Z.min v (cap (bb_w b))) by (unfold v'; destruct (Z.ltb_spec (cap (bb_w b)) v); lia).
  rewrite (u16_small (bval b i + v')) by (rewrite Hv'; change (2^16) with 65536; lia).
  replace (if cap (bb_w b) <? bval b i + v' then cap (bb_w b) else bval b i + v')
    with (Z.min (bval b i + v) (cap (bb_w b)))
    by (destruct (Z.ltb_spec (cap (bb_w b)) (bval b i + v')); lia).
  apply (put_Ok b (Z.of_nat i * bb_w b) (bb_w b)); [done|done|apply Hs|by rewrite Hl].
Qed.

(** ** abstraction to an array *)
Definition bvals (b : BitBucket) (n : nat) : list Z := map (bval b) (seq 0 n).
Lemma bvals_length b n : length (bvals b n) = n.
Proof. unfold bvals. by rewrite map_length, seq_length. Qed.
Lemma bvals_lookup b n i : (i < n)%nat → bvals b n !! i = Some (bval b i).
Proof.
  intros Hi. unfold bvals. change (map (bval b) (seq 0 n)) with (bval b <$> seq 0 n).
  rewrite list_lookup_fmap, lookup_seq_lt by done. done.
Qed.
Lemma bvals_bput b n i v : wf b n → (i < n)%nat → 0 ≤ v ≤ cap (bb_w b) →
  bvals (bput b i v) n = <[i := v]> (bvals b n).
Proof.
  intros Hwf Hi Hv. apply list_eq. intros j.
  destruct (decide (j < n)%nat) as [Hj|Hj].
  - rewrite bvals_lookup by done. destruct (decide (i = j)) as [->|Hij].
    + rewrite list_lookup_insert by (by rewrite bvals_length). f_equal. by eapply bput_same.
    + rewrite list_lookup_insert_ne, bvals_lookup by done. f_equal. by eapply bput_other.
  - rewrite !lookup_ge_None_2; [done| |]; rewrite ?insert_length, bvals_length; lia.
Qed.

Lemma wf_New n w : size_ok n w → ∃ b, BB_New (Z.of_nat n) w = Ok b ∧ wf b n ∧ bb_w b = w ∧ bvals b n = replicate n 0.
Proof.
  intros Hs. unfold BB_New. replace (8 <? w) with false by (destruct Hs; lia).
  rewrite bb_length_ok by done.
  assert (0 ≤ (Z.of_nat n * w + 7) / 8) by (rewrite <- dlen_Z by done; lia).
  replace (_ <? 0) with false by lia. eexists; split; [done|].
  assert (Hwf : wf (BB (replicate (dlen n w) 0) (Z.of_nat n) w) n).
  { constructor; simpl; [done|done|apply is_bytes_replicate0|by rewrite replicate_length]. }
  split; [exact Hwf|]. split; [done|].
  change (Z.to_nat _) with (dlen n w).
  apply list_eq. intros i. destruct (decide (i < n)%nat) as [Hi|Hi].
  - rewrite bvals_lookup, lookup_replicate_2 by done. f_equal.
    destruct (off_ok n w i Hs Hi) as (E & H1 & H2).
    apply Z.bits_inj'. intros k Hk. unfold bval. simpl. rewrite Z.testbit_0_l.
    rewrite field_bit; [|apply is_bytes_replicate0|apply Hs|done|by rewrite replicate_length|done].
    destruct (Z.ltb_spec k w) as [Hkw|Hkw]; [|done]. unfold dbit.
    rewrite lookup_total_replicate_2; [apply Z.testbit_0_l|]. lia.
  - rewrite !lookup_ge_None_2; [done| |]; rewrite ?replicate_length, ?bvals_length; lia.
Qed.
Lemma wf_Reset b n : wf b n → wf (BB_Reset b) n ∧ bvals (BB_Reset b) n = map (λ _, 0) (bvals b n).
Proof.
  intros [Hn Hs Hb Hl].
  assert (Hm : map (λ _ : byte, 0) (bb_data b) = replicate (length (bb_data b)) 0).
  { generalize (bb_data b). intros d. induction d; simpl; congruence. }
  assert (Hwf : wf (BB_Reset b) n).
  { constructor; simpl; [done|done| |by rewrite map_length]. rewrite Hm. apply is_bytes_replicate0. }
  split; [done|]. apply list_eq. intros i. destruct (decide (i < n)%nat) as [Hi|Hi].
  - rewrite bvals_lookup by done. change (map (λ _ : Z, 0) (bvals b n)) with ((λ _ : Z, 0) <$> bvals b n).
    rewrite list_lookup_fmap, bvals_lookup by done. simpl. f_equal.
    destruct (off_ok n (bb_w b) i Hs Hi) as (E & H1 & H2).
    apply Z.bits_inj'. intros k Hk. unfold bval. simpl. rewrite Z.testbit_0_l.
    rewrite Hm. rewrite field_bit; [|apply is_bytes_replicate0|apply Hs|done|by rewrite replicate_length, Hl|done].
    destruct (Z.ltb_spec k (bb_w b)) as [Hkw|Hkw]; [|done]. unfold dbit.
    rewrite lookup_total_replicate_2; [apply Z.testbit_0_l|]. rewrite Hl. lia.
  - rewrite !lookup_ge_None_2; [done| |]; rewrite ?map_length, ?bvals_length; lia.
Qed.

Lemma op_sim b n w o : wf b n → bb_w b = w → bop_ok n o →
  ∃ b', bb_op b o = Ok b' ∧ wf b' n ∧ bb_w b' = w ∧ bvals b' n = arr_op w (bvals b n) o.
Proof.
  intros Hwf Hw Ho. destruct o as [i v|i v|]; simpl in Ho |- *.
  - destruct Ho as [Hi Hv]. rewrite (Set_Ok b n i v Hwf Hi) by lia. eexists; split; [done|].
    split; [by apply bput_wf|]. split; [done|]. rewrite Hw.
    pose proof (cap_range (bb_w b) ltac:(apply (wf_size _ _ Hwf))). subst w.
    rewrite bvals_bput by (done || lia). done.
  - destruct Ho as [Hi Hv]. rewrite (IncN_Ok b n i v Hwf Hi Hv). eexists; split; [done|].
    split; [by apply bput_wf|]. split; [done|].
    pose proof (cap_range (bb_w b) ltac:(apply (wf_size _ _ Hwf))). subst w.
    pose proof (bval_range b n i Hwf Hi).
    rewrite bvals_bput by (done || lia).
    apply list_eq. intros j. destruct (decide (i = j)) as [<-|Hij].
    + rewrite list_lookup_insert by (by rewrite bvals_length). rewrite list_lookup_alter, bvals_lookup by done. done.
    + rewrite list_lookup_insert_ne, list_lookup_alter_ne by done. done.
  - eexists; split; [done|]. destruct (wf_Reset b n Hwf) as [H1 H2]. split; [done|]. split; [done|done].
Qed.
Lemma ops_sim os : ∀ b n w, wf b n → bb_w b = w → Forall (bop_ok n) os →
  ∃ b', bb_ops b os = Ok b' ∧ wf b' n ∧ bb_w b' = w ∧ bvals b' n = fold_left (arr_op w) os (bvals b n).
Proof.
  induction os as [|o os IH]; intros b n w Hwf Hw Hos.
  - exists b. done.
  - inversion_clear Hos as [|? ? Ho Hos'].
    destruct (op_sim b n w o Hwf Hw Ho) as (b1 & E & Hwf1 & Hw1 & Ha1).
    destruct (IH b1 n w Hwf1 Hw1 Hos') as (b2 & E2 & Hwf2 & Hw2 & Ha2).
    exists b2. simpl. rewrite E. cbn [obind]. rewrite E2, Ha2, Ha1. done.
Qed.

Lemma countN_loop_Ok b n v : wf b n → ∀ k i acc, (i + k = n)%nat →
  bb_countN_loop b v k (Z.of_nat i) acc = Ok (acc + count_eq v (drop i (bvals b n))).
Proof.
  intros Hwf. induction k as [|k IH]; intros i acc Hik; simpl.
  - rewrite drop_ge by (rewrite bvals_length; lia). f_equal. unfold count_eq. simpl. lia.
  - rewrite (Get_Ok b n i Hwf) by lia. cbn [obind].
    replace (Z.of_nat i + 1) with (Z.of_nat (S i)) by lia. rewrite IH by lia. f_equal.
    rewrite (drop_S (bvals b n) (bval b i) i) by (apply bvals_lookup; lia).
    unfold count_eq. rewrite filter_cons.
    destruct (Z.eqb_spec (bval b i) v) as [E|E]; destruct (decide (bval b i = v)); try done; cbn [length]; lia.
Qed.
Lemma CountN_Ok b n v : wf b n → BB_CountN b v = Ok (count_eq v (bvals b n)).
Proof.
  intros Hwf. unfold BB_CountN. rewrite (wf_n _ _ Hwf), Nat2Z.id.
  pose proof (countN_loop_Ok b n v Hwf n 0%nat 0 eq_refl) as H. rewrite drop_0 in H. exact H.
Qed.
Lemma wf_repr b n : wf b n → repr (bb_w b) b (bvals b n).
Proof.
  intros Hwf. unfold repr. rewrite bvals_length. split_and!.
  - intros i Hi. exists (bval b i). rewrite bvals_lookup by done.
    split_and!; [done|apply (bval_range b n i Hwf Hi) ..|by eapply Get_Ok].
  - intros v. by apply CountN_Ok.
  - apply (wf_n _ _ Hwf).
  - done.
  - apply max8_ok, (wf_size _ _ Hwf).
  - unfold BB_Len, BB_LenOf. rewrite (wf_len _ _ Hwf), dlen_Z, bb_length_ok by apply (wf_size _ _ Hwf). lia.
  - unfold BB_Len. rewrite (wf_len _ _ Hwf), dlen_Z by apply (wf_size _ _ Hwf). lia.
Qed.
