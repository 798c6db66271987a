From Verif Require Import Base BaseProofs RandModel RandSpec.
From Coq Require Import ZifyBool ZifyNat.

Lemma index_lookup {A} (l : list A) i x : l !! i = Some x → index l (Z.of_nat i) = Ok x.
Proof.
  intros H. unfold index. pose proof (lookup_lt_Some _ _ _ H). rewrite Nat2Z.id, H.
  by replace ((0 <=? Z.of_nat i) && (Z.of_nat i <? Z.of_nat (length l))) with true by lia.
Qed.
Lemma store_insert {A} (l : list A) i x : (i < length l)%nat → store l (Z.of_nat i) x = Ok (<[i:=x]> l).
Proof.
  intros H. unfold store. rewrite Nat2Z.id.
  by replace ((0 <=? Z.of_nat i) && (Z.of_nat i <? Z.of_nat (length l))) with true by lia.
Qed.
(** the pure swap *)
Definition swap {A} (l : list A) (i j : nat) : list A :=
  match l !! i, l !! j with Some x, Some y => <[j:=x]> (<[i:=y]> l) | _, _ => l end.
Lemma swap_length {A} (l : list A) i j : length (swap l i j) = length l.
Proof. unfold swap. destruct (l !! i), (l !! j); rewrite ?insert_length; done. Qed.
Lemma swap_perm {A} (l : list A) i j : swap l i j ≡ₚ l.
Proof.
  unfold swap. destruct (l !! i) as [x|] eqn:Ei, (l !! j) as [y|] eqn:Ej; try done.
  rewrite <- (list_insert_id l i x) at 2 by done.
  pose proof (lookup_lt_Some _ _ _ Ei). pose proof (lookup_lt_Some _ _ _ Ej).
  destruct (decide (i = j)) as [->|Hij].
  { rewrite list_insert_insert. done. }
  apply Permutation_inj. split; [rewrite !insert_length; done|].
  exists (λ k, if decide (k = i) then j else if decide (k = j) then i else k). split.
  - intros a b. repeat case_decide; subst; try done; intros; subst; done.
  - intros k. repeat case_decide; subst.
    + rewrite (list_lookup_insert_ne (<[i:=y]> l) j i) by done. rewrite list_lookup_insert by done.
      rewrite list_lookup_insert_ne by done. done.
    + rewrite list_lookup_insert by (rewrite insert_length; done). rewrite list_lookup_insert by done. done.
    + rewrite !list_lookup_insert_ne by done. done.
Qed.
Lemma shuffle_step {A} rng (buf : list A) i s j s' : r_intn rng s (Z.of_nat i + 1) = Ok (Z.of_nat j, s') →
  (j ≤ i)%nat → (i < length buf)%nat → shuffle_loop rng buf (S i) s = shuffle_loop rng (swap buf i j) i s'.
Proof.
  intros E Hj Hi. cbn [shuffle_loop]. rewrite E. cbn [obind].
  destruct (lookup_lt_is_Some_2 buf i Hi) as [x Hx]. destruct (lookup_lt_is_Some_2 buf j) as [y Hy]; [lia|].
  rewrite (index_lookup _ _ _ Hx). cbn [obind]. rewrite (index_lookup _ _ _ Hy). cbn [obind].
  rewrite store_insert by done. cbn [obind]. rewrite store_insert by (rewrite insert_length; lia). cbn [obind].
  unfold swap. by rewrite Hx, Hy.
Qed.

Section rng.
  Context (rng : Rand) (Hr : rand_ok rng).
  Lemma intn_pos s n : 0 < n → ∃ j s', r_intn rng s n = Ok (Z.of_nat j, s') ∧ Z.of_nat j < n.
  Proof.
    intros H. destruct (Hr s n) as [H1 _]. destruct (H1 H) as (r & s' & E & Hb).
    exists (Z.to_nat r), s'. rewrite Z2Nat.id by lia. split; [done|lia].
  Qed.
  Lemma shuffle_perm {A} (buf : list A) i s : (i ≤ length buf)%nat →
    ∃ buf' s', shuffle_loop rng buf i s = Ok (buf', s') ∧ buf' ≡ₚ buf.
  Proof.
    revert buf s. induction i as [|i IH]; intros buf s Hi; [by exists buf, s|].
    destruct (intn_pos s (Z.of_nat i + 1)) as (j & s' & E & Hj); [lia|].
    rewrite (shuffle_step rng buf i s j s') by (done || lia).
    destruct (IH (swap buf i j) s') as (buf' & s'' & E' & HP); [rewrite swap_length; lia|].
    exists buf', s''. split; [done|]. by rewrite HP, swap_perm.
  Qed.
  Lemma Shuffle_perm s {A} (buf : list A) : ∃ buf' s', Shuffle rng buf s = Ok (buf', s') ∧ buf' ≡ₚ buf.
  Proof. apply shuffle_perm. done. Qed.

  Lemma draw_ok {A} (src pre : list A) fill k s : src ≠ [] → length fill = k →
    ∃ extra s', draw_loop rng src (pre ++ fill) (Z.of_nat (length pre)) k s = Ok (pre ++ extra, s') ∧ length extra = k ∧ ∀ x, x ∈ extra → x ∈ src.
  Proof.
    intros Hs. revert pre fill s. induction k as [|k IH]; intros pre fill s Hf.
    - destruct fill; [|done]. exists [], s. split; [done|]. split; [done|]. intros x Hx. by apply elem_of_nil in Hx.
    - destruct fill as [|z fill]; [done|]. cbn [draw_loop].
      destruct (intn_pos s (Z.of_nat (length src))) as (j & s' & E & Hj); [destruct src; [done|cbn; lia]|].
      rewrite E. cbn [obind]. destruct (lookup_lt_is_Some_2 src j) as [x Hx]; [lia|]. rewrite (index_lookup _ _ _ Hx). cbn [obind].
      rewrite store_insert by (rewrite app_length; cbn; lia). cbn [obind].
      rewrite insert_app_r_alt by lia. rewrite Nat.sub_diag. cbn [insert list_insert].
      replace (pre ++ x :: fill) with ((pre ++ [x]) ++ fill) by (by rewrite <- app_assoc).
      replace (Z.of_nat (length pre) + 1) with (Z.of_nat (length (pre ++ [x]))) by (rewrite app_length; cbn; lia).
      destruct (IH (pre ++ [x]) fill s') as (extra & s'' & E' & Hl & Hin); [by injection Hf|].
      exists (x :: extra), s''. rewrite E', <- app_assoc. split; [done|]. split; [cbn; lia|].
      intros y [->|Hy]%elem_of_cons; [by eapply elem_of_list_lookup_2|by apply Hin].
  Qed.
  Lemma gocopy_long {A} (nil : A) (n : nat) src : (length src ≤ n)%nat →
    gocopy (replicate n nil) src = src ++ replicate (n - length src) nil.
  Proof.
    intros H. unfold gocopy. rewrite replicate_length, Nat.min_r by done. rewrite take_ge by done.
    by rewrite drop_replicate.
  Qed.
  Lemma gocopy_short {A} (nil : A) (n : nat) src : (n ≤ length src)%nat → gocopy (replicate n nil) src = take n src.
  Proof.
    intros H. unfold gocopy. rewrite replicate_length, Nat.min_l by done. rewrite drop_ge by (rewrite replicate_length; done).
    by rewrite app_nil_r.
  Qed.
  Lemma Repeated_ge s {A} (nil : A) n src : src ≠ [] → Z.of_nat (length src) ≤ n →
    ∃ out s' extra, ShuffleRepeated rng nil n src s = Ok (out, s') ∧ Z.of_nat (length out) = n ∧
      out ≡ₚ src ++ extra ∧ ∀ x, x ∈ extra → x ∈ src.
  Proof.
    intros H1 H2. unfold ShuffleRepeated. destruct (Z.ltb_spec n 0); [lia|]. rewrite gocopy_long by lia.
    destruct (draw_ok src src (replicate (Z.to_nat n - length src) nil) (Z.to_nat n - length src) s) as (extra & s' & E & Hl & Hin);
      [done|by rewrite replicate_length|]. rewrite E. cbn [obind].
    destruct (Shuffle_perm s' (src ++ extra)) as (out & s'' & E' & HP).
    exists out, s'', extra. split; [done|]. split; [|done]. rewrite HP, app_length, Hl. lia.
  Qed.
  Lemma Repeated_lt s {A} (nil : A) n src : 0 ≤ n ≤ Z.of_nat (length src) →
    ∃ out s', ShuffleRepeated rng nil n src s = Ok (out, s') ∧ out ≡ₚ take (Z.to_nat n) src.
  Proof.
    intros H. unfold ShuffleRepeated. destruct (Z.ltb_spec n 0); [lia|]. rewrite gocopy_short by lia.
    replace (Z.to_nat n - length src)%nat with O by lia. cbn [draw_loop obind]. apply Shuffle_perm.
  Qed.
  Lemma Repeated_panics s {A} (nil : A) n src : ShuffleRepeated rng nil n src s = Panic ↔ n < 0 ∨ (0 < n ∧ src = []).
  Proof.
    split.
    - intros E. destruct (Z.ltb_spec n 0); [by left|]. right. destruct (decide (n ≤ Z.of_nat (length src))).
      + destruct (Repeated_lt s nil n src) as (o & s' & E' & _); [lia|]. congruence.
      + split; [lia|]. destruct src as [|x src]; [done|].
        destruct (Repeated_ge s nil n (x :: src)) as (o & s' & ex & E' & _); [done|lia|]. congruence.
    - intros [H|[H ->]]; unfold ShuffleRepeated; [by destruct (Z.ltb_spec n 0); [|lia]|].
      destruct (Z.ltb_spec n 0); [done|]. cbn [length]. destruct (Z.to_nat n - 0)%nat eqn:E; [lia|]. cbn [draw_loop length].
      destruct (Hr s (Z.of_nat 0)) as [_ H2]. rewrite H2 by lia. done.
  Qed.

  Lemma fill_ok k pre fill s : length fill = k → is_bytes pre →
    ∃ b s', fill_loop rng (pre ++ fill) (Z.of_nat (length pre)) k s = Ok (b, s') ∧ length b = (length pre + k)%nat ∧ is_bytes b.
  Proof.
    revert pre fill s. induction k as [|k IH]; intros pre fill s Hf Hp.
    - destruct fill; [|done]. exists pre, s. rewrite app_nil_r. split_and!; [done|lia|done].
    - destruct fill as [|z fill]; [done|]. cbn [fill_loop].
      destruct (intn_pos s 256) as (j & s' & E & Hj); [lia|]. rewrite E. cbn [obind].
      rewrite store_insert by (rewrite app_length; cbn; lia). cbn [obind].
      rewrite insert_app_r_alt by lia. rewrite Nat.sub_diag. cbn [insert list_insert].
      set (x := u8 (Z.of_nat j)). replace (pre ++ x :: fill) with ((pre ++ [x]) ++ fill) by (by rewrite <- app_assoc).
      replace (Z.of_nat (length pre) + 1) with (Z.of_nat (length (pre ++ [x]))) by (rewrite app_length; cbn; lia).
      destruct (IH (pre ++ [x]) fill s') as (b & s'' & E' & Hl & Hb); [by injection Hf| |].
      { unfold is_bytes. apply Forall_app. split; [done|]. rewrite Forall_singleton. subst x. unfold is_byte, u8. apply Z.mod_pos_bound. lia. }
      exists b, s''. split; [done|]. rewrite app_length in Hl. cbn in Hl. split; [lia|done].
  Qed.
  Lemma RandomByteSlice_ok s n : 0 ≤ n → ∃ b s', RandomByteSlice rng n s = Ok (b, s') ∧ Z.of_nat (length b) = n ∧ is_bytes b.
  Proof.
    intros H. unfold RandomByteSlice, FillRandomByteSlice. destruct (Z.ltb_spec n 0); [lia|]. rewrite replicate_length.
    destruct (fill_ok (Z.to_nat n) [] (replicate (Z.to_nat n) 0) s) as (b & s' & E & Hl & Hb); [by rewrite replicate_length|by constructor|].
    exists b, s'. split; [exact E|]. cbn in Hl. split; [lia|done].
  Qed.
  Lemma RandomByteSlices_ok s m n : 0 ≤ m → 0 ≤ n →
    ∃ bs s', RandomByteSlices rng m n s = Ok (bs, s') ∧ Z.of_nat (length bs) = m ∧ Forall (λ b, Z.of_nat (length b) = n ∧ is_bytes b) bs.
  Proof.
    intros Hm Hn. unfold RandomByteSlices. destruct (Z.ltb_spec m 0); [lia|].
    assert (∀ k s, ∃ bs s', slices_loop rng k n s = Ok (bs, s') ∧ length bs = k ∧ Forall (λ b, Z.of_nat (length b) = n ∧ is_bytes b) bs) as HK.
    { induction k as [|k IH]; intros s0; [exists [], s0; split_and!; [done|done|constructor]|].
      cbn [slices_loop]. destruct (RandomByteSlice_ok s0 n Hn) as (b & s1 & E & Hb). rewrite E. cbn [obind].
      destruct (IH s1) as (bs & s2 & E2 & Hl & Hbs). rewrite E2. cbn [obind]. exists (b :: bs), s2.
      split_and!; [done|cbn; lia|by constructor]. }
    destruct (HK (Z.to_nat m) s) as (bs & s' & E & Hl & Hbs). exists bs, s'. split_and!; [done|lia|done].
  Qed.
  Lemma Printable_ok s : ∃ b s', Printable rng s = Ok (b, s') ∧ 32 ≤ b ≤ 126.
  Proof.
    unfold Printable. destruct (intn_pos s 95) as (j & s' & E & Hj); [lia|]. rewrite E. cbn [obind].
    eexists _, s'. split; [done|]. unfold u8. rewrite !Z.mod_small by (rewrite ?Z.mod_small; lia). lia.
  Qed.
End rng.

Lemma playback_ok : rand_ok playback.
Proof.
  intros s n. cbn [r_intn playback]. split; intros H.
  - destruct (Z.ltb_spec 0 n); [|lia]. destruct s as [|j js]; [exists 0, []; split; [done|lia]|].
    eexists _, js. split; [done|]. destruct ((0 <=? j) && (j <? n)) eqn:E; lia.
  - destruct (Z.ltb_spec 0 n); [lia|done].
Qed.

(** ** every arrangement has exactly one sequence of choices *)
(** the result of shuffling the first [i] cells only permutes those *)
Lemma swap_lookup_ne {A} (l : list A) i j k : k ≠ i → k ≠ j → swap l i j !! k = l !! k.
Proof.
  intros H1 H2. unfold swap. destruct (l !! i), (l !! j); try done. by rewrite !list_lookup_insert_ne.
Qed.
Lemma swap_lookup_l {A} (l : list A) i j : (i < length l)%nat → (j < length l)%nat → swap l i j !! i = l !! j.
Proof.
  intros Hi Hj. unfold swap. destruct (lookup_lt_is_Some_2 l i Hi) as [x Hx]. destruct (lookup_lt_is_Some_2 l j Hj) as [y Hy].
  rewrite Hx, Hy. destruct (decide (i = j)) as [->|].
  - rewrite list_lookup_insert by (by rewrite insert_length). congruence.
  - rewrite list_lookup_insert_ne, list_lookup_insert by done. done.
Qed.
Lemma play_step {A} (buf : list A) i (j : nat) js : (j ≤ i)%nat → (i < length buf)%nat →
  shuffle_loop playback buf (S i) (Z.of_nat j :: js) = shuffle_loop playback (swap buf i j) i js.
Proof.
  intros Hj Hi. apply shuffle_step; [|done|done]. cbn [r_intn playback].
  destruct (Z.ltb_spec 0 (Z.of_nat i + 1)); [|lia]. by replace ((0 <=? Z.of_nat j) && (Z.of_nat j <? Z.of_nat i + 1)) with true by lia.
Qed.
(** cells from [i] on are final *)
Lemma play_frame {A} i (buf : list A) js out js' k : (i ≤ length buf)%nat → choices i js → (i ≤ k)%nat →
  shuffle_loop playback buf i js = Ok (out, js') → out !! k = buf !! k.
Proof.
  revert buf js. induction i as [|i IH]; intros buf js Hi Hc Hk E; [by injection E as <- <-|].
  destruct js as [|j js]; [done|]. destruct Hc as [Hj Hc]. rewrite <- (Z2Nat.id j) in E by lia.
  rewrite play_step in E by lia. apply IH in E; [|rewrite swap_length; lia|done|lia].
  rewrite E. rewrite swap_lookup_ne by lia. done.
Qed.
Lemma play_exists {A} i (buf target : list A) : (i ≤ length buf)%nat → target ≡ₚ buf → (∀ k, (i ≤ k)%nat → target !! k = buf !! k) →
  ∃ js, choices i js ∧ shuffle_loop playback buf i js = Ok (target, []).
Proof.
  revert buf. induction i as [|i IH]; intros buf Hi HP Hk.
  - exists []. split; [done|]. cbn [shuffle_loop]. do 2 f_equal. symmetry. apply list_eq. intros k. apply Hk. lia.
  - destruct (lookup_lt_is_Some_2 target i) as [y Hy]; [rewrite HP; lia|].
    (* y occurs in buf at a position j <= i *)
    assert (∃ j, (j ≤ i)%nat ∧ buf !! j = Some y) as (j & Hj & Hb).
    { assert (y ∈ take (S i) target) as Hin.
      { apply elem_of_list_lookup. exists i. rewrite lookup_take by lia. done. }
      assert (take (S i) target ≡ₚ take (S i) buf) as HP2.
      { assert (drop (S i) target = drop (S i) buf) as HD.
        { apply list_eq. intros k. rewrite !lookup_drop. apply Hk. lia. }
        rewrite <- (take_drop (S i) target), <- (take_drop (S i) buf) in HP. rewrite HD in HP.
        by apply Permutation_app_inv_r in HP. }
      rewrite HP2 in Hin. apply elem_of_list_lookup in Hin as [j Hj].
      pose proof (lookup_lt_Some _ _ _ Hj) as Hl. rewrite take_length in Hl. rewrite lookup_take in Hj by lia.
      exists j. split; [lia|done]. }
    destruct (IH (swap buf i j)) as (js & Hc & E).
    + rewrite swap_length. lia.
    + by rewrite swap_perm.
    + intros k Hk2. destruct (decide (k = i)) as [->|].
      * rewrite swap_lookup_l by lia. congruence.
      * rewrite swap_lookup_ne by lia. apply Hk. lia.
    + exists (Z.of_nat j :: js). split; [split; [lia|done]|]. rewrite play_step by lia. done.
Qed.
Lemma play_unique {A} i (buf target : list A) js1 js2 r1 r2 : NoDup buf → (i ≤ length buf)%nat → choices i js1 → choices i js2 →
  shuffle_loop playback buf i js1 = Ok (target, r1) → shuffle_loop playback buf i js2 = Ok (target, r2) → js1 = js2.
Proof.
  revert buf js1 js2. induction i as [|i IH]; intros buf js1 js2 HN Hi H1 H2 E1 E2.
  - destruct js1, js2; done.
  - destruct js1 as [|j1 js1]; [done|]. destruct js2 as [|j2 js2]; [done|]. destruct H1 as [B1 H1], H2 as [B2 H2].
    rewrite <- (Z2Nat.id j1) in E1 by lia. rewrite <- (Z2Nat.id j2) in E2 by lia. rewrite play_step in E1, E2 by lia.
    assert (Z.to_nat j1 = Z.to_nat j2) as Ej.
    { assert (target !! i = swap buf i (Z.to_nat j1) !! i) as F1 by (eapply (play_frame i); [rewrite swap_length; lia|exact H1|lia|exact E1]).
      assert (target !! i = swap buf i (Z.to_nat j2) !! i) as F2 by (eapply (play_frame i); [rewrite swap_length; lia|exact H2|lia|exact E2]).
      rewrite swap_lookup_l in F1, F2 by lia.
      destruct (lookup_lt_is_Some_2 buf (Z.to_nat j1)) as [y Hy]; [lia|].
      eapply (NoDup_lookup buf); [done|exact Hy|]. congruence. }
    assert (j1 = j2) by lia. subst j2. f_equal. eapply (IH (swap buf i (Z.to_nat j1))); [by rewrite swap_perm|rewrite swap_length; lia|done..].
Qed.
Lemma Shuffle_unbiased {A} (buf target : list A) : NoDup buf → target ≡ₚ buf →
  ∃ js, choices (length buf) js ∧ Shuffle playback buf js = Ok (target, []) ∧
    ∀ js', choices (length buf) js' → Shuffle playback buf js' = Ok (target, []) → js' = js.
Proof.
  intros HN HP. destruct (play_exists (length buf) buf target) as (js & Hc & E); [done|done| |].
  { intros k Hk. rewrite !lookup_ge_None_2; [done|done|rewrite HP; done]. }
  exists js. split; [done|]. split; [exact E|]. intros js' Hc' E'. by eapply (play_unique (length buf) buf target js' js).
Qed.
