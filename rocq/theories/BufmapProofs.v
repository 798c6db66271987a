From Coq Require Import ZifyBool ZifyNat.
From Verif Require Import Base BaseProofs BufmapModel BufmapSpec.
Local Open Scope Z_scope.

(** ** arithmetic *)
Lemma s64_small x : 0 ≤ x < 2^63 → s64 x = x.
Proof. intros H. unfold s64. rewrite Z.mod_small; lia. Qed.
Lemma u64_small x : 0 ≤ x < 2^64 → u64 x = x.
Proof. intros. unfold u64. apply Z.mod_small. lia. Qed.

Definition probe (l k : Z) (i : nat) : Z := (k + Z.of_nat i) mod l.
Lemma probe_range l k i : 0 < l → 0 ≤ probe l k i < l.
Proof. intros. apply Z.mod_pos_bound. lia. Qed.
Lemma pos_probe l k i : 0 < l < 2^63 → 0 ≤ k < 2^64 → (i ≤ 10)%nat → pos l k i = Ok (probe l k i).
Proof.
  intros Hl Hk Hi. unfold pos. rewrite (u64_small l) by lia. destruct (Z.eqb_spec l 0); [lia|]. f_equal.
  pose proof (Z.mod_pos_bound k l ltac:(lia)).
  rewrite u64_small by lia. rewrite Z.add_mod_idemp_l by lia. fold (probe l k i). pose proof (probe_range l k i). apply s64_small. lia.
Qed.

(** ** invariant *)
Record inv (l s : Z) (m : Map) : Prop := {
  i_dims : dims_ok l s;
  i_l : m_l m = l;
  i_s : m_s m = s;
  i_keys : length (m_keys m) = Z.to_nat l;
  i_vals : length (m_values m) = Z.to_nat (l * s);
  i_seq : ∀ x sl, m_keys m !! x = Some sl → 0 ≤ sl_key sl < 2^64 ∧ 0 ≤ sl_seq sl < 2^32 ∧ (sl_mu sl = true ↔ sl_seq sl mod 2 = 1);
  i_place : ∀ x, 0 ≤ x < l → key_at m x ≠ 0 →
     ∃ i, (i ≤ 10)%nat ∧ x = probe l (key_at m x) i ∧ ∀ j, (j < i)%nat → key_at m (probe l (key_at m x) j) ≠ 0 ∧ key_at m (probe l (key_at m x) j) ≠ key_at m x;
  i_empty : ∀ x sl, m_keys m !! x = Some sl → sl_key sl = 0 → sl_mu sl = false;
  i_zero : ∀ x, 0 ≤ x < l → key_at m x = 0 → bytes_at m x = replicate (Z.to_nat s) 0 }.

Lemma New_ok l s : dims_ok l s → New l s = Ok (MkMap l s (replicate (Z.to_nat l) (Slot 0 0 false)) (replicate (Z.to_nat (l * s)) 0)).
Proof.
  intros (H1 & H2 & H3). unfold New. rewrite s64_small by nia.
  destruct (Z.ltb_spec l 0); [lia|]. destruct (Z.ltb_spec (l*s) 0); [nia|]. reflexivity.
Qed.
Lemma New_inv l s m : dims_ok l s → New l s = Ok m → inv l s m.
Proof.
  intros Hd. rewrite New_ok by done. intros [= <-]. pose proof Hd as (H1 & H2 & H3).
  constructor; cbn [m_l m_s m_keys m_values]; try done.
  - by rewrite replicate_length.
  - by rewrite replicate_length.
  - intros x sl [-> _]%lookup_replicate. cbn. repeat split; try lia; done.
  - intros x Hx. unfold key_at. cbn [m_keys]. rewrite lookup_replicate_2 by lia. done.
  - intros x sl [-> _]%lookup_replicate. done.
  - intros x Hx _. unfold bytes_at. cbn [m_values m_s]. rewrite drop_replicate, take_replicate. f_equal. nia.
Qed.

Section fixed.
Context {l s : Z} {m : Map} (I : inv l s m).

Lemma keys_lookup x : 0 ≤ x < l → ∃ sl, m_keys m !! Z.to_nat x = Some sl ∧ index (m_keys m) x = Ok sl ∧ sl_key sl = key_at m x.
Proof.
  intros Hx. pose proof (i_keys _ _ _ I) as Hk.
  destruct (m_keys m !! Z.to_nat x) as [sl|] eqn:E; [|apply lookup_ge_None in E; lia].
  exists sl. split; [done|]. unfold index, key_at. rewrite E, Hk.
  replace ((0 <=? x) && (x <? Z.of_nat (Z.to_nat l))) with true by lia. done.
Qed.
Lemma l_pos : 0 < l < 2^63. Proof. destruct (i_dims _ _ _ I) as (?&?&?). nia. Qed.

Lemma get_probe_find k i n : 0 ≤ k < 2^64 → (i + n ≤ 11)%nat →
  get_probe m k i n = Ok (find (λ x, key_at m x =? k) (map (probe l k) (seq i n))).
Proof.
  intros Hk. revert i. induction n as [|n IH]; intros i Hn; [done|]. cbn [get_probe seq map find].
  rewrite (i_l _ _ _ I). rewrite pos_probe by (try apply l_pos; lia). cbn [obind].
  destruct (keys_lookup (probe l k i)) as (sl & _ & E & <-). { apply probe_range. pose proof l_pos. lia. }
  rewrite E. cbn [obind]. destruct (sl_key sl =? k) eqn:Ek; [done|]. apply IH. lia.
Qed.

Lemma upd_probe_find k i n init : is_key k → (i + n ≤ 11)%nat →
  upd_probe m k init i n = Ok (match find (λ x, (key_at m x =? k) || (key_at m x =? 0)) (map (probe l k) (seq i n)) with
    | None => None
    | Some x => Some (x, init || negb (key_at m (probe l k i) =? k), negb (key_at m x =? k))
    end).
Proof.
  intros Hk. revert i init. induction n as [|n IH]; intros i init Hn; [done|]. cbn [upd_probe seq map find].
  rewrite (i_l _ _ _ I). rewrite pos_probe by (try apply l_pos; unfold is_key in Hk; lia). cbn [obind].
  destruct (keys_lookup (probe l k i)) as (sl & _ & E & Esl). { apply probe_range. pose proof l_pos. lia. }
  rewrite E. cbn [obind]. rewrite Esl.
  destruct (key_at m (probe l k i) =? k) eqn:Ek; cbn [orb negb].
  - by rewrite Ek, orb_false_r.
  - destruct (key_at m (probe l k i) =? 0) eqn:E0; cbn [orb].
    + rewrite Ek. cbn. by rewrite orb_true_r.
    + rewrite IH by lia. rewrite !orb_true_r. destruct (find _ _); done.
Qed.

Lemma bytes_at_len x : 0 ≤ x < l → length (bytes_at m x) = Z.to_nat s.
Proof.
  intros Hx. unfold bytes_at. rewrite take_length, drop_length, (i_vals _ _ _ I), (i_s _ _ _ I).
  destruct (i_dims _ _ _ I) as (?&?&?). nia.
Qed.
Lemma slice_slot x : 0 ≤ x < l → slice (m_values m) (s64 (x * m_s m)) (s64 ((x + 1) * m_s m)) = Ok (bytes_at m x).
Proof.
  intros Hx. pose proof (i_dims _ _ _ I) as (H1&H2&H3). rewrite (i_s _ _ _ I).
  rewrite !s64_small by nia. unfold slice. rewrite (i_vals _ _ _ I).
  replace ((0 <=? x*s) && (x*s <=? (x+1)*s) && ((x+1)*s <=? Z.of_nat (Z.to_nat (l*s)))) with true by nia.
  unfold bytes_at. rewrite (i_s _ _ _ I). do 2 f_equal. lia.
Qed.

Lemma place_unique x y : 0 ≤ x < l → 0 ≤ y < l → key_at m x ≠ 0 → key_at m x = key_at m y → x = y.
Proof.
  intros Hx Hy Hn He. destruct (i_place _ _ _ I x Hx Hn) as (i & _ & Ex & Mi).
  rewrite He in Hn. destruct (i_place _ _ _ I y Hy Hn) as (j & _ & Ey & Mj).
  rewrite He in Ex, Mi. destruct (Nat.lt_trichotomy i j) as [H|[H|H]].
  - destruct (Mj i H) as [_ Hc]. rewrite <- Ex in Hc. congruence.
  - congruence.
  - destruct (Mi j H) as [_ Hc]. rewrite <- Ey in Hc. congruence.
Qed.
End fixed.

Lemma find_spec {A} (p : A → bool) (L : list A) :
  match find p L with
  | Some x => ∃ i, L !! i = Some x ∧ p x = true ∧ ∀ j y, (j < i)%nat → L !! j = Some y → p y = false
  | None => ∀ y, y ∈ L → p y = false
  end.
Proof.
  induction L as [|a L IH]; cbn [find].
  - intros y Hy. inversion Hy.
  - destruct (p a) eqn:E.
    + exists 0%nat. split; [done|]. split; [done|]. lia.
    + destruct (find p L) as [x|].
      * destruct IH as (i & H1 & H2 & H3). exists (S i). split; [done|]. split; [done|].
        intros [|j] y Hj Hy; cbn in Hy; [congruence|]. apply (H3 j); [lia|done].
      * intros y [->|Hy]%elem_of_cons; [done|]. by apply IH.
Qed.

Lemma probe_slots_eq l k : probe_slots l k = map (probe l k) (seq 0 11).
Proof. reflexivity. Qed.
Lemma probe_lookup l k i x : map (probe l k) (seq 0 11) !! i = Some x ↔ (i < 11)%nat ∧ x = probe l k i.
Proof.
  change (map (probe l k) (seq 0 11)) with (probe l k <$> seq 0 11).
  rewrite list_lookup_fmap. split.
  - destruct (seq 0 11 !! i) as [j|] eqn:E; [|done]. apply lookup_seq in E. cbn. intros [= <-]. destruct E as [-> ?]. auto.
  - intros [H ->]. rewrite lookup_seq_lt by done. done.
Qed.

(** ** what a slot write does *)
Definition set_slot (m : Map) (x : Z) (sl : slot) (d : bytes) : Map :=
  MkMap (m_l m) (m_s m) (<[Z.to_nat x := sl]> (m_keys m)) (splice (m_values m) (Z.to_nat (x * m_s m)) d).

Lemma splice_self {A} (L : list A) a d : take (length d) (drop a L) = d → (a + length d ≤ length L)%nat → splice L a d = L.
Proof.
  intros H Hl. unfold splice. rewrite <- (take_drop a L) at 3. f_equal.
  rewrite <- (take_drop (length d) (drop a L)). rewrite H, drop_drop. done.
Qed.
Lemma splice_len {A} (L : list A) a d : (a + length d ≤ length L)%nat → length (splice L a d) = length L.
Proof. intros. unfold splice. rewrite !app_length, take_length, drop_length. lia. Qed.

Section set.
Context {l s : Z} {m : Map} (I : inv l s m) (x : Z) (sl : slot) (d : bytes) (Hx : 0 ≤ x < l) (Hd : length d = Z.to_nat s).
Lemma key_at_set y : 0 ≤ y → key_at (set_slot m x sl d) y = if decide (x = y) then sl_key sl else key_at m y.
Proof.
  intros Hy. unfold key_at, set_slot. cbn [m_keys]. pose proof (i_keys _ _ _ I). destruct (decide (x = y)) as [->|Hne].
  - rewrite list_lookup_insert by lia. done.
  - rewrite list_lookup_insert_ne by lia. done.
Qed.
Lemma vals_set_len : length (m_values (set_slot m x sl d)) = length (m_values m).
Proof.
  cbn [set_slot m_values]. apply splice_len. rewrite (i_vals _ _ _ I), (i_s _ _ _ I), Hd.
  destruct (i_dims _ _ _ I) as (?&?&?). nia.
Qed.
Lemma bytes_at_set y : 0 ≤ y < l → bytes_at (set_slot m x sl d) y = if decide (x = y) then d else bytes_at m y.
Proof.
  intros Hy. unfold bytes_at, set_slot. cbn [m_values m_s]. rewrite (i_s _ _ _ I).
  pose proof (i_dims _ _ _ I) as (H1&H2&H3). pose proof (i_vals _ _ _ I) as Hv.
  unfold splice. set (a := Z.to_nat (x * s)). assert (La : length (take a (m_values m)) = a) by (rewrite take_length; nia).
  destruct (decide (x = y)) as [<-|Hne].
  - fold a. rewrite drop_app_alt by done. rewrite take_app_alt by lia. done.
  - destruct (decide (y < x)).
    + assert (Hyx : (Z.to_nat (y*s) + Z.to_nat s ≤ a)%nat) by nia.
      rewrite drop_app_le by lia. rewrite take_app_le by (rewrite drop_length; lia).
      rewrite <- (take_drop a (m_values m)) at 2. rewrite drop_app_le by lia. rewrite take_app_le by (rewrite drop_length; lia). done.
    + assert (Hyx : (a + Z.to_nat s ≤ Z.to_nat (y*s))%nat) by nia.
      rewrite drop_app_ge by lia. rewrite drop_app_ge by lia. rewrite drop_drop. do 2 f_equal. lia.
Qed.
Lemma slots_set y sl' : m_keys (set_slot m x sl d) !! y = Some sl' → (y = Z.to_nat x ∧ sl' = sl) ∨ (y ≠ Z.to_nat x ∧ m_keys m !! y = Some sl').
Proof.
  unfold set_slot. cbn [m_keys]. destruct (decide (y = Z.to_nat x)) as [->|Hne].
  - rewrite list_lookup_insert by (rewrite (i_keys _ _ _ I); lia). intros [= ->]. auto.
  - rewrite list_lookup_insert_ne by done. auto.
Qed.

(** writing a slot that holds k, or that is the first free one of k *)
Lemma set_inv k i : is_key k → (i ≤ 10)%nat → x = probe l k i →
  (key_at m x = k ∨ key_at m x = 0) → (∀ j, (j < i)%nat → key_at m (probe l k j) ≠ 0 ∧ key_at m (probe l k j) ≠ k) →
  sl_key sl = k → 0 ≤ sl_seq sl < 2^32 → (sl_mu sl = true ↔ sl_seq sl mod 2 = 1) →
  inv l s (set_slot m x sl d).
Proof.
  intros Hk Hi Ex Hor Hmin Esl Hseq Hmu. constructor.
  - apply (i_dims _ _ _ I).
  - apply (i_l _ _ _ I).
  - apply (i_s _ _ _ I).
  - cbn [set_slot m_keys]. rewrite insert_length. apply (i_keys _ _ _ I).
  - rewrite vals_set_len. apply (i_vals _ _ _ I).
  - intros y sl' [[-> ->]|[_ H]]%slots_set; [unfold is_key in Hk; rewrite Esl; repeat split; try lia; apply Hmu|]. by apply (i_seq _ _ _ I y).
  - intros y Hy. rewrite key_at_set by lia.
    assert (Hl0 : 0 < l) by (pose proof (l_pos I); lia).
    destruct (decide (x = y)) as [<-|Hne].
    + intros _. rewrite Esl. exists i. split; [done|]. split; [done|]. intros j Hj.
      pose proof (probe_range l k j Hl0). rewrite key_at_set by lia.
      destruct (Hmin j Hj) as [? ?]. destruct (decide (x = probe l k j)) as [E|]; [|done].
      rewrite E in Hor. destruct Hor; congruence.
    + intros Hn. destruct (i_place _ _ _ I y Hy Hn) as (i' & Hi' & Ey & Hm). exists i'. split; [done|]. split; [done|]. intros j Hj.
      pose proof (probe_range l (key_at m y) j Hl0). rewrite key_at_set by lia. destruct (Hm j Hj) as [H0 H1].
      destruct (decide (x = probe l (key_at m y) j)) as [E|]; [|done]. rewrite <- E in H0, H1. rewrite Esl. destruct Hor as [<-|]; [split;done|done].
  - intros y sl' [[-> ->]|[_ H]]%slots_set; [|by apply (i_empty _ _ _ I y)]. unfold is_key in Hk. lia.
  - intros y Hy. rewrite key_at_set by lia. rewrite bytes_at_set by done. destruct (decide (x = y)) as [<-|]; [unfold is_key in Hk; lia|].
    by apply (i_zero _ _ _ I).
Qed.
End set.

(** ** Update in terms of set_slot *)
Definition upd_target (l : Z) (m : Map) (k : Z) : option Z := find (λ x, (key_at m x =? k) || (key_at m x =? 0)) (probe_slots l k).
Definition first_flag (l : Z) (m : Map) (k : Z) : bool := negb (key_at m (home l k) =? k).

Lemma probe_home l k : probe l k 0 = home l k.
Proof. unfold probe, home. rewrite Z.add_0_r. done. Qed.

Lemma Update_eq l s m k fn : inv l s m → is_key k → fn_ok fn →
  match upd_target l m k with
  | None => Update m k fn = (m, Ret (Err ErrOutOfSlots))
  | Some x => ∃ sl, m_keys m !! Z.to_nat x = Some sl ∧
      if sl_mu sl then Update m k fn = (m, Hangs)
      else Update m k fn =
        let '(d, r) := fn (bytes_at m x) (first_flag l m k) in
        match r with
        | Panic => (set_slot m x (Slot k (u32 (sl_seq sl + 1)) true) d, Panics)
        | r => (set_slot m x (Slot k (u32 (u32 (sl_seq sl + 1) + 1)) false) d, Ret r)
        end
  end.
Proof.
  intros I Hk Hfn. pose proof Hk as Hk'. unfold is_key in Hk'. unfold Update. destruct (Z.eqb_spec k 0); [lia|].
  rewrite (upd_probe_find I) by (done || (unfold maxReprobe; lia)). unfold upd_target. rewrite probe_slots_eq. unfold maxReprobe.
  pose proof (find_spec (λ x, (key_at m x =? k) || (key_at m x =? 0)) (map (probe l k) (seq 0 11))) as F.
  destruct (find _ _) as [x|]; [|done]. destruct F as (i & Hi & Hp & Hm). apply probe_lookup in Hi. destruct Hi as [Hi Ex].
  assert (Hl0 : 0 < l) by (pose proof (l_pos I); lia).
  assert (Hx : 0 ≤ x < l) by (rewrite Ex; by apply probe_range).
  destruct (keys_lookup I x Hx) as (sl & L & Eix & Esl). exists sl. split; [done|]. rewrite Eix.
  assert (Ekey : (if negb (key_at m x =? k) then k else sl_key sl) = k) by (rewrite Esl; destruct (Z.eqb_spec (key_at m x) k); done).
  rewrite Ekey. destruct (sl_mu sl) eqn:Emu.
  - assert (sl_key sl = k) as Hkk.
    { rewrite <- Esl in Hp. destruct (Z.eqb_spec (sl_key sl) k); [done|]. destruct (Z.eqb_spec (sl_key sl) 0); [|done].
      rewrite (i_empty _ _ _ I _ _ L) in Emu by done. done. }
    rewrite <- Hkk. replace {| sl_key := sl_key sl; sl_seq := sl_seq sl; sl_mu := true |} with sl by (destruct sl; cbn in *; congruence).
    rewrite list_insert_id by done. by destruct m.
  - rewrite (slice_slot I) by done. unfold first_flag. rewrite <- probe_home. cbn [orb].
    destruct (fn (bytes_at m x) (negb (key_at m (probe l k 0) =? k))) as [d r] eqn:Ef.
    assert (Es : s64 (x * m_s m) = x * m_s m).
    { rewrite (i_s _ _ _ I). pose proof (i_dims _ _ _ I) as (?&?&?). apply s64_small. nia. }
    rewrite Es. destruct r; reflexivity.
Qed.

Lemma upd_target_spec l s m k x : inv l s m → upd_target l m k = Some x →
  ∃ i, (i ≤ 10)%nat ∧ x = probe l k i ∧ 0 ≤ x < l ∧ (key_at m x = k ∨ key_at m x = 0) ∧
  ∀ j, (j < i)%nat → key_at m (probe l k j) ≠ 0 ∧ key_at m (probe l k j) ≠ k.
Proof.
  intros I E. unfold upd_target in E. rewrite probe_slots_eq in E.
  pose proof (find_spec (λ x, (key_at m x =? k) || (key_at m x =? 0)) (map (probe l k) (seq 0 11))) as F. rewrite E in F.
  destruct F as (i & Hi & Hp & Hm). apply probe_lookup in Hi. destruct Hi as [Hi Ex]. exists i. split; [lia|]. split; [done|].
  split. { rewrite Ex. apply probe_range. pose proof (l_pos I). lia. }
  split; [lia|]. intros j Hj. specialize (Hm j (probe l k j) Hj). rewrite probe_lookup in Hm. specialize (Hm ltac:(split; [lia|done])). lia.
Qed.
Lemma upd_target_none l m k : upd_target l m k = None ↔ ∀ x, x ∈ probe_slots l k → key_at m x ≠ k ∧ key_at m x ≠ 0.
Proof.
  unfold upd_target. pose proof (find_spec (λ x, (key_at m x =? k) || (key_at m x =? 0)) (probe_slots l k)) as F. destruct (find _ _) as [x|].
  - split; [done|]. intros H. destruct F as (i & Hi & Hp & _). apply elem_of_list_lookup_2 in Hi. specialize (H _ Hi). lia.
  - split; [|done]. intros _ x Hx. specialize (F x Hx). lia.
Qed.

Lemma fn_len fn d i d' r : fn_ok fn → fn d i = (d', r) → length d' = length d.
Proof. intros H E. specialize (H d i). by rewrite E in H. Qed.

Lemma seq_even_odd q : 0 ≤ q < 2^32 → q mod 2 ≠ 1 → 0 ≤ u32 (q+1) < 2^32 ∧ u32 (q + 1) mod 2 = 1 ∧ 0 ≤ u32 (u32 (q+1)+1) < 2^32 ∧ u32 (u32 (q+1)+1) mod 2 = 0.
Proof. unfold u32. intros. assert (2^32 = 4294967296) as -> by done. Z.div_mod_to_equations. lia. Qed.

Lemma Update_inv l s m k fn m' r : inv l s m → 0 ≤ k < 2^64 → fn_ok fn → Update m k fn = (m', r) → inv l s m'.
Proof.
  intros I Hk0 Hfn. destruct (decide (k = 0)) as [->|Hk]. { unfold Update. cbn. by intros [= <- <-]. }
  assert (is_key k) as Hk' by (unfold is_key; lia). pose proof (Update_eq l s m k fn I Hk' Hfn) as E.
  destruct (upd_target l m k) as [x|] eqn:Et; [|rewrite E; by intros [= <- <-]].
  destruct E as (sl & L & E). destruct (sl_mu sl) eqn:Emu; [rewrite E; by intros [= <- <-]|]. rewrite E. clear E.
  destruct (upd_target_spec _ _ _ _ _ I Et) as (i & Hi & Ex & Hx & Hor & Hm).
  destruct (fn _ _) as [d o] eqn:Ef. pose proof (fn_len _ _ _ _ _ Hfn Ef) as Hd. rewrite (bytes_at_len I) in Hd by done.
  destruct (i_seq _ _ _ I _ _ L) as (Q1 & Q2 & Q3).
  destruct (seq_even_odd (sl_seq sl) Q2) as (P1 & P2 & P3 & P4). { rewrite <- Q3, Emu. done. }
  destruct o; intros [= <- <-]; apply (set_inv I x _ d Hx Hd k i); cbn [sl_key sl_seq sl_mu]; try done; try lia; split; intros; done || lia.
Qed.

Lemma reach_inv l s m : dims_ok l s → reach l s m → inv l s m.
Proof. intros Hd. induction 1 as [m H|m k fn m' r _ IH Hk Hf E]; [by eapply New_inv|by eapply Update_inv]. Qed.

(** ** records *)
Lemma elem_slots_of l s m k x : inv l s m → x ∈ slots_of m k ↔ 0 ≤ x < l ∧ key_at m x = k.
Proof.
  intros I. unfold slots_of. rewrite elem_of_list_filter. rewrite elem_of_list_In, in_map_iff. rewrite (i_keys _ _ _ I). split.
  - intros [H1 (n & <- & Hn)]. apply in_seq in Hn. lia.
  - intros [H1 H2]. split; [done|]. exists (Z.to_nat x). split; [lia|]. apply in_seq. lia.
Qed.
Lemma NoDup_slots_of m k : NoDup (slots_of m k).
Proof.
  unfold slots_of. apply NoDup_filter. change (map Z.of_nat ?L) with (Z.of_nat <$> L). apply NoDup_fmap; [intros ? ? ?; lia|].
  apply NoDup_seq.
Qed.
Lemma slots_of_present l s m k x : inv l s m → k ≠ 0 → 0 ≤ x < l → key_at m x = k → slots_of m k = [x].
Proof.
  intros I Hk Hx Ex. pose proof (NoDup_slots_of m k) as ND.
  assert (x ∈ slots_of m k) as Hin by (by apply (elem_slots_of l s)).
  assert (∀ y, y ∈ slots_of m k → y = x) as Hu.
  { intros y [Hy Ey]%(elem_slots_of l s _ _ _ I). apply (place_unique I y x); try done; congruence. }
  destruct (slots_of m k) as [|a [|b L]].
  - inversion Hin.
  - f_equal. apply Hu. left.
  - exfalso. rewrite (Hu a) in ND by left. rewrite (Hu b) in ND by (right; left). apply NoDup_cons in ND. destruct ND as [ND _]. apply ND. left.
Qed.
Lemma slots_of_absent l s m k : inv l s m → (∀ x, 0 ≤ x < l → key_at m x ≠ k) → slots_of m k = [].
Proof.
  intros I H. destruct (slots_of m k) as [|a L] eqn:E; [done|]. exfalso.
  assert (a ∈ slots_of m k) as Ha by (rewrite E; left). apply (elem_slots_of l s _ _ _ I) in Ha. destruct Ha as [Ha1 Ha2]. exact (H a Ha1 Ha2).
Qed.
Lemma key_dec (m : Map) (l k : Z) : (∃ x, 0 ≤ x < l ∧ key_at m x = k) ∨ (∀ x, 0 ≤ x < l → key_at m x ≠ k).
Proof.
  pose proof (find_spec (λ n, key_at m (Z.of_nat n) =? k) (seq 0 (Z.to_nat l))) as F. destruct (find _ _) as [n|].
  - left. destruct F as (i & Hi & Hp & _). apply lookup_seq in Hi. exists (Z.of_nat n). split; lia.
  - right. intros x Hx. specialize (F (Z.to_nat x)). rewrite elem_of_seq in F. specialize (F ltac:(lia)). rewrite Z2Nat.id in F by lia. lia.
Qed.
Lemma record_present l s m k x : inv l s m → k ≠ 0 → 0 ≤ x < l → key_at m x = k → record m k = Some (bytes_at m x).
Proof. intros. unfold record. by rewrite (slots_of_present l s m k x). Qed.
Lemma record_absent l s m k : inv l s m → (∀ x, 0 ≤ x < l → key_at m x ≠ k) → record m k = None.
Proof. intros. unfold record. by rewrite (slots_of_absent l s). Qed.

(** the slot an update picks is the slot of the key, if it has one *)
Lemma present_probe l s m k x : inv l s m → k ≠ 0 → 0 ≤ x < l → key_at m x = k →
  upd_target l m k = Some x ∧ find (λ y, key_at m y =? k) (probe_slots l k) = Some x.
Proof.
  intros I Hk Hx Ex. destruct (i_place _ _ _ I x Hx ltac:(congruence)) as (i & Hi & Hxi & Hm). rewrite Ex in Hxi, Hm.
  unfold upd_target. rewrite probe_slots_eq.
  assert (Li : map (probe l k) (seq 0 11) !! i = Some x) by (apply probe_lookup; split; [lia|done]).
  split.
  - pose proof (find_spec (λ x, (key_at m x =? k) || (key_at m x =? 0)) (map (probe l k) (seq 0 11))) as F. destruct (find _ _) as [y|].
    + destruct F as (j & Hj & Hp & Hjm). destruct (Nat.lt_trichotomy i j) as [H|[H|H]].
      * specialize (Hjm _ _ H Li). lia.
      * subst. congruence.
      * apply probe_lookup in Hj. destruct Hj as [_ ->]. destruct (Hm j H). lia.
    + apply elem_of_list_lookup_2 in Li. specialize (F _ Li). lia.
  - pose proof (find_spec (λ x, key_at m x =? k) (map (probe l k) (seq 0 11))) as F. destruct (find _ _) as [y|].
    + destruct F as (j & Hj & Hp & Hjm). destruct (Nat.lt_trichotomy i j) as [H|[H|H]].
      * specialize (Hjm _ _ H Li). lia.
      * subst. congruence.
      * apply probe_lookup in Hj. destruct Hj as [_ ->]. destruct (Hm j H). lia.
    + apply elem_of_list_lookup_2 in Li. specialize (F _ Li). lia.
Qed.
Lemma find_absent l s m k : inv l s m → (∀ x, 0 ≤ x < l → key_at m x ≠ k) → find (λ y, key_at m y =? k) (probe_slots l k) = None.
Proof.
  intros I H. rewrite probe_slots_eq. pose proof (find_spec (λ x, key_at m x =? k) (map (probe l k) (seq 0 11))) as F. destruct (find _ _) as [y|]; [|done].
  destruct F as (j & Hj & Hp & _). apply probe_lookup in Hj. destruct Hj as [_ ->]. exfalso. apply (H (probe l k j)); [|lia].
  apply probe_range. pose proof (l_pos I). lia.
Qed.
