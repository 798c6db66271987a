From Coq Require Import ZifyBool ZifyNat.
From Verif Require Import Base BaseProofs Probe BufmapModel BufmapSpec BufconcModel BufconcSpec.
Local Open Scope Z_scope.

Lemma s64_small x : 0 ≤ x < 2^63 → s64 x = x.
Proof. intros. unfold s64. rewrite Z.mod_small; lia. Qed.
Lemma u64_small x : 0 ≤ x < 2^64 → u64 x = x.
Proof. intros. unfold u64. apply Z.mod_small. lia. Qed.
Lemma pos_probe l k i : 0 < l < 2^63 → 0 ≤ k < 2^64 → (i ≤ 10)%nat → pos l k i = Ok (probe l k i).
Proof.
  intros Hl Hk Hi. unfold pos. rewrite (u64_small l) by lia. destruct (Z.eqb_spec l 0); [lia|]. f_equal.
  pose proof (Z.mod_pos_bound k l ltac:(lia)).
  rewrite u64_small by lia. rewrite Z.add_mod_idemp_l by lia. fold (probe l k i). pose proof (probe_range l k i). apply s64_small. lia.
Qed.
Lemma placed_ext l ka ka' : 0 < l → (∀ y, 0 ≤ y < l → ka y = ka' y) → placed l ka → placed l ka'.
Proof.
  intros Hl E P x Hx H0. rewrite <- (E x Hx) in H0 |- *. destruct (P x Hx H0) as (i & Hi & Ex & B). exists i. split; [done|]. split; [done|]. intros j Hj. rewrite <- E by (by apply probe_range). by apply B.
Qed.

(** ** histories *)
Lemma snoc_split {A} (h : list A) es ha e hb : (length es ≤ 1)%nat → h ++ es = ha ++ e :: hb → (∃ hb', h = ha ++ e :: hb' ∧ hb = hb' ++ es) ∨ (ha = h ∧ hb = [] ∧ es = [e]).
Proof.
  intros Hl E. apply app_eq_app in E as (k & [[E1 E2]|[E1 E2]]).
  - destruct k as [|a k].
    + rewrite app_nil_r in E1. cbn in E2. subst. destruct hb; [|cbn in Hl; lia]. by right.
    + injection E2 as <- ->. left. by exists k.
  - subst. rewrite app_length in Hl. cbn in Hl. destruct k as [|]; [|cbn in Hl; lia]. destruct hb; [|cbn in Hl; lia]. rewrite app_nil_r. by right.
Qed.
Definition begins (k : Z) (h : list event) : Z := Z.of_nat (length (omap (λ e, match e with EBegin _ k' => if decide (k' = k) then Some () else None | _ => None end) h)).
Lemma begins_app k a b : begins k (a ++ b) = begins k a + begins k b.
Proof. unfold begins. rewrite omap_app, app_length. lia. Qed.
Lemma writes_app k a b : writes k (a ++ b) = writes k a + writes k b.
Proof. unfold writes. rewrite omap_app, app_length. lia. Qed.
Lemma begins_nonneg k a : 0 ≤ begins k a. Proof. unfold begins. lia. Qed.
Lemma writes_nonneg k a : 0 ≤ writes k a. Proof. unfold writes. lia. Qed.
Lemma done_by_app t a b : done_by t (a ++ b) = done_by t a ++ done_by t b.
Proof. apply omap_app. Qed.
Definition incs (k : Z) (h : list event) : Z := begins k h + writes k h.
Lemma content_app s k a b : content s k (a ++ b) = fold_left (λ d e, match e with EDone _ k' fn init => if decide (k' = k) then (run (fn init) d).1 else d | _ => d end) b (content s k a).
Proof. unfold content. by rewrite fold_left_app. Qed.
Lemma content_nowrites s k a b : writes k b = 0 → content s k (a ++ b) = content s k a.
Proof.
  intros H. rewrite content_app. generalize (content s k a).
  induction b as [|e b IH]; [done|]. intros d. cbn [fold_left]. unfold writes in H. cbn [omap list_omap] in H. destruct e; try (apply IH; exact H). destruct (decide _); cbn in H; [lia|]. apply IH; exact H.
Qed.
Lemma run_len p d : length (run p d).1 = length d.
Proof.
  revert d. induction p as [r|i g IH|i v p IH]; intros d; cbn [run]; [done|..]; destruct (_ && _); first [done|apply IH|rewrite IH; apply insert_length].
Qed.
Lemma content_len s k h : length (content s k h) = Z.to_nat s.
Proof.
  induction h as [|e h IH] using rev_ind; [apply replicate_length|]. rewrite content_app. cbn. destruct e; try done. destruct (decide _); [|done]. by rewrite run_len.
Qed.
Lemma seen_app k h h' : seen k h → seen k (h ++ h').
Proof.
  intros [H|[(t & b & b' & H)|(t & b & b' & H)]]; [left|right; left; exists t, b, b'; apply elem_of_app; by left|right; right; exists t, b, b'; apply elem_of_app; by left]. rewrite writes_app. pose proof (writes_nonneg k h). pose proof (writes_nonneg k h'). lia.
Qed.
Definition dead (k : Z) (h : list event) : Prop := ∃ t fn init, EPanic t k fn init ∈ h.

(** ** memory *)
Definition sl (m : Map) (x : Z) : slot := match m_keys m !! Z.to_nat x with Some v => v | None => Slot 0 0 false end.
Lemma key_at_sl m x : key_at m x = sl_key (sl m x).
Proof. unfold key_at, sl. by destruct (_ !! _). Qed.
Record shape (l s : Z) (m : Map) : Prop := {
  sh_l : m_l m = l; sh_s : m_s m = s; sh_keys : length (m_keys m) = Z.to_nat l; sh_vals : length (m_values m) = Z.to_nat (l * s) }.
Section mem.
Context {l s : Z} {m : Map} (Hd : dims_ok l s) (I : shape l s m).
Lemma index_sl x : 0 ≤ x < l → index (m_keys m) x = Ok (sl m x).
Proof.
  intros Hx. unfold index, sl. rewrite (sh_keys _ _ _ I). assert ((0 <=? x) && (x <? Z.of_nat (Z.to_nat l)) = true) as -> by lia.
  destruct (lookup_lt_is_Some_2 (m_keys m) (Z.to_nat x)) as [y ->]; [rewrite (sh_keys _ _ _ I); lia|done].
Qed.
Lemma sl_set x y v : 0 ≤ x < l → 0 ≤ y → sl (set_slot m x v) y = if decide (x = y) then v else sl m y.
Proof.
  intros Hx Hy. unfold sl. cbn [set_slot m_keys]. destruct (decide (x = y)) as [->|Hne]; [rewrite list_lookup_insert; [done|rewrite (sh_keys _ _ _ I); lia]|]. rewrite list_lookup_insert_ne by lia. done.
Qed.
Lemma set_slot_shape x v : shape l s (set_slot m x v).
Proof. destruct I. constructor; try done. cbn [set_slot m_keys]. by rewrite insert_length. Qed.
Lemma set_byte_shape a v : shape l s (set_byte m a v).
Proof. destruct I. constructor; try done. cbn [set_byte m_values]. by rewrite insert_length. Qed.
Lemma range x i : 0 ≤ x < l → 0 ≤ i < s → 0 ≤ x * s + i < l * s.
Proof. destruct Hd as (?&?&?). intros. nia. Qed.
Lemma s64_lo x : 0 ≤ x < l → s64 (x * m_s m) = x * s.
Proof. rewrite (sh_s _ _ _ I). destruct Hd as (?&?&?). intros. apply s64_small. nia. Qed.
Lemma s64_hi x : 0 ≤ x < l → s64 ((x + 1) * m_s m) = (x + 1) * s.
Proof. rewrite (sh_s _ _ _ I). destruct Hd as (?&?&?). intros. apply s64_small. nia. Qed.
Lemma s64_ghi x : 0 ≤ x < l → s64 (x * (m_s m + 1)) = x * (s + 1).
Proof. rewrite (sh_s _ _ _ I). destruct Hd as (?&?&?). intros. apply s64_small. nia. Qed.
Lemma bytes_at_len x : 0 ≤ x < l → length (bytes_at m x) = Z.to_nat s.
Proof. intros Hx. unfold bytes_at. rewrite take_length, drop_length, (sh_vals _ _ _ I), (sh_s _ _ _ I). destruct Hd as (?&?&?). nia. Qed.
Lemma slice_slot x : 0 ≤ x < l → slice (m_values m) (s64 (x * m_s m)) (s64 ((x + 1) * m_s m)) = Ok (bytes_at m x).
Proof.
  intros Hx. rewrite s64_lo, s64_hi by done. unfold slice. rewrite (sh_vals _ _ _ I). destruct Hd as (?&?&?).
  assert (0 ≤ x * s ∧ x * s ≤ (x + 1) * s ∧ (x + 1) * s ≤ l * s) as (B1 & B2 & B3) by nia.
  assert ((0 <=? x * s) && (x * s <=? (x + 1) * s) && ((x + 1) * s <=? Z.of_nat (Z.to_nat (l * s))) = true) as -> by lia.
  unfold bytes_at. rewrite (sh_s _ _ _ I). do 2 f_equal. lia.
Qed.
Lemma byte_at_slot x i : 0 ≤ x < l → 0 ≤ i < s → byte_at (m_values m) (x * s + i) = default 0 (bytes_at m x !! Z.to_nat i).
Proof.
  intros Hx Hi. pose proof (range x i Hx Hi). assert (0 ≤ x * s) by nia. unfold byte_at, bytes_at. rewrite (sh_s _ _ _ I). rewrite lookup_take by lia. rewrite lookup_drop. do 2 f_equal. lia.
Qed.
Lemma bytes_set_byte x i v y : 0 ≤ x < l → 0 ≤ i < s → 0 ≤ y < l → bytes_at (set_byte m (x * s + i) v) y = if decide (x = y) then <[Z.to_nat i := v]> (bytes_at m x) else bytes_at m y.
Proof.
  intros Hx Hi Hy. pose proof (range x i Hx Hi). assert (0 ≤ x * s) by nia. unfold bytes_at. cbn [set_byte m_values m_s]. rewrite (sh_s _ _ _ I). destruct (decide (x = y)) as [<-|Hne].
  - apply list_eq. intros j. destruct (decide (j < Z.to_nat s)%nat) as [Hj|Hj].
    + rewrite lookup_take by done. rewrite lookup_drop. destruct (decide (j = Z.to_nat i)) as [->|Hji].
      * rewrite list_lookup_insert. { replace (Z.to_nat (x * s) + Z.to_nat i)%nat with (Z.to_nat (x * s + i)) by lia. rewrite list_lookup_insert; [done|]. rewrite (sh_vals _ _ _ I). lia. }
        rewrite take_length, drop_length, (sh_vals _ _ _ I). destruct Hd as (?&?&?). nia.
      * rewrite !list_lookup_insert_ne by lia. rewrite lookup_take by done. by rewrite lookup_drop.
    + rewrite !lookup_ge_None_2; [done|rewrite insert_length|]; rewrite take_length; lia.
  - apply list_eq. intros j. destruct (decide (j < Z.to_nat s)%nat) as [Hj|Hj].
    + rewrite !lookup_take by done. rewrite !lookup_drop. rewrite list_lookup_insert_ne; [done|]. destruct Hd as (?&?&?). assert (x < y ∨ y < x) as [?|?] by lia; nia.
    + rewrite !lookup_ge_None_2; [done|..]; rewrite take_length; lia.
Qed.
End mem.
Lemma bytes_set_slot m x v y : bytes_at (set_slot m x v) y = bytes_at m y. Proof. done. Qed.
Lemma sl_set_byte m a v y : sl (set_byte m a v) y = sl m y. Proof. done. Qed.
Lemma key_set_byte m a v y : key_at (set_byte m a v) y = key_at m y. Proof. done. Qed.
