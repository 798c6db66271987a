From Coq Require Import ZifyBool ZifyNat.
From Verif Require Import Base BaseProofs Probe BufmapModel BufmapSpec BufconcModel BufconcSpec BufconcProofs.
Local Open Scope Z_scope.

(** ** the invariant *)
Definition crit (x : Z) (p : pc) : bool := match p with USeq1 y _ | UFn y _ _ | USeq2 y _ _ | UUnlock y _ => bool_decide (y = x) | _ => false end.
Definition anycrit (p : pc) : bool := match p with USeq1 _ _ | UFn _ _ _ | USeq2 _ _ _ | UUnlock _ _ => true | _ => false end.
(** what the holder of a slot's mutex knows about the slot's bytes d *)
Definition hold (s k : Z) (d : bytes) (h : list event) (o : op) (p : pc) : Prop :=
  match o, p with
  | OUpdate k' fn, USeq1 _ _ => begins k h = writes k h ∧ d = content s k h
  | OUpdate k' fn, UFn _ init p => begins k h = writes k h + 1 ∧ run p d = run (fn init) (content s k h)
  | OUpdate k' fn, USeq2 _ init r => begins k h = writes k h + 1 ∧ run (fn init) (content s k h) = (d, r) ∧ r ≠ Panic
  | OUpdate k' fn, UUnlock _ r => begins k h = writes k h ∧ d = content s k h
  | _, _ => False
  end.
Definition free (x : Z) (ts : list (option (op * pc))) (except : nat → Prop) : Prop := ∀ t o p, ¬ except t → ts !! t = Some (Some (o, p)) → crit x p = false.
Definition phase_ok (s : Z) (m : Map) (ts : list (option (op * pc))) (h : list event) (x : Z) : Prop :=
  let k := key_at m x in
  (sl_mu (sl m x) = false ∧ begins k h = writes k h ∧ bytes_at m x = content s k h ∧ free x ts (λ _, False) ∧ ¬ dead k h) ∨
  (sl_mu (sl m x) = true ∧ ¬ dead k h ∧ ∃ t o p, ts !! t = Some (Some (o, p)) ∧ crit x p = true ∧ hold s k (bytes_at m x) h o p ∧ free x ts (λ t', t' = t)) ∨
  (sl_mu (sl m x) = true ∧ begins k h = writes k h + 1 ∧ dead k h ∧ free x ts (λ _, False)).
Definition slot_ok (s : Z) (m : Map) (ts : list (option (op * pc))) (h : list event) (x : Z) : Prop :=
  sl_seq (sl m x) = incs (key_at m x) h mod 2^32 ∧ phase_ok s m ts h x.

(** the flag given to the function, for the slot x found for key k by a call made after h1 *)
Definition flag (l k x : Z) (init : bool) (h1 : list event) : Prop := (init = false → x = probe l k 0) ∧ (init = true → x = probe l k 0 → begins k h1 = 0).
(** the bytes copied by Get of slot x *)
Definition ncopy (x : Z) (buf : bytes) : nat := Nat.min (length buf) (Z.to_nat x).
Definition bufok (x : Z) (buf b : bytes) : Prop := length b = length buf ∧ drop (ncopy x buf) b = drop (ncopy x buf) buf.
Definition snap (s k : Z) (h1 h2 : list event) (t : nat) (o : op) (q : Z) (j : nat) (b : bytes) : Prop :=
  ∃ g1 g2, h2 = g1 ++ g2 ∧ begins k (h1 ++ EInv t o :: g1) = writes k (h1 ++ EInv t o :: g1) ∧ q = incs k (h1 ++ EInv t o :: g1) mod 2^32 ∧
    (incs k g2 = 0 → take j b = take j (content s k (h1 ++ EInv t o :: g1))).
(** what a completed update did *)
Definition completed (l s : Z) (ka : Z → Z) (h1 h2 : list event) (t : nat) (k : Z) (fn : bool → prog) (r : outcome unit) : Prop :=
  ∃ g1 g2 init x, h2 = g1 ++ EDone t k fn init :: g2 ∧ done_by t g1 = [] ∧ done_by t g2 = [] ∧ r = (run (fn init) (content s k (h1 ++ EInv t (OUpdate k fn) :: g1))).2 ∧ r ≠ Panic ∧
    k ≠ 0 ∧ 0 ≤ x < l ∧ ka x = k ∧ flag l k x init h1.
Definition panicked (l s : Z) (ka : Z → Z) (h1 h2 : list event) (t : nat) (k : Z) (fn : bool → prog) : Prop :=
  ∃ g1 g2 init x, h2 = g1 ++ EPanic t k fn init :: g2 ∧ done_by t g1 = [] ∧ done_by t g2 = [] ∧ (run (fn init) (content s k (h1 ++ EInv t (OUpdate k fn) :: g1))).2 = Panic ∧
    k ≠ 0 ∧ 0 ≤ x < l ∧ ka x = k ∧ flag l k x init h1.
(** what a goroutine knows about the call it is in: h1, the call, h2 *)
Definition thr (l s : Z) (ka : Z → Z) (h1 h2 : list event) (t : nat) (o : op) (p : pc) : Prop :=
  match o, p with
  | OGet k buf, GLoad i => 0 ≤ k < 2^64 ∧ (i ≤ 10)%nat ∧ done_by t h2 = [] ∧ (k ≠ 0 → seen k h1 → ∀ j, (j < i)%nat → ka (probe l k j) ≠ k)
  | OGet k buf, GSeq1 x b => 0 ≤ x < l ∧ done_by t h2 = [] ∧ (k ≠ 0 → ka x = k) ∧ bufok x buf b
  | OGet k buf, GCopy x q j b => 0 ≤ x < l ∧ done_by t h2 = [] ∧ (k ≠ 0 → ka x = k) ∧ bufok x buf b ∧ (j < ncopy x buf)%nat ∧ x * (s + 1) ≤ l * s ∧
      (k ≠ 0 → Z.of_nat (length buf) ≤ s → snap s k h1 h2 t o q j b)
  | OGet k buf, GSeq2 x q b => 0 ≤ x < l ∧ done_by t h2 = [] ∧ (k ≠ 0 → ka x = k) ∧ bufok x buf b ∧ x * (s + 1) ≤ l * s ∧
      (k ≠ 0 → Z.of_nat (length buf) ≤ s → snap s k h1 h2 t o q (ncopy x buf) b)
  | OGet k buf, PRet (RGet b true) => done_by t h2 = [] ∧ length b = length buf ∧ (k ≠ 0 → ∃ x, 0 ≤ x < l ∧ ka x = k ∧ x * (s + 1) ≤ l * s ∧ (Z.of_nat (length buf) ≤ s → writes k h2 < 2^31 →
      ∃ g1 g2, h2 = g1 ++ g2 ∧ b = take (ncopy x buf) (content s k (h1 ++ EInv t o :: g1)) ++ drop (ncopy x buf) buf))
  | OGet k buf, PRet (RGet b false) => done_by t h2 = [] ∧ b = buf ∧ (k ≠ 0 → ¬ seen k h1)
  | OGet k buf, PRet RPanic => done_by t h2 = [] ∧ (k ≠ 0 → ∃ x, 0 ≤ x < l ∧ ka x = k ∧ l * s < x * (s + 1))
  | OUpdate k fn, ULoad i init => 0 < k < 2^64 ∧ (i ≤ 10)%nat ∧ passed l ka k i ∧ done_by t h2 = [] ∧ init = bool_decide (0 < i)%nat
  | OUpdate k fn, UCas i x => 0 < k < 2^64 ∧ (i ≤ 10)%nat ∧ passed l ka k i ∧ done_by t h2 = [] ∧ x = probe l k i ∧ (i = 0%nat → begins k h1 = 0)
  | OUpdate k fn, UReload i x => 0 < k < 2^64 ∧ (i ≤ 10)%nat ∧ passed l ka k i ∧ done_by t h2 = [] ∧ x = probe l k i ∧ ka x ≠ 0 ∧ (i = 0%nat → ka x = k → begins k h1 = 0)
  | OUpdate k fn, (ULock x init | USeq1 x init | UFn x init _ | USeq2 x init _) => 0 < k ∧ 0 ≤ x < l ∧ ka x = k ∧ done_by t h2 = [] ∧ flag l k x init h1
  | OUpdate k fn, UUnlock x r => 0 < k ∧ 0 ≤ x < l ∧ ka x = k ∧ completed l s ka h1 h2 t k fn r
  | OUpdate k fn, PRet (RUpdate r) => completed l s ka h1 h2 t k fn r ∨ (done_by t h2 = [] ∧ (k = 0 ∧ r = Err ErrInvalidKey ∨ k ≠ 0 ∧ r = Err ErrOutOfSlots ∧ passed l ka k 11))
  | OUpdate k fn, PRet RPanic => panicked l s ka h1 h2 t k fn
  | _, _ => False
  end.
Record inv (l s : Z) (c : cfg) (h : list event) : Prop := {
  v_dims : dims_ok l s;
  v_shape : shape l s (c_map c);
  v_place : placed l (key_at (c_map c));
  v_slot : ∀ x, 0 ≤ x < l → slot_ok s (c_map c) (c_threads c) h x;
  v_seen : ∀ k, k ≠ 0 → seen k h ∨ begins k h ≠ 0 ∨ dead k h → ∃ x, 0 ≤ x < l ∧ key_at (c_map c) x = k;
  v_zero : begins 0 h = 0 ∧ writes 0 h = 0 ∧ ¬ dead 0 h;
  v_thr : ∀ t o p, c_threads c !! t = Some (Some (o, p)) → ∃ h1 h2, h = h1 ++ EInv t o :: h2 ∧ quiet t h2 ∧ thr l s (key_at (c_map c)) h1 h2 t o p;
  v_ret : ∀ ha hb t o r, h = ha ++ ERet t o r :: hb → ∃ h1 h2, ha = h1 ++ EInv t o :: h2 ∧ quiet t h2 ∧ thr l s (key_at (c_map c)) h1 h2 t o (PRet r) }.

Ltac splits := repeat match goal with |- _ ∧ _ => split end.
Lemma incs_app k a b : incs k (a ++ b) = incs k a + incs k b.
Proof. unfold incs. rewrite begins_app, writes_app. lia. Qed.
Lemma incs_nonneg k a : 0 ≤ incs k a.
Proof. unfold incs. pose proof (begins_nonneg k a). pose proof (writes_nonneg k a). lia. Qed.
Lemma snap_other s k h1 h2 t o q j b es : snap s k h1 h2 t o q j b → snap s k h1 (h2 ++ es) t o q j b.
Proof.
  intros (g1 & g2 & -> & H1 & H2 & H3). exists g1, (g2 ++ es). rewrite app_assoc. splits; try done. rewrite incs_app. pose proof (incs_nonneg k g2). pose proof (incs_nonneg k es). intros. apply H3. lia.
Qed.
Lemma completed_other l s ka ka' h1 h2 t k fn r es : completed l s ka h1 h2 t k fn r → grows ka ka' → done_by t es = [] → completed l s ka' h1 (h2 ++ es) t k fn r.
Proof.
  intros (g1 & g2 & init & x & -> & H1 & H2 & H3 & H4 & H5 & H6 & H7 & H8) G E. exists g1, (g2 ++ es), init, x. rewrite <- app_assoc. splits; try done; try lia; [by rewrite done_by_app, H2|].
  rewrite (G x); [done|congruence].
Qed.
Lemma panicked_other l s ka ka' h1 h2 t k fn es : panicked l s ka h1 h2 t k fn → grows ka ka' → done_by t es = [] → panicked l s ka' h1 (h2 ++ es) t k fn.
Proof.
  intros (g1 & g2 & init & x & -> & H1 & H2 & H3 & H5 & H6 & H7 & H8) G E. exists g1, (g2 ++ es), init, x. rewrite <- app_assoc. splits; try done; try lia; [by rewrite done_by_app, H2|].
  rewrite (G x); [done|congruence].
Qed.
Lemma thr_other l s ka ka' h h1 h2 t o p es : 0 < l → thr l s ka h1 h2 t o p → grows ka ka' → placed l ka' → done_by t es = [] →
  (∀ k, k ≠ 0 → seen k h → ∃ x, 0 ≤ x < l ∧ ka x = k) → h = h1 ++ EInv t o :: h2 → thr l s ka' h1 (h2 ++ es) t o p.
Proof.
  intros Hl H G P' E Hs Eh. assert (∀ x k, k ≠ 0 → ka x = k → ka' x = k) as Hk by (intros x k H0 <-; by apply G).
  assert (done_by t h2 = [] → done_by t (h2 ++ es) = []) as Ha by (intros E2; by rewrite done_by_app, E2).
  destruct o as [k buf|k fn]; destruct p as [i|x b|x q j b|x q b|i init|i x|i x|x init|x init|x init p|x init r|x r|[b []|r|]]; try done; cbn [thr] in *.
  - destruct H as (? & ? & ? & H). splits; auto; try lia. intros Hk0 Hseen j Hj Ej.
    destruct (Hs k Hk0) as (x & Hx & Ex). { rewrite Eh. by apply seen_app. }
    assert (probe l k j = x) as Ep. { apply (placed_unique l ka' (probe l k j) x P'); [by apply probe_range|done|by rewrite Ej|]. rewrite Ej. symmetry. by apply Hk. }
    apply (H Hk0 Hseen j Hj). by rewrite Ep.
  - destruct H as (? & ? & ? & ?). splits; auto; try lia.
  - destruct H as (? & ? & ? & ? & ? & ? & Hsn). splits; auto; try lia. eauto using snap_other.
  - destruct H as (? & ? & ? & ? & ? & Hsn). splits; auto; try lia. eauto using snap_other.
  - destruct H as (? & ? & H). splits; auto; try lia. intros Hk0. destruct (H Hk0) as (x & Hx & Ex & Hxl & Hb). exists x. splits; auto; try lia. rewrite writes_app. intros Hlb Hw. pose proof (writes_nonneg k es).
    destruct Hb as (g1 & g2 & -> & ->); [done|lia|]. exists g1, (g2 ++ es). by rewrite app_assoc.
  - destruct H as (? & ? & ?). splits; auto.
  - destruct H as (? & H). splits; auto. intros Hk0. destruct (H Hk0) as (x & Hx & Ex & Hb). exists x. auto.
  - destruct H as (? & ? & ? & ? & ?). splits; auto; try lia. by eapply passed_grows.
  - destruct H as (? & ? & ? & ? & ? & ?). splits; auto; try lia. by eapply passed_grows.
  - destruct H as (? & ? & ? & ? & ? & ? & Hf). splits; auto; try lia; [by eapply passed_grows|by rewrite G|]. intros -> E2. apply Hf; [done|]. by rewrite <- G.
  - destruct H as (? & ? & ? & ? & ?). splits; auto; try lia. apply Hk; [lia|done].
  - destruct H as (? & ? & ? & ? & ?). splits; auto; try lia. apply Hk; [lia|done].
  - destruct H as (? & ? & ? & ? & ?). splits; auto; try lia. apply Hk; [lia|done].
  - destruct H as (? & ? & ? & ? & ?). splits; auto; try lia. apply Hk; [lia|done].
  - destruct H as (? & ? & ? & ?). splits; auto; try lia; [apply Hk; [lia|done]|]. by eapply completed_other.
  - destruct H as [H|(? & H)]; [left; by eapply completed_other|right]. split; [auto|]. destruct H as [H|(? & ? & ?)]; [by left|right]. splits; try done. by eapply passed_grows.
  - by eapply panicked_other.
Qed.

Lemma crit_any x p : crit x p = true → anycrit p = true.
Proof. by destruct p. Qed.
Section per_slot.
Context {l s : Z} {c : cfg} {h : list event} (I : inv l s c h) {x : Z} (Hx : 0 ≤ x < l).
Notation k := (key_at (c_map c) x).
Lemma phase : phase_ok s (c_map c) (c_threads c) h x.
Proof. apply (v_slot _ _ _ _ I x Hx). Qed.
Lemma clean : begins k h = writes k h → bytes_at (c_map c) x = content s k h.
Proof.
  intros E. destruct phase as [(_ & _ & ? & _)|[(_ & _ & t & o & p & L & Hc & Hh & _)|(_ & Hb & _)]]; [done| |lia].
  unfold hold in Hh. destruct o; [done|]. destruct p; try done; destruct Hh; try done; lia.
Qed.
Lemma balance : begins k h = writes k h ∨ begins k h = writes k h + 1.
Proof.
  destruct phase as [(_ & ? & _)|[(_ & _ & t & o & p & L & Hc & Hh & _)|(_ & Hb & _)]]; [auto| |auto].
  unfold hold in Hh. destruct o; [done|]. destruct p; try done; destruct Hh; auto.
Qed.
Lemma even_balance : (sl_seq (sl (c_map c) x) mod 2 =? 0) = true ↔ begins k h = writes k h.
Proof.
  destruct (v_slot _ _ _ _ I x Hx) as [-> _]. assert ((incs k h mod 2^32) mod 2 = incs k h mod 2) as ->.
  { change (2^32) with (2 * 2^31). rewrite Z.rem_mul_r by lia. rewrite (Z.mul_comm 2), Z.mod_add by lia. apply Z.mod_mod. lia. }
  unfold incs. destruct balance as [E|E]; rewrite E.
  - replace (writes k h + writes k h) with (writes k h * 2) by lia. rewrite Z.mod_mul by lia. done.
  - replace (writes k h + 1 + writes k h) with (1 + writes k h * 2) by lia. rewrite Z.mod_add by lia. split; [done|lia].
Qed.
Lemma holder t o p : c_threads c !! t = Some (Some (o, p)) → crit x p = true →
  sl_mu (sl (c_map c) x) = true ∧ ¬ dead k h ∧ hold s k (bytes_at (c_map c) x) h o p ∧ free x (c_threads c) (λ t', t' = t).
Proof.
  intros L Hc. destruct phase as [(_ & _ & _ & F & _)|[(? & Hd & t' & o' & p' & L' & Hc' & Hh & F)|(_ & _ & _ & F)]].
  - pose proof (F t o p (λ x, x) L). congruence.
  - destruct (decide (t = t')) as [<-|Hne]; [|pose proof (F t o p Hne L); congruence]. rewrite L in L'. injection L' as <- <-. done.
  - pose proof (F t o p (λ x, x) L). congruence.
Qed.
End per_slot.

Lemma free_set x ts t q X : free x ts (λ t', t' = t) → (∀ o p, q = Some (o, p) → ¬ X t → crit x p = false) → (t < length ts)%nat → free x (<[t := q]> ts) X.
Proof.
  intros F H Hl t' o p HX. destruct (decide (t' = t)) as [->|Hne]; [rewrite list_lookup_insert by done; intros [= ->]; eauto|rewrite list_lookup_insert_ne by done; by apply F].
Qed.
(** events that do not concern key k *)
Definition foreign (k : Z) (es : list event) : Prop := Forall (λ e, match e with EBegin _ k' | EDone _ k' _ _ | EPanic _ k' _ _ => k' ≠ k | _ => True end) es.
Lemma foreign_counts k es : foreign k es → begins k es = 0 ∧ writes k es = 0.
Proof.
  induction 1 as [|e es He _ IH]; [done|]. destruct IH. unfold begins, writes in *. destruct e as [| |t k' fn init| |]; cbn in *; try done; by rewrite decide_False.
Qed.
Lemma foreign_dead k h es : foreign k es → dead k (h ++ es) ↔ dead k h.
Proof.
  intros F. split; intros (t & fn & init & H); exists t, fn, init; [|apply elem_of_app; by left]. apply elem_of_app in H as [H|H]; [done|]. unfold foreign in F. rewrite Forall_forall in F. apply F in H. done.
Qed.
Lemma hold_foreign s k d h o p es : hold s k d h o p → foreign k es → hold s k d (h ++ es) o p.
Proof.
  intros H F. destruct (foreign_counts k es F) as [B W]. unfold hold in *. destruct o; [done|]. destruct p; try done; rewrite begins_app, writes_app, content_nowrites, B, W, !Z.add_0_r by done; done.
Qed.
(** a slot is not affected by what happens outside it *)
Lemma slot_frame s m m' ts h x t q0 q es : slot_ok s m ts h x → ts !! t = Some q0 → (∀ o p, q0 = Some (o, p) → crit x p = false) → (∀ o p, q = Some (o, p) → crit x p = false) →
  sl m' x = sl m x → bytes_at m' x = bytes_at m x → foreign (key_at m x) es → slot_ok s m' (<[t := q]> ts) (h ++ es) x.
Proof.
  intros [Hseq P] L H0 H1 Es Eb F. assert (t < length ts)%nat as Hlt by (by eapply lookup_lt_Some). assert (key_at m' x = key_at m x) as Ek by (by rewrite !key_at_sl, Es).
  destruct (foreign_counts _ es F) as [B W]. unfold slot_ok, phase_ok. rewrite Es, Eb, Ek. set (k := key_at m x) in *. unfold incs in *. rewrite !begins_app, !writes_app, B, W, !Z.add_0_r. rewrite content_nowrites by done. rewrite foreign_dead by done.
  split; [done|].
  assert (∀ X, free x ts X → free x (<[t := q]> ts) X) as Hf.
  { intros X Fr t' o p HX. destruct (decide (t' = t)) as [->|Hne]; [rewrite list_lookup_insert by done; intros [= ->]; by eapply H1|rewrite list_lookup_insert_ne by done; by apply Fr]. }
  destruct P as [(? & ? & ? & Fr & ?)|[(? & Hd & t' & o & p & L' & Hc & Hh & Fr)|(? & ? & ? & Fr)]]; [left|right; left|right; right]; splits; try done; try (by apply Hf).
  exists t', o, p. rewrite list_lookup_insert_ne. { splits; try done; [by apply hold_foreign|by apply Hf]. }
  intros <-. rewrite L in L'. injection L' as ->. by rewrite (H0 o p) in Hc.
Qed.

Lemma mk_inv l s c h m' t q0 q es : inv l s c h → c_threads c !! t = Some q0 → shape l s m' → grows (key_at (c_map c)) (key_at m') → placed l (key_at m') → (length es ≤ 1)%nat →
  (∀ t', t' ≠ t → done_by t' es = [] ∧ quiet t' es) →
  (∀ x, 0 ≤ x < l → slot_ok s m' (<[t := q]> (c_threads c)) (h ++ es) x) →
  (∀ k, k ≠ 0 → seen k (h ++ es) ∨ begins k (h ++ es) ≠ 0 ∨ dead k (h ++ es) → ∃ x, 0 ≤ x < l ∧ key_at m' x = k) →
  foreign 0 es →
  (∀ o p, q = Some (o, p) → ∃ h1 h2, h ++ es = h1 ++ EInv t o :: h2 ∧ quiet t h2 ∧ thr l s (key_at m') h1 h2 t o p) →
  (∀ t' o r, es = [ERet t' o r] → ∃ h1 h2, h = h1 ++ EInv t' o :: h2 ∧ quiet t' h2 ∧ thr l s (key_at m') h1 h2 t' o (PRet r)) →
  inv l s (MkCfg m' (<[t := q]> (c_threads c))) (h ++ es).
Proof.
  intros I L Hsh G P Hes Hoth Hslot Hseen Hz Hthr Hret. pose proof (v_dims _ _ _ _ I) as Hd. assert (0 < l) as Hl by (by destruct Hd). constructor; cbn [c_map c_threads]; try done.
  - destruct (foreign_counts 0 es Hz) as [B W]. rewrite begins_app, writes_app, B, W, foreign_dead, !Z.add_0_r by done. apply I.
  - intros t' o p Lt. destruct (decide (t' = t)) as [->|Hne].
    + rewrite list_lookup_insert in Lt by (by eapply lookup_lt_Some). injection Lt as ->. by apply Hthr.
    + rewrite list_lookup_insert_ne in Lt by done. destruct (v_thr _ _ _ _ I t' o p Lt) as (h1 & h2 & E & Hq & Ht). destruct (Hoth t' Hne) as [Ha Hqq].
      exists h1, (h2 ++ es). split; [rewrite E, <- app_assoc; done|]. split; [by apply Forall_app|].
      apply (thr_other l s (key_at (c_map c)) _ h); try done. intros k H0 Hs. apply (v_seen _ _ _ _ I k H0). by left.
  - intros ha hb t' o r E. apply snoc_split in E as [(hb' & E & _)|(-> & _ & E)]; [| |done].
    + destruct (v_ret _ _ _ _ I ha hb' t' o r E) as (h1 & h2 & E1 & Hq & Ht). exists h1, h2. split; [done|]. split; [done|].
      rewrite <- (app_nil_r h2). apply (thr_other l s (key_at (c_map c)) _ ha); try done. intros k H0 Hs. apply (v_seen _ _ _ _ I k H0). left. rewrite E. by apply seen_app.
    + by apply Hret.
Qed.

(** events without effect on any slot *)
Definition silent (es : list event) : Prop := Forall (λ e, match e with EBegin _ _ | EDone _ _ _ _ | EPanic _ _ _ _ => False | _ => True end) es.
Lemma silent_foreign k es : silent es → foreign k es.
Proof. intros H. eapply Forall_impl; [exact H|]. by intros []. Qed.
(** steps outside every critical section that leave the memory as it is *)
Lemma calm_inv l s c h t q0 q es : inv l s c h → c_threads c !! t = Some q0 → (∀ o p, q0 = Some (o, p) → anycrit p = false) → (∀ o p, q = Some (o, p) → anycrit p = false) →
  (length es ≤ 1)%nat → silent es → (∀ t', t' ≠ t → quiet t' es) →
  (∀ k, k ≠ 0 → (∃ t b b', ERet t (OGet k b) (RGet b' true) ∈ es) → ∃ x, 0 ≤ x < l ∧ key_at (c_map c) x = k) →
  (∀ o p, q = Some (o, p) → ∃ h1 h2, h ++ es = h1 ++ EInv t o :: h2 ∧ quiet t h2 ∧ thr l s (key_at (c_map c)) h1 h2 t o p) →
  (∀ t' o r, es = [ERet t' o r] → ∃ h1 h2, h = h1 ++ EInv t' o :: h2 ∧ quiet t' h2 ∧ thr l s (key_at (c_map c)) h1 h2 t' o (PRet r)) →
  inv l s (MkCfg (c_map c) (<[t := q]> (c_threads c))) (h ++ es).
Proof.
  intros I L H0 H1 Hl Hs Hq Hse Ht Hr. eapply mk_inv; try done; try apply I.
  - intros t' Hne. split; [|by apply Hq]. clear -Hs. induction Hs as [|e es He _ IH]; [done|]. by destruct e.
  - intros x Hx. eapply slot_frame; try done; try (by apply I); [..|by apply silent_foreign].
    + intros o p E. apply H0 in E. destruct (crit x p) eqn:Ec; [|done]. apply crit_any in Ec. congruence.
    + intros o p E. apply H1 in E. destruct (crit x p) eqn:Ec; [|done]. apply crit_any in Ec. congruence.
  - intros k Hk0 H. pose proof (silent_foreign k es Hs) as F. destruct (foreign_counts k es F) as [B W]. rewrite foreign_dead, begins_app, B, Z.add_0_r in H by done.
    destruct H as [[Hw|[Hp|(t' & b & b' & Hin)]]|H]; [| |apply elem_of_app in Hin as [Hin|Hin]|].
    + apply (v_seen _ _ _ _ I k Hk0). left. left. by rewrite writes_app, W, Z.add_0_r in Hw.
    + apply (v_seen _ _ _ _ I k Hk0). right. right. rewrite <- (foreign_dead k h es F). exact Hp.
    + apply (v_seen _ _ _ _ I k Hk0). left. right. right. eauto.
    + apply Hse; eauto.
    + apply (v_seen _ _ _ _ I k Hk0). by right.
  - by apply silent_foreign.
Qed.
Lemma pure_inv l s c h t o p p' : inv l s c h → c_threads c !! t = Some (Some (o, p)) → anycrit p = false → anycrit p' = false →
  (∀ h1 h2, h = h1 ++ EInv t o :: h2 → quiet t h2 → thr l s (key_at (c_map c)) h1 h2 t o p → thr l s (key_at (c_map c)) h1 h2 t o p') →
  inv l s (MkCfg (c_map c) (<[t := Some (o, p')]> (c_threads c))) h.
Proof.
  intros I L H0 H1 H. rewrite <- (app_nil_r h). eapply calm_inv; try done.
  - intros ? ? [= <- <-]. done.
  - intros ? ? [= <- <-]. done.
  - cbn. lia.
  - by constructor.
  - intros. constructor.
  - intros k _ (? & ? & ? & Hin). by apply elem_of_nil in Hin.
  - intros o2 p2 [= <- <-]. rewrite app_nil_r. destruct (v_thr _ _ _ _ I t o p L) as (h1 & h2 & E & Hq & Ht). exists h1, h2. split; [done|]. split; [done|]. by apply H.
Qed.
(** steps inside the critical section of slot x, or into it, or out of it *)
Lemma crit_inv l s c h t k fn x p m' p' es : inv l s c h → c_threads c !! t = Some (Some (OUpdate k fn, p)) → 0 ≤ x < l → key_at (c_map c) x = k → k ≠ 0 →
  (∀ y, y ≠ x → crit y p = false) → (∀ y, y ≠ x → crit y p' = false) → shape l s m' →
  (∀ y, 0 ≤ y → sl_key (sl m' y) = sl_key (sl (c_map c) y)) → (∀ y, 0 ≤ y < l → y ≠ x → sl m' y = sl (c_map c) y ∧ bytes_at m' y = bytes_at (c_map c) y) →
  es = [] ∨ es = [EBegin t k] ∨ (∃ init, es = [EDone t k fn init]) ∨ (∃ init, es = [EPanic t k fn init]) →
  slot_ok s m' (<[t := Some (OUpdate k fn, p')]> (c_threads c)) (h ++ es) x →
  (∀ h1 h2, h = h1 ++ EInv t (OUpdate k fn) :: h2 → quiet t h2 → thr l s (key_at (c_map c)) h1 h2 t (OUpdate k fn) p → thr l s (key_at (c_map c)) h1 (h2 ++ es) t (OUpdate k fn) p') →
  inv l s (MkCfg m' (<[t := Some (OUpdate k fn, p')]> (c_threads c))) (h ++ es).
Proof.
  intros I L Hx Ek Hk0 Hp Hp' Hsh Hkeys Hoth Hes Hslot Ht. pose proof (v_dims _ _ _ _ I) as Hd. assert (0 < l) as Hl by (by destruct Hd). assert (t < length (c_threads c))%nat as Hlt by (by eapply lookup_lt_Some).
  assert (∀ y, 0 ≤ y → key_at m' y = key_at (c_map c) y) as Hka by (intros y Hy; rewrite !key_at_sl; auto).
  assert (∀ y, key_at m' y = key_at (c_map c) y) as Hkb.
  { intros y. destruct (decide (0 ≤ y)); [auto|]. specialize (Hka 0 ltac:(lia)). unfold key_at in *. by replace (Z.to_nat y) with (Z.to_nat 0) by lia. }
  assert (∀ k', k' ≠ k → foreign k' es) as Hfor. { intros k' Hne. destruct Hes as [->|[->|[(init & ->)|(init & ->)]]]; repeat constructor; congruence. }
  eapply mk_inv; try done.
  - intros y Hy. by rewrite Hkb.
  - eapply placed_ext; [done| |apply I]. intros y Hy. by rewrite Hkb.
  - destruct Hes as [->|[->|[(init & ->)|(init & ->)]]]; cbn; lia.
  - intros t' Hne. destruct Hes as [->|[->|[(init & ->)|(init & ->)]]]; (split; [cbn; rewrite ?decide_False by done; done|]); repeat constructor.
  - intros y Hy. destruct (decide (y = x)) as [->|Hne]; [done|]. destruct (Hoth y Hy Hne) as [E1 E2]. eapply slot_frame; try done; try (by apply I).
    + intros o2 p2 [= <- <-]. by apply Hp.
    + intros o2 p2 [= <- <-]. by apply Hp'.
    + destruct (decide (key_at (c_map c) y = 0)) as [E0|E0]; [rewrite E0; apply Hfor; congruence|]. apply Hfor. intros E. apply Hne. apply (placed_unique l (key_at (c_map c)) y x); [apply I|done..|congruence].
  - intros k' H0 H. destruct (decide (k' = k)) as [->|Hne]; [exists x; by rewrite Hkb|].
    specialize (Hfor k' Hne). destruct (foreign_counts k' es Hfor) as [B W]. rewrite foreign_dead, begins_app, B, Z.add_0_r in H by done.
    destruct (v_seen _ _ _ _ I k' H0) as (y & Hy & Ey); [|exists y; by rewrite Hkb]. destruct H as [[Hw|[Hpp|(t' & b & b' & Hin)]]|H]; [left; left|right; right|left; right; right|by right].
    + by rewrite writes_app, W, Z.add_0_r in Hw.
    + rewrite <- (foreign_dead k' h es Hfor). exact Hpp.
    + exists t', b, b'. apply elem_of_app in Hin as [Hin|Hin]; [done|]. exfalso. destruct Hes as [->|[->|[(init & ->)|(init & ->)]]]; rewrite ?elem_of_list_singleton in Hin; try done; by apply elem_of_nil in Hin.
  - by apply Hfor.
  - intros o2 p2 [= <- <-]. destruct (v_thr _ _ _ _ I t _ p L) as (h1 & h2 & E & Hq & Hth). exists h1, (h2 ++ es). split; [rewrite E, <- app_assoc; done|]. split; [apply Forall_app; split; [done|]; destruct Hes as [->|[->|[(init & ->)|(init & ->)]]]; repeat constructor|].
    specialize (Ht h1 h2 E Hq Hth). rewrite <- (app_nil_r (h2 ++ es)). apply (thr_other l s (key_at (c_map c)) _ (h1 ++ EInv t (OUpdate k fn) :: h2 ++ es)); try done.
    + intros y Hy. by rewrite Hkb.
    + eapply placed_ext; [done| |apply I]. intros y Hy. by rewrite Hkb.
    + intros k' H0 Hs. destruct (decide (k' = k)) as [->|Hne]; [by exists x|]. apply (v_seen _ _ _ _ I k' H0). left. specialize (Hfor k' Hne). destruct (foreign_counts k' es Hfor) as [B W].
      destruct Hs as [Hs|[Hs|(t' & b & b' & Hin)]]; [left; rewrite E|right; left; fold (dead k' h); rewrite E|right; right; exists t', b, b'; rewrite E].
      * rewrite app_comm_cons, app_assoc, writes_app, W, Z.add_0_r in Hs. done.
      * change (dead k' (h1 ++ EInv t (OUpdate k fn) :: h2 ++ es)) in Hs. rewrite app_comm_cons, app_assoc in Hs. rewrite (foreign_dead k' _ es Hfor) in Hs. exact Hs.
      * rewrite app_comm_cons, app_assoc in Hin. apply elem_of_app in Hin as [Hin|Hin]; [done|]. exfalso. destruct Hes as [->|[->|[(init & ->)|(init & ->)]]]; rewrite ?elem_of_list_singleton in Hin; try done; by apply elem_of_nil in Hin.
  - intros t' o' r' E. exfalso. destruct Hes as [->|[->|[(init & ->)|(init & ->)]]]; done.
Qed.
