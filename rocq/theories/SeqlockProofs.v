From Coq Require Import ZifyBool ZifyNat.
From Verif Require Import Base BaseProofs SeqlockModel SeqlockSpec.
Local Open Scope Z_scope.

Lemma blk_pos : (0 < blk)%nat. Proof. unfold blk. lia. Qed.
Lemma blk_two : (2 ≤ blk)%nat. Proof. unfold blk. lia. Qed.
Lemma blk_val : blk = Z.to_nat 1024. Proof. done. Qed.
Global Opaque blk.

(** ** histories *)
Lemma snoc_split {A} (h : list A) es ha e hb : (length es ≤ 1)%nat → h ++ es = ha ++ e :: hb → (∃ hb', h = ha ++ e :: hb' ∧ hb = hb' ++ es) ∨ (ha = h ∧ hb = [] ∧ es = [e]).
Proof.
  intros Hl E. apply app_eq_app in E as (k & [[E1 E2]|[E1 E2]]).
  - destruct k as [|a k].
    + rewrite app_nil_r in E1. cbn in E2. subst. destruct hb; [|cbn in Hl; lia]. by right.
    + injection E2 as <- ->. left. by exists k.
  - subst. rewrite app_length in Hl. cbn in Hl. destruct k as [|]; [|cbn in Hl; lia]. destruct hb; [|cbn in Hl; lia]. rewrite app_nil_r. by right.
Qed.
Definition begins (h : list event) : Z := Z.of_nat (length (omap (λ e, match e with EBegin _ _ => Some () | _ => None end) h)).
Lemma begins_app a b : begins (a ++ b) = begins a + begins b.
Proof. unfold begins. rewrite omap_app, app_length. lia. Qed.
Lemma writes_app a b : writes (a ++ b) = writes a + writes b.
Proof. unfold writes. rewrite omap_app, app_length. lia. Qed.
Lemma begins_nonneg a : 0 ≤ begins a. Proof. unfold begins. lia. Qed.
Lemma writes_nonneg a : 0 ≤ writes a. Proof. unfold writes. lia. Qed.
Lemma done_by_app t a b : done_by t (a ++ b) = done_by t a ++ done_by t b.
Proof. apply omap_app. Qed.
Lemma stored_snoc h e : stored (h ++ [e]) = match e with EDone _ o => (effect o (stored h)).1 | _ => stored h end.
Proof. unfold stored. by rewrite fold_left_app. Qed.
Lemma stored_nowrites a b : writes b = 0 → stored (a ++ b) = stored a.
Proof.
  intros H. unfold stored. rewrite fold_left_app. generalize (fold_left (λ d e, match e with EDone _ o => (effect o d).1 | _ => d end) a (replicate blk 0)). 
  induction b as [|e b IH]; [done|]. intros d. cbn [fold_left]. unfold writes in H. cbn [omap list_omap] in H. destruct e; cbn in H; try lia; apply IH; exact H.
Qed.
Definition incs (h : list event) : Z := begins h + writes h.

(** ** byte by byte *)
Lemma byte_at_lookup d i : (i < length d)%nat → d !! i = Some (byte_at d i).
Proof. intros H. unfold byte_at. destruct (lookup_lt_is_Some_2 d i H) as [x ->]. done. Qed.
Lemma copy_step (d v s : bytes) i : (i < length d)%nat → length d = length v → length s = length v → d = take i v ++ drop i s → <[i := byte_at v i]> d = take (S i) v ++ drop (S i) s.
Proof.
  intros Hi E1 E2 ->. assert (i < length v)%nat as Hv by lia. rewrite (take_S_r v i (byte_at v i)) by (by apply byte_at_lookup).
  rewrite insert_app_r_alt by (rewrite take_length; lia). rewrite take_length. replace (i - i `min` length v)%nat with 0%nat by lia.
  rewrite (drop_S s (byte_at s i) i) by (apply byte_at_lookup; lia). cbn [insert list_insert]. by rewrite <- app_assoc.
Qed.
Lemma read_step (r d : bytes) i : (i < length r)%nat → length r = length d → take i r = take i d → take (S i) (<[i := byte_at d i]> r) = take (S i) d.
Proof.
  intros Hi E H. rewrite (take_S_r d i (byte_at d i)) by (apply byte_at_lookup; lia).
  rewrite (take_S_r (<[i := byte_at d i]> r) i (byte_at d i)) by (by apply list_lookup_insert). by rewrite take_insert, H by done.
Qed.

(** ** the invariant *)
Definition crit (p : pc) : bool := match p with WSeq1 | PCopy _ | URead _ _ | UFn _ | UWrite _ _ | WSeq2 _ | WUnlock _ | PRet (RWrite Panic) => true | _ => false end.
(** what the holder of the mutex knows *)
Definition hold (data : bytes) (h : list event) (o : op) (p : pc) : Prop :=
  match o, p with
  | (OPut _ | OUpdate _), WSeq1 => begins h = writes h ∧ data = stored h
  | OPut v, PCopy i => begins h = writes h + 1 ∧ (i < blk)%nat ∧ data = take i v ++ drop i (stored h)
  | OUpdate fn, URead i d => begins h = writes h + 1 ∧ (i < blk)%nat ∧ data = stored h ∧ length d = blk ∧ take i d = take i (stored h)
  | OUpdate fn, UFn d => begins h = writes h + 1 ∧ data = stored h ∧ d = stored h
  | OUpdate fn, UWrite i d => begins h = writes h + 1 ∧ (i < blk)%nat ∧ fn (stored h) = (d, Ok ()) ∧ data = take i d ++ drop i (stored h)
  | (OPut _ | OUpdate _), WSeq2 r => begins h = writes h + 1 ∧ effect o (stored h) = (data, r) ∧ r ≠ Panic
  | (OPut _ | OUpdate _), WUnlock r => begins h = writes h ∧ data = stored h
  | OUpdate _, PRet (RWrite Panic) => begins h = writes h + 1
  | _, _ => False
  end.
Definition free (c : cfg) (except : nat → Prop) : Prop := ∀ t o p, ¬ except t → c_threads c !! t = Some (Some (o, p)) → crit p = false.
Definition dead (h : list event) : Prop := ∃ t o, ERet t o (RWrite Panic) ∈ h.
Definition phase_ok (c : cfg) (h : list event) : Prop :=
  (s_mu (c_sh c) = false ∧ begins h = writes h ∧ s_data (c_sh c) = stored h ∧ free c (λ _, False) ∧ ¬ dead h) ∨
  (s_mu (c_sh c) = true ∧ ¬ dead h ∧ ∃ t o p, c_threads c !! t = Some (Some (o, p)) ∧ crit p = true ∧ hold (s_data (c_sh c)) h o p ∧ free c (λ t', t' = t)) ∨
  (s_mu (c_sh c) = true ∧ begins h = writes h + 1 ∧ dead h ∧ free c (λ _, False)).
(** what a goroutine knows about the call it is in: h1, the call, h2 *)
Definition thr (h1 h2 : list event) (t : nat) (o : op) (p : pc) : Prop :=
  match o, p with
  | OGet, GSeq1 => done_by t h2 = []
  | OGet, GCopy q i ret => done_by t h2 = [] ∧ (i < blk)%nat ∧ length ret = blk ∧ ∃ g1 g2, h2 = g1 ++ g2 ∧ let A := h1 ++ EInv t o :: g1 in
      begins A = writes A ∧ q = incs A mod 2^32 ∧ (incs g2 = 0 → take i ret = take i (stored A))
  | OGet, GSeq2 q ret => done_by t h2 = [] ∧ length ret = blk ∧ ∃ g1 g2, h2 = g1 ++ g2 ∧ let A := h1 ++ EInv t o :: g1 in
      begins A = writes A ∧ q = incs A mod 2^32 ∧ (incs g2 = 0 → ret = stored A)
  | OGet, PRet (RGet ret) => done_by t h2 = [] ∧ (writes h2 < 2^31 → ∃ g1 g2, h2 = g1 ++ g2 ∧ ret = stored (h1 ++ EInv t o :: g1))
  | (OPut _ | OUpdate _), WLock | (OPut _ | OUpdate _), WSeq1 | OPut _, PCopy _ | OUpdate _, URead _ _ | OUpdate _, UFn _ | OUpdate _, UWrite _ _ | (OPut _ | OUpdate _), WSeq2 _ => op_ok o ∧ done_by t h2 = []
  | (OPut _ | OUpdate _), WUnlock r => r ≠ Panic ∧ ∃ g1 g2, h2 = g1 ++ EDone t o :: g2 ∧ done_by t g1 = [] ∧ done_by t g2 = [] ∧ r = (effect o (stored (h1 ++ EInv t o :: g1))).2
  | (OPut _ | OUpdate _), PRet (RWrite r) =>
      if decide (r = Panic) then done_by t h2 = [] ∧ ∃ g1 g2, h2 = g1 ++ g2 ∧ (effect o (stored (h1 ++ EInv t o :: g1))).2 = Panic
      else ∃ g1 g2, h2 = g1 ++ EDone t o :: g2 ∧ done_by t g1 = [] ∧ done_by t g2 = [] ∧ r = (effect o (stored (h1 ++ EInv t o :: g1))).2
  | _, _ => False
  end.
Record inv (c : cfg) (h : list event) : Prop := {
  v_len : length (s_data (c_sh c)) = blk;
  v_slen : length (stored h) = blk;
  v_seq : s_seq (c_sh c) = incs h mod 2^32;
  v_phase : phase_ok c h;
  v_thr : ∀ t o p, c_threads c !! t = Some (Some (o, p)) → ∃ h1 h2, h = h1 ++ EInv t o :: h2 ∧ quiet t h2 ∧ thr h1 h2 t o p;
  v_ret : ∀ ha hb t o r, h = ha ++ ERet t o r :: hb → ∃ h1 h2, ha = h1 ++ EInv t o :: h2 ∧ quiet t h2 ∧ thr h1 h2 t o (PRet r) }.

Lemma thr_other h1 h2 t o p es : thr h1 h2 t o p → done_by t es = [] → thr h1 (h2 ++ es) t o p.
Proof.
  intros H E. assert (∀ h, done_by t h = [] → done_by t (h ++ es) = []) as Ha by (intros h Eh; by rewrite done_by_app, Eh).
  assert (∀ g2, incs (g2 ++ es) = 0 → incs g2 = 0) as Hi.
  { intros g2. unfold incs. rewrite begins_app, writes_app. pose proof (begins_nonneg g2). pose proof (writes_nonneg g2). pose proof (begins_nonneg es). pose proof (writes_nonneg es). lia. }
  unfold thr in *. destruct o as [|v|fn]; destruct p as [|q i ret|q ret| | |i|i d|d|i d|r|r|[ret|r]]; try done; try (destruct H; split; by auto); try (by auto).
  - destruct H as (? & ? & ? & g1 & g2 & -> & ? & ? & Hs). split; [auto|]. split; [done|]. split; [done|]. exists g1, (g2 ++ es). rewrite app_assoc. split; [done|]. split; [done|]. split; [done|]. auto.
  - destruct H as (? & ? & g1 & g2 & -> & ? & ? & Hs). split; [auto|]. split; [done|]. exists g1, (g2 ++ es). rewrite app_assoc. split; [done|]. split; [done|]. split; [done|]. auto.
  - destruct H as (? & H). split; [auto|]. rewrite writes_app. intros Hw. destruct H as (g1 & g2 & -> & ->). { pose proof (writes_nonneg es). lia. } exists g1, (g2 ++ es). by rewrite app_assoc.
  - destruct H as (? & g1 & g2 & -> & ? & ? & ?). split; [done|]. exists g1, (g2 ++ es). rewrite <- app_assoc. auto.
  - destruct (decide (r = Panic)).
    + destruct H as (? & g1 & g2 & -> & ?). split; [auto|]. exists g1, (g2 ++ es). rewrite <- app_assoc. auto.
    + destruct H as (g1 & g2 & -> & ? & ? & ?). exists g1, (g2 ++ es). rewrite <- app_assoc. auto.
  - destruct H as (? & g1 & g2 & -> & ? & ? & ?). split; [done|]. exists g1, (g2 ++ es). rewrite <- app_assoc. auto.
  - destruct (decide (r = Panic)).
    + destruct H as (? & g1 & g2 & -> & ?). split; [auto|]. exists g1, (g2 ++ es). rewrite <- app_assoc. auto.
    + destruct H as (g1 & g2 & -> & ? & ? & ?). exists g1, (g2 ++ es). rewrite <- app_assoc. auto.
Qed.

(** no writer is writing while the number of increments is even *)
Lemma clean c h : inv c h → begins h = writes h → s_data (c_sh c) = stored h.
Proof.
  intros I E. destruct (v_phase _ _ I) as [(_ & _ & ? & _)|[(_ & _ & t & o & p & L & Hc & Hh & _)|(_ & Hb & _)]]; [done| |lia].
  unfold hold in Hh. destruct o, p as [|q i ret|q ret| | |i|i d|d|i d|r|r|[ret|[]]]; try done; try (by destruct Hh); first [lia|destruct Hh; lia].
Qed.
Lemma balance c h : inv c h → begins h = writes h ∨ begins h = writes h + 1.
Proof.
  intros I. destruct (v_phase _ _ I) as [(_ & ? & _)|[(_ & _ & t & o & p & L & Hc & Hh & _)|(_ & Hb & _)]]; [auto| |auto].
  unfold hold in Hh. destruct o, p as [|q i ret|q ret| | |i|i d|d|i d|r|r|[ret|[]]]; try done; try (destruct Hh; auto); auto.
Qed.
Lemma even_balance c h : inv c h → (s_seq (c_sh c) mod 2 =? 0) = true ↔ begins h = writes h.
Proof.
  intros I. rewrite (v_seq _ _ I). assert ((incs h mod 2^32) mod 2 = incs h mod 2) as ->.
  { change (2^32) with (2 * 2^31). rewrite Z.rem_mul_r by lia. rewrite (Z.mul_comm 2), Z.mod_add by lia. apply Z.mod_mod. lia. }
  unfold incs. destruct (balance c h I) as [E|E]; rewrite E.
  - replace (writes h + writes h) with (writes h * 2) by lia. rewrite Z.mod_mul by lia. done.
  - replace (writes h + 1 + writes h) with (1 + writes h * 2) by lia. rewrite Z.mod_add by lia. split; [done|lia].
Qed.

Lemma mk_inv c h s' t q0 q es : inv c h → c_threads c !! t = Some q0 → (length es ≤ 1)%nat →
  (∀ t', t' ≠ t → done_by t' es = [] ∧ quiet t' es) →
  length (s_data s') = blk → length (stored (h ++ es)) = blk → s_seq s' = incs (h ++ es) mod 2^32 → phase_ok (MkCfg s' (<[t := q]> (c_threads c))) (h ++ es) →
  (∀ o p, q = Some (o, p) → ∃ h1 h2, h ++ es = h1 ++ EInv t o :: h2 ∧ quiet t h2 ∧ thr h1 h2 t o p) →
  (∀ t' o r, es = [ERet t' o r] → ∃ h1 h2, h = h1 ++ EInv t' o :: h2 ∧ quiet t' h2 ∧ thr h1 h2 t' o (PRet r)) →
  inv (MkCfg s' (<[t := q]> (c_threads c))) (h ++ es).
Proof.
  intros I L Hes Hoth Hlen Hsl Hseq Hph Hthr Hret. constructor; cbn [c_sh c_threads]; try done.
  - intros t' o p Lt. destruct (decide (t' = t)) as [->|Hne].
    + rewrite list_lookup_insert in Lt by (by eapply lookup_lt_Some). injection Lt as ->. by apply Hthr.
    + rewrite list_lookup_insert_ne in Lt by done. destruct (v_thr _ _ I t' o p Lt) as (h1 & h2 & E & Hq & Ht). destruct (Hoth t' Hne) as [Ha Hqq].
      exists h1, (h2 ++ es). split; [rewrite E, <- app_assoc; done|]. split; [by apply Forall_app|]. by apply thr_other.
  - intros ha hb t' o r E. apply snoc_split in E as [(hb' & E & _)|(-> & _ & E)]; [| |done].
    + destruct (v_ret _ _ I ha hb' t' o r E) as (h1 & h2 & E1 & Hq & Ht). exists h1, h2. done.
    + by apply Hret.
Qed.

(** the phase does not depend on goroutines outside the critical section *)
Lemma phase_other c h t q0 q : phase_ok c h → c_threads c !! t = Some q0 → (∀ o p, q0 = Some (o, p) → crit p = false) → (∀ o p, q = Some (o, p) → crit p = false) →
  phase_ok (MkCfg (c_sh c) (<[t := q]> (c_threads c))) h.
Proof.
  intros P L H0 H1. assert (t < length (c_threads c))%nat as Hlt by (by eapply lookup_lt_Some).
  assert (∀ X, free c X → free (MkCfg (c_sh c) (<[t := q]> (c_threads c))) X) as Hf.
  { intros X F t' o p HX. cbn [c_threads]. destruct (decide (t' = t)) as [->|Hne]; [rewrite list_lookup_insert by done; intros [= ->]; by eapply H1|rewrite list_lookup_insert_ne by done; by apply F]. }
  destruct P as [(? & ? & ? & F & ?)|[(? & Hd & t' & o & p & L' & Hc & Hh & F)|(? & ? & ? & F)]].
  - left. repeat match goal with |- _ ∧ _ => split end; try done. by apply Hf.
  - right. left. split; [done|]. split; [done|]. exists t', o, p. cbn [c_threads c_sh]. rewrite list_lookup_insert_ne. { repeat match goal with |- _ ∧ _ => split end; try done. by apply Hf. }
    intros <-. rewrite L in L'. injection L' as ->. by rewrite (H0 o p) in Hc.
  - right. right. repeat match goal with |- _ ∧ _ => split end; try done. by apply Hf.
Qed.
(** events that are not increments, nor returns of a panic *)
Definition silent (es : list event) : Prop := Forall (λ e, match e with EBegin _ _ | EDone _ _ | ERet _ _ (RWrite Panic) => False | _ => True end) es.
Lemma silent_counts es : silent es → begins es = 0 ∧ writes es = 0.
Proof. induction 1 as [|e es He _ IH]; [done|]. destruct IH. unfold begins, writes in *. destruct e; cbn in *; done. Qed.
Lemma phase_silent c h es : phase_ok c h → silent es → phase_ok c (h ++ es).
Proof.
  intros P S. destruct (silent_counts es S) as [B W]. assert (dead (h ++ es) ↔ dead h) as D.
  { split; intros (t & o & H); exists t, o; [|apply elem_of_app; by left]. apply elem_of_app in H as [H|H]; [done|]. unfold silent in S. rewrite Forall_forall in S. by apply S in H. }
  unfold phase_ok. rewrite D, begins_app, writes_app, B, W, !Z.add_0_r, stored_nowrites by done.
  destruct P as [?|[(? & ? & t & o & p & ? & ? & Hh & ?)|?]]; [by left|right; left|by right; right]. split; [done|]. split; [done|]. exists t, o, p. split; [done|]. split; [done|]. split; [|done].
  unfold hold in *. destruct o, p as [|q i ret|q ret| | |i|i d|d|i d|r|r|[ret|[]]]; try done; rewrite begins_app, writes_app, ?stored_nowrites, B, W, !Z.add_0_r by done; done.
Qed.

Lemma calm_inv c h t q0 q es : inv c h → c_threads c !! t = Some q0 → (∀ o p, q0 = Some (o, p) → crit p = false) → (∀ o p, q = Some (o, p) → crit p = false) →
  (length es ≤ 1)%nat → silent es → (∀ t', t' ≠ t → quiet t' es) →
  (∀ o p, q = Some (o, p) → ∃ h1 h2, h ++ es = h1 ++ EInv t o :: h2 ∧ quiet t h2 ∧ thr h1 h2 t o p) →
  (∀ t' o r, es = [ERet t' o r] → ∃ h1 h2, h = h1 ++ EInv t' o :: h2 ∧ quiet t' h2 ∧ thr h1 h2 t' o (PRet r)) →
  inv (MkCfg (c_sh c) (<[t := q]> (c_threads c))) (h ++ es).
Proof.
  intros I L H0 H1 Hl Hs Hq Ht Hr. destruct (silent_counts es Hs) as [B W]. eapply mk_inv; try done; try apply I.
  - intros t' Hne. split; [|by apply Hq]. clear -Hs. induction Hs as [|e es He _ IH]; [done|]. by destruct e.
  - rewrite stored_nowrites by done. apply I.
  - unfold incs. rewrite begins_app, writes_app, B, W, !Z.add_0_r. apply I.
  - apply phase_silent; [|done]. eapply phase_other; try done. apply I.
Qed.
Lemma pure_inv c h t o p p' : inv c h → c_threads c !! t = Some (Some (o, p)) → crit p = false → crit p' = false →
  (∀ h1 h2, h = h1 ++ EInv t o :: h2 → quiet t h2 → thr h1 h2 t o p → thr h1 h2 t o p') →
  inv (MkCfg (c_sh c) (<[t := Some (o, p')]> (c_threads c))) h.
Proof.
  intros I L H0 H1 H. rewrite <- (app_nil_r h). eapply calm_inv; try done.
  - intros ? ? [= <- <-]. done.
  - intros ? ? [= <- <-]. done.
  - cbn. lia.
  - by constructor.
  - intros. constructor.
  - intros o2 p2 [= <- <-]. rewrite app_nil_r. destruct (v_thr _ _ I t o p L) as (h1 & h2 & E & Hq & Ht). exists h1, h2. split; [done|]. split; [done|]. by apply H.
Qed.
Lemma holder c h t o p : inv c h → c_threads c !! t = Some (Some (o, p)) → crit p = true → s_mu (c_sh c) = true ∧ ¬ dead h ∧ hold (s_data (c_sh c)) h o p ∧ free c (λ t', t' = t).
Proof.
  intros I L Hc. destruct (v_phase _ _ I) as [(_ & _ & _ & F & _)|[(? & Hd & t' & o' & p' & L' & Hc' & Hh & F)|(_ & _ & _ & F)]].
  - pose proof (F t o p (λ x, x) L). congruence.
  - destruct (decide (t = t')) as [<-|Hne]; [|pose proof (F t o p Hne L); congruence]. rewrite L in L'. injection L' as <- <-. done.
  - pose proof (F t o p (λ x, x) L). congruence.
Qed.
Lemma free_set c s t q X : free c (λ t', t' = t) → (∀ o p, q = Some (o, p) → ¬ X t → crit p = false) → (t < length (c_threads c))%nat → free (MkCfg s (<[t := q]> (c_threads c))) X.
Proof.
  intros F H Hl t' o p HX. cbn [c_threads]. destruct (decide (t' = t)) as [->|Hne]; [rewrite list_lookup_insert by done; intros [= ->]; eauto|rewrite list_lookup_insert_ne by done; by apply F].
Qed.
Lemma dead_snoc h es : (∀ t o r, ERet t o r ∉ es) → dead (h ++ es) → dead h.
Proof. intros H (t & o & Hin). exists t, o. apply elem_of_app in Hin as [?|Hin]; [done|]. by destruct (H _ _ _ Hin). Qed.
Lemma holder_inv c h t o p s' p' es : inv c h → c_threads c !! t = Some (Some (o, p)) → crit p = true → crit p' = true → s_mu s' = true →
  es = [] ∨ es = [EBegin t o] ∨ es = [EDone t o] → length (s_data s') = blk → length (stored (h ++ es)) = blk → s_seq s' = incs (h ++ es) mod 2^32 → hold (s_data s') (h ++ es) o p' →
  (∀ h1 h2, h = h1 ++ EInv t o :: h2 → quiet t h2 → thr h1 h2 t o p → thr h1 (h2 ++ es) t o p') →
  inv (MkCfg s' (<[t := Some (o, p')]> (c_threads c))) (h ++ es).
Proof.
  intros I L Hc Hc' Hmu Hes Hl Hsl Hseq Hh Ht. destruct (holder c h t o p I L Hc) as (_ & Hd & _ & F). assert (t < length (c_threads c))%nat as Hlt by (by eapply lookup_lt_Some).
  assert (∀ t' o r, ERet t' o r ∉ es) as Hnr. { destruct Hes as [->|[->| ->]]; intros ? ? ? Hin; rewrite ?elem_of_list_singleton in Hin; try done; by apply elem_of_nil in Hin. }
  eapply mk_inv; try done.
  - destruct Hes as [->|[->| ->]]; cbn; lia.
  - intros t' Hne. destruct Hes as [->|[->| ->]]; (split; [cbn; rewrite ?decide_False by done; done|]); repeat constructor.
  - right. left. split; [done|]. split; [intros D; by apply dead_snoc in D|]. exists t, o, p'. cbn [c_threads c_sh]. rewrite list_lookup_insert by done. split; [done|]. split; [done|]. split; [done|].
    apply free_set; try done.
  - intros o2 p2 [= <- <-]. destruct (v_thr _ _ I t o p L) as (h1 & h2 & E & Hq & Hth). exists h1, (h2 ++ es). split; [rewrite E, <- app_assoc; done|]. split; [|by apply Ht].
    apply Forall_app. split; [done|]. destruct Hes as [->|[->| ->]]; repeat constructor.
  - intros t' o' r ->. destruct (Hnr t' o' r). left.
Qed.
Lemma seq_step x : u32 (x mod 2^32 + 1) = (x + 1) mod 2^32.
Proof. unfold u32. by rewrite Z.add_mod_idemp_l by lia. Qed.
Lemma effect_len o d : op_ok o → length d = blk → length (effect o d).1 = blk.
Proof. destruct o as [|v|fn]; cbn; try done. intros H Hd. specialize (H d Hd). by destruct (fn d) as [d' []]. Qed.

Lemma step_inv c h a c' es : inv c h → action_ok a → step c a = (c', es) → inv c' (h ++ es).
Proof.
  intros I Ha. destruct a as [t o|t]; cbn [step].
  - destruct (c_threads c !! t) as [[q|]|] eqn:L; [by intros [= <- <-]; rewrite app_nil_r| |by intros [= <- <-]; rewrite app_nil_r]. intros [= <- <-].
    eapply calm_inv; try done.
    + intros o2 p2 [= <- <-]. by destruct o.
    + by repeat constructor.
    + intros t' Hne. repeat constructor. congruence.
    + intros o2 p2 [= <- <-]. exists h, []. split; [done|]. split; [constructor|]. destruct o; cbn; done.
  - destruct (c_threads c !! t) as [[[o p]|]|] eqn:L; [|by intros [= <- <-]; rewrite app_nil_r..].
    destruct (v_thr _ _ I t o p L) as (h1 & h2 & Eh & Hq & Ht). assert (t < length (c_threads c))%nat as Hlt by (by eapply lookup_lt_Some).
    assert (∀ r, p = PRet r → crit p = false → inv (MkCfg (c_sh c) (<[t:=None]> (c_threads c))) (h ++ [ERet t o r])) as Hret.
    { intros r -> Hc. eapply calm_inv; try done.
      - intros ? ? [= <- <-]. done.
      - repeat constructor. destruct r as [|[]]; done.
      - intros t' Hne. repeat constructor. congruence.
      - intros t' o' r' [= <- <- <-]. eauto. }
    assert (op_ok o → length (effect o (stored h)).1 = blk) as Hel by (intros; apply effect_len; [done|apply I]).
    pose proof (v_len _ _ I) as Hlen. pose proof (v_slen _ _ I) as Hslen. pose proof (v_seq _ _ I) as Hseq. pose proof blk_pos as Hblk.
    destruct o as [|v|fn]; destruct p as [|q i ret|q ret| | |i|i d|d|i d|r|r|r]; try (by destruct Ht); cbn [step_call].
    + (* GSeq1 *) intros [= <- <-]. rewrite app_nil_r. eapply pure_inv; [exact I|exact L|done|by destruct (_ =? 0)|]. intros g1 g2 Eg _ Hd. cbn in Hd.
      destruct (s_seq (c_sh c) mod 2 =? 0) eqn:Ev; [|done]. apply (even_balance c h I) in Ev. split; [done|]. split; [done|]. split; [by rewrite replicate_length|].
      exists g2, []. rewrite app_nil_r. split; [done|]. cbv zeta. rewrite <- Eg. split; [done|]. split; done.
    + (* GCopy *) intros [= <- <-]. rewrite app_nil_r. eapply pure_inv; [exact I|exact L|done|by destruct (_ <? _)%nat|]. intros g1 g2 Eg _ (Hd & Hi & Hrl & a1 & a2 & -> & Hb & Hqq & Hcp). cbv zeta in *.
      assert (incs a2 = 0 → take (S i) (<[i:=byte_at (s_data (c_sh c)) i]> ret) = take (S i) (stored (g1 ++ EInv t OGet :: a1))) as Hcp'.
      { intros H0. pose proof (begins_nonneg a2). pose proof (writes_nonneg a2). unfold incs in H0.
        assert (h = (g1 ++ EInv t OGet :: a1) ++ a2) as Eh' by (rewrite Eg, <- app_assoc; done).
        assert (begins h = writes h) as Hbh by (rewrite Eh', begins_app, writes_app; lia).
        rewrite (clean c h I Hbh). rewrite Eh', stored_nowrites by lia. apply read_step; [lia| |by apply Hcp; unfold incs].
        rewrite <- (stored_nowrites _ a2) by lia. rewrite <- Eh'. lia. }
      destruct (Nat.ltb_spec (S i) blk).
      * split; [done|]. split; [done|]. split; [by rewrite insert_length|]. exists a1, a2. done.
      * split; [done|]. split; [by rewrite insert_length|]. exists a1, a2. split; [done|]. cbv zeta. split; [done|]. split; [done|]. intros H0. specialize (Hcp' H0).
        rewrite !take_ge in Hcp'; try done; [|by rewrite insert_length; lia].
        assert (length (stored (g1 ++ EInv t OGet :: a1)) = blk); [|lia]. unfold incs in H0. pose proof (begins_nonneg a2). pose proof (writes_nonneg a2). rewrite <- (stored_nowrites _ a2) by lia. rewrite <- app_assoc. cbn. by rewrite <- Eg.
    + (* GSeq2 *) intros [= <- <-]. rewrite app_nil_r. eapply pure_inv; [exact I|exact L|done|by destruct (_ =? _)|]. intros g1 g2 Eg _ (Hd & Hrl & a1 & a2 & -> & Hb & Hqq & Hcp). cbv zeta in *.
      destruct (Z.eqb_spec q (s_seq (c_sh c))) as [E|E]; [|done]. split; [done|]. intros Hw. exists a1, a2. split; [done|]. apply Hcp.
      set (A := g1 ++ EInv t OGet :: a1) in *. assert (h = A ++ a2) as Eh' by (unfold A; rewrite Eg, <- app_assoc; done).
      rewrite writes_app in Hw. pose proof (writes_nonneg a1). pose proof (writes_nonneg a2). pose proof (begins_nonneg a2).
      assert (begins h = writes h) as Hbh.
      { apply (even_balance c h I). rewrite <- E, Hqq. unfold incs. rewrite Hb. replace (writes A + writes A) with (2 * writes A) by lia. change (2^32) with (2 * 2^31). rewrite Z.mul_mod_distr_l by lia. rewrite Z.mul_comm, Z.mod_mul by lia. done. }
      rewrite Hqq, Hseq, Eh' in E. unfold incs in *. rewrite Eh', !begins_app, !writes_app in Hbh. rewrite begins_app, writes_app in E.
      replace (begins A + begins a2 + (writes A + writes a2)) with (begins A + writes A + 2 * writes a2) in E by lia.
      assert ((2 * writes a2) mod 2^32 = 0) as Hm.
      { replace (2 * writes a2) with ((begins A + writes A + 2 * writes a2) - (begins A + writes A)) by lia. rewrite Zminus_mod, <- E, Z.sub_diag. done. }
      rewrite Z.mod_small in Hm by lia. lia.
    + (* GRet *) intros [= <- <-]. apply Hret; [done|]. destruct r as [|[]]; done.
    + (* Put WLock *) destruct (s_mu (c_sh c)) eqn:Hmu; intros [= <- <-]; rewrite app_nil_r.
      { eapply pure_inv; done. }
      rewrite <- (app_nil_r h). eapply mk_inv; try done; rewrite ?app_nil_r; try done.
      * cbn; lia.
      * intros. repeat constructor.
      * destruct (v_phase _ _ I) as [(_ & Hb & Hd & F & Hnd)|[(? & _)|(? & _)]]; [|congruence..]. right. left. split; [done|]. split; [done|]. exists t, (OPut v), WSeq1. cbn [c_threads c_sh s_data]. rewrite list_lookup_insert by done. repeat match goal with |- _ ∧ _ => split end; try done.
        apply free_set; try done. intros t' o' p' _. exact (F t' o' p' (λ x, x)).
      * intros o2 p2 [= <- <-]. eauto.
    + (* Put WSeq1 *) destruct (holder c h t _ _ I L eq_refl) as (Hmu & _ & (Hb & Hdd) & _). intros [= <- <-].
      eapply holder_inv; try done; auto; cbn [s_data s_seq].
      * by rewrite stored_snoc.
      * rewrite Hseq, seq_step. unfold incs. rewrite begins_app, writes_app. change (begins [EBegin t (OPut v)]) with 1. change (writes [EBegin t (OPut v)]) with 0. f_equal. lia.
      * cbn. rewrite begins_app, writes_app. change (begins [EBegin t (OPut v)]) with 1. change (writes [EBegin t (OPut v)]) with 0. split; [lia|]. split; [done|]. rewrite stored_snoc. by rewrite Hdd.
      * intros g1 g2 _ _ (Hok & Hd). split; [done|]. by rewrite done_by_app, Hd.
    + (* PCopy *) destruct (holder c h t _ _ I L eq_refl) as (Hmu & _ & (Hb & Hi & Hdd) & _). destruct Ht as [Hok _]. cbn in Hok. intros [= <- <-].
      assert (<[i:=byte_at v i]> (s_data (c_sh c)) = take (S i) v ++ drop (S i) (stored h)) as Hcp by (apply copy_step; lia || done).
      eapply holder_inv; try done; auto; cbn [s_data s_seq]; rewrite ?app_nil_r; try done.
      * by destruct (_ <? _)%nat.
      * by rewrite insert_length.
      * destruct (Nat.ltb_spec (S i) blk) as [Hlt'|Hge]; cbn; [done|]. split; [done|]. split; [|done]. rewrite Hcp, take_ge, drop_ge, app_nil_r by lia. done.
      * intros g1 g2 _ _ (Hok' & Hd). rewrite app_nil_r. destruct (_ <? _)%nat; done.
    + (* WSeq2 *) destruct (holder c h t _ _ I L eq_refl) as (Hmu & _ & (Hb & He & Hnp) & _). intros [= <- <-].
      eapply holder_inv; try done; auto; cbn [s_data s_seq].
      * rewrite stored_snoc. apply Hel. apply Ht.
      * rewrite Hseq, seq_step. unfold incs. rewrite begins_app, writes_app. change (begins [EDone t (OPut v)]) with 0. change (writes [EDone t (OPut v)]) with 1. f_equal. lia.
      * cbn. rewrite begins_app, writes_app. change (begins [EDone t (OPut v)]) with 0. change (writes [EDone t (OPut v)]) with 1. split; [lia|]. rewrite stored_snoc. by rewrite He.
      * intros g1 g2 Eg _ (Hok & Hd). split; [done|]. exists g2, []. split; [done|]. split; [done|]. split; [done|]. rewrite <- Eg. by rewrite He.
    + (* WUnlock *) destruct (holder c h t _ _ I L eq_refl) as (Hmu & Hnd & (Hb & Hdd) & F). intros [= <- <-].
      eapply mk_inv; try done; rewrite ?app_nil_r; try done.
      * cbn; lia.
      * intros. repeat constructor.
      * left. cbn [c_sh s_mu s_data]. split; [done|]. split; [done|]. split; [done|]. split; [|done]. apply free_set; try done. intros o2 p2 [= <- <-] _. cbn. destruct r; try done. by destruct Ht.
      * intros o2 p2 [= <- <-]. exists h1, h2. split; [done|]. split; [done|]. destruct Ht as [Hnp Ht]. cbn. rewrite decide_False by done. done.
    + (* PRet *) destruct (crit (PRet r)) eqn:Hc; [|intros [= <- <-]; by apply Hret]. exfalso. by destruct (holder c h t _ _ I L Hc) as (_ & _ & ? & _).
    + (* Update WLock *) destruct (s_mu (c_sh c)) eqn:Hmu; intros [= <- <-]; rewrite app_nil_r.
      { eapply pure_inv; done. }
      rewrite <- (app_nil_r h). eapply mk_inv; try done; rewrite ?app_nil_r; try done.
      * cbn; lia.
      * intros. repeat constructor.
      * destruct (v_phase _ _ I) as [(_ & Hb & Hd & F & Hnd)|[(? & _)|(? & _)]]; [|congruence..]. right. left. split; [done|]. split; [done|]. exists t, (OUpdate fn), WSeq1. cbn [c_threads c_sh s_data]. rewrite list_lookup_insert by done. repeat match goal with |- _ ∧ _ => split end; try done.
        apply free_set; try done. intros t' o' p' _. exact (F t' o' p' (λ x, x)).
      * intros o2 p2 [= <- <-]. eauto.
    + (* Update WSeq1 *) destruct (holder c h t _ _ I L eq_refl) as (Hmu & _ & (Hb & Hdd) & _). intros [= <- <-].
      eapply holder_inv; try done; auto; cbn [s_data s_seq].
      * by rewrite stored_snoc.
      * rewrite Hseq, seq_step. unfold incs. rewrite begins_app, writes_app. change (begins [EBegin t (OUpdate fn)]) with 1. change (writes [EBegin t (OUpdate fn)]) with 0. f_equal. lia.
      * cbn [hold]. rewrite begins_app, writes_app. change (begins [EBegin t (OUpdate fn)]) with 1. change (writes [EBegin t (OUpdate fn)]) with 0. split; [lia|]. split; [done|]. rewrite stored_snoc. split; [done|]. split; [|done]. by rewrite replicate_length.
      * intros g1 g2 _ _ (Hok & Hd). split; [done|]. by rewrite done_by_app, Hd.
    + (* URead *) destruct (holder c h t _ _ I L eq_refl) as (Hmu & _ & (Hb & Hi & Hdd & Hdl & Htk) & _). intros [= <- <-].
      assert (take (S i) (<[i:=byte_at (s_data (c_sh c)) i]> d) = take (S i) (stored h)) as Hcp by (rewrite Hdd; apply read_step; lia || done).
      eapply holder_inv; try done; auto; cbn [s_data s_seq]; rewrite ?app_nil_r; try done.
      * by destruct (_ <? _)%nat.
      * destruct (Nat.ltb_spec (S i) blk) as [Hlt'|Hge]; cbn; rewrite ?insert_length; [done|]. split; [done|]. split; [done|]. rewrite !take_ge in Hcp; rewrite ?insert_length; try lia. done.
      * intros g1 g2 _ _ (Hok' & Hd). rewrite app_nil_r. destruct (_ <? _)%nat; done.
    + (* UFn *) destruct (holder c h t _ _ I L eq_refl) as (Hmu & Hnd & (Hb & Hdd & ->) & F). destruct Ht as [Hok Hdn]. destruct (fn (stored h)) as [d' [[]|e|]] eqn:Ef; intros [= <- <-].
      * eapply holder_inv; try done; auto; cbn [s_data s_seq]; rewrite ?app_nil_r; try done.
        intros g1 g2 _ _ (Hok' & Hd). by rewrite app_nil_r.
      * eapply holder_inv; try done; auto; cbn [s_data s_seq]; rewrite ?app_nil_r; try done.
        -- cbn [hold effect]. rewrite Ef. rewrite Hdd. done.
        -- intros g1 g2 _ _ (Hok' & Hd). by rewrite app_nil_r.
      * eapply holder_inv; try done; auto; cbn [s_data s_seq]; rewrite ?app_nil_r; try done.
        intros g1 g2 Eg _ (Hok' & Hd). rewrite app_nil_r. cbn [thr]. rewrite decide_True by done. split; [done|]. exists g2, []. rewrite app_nil_r. split; [done|]. rewrite <- Eg. cbn [effect]. by rewrite Ef.
    + (* UWrite *) destruct (holder c h t _ _ I L eq_refl) as (Hmu & _ & (Hb & Hi & Ef & Hdd) & _). destruct Ht as [Hok _]. cbn in Hok. intros [= <- <-].
      assert (length d = blk) as Hdl by (specialize (Hok (stored h) Hslen); by rewrite Ef in Hok).
      assert (<[i:=byte_at d i]> (s_data (c_sh c)) = take (S i) d ++ drop (S i) (stored h)) as Hcp by (apply copy_step; lia || done).
      eapply holder_inv; try done; auto; cbn [s_data s_seq]; rewrite ?app_nil_r; try done.
      * by destruct (_ <? _)%nat.
      * by rewrite insert_length.
      * destruct (Nat.ltb_spec (S i) blk) as [Hlt'|Hge]; cbn; [done|]. split; [done|]. split; [|done]. rewrite Ef. rewrite Hcp, take_ge, drop_ge, app_nil_r by lia. done.
      * intros g1 g2 _ _ (Hok' & Hd). rewrite app_nil_r. destruct (_ <? _)%nat; done.
    + (* WSeq2 *) destruct (holder c h t _ _ I L eq_refl) as (Hmu & _ & (Hb & He & Hnp) & _). intros [= <- <-].
      eapply holder_inv; try done; auto; cbn [s_data s_seq].
      * rewrite stored_snoc. apply Hel. apply Ht.
      * rewrite Hseq, seq_step. unfold incs. rewrite begins_app, writes_app. change (begins [EDone t (OUpdate fn)]) with 0. change (writes [EDone t (OUpdate fn)]) with 1. f_equal. lia.
      * cbn [hold]. rewrite begins_app, writes_app. change (begins [EDone t (OUpdate fn)]) with 0. change (writes [EDone t (OUpdate fn)]) with 1. split; [lia|]. rewrite stored_snoc. by rewrite He.
      * intros g1 g2 Eg _ (Hok & Hd). split; [done|]. exists g2, []. split; [done|]. split; [done|]. split; [done|]. rewrite <- Eg. by rewrite He.
    + (* WUnlock *) destruct (holder c h t _ _ I L eq_refl) as (Hmu & Hnd & (Hb & Hdd) & F). intros [= <- <-].
      eapply mk_inv; try done; rewrite ?app_nil_r; try done.
      * cbn; lia.
      * intros. repeat constructor.
      * left. cbn [c_sh s_mu s_data]. split; [done|]. split; [done|]. split; [done|]. split; [|done]. apply free_set; try done. intros o2 p2 [= <- <-] _. cbn. destruct r; try done. by destruct Ht.
      * intros o2 p2 [= <- <-]. exists h1, h2. split; [done|]. split; [done|]. destruct Ht as [Hnp Ht]. cbn [thr]. rewrite decide_False by done. done.
    + (* PRet *) destruct (crit (PRet r)) eqn:Hc; [|intros [= <- <-]; by apply Hret]. destruct (holder c h t _ _ I L Hc) as (Hmu & Hnd & Hh & F).
      destruct r as [|[]]; try done. intros [= <- <-]. eapply mk_inv; try done.
      * intros t' Hne. repeat constructor. congruence.
      * by rewrite stored_snoc.
      * unfold incs. rewrite begins_app, writes_app, !Z.add_0_r. done.
      * right. right. split; [done|]. split; [rewrite begins_app, writes_app, !Z.add_0_r; done|]. split; [exists t, (OUpdate fn); apply elem_of_app; right; left|]. apply free_set; done.
      * intros t' o' r' [= <- <- <-]. eauto.
Qed.

Lemma init_inv n : inv (MkCfg New (replicate n None)) [].
Proof.
  constructor; cbn; try (by rewrite replicate_length); try done.
  - left. split; [done|]. split; [done|]. split; [done|]. split; [|by intros (? & ? & ?%elem_of_nil)]. intros t o p _ L. cbn in L. by apply lookup_replicate in L as [? _].
  - intros t o p L. by apply lookup_replicate in L as [? _].
  - intros ha hb t o r E. by destruct ha.
Qed.
Lemma exec_app c a b : exec c (a ++ b) = (let '(c1, e1) := exec c a in let '(c2, e2) := exec c1 b in (c2, e1 ++ e2)).
Proof.
  revert c. induction a as [|x a IH]; intros c; cbn [app exec]; [by destruct (exec c b)|].
  destruct (step c x) as [c1 e1]. rewrite IH. destruct (exec c1 a) as [c2 e2]. destruct (exec c2 b) as [c3 e3]. by rewrite app_assoc.
Qed.
Lemma exec_inv c h acts c' es : inv c h → Forall action_ok acts → exec c acts = (c', es) → inv c' (h ++ es).
Proof.
  intros I HF. revert c h es I. induction HF as [|a acts Ha HF IH]; intros c h es I; cbn [exec]; [by intros [= <- <-]; rewrite app_nil_r|].
  destruct (step c a) as [c1 e1] eqn:E1. destruct (exec c1 acts) as [c2 e2] eqn:E2. intros [= <- <-]. rewrite app_assoc. eapply IH; [|done]. by eapply step_inv.
Qed.
Lemma execution_inv n acts c h : Forall action_ok acts → execution n acts c h → inv c h.
Proof. intros HF E. change h with ([] ++ h). eapply exec_inv; [by apply init_inv|done|done]. Qed.
