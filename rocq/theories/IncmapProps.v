(** Properties C41 (incmap), C44, C45, C46, C71: counters shared by any number of
    goroutines, in every interleaving of their atomic operations. *)
From Coq Require Import ZifyBool ZifyNat.
From Verif Require Import Base BaseProofs Probe IncmapModel IncmapSpec IncmapProofs IncmapTop.
Local Open Scope Z_scope.

(** ** C41 (incmap): a key is in at most one slot, one of the 11 it may occupy *)
Theorem C41_incmap_one_slot l n acts c h x y k : size_ok l → Forall action_ok acts → execution l n acts c h → k ≠ 0 →
  0 ≤ x < l → 0 ≤ y < l → key_at (c_map c) x = k → key_at (c_map c) y = k → x = y ∧ x ∈ probe_slots l k.
Proof.
  intros Hl HF Ex H0 Hx Hy E1 E2. pose proof (execution_inv l n acts c h Hl HF Ex) as I. split.
  - apply (placed_unique l (key_at (c_map c)) x y (v_place _ _ _ I)); congruence.
  - destruct (placed_found l _ x k (v_place _ _ _ I) Hx E1 H0) as (i & Hi & -> & _). unfold probe_slots, probe. apply elem_of_list_fmap. exists i. split; [done|]. apply elem_of_seq. lia.
Qed.
Print Assumptions C41_incmap_one_slot.

(** ** C44: after everything that was called has returned, Get(k) answers the sum of
    the amounts of the Inc(k, _) that returned true, modulo 2^64; whatever other
    calls than Inc(k, _) run at the same time. *)
Theorem C44_no_increment_lost l n acts c h acts' c' h' t k r : size_ok l → Forall action_ok acts → Forall action_ok acts' → execution l n acts c h → quiescent c →
  Forall (λ a, match a with ACall _ (Inc k' _) => k' ≠ k | _ => True end) acts' → exec c acts' = (c', h') → k ≠ 0 → ERet t (Get k) r ∈ h' →
  r = RGet (zsum (succeeded k h) mod 2^64) (bool_decide (succeeded k h ≠ [])).
Proof. exact (quiescent_get l n acts c h acts' c' h' t k r). Qed.
Print Assumptions C44_no_increment_lost.
(** Without waiting: a Get answers the sum of what had been added at one moment
    during the call; if it answers not found then nothing had been added, and
    nobody had found the key, before the call. *)
Theorem C44_get_any_time l n acts c h ha hb t k r : size_ok l → Forall action_ok acts → execution l n acts c h → k ≠ 0 → h = ha ++ ERet t (Get k) r :: hb →
  ∃ h1 h2, ha = h1 ++ EInv t (Get k) :: h2 ∧ quiet t h2 ∧
    ((∃ g1 g2, h2 = g1 ++ g2 ∧ r = RGet (zsum (added k (h1 ++ EInv t (Get k) :: g1)) mod 2^64) true) ∨
     (r = RGet 0 false ∧ added k h1 = [] ∧ ∀ t' v, ERet t' (Get k) (RGet v true) ∉ h1)).
Proof.
  intros Hl HF Ex H0 Eh. pose proof (execution_inv l n acts c h Hl HF Ex) as I. destruct (v_ret _ _ _ I ha hb t (Get k) r Eh) as (h1 & h2 & E1 & Hq & Ht).
  exists h1, h2. split; [done|]. split; [done|]. destruct r as [|v []|]; cbn in Ht; try done.
  - destruct Ht as (_ & Ht). destruct (Ht H0) as (_ & g1 & g2 & -> & ->). left. eauto.
  - destruct Ht as (_ & -> & Ht). right. split; [done|]. specialize (Ht H0). split.
    + destruct (added k h1) eqn:E; [done|]. destruct Ht. left. by rewrite E.
    + intros t' v Hin. apply Ht. right. eauto.
Qed.
Print Assumptions C44_get_any_time.
(** A successful Inc adds its amount exactly once, between its call and its
    return; a refused one adds nothing; all additions belong to calls of Inc. *)
Theorem C44_moment l n acts c h ha hb t k d r : size_ok l → Forall action_ok acts → execution l n acts c h → h = ha ++ ERet t (Inc k d) r :: hb →
  ∃ h1 h2, ha = h1 ++ EInv t (Inc k d) :: h2 ∧ quiet t h2 ∧ ((r = RInc true ∧ k ≠ 0 ∧ adds_by t h2 = [(k, d)]) ∨ (r = RInc false ∧ adds_by t h2 = [])).
Proof.
  intros Hl HF Ex Eh. pose proof (execution_inv l n acts c h Hl HF Ex) as I. destruct (v_ret _ _ _ I ha hb t _ r Eh) as (h1 & h2 & E1 & Hq & Ht).
  exists h1, h2. split; [done|]. split; [done|]. destruct r as [[]|v []|]; cbn in Ht; try done; [left|right]; tauto.
Qed.
Print Assumptions C44_moment.
Theorem C44_adds_inside l n acts c h ha hb t k d : size_ok l → Forall action_ok acts → execution l n acts c h → h = ha ++ EAdd t k d :: hb →
  ∃ h1 h2, ha = h1 ++ EInv t (Inc k d) :: h2 ∧ quiet t h2.
Proof. intros Hl HF Ex Eh. by eapply (execution_adds l n acts c h). Qed.
Print Assumptions C44_adds_inside.

(** ** C45: an Inc of a valid key that is refused has found the 11 slots of the key
    taken by others; then no Inc of that key ever succeeds, before or after, and
    no Get ever finds it. *)
Theorem C45_refused l n acts c h t k d : size_ok l → Forall action_ok acts → execution l n acts c h → k ≠ 0 → ERet t (Inc k d) (RInc false) ∈ h →
  (∀ x, x ∈ probe_slots l k → key_at (c_map c) x ≠ 0 ∧ key_at (c_map c) x ≠ k) ∧ added k h = [] ∧
  (∀ t' d' r, ERet t' (Inc k d') r ∈ h → r = RInc false) ∧ (∀ t' r, ERet t' (Get k) r ∈ h → r = RGet 0 false).
Proof.
  intros Hl HF Ex H0 Hin. pose proof (execution_inv l n acts c h Hl HF Ex) as I. apply elem_of_list_split in Hin as (ha & hb & Eh).
  destruct (v_ret _ _ _ I ha hb t _ _ Eh) as (h1 & h2 & E1 & Hq & Ht). destruct Ht as [_ Ht]. specialize (Ht H0).
  assert (∀ x, 0 ≤ x < l → key_at (c_map c) x ≠ k) as Hno. { intros x Hx. apply (passed_not_placed l (key_at (c_map c)) x k 11); [apply I|lia|done..]. }
  split; [|split; [|split]].
  - intros x Hx. unfold probe_slots in Hx. apply elem_of_list_fmap in Hx as (i & -> & Hi). apply elem_of_seq in Hi. apply (Ht i). lia.
  - destruct (added k h) eqn:E; [done|]. destruct (v_seen _ _ _ I k H0) as (x & Hx & Exk); [left; by rewrite E|]. by destruct (Hno x Hx).
  - intros t' d' r Hr. apply elem_of_list_split in Hr as (ga & gb & Eg). destruct (v_ret _ _ _ I ga gb t' _ _ Eg) as (g1 & g2 & _ & _ & Hr).
    destruct r as [[]|v []|]; cbn in Hr; try done. destruct Hr as (_ & _ & x & Hx & Exk). by destruct (Hno x Hx).
  - intros t' r Hr. apply elem_of_list_split in Hr as (ga & gb & Eg). destruct (v_ret _ _ _ I ga gb t' _ _ Eg) as (g1 & g2 & _ & _ & Hr).
    destruct r as [|v []|]; cbn in Hr; try done.
    + destruct Hr as (_ & Hr). destruct (Hr H0) as [(x & Hx & Exk) _]. by destruct (Hno x Hx).
    + by destruct Hr as (_ & -> & _).
Qed.
Print Assumptions C45_refused.
(** once the key is in one of its slots no call of Inc for it is ever refused, not
    even those under way *)
Theorem C45_accepted l n acts c h acts' c' h' t k d r x : size_ok l → Forall action_ok acts → Forall action_ok acts' → execution l n acts c h → exec c acts' = (c', h') → k ≠ 0 →
  x ∈ probe_slots l k → key_at (c_map c) x = k → ERet t (Inc k d) r ∈ h ++ h' → r = RInc true.
Proof.
  intros Hl HF HF' Ex E H0 Hx Ek Hin. assert (execution l n (acts ++ acts') c' (h ++ h')) as Ex'. { destruct Ex as (m & Em & Ex). exists m. split; [done|]. rewrite exec_app, Ex, E. done. }
  assert (Forall action_ok (acts ++ acts')) as HFF by (by apply Forall_app).
  pose proof (execution_inv _ _ _ _ _ Hl HF Ex) as I. pose proof (execution_inv _ _ _ _ _ Hl HFF Ex') as I'.
  assert (0 ≤ x < l) as Hxr. { unfold probe_slots in Hx. apply elem_of_list_fmap in Hx as (i & -> & _). apply Z.mod_pos_bound. destruct Hl. lia. }
  assert (key_at (c_map c') x = k) as Ek'.
  { clear -I HF' E Ek H0. revert c h h' I E Ek. induction HF' as [|a acts' Ha HF' IH]; intros c h h' I; cbn [exec]; [by intros [= <- <-]|].
    destruct (step c a) as [c1 e1] eqn:E1. destruct (exec c1 acts') as [c2 e2] eqn:E2. intros [= <- <-] Ek. apply (IH c1 (h ++ e1) e2); [by eapply step_inv|done|].
    apply step_shape in E1 as [[-> ->]|[(t' & o & -> & L & -> & ->)|[(t' & o & r & -> & L & -> & ->)|(t' & o & p & m & p' & -> & L & _ & Es & -> & Hes)]]]; [done..|]. cbn [c_map].
    destruct o as [k' d'|k']; destruct p as [i|i y|i y|y|i|y|r]; cbn [step_call] in Es; repeat match type of Es with context [match ?q with _ => _ end] => destruct q eqn:? end; try (injection Es as <- _ _; exact Ek).
    injection Es as <- _ _. unfold key_at in *. cbn [m_keys]. destruct (decide (Z.to_nat y = Z.to_nat x)) as [Eyx|Hne]; [|by rewrite list_lookup_insert_ne].
    unfold index in *. rewrite Eyx in *. destruct (m_keys (c_map c) !! Z.to_nat x) eqn:Lk; destruct (_ && _); simplify_eq/=. lia. }
  destruct r as [[]|v f|]; [done|exfalso|exfalso|exfalso].
  - destruct (C45_refused l n _ c' _ t k d Hl HFF Ex' H0 Hin) as [Hall _]. by destruct (Hall x Hx).
  - apply elem_of_list_split in Hin as (ga & gb & Eg). by destruct (v_ret _ _ _ I' ga gb t _ _ Eg) as (g1 & g2 & _ & _ & Hr).
  - apply elem_of_list_split in Hin as (ga & gb & Eg). by destruct (v_ret _ _ _ I' ga gb t _ _ Eg) as (g1 & g2 & _ & _ & Hr).
Qed.
Print Assumptions C45_accepted.
(** key 0 is always refused *)
Theorem C45_zero l n acts c h t d r : size_ok l → Forall action_ok acts → execution l n acts c h → ERet t (Inc 0 d) r ∈ h → r = RInc false.
Proof.
  intros Hl HF Ex Hin. pose proof (execution_inv l n acts c h Hl HF Ex) as I. apply elem_of_list_split in Hin as (ha & hb & Eh).
  destruct (v_ret _ _ _ I ha hb t _ _ Eh) as (h1 & h2 & E1 & Hq & Ht). destruct r as [[]|v f|]; cbn in Ht; try done. by destruct Ht.
Qed.
Print Assumptions C45_zero.

(** ** C46: successive Gets, by any goroutines, of a key whose total has not overflowed *)
Theorem C46_monotone l n acts c h ha hb hc hd t1 t2 k v1 r2 : size_ok l → Forall action_ok acts → execution l n acts c h → k ≠ 0 →
  h = ha ++ ERet t1 (Get k) (RGet v1 true) :: hb ++ EInv t2 (Get k) :: hc ++ ERet t2 (Get k) r2 :: hd → quiet t2 hc → zsum (added k h) < 2^64 →
  ∃ v2, r2 = RGet v2 true ∧ v1 ≤ v2.
Proof.
  intros Hl HF Ex H0 Eh Hq2 Hsum. pose proof (execution_inv l n acts c h Hl HF Ex) as I.
  assert (Forall (λ d, 0 ≤ d) (added k h)) as Hd.
  { pose proof (execution_adds l n acts c h Hl HF Ex) as A. apply Forall_forall. intros d Hd. apply added_elem in Hd as (t & Hd). apply elem_of_list_split in Hd as (ga & gb & Eg). destruct (A ga gb t k d Eg) as (g1 & g2 & E1 & _).
      destruct Ex as (m & _ & Ex). assert (EInv t (Inc k d) ∈ h) as Hi. { rewrite Eg, E1. apply elem_of_app. left. apply elem_of_app. right. left. }
      apply (exec_calls _ _ _ _ _ _ Ex) in Hi. rewrite Forall_forall in HF. apply HF in Hi. cbn in Hi. lia. }
  assert (∀ L, Forall (λ d, 0 ≤ d) L → 0 ≤ zsum L) as Hz. { induction 1; cbn; unfold zsum in *; lia. }
  destruct (C44_get_any_time l n acts c h ha (hb ++ EInv t2 (Get k) :: hc ++ ERet t2 (Get k) r2 :: hd) t1 k _ Hl HF Ex H0 Eh) as (h1 & h2 & E1 & _ & [(g1 & g2 & -> & Ev)|(? & _)]); [|done].
  injection Ev as ->.
  assert (h = (ha ++ ERet t1 (Get k) (RGet (zsum (added k (h1 ++ EInv t1 (Get k) :: g1)) mod 2^64) true) :: hb ++ EInv t2 (Get k) :: hc) ++ ERet t2 (Get k) r2 :: hd) as Eh2.
  { rewrite Eh. rewrite <- !app_assoc. cbn. rewrite <- !app_assoc. done. }
  destruct (C44_get_any_time l n acts c h _ hd t2 k _ Hl HF Ex H0 Eh2) as (i1 & i2 & E2 & Hqi & Hcase).
  assert (i1 = ha ++ ERet t1 (Get k) (RGet (zsum (added k (h1 ++ EInv t1 (Get k) :: g1)) mod 2^64) true) :: hb ∧ i2 = hc) as [Ei1 Ei2].
  { set (B := ha ++ ERet t1 (Get k) (RGet (zsum (added k (h1 ++ EInv t1 (Get k) :: g1)) mod 2^64) true) :: hb) in *.
    assert (B ++ EInv t2 (Get k) :: hc = i1 ++ EInv t2 (Get k) :: i2) as EB by (rewrite <- E2; unfold B; rewrite <- app_assoc; done).
    apply app_eq_app in EB as (z & [[Z1 Z2]|[Z1 Z2]]); (destruct z as [|e z]; [rewrite app_nil_r in Z1; cbn in Z2; by injection Z2 as ->|injection Z2 as <- Z2; exfalso]).
    - rewrite Z2 in Hqi. apply Forall_app in Hqi as [_ Hqi]. inversion_clear Hqi as [|? ? Hbad _]. done.
    - rewrite Z2 in Hq2. apply Forall_app in Hq2 as [_ Hq2]. inversion_clear Hq2 as [|? ? Hbad _]. done. }
  destruct Hcase as [(j1 & j2 & Ej & Ev2)|(_ & _ & Hbad)].
  2:{ exfalso. apply (Hbad t1 (zsum (added k (h1 ++ EInv t1 (Get k) :: g1)) mod 2^64)). rewrite Ei1. apply elem_of_app. right. left. }
  eexists. split; [exact Ev2|].
  assert (∃ z, i1 ++ EInv t2 (Get k) :: j1 = (h1 ++ EInv t1 (Get k) :: g1) ++ z) as (z & Ez).
  { rewrite Ei1, E1. eexists. rewrite <- !app_assoc. cbn. rewrite <- !app_assoc. done. }
  assert (∃ w, h = (i1 ++ EInv t2 (Get k) :: j1) ++ w) as (w & Ew).
  { rewrite Eh2, E2, Ej. eexists. rewrite <- !app_assoc. cbn. rewrite <- !app_assoc. done. }
  rewrite Ez in Ew |- *. set (P := h1 ++ EInv t1 (Get k) :: g1) in *. rewrite Ew, !added_app in Hd, Hsum. rewrite !zsum_app in Hsum. apply Forall_app in Hd as [Hd Hw]. apply Forall_app in Hd as [HP HZ].
  apply Hz in HP, HZ, Hw. rewrite added_app, zsum_app. rewrite !Z.mod_small; lia.
Qed.
Print Assumptions C46_monotone.

Definition thr_shape (o : op) (p : pc) : Prop :=
  match o, p with
  | Inc _ _, (PLoad i | PCas i _ | PReload i _) => (i ≤ 10)%nat
  | Inc _ _, (PAdd _ | PRet _) => True
  | Get _, PGLoad i => (i ≤ 10)%nat
  | Get _, (PGVal _ | PRet _) => True
  | _, _ => False
  end.
(** ** C71: wait-free: whatever the others do, a call of Inc returns within 35 steps
    of its goroutine and a call of Get within 14 *)
Definition fuel (p : pc) : nat :=
  match p with
  | PLoad i => 3 * (11 - i) + 2 | PCas i _ => 3 * (11 - i) + 1 | PReload i _ => 3 * (11 - i)
  | PAdd _ => 2 | PGLoad i => (11 - i) + 2 | PGVal _ => 2 | PRet _ => 1
  end.
Lemma step_call_fuel m t o p m' p' es : step_call m t o p = (m', p', es) → thr_shape o p → (∀ r, p ≠ PRet r) → thr_shape o p' ∧ (fuel p' < fuel p)%nat.
Proof.
  intros E Ht Hr. destruct o as [k d|k]; destruct p as [i|i x|i x|x|i|x|r]; try done; try (by destruct (Hr r)); cbn [step_call thr_shape] in *;
    repeat match type of E with context [match ?q with _ => _ end] => destruct q eqn:? end; injection E as <- <- <-; unfold reprobe, greprobe, maxReprobe;
    repeat match goal with |- context [Nat.ltb ?a ?b] => destruct (Nat.ltb_spec a b) end; cbn [fuel thr_shape]; split; (done || lia).
Qed.
Lemma wait_free c acts c' es t o p : c_threads c !! t = Some (Some (o, p)) → thr_shape o p → exec c acts = (c', es) → (fuel p ≤ steps_of t acts)%nat → ∃ r, ERet t o r ∈ es.
Proof.
  revert c p es. induction acts as [|a acts IH]; intros c p es L Ht; cbn [exec steps_of].
  - intros _ Hf. exfalso. destruct o, p; cbn in *; lia.
  - destruct (step c a) as [c1 e1] eqn:E1. destruct (exec c1 acts) as [c2 e2] eqn:E2. intros [= <- <-] Hf.
    assert (t < length (c_threads c))%nat as Hlen by (by eapply lookup_lt_Some).
    destruct a as [t' o'|t'].
    + assert (∃ r, ERet t o r ∈ e2) as (r & Hr); [|exists r; apply elem_of_app; by right]. eapply (IH c1 p); [|done..]. cbn [step] in E1. destruct (c_threads c !! t') as [[q|]|] eqn:L'; injection E1 as <- <-; try done.
      cbn [c_threads]. rewrite list_lookup_insert_ne; [done|]. intros ->. by rewrite L in L'.
    + destruct (decide (t' = t)) as [->|Hne].
      * cbn [step] in E1. rewrite L in E1. assert ((∃ r, p = PRet r) ∨ ∀ r, p ≠ PRet r) as [(r & ->)|Hp] by (destruct p; eauto; right; done).
        { injection E1 as <- <-. exists r. apply elem_of_app. left. left. }
        destruct (step_call (c_map c) t o p) as [[m p'] es'] eqn:Es.
        assert (MkCfg m (<[t := Some (o, p')]> (c_threads c)) = c1) as <- by (destruct p; try (by injection E1 as <- <-); by destruct (Hp r)).
        destruct (step_call_fuel _ _ _ _ _ _ _ Es Ht Hp) as [Ht' Hfu].
        assert (∃ r, ERet t o r ∈ e2) as (r & Hr); [|exists r; apply elem_of_app; by right]. eapply (IH _ p'); [|done|exact E2|lia]. cbn [c_threads]. by rewrite list_lookup_insert.
      * assert (∃ r, ERet t o r ∈ e2) as (r & Hr); [|exists r; apply elem_of_app; by right]. eapply (IH c1 p); [|done|exact E2|lia].
        apply step_shape in E1 as [[-> ->]|[(t2 & o' & [=] & _)|[(t2 & o' & r & [= <-] & L' & -> & ->)|(t2 & o' & p' & m & p'' & [= <-] & L' & Hnr & Es & -> & Hes)]]]; [done|..]; cbn [c_threads]; by rewrite list_lookup_insert_ne.
Qed.
Theorem C71_wait_free l n acts c h t o acts' c' h' : execution l n acts c h → c_threads c !! t = Some None → exec c (ACall t o :: acts') = (c', h') →
  (match o with Inc _ _ => 35 | Get _ => 14 end ≤ steps_of t acts')%nat → ∃ r, ERet t o r ∈ h'.
Proof.
  intros _ L E Hs. cbn [exec step] in E. rewrite L in E. destruct (exec _ acts') as [c2 e2] eqn:E2. injection E as <- <-.
  assert (t < length (c_threads c))%nat as Hlen by (by eapply lookup_lt_Some).
  destruct (wait_free (MkCfg (c_map c) (<[t := Some (o, start o)]> (c_threads c))) acts' c2 e2 t o (start o)) as (r & Hr); [cbn [c_threads]; by rewrite list_lookup_insert| |exact E2| |exists r; by right].
  - destruct o as [k d|k]; cbn; [destruct (k =? 0)|]; cbn; (done || lia).
  - destruct o as [k d|k]; cbn in *; [destruct (k =? 0)|]; cbn; lia.
Qed.
Print Assumptions C71_wait_free.

(** ** A concrete run: two goroutines increment the same new key of a map with 12
    slots at the same time; both read the free slot, one installs the key, the
    other sees its CAS fail; a third key with the same home is put in the next
    slot; a Get in between finds the key with value 0. *)
Definition ex_acts : list action :=
  [ACall 0 (Inc 5 10); ACall 1 (Inc 5 20); AStep 0; AStep 1; AStep 0; ACall 2 (Get 5); AStep 2; AStep 2; AStep 2; AStep 1; AStep 1; AStep 0; AStep 1; AStep 1; AStep 0;
   ACall 1 (Inc 17 1); AStep 1; AStep 1; AStep 1; AStep 1; AStep 1; AStep 1].
Example incmap_nonvacuous : ∃ c h, size_ok 12 ∧ Forall action_ok ex_acts ∧ execution 12 3 ex_acts c h ∧ quiescent c ∧ succeeded 5 h = [20; 10] ∧
  ERet 2 (Get 5) (RGet 0 true) ∈ h ∧ key_at (c_map c) 5 = 5 ∧ key_at (c_map c) 6 = 17 ∧ (exec c [ACall 0 (Get 5); AStep 0; AStep 0; AStep 0]).2 = [EInv 0 (Get 5); ERet 0 (Get 5) (RGet 30 true)].
Proof.
  destruct (New 12) as [m| |] eqn:Em; [|done..]. injection Em as <-. destruct (exec (MkCfg (MkMap 12 (replicate (Z.to_nat 12) 0) (replicate (Z.to_nat 12) 0)) (replicate 3 None)) ex_acts) as [c h] eqn:E.
  exists c, h. split; [unfold size_ok; lia|]. split; [unfold ex_acts; repeat (constructor; [cbn; lia|]); constructor|]. split; [eexists; split; [|exact E]; done|].
  vm_compute in E. injection E as <- <-. split; [|vm_compute; repeat split; try done].
  - intros t p L. apply elem_of_list_lookup_2 in L. cbn [c_threads] in L. rewrite !elem_of_cons, elem_of_nil in L. tauto.
  - apply elem_of_list_In. cbn. tauto.
Qed.
(** a map of 1 slot: the second key is refused *)
Example incmap_full_nonvacuous : ∃ c h, execution 1 1 ([ACall 0 (Inc 5 10)] ++ replicate 10 (AStep 0) ++ [ACall 0 (Inc 6 1)] ++ replicate 40 (AStep 0)) c h ∧ ERet 0 (Inc 6 1) (RInc false) ∈ h ∧ succeeded 5 h = [10].
Proof.
  destruct (exec (MkCfg (MkMap 1 (replicate (Z.to_nat 1) 0) (replicate (Z.to_nat 1) 0)) (replicate 1 None)) ([ACall 0 (Inc 5 10)] ++ replicate 10 (AStep 0) ++ [ACall 0 (Inc 6 1)] ++ replicate 40 (AStep 0))) as [c h] eqn:E.
  exists c, h. split; [eexists; split; [|exact E]; done|]. vm_compute in E. injection E as <- <-. split; [|reflexivity]. apply elem_of_list_In. cbn. tauto.
Qed.
