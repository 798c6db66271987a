From Coq Require Import ZifyBool ZifyNat.
From Verif Require Import Base BaseProofs SeqlockModel SeqlockSpec SeqlockProofs.
Local Open Scope Z_scope.

(** ** what a step can look like *)
Lemma step_shape c a c' es : step c a = (c', es) →
  (c' = c ∧ es = []) ∨
  (∃ t o, a = ACall t o ∧ c_threads c !! t = Some None ∧ c' = MkCfg (c_sh c) (<[t := Some (o, start o)]> (c_threads c)) ∧ es = [EInv t o]) ∨
  (∃ t o r, a = AStep t ∧ c_threads c !! t = Some (Some (o, PRet r)) ∧ c' = MkCfg (c_sh c) (<[t := None]> (c_threads c)) ∧ es = [ERet t o r]) ∨
  (∃ t o p s p', a = AStep t ∧ c_threads c !! t = Some (Some (o, p)) ∧ (∀ r, p ≠ PRet r) ∧ step_call (c_sh c) t o p = (s, p', es) ∧ c' = MkCfg s (<[t := Some (o, p')]> (c_threads c)) ∧
     (es = [] ∨ (es = [EBegin t o] ∨ es = [EDone t o]) ∧ o ≠ OGet)).
Proof.
  destruct a as [t o|t]; cbn [step].
  - destruct (c_threads c !! t) as [[q|]|] eqn:L; intros [= <- <-]; [by left| |by left]. right. left. eauto 8.
  - destruct (c_threads c !! t) as [[[o p]|]|] eqn:L; [|intros [= <- <-]; by left..]. intros E.
    assert ((∃ r, p = PRet r) ∨ ∀ r, p ≠ PRet r) as [(r & ->)|Hp] by (destruct p; eauto; right; done).
    + injection E as <- <-. right. right. left. eauto 8.
    + right. right. right. destruct (step_call (c_sh c) t o p) as [[m p'] es'] eqn:Es.
      assert (MkCfg m (<[t := Some (o, p')]> (c_threads c)) = c' ∧ es' = es) as [<- <-] by (destruct p; try (by injection E as <- <-); by destruct (Hp r)).
      exists t, o, p, m, p'. split; [done|]. split; [done|]. split; [done|]. split; [done|]. split; [done|].
      clear -Es. destruct o as [|v|fn]; destruct p as [|q i ret|q ret| | |i|i d|d|i d|r|r|[ret|r]]; cbn [step_call] in Es; try (injection Es as _ _ <-; by auto).
      all: repeat match type of Es with context [match ?q with _ => _ end] => destruct q end; injection Es as _ _ <-; by auto.
Qed.

(** writes are completed inside calls of Put and Update *)
Definition done_inside (h : list event) : Prop := ∀ ha hb t o, h = ha ++ EDone t o :: hb → o ≠ OGet ∧ ∃ h1 h2, ha = h1 ++ EInv t o :: h2 ∧ quiet t h2.
Lemma step_done c h a c' es : inv c h → done_inside h → step c a = (c', es) → done_inside (h ++ es).
Proof.
  intros I A E ha hb t' o' Eh. apply step_shape in E as [[-> ->]|[(t & o & -> & L & -> & ->)|[(t & o & r & -> & L & -> & ->)|(t & o & p & m & p' & -> & L & _ & _ & -> & Hes)]]].
  - rewrite app_nil_r in Eh. by eapply A.
  - apply snoc_split in Eh as [(hb' & Eh & ->)|(-> & -> & [=])]; [|cbn; lia]. by eapply A.
  - apply snoc_split in Eh as [(hb' & Eh & ->)|(-> & -> & [=])]; [|cbn; lia]. by eapply A.
  - destruct Hes as [->|([->| ->] & Ho)]; [rewrite app_nil_r in Eh; by eapply A|..].
    + apply snoc_split in Eh as [(hb' & Eh & ->)|(-> & -> & [=])]; [|cbn; lia]. by eapply A.
    + apply snoc_split in Eh as [(hb' & Eh & ->)|(-> & -> & [= -> ->])]; [by eapply A| |cbn; lia]. split; [done|].
      destruct (v_thr _ _ I t' o' p L) as (h1 & h2 & ? & ? & _). eauto.
Qed.
Lemma exec_done c h acts c' es : inv c h → Forall action_ok acts → done_inside h → exec c acts = (c', es) → done_inside (h ++ es).
Proof.
  intros I HF. revert c h es I. induction HF as [|a acts Ha HF IH]; intros c h es I D; cbn [exec]; [by intros [= <- <-]; rewrite app_nil_r|].
  destruct (step c a) as [c1 e1] eqn:E1. destruct (exec c1 acts) as [c2 e2] eqn:E2. intros [= <- <-]. rewrite app_assoc. eapply IH; [by eapply step_inv|by eapply step_done|done].
Qed.

(** ** after a panic nothing finishes *)
Definition wedged (s : Seqlock) : Prop := s_mu s = true ∧ (s_seq s mod 2 =? 0) = false.
(** a goroutine that will not return: outside the critical section, and what it copied is out of date *)
Definition never (o : op) (p : pc) : Prop :=
  match o, p with
  | OGet, GSeq1 => True
  | OGet, GCopy q _ _ => (q mod 2 =? 0) = true
  | OGet, GSeq2 q _ => (q mod 2 =? 0) = true
  | (OPut _ | OUpdate _), WLock => True
  | _, _ => False
  end.
Lemma never_step s t o p s' p' es : wedged s → never o p → step_call s t o p = (s', p', es) → s' = s ∧ never o p' ∧ es = [].
Proof.
  intros [Hmu Hseq] N E. destruct o as [|v|fn]; destruct p as [|q i ret|q ret| | |i|i d|d|i d|r|r|r]; try done; cbn [step_call] in E.
  - injection E as <- <- <-. by rewrite Hseq.
  - injection E as <- <- <-. by destruct (_ <? _)%nat.
  - injection E as <- <- <-. destruct (Z.eqb_spec q (s_seq s)) as [->|]; [|done]. cbn in N. congruence.
  - rewrite Hmu in E. by injection E as <- <- <-.
  - rewrite Hmu in E. by injection E as <- <- <-.
Qed.
(** in a wedged state every goroutine has already its result, or will never have one *)
Definition all_stuck (c : cfg) : Prop := ∀ t o p, c_threads c !! t = Some (Some (o, p)) → never o p ∨ ∃ r, p = PRet r.
Lemma thr_reader_even h1 h2 t p : thr h1 h2 t OGet p → never OGet p ∨ ∃ r, p = PRet r.
Proof.
  assert (∀ A, begins A = writes A → ((incs A mod 2^32) mod 2 =? 0) = true) as Hev.
  { intros A E. unfold incs. rewrite E. replace (writes A + writes A) with (2 * writes A) by lia. change (2^32) with (2 * 2^31). rewrite Z.mul_mod_distr_l by lia. rewrite Z.mul_comm, Z.mod_mul by lia. done. }
  destruct p as [|q i ret|q ret| | |i|i d|d|i d|r|r|r]; cbn [thr never]; try (intros []; fail); eauto.
  - intros (_ & _ & _ & g1 & g2 & _ & Hb & -> & _). left. auto.
  - intros (_ & _ & g1 & g2 & _ & Hb & -> & _). left. auto.
Qed.
Lemma dead_stuck c h : inv c h → dead h → wedged (c_sh c) ∧ all_stuck c.
Proof.
  intros I D. destruct (v_phase _ _ I) as [(_ & _ & _ & _ & ?)|[(_ & ? & _)|(Hmu & Hb & _ & F)]]; [done..|]. split; [split; [done|]|].
  - destruct (_ =? 0) eqn:E; [|done]. apply (even_balance c h I) in E. lia.
  - intros t o p L. destruct (v_thr _ _ I t o p L) as (h1 & h2 & _ & _ & Ht). pose proof (F t o p (λ x, x) L) as Hc. destruct o as [|v|fn]; [by eapply thr_reader_even|..];
      destruct p as [|q i ret|q ret| | |i|i d|d|i d|r|r|[ret|[]]]; try done; eauto; by left.
Qed.
Lemma stuck_step c a c' es : wedged (c_sh c) → all_stuck c → step c a = (c', es) → wedged (c_sh c') ∧ all_stuck c'.
Proof.
  intros W S E. apply step_shape in E as [[-> ->]|[(t & o & -> & L & -> & ->)|[(t & o & r & -> & L & -> & ->)|(t & o & p & m & p' & -> & L & Hr & Es & -> & Hes)]]]; [done|..].
  - split; [done|]. intros t' o' p' Lt. cbn [c_threads] in Lt. destruct (decide (t' = t)) as [->|Hne]; [rewrite list_lookup_insert in Lt by (by eapply lookup_lt_Some)|rewrite list_lookup_insert_ne in Lt by done; by eapply S].
    injection Lt as <- <-. left. by destruct o.
  - split; [done|]. intros t' o' p' Lt. cbn [c_threads] in Lt. destruct (decide (t' = t)) as [->|Hne]; [rewrite list_lookup_insert in Lt by (by eapply lookup_lt_Some); done|rewrite list_lookup_insert_ne in Lt by done; by eapply S].
  - destruct (S t o p L) as [N|(r & ->)]; [|by destruct (Hr r)]. destruct (never_step _ _ _ _ _ _ _ W N Es) as (-> & N' & _). split; [done|].
    intros t' o' q Lt. cbn [c_threads] in Lt. destruct (decide (t' = t)) as [->|Hne]; [rewrite list_lookup_insert in Lt by (by eapply lookup_lt_Some); injection Lt as <- <-; by left|rewrite list_lookup_insert_ne in Lt by done; by eapply S].
Qed.
(** a goroutine that starts a call, or is stuck in one, in a wedged state never returns from it *)
Lemma stuck_noret c acts c' es t : wedged (c_sh c) → all_stuck c → (∀ o p, c_threads c !! t = Some (Some (o, p)) → never o p) → exec c acts = (c', es) → ∀ o r, ERet t o r ∉ es.
Proof.
  revert c es. induction acts as [|a acts IH]; intros c es W S N; cbn [exec]; [intros [= <- <-] o r; apply not_elem_of_nil|].
  destruct (step c a) as [c1 e1] eqn:E1. destruct (exec c1 acts) as [c2 e2] eqn:E2. intros [= <- <-] o r. rewrite not_elem_of_app.
  destruct (stuck_step c a c1 e1 W S E1) as [W1 S1].
  assert ((∀ o p, c_threads c1 !! t = Some (Some (o, p)) → never o p) ∧ ERet t o r ∉ e1) as [N1 He].
  { apply step_shape in E1 as [[-> ->]|[(t' & o' & -> & L & -> & ->)|[(t' & o' & r' & -> & L & -> & ->)|(t' & o' & p & m & p' & -> & L & Hr & Es & -> & Hes)]]]; cbn [c_threads].
    - split; [done|apply not_elem_of_nil].
    - split; [|by rewrite elem_of_list_singleton]. intros o2 p2 Lt. destruct (decide (t = t')) as [->|Hne]; [rewrite list_lookup_insert in Lt by (by eapply lookup_lt_Some)|rewrite list_lookup_insert_ne in Lt by done; by apply N]. injection Lt as <- <-. by destruct o'.
    - assert (t ≠ t') as Hne. { intros <-. specialize (N _ _ L). by destruct o'. } split; [|rewrite elem_of_list_singleton; congruence]. rewrite list_lookup_insert_ne by done. done.
    - split; [|destruct Hes as [->|([->| ->] & _)]; rewrite ?elem_of_list_singleton; try done; apply not_elem_of_nil]. intros o2 p2 Lt. destruct (decide (t = t')) as [->|Hne]; [rewrite list_lookup_insert in Lt by (by eapply lookup_lt_Some)|rewrite list_lookup_insert_ne in Lt by done; by apply N].
      injection Lt as <- <-. by destruct (never_step _ _ _ _ _ _ _ W (N _ _ L) Es) as (_ & ? & _). }
  split; [done|]. by eapply (IH c1).
Qed.

(** ** a Get that is not disturbed by writers *)
Definition noWriters (c : cfg) : Prop := ∀ t o p, c_threads c !! t = Some (Some (o, p)) → o = OGet.
Definition fuel (s : Z) (p : pc) : nat :=
  match p with
  | GSeq1 => blk + 3
  | GCopy q i _ => (blk - i) + 1 + (if q =? s then 1 else blk + 3)
  | GSeq2 q _ => 1 + (if q =? s then 1 else blk + 3)
  | PRet _ => 1
  | _ => 0
  end.
Lemma get_fuel s t p s' p' es : (s_seq s mod 2 =? 0) = true → step_call s t OGet p = (s', p', es) → (∀ r, p ≠ PRet r) → (0 < fuel (s_seq s) p)%nat → (∀ q i r, p = GCopy q i r → (i < blk)%nat) →
  (fuel (s_seq s) p' < fuel (s_seq s) p)%nat ∧ (0 < fuel (s_seq s) p')%nat ∧ (∀ q i r, p' = GCopy q i r → (i < blk)%nat) ∧ s' = s.
Proof.
  pose proof blk_pos. intros Hev E Hr H0 Hi. destruct p as [|q i ret|q ret| | |i|i d|d|i d|r|r|r]; try (cbn in H0; lia); cbn [step_call] in E.
  - rewrite Hev in E. injection E as <- <- <-. cbn [fuel]. rewrite Z.eqb_refl. split; [lia|]. split; [lia|]. split; [|done]. intros ? ? ? [= <- <- <-]. done.
  - specialize (Hi q i ret eq_refl). injection E as <- <- <-. destruct (Nat.ltb_spec (S i) blk); cbn [fuel]; (split; [destruct (q =? _); lia|]); (split; [destruct (q =? _); lia|]); (split; [|done]); intros ? ? ? [=]; lia.
  - injection E as <- <- <-. cbn [fuel]. destruct (q =? s_seq s); cbn [fuel]; (split; [lia|]); (split; [lia|]); split; done.
  - by destruct (Hr r).
Qed.
Lemma get_undisturbed c acts c' es t p : noWriters c → (s_seq (c_sh c) mod 2 =? 0) = true → Forall (λ a, match a with ACall _ o => o = OGet | AStep _ => True end) acts →
  c_threads c !! t = Some (Some (OGet, p)) → (0 < fuel (s_seq (c_sh c)) p)%nat → (∀ q i r, p = GCopy q i r → (i < blk)%nat) →
  exec c acts = (c', es) → (fuel (s_seq (c_sh c)) p ≤ steps_of t acts)%nat → ∃ r, ERet t OGet r ∈ es.
Proof.
  revert c p es. induction acts as [|a acts IH]; intros c p es NW Hev HF L H0 Hi; cbn [exec steps_of]; [intros _ Hf; exfalso; lia|].
  apply Forall_cons in HF as [Ha HF].
  destruct (step c a) as [c1 e1] eqn:E1. destruct (exec c1 acts) as [c2 e2] eqn:E2. intros [= <- <-] Hf.
  assert (t < length (c_threads c))%nat as Hlen by (by eapply lookup_lt_Some).
  assert (∀ p' , c_threads c1 !! t = Some (Some (OGet, p')) → noWriters c1 → c_sh c1 = c_sh c → (0 < fuel (s_seq (c_sh c)) p')%nat → (∀ q i r, p' = GCopy q i r → (i < blk)%nat) → (fuel (s_seq (c_sh c)) p' ≤ steps_of t acts)%nat → ∃ r, ERet t OGet r ∈ e1 ++ e2) as Hgo.
  { intros p' L1 N1 Es1 H1 Hi1 Hf1. destruct (IH c1 p' e2) as (r & Hr); try done; try (by rewrite Es1). exists r. apply elem_of_app. by right. }
  destruct (decide (a = AStep t)) as [->|Hat] || (assert (a = AStep t ∨ a ≠ AStep t) as [->|Hat] by (destruct a as [|t']; [by right|]; destruct (decide (t' = t)); [left|right]; congruence)).
  { cbn in Hf. rewrite decide_True in Hf by done. cbn [step] in E1. rewrite L in E1. assert ((∃ r, p = PRet r) ∨ ∀ r, p ≠ PRet r) as [(r & ->)|Hr] by (destruct p; eauto; right; done).
    { injection E1 as <- <-. exists r. left. }
    destruct (step_call (c_sh c) t OGet p) as [[m p'] es'] eqn:Es.
    assert (MkCfg m (<[t := Some (OGet, p')]> (c_threads c)) = c1 ∧ es' = e1) as [<- <-] by (destruct p; try (by injection E1 as <- <-); by destruct (Hr r)).
    destruct (get_fuel _ _ _ _ _ _ Hev Es Hr H0 Hi) as (F1 & F2 & F3 & ->). apply (Hgo p'); cbn [c_threads c_sh]; try done; [by rewrite list_lookup_insert| |lia].
    intros t2 o2 p2 Lt. cbn [c_threads] in Lt. destruct (decide (t2 = t)) as [->|Hne2]; [rewrite list_lookup_insert in Lt by done; by injection Lt as <- <-|rewrite list_lookup_insert_ne in Lt by done; by eapply NW]. }
  assert (fuel (s_seq (c_sh c)) p ≤ steps_of t acts)%nat as Hf'. { destruct a as [|t']; cbn in Hf; [done|]. rewrite decide_False in Hf by congruence. done. }
  apply step_shape in E1 as [[-> ->]|[(t' & o & -> & L' & -> & ->)|[(t' & o & r & -> & L' & -> & ->)|(t' & o & q & m & p' & -> & L' & Hr & Es & -> & Hes)]]].
  - by apply (Hgo p).
  - cbn in Ha. subst o. apply (Hgo p); cbn [c_threads c_sh]; try done.
    + rewrite list_lookup_insert_ne; [done|]. intros ->. by rewrite L in L'.
    + intros t2 o2 p2 Lt. cbn [c_threads] in Lt. destruct (decide (t2 = t')) as [->|Hne]; [rewrite list_lookup_insert in Lt by (by eapply lookup_lt_Some); by injection Lt as <- <-|rewrite list_lookup_insert_ne in Lt by done; by eapply NW].
  - assert (t' ≠ t) as Hne by congruence. apply (Hgo p); cbn [c_threads c_sh]; try done.
    + by rewrite list_lookup_insert_ne.
    + intros t2 o2 p2 Lt. cbn [c_threads] in Lt. destruct (decide (t2 = t')) as [->|Hne2]; [rewrite list_lookup_insert in Lt by (by eapply lookup_lt_Some); done|rewrite list_lookup_insert_ne in Lt by done; by eapply NW].
  - assert (t' ≠ t) as Hne by congruence. pose proof (NW _ _ _ L') as ->. apply (Hgo p); cbn [c_threads c_sh]; try done.
    + by rewrite list_lookup_insert_ne.
    + intros t2 o2 p2 Lt. cbn [c_threads] in Lt. destruct (decide (t2 = t')) as [->|Hne2]; [rewrite list_lookup_insert in Lt by (by eapply lookup_lt_Some); by injection Lt as <- <-|rewrite list_lookup_insert_ne in Lt by done; by eapply NW].
    + clear -Es. destruct q; cbn [step_call] in Es; by injection Es as <- _ _.
Qed.
Lemma idle_even c h : inv c h → noWriters c → ¬ dead h → (s_seq (c_sh c) mod 2 =? 0) = true ∧ s_data (c_sh c) = stored h.
Proof.
  intros I N D. assert (begins h = writes h) as E; [|split; [by apply (even_balance c h I)|by apply clean]].
  destruct (v_phase _ _ I) as [(_ & ? & _)|[(_ & _ & t & o & p & L & _ & Hh & _)|(_ & _ & ? & _)]]; [done| |done]. rewrite (N _ _ _ L) in Hh. by destruct p.
Qed.

(** ** a Put run alone, at any size of the block *)
Lemma put_copy c t v i : c_threads c !! t = Some (Some (OPut v, PCopy i)) → (i < blk)%nat → length v = blk → length (s_data (c_sh c)) = blk →
  exec c (replicate (blk - i) (AStep t)) = (MkCfg (MkSeq (s_seq (c_sh c)) (s_mu (c_sh c)) (take i (s_data (c_sh c)) ++ drop i v)) (<[t := Some (OPut v, WSeq2 (Ok ()))]> (c_threads c)), []).
Proof.
  intros L Hi Hv. remember (blk - i)%nat as k eqn:Ek. revert c i L Hi Ek. induction k as [|k IH]; intros c i L Hi Ek Hd; [lia|].
  cbn [replicate exec step]. rewrite L. cbn [step_call]. assert (t < length (c_threads c))%nat as Hlt by (by eapply lookup_lt_Some).
  assert (take (S i) (<[i:=byte_at v i]> (s_data (c_sh c))) ++ drop (S i) v = take i (s_data (c_sh c)) ++ drop i v) as Ecp.
  { rewrite (take_S_r _ i (byte_at v i)) by (apply list_lookup_insert; lia). rewrite take_insert by done. rewrite (drop_S v (byte_at v i) i) by (apply byte_at_lookup; lia). by rewrite <- app_assoc. }
  destruct (Nat.ltb_spec (S i) blk).
  - rewrite (IH _ (S i)); [|cbn [c_threads]; by rewrite list_lookup_insert|lia|lia|by cbn [c_sh s_data]; rewrite insert_length].
    cbn [c_sh c_threads s_seq s_mu s_data]. rewrite list_insert_insert, Ecp. done.
  - assert (k = 0%nat) as -> by lia. cbn. rewrite <- Ecp. rewrite take_ge by (rewrite insert_length; lia). rewrite drop_ge by lia. by rewrite app_nil_r.
Qed.
Definition put_acts (t : nat) (v : bytes) : list action := [ACall t (OPut v); AStep t; AStep t] ++ replicate blk (AStep t) ++ [AStep t; AStep t; AStep t].
Lemma put_alone c t v : c_threads c !! t = Some None → s_mu (c_sh c) = false → length v = blk → length (s_data (c_sh c)) = blk →
  exec c (put_acts t v) = (MkCfg (MkSeq (u32 (u32 (s_seq (c_sh c) + 1) + 1)) false v) (c_threads c), [EInv t (OPut v); EBegin t (OPut v); EDone t (OPut v); ERet t (OPut v) (RWrite (Ok ()))]).
Proof.
  intros L Hmu Hv Hd. assert (t < length (c_threads c))%nat as Hlt by (by eapply lookup_lt_Some). unfold put_acts. rewrite !exec_app. cbn [exec step]. rewrite L. cbn [c_threads c_sh start]. rewrite list_lookup_insert by done. cbn [step_call c_sh]. rewrite Hmu.
  cbn [c_threads c_sh]. rewrite list_lookup_insert by (by rewrite insert_length). cbn [step_call c_sh s_seq s_data s_mu]. rewrite !list_insert_insert.
  rewrite exec_app. replace (replicate blk (AStep t)) with (replicate (blk - 0) (AStep t)) by (by rewrite Nat.sub_0_r). rewrite (put_copy _ t v 0); [|cbn [c_threads]; by rewrite list_lookup_insert|apply blk_pos|done|done].
  cbn [c_threads c_sh s_seq s_mu s_data take drop app exec step]. rewrite list_insert_insert. rewrite list_lookup_insert by done. cbn [step_call c_sh s_seq s_mu s_data c_threads]. rewrite list_insert_insert. rewrite list_lookup_insert by done. cbn [step_call c_sh s_seq s_mu s_data c_threads]. rewrite list_insert_insert. rewrite list_lookup_insert by done.
  rewrite list_insert_insert. rewrite list_insert_id by done. done.
Qed.
Lemma put_many k c t v : c_threads c !! t = Some None → s_mu (c_sh c) = false → length v = blk → length (s_data (c_sh c)) = blk → (0 < k)%nat → 0 ≤ s_seq (c_sh c) < 2^32 →
  ∃ es, exec c (concat (replicate k (put_acts t v))) = (MkCfg (MkSeq ((s_seq (c_sh c) + 2 * Z.of_nat k) mod 2^32) false v) (c_threads c), es) ∧
    Forall (λ e, match e with EDone _ o => o = OPut v | _ => True end) es ∧ (t ≠ 0%nat → quiet 0 es).
Proof.
  intros L Hmu Hv. revert c L Hmu. induction k as [|k IH]; intros c L Hmu Hd Hk Hs; [lia|]. cbn [replicate concat]. rewrite exec_app, put_alone by done.
  assert (u32 (u32 (s_seq (c_sh c) + 1) + 1) = (s_seq (c_sh c) + 2) mod 2^32) as Es. { unfold u32. rewrite Z.add_mod_idemp_l by lia. f_equal. lia. }
  assert (Forall (λ e, match e with EDone _ o => o = OPut v | _ => True end) [EInv t (OPut v); EBegin t (OPut v); EDone t (OPut v); ERet t (OPut v) (RWrite (Ok ()))]) as F1 by (repeat constructor).
  assert (t ≠ 0%nat → quiet 0 [EInv t (OPut v); EBegin t (OPut v); EDone t (OPut v); ERet t (OPut v) (RWrite (Ok ()))]) as Q1 by (intros; repeat constructor; done).
  destruct (decide (k = 0%nat)) as [->|Hk0].
  - cbn [replicate concat exec]. rewrite app_nil_r. eexists. split; [|split; [exact F1|exact Q1]]. rewrite Es. change (2 * Z.of_nat 1) with 2. done.
  - destruct (IH (MkCfg (MkSeq (u32 (u32 (s_seq (c_sh c) + 1) + 1)) false v) (c_threads c))) as (es & E & F & Q); cbn [c_threads c_sh s_seq s_mu s_data]; try done; try lia.
    rewrite E. eexists. split; [|split; [apply Forall_app; split; [exact F1|exact F]|intros Ht; apply Forall_app; split; [by apply Q1|by apply Q]]].
    cbn [c_sh c_threads s_seq]. rewrite Es, Z.add_mod_idemp_l by lia. do 4 f_equal. lia.
Qed.
Lemma get_copy c t q i ret : c_threads c !! t = Some (Some (OGet, GCopy q i ret)) → (i < blk)%nat → length ret = blk → length (s_data (c_sh c)) = blk →
  exec c (replicate (blk - i) (AStep t)) = (MkCfg (c_sh c) (<[t := Some (OGet, GSeq2 q (take i ret ++ drop i (s_data (c_sh c))))]> (c_threads c)), []).
Proof.
  intros L Hi. remember (blk - i)%nat as k eqn:Ek. revert c i ret L Hi Ek. induction k as [|k IH]; intros c i ret L Hi Ek Hv Hd; [lia|].
  cbn [replicate exec step]. rewrite L. cbn [step_call]. assert (t < length (c_threads c))%nat as Hlt by (by eapply lookup_lt_Some). set (v := s_data (c_sh c)) in *.
  assert (take (S i) (<[i:=byte_at v i]> ret) ++ drop (S i) v = take i ret ++ drop i v) as Ecp.
  { rewrite (take_S_r _ i (byte_at v i)) by (apply list_lookup_insert; lia). rewrite take_insert by done. rewrite (drop_S v (byte_at v i) i) by (apply byte_at_lookup; lia). by rewrite <- app_assoc. }
  destruct (Nat.ltb_spec (S i) blk).
  - rewrite (IH _ (S i) (<[i:=byte_at v i]> ret)); [|cbn [c_threads]; by rewrite list_lookup_insert|lia|lia|by rewrite insert_length|done].
    cbn [c_sh c_threads]. fold v. rewrite list_insert_insert, Ecp. done.
  - assert (k = 0%nat) as -> by lia. cbn. rewrite <- Ecp. rewrite take_ge by (rewrite insert_length; lia). rewrite drop_ge by lia. by rewrite app_nil_r.
Qed.
