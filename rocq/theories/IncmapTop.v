From Coq Require Import ZifyBool ZifyNat.
From Verif Require Import Base BaseProofs Probe IncmapModel IncmapSpec IncmapProofs.
Local Open Scope Z_scope.

(** ** what a step can look like *)
Lemma step_shape c a c' es : step c a = (c', es) →
  (c' = c ∧ es = []) ∨
  (∃ t o, a = ACall t o ∧ c_threads c !! t = Some None ∧ c' = MkCfg (c_map c) (<[t := Some (o, start o)]> (c_threads c)) ∧ es = [EInv t o]) ∨
  (∃ t o r, a = AStep t ∧ c_threads c !! t = Some (Some (o, PRet r)) ∧ c' = MkCfg (c_map c) (<[t := None]> (c_threads c)) ∧ es = [ERet t o r]) ∨
  (∃ t o p m p', a = AStep t ∧ c_threads c !! t = Some (Some (o, p)) ∧ (∀ r, p ≠ PRet r) ∧ step_call (c_map c) t o p = (m, p', es) ∧ c' = MkCfg m (<[t := Some (o, p')]> (c_threads c)) ∧
     (es = [] ∨ ∃ k d x, o = Inc k d ∧ p = PAdd x ∧ es = [EAdd t k d])).
Proof.
  destruct a as [t o|t]; cbn [step].
  - destruct (c_threads c !! t) as [[q|]|] eqn:L; intros [= <- <-]; [by left| |by left]. right. left. eauto 8.
  - destruct (c_threads c !! t) as [[[o p]|]|] eqn:L; [|intros [= <- <-]; by left..]. intros E.
    destruct (decide (∃ r, p = PRet r)) as [(r & ->)|Hp] || (assert ((∃ r, p = PRet r) ∨ ∀ r, p ≠ PRet r) as [(r & ->)|Hp] by (destruct p; eauto; right; done)).
    + injection E as <- <-. right. right. left. eauto 8.
    + right. right. right. destruct (step_call (c_map c) t o p) as [[m p'] es'] eqn:Es.
      assert (MkCfg m (<[t := Some (o, p')]> (c_threads c)) = c' ∧ es' = es) as [<- <-] by (destruct p; try (by injection E as <- <-); by destruct (Hp r)).
      exists t, o, p, m, p'. split; [done|]. split; [done|]. split; [done|]. split; [done|]. split; [done|].
      clear -Es. destruct o as [k d|k]; destruct p as [i|i x|i x|x|i|x|r]; cbn [step_call] in Es; try (injection Es as _ _ <-; by left).
      all: repeat match type of Es with context [match ?q with _ => _ end] => destruct q end; try (injection Es as _ _ <-; by left).
      injection Es as _ _ <-. right. eauto 8.
Qed.

(** a goroutine whose last call has not returned is inside it *)
Definition opened (c : cfg) (h : list event) : Prop := ∀ t o h1 h2, h = h1 ++ EInv t o :: h2 → quiet t h2 → ∃ p, c_threads c !! t = Some (Some (o, p)).
Lemma step_opened c h a c' es : opened c h → step c a = (c', es) → opened c' (h ++ es).
Proof.
  intros O E. apply step_shape in E as [[-> ->]|[(t & o & -> & L & -> & ->)|[(t & o & r & -> & L & -> & ->)|(t & o & p & m & p' & -> & L & _ & _ & -> & Hes)]]].
  - by rewrite app_nil_r.
  - intros t' o' h1 h2 Eh Hq. cbn [c_threads]. apply snoc_split in Eh as [(hb & -> & ->)|(-> & -> & [= -> ->])]; [| |cbn; lia].
    + apply Forall_app in Hq as [Hq Hq2]. rewrite Forall_singleton in Hq2. rewrite list_lookup_insert_ne by congruence. by eapply O.
    + rewrite list_lookup_insert by (by eapply lookup_lt_Some). eauto.
  - intros t' o' h1 h2 Eh Hq. cbn [c_threads]. apply snoc_split in Eh as [(hb & -> & ->)|(-> & -> & [=])]; [|cbn; lia].
    apply Forall_app in Hq as [Hq Hq2]. rewrite Forall_singleton in Hq2. rewrite list_lookup_insert_ne by congruence. by eapply O.
  - intros t' o' h1 h2 Eh Hq. cbn [c_threads]. assert (∃ hb, h = h1 ++ EInv t' o' :: hb ∧ h2 = hb ++ es) as (hb & -> & ->).
    { destruct Hes as [->|(k & d & x & _ & _ & ->)]; (apply snoc_split in Eh as [(hb & -> & ->)|(-> & -> & E)]; [eauto|done|cbn; lia]). }
    apply Forall_app in Hq as [Hq Hq2]. destruct (O _ _ _ _ eq_refl Hq) as (q & Lq). destruct (decide (t' = t)) as [->|Hne].
    + rewrite list_lookup_insert by (by eapply lookup_lt_Some). rewrite L in Lq. injection Lq as <- <-. eauto.
    + rewrite list_lookup_insert_ne by done. eauto.
Qed.
Lemma exec_opened c h acts c' es : opened c h → exec c acts = (c', es) → opened c' (h ++ es).
Proof.
  revert c h es. induction acts as [|a acts IH]; intros c h es O; cbn [exec]; [by intros [= <- <-]; rewrite app_nil_r|].
  destruct (step c a) as [c1 e1] eqn:E1. destruct (exec c1 acts) as [c2 e2] eqn:E2. intros [= <- <-]. rewrite app_assoc. eapply IH; [|done]. by eapply step_opened.
Qed.
Lemma execution_opened l n acts c h : execution l n acts c h → opened c h.
Proof. intros (m & _ & E). change h with ([] ++ h). eapply exec_opened; [|done]. intros t o h1 h2 Eh. by destruct h1. Qed.

(** additions happen inside calls of Inc *)
Definition adds_inside (h : list event) : Prop := ∀ ha hb t k d, h = ha ++ EAdd t k d :: hb → ∃ h1 h2, ha = h1 ++ EInv t (Inc k d) :: h2 ∧ quiet t h2.
Lemma step_adds l c h a c' es : inv l c h → adds_inside h → step c a = (c', es) → adds_inside (h ++ es).
Proof.
  intros I A E ha hb t' k d Eh. apply step_shape in E as [[-> ->]|[(t & o & -> & L & -> & ->)|[(t & o & r & -> & L & -> & ->)|(t & o & p & m & p' & -> & L & _ & _ & -> & Hes)]]].
  - rewrite app_nil_r in Eh. by eapply A.
  - apply snoc_split in Eh as [(hb' & Eh & ->)|(-> & -> & [=])]; [|cbn; lia]. by eapply A.
  - apply snoc_split in Eh as [(hb' & Eh & ->)|(-> & -> & [=])]; [|cbn; lia]. by eapply A.
  - destruct Hes as [->|(k' & d' & x & -> & -> & ->)]; [rewrite app_nil_r in Eh; by eapply A|].
    apply snoc_split in Eh as [(hb' & Eh & ->)|(-> & -> & [= -> -> ->])]; [by eapply A| |cbn; lia].
    destruct (v_thr _ _ _ I _ _ _ L) as (h1 & h2 & Eh & Hq & _). eauto.
Qed.
Lemma exec_adds l c h acts c' es : inv l c h → Forall action_ok acts → adds_inside h → exec c acts = (c', es) → adds_inside (h ++ es).
Proof.
  intros I HF. revert c h es I. induction HF as [|a acts Ha HF IH]; intros c h es I A; cbn [exec]; [by intros [= <- <-]; rewrite app_nil_r|].
  destruct (step c a) as [c1 e1] eqn:E1. destruct (exec c1 acts) as [c2 e2] eqn:E2. intros [= <- <-]. rewrite app_assoc. eapply IH; [by eapply step_inv|by eapply step_adds|done].
Qed.
Lemma execution_adds l n acts c h : size_ok l → Forall action_ok acts → execution l n acts c h → adds_inside h.
Proof. intros Hl HF (m & Em & E). change h with ([] ++ h). eapply exec_adds; [by apply init_inv|done| |done]. intros ha hb t k d Eh. by destruct ha. Qed.

(** calls come from the schedule *)
Lemma exec_calls c acts c' es t o : exec c acts = (c', es) → EInv t o ∈ es → ACall t o ∈ acts.
Proof.
  revert c es. induction acts as [|a acts IH]; intros c es; cbn [exec]; [intros [= <- <-] H; by apply elem_of_nil in H|].
  destruct (step c a) as [c1 e1] eqn:E1. destruct (exec c1 acts) as [c2 e2] eqn:E2. intros [= <- <-] H. apply elem_of_app in H as [H|H]; [|right; by eapply IH].
  apply step_shape in E1 as [[-> ->]|[(t' & o' & -> & L & -> & ->)|[(t' & o' & r & -> & L & -> & ->)|(t' & o' & p & m & p' & -> & L & _ & _ & -> & Hes)]]].
  - by apply elem_of_nil in H.
  - apply elem_of_list_singleton in H as [= -> ->]. left.
  - by apply elem_of_list_singleton in H.
  - destruct Hes as [->|(k' & d' & x & -> & -> & ->)]; [by apply elem_of_nil in H|by apply elem_of_list_singleton in H].
Qed.

Lemma added_elem k h d : d ∈ added k h ↔ ∃ t, EAdd t k d ∈ h.
Proof.
  unfold added. rewrite elem_of_list_omap. split.
  - intros (e & He & E). destruct e as [|t k' d'|]; try done. destruct (decide (k' = k)) as [->|]; [|done]. injection E as ->. eauto.
  - intros (t & He). exists (EAdd t k d). split; [done|]. by rewrite decide_True.
Qed.

(** ** quiescence *)
Lemma quiescent_perm l c h k : inv l c h → quiescent c → added k h ≡ₚ succeeded k h.
Proof.
  intros I Q. rewrite (v_perm _ _ _ I k). assert (pending k (c_threads c) = []) as ->; [|by rewrite app_nil_r].
  unfold pending. unfold quiescent in Q. revert Q. generalize (c_threads c). intros ts Q. induction ts as [|q ts IH]; [done|]. cbn. rewrite (Q O q eq_refl). cbn. apply IH. intros t p Hp. exact (Q (S t) p Hp).
Qed.
Lemma quiescent_get l n acts c h acts' c' h' t k r : size_ok l → Forall action_ok acts → Forall action_ok acts' → execution l n acts c h → quiescent c →
  Forall (λ a, match a with ACall _ (Inc k' _) => k' ≠ k | _ => True end) acts' → exec c acts' = (c', h') → k ≠ 0 → ERet t (Get k) r ∈ h' →
  r = RGet (zsum (succeeded k h) mod 2^64) (bool_decide (succeeded k h ≠ [])).
Proof.
  intros Hl HF HF' Ex Q HG E H0 Hr. pose proof (execution_inv l n acts c h Hl HF Ex) as I. pose proof (exec_inv l c h acts' c' h' I HF' E) as I'.
  pose proof (execution_opened l n acts c h Ex) as O. pose proof (exec_adds l c h acts' c' h' I HF' (execution_adds l n acts c h Hl HF Ex) E) as A'.
  assert (∀ t o h1 h2 g, h1 ++ EInv t o :: h2 = h ++ g → quiet t h2 → ∃ g1, h1 = h ++ g1) as Hin.
  { intros t' o' h1 h2 g Eg Hq. apply app_eq_app in Eg as (z & [[E1 E2]|[E1 E2]]); [by exists z|]. destruct z as [|e z].
    - exists []. by rewrite app_nil_r in E1 |- *.
    - injection E2 as <- ->. apply Forall_app in Hq as [Hq _]. destruct (O t' o' h1 z E1 Hq) as (p & L). by apply Q in L. }
  assert (added k h' = []) as Hnone.
  { destruct (added k h') as [|d ds] eqn:Ea; [done|]. exfalso. assert (d ∈ added k h') as Hd by (rewrite Ea; left). apply added_elem in Hd as (t' & Hd). apply elem_of_list_split in Hd as (g1 & g2 & Eg).
    destruct (A' (h ++ g1) g2 t' k d) as (h1 & h2 & E1 & Hq); [rewrite Eg, app_assoc; done|]. destruct (Hin t' (Inc k d) h1 h2 g1 (eq_sym E1) Hq) as (g & ->).
    rewrite <- app_assoc in E1. apply app_inv_head in E1. assert (EInv t' (Inc k d) ∈ h') as Hi. { rewrite Eg, E1. apply elem_of_app. left. apply elem_of_app. right. left. }
    pose proof (exec_calls _ _ _ _ _ _ E Hi) as Hc. rewrite Forall_forall in HG. by apply HG in Hc. }
  pose proof (quiescent_perm l c h k I Q) as HP.
  apply elem_of_list_split in Hr as (g1 & g2 & Eg). destruct (v_ret _ _ _ I' (h ++ g1) g2 t (Get k) r) as (h1 & h2 & E1 & Hq & Ht); [rewrite Eg, app_assoc; done|].
  destruct (Hin t (Get k) h1 h2 g1 (eq_sym E1) Hq) as (g & ->). rewrite <- app_assoc in E1. apply app_inv_head in E1.
  assert (∀ x y, h' = x ++ y → added k x = []) as Hpre. { intros x y Ex'. rewrite Ex', added_app in Hnone. by apply app_eq_nil in Hnone as [? _]. }
  destruct r as [|v []|]; cbn in Ht; try done.
  - destruct Ht as (_ & Ht). destruct (Ht H0) as [(x & Hx & Exk) (a & b & -> & ->)].
    assert (added k ((h ++ g) ++ EInv t (Get k) :: a) = added k h) as ->.
    { rewrite <- app_assoc, added_app. rewrite (Hpre (g ++ EInv t (Get k) :: a) (b ++ ERet t (Get k) (RGet (zsum (added k ((h ++ g) ++ EInv t (Get k) :: a)) mod 2^64) true) :: g2)); [by rewrite app_nil_r|].
      rewrite Eg, E1. rewrite <- !app_assoc. cbn. rewrite <- app_assoc. done. }
    rewrite (zsum_perm _ _ HP). f_equal. symmetry. apply bool_decide_eq_true. intros Hs. rewrite Hs in HP. apply Permutation_nil_r in HP.
    destruct (v_inst _ _ _ I' x Hx) as [Hadd|(t' & d' & Lt)]; [congruence|rewrite Exk, added_app, Hnone, HP in Hadd; done|].
    rewrite Exk in Lt. destruct (v_thr _ _ _ I' _ _ _ Lt) as (a1 & a2 & Ea & Hqa & _). destruct (Hin t' _ a1 a2 h' (eq_sym Ea) Hqa) as (g3 & ->).
    rewrite <- app_assoc in Ea. apply app_inv_head in Ea. assert (EInv t' (Inc k d') ∈ h') as Hi. { rewrite Ea. apply elem_of_app. right. left. }
    pose proof (exec_calls _ _ _ _ _ _ E Hi) as Hc. rewrite Forall_forall in HG. by apply HG in Hc.
  - destruct Ht as (_ & -> & Ht). specialize (Ht H0).
    assert (added k h = []) as Hnil. { destruct (added k h) eqn:Ea; [done|]. destruct Ht. apply seen_app. left. by rewrite Ea. }
    rewrite Hnil in HP. symmetry in HP. apply Permutation_nil_r in HP. rewrite HP. done.
Qed.
