From Coq Require Import ZifyBool ZifyNat.
From Verif Require Import Base BaseProofs Probe IncmapModel IncmapSpec.
Local Open Scope Z_scope.

Lemma u64_small x : 0 ≤ x < 2^64 → u64 x = x.
Proof. intros. unfold u64. apply Z.mod_small. lia. Qed.
Lemma pos_probe l k i : 0 < l < 2^63 → 0 ≤ k < 2^64 → (i ≤ 10)%nat → pos l k i = Ok (probe l k i).
Proof.
  intros Hl Hk Hi. unfold pos. rewrite (u64_small l) by lia. destruct (Z.eqb_spec l 0); [lia|]. f_equal.
  pose proof (Z.mod_pos_bound k l ltac:(lia)).
  rewrite u64_small by lia. rewrite Z.add_mod_idemp_l by lia. fold (probe l k i). pose proof (probe_range l k i). unfold s64. rewrite Z.mod_small; lia.
Qed.

(** ** histories *)
Lemma added_app k h h' : added k (h ++ h') = added k h ++ added k h'.
Proof. apply omap_app. Qed.
Lemma succeeded_app k h h' : succeeded k (h ++ h') = succeeded k h ++ succeeded k h'.
Proof. apply omap_app. Qed.
Lemma adds_by_app t h h' : adds_by t (h ++ h') = adds_by t h ++ adds_by t h'.
Proof. apply omap_app. Qed.
Lemma zsum_app a b : zsum (a ++ b) = zsum a + zsum b.
Proof. induction a as [|x a IH]; cbn; [done|]. unfold zsum in *. lia. Qed.
Lemma zsum_perm a b : a ≡ₚ b → zsum a = zsum b.
Proof. induction 1; cbn; unfold zsum in *; lia. Qed.

(** key k is known to be in the map *)
Definition seen (k : Z) (h : list event) : Prop := added k h ≠ [] ∨ ∃ t v, ERet t (Get k) (RGet v true) ∈ h.
Lemma seen_app k h h' : seen k h → seen k (h ++ h').
Proof. intros [H|(t & v & H)]; [left; rewrite added_app; by destruct (added k h)|right]. exists t, v. apply elem_of_app. by left. Qed.

Definition pend (k : Z) (p : option (op * pc)) : option Z :=
  match p with Some (Inc k' d, PRet (RInc true)) => if decide (k' = k) then Some d else None | _ => None end.
Definition pending (k : Z) (ts : list (option (op * pc))) : list Z := omap (pend k) ts.
Lemma pending_set k ts t p p' : ts !! t = Some p →
  ∃ rest, pending k ts ≡ₚ option_list (pend k p) ++ rest ∧ pending k (<[t := p']> ts) ≡ₚ option_list (pend k p') ++ rest.
Proof.
  intros L. exists (pending k (take t ts ++ drop (S t) ts)). unfold pending. rewrite !omap_app. split.
  - rewrite <- (take_drop_middle ts t p L) at 1. rewrite omap_app. cbn [omap list_omap]. destruct (pend k p) as [d|]; cbn; [|done]. by rewrite Permutation_middle.
  - rewrite (insert_take_drop ts t p') by (by eapply lookup_lt_Some). rewrite omap_app. cbn [omap list_omap]. destruct (pend k p') as [d|]; cbn; [|done]. by rewrite Permutation_middle.
Qed.

(** ** the invariant *)
Definition thr (l : Z) (ka : Z → Z) (h1 h2 : list event) (t : nat) (o : op) (p : pc) : Prop :=
  match o, p with
  | Inc k d, PLoad i => 0 < k < 2^64 ∧ (i ≤ 10)%nat ∧ passed l ka k i ∧ adds_by t h2 = []
  | Inc k d, PCas i x => 0 < k < 2^64 ∧ (i ≤ 10)%nat ∧ passed l ka k i ∧ adds_by t h2 = [] ∧ x = probe l k i
  | Inc k d, PReload i x => 0 < k < 2^64 ∧ (i ≤ 10)%nat ∧ passed l ka k i ∧ adds_by t h2 = [] ∧ x = probe l k i ∧ ka x ≠ 0
  | Inc k d, PAdd x => 0 < k < 2^64 ∧ 0 ≤ x < l ∧ ka x = k ∧ adds_by t h2 = []
  | Inc k d, PRet (RInc true) => k ≠ 0 ∧ adds_by t h2 = [(k, d)] ∧ (∃ x, 0 ≤ x < l ∧ ka x = k)
  | Inc k d, PRet (RInc false) => adds_by t h2 = [] ∧ (k ≠ 0 → passed l ka k 11)
  | Get k, PGLoad i => 0 ≤ k < 2^64 ∧ (i ≤ 10)%nat ∧ adds_by t h2 = [] ∧ (k ≠ 0 → seen k h1 → ∀ j, (j < i)%nat → ka (probe l k j) ≠ k)
  | Get k, PGVal x => 0 ≤ x < l ∧ adds_by t h2 = [] ∧ (k ≠ 0 → ka x = k)
  | Get k, PRet (RGet v true) => adds_by t h2 = [] ∧ (k ≠ 0 → (∃ x, 0 ≤ x < l ∧ ka x = k) ∧ ∃ ha hb, h2 = ha ++ hb ∧ v = zsum (added k (h1 ++ EInv t o :: ha)) mod 2^64)
  | Get k, PRet (RGet v false) => adds_by t h2 = [] ∧ v = 0 ∧ (k ≠ 0 → ¬ seen k h1)
  | _, _ => False
  end.
Record inv (l : Z) (c : cfg) (h : list event) : Prop := {
  v_size : size_ok l;
  v_l : m_l (c_map c) = l;
  v_keys : length (m_keys (c_map c)) = Z.to_nat l;
  v_vals : length (m_values (c_map c)) = Z.to_nat l;
  v_place : placed l (key_at (c_map c));
  v_val : ∀ x, 0 ≤ x < l → m_values (c_map c) !! Z.to_nat x = Some (if decide (key_at (c_map c) x = 0) then 0 else zsum (added (key_at (c_map c) x) h) mod 2^64);
  v_seen : ∀ k, k ≠ 0 → seen k h → ∃ x, 0 ≤ x < l ∧ key_at (c_map c) x = k;
  v_inst : ∀ x, 0 ≤ x < l → key_at (c_map c) x ≠ 0 → added (key_at (c_map c) x) h ≠ [] ∨ ∃ t d, c_threads c !! t = Some (Some (Inc (key_at (c_map c) x) d, PAdd x));
  v_perm : ∀ k, added k h ≡ₚ succeeded k h ++ pending k (c_threads c);
  v_thr : ∀ t o p, c_threads c !! t = Some (Some (o, p)) → ∃ h1 h2, h = h1 ++ EInv t o :: h2 ∧ quiet t h2 ∧ thr l (key_at (c_map c)) h1 h2 t o p;
  v_ret : ∀ ha hb t o r, h = ha ++ ERet t o r :: hb → ∃ h1 h2, ha = h1 ++ EInv t o :: h2 ∧ quiet t h2 ∧ thr l (key_at (c_map c)) h1 h2 t o (PRet r) }.

Ltac dand := repeat match goal with H : _ ∧ _ |- _ => destruct H end.
Lemma thr_other l ka ka' h h1 h2 t o p es : 0 < l → thr l ka h1 h2 t o p → grows ka ka' → placed l ka' → adds_by t es = [] →
  (∀ k, k ≠ 0 → seen k h → ∃ x, 0 ≤ x < l ∧ ka x = k) → h = h1 ++ EInv t o :: h2 → thr l ka' h1 (h2 ++ es) t o p.
Proof.
  intros Hl Ht G P' Hes Hs Eh.
  assert (∀ x k, k ≠ 0 → ka x = k → ka' x = k) as Hk by (intros x k H0 <-; by apply G).
  unfold thr in *. destruct o as [k d|k]; destruct p as [i|i x|i x|x|i|x|[[]|v []|]]; try done.
  1-4: dand; rewrite adds_by_app, Hes, app_nil_r; repeat match goal with |- _ ∧ _ => split end; eauto using passed_grows; try lia.
  1: by rewrite G.
  1: apply Hk; [lia|done].
  - destruct Ht as (? & ? & x & ? & ?). rewrite adds_by_app, Hes, app_nil_r. split; [done|]. split; [done|]. exists x. auto.
  - destruct Ht as (? & ?). rewrite adds_by_app, Hes, app_nil_r. split; [done|]. eauto using passed_grows.
  - destruct Ht as (? & ? & ? & H). rewrite adds_by_app, Hes, app_nil_r. split; [done|]. split; [done|]. split; [done|]. intros Hk0 Hseen j Hj E.
    destruct (Hs k Hk0) as (x & Hx & Ex). { rewrite Eh. by apply seen_app. }
    assert (probe l k j = x) as Ep. { apply (placed_unique l ka' (probe l k j) x P'); [by apply probe_range|done|by rewrite E|]. rewrite E. symmetry. by apply Hk. }
    apply (H Hk0 Hseen j Hj). by rewrite Ep.
  - destruct Ht as (? & ? & H). rewrite adds_by_app, Hes, app_nil_r. split; [done|]. split; [done|]. intros Hk0. apply Hk; auto.
  - destruct Ht as (? & H). rewrite adds_by_app, Hes, app_nil_r. split; [done|]. intros Hk0. destruct (H Hk0) as ((x & ? & ?) & ha & hb & -> & ->). split; [exists x; auto|]. exists ha, (hb ++ es). by rewrite app_assoc.
  - destruct Ht as (? & ? & H). rewrite adds_by_app, Hes, app_nil_r. done.
Qed.

Lemma snoc_split {A} (h : list A) es ha e hb : (length es ≤ 1)%nat → h ++ es = ha ++ e :: hb → (∃ hb', h = ha ++ e :: hb' ∧ hb = hb' ++ es) ∨ (ha = h ∧ hb = [] ∧ es = [e]).
Proof.
  intros Hl E. apply app_eq_app in E as (k & [[E1 E2]|[E1 E2]]).
  - destruct k as [|a k].
    + rewrite app_nil_r in E1. cbn in E2. subst. destruct hb; [|cbn in Hl; lia]. by right.
    + injection E2 as <- ->. left. by exists k.
  - subst. rewrite app_length in Hl. cbn in Hl. destruct k as [|]; [|cbn in Hl; lia]. destruct hb; [|cbn in Hl; lia]. rewrite app_nil_r. by right.
Qed.

Lemma mk_inv l c h m' t q0 q es : inv l c h → c_threads c !! t = Some q0 →
  m_l m' = l → length (m_keys m') = Z.to_nat l → length (m_values m') = Z.to_nat l →
  grows (key_at (c_map c)) (key_at m') → placed l (key_at m') → (length es ≤ 1)%nat → (∀ t', t' ≠ t → adds_by t' es = [] ∧ quiet t' es) →
  (∀ x, 0 ≤ x < l → m_values m' !! Z.to_nat x = Some (if decide (key_at m' x = 0) then 0 else zsum (added (key_at m' x) (h ++ es)) mod 2^64)) →
  (∀ k, k ≠ 0 → seen k (h ++ es) → ∃ x, 0 ≤ x < l ∧ key_at m' x = k) →
  (∀ x, 0 ≤ x < l → key_at m' x ≠ 0 → added (key_at m' x) (h ++ es) ≠ [] ∨ ∃ t' d, <[t := q]> (c_threads c) !! t' = Some (Some (Inc (key_at m' x) d, PAdd x))) →
  (∀ k rest, pending k (c_threads c) ≡ₚ option_list (pend k q0) ++ rest → pending k (<[t := q]> (c_threads c)) ≡ₚ option_list (pend k q) ++ rest →
     added k es ++ option_list (pend k q0) ≡ₚ succeeded k es ++ option_list (pend k q)) →
  (∀ o p, q = Some (o, p) → ∃ h1 h2, h ++ es = h1 ++ EInv t o :: h2 ∧ quiet t h2 ∧ thr l (key_at m') h1 h2 t o p) →
  (∀ t' o r, es = [ERet t' o r] → ∃ h1 h2, h = h1 ++ EInv t' o :: h2 ∧ quiet t' h2 ∧ thr l (key_at m') h1 h2 t' o (PRet r)) →
  inv l (MkCfg m' (<[t := q]> (c_threads c))) (h ++ es).
Proof.
  intros I L El Hk Hv G P Hes Hoth Hval Hseen Hinst Hperm Hthr Hret. destruct (v_size _ _ _ I) as [Hl _].
  constructor; cbn [c_map c_threads]; try done; [by apply (v_size _ _ _ I)|..].
  - intros k. destruct (pending_set k _ _ _ q L) as (rest & P1 & P2). rewrite added_app, succeeded_app, P2, (v_perm _ _ _ I), P1. specialize (Hperm k rest P1 P2).
    transitivity (succeeded k h ++ rest ++ (added k es ++ option_list (pend k q0))); [solve_Permutation|]. rewrite Hperm. solve_Permutation.
  - intros t' o p Lt. destruct (decide (t' = t)) as [->|Hne].
    + rewrite list_lookup_insert in Lt by (by eapply lookup_lt_Some). injection Lt as ->. by apply Hthr.
    + rewrite list_lookup_insert_ne in Lt by done. destruct (v_thr _ _ _ I t' o p Lt) as (h1 & h2 & E & Hq & Ht). destruct (Hoth t' Hne) as [Ha Hqq].
      exists h1, (h2 ++ es). split; [rewrite E, <- app_assoc; done|]. split; [by apply Forall_app|].
      apply (thr_other l (key_at (c_map c)) _ h); try done. exact (v_seen _ _ _ I).
  - intros ha hb t' o r E. apply snoc_split in E as [(hb' & E & _)|(-> & _ & E)]; [| |done].
    + destruct (v_ret _ _ _ I ha hb' t' o r E) as (h1 & h2 & E1 & Hq & Ht). exists h1, h2. split; [done|]. split; [done|].
      rewrite <- (app_nil_r h2). apply (thr_other l (key_at (c_map c)) _ ha); try done. intros k H0 Hs. apply (v_seen _ _ _ I k H0). rewrite E. by apply seen_app.
    + by apply Hret.
Qed.

Lemma pure_inv l c h t o p p' : inv l c h → c_threads c !! t = Some (Some (o, p)) → (∀ k, pend k (Some (o, p)) = None) → (∀ k, pend k (Some (o, p')) = None) →
  (∀ x, p ≠ PAdd x) → (∀ h1 h2, h = h1 ++ EInv t o :: h2 → quiet t h2 → thr l (key_at (c_map c)) h1 h2 t o p → thr l (key_at (c_map c)) h1 h2 t o p') →
  inv l (MkCfg (c_map c) (<[t := Some (o, p')]> (c_threads c))) h.
Proof.
  intros I L N1 N2 Hp H. rewrite <- (app_nil_r h). eapply mk_inv; try done; try apply I; try rewrite !app_nil_r.
  - cbn. lia.
  - intros t' _. split; [done|constructor].
  - intros x Hx. by apply (v_val _ _ _ I).
  - apply (v_seen _ _ _ I).
  - intros x Hx H0. destruct (v_inst _ _ _ I x Hx H0) as [?|(t' & d & Lt)]; [by left|]. right. exists t', d. rewrite list_lookup_insert_ne; [done|]. intros <-. rewrite L in Lt. injection Lt as -> ->. by eapply Hp.
  - intros k rest _ _. by rewrite N1, N2.
  - intros o2 p2 [= <- <-]. destruct (v_thr _ _ _ I t o p L) as (h1 & h2 & E & Hq & Ht). exists h1, h2. split; [done|]. split; [done|]. by apply H.
Qed.

Lemma key_at_index l c h x : inv l c h → 0 ≤ x < l → index (m_keys (c_map c)) x = Ok (key_at (c_map c) x).
Proof.
  intros I Hx. unfold index, key_at. rewrite (v_keys _ _ _ I). assert ((0 <=? x) && (x <? Z.of_nat (Z.to_nat l)) = true) as -> by lia.
  destruct (lookup_lt_is_Some_2 (m_keys (c_map c)) (Z.to_nat x)) as [y ->]; [rewrite (v_keys _ _ _ I); lia|done].
Qed.
Lemma placed_ext l ka ka' : 0 < l → (∀ y, 0 ≤ y < l → ka y = ka' y) → placed l ka → placed l ka'.
Proof.
  intros Hl E P x Hx H0. rewrite <- (E x Hx) in H0 |- *. destruct (P x Hx H0) as (i & Hi & Ex & B). exists i. split; [done|]. split; [done|]. intros j Hj. rewrite <- E by (by apply probe_range). by apply B.
Qed.

Lemma step_inv l c h a c' es : inv l c h → action_ok a → step c a = (c', es) → inv l c' (h ++ es).
Proof.
  intros I Ha. pose proof (v_size _ _ _ I) as Hsz. destruct Hsz as [Hl Hl2]. destruct a as [t o|t]; cbn [step].
  - destruct (c_threads c !! t) as [[q|]|] eqn:L; [by intros [= <- <-]; rewrite app_nil_r| |by intros [= <- <-]; rewrite app_nil_r]. intros [= <- <-].
    eapply mk_inv; try done; try apply I.
    + intros t' Hne. split; [done|]. by apply Forall_singleton.
    + intros x Hx. rewrite added_app. cbn [added omap list_omap]. rewrite app_nil_r. by apply (v_val _ _ _ I).
    + intros k H0 [H|(t' & v & H)]; apply (v_seen _ _ _ I k H0); [left|right].
      * by rewrite added_app, app_nil_r in H.
      * apply elem_of_app in H as [H|H]; [eauto|]. by apply elem_of_list_singleton in H.
    + intros x Hx H0. rewrite added_app. cbn [added omap list_omap]. rewrite app_nil_r. destruct (v_inst _ _ _ I x Hx H0) as [?|(t' & d & Lt)]; [by left|]. right. exists t', d.
      rewrite list_lookup_insert_ne; [done|]. intros <-. by rewrite L in Lt.
    + intros k rest _ _. destruct o as [k' d|k']; cbn; [destruct (k' =? 0)|]; done.
    + intros o2 p2 [= <- <-]. exists h, []. split; [done|]. split; [constructor|]. destruct o as [k d|k]; cbn [start] in *.
      * destruct (Z.eqb_spec k 0) as [->|H0]; cbn; [by split|]. cbn in Ha. repeat split; try lia; try done; by apply passed_0.
      * cbn. cbn in Ha. repeat split; try lia. 
  - destruct (c_threads c !! t) as [[[o p]|]|] eqn:L; [|by intros [= <- <-]; rewrite app_nil_r..].
    destruct (v_thr _ _ _ I t o p L) as (h1 & h2 & Eh & Hq & Ht).
    assert (∀ i k, 0 ≤ k < 2^64 → (i ≤ 10)%nat → (let! x := pos (m_l (c_map c)) k i in let! kx := index (m_keys (c_map c)) x in Ok (x, kx)) = Ok (probe l k i, key_at (c_map c) (probe l k i))) as Hpr.
    { intros i k Hk Hi. rewrite (v_l _ _ _ I), pos_probe by done. cbn [obind]. rewrite (key_at_index l c h) by (done || by apply probe_range). done. }
    assert (∀ x, 0 ≤ x < l → index (m_values (c_map c)) x = Ok (if decide (key_at (c_map c) x = 0) then 0 else zsum (added (key_at (c_map c) x) h) mod 2^64)) as Hvr.
    { intros x Hx. pose proof (v_val _ _ _ I x Hx) as E. unfold index. rewrite (v_vals _ _ _ I). assert ((0 <=? x) && (x <? Z.of_nat (Z.to_nat l)) = true) as -> by lia. by rewrite E. }
    destruct o as [k d|k]; destruct p as [i|i x|i x|x|i|x|r]; try (by destruct Ht); cbn [step_call].
    + destruct Ht as (Hk & Hi & _). rewrite Hpr by lia. intros [= <- <-]. rewrite app_nil_r.
      eapply pure_inv; [exact I|exact L|done| |done|].
      { intros k'. destruct (_ =? k); [done|]. by destruct (_ =? 0). }
      intros g1 g2 _ _ (_ & _ & Hp & Hadd). pose proof (probe_range l k i Hl). destruct (Z.eqb_spec (key_at (c_map c) (probe l k i)) k) as [E|E]; [done|].
      destruct (Z.eqb_spec (key_at (c_map c) (probe l k i)) 0) as [E0|E0]; done.
    + destruct Ht as (Hk & Hi & Hp & Hadd & ->). pose proof (probe_range l k i Hl) as Hx. set (x := probe l k i) in *. rewrite (key_at_index l c h) by done.
      destruct (Z.eqb_spec (key_at (c_map c) x) 0) as [E0|E0].
      2:{ intros [= <- <-]. rewrite app_nil_r. eapply pure_inv; [exact I|exact L|done..|]. intros g1 g2 _ _ (? & ? & ? & ? & ?). done. }
      intros [= <- <-]. destruct (placed_install l (key_at (c_map c)) k i Hl (v_place _ _ _ I) Hp Hi ltac:(lia) E0) as [Hpl Hno].
      set (m' := MkMap _ _ _).
      assert (∀ y, 0 ≤ y → key_at m' y = install (key_at (c_map c)) x k y) as Hka.
      { intros y Hy. unfold key_at, install, m'. cbn [m_keys]. destruct (decide (y = x)) as [->|Hne]; [rewrite list_lookup_insert; [done|rewrite (v_keys _ _ _ I); lia]|]. rewrite list_lookup_insert_ne by lia. done. }
      assert (key_at m' x = k) as Hkx by (rewrite Hka by lia; unfold install; by rewrite decide_True).
      assert (∀ y, 0 ≤ y → y ≠ x → key_at m' y = key_at (c_map c) y) as Hky by (intros y Hy Hne; rewrite Hka by done; unfold install; by rewrite decide_False).
      assert (added k h = []) as Hnone. { destruct (added k h) eqn:E; [done|]. destruct (v_seen _ _ _ I k ltac:(lia)) as (y & Hy & Ey); [left; by rewrite E|]. by destruct (Hno y Hy). }
      eapply mk_inv; try done; try apply I; cbn [app length].
      * cbn [m' m_keys]. rewrite insert_length. apply I.
      * intros y Hy. unfold key_at, m' in *. cbn [m_keys] in *. rewrite list_lookup_insert_ne; [done|]. intros E. rewrite <- E in Hy. by rewrite E0 in Hy.
      * eapply placed_ext; [done| |exact Hpl]. intros y Hy. symmetry. apply Hka. lia.
      * lia.
      * intros t' _. split; [done|constructor].
      * intros y Hy. rewrite app_nil_r. change (m_values m') with (m_values (c_map c)). destruct (decide (y = x)) as [->|Hne].
        -- rewrite Hkx. rewrite (v_val _ _ _ I x Hx), E0. rewrite decide_True by done. rewrite decide_False by lia. by rewrite Hnone.
        -- rewrite Hky by lia. by apply (v_val _ _ _ I).
      * rewrite app_nil_r. intros k' H0 Hs. destruct (v_seen _ _ _ I k' H0 Hs) as (y & Hy & Ey). exists y. split; [done|]. rewrite Hky; [done|lia|]. intros ->. congruence.
      * rewrite app_nil_r. intros y Hy H0. destruct (decide (y = x)) as [->|Hne].
        -- right. exists t, d. rewrite Hkx. rewrite list_lookup_insert; [done|]. by eapply lookup_lt_Some.
        -- rewrite Hky in H0 |- * by lia. destruct (v_inst _ _ _ I y Hy H0) as [?|(t' & d' & Lt)]; [by left|]. right. exists t', d'. rewrite list_lookup_insert_ne; [done|]. intros <-. by rewrite L in Lt.
      * intros o2 p2 [= <- <-]. exists h1, h2. rewrite app_nil_r. split; [done|]. split; [done|]. done.
    + destruct Ht as (Hk & Hi & Hp & Hadd & -> & Hn0). pose proof (probe_range l k i Hl) as Hx. rewrite (key_at_index l c h) by done. intros [= <- <-]. rewrite app_nil_r.
      eapply pure_inv; [exact I|exact L|done| |done|].
      { intros k'. destruct (_ =? k); [done|]. unfold reprobe. by destruct (_ <? _)%nat. }
      intros g1 g2 _ _ (_ & _ & _ & Hadd' & _). destruct (Z.eqb_spec (key_at (c_map c) (probe l k i)) k) as [E|E]; [done|]. pose proof (passed_S _ _ _ _ Hp Hn0 E) as HS.
      unfold reprobe, maxReprobe. destruct (Nat.ltb_spec 10 (S i)); cbn; [|split; [lia|]; split; [lia|]; split; done]. split; [done|]. intros _. by replace 11%nat with (S i) by lia.
    + destruct Ht as (Hk & Hx & Ex & Hadd). rewrite Hvr by done. rewrite Ex. rewrite decide_False by lia. intros [= <- <-]. set (m' := MkMap _ _ _). change (key_at (c_map c)) with (key_at m') in *.
      eapply mk_inv; try done; try apply I.
      * cbn [m' m_values]. rewrite insert_length. apply I.
      * intros t' Hne. split; [|by apply Forall_singleton]. cbn. by rewrite decide_False.
      * intros y Hy. rewrite added_app. cbn [m' m_values]. destruct (decide (y = x)) as [->|Hne].
        -- rewrite list_lookup_insert by (rewrite (v_vals _ _ _ I); lia). rewrite Ex. rewrite decide_False by lia. cbn. rewrite decide_True by done. rewrite zsum_app. cbn. unfold u64. rewrite Z.add_mod_idemp_l by lia. do 2 f_equal. lia.
        -- rewrite list_lookup_insert_ne by lia. rewrite (v_val _ _ _ I y Hy). change (key_at (c_map c)) with (key_at m'). destruct (decide _) as [|H0]; [done|]. cbn. rewrite decide_False; [by rewrite app_nil_r|].
           intros E. apply Hne. apply (placed_unique l (key_at m') y x); [apply I|done..|congruence].
      * intros k' H0 Hs. destruct (decide (k' = k)) as [->|Hne]; [by exists x|]. apply (v_seen _ _ _ I k' H0). destruct Hs as [Hs|(t' & v & Hs)]; [left|right].
        -- rewrite added_app in Hs. cbn in Hs. rewrite decide_False in Hs by done. by rewrite app_nil_r in Hs.
        -- apply elem_of_app in Hs as [Hs|Hs]; [eauto|]. by apply elem_of_list_singleton in Hs.
      * intros y Hy H0. rewrite added_app. cbn. destruct (decide (k = key_at m' y)) as [Ey|Ey]; [left; intros Hnil; by apply app_eq_nil in Hnil as [_ ?]|]. rewrite app_nil_r. destruct (v_inst _ _ _ I y Hy H0) as [?|(t' & d' & Lt)]; [by left|]. right. exists t', d'.
        rewrite list_lookup_insert_ne; [done|]. intros <-. rewrite L in Lt. injection Lt as E _ _. by destruct Ey.
      * intros k' rest _ _. cbn. destruct (decide (k = k')); done.
      * intros o2 p2 [= <- <-]. exists h1, (h2 ++ [EAdd t k d]). split; [rewrite Eh, <- app_assoc; done|]. split; [apply Forall_app; split; [done|by apply Forall_singleton]|]. cbn. split; [lia|]. split; [|eauto]. rewrite adds_by_app, Hadd. cbn. by rewrite decide_True.
    + intros [= <- <-]. eapply mk_inv; try done; try apply I.
      * intros t' Hne. split; [done|]. apply Forall_singleton. congruence.
      * intros x Hx. rewrite added_app. cbn [added omap list_omap]. rewrite app_nil_r. by apply (v_val _ _ _ I).
      * intros k' H0 Hs. apply (v_seen _ _ _ I k' H0). destruct Hs as [Hs|(t' & v & Hs)]; [left|right].
        -- rewrite added_app in Hs. cbn in Hs. by rewrite app_nil_r in Hs.
        -- apply elem_of_app in Hs as [Hs|Hs]; [eauto|]. by apply elem_of_list_singleton in Hs.
      * intros x Hx H0. rewrite added_app. cbn [added omap list_omap]. rewrite app_nil_r. destruct (v_inst _ _ _ I x Hx H0) as [?|(t' & d' & Lt)]; [by left|]. right. exists t', d'.
        rewrite list_lookup_insert_ne; [done|]. intros <-. by rewrite L in Lt.
      * intros k' rest _ _. destruct r as [[]|v f|]; cbn; try done. by destruct (decide (k = k')).
      * intros t' o r' [= <- <- <-]. exists h1, h2. done.
    + destruct Ht as (Hk & Hi & _). rewrite Hpr by lia. intros [= <- <-]. rewrite app_nil_r.
      eapply pure_inv; [exact I|exact L|done|done|done|].
      intros g1 g2 Eg _ (_ & _ & Hadd & Hn). pose proof (probe_range l k i Hl). destruct (Z.eqb_spec (key_at (c_map c) (probe l k i)) k) as [E|E]; [done|].
      assert (k ≠ 0 → seen k g1 → ∀ j, (j < S i)%nat → key_at (c_map c) (probe l k j) ≠ k) as Hn'.
      { intros H0 Hs j Hj. destruct (decide (j = i)) as [->|]; [done|]. apply Hn; [done..|lia]. }
      unfold greprobe, maxReprobe. destruct (Nat.ltb_spec 10 (S i)); cbn; [|split; [lia|]; split; [lia|]; split; done]. split; [done|]. split; [done|]. intros Hk0 Hs.
      destruct (v_seen _ _ _ I k Hk0) as (x & Hx & Ex). { rewrite Eg. by apply seen_app. }
      destruct (placed_found l _ x k (v_place _ _ _ I) Hx Ex Hk0) as (j & Hj & -> & _). apply (Hn' Hk0 Hs j); [lia|done].
    + destruct Ht as (Hx & Hadd & Ek). rewrite Hvr by done. intros [= <- <-]. rewrite app_nil_r.
      eapply pure_inv; [exact I|exact L|done|done|done|].
      intros g1 g2 Eg _ (_ & Hadd' & _). split; [done|]. intros H0. rewrite (Ek H0). rewrite decide_False by done. split; [eauto|]. exists g2, []. rewrite app_nil_r. split; [done|]. by rewrite <- Eg.
    + intros [= <- <-]. eapply mk_inv; try done; try apply I.
      * intros t' Hne. split; [done|]. apply Forall_singleton. congruence.
      * intros x Hx. rewrite added_app. cbn [added omap list_omap]. rewrite app_nil_r. by apply (v_val _ _ _ I).
      * intros k' H0 Hs. destruct Hs as [Hs|(t' & v & Hs)].
        -- apply (v_seen _ _ _ I k' H0). left. rewrite added_app in Hs. cbn in Hs. by rewrite app_nil_r in Hs.
        -- apply elem_of_app in Hs as [Hs|Hs]; [apply (v_seen _ _ _ I k' H0); right; eauto|]. apply elem_of_list_singleton in Hs. injection Hs as -> -> <-. destruct Ht as (_ & Ht). by destruct (Ht H0) as [? _].
      * intros x Hx H0. rewrite added_app. cbn [added omap list_omap]. rewrite app_nil_r. destruct (v_inst _ _ _ I x Hx H0) as [?|(t' & d' & Lt)]; [by left|]. right. exists t', d'.
        rewrite list_lookup_insert_ne; [done|]. intros <-. by rewrite L in Lt.
      * intros t' o r' [= <- <- <-]. exists h1, h2. done.
Qed.

Lemma init_inv l m n : size_ok l → New l = Ok m → inv l (MkCfg m (replicate n None)) [].
Proof.
  intros Hl E. unfold New in E. destruct Hl as [Hl1 Hl2]. assert (l <? 0 = false) as Hb by lia. rewrite Hb in E. injection E as <-.
  assert (∀ x, key_at (MkMap l (replicate (Z.to_nat l) 0) (replicate (Z.to_nat l) 0)) x = 0) as Hk.
  { intros x. unfold key_at. cbn [m_keys]. destruct (replicate _ 0 !! _) eqn:L; [|done]. by apply lookup_replicate in L as [-> _]. }
  constructor; cbn [c_map c_threads m_l m_keys m_values]; try done; try (by rewrite replicate_length).
  - intros x _ H. by rewrite Hk in H.
  - intros x Hx. rewrite Hk. rewrite lookup_replicate_2 by lia. done.
  - intros k _ [H|(t & v & H)]; [done|by apply elem_of_nil in H].
  - intros x _ H. by rewrite Hk in H.
  - intros k. cbn. induction n; [done|]. cbn. done.
  - intros t o p L. by apply lookup_replicate in L as [? _].
  - intros ha hb t o r E. by destruct ha.
Qed.
Lemma exec_app c a b : exec c (a ++ b) = (let '(c1, e1) := exec c a in let '(c2, e2) := exec c1 b in (c2, e1 ++ e2)).
Proof.
  revert c. induction a as [|x a IH]; intros c; cbn [app exec]; [by destruct (exec c b)|].
  destruct (step c x) as [c1 e1]. rewrite IH. destruct (exec c1 a) as [c2 e2]. destruct (exec c2 b) as [c3 e3]. by rewrite app_assoc.
Qed.
Lemma exec_inv l c h acts c' es : inv l c h → Forall action_ok acts → exec c acts = (c', es) → inv l c' (h ++ es).
Proof.
  intros I HF. revert c h es I. induction HF as [|a acts Ha HF IH]; intros c h es I; cbn [exec]; [by intros [= <- <-]; rewrite app_nil_r|].
  destruct (step c a) as [c1 e1] eqn:E1. destruct (exec c1 acts) as [c2 e2] eqn:E2. intros [= <- <-]. rewrite app_assoc. eapply IH; [|done]. by eapply step_inv.
Qed.
Lemma execution_inv l n acts c h : size_ok l → Forall action_ok acts → execution l n acts c h → inv l c h.
Proof. intros Hl HF (m & Em & E). change h with ([] ++ h). eapply exec_inv; [by apply init_inv|done|done]. Qed.
