(** Properties C39, C40, C41, C42, C43, C73 of the record map shared by any number
    of goroutines, in every interleaving of atomic operations, lock operations and
    single byte accesses. *)
From Coq Require Import ZifyBool ZifyNat.
From Verif Require Import Base BaseProofs Probe BufmapModel BufmapSpec BufconcModel BufconcSpec BufconcProofs BufconcInv BufconcStep BufconcTop BufconcLive.
Local Open Scope Z_scope.

Lemma passed_taken l ka k : passed l ka k 11 → ∀ x, x ∈ probe_slots l k → ka x ≠ 0 ∧ ka x ≠ k.
Proof. intros Hp x Hx. unfold probe_slots in Hx. apply elem_of_list_fmap in Hx as (i & -> & Hi). apply elem_of_seq in Hi. apply (Hp i). lia. Qed.

(** ** C39: an Update that returns has been carried out exactly once, at one moment
    between its call and its return, on the record left by the updates completed
    before that moment, and returns what its function returns there; or it has been
    refused without any effect (key 0, or the 11 slots of the key taken by others);
    or its function panicked. *)
Theorem C39_update_once l s n acts c h ha hb t k fn r : dims_ok l s → Forall action_ok acts → execution l s n acts c h → h = ha ++ ERet t (OUpdate k fn) r :: hb →
  ∃ h1 h2, ha = h1 ++ EInv t (OUpdate k fn) :: h2 ∧ quiet t h2 ∧
    ((∃ g1 g2 init, h2 = g1 ++ EDone t k fn init :: g2 ∧ done_by t g1 = [] ∧ done_by t g2 = [] ∧
        r = RUpdate (run (fn init) (content s k (h1 ++ EInv t (OUpdate k fn) :: g1))).2 ∧ r ≠ RUpdate Panic) ∨
     (done_by t h2 = [] ∧ ((k = 0 ∧ r = RUpdate (Err ErrInvalidKey)) ∨ (k ≠ 0 ∧ r = RUpdate (Err ErrOutOfSlots) ∧ ∀ x, x ∈ probe_slots l k → key_at (c_map c) x ≠ 0 ∧ key_at (c_map c) x ≠ k))) ∨
     (r = RPanic ∧ ∃ g1 g2 init, h2 = g1 ++ EPanic t k fn init :: g2 ∧ done_by t g1 = [] ∧ done_by t g2 = [] ∧
        (run (fn init) (content s k (h1 ++ EInv t (OUpdate k fn) :: g1))).2 = Panic)).
Proof.
  intros Hd HF Ex Eh. pose proof (execution_inv l s n acts c h Hd HF Ex) as I. destruct (v_ret _ _ _ _ I ha hb t _ r Eh) as (h1 & h2 & E1 & Hq & Ht).
  exists h1, h2. split; [done|]. split; [done|]. destruct r as [b []|r|]; cbn [thr] in Ht; try done.
  - destruct Ht as [(g1 & g2 & init & x & E & A & B & -> & Hr & _)|(Hn & [[-> ->]|(Hk & -> & Hp)])].
    + left. exists g1, g2, init. splits; try done. intros [= E']. done.
    + right. left. split; [done|]. by left.
    + right. left. split; [done|]. right. split; [done|]. split; [done|]. by apply passed_taken.
  - destruct Ht as (g1 & g2 & init & x & E & A & B & Hr & _). right. right. split; [done|]. exists g1, g2, init. done.
Qed.
Print Assumptions C39_update_once.
(** every completion and every panic belongs to an Update in progress, of a valid key *)
Theorem C39_inside l s n acts c h ha hb t k fn init : dims_ok l s → Forall action_ok acts → execution l s n acts c h → h = ha ++ EDone t k fn init :: hb ∨ h = ha ++ EPanic t k fn init :: hb →
  k ≠ 0 ∧ ∃ h1 h2, ha = h1 ++ EInv t (OUpdate k fn) :: h2 ∧ quiet t h2.
Proof. intros Hd HF Ex Eh. destruct (execution_inside l s n acts c h Hd HF Ex ha hb t k fn init Eh) as (? & _ & ?). done. Qed.
Print Assumptions C39_inside.
(** when everything has returned, the record of a key none of whose updates panicked
    is the effect of its completed updates, one after another *)
Lemma conc_record l s c h k x : inv l s c h → k ≠ 0 → 0 ≤ x < l → key_at (c_map c) x = k → record (c_map c) k = Some (bytes_at (c_map c) x).
Proof.
  intros I H0 Hx Ek. assert (∀ y, y ∈ slots_of (c_map c) k ↔ 0 ≤ y < l ∧ key_at (c_map c) y = k) as He.
  { intros y. unfold slots_of. rewrite elem_of_list_filter, elem_of_list_fmap. rewrite (sh_keys _ _ _ (v_shape _ _ _ _ I)). split.
    - intros [E (i & -> & Hi)]. apply elem_of_seq in Hi. split; [lia|done].
    - intros [Hy E]. split; [done|]. exists (Z.to_nat y). split; [lia|]. apply elem_of_seq. lia. }
  assert (slots_of (c_map c) k = [x]) as E; [|unfold record; by rewrite E]. assert (NoDup (slots_of (c_map c) k)) as ND.
  { unfold slots_of. apply NoDup_filter. change (map Z.of_nat ?L) with (Z.of_nat <$> L). apply NoDup_fmap; [intros ? ? ?; lia|]. apply NoDup_seq. }
  assert (∀ y, y ∈ slots_of (c_map c) k → y = x) as Hu. { intros y Hy. apply He in Hy as [Hy E]. apply (placed_unique l (key_at (c_map c)) y x); [apply I|done..|congruence|congruence]. }
  assert (x ∈ slots_of (c_map c) k) as Hin by (by apply He). destruct (slots_of (c_map c) k) as [|a [|b L]]; [by apply elem_of_nil in Hin|by rewrite (Hu a) by left|].
  exfalso. rewrite NoDup_cons in ND. destruct ND as [ND _]. apply ND. rewrite (Hu a), <- (Hu b) by (repeat first [left|right]). left.
Qed.
Theorem C39_no_update_lost l s n acts c h k : dims_ok l s → Forall action_ok acts → execution l s n acts c h → quiescent c → k ≠ 0 → (∀ t fn init, EPanic t k fn init ∉ h) →
  record (c_map c) k = Some (content s k h) ∨ (record (c_map c) k = None ∧ writes k h = 0).
Proof.
  intros Hd HF Ex Q H0 Hnp. pose proof (execution_inv l s n acts c h Hd HF Ex) as I.
  destruct (quiescent_record l s c h k I Q H0) as [(x & Hx & Ek & Eb)|[Hno Hw]].
  - intros (t & fn & init & Hin). by apply (Hnp t fn init).
  - left. by rewrite (conc_record l s c h k x), Eb.
  - right. split; [|done]. unfold record. assert (slots_of (c_map c) k = []) as ->; [|done]. destruct (slots_of (c_map c) k) as [|a L] eqn:E; [done|]. exfalso. assert (a ∈ slots_of (c_map c) k) as Ha by (rewrite E; left).
    unfold slots_of in Ha. rewrite elem_of_list_filter, elem_of_list_fmap in Ha. rewrite (sh_keys _ _ _ (v_shape _ _ _ _ I)) in Ha. destruct Ha as [Ea (i & -> & Hi)]. apply elem_of_seq in Hi. apply (Hno (Z.of_nat i)); [lia|done].
Qed.
Print Assumptions C39_no_update_lost.

(** ** C40, in part.  A Get of a key that finds it, during which fewer than 2^31
    updates of the key complete, with a buffer not longer than a record, fills the
    buffer from the complete record of one moment during the call, never a mix.
    What is missing: it copies only as many bytes as the number of the slot (C33),
    the rest of the buffer is left as it was, and for the last slots it panics
    (C34).  Not found: no update was completed, and nobody had found it, before. *)
Theorem C40_not_torn_partial l s n acts c h ha hb t k buf r : dims_ok l s → Forall action_ok acts → execution l s n acts c h → k ≠ 0 → h = ha ++ ERet t (OGet k buf) r :: hb →
  ∃ h1 h2, ha = h1 ++ EInv t (OGet k buf) :: h2 ∧ quiet t h2 ∧
    ((∃ b x, r = RGet b true ∧ length b = length buf ∧ 0 ≤ x < l ∧ key_at (c_map c) x = k ∧ x * (s + 1) ≤ l * s ∧
        (Z.of_nat (length buf) ≤ s → writes k h2 < 2^31 → let j := Nat.min (length buf) (Z.to_nat x) in
         ∃ g1 g2, h2 = g1 ++ g2 ∧ b = take j (content s k (h1 ++ EInv t (OGet k buf) :: g1)) ++ drop j buf)) ∨
     (r = RGet buf false ∧ ¬ seen k h1) ∨
     (r = RPanic ∧ ∃ x, 0 ≤ x < l ∧ key_at (c_map c) x = k ∧ l * s < x * (s + 1))).
Proof.
  intros Hd HF Ex H0 Eh. pose proof (execution_inv l s n acts c h Hd HF Ex) as I. destruct (v_ret _ _ _ _ I ha hb t _ r Eh) as (h1 & h2 & E1 & Hq & Ht).
  exists h1, h2. split; [done|]. split; [done|]. destruct r as [b []|r|]; cbn [thr] in Ht; try done.
  - destruct Ht as (_ & Hl & Ht). destruct (Ht H0) as (x & Hx & Ek & Hxl & Hb). left. exists b, x. done.
  - destruct Ht as (_ & -> & Ht). right. left. auto.
  - destruct Ht as (_ & Ht). right. right. auto.
Qed.
Print Assumptions C40_not_torn_partial.
(** with no update of the key completed during the call: exactly the record left by
    those completed before *)
Theorem C40_get_current_partial l s n acts c h h1 h2 hb t k buf b : dims_ok l s → Forall action_ok acts → execution l s n acts c h → k ≠ 0 →
  h = h1 ++ EInv t (OGet k buf) :: h2 ++ ERet t (OGet k buf) (RGet b true) :: hb → quiet t h2 → writes k h2 = 0 → Z.of_nat (length buf) ≤ s →
  ∃ x, 0 ≤ x < l ∧ key_at (c_map c) x = k ∧ let j := Nat.min (length buf) (Z.to_nat x) in b = take j (content s k h1) ++ drop j buf.
Proof.
  intros Hd HF Ex H0 Eh Hq Hw Hl. assert (h = (h1 ++ EInv t (OGet k buf) :: h2) ++ ERet t (OGet k buf) (RGet b true) :: hb) as Eh' by (rewrite Eh, <- app_assoc; done).
  destruct (C40_not_torn_partial l s n acts c h _ hb t k buf _ Hd HF Ex H0 Eh') as (i1 & i2 & E & Hqi & [(b' & x & [= <-] & _ & Hx & Ek & _ & Hb)|[([=] & _)|([=] & _)]]).
  destruct (last_call E Hq Hqi) as (-> & _ & ->). exists x. split; [done|]. split; [done|]. destruct Hb as (g1 & g2 & -> & ->); [done|lia|]. rewrite writes_app in Hw. pose proof (writes_nonneg k g1). pose proof (writes_nonneg k g2).
  cbn. rewrite content_nowrites; [done|]. change (writes k (EInv t (OGet k buf) :: g1)) with (writes k g1). lia.
Qed.
Print Assumptions C40_get_current_partial.

(** ** C41 (bufmap): a key is in at most one slot, one of the 11 it may occupy *)
Theorem C41_bufmap_one_slot l s n acts c h x y k : dims_ok l s → Forall action_ok acts → execution l s n acts c h → k ≠ 0 →
  0 ≤ x < l → 0 ≤ y < l → key_at (c_map c) x = k → key_at (c_map c) y = k → x = y ∧ x ∈ probe_slots l k.
Proof.
  intros Hd HF Ex H0 Hx Hy E1 E2. pose proof (execution_inv l s n acts c h Hd HF Ex) as I. split.
  - apply (placed_unique l (key_at (c_map c)) x y (v_place _ _ _ _ I)); congruence.
  - destruct (placed_found l _ x k (v_place _ _ _ _ I) Hx E1 H0) as (i & Hi & -> & _). unfold probe_slots, probe. apply elem_of_list_fmap. exists i. split; [done|]. apply elem_of_seq. lia.
Qed.
Print Assumptions C41_bufmap_one_slot.

(** ** C42 is false.  The function counts: the first byte becomes 1 on
    initialisation and is incremented otherwise.  One goroutine installs the key;
    before it takes the lock another finds the key and increments; then the first
    initialises: two updates have been completed, the count is 1.  And two
    goroutines that both see the free slot are both told to initialise. *)
Definition counter (init : bool) : prog := if init then PWrite 0 1 (PDone (Ok ())) else PRead 0 (λ v, PWrite 0 (v + 1) (PDone (Ok ()))).
Definition st (t n : nat) : list action := replicate n (AStep t).
Definition race1 : list action := [ACall 0 (OUpdate 3 counter)] ++ st 0 2 ++ [ACall 1 (OUpdate 3 counter)] ++ st 1 10 ++ st 0 10.
Definition race2 : list action := [ACall 0 (OUpdate 3 counter)] ++ st 0 1 ++ [ACall 1 (OUpdate 3 counter)] ++ st 1 10 ++ st 0 10.
Definition flags (k : Z) (h : list event) : list bool := omap (λ e, match e with EDone _ k' _ init => if decide (k' = k) then Some init else None | _ => None end) h.
Theorem C42_refuted :
  (∃ c h, Forall action_ok race1 ∧ execution 8 2 2 race1 c h ∧ quiescent c ∧ flags 3 h = [false; true] ∧ record (c_map c) 3 = Some [1; 0]) ∧
  (∃ c h, Forall action_ok race2 ∧ execution 8 2 2 race2 c h ∧ quiescent c ∧ flags 3 h = [true; true] ∧ record (c_map c) 3 = Some [1; 0]).
Proof.
  destruct (New 8 2) as [m| |] eqn:Em; [|done..]. split.
  - destruct (exec (MkCfg m (replicate 2 None)) race1) as [c h] eqn:E. exists c, h. split; [by repeat constructor; cbn; lia|]. split; [eexists; split; [exact Em|exact E]|].
    vm_compute in Em. injection Em as <-. vm_compute in E. injection E as <- <-. split; [|split; reflexivity]. intros t p L. apply elem_of_list_lookup_2 in L. cbn [c_threads] in L. rewrite !elem_of_cons, elem_of_nil in L. tauto.
  - destruct (exec (MkCfg m (replicate 2 None)) race2) as [c h] eqn:E. exists c, h. split; [by repeat constructor; cbn; lia|]. split; [eexists; split; [exact Em|exact E]|].
    vm_compute in Em. injection Em as <-. vm_compute in E. injection E as <- <-. split; [|split; reflexivity]. intros t p L. apply elem_of_list_lookup_2 in L. cbn [c_threads] in L. rewrite !elem_of_cons, elem_of_nil in L. tauto.
Qed.
Print Assumptions C42_refuted.
(** What does hold, in every interleaving: a function is not told to initialise only
    if at least two Updates of the key had been called by then and the key is in its
    home slot; in its home slot it is told to initialise only if no update of the
    key had been completed before its call. *)
Theorem C42_first_partial l s n acts c h ha hb t k fn init : dims_ok l s → Forall action_ok acts → execution l s n acts c h → h = ha ++ EDone t k fn init :: hb →
  (init = false → (2 ≤ calls k ha)%nat).
Proof. intros Hd HF Ex Eh ->. by eapply (r_done _ _ _ (execution_races l s n acts c h Hd HF Ex)). Qed.
Print Assumptions C42_first_partial.
Theorem C42_flag_partial l s n acts c h ha hb t k fn r h1 g1 g2 init : dims_ok l s → Forall action_ok acts → execution l s n acts c h → h = ha ++ ERet t (OUpdate k fn) r :: hb →
  ha = h1 ++ EInv t (OUpdate k fn) :: g1 ++ EDone t k fn init :: g2 → quiet t (g1 ++ EDone t k fn init :: g2) →
  (init = false → key_at (c_map c) (home l k) = k) ∧ (init = true → key_at (c_map c) (home l k) = k → writes k h1 = 0).
Proof.
  intros Hd HF Ex Eh Ea Hq. pose proof (execution_inv l s n acts c h Hd HF Ex) as I. destruct (v_ret _ _ _ _ I ha hb t _ r Eh) as (i1 & i2 & E1 & Hqi & Ht).
  rewrite Ea in E1. destruct (last_call E1 Hq Hqi) as (-> & _ & ->).
  assert (done_by t (g1 ++ EDone t k fn init :: g2) ≠ []) as Hne. { rewrite done_by_app. cbn. rewrite decide_True by done. by destruct (done_by t g1). }
  assert (∀ x, 0 ≤ x < l → key_at (c_map c) x = k → k ≠ 0 → flag l k x init h1 → (init = false → key_at (c_map c) (home l k) = k) ∧ (init = true → key_at (c_map c) (home l k) = k → writes k h1 = 0)) as Hfl.
  { intros x Hx Ek H0 [F1 F2]. assert (home l k = probe l k 0) as Eho by (unfold home, probe; by rewrite Z.add_0_r). rewrite Eho. split.
    - intros Hi. by rewrite <- (F1 Hi).
    - intros Hi E. assert (x = probe l k 0) as Exp. { apply (placed_unique l (key_at (c_map c))); [apply I|done|apply probe_range; lia|congruence|congruence]. }
      specialize (F2 Hi Exp). pose proof (writes_nonneg k h1).
      assert (h = h1 ++ (EInv t (OUpdate k fn) :: (g1 ++ EDone t k fn init :: g2) ++ ERet t (OUpdate k fn) r :: hb)) as Eh' by (rewrite Eh, Ea, <- app_assoc; done).
      pose proof (execution_begun l s n acts c h Hd HF Ex h1 _ k Eh'). lia. }
  destruct r as [b []|r|]; cbn [thr] in Ht; try done.
  - destruct Ht as [(a1 & a2 & i' & x & E & A & B & -> & Hr & H0 & Hx & Ek & Hf)|(Hn & _)]; [|done].
    assert (a1 = g1 ∧ i' = init) as [-> ->]; [|by eapply Hfl]. apply app_eq_app in E as (z & [[Z1 Z2]|[Z1 Z2]]); (destruct z as [|e z]; [rewrite app_nil_r in Z1; injection Z2 as <- _; done|injection Z2 as <- Z2; exfalso]).
    + rewrite Z2, done_by_app in B. apply app_eq_nil in B as [_ B]. cbn in B. by rewrite decide_True in B.
    + rewrite Z1, done_by_app in A. apply app_eq_nil in A as [_ A]. cbn in A. by rewrite decide_True in A.
  - destruct Ht as (a1 & a2 & i' & x & E & A & B & Hr & H0 & Hx & Ek & Hf). exfalso.
    assert (done_by t (g1 ++ EDone t k fn init :: g2) = [EPanic t k fn i']) as E2. { rewrite E, done_by_app, A. unfold done_by in *. cbn. rewrite decide_True by done. by rewrite B. }
    rewrite done_by_app in E2. cbn in E2. rewrite decide_True in E2 by done. destruct (done_by t g1) as [|? [|]]; done.
Qed.
Print Assumptions C42_flag_partial.

(** ** C43 is false for the map under concurrency too: once a function given to
    Update(k) has panicked, no call on k made afterwards by anyone ever returns. *)
Theorem C43_bufmap_concurrent_refuted l s n acts c h t0 k fn init acts' c' h' t o : dims_ok l s → Forall action_ok acts → Forall action_ok acts' → action_ok (ACall t o) → execution l s n acts c h →
  EPanic t0 k fn init ∈ h → on_key k o → c_threads c !! t = Some None → exec c (ACall t o :: acts') = (c', h') → ∀ r, ERet t o r ∉ h'.
Proof.
  intros Hd HF HF' Ha Ex Hin Ho L E r Hr. pose proof (execution_inv l s n acts c h Hd HF Ex) as I. assert (dead k h) as Hdead by (by exists t0, fn, init).
  assert (k ≠ 0) as H0. { intros ->. by destruct (v_zero _ _ _ _ I) as (_ & _ & ?). }
  cbn [exec] in E. destruct (step c (ACall t o)) as [c1 e1] eqn:E1. destruct (exec c1 acts') as [c2 e2] eqn:E2. injection E as <- <-. pose proof (step_inv _ _ _ _ _ _ _ I Ha E1) as I1.
  cbn [step] in E1. rewrite L in E1. injection E1 as <- <-. assert (t < length (c_threads c))%nat as Hlt by (by eapply lookup_lt_Some).
  assert (quiet t e2) as Hq. { eapply (never_exec l s (MkCfg (c_map c) (<[t := Some (o, start o)]> (c_threads c))) (h ++ [EInv t o]) acts' c2 e2 t o (start o) h [] k); try done; [cbn [c_threads]; by rewrite list_lookup_insert| |constructor].
    destruct o as [k' b|k' fn']; cbn in Ho |- *; [done|]. subst k'. by apply Z.eqb_neq in H0 as ->. }
  apply elem_of_app in Hr as [Hr|Hr]; [by apply elem_of_list_singleton in Hr|]. unfold quiet in Hq. rewrite Forall_forall in Hq. by apply Hq in Hr.
Qed.
Print Assumptions C43_bufmap_concurrent_refuted.

(** ** C73: calls on one key do not wait for calls on other keys.  If no update of k
    is under way or will be called by others, and none has panicked, then Get(k) returns
    within 14 + length of the buffer steps of its own, and Update(k) within 38 plus
    the accesses of its function, whatever the other goroutines do, even if they
    hold the locks of other keys for ever. *)
Theorem C73_independent l s n acts c h acts' c' h' t k o q : dims_ok l s → Forall action_ok acts → Forall action_ok acts' → action_ok (ACall t o) → execution l s n acts c h → k ≠ 0 → on_key k o →
  c_threads c !! t = Some None → (∀ t' fn init, EPanic t' k fn init ∉ h) → (∀ t' fn p, c_threads c !! t' ≠ Some (Some (OUpdate k fn, p))) →
  Forall (λ a, match a with ACall _ (OUpdate k' _) => k' ≠ k | _ => True end) acts' → exec c (ACall t o :: acts') = (c', h') →
  match o with OGet _ buf => (14 + length buf ≤ steps_of t acts')%nat | OUpdate _ fn => bounded q (fn true) ∧ bounded q (fn false) ∧ (38 + q ≤ steps_of t acts')%nat end →
  ∃ r, ERet t o r ∈ h'.
Proof.
  intros Hd HF HF' Ha Ex H0 Ho L Hnp Hno HG E Hs. pose proof (execution_inv l s n acts c h Hd HF Ex) as I.
  cbn [exec] in E. destruct (step c (ACall t o)) as [c1 e1] eqn:E1. destruct (exec c1 acts') as [c2 e2] eqn:E2. injection E as <- <-. pose proof (step_inv _ _ _ _ _ _ _ I Ha E1) as I1.
  cbn [step] in E1. rewrite L in E1. injection E1 as <- <-. assert (t < length (c_threads c))%nat as Hlt by (by eapply lookup_lt_Some).
  destruct (live l s (MkCfg (c_map c) (<[t := Some (o, start o)]> (c_threads c))) (h ++ [EInv t o]) acts' c2 e2 t o (start o) k (steps_of t acts')) as (r & Hr); try done.
  - intros t' fn p Hne. cbn [c_threads]. by rewrite list_lookup_insert_ne.
  - right. intros (t' & fn & init & Hin). apply elem_of_app in Hin as [Hin|Hin]; [by eapply Hnp|by apply elem_of_list_singleton in Hin].
  - cbn [c_threads]. by rewrite list_lookup_insert.
  - destruct o as [k' b|k' fn]; cbn in Ho; subst k'; cbn [start fits].
    + lia.
    + assert (k =? 0 = false) as -> by lia. destruct Hs as (B1 & B2 & Hs). exists q. split; [done|lia].
  - exists r. by right.
Qed.
Print Assumptions C73_independent.

(** ** The functions of the sequential model, that compute with the whole slice, are
    programs of this model with the same effect *)
Theorem C39_whole_functions s fn init d : fn_ok fn → length d = Z.to_nat s → BufconcSpec.run (as_prog s fn init) d = fn d init.
Proof. exact (run_as_prog s fn init d). Qed.
Print Assumptions C39_whole_functions.

(** ** A concrete run: goroutine 2 reads the record of key 9 while goroutine 0 is in
    the middle of changing its two bytes, retries, and returns both new bytes;
    goroutine 1 panics in an update of key 4, whose lock stays taken. *)
Definition pair (a : Z) (init : bool) : prog := PWrite 0 a (PWrite 1 (a + 1) (PDone (Ok ()))).
Definition bad (init : bool) : prog := PWrite 0 9 (PRead 2 (λ _, PDone (Ok ()))).
Definition ex_acts : list action :=
  [ACall 0 (OUpdate 9 (pair 10))] ++ st 0 10 ++ [ACall 2 (OGet 9 [0; 0])] ++ st 2 3 ++ [ACall 0 (OUpdate 9 (pair 20))] ++ st 0 4 ++ st 2 3 ++ st 0 5 ++ st 2 10 ++
  [ACall 1 (OUpdate 4 bad)] ++ st 1 10.
Definition shows (h : list event) : list (nat * option res) := omap (λ e, match e with EInv t _ => Some (t, None) | ERet t _ r => Some (t, Some r) | _ => None end) h.
Example bufconc_nonvacuous : ∃ c h, dims_ok 16 2 ∧ Forall action_ok ex_acts ∧ execution 16 2 3 ex_acts c h ∧ quiescent c ∧
  shows h = [(0%nat, None); (0%nat, Some (RUpdate (Ok ()))); (2%nat, None); (0%nat, None); (0%nat, Some (RUpdate (Ok ()))); (2%nat, Some (RGet [20; 21] true)); (1%nat, None); (1%nat, Some RPanic)] ∧
  record (c_map c) 9 = Some [20; 21] ∧ (∃ t fn init, EPanic t 4 fn init ∈ h) ∧ flags 9 h = [true; false].
Proof.
  destruct (New 16 2) as [m| |] eqn:Em; [|done..]. destruct (exec (MkCfg m (replicate 3 None)) ex_acts) as [c h] eqn:E. exists c, h. split; [unfold dims_ok; lia|]. split; [by repeat constructor; cbn; lia|].
  split; [eexists; split; [exact Em|exact E]|]. vm_compute in Em. injection Em as <-. vm_compute in E. injection E as <- <-. split; [|split; [reflexivity|split; [reflexivity|split; [|reflexivity]]]].
  - intros t p L. apply elem_of_list_lookup_2 in L. cbn [c_threads] in L. rewrite !elem_of_cons, elem_of_nil in L. tauto.
  - eexists 1%nat, _, _. apply elem_of_list_In. cbn. tauto.
Qed.
