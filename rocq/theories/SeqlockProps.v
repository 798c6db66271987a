(** Properties C47, C48, C49, C72 and the seqlock half of C43: a block shared by any
    number of goroutines, in every interleaving of single byte accesses, atomic
    operations and lock operations. *)
From Coq Require Import ZifyBool ZifyNat.
From Verif Require Import Base BaseProofs SeqlockModel SeqlockSpec SeqlockProofs SeqlockTop.
Local Open Scope Z_scope.

(** ** C47: a Get during which fewer than 2^31 writes are completed returns the
    complete block of one moment during the call *)
Theorem C47_reads_not_torn n acts c h ha hb t r : Forall action_ok acts → execution n acts c h → h = ha ++ ERet t OGet r :: hb →
  ∃ h1 h2 ret, ha = h1 ++ EInv t OGet :: h2 ∧ quiet t h2 ∧ r = RGet ret ∧ (writes h2 < 2^31 → ∃ g1 g2, h2 = g1 ++ g2 ∧ ret = stored (h1 ++ EInv t OGet :: g1)).
Proof.
  intros HF Ex Eh. pose proof (execution_inv n acts c h HF Ex) as I. destruct (v_ret _ _ I ha hb t OGet r Eh) as (h1 & h2 & E1 & Hq & Ht). destruct r as [ret|]; [|by destruct Ht].
  exists h1, h2, ret. split; [done|]. split; [done|]. split; [done|]. apply Ht.
Qed.
Print Assumptions C47_reads_not_torn.

(** ** C48: a Put, and an Update whose function does not panic, is completed exactly
    once, between its call and its return; the result of Update is what its
    function returns on the block at that moment.  The block is, by [stored],
    the effect of the completed calls one at a time; a failing function has no
    effect. *)
Theorem C48_writes_atomic n acts c h ha hb t o r : Forall action_ok acts → execution n acts c h → h = ha ++ ERet t o r :: hb → o ≠ OGet →
  ∃ h1 h2 x, ha = h1 ++ EInv t o :: h2 ∧ quiet t h2 ∧ r = RWrite x ∧
    ((x ≠ Panic ∧ ∃ g1 g2, h2 = g1 ++ EDone t o :: g2 ∧ done_by t g1 = [] ∧ done_by t g2 = [] ∧ x = (effect o (stored (h1 ++ EInv t o :: g1))).2) ∨
     (x = Panic ∧ done_by t h2 = [] ∧ ∃ g1 g2, h2 = g1 ++ g2 ∧ (effect o (stored (h1 ++ EInv t o :: g1))).2 = Panic)).
Proof.
  intros HF Ex Eh Ho. pose proof (execution_inv n acts c h HF Ex) as I. destruct (v_ret _ _ I ha hb t o r Eh) as (h1 & h2 & E1 & Hq & Ht).
  destruct r as [ret|x]; [by destruct o|]. exists h1, h2, x. split; [done|]. split; [done|]. split; [done|].
  destruct o; [done|..]; cbn [thr] in Ht; destruct (decide (x = Panic)); auto.
Qed.
Print Assumptions C48_writes_atomic.
(** every completion belongs to a call in progress of Put or Update *)
Theorem C48_writes_inside n acts c h ha hb t o : Forall action_ok acts → execution n acts c h → h = ha ++ EDone t o :: hb →
  o ≠ OGet ∧ ∃ h1 h2, ha = h1 ++ EInv t o :: h2 ∧ quiet t h2.
Proof. intros HF Ex. apply (exec_done _ [] acts c h (init_inv n) HF); [|done]. intros ga gb t' o' E. by destruct ga. Qed.
Print Assumptions C48_writes_inside.
(** a Get during which no write is completed returns exactly the block left by the
    writes completed before it was called *)
Theorem C48_get_current n acts c h h1 h2 hb t r : Forall action_ok acts → execution n acts c h → h = h1 ++ EInv t OGet :: h2 ++ ERet t OGet r :: hb → quiet t h2 → writes h2 = 0 → r = RGet (stored h1).
Proof.
  intros HF Ex Eh Hq Hw. assert (h = (h1 ++ EInv t OGet :: h2) ++ ERet t OGet r :: hb) as Eh' by (rewrite Eh, <- app_assoc; done).
  destruct (C47_reads_not_torn n acts c h _ hb t r HF Ex Eh') as (i1 & i2 & ret & E & Hqi & -> & Hs).
  assert (i1 = h1 ∧ i2 = h2) as [-> ->].
  { apply app_eq_app in E as (z & [[Z1 Z2]|[Z1 Z2]]); (destruct z as [|e z]; [rewrite app_nil_r in Z1; cbn in Z2; by injection Z2 as ->|injection Z2 as <- Z2; exfalso]).
    - rewrite Z2 in Hqi. apply Forall_app in Hqi as [_ Hqi]. inversion_clear Hqi as [|? ? Hbad _]. done.
    - rewrite Z2 in Hq. apply Forall_app in Hq as [_ Hq]. inversion_clear Hq as [|? ? Hbad _]. done. }
  destruct (Hs ltac:(lia)) as (g1 & g2 & -> & ->). rewrite writes_app in Hw. pose proof (writes_nonneg g1). pose proof (writes_nonneg g2). f_equal. apply stored_nowrites. change (writes (EInv t OGet :: g1)) with (writes g1). lia.
Qed.
Print Assumptions C48_get_current.

(** ** C49 is false: with 2^31 Puts during one Get the counter is back at the same
    value, and the Get returns a block that was never stored. *)
Theorem C49_wraparound_refuted : ∃ n acts c h h1 h2 ret, Forall action_ok acts ∧ execution n acts c h ∧ h = h1 ++ EInv 0 OGet :: h2 ++ [ERet 0 OGet (RGet ret)] ∧ quiet 0 h2 ∧
  ∀ g1 g2, h = g1 ++ g2 → ret ≠ stored g1.
Proof.
  pose proof blk_two as Hb2. set (v := replicate blk 1). assert (length v = blk) as Hv by apply replicate_length.
  assert (∃ k, Z.of_nat k = 2^31 ∧ (0 < k)%nat) as (k & Hk & Hk0) by (exists (Z.to_nat (2^31)); lia).
  assert (<[0%nat:=0]> (replicate blk 0) = replicate blk 0) as Hz by (apply list_insert_id; apply lookup_replicate_2; lia).
  set (c1 := MkCfg New [Some (OGet, GCopy 0 1 (replicate blk 0)); None]).
  destruct (put_many k c1 1 v) as (es & Ep & HFe & Hqe); try done; try (by apply replicate_length).
  assert (exec (MkCfg New (replicate 2 None)) [ACall 0 OGet; AStep 0; AStep 0] = (c1, [EInv 0 OGet])) as E0.
  { unfold c1, New. cbn [replicate exec step c_threads lookup list_lookup c_sh start step_call insert list_insert s_seq s_data]. change (0 mod 2 =? 0) with true. cbn [exec step c_threads lookup list_lookup c_sh start step_call insert list_insert s_seq s_data].
    assert ((1 <? blk)%nat = true) as -> by (apply Nat.ltb_lt; lia). assert (byte_at (replicate blk 0) 0 = 0) as -> by (unfold byte_at; by rewrite lookup_replicate_2 by lia). rewrite Hz. done. }
  cbn [c1 c_sh s_seq New c_threads] in Ep. assert ((0 + 2 * Z.of_nat k) mod 2^32 = 0) as Hm. { rewrite Hk. done. } rewrite Hm in Ep.
  set (c2 := MkCfg (MkSeq 0 false v) [Some (OGet, GCopy 0 1 (replicate blk 0)); None]) in *.
  pose proof (get_copy c2 0 0 1 (replicate blk 0) eq_refl ltac:(lia) ltac:(by rewrite replicate_length) Hv) as Eg.
  cbn [c2 c_sh s_data c_threads insert list_insert] in Eg. set (ret := take 1 (replicate blk 0) ++ drop 1 v) in *.
  exists 2%nat, ([ACall 0 OGet; AStep 0; AStep 0] ++ concat (replicate k (put_acts 1 v)) ++ replicate (blk - 1) (AStep 0) ++ [AStep 0; AStep 0]), (MkCfg (MkSeq 0 false v) [None; None]), ([EInv 0 OGet] ++ es ++ [ERet 0 OGet (RGet ret)]), [], es, ret.
  split; [|split; [|split; [done|split; [by apply Hqe|]]]].
  - apply Forall_app. split; [by repeat constructor|]. apply Forall_app. split; [|apply Forall_app; split; [by apply Forall_replicate|by repeat constructor]].
    clear -Hv. induction k as [|k IH]; [constructor|]. cbn [replicate concat]. apply Forall_app. split; [|done]. unfold put_acts. apply Forall_app. split; [by repeat constructor|]. apply Forall_app. split; [by apply Forall_replicate|by repeat constructor].
  - unfold execution. rewrite exec_app, E0, exec_app, Ep, exec_app. fold c2. rewrite Eg. cbn [exec step c_threads lookup list_lookup c_sh step_call s_seq insert list_insert]. rewrite Z.eqb_refl. cbn [exec step c_threads lookup list_lookup c_sh step_call s_seq insert list_insert]. rewrite !app_nil_l, !app_nil_r. done.
  - intros g1 g2 Eg12. assert (stored g1 = replicate blk 0 ∨ stored g1 = v) as Hst.
    { assert (Forall (λ e, match e with EDone _ o => o = OPut v | _ => True end) g1) as HFg.
      { assert (Forall (λ e, match e with EDone _ o => o = OPut v | _ => True end) (g1 ++ g2)) as HFF; [|by apply Forall_app in HFF as [? _]]. rewrite <- Eg12. constructor; [done|]. apply Forall_app. split; [done|by repeat constructor]. }
      clear -HFg. induction g1 as [|e g1 IH] using rev_ind; [by left|]. apply Forall_app in HFg as [HF1 HF2]. rewrite Forall_singleton in HF2. rewrite stored_snoc. destruct e as [| |t o|]; try (by apply IH). subst o. by right. }
    assert (ret !! 0%nat = Some 0) as R0. { unfold ret. rewrite lookup_app_l by (rewrite take_length, replicate_length; lia). rewrite lookup_take by lia. by apply lookup_replicate_2; lia. }
    assert (ret !! 1%nat = Some 1) as R1. { unfold ret. rewrite lookup_app_r by (rewrite take_length, replicate_length; lia). rewrite take_length, replicate_length, lookup_drop. unfold v. apply lookup_replicate_2. lia. }
    intros E. rewrite E in R0, R1. destruct Hst as [E'|E']; rewrite E' in R0, R1; unfold v in *; rewrite lookup_replicate_2 in R0, R1 by lia; congruence.
Qed.
Print Assumptions C49_wraparound_refuted.

(** ** C43 (seqlock) is false: once a function given to Update has panicked, no call
    made afterwards by anyone ever returns. *)
Theorem C43_seqlock_refuted n acts c h t0 o0 acts' c' h' t o : Forall action_ok acts → execution n acts c h → ERet t0 o0 (RWrite Panic) ∈ h →
  c_threads c !! t = Some None → exec c (ACall t o :: acts') = (c', h') → ∀ r, ERet t o r ∉ h'.
Proof.
  intros HF Ex Hin L E r. pose proof (execution_inv n acts c h HF Ex) as I. destruct (dead_stuck c h I) as [W S]; [by exists t0, o0|].
  eapply (stuck_noret c (ACall t o :: acts') c' h' t); try done. intros o' p' L'. by rewrite L in L'.
Qed.
Print Assumptions C43_seqlock_refuted.

(** ** C72: a Get made while nobody is inside Put or Update returns within 1027 of its
    own steps, however the other readers are scheduled *)
Theorem C72_get_returns n acts c h t acts' c' h' : Forall action_ok acts → execution n acts c h → (∀ t o p, c_threads c !! t = Some (Some (o, p)) → o = OGet) → (∀ t o, ERet t o (RWrite Panic) ∉ h) →
  c_threads c !! t = Some None → Forall (λ a, match a with ACall _ o => o = OGet | AStep _ => True end) acts' → exec c (ACall t OGet :: acts') = (c', h') → 1027 ≤ Z.of_nat (steps_of t acts') →
  ∃ r, ERet t OGet r ∈ h'.
Proof.
  intros HF Ex NW ND L HF' E Hs. pose proof (execution_inv n acts c h HF Ex) as I.
  destruct (idle_even c h I NW) as [Hev _]; [by intros (t' & o & Hin); apply (ND t' o)|]. assert (t < length (c_threads c))%nat as Hlt by (by eapply lookup_lt_Some).
  cbn [exec step] in E. rewrite L in E. destruct (exec _ acts') as [c2 e2] eqn:E2. injection E as <- <-.
  set (c1 := MkCfg (c_sh c) (<[t := Some (OGet, GSeq1)]> (c_threads c))) in *.
  assert (noWriters c1) as NW1.
  { intros t' o' p' Lt. cbn [c1 c_threads] in Lt. destruct (decide (t' = t)) as [->|Hne]; [rewrite list_lookup_insert in Lt by done; by injection Lt as <- <-|rewrite list_lookup_insert_ne in Lt by done; by eapply NW]. }
  assert (c_threads c1 !! t = Some (Some (OGet, GSeq1))) as L1 by (cbn [c1 c_threads]; by rewrite list_lookup_insert).
  destruct (get_undisturbed c1 acts' c2 e2 t GSeq1) as (r & Hr); [exact NW1|exact Hev|exact HF'|exact L1|cbn; lia|done|exact E2| |].
  - unfold fuel. rewrite blk_val. lia.
  - exists r. by right.
Qed.
Print Assumptions C72_get_returns.

(** ** A concrete run: goroutine 0 has copied half of the block when goroutine 1
    starts a Put of ones, and finishes its copy in the middle of it; it notices,
    retries, and returns the ones; an Update that fails and one that panics. *)
Definition steps (t n : Z) : list action := replicate (Z.to_nat n) (AStep (Z.to_nat t)).
Definition ones : bytes := replicate blk 1.
Definition failing (d : bytes) : bytes * outcome unit := (replicate blk 2, Err ErrEOF).
Definition panicking (d : bytes) : bytes * outcome unit := (replicate blk 3, Panic).
Definition ex_acts : list action :=
  [ACall 0 OGet] ++ steps 0 513 ++ [ACall 1 (OPut ones)] ++ steps 1 700 ++ steps 0 513 ++ steps 1 400 ++ steps 0 1030 ++
  [ACall 1 (OUpdate failing)] ++ steps 1 1100 ++ [ACall 2 OGet] ++ steps 2 1100 ++ [ACall 1 (OUpdate panicking)] ++ steps 1 1100.
Definition shows (h : list event) : list (nat * option (res + unit)) :=
  map (λ e, match e with EInv t _ => (t, None) | EBegin t _ | EDone t _ => (t, Some (inr ())) | ERet t _ r => (t, Some (inl r)) end) h.
Example seqlock_nonvacuous : ∃ c h, Forall action_ok ex_acts ∧ execution 3 ex_acts c h ∧ (∀ t o p, c_threads c !! t = Some (Some (o, p)) → o = OGet) ∧
  shows h = [(0%nat, None); (1%nat, None); (1%nat, Some (inr ())); (1%nat, Some (inr ())); (1%nat, Some (inl (RWrite (Ok ())))); (0%nat, Some (inl (RGet ones)));
             (1%nat, None); (1%nat, Some (inr ())); (1%nat, Some (inr ())); (1%nat, Some (inl (RWrite (Err ErrEOF)))); (2%nat, None); (2%nat, Some (inl (RGet ones)));
             (1%nat, None); (1%nat, Some (inr ())); (1%nat, Some (inl (RWrite Panic)))].
Proof.
  assert (Forall action_ok ex_acts) as HF.
  { assert (∀ t n, Forall action_ok (steps t n)) as Hst by (intros t n; apply Forall_replicate; exact I). assert (∀ t o, op_ok o → Forall action_ok [ACall t o]) as Hca by (intros t o Ho; constructor; [exact Ho|constructor]).
    unfold ex_acts. repeat (apply Forall_app; split; [first [apply Hst|apply Hca]|]). all: try apply Hst; try exact I; cbn [op_ok]; try (intros d Hd); apply replicate_length. }
  destruct (exec (MkCfg New (replicate 3 None)) ex_acts) as [c h] eqn:E. exists c, h. split; [exact HF|]. clear HF. split; [unfold execution; exact E|].
  assert (c_threads (exec (MkCfg New (replicate 3 None)) ex_acts).1 = [None; None; None]) as Ht by (vm_compute; reflexivity).
  assert (shows (exec (MkCfg New (replicate 3 None)) ex_acts).2 = [(0%nat, None); (1%nat, None); (1%nat, Some (inr ())); (1%nat, Some (inr ())); (1%nat, Some (inl (RWrite (Ok ())))); (0%nat, Some (inl (RGet ones)));
             (1%nat, None); (1%nat, Some (inr ())); (1%nat, Some (inr ())); (1%nat, Some (inl (RWrite (Err ErrEOF)))); (2%nat, None); (2%nat, Some (inl (RGet ones)));
             (1%nat, None); (1%nat, Some (inr ())); (1%nat, Some (inl (RWrite Panic)))]) as Hs by (vm_compute; reflexivity).
  rewrite E in Ht, Hs. split; [|exact Hs]. clear Hs E. intros t o p L. cbn [fst] in Ht. rewrite Ht in L. apply elem_of_list_lookup_2 in L. rewrite !elem_of_cons, elem_of_nil in L. destruct L as [?|[?|[?|?]]]; done.
Qed.
