From Coq Require Import ZifyBool ZifyNat.
From Verif Require Import Base BaseProofs Float64 FnvSpec HllModel CollationModel CollationSpec CollationProofs BufmapModel BufmapSpec QueryModel Probe
  BufconcModel BufconcSpec BufconcProofs BufconcInv BufconcStep BufconcTop ServerModel StoreConcModel StoreConcSpec.
Local Open Scope Z_scope.

(** ** the record map under the store *)
Definition results (s : Z) (c : cfg) (h : list event) : Prop :=
  (∀ ha hb t k fn init, h = ha ++ EDone t k fn init :: hb → let r := (run (fn init) (content s k ha)).2 in r ≠ Panic ∧
     ((∃ b1 b2, hb = b1 ++ ERet t (OUpdate k fn) (RUpdate r) :: b2 ∧ quiet t b1) ∨ (quiet t hb ∧ ∃ p, c_threads c !! t = Some (Some (OUpdate k fn, p)) ∧ (p = PRet (RUpdate r) ∨ ∃ x, p = UUnlock x r)))) ∧
  (∀ ha hb t k fn init, h = ha ++ EPanic t k fn init :: hb → (run (fn init) (content s k ha)).2 = Panic ∧
     ((∃ b1 b2, hb = b1 ++ ERet t (OUpdate k fn) RPanic :: b2) ∨ c_threads c !! t = Some (Some (OUpdate k fn, PRet RPanic)))).
Lemma step_results l s c h a c' es : inv l s c h → results s c h → step c a = (c', es) → results s c' (h ++ es).
Proof.
  intros I [R1 R2] E. pose proof E as E0.
  apply step_shape in E as [[-> ->]|[(t & o & -> & L & -> & ->)|[(t & o & r & -> & L & -> & ->)|(t & o & p & m & p' & -> & L & Hp & Es & -> & Hes)]]].
  - by rewrite app_nil_r.
  - split; intros ha hb t' k fn init Eh; (apply snoc_split in Eh as [(hb' & Eh & ->)|(_ & _ & [=])]; [|cbn; lia]).
    + destruct (R1 _ _ _ _ _ _ Eh) as [Hr [(b1 & b2 & -> & Hq)|(Hq & p & L' & Hp)]]; (split; [done|]).
      * left. exists b1, (b2 ++ [EInv t o]). by rewrite <- app_assoc.
      * assert (t ≠ t') as Hne by (intros ->; congruence). right. split; [by apply Forall_app_2; [|constructor]|]. exists p. split; [|done]. cbn [c_threads]. by rewrite list_lookup_insert_ne.
    + destruct (R2 _ _ _ _ _ _ Eh) as [Hr [(b1 & b2 & ->)|L']]; (split; [done|]).
      * left. exists b1, (b2 ++ [EInv t o]). by rewrite <- app_assoc.
      * right. cbn [c_threads]. rewrite list_lookup_insert_ne; [done|]. intros ->. congruence.
  - split; intros ha hb t' k fn init Eh; (apply snoc_split in Eh as [(hb' & Eh & ->)|(_ & _ & [=])]; [|cbn; lia]).
    + destruct (R1 _ _ _ _ _ _ Eh) as [Hr [(b1 & b2 & -> & Hq)|(Hq & p & L' & Hp)]]; (split; [done|]).
      * left. exists b1, (b2 ++ [ERet t o r]). by rewrite <- app_assoc.
      * destruct (decide (t' = t)) as [->|Hne].
        -- rewrite L in L'. injection L' as -> <-. destruct Hp as [[= ->]|(x & [=])]. left. exists hb', []. done.
        -- right. split; [apply Forall_app_2; [done|]; by constructor|]. exists p. split; [|done]. cbn [c_threads]. by rewrite list_lookup_insert_ne.
    + destruct (R2 _ _ _ _ _ _ Eh) as [Hr [(b1 & b2 & ->)|L']]; (split; [done|]).
      * left. exists b1, (b2 ++ [ERet t o r]). by rewrite <- app_assoc.
      * destruct (decide (t' = t)) as [->|Hne].
        -- rewrite L in L'. injection L' as -> ->. left. exists hb', []. done.
        -- right. cbn [c_threads]. by rewrite list_lookup_insert_ne.
  - assert (t < length (c_threads c))%nat as Hlt by (by eapply lookup_lt_Some).
    assert (length es ≤ 1)%nat as Hl1. { destruct Hes as [->|(k' & fn' & x & init' & _ & [(_ & ->)|[(r & _ & ->)|(q & _ & ->)]])]; cbn; lia. }
    assert (∀ t' k fn r q, q = PRet (RUpdate r) ∨ (∃ x, q = UUnlock x r) → c_threads c !! t' = Some (Some (OUpdate k fn, q)) →
      ∃ q', c_threads (MkCfg m (<[t:=Some (o, p')]> (c_threads c))) !! t' = Some (Some (OUpdate k fn, q')) ∧ (q' = PRet (RUpdate r) ∨ ∃ x, q' = UUnlock x r)) as Hkeep.
    { intros t' k fn r q Hq L'. cbn [c_threads]. destruct (decide (t' = t)) as [->|Hne]; [|rewrite list_lookup_insert_ne by done; eauto].
      rewrite list_lookup_insert by done. rewrite L in L'. injection L' as -> ->. destruct Hq as [->|(x & ->)]; [by destruct (Hp (RUpdate r))|].
      cbn [step_call] in Es. destruct (v_thr _ _ _ _ I _ _ _ L) as (h1 & h2 & _ & _ & (_ & Hx & _)).
      destruct (lookup_lt_is_Some_2 (m_keys (c_map c)) (Z.to_nat x)) as (sl0 & Lk); [rewrite (sh_keys _ _ _ (v_shape _ _ _ _ I)); lia|].
      rewrite (index_lookup _ x sl0) in Es; [|lia|done].
      injection Es as <- <- <-. eauto. }
    split; intros ha hb t' k fn init Eh; (apply snoc_split in Eh as [(hb' & Eh & ->)|(-> & -> & ->)]; [|..|done]).
    + destruct (R1 _ _ _ _ _ _ Eh) as [Hr [(b1 & b2 & -> & Hqt)|(Hqt & q & L' & Hq)]]; (split; [done|]).
      * left. exists b1, (b2 ++ es). by rewrite <- app_assoc.
      * right. split; [|by eapply Hkeep]. apply Forall_app_2; [done|]. destruct Hes as [->|(k' & fn' & x & init' & _ & [(_ & ->)|[(r & _ & ->)|(q' & _ & ->)]])]; by repeat constructor.
    + destruct Hes as [[=]|(k' & fn' & x & init' & -> & [(_ & [=])|[(r & -> & [= -> -> -> ->])|(q & _ & [=])]])].
      destruct (v_thr _ _ _ _ I _ _ _ L) as (h1 & h2 & _ & _ & (Hk & Hx & Ek & _)). destruct (holder I Hx t _ _ L ltac:(cbn; by apply bool_decide_eq_true)) as (_ & _ & Hh & _).
      cbn [hold] in Hh. rewrite Ek in Hh. destruct Hh as (_ & Hrun & Hr). rewrite Hrun. split; [done|]. right.
      cbn [step_call] in Es. destruct (index _ x) as [sl0| |]; [|done..]. injection Es as <- <-. split; [by constructor|]. eexists. split; [cbn [c_threads]; by rewrite list_lookup_insert|]. eauto.
    + destruct (R2 _ _ _ _ _ _ Eh) as [Hr [(b1 & b2 & ->)|L']]; (split; [done|]).
      * left. exists b1, (b2 ++ es). by rewrite <- app_assoc.
      * right. cbn [c_threads]. destruct (decide (t' = t)) as [->|Hne]; [|by rewrite list_lookup_insert_ne]. rewrite L in L'. injection L' as -> ->. by destruct (Hp RPanic).
    + destruct Hes as [[=]|(k' & fn' & x & init' & -> & [(_ & [=])|[(r & _ & [=])|(q & -> & [= -> -> -> ->])]])].
      destruct (v_thr _ _ _ _ I _ _ _ L) as (h1 & h2 & _ & _ & (Hk & Hx & Ek & _)).
      assert (p' = PRet RPanic) as ->. { cbn [step_call] in Es. repeat match type of Es with context [match ?q with _ => _ end] => destruct q end; by injection Es. }
      assert (inv l s (MkCfg m (<[t:=Some (OUpdate k' fn', PRet RPanic)]> (c_threads c))) (h ++ [EPanic t k' fn' init'])) as I' by (eapply step_inv; [exact I| |exact E0]; done).
      destruct (v_thr _ _ _ _ I' t (OUpdate k' fn') (PRet RPanic)) as (i1 & i2 & Ei & Hq & Ht); [cbn [c_threads]; by rewrite list_lookup_insert|]. cbn [thr] in Ht.
      destruct Ht as (g1 & g2 & init2 & x' & -> & A & B & Hr & _).
      split; [|right; cbn [c_threads]; by rewrite list_lookup_insert].
      rewrite <- (app_nil_r (h ++ [_])) in Ei. 
      change (i1 ++ EInv t (OUpdate k' fn') :: g1 ++ EPanic t k' fn' init2 :: g2) with (i1 ++ (EInv t (OUpdate k' fn') :: g1) ++ EPanic t k' fn' init2 :: g2) in Ei.
      rewrite app_assoc, app_nil_r in Ei. apply snoc_split in Ei as [(hb' & Eh' & ->)|(Ea & -> & [= ->])]; [|by rewrite <- Ea|cbn; lia].
      exfalso. rewrite done_by_app in B. apply app_eq_nil in B as [_ B]. cbn in B. by rewrite decide_True in B.
Qed.
Lemma exec_results l s c h acts c' es : inv l s c h → Forall action_ok acts → results s c h → exec c acts = (c', es) → results s c' (h ++ es).
Proof.
  intros I HF. revert c h es I. induction HF as [|a acts Ha HF IH]; intros c h es I A; cbn [exec]; [by intros [= <- <-]; rewrite app_nil_r|].
  destruct (step c a) as [c1 e1] eqn:E1. destruct (exec c1 acts) as [c2 e2] eqn:E2. intros [= <- <-]. rewrite app_assoc. eapply IH; [by eapply step_inv|by eapply step_results|done].
Qed.
Lemma execution_results l s n acts c h : dims_ok l s → Forall action_ok acts → execution l s n acts c h → results s c h.
Proof. intros Hd HF (m & Em & E). change h with ([] ++ h). eapply exec_results; [by apply init_inv|done| |done]. split; intros ha hb t k fn init Eh; by destruct ha. Qed.
