From Coq Require Import ZifyBool ZifyNat.
From Verif Require Import Base BaseProofs Float64 FnvSpec HllModel CollationModel CollationSpec CollationProofs CollationTop CollationTop2 BufmapModel BufmapSpec QueryModel Probe
  BufconcModel BufconcSpec BufconcProofs BufconcInv BufconcStep BufconcTop BufconcProps ServerModel StoreProofs StoreConcModel StoreConcSpec StoreConcProofs StoreConcTop.
Local Open Scope Z_scope.

Section top.
Context (pf : bytes → option float) (est : Counter → Z) (s : Schema) (impl : Row → bool → prog).
Notation c := (Compile s).
Notation size := (c_size (Compile s)).
Notation sstep := (sstep c impl).
Notation sexec := (sexec c impl).
Notation op_of := (op_of c impl).
Notation erase := (erase s impl).
Notation winv2 := (winv2 s impl).

(** ** the writes under way *)
Definition undone (p : pc) : Prop := (∀ x r, p ≠ UUnlock x r) ∧ ∀ r, p ≠ PRet (RUpdate (Ok r)).
Definition ended (p : pc) : Prop := (∃ x r, p = UUnlock x r) ∨ ∃ r, p = PRet r.
Record pinv (k : Z) (g : scfg) (h : list sevent) (pend fin : list (nat * Row)) : Prop := {
  p_nodup : NoDup pend;
  p_nodup' : NoDup fin;
  p_perm : called s k h ≡ₚ map snd (applied k h) ++ map snd pend;
  p_perm' : map snd (applied k h) ≡ₚ succeeded s k h ++ map snd fin;
  p_in : ∀ t r, (t, r) ∈ pend → row_key s r = Some k ∧ ∃ o p, g_calls g !! t = Some (Some (CWrite r)) ∧ c_threads (g_cfg g) !! t = Some (Some (o, p)) ∧ undone p;
  p_fin : ∀ t r, (t, r) ∈ fin → row_key s r = Some k ∧ ∃ o p, g_calls g !! t = Some (Some (CWrite r)) ∧ c_threads (g_cfg g) !! t = Some (Some (o, p)) ∧ ended p;
  p_out : ∀ t r, g_calls g !! t = Some (Some (CWrite r)) → row_key s r = Some k → (t, r) ∈ pend ∨ (t, r) ∈ fin }.
Lemma called_app k a b : called s k (a ++ b) = called s k a ++ called s k b.
Proof. unfold called. apply omap_app. Qed.
Lemma applied_app k a b : applied k (a ++ b) = applied k a ++ applied k b.
Proof. unfold applied. apply omap_app. Qed.
Lemma step_undone m t o p m' p' es : step_call m t o p = (m', p', es) → undone p → (∀ r, p ≠ PRet r) → (∀ t' k fn init, es ≠ [EDone t' k fn init]) → undone p'.
Proof.
  intros E [H1 H2] Hp Hes. unfold undone. destruct o as [k buf|k fn], p; cbn [step_call] in E;
    try (by destruct (Hp r)); try (by destruct (H1 x r));
    repeat (match type of E with context [match ?q with _ => _ end] => destruct q end); try (injection E as <- <- <-; by destruct (Hes t k fn init)); try (injection E as <- <- <-); try done; unfold greprobe, reprobe; try (destruct (_ <? _)%nat); done.
Qed.
Lemma step_ended m t o p m' p' es : step_call m t o p = (m', p', es) → ended p → ended p'.
Proof.
  intros E [(x & r & ->)|(r & ->)]; destruct o as [k buf|k fn]; cbn [step_call] in E; try (destruct (index _ _)); injection E as <- <- <-; unfold ended; eauto.
Qed.
Lemma reply_ok r res : reply (λ _, 0) c (CWrite r) (Some res) = AWrite (Ret (Ok ())) → res = RUpdate (Ok ()).
Proof. destruct res as [b []|o|]; cbn; try done. by intros [= ->]. Qed.
Lemma start_undone k r : k ≠ 0 → undone (start (OUpdate k (impl r))).
Proof. intros H. cbn. assert (k =? 0 = false) as -> by lia. by split. Qed.

Lemma write_dec sc k : (∃ r, sc = CWrite r ∧ row_key s r = Some k) ∨ ¬ ∃ r, sc = CWrite r ∧ row_key s r = Some k.
Proof. destruct sc as [r|q]; [|right; by intros (r & [=] & _)]. destruct (decide (row_key s r = Some k)); [left; eauto|right]. by intros (r' & [= <-] & ?). Qed.
Lemma succeeded_app k a b : succeeded s k (a ++ b) = succeeded s k a ++ succeeded s k b.
Proof. unfold succeeded. apply omap_app. Qed.
Lemma NoDup_remove_mid {A} (a b : list A) x : NoDup (a ++ x :: b) → NoDup (a ++ b) ∧ x ∉ a ++ b.
Proof.
  intros ND. apply NoDup_app in ND as (Na & Nab & Nb). apply NoDup_cons in Nb as [Nb Nb']. split.
  - apply NoDup_app. split; [done|]. split; [|done]. intros y Hy Hy'. apply (Nab y Hy). by right.
  - intros Hin. apply elem_of_app in Hin as [Hin|Hin]; [|done]. apply (Nab _ Hin). left.
Qed.
Lemma elem_mid {A} (a b : list A) x y : y ∈ a ++ b → y ∈ a ++ x :: b.
Proof. rewrite !elem_of_app, elem_of_cons. tauto. Qed.
Lemma elem_mid' {A} (a b : list A) x y : y ∈ a ++ x :: b → y = x ∨ y ∈ a ++ b.
Proof. rewrite !elem_of_app, elem_of_cons. tauto. Qed.
Lemma sstep_pinv k g h pend fin a g' es : k ≠ 0 → winv s impl g → pinv k g h pend fin → sstep g a = (g', es) → no_failures s (h ++ es) → ∃ pend' fin', pinv k g' (h ++ es) pend' fin'.
Proof.
  intros H0 W [ND ND' PP PP' PI PF PO] E NF.
  apply sstep_shape in E as [(-> & Ee & Hes)|[(t & sc & o & -> & Eo & Lg & L & -> & -> & Est)|[(t & sc & o & r & -> & Eo & Lg & L & -> & -> & Est)|(t & sc & o & p & m & p' & es0 & -> & Eo & Lg & L & Hp & Es & -> & Est & <- & Hes)]]]; [..|done].
  - exists pend, fin. assert (called s k es = [] ∧ applied k es = [] ∧ succeeded s k es = []) as (E1 & E2 & E3).
    { destruct Hes as [->|(t & sc & _ & Eo & -> & _)]; [done|]. cbn -[row_key]. destruct sc as [r|q]; [|done]. rewrite (op_write s impl) in Eo. by destruct (row_key s r). }
    constructor; try done; by rewrite ?called_app, ?applied_app, ?succeeded_app, ?E1, ?E2, ?E3, ?app_nil_r.
  - assert (t < length (g_calls g))%nat as Hlt by (by eapply lookup_lt_Some). assert (t < length (c_threads (g_cfg g)))%nat as Hlt' by (by eapply lookup_lt_Some).
    assert (∀ t' r' (P : pc → Prop), row_key s r' = Some k ∧ (∃ o p, g_calls g !! t' = Some (Some (CWrite r')) ∧ c_threads (g_cfg g) !! t' = Some (Some (o, p)) ∧ P p) → row_key s r' = Some k ∧ ∃ o' p, <[t:=Some sc]> (g_calls g) !! t' = Some (Some (CWrite r')) ∧ <[t:=Some (o, start o)]> (c_threads (g_cfg g)) !! t' = Some (Some (o', p)) ∧ P p) as Hkeep.
    { intros t' r' P (Ek' & o' & p' & Lg' & L' & Hu). split; [done|]. exists o', p'. rewrite !list_lookup_insert_ne by (intros ->; congruence). done. }
    destruct (write_dec sc k) as [(r & -> & Ek)|Hno].
    + exists ((t, r) :: pend), fin. assert (o = OUpdate k (impl r)) as -> by (rewrite (op_write s impl), Ek in Eo; by injection Eo). constructor; cbn [g_calls g_cfg c_threads].
      * constructor; [|done]. intros Hin. destruct (PI _ _ Hin) as (_ & ? & ? & Hl & _). congruence.
      * done.
      * rewrite called_app, applied_app. cbn -[row_key]. rewrite decide_True by done. cbn. rewrite app_nil_r, PP, <- app_assoc. apply Permutation_app_head. apply Permutation_app_comm.
      * rewrite succeeded_app, applied_app. cbn. by rewrite !app_nil_r.
      * intros t' r' Hin. apply elem_of_cons in Hin as [[= -> ->]|Hin]; [|by apply Hkeep, PI].
        split; [done|]. exists (OUpdate k (impl r)), (start (OUpdate k (impl r))). rewrite !list_lookup_insert by done. split_and!; try done; by apply start_undone.
      * intros t' r' Hin. by apply Hkeep, PF.
      * intros t' r' Lg' Ek'. destruct (decide (t' = t)) as [->|Hne].
        -- rewrite list_lookup_insert in Lg' by done. injection Lg' as <-. left. left.
        -- rewrite list_lookup_insert_ne in Lg' by done. destruct (PO _ _ Lg' Ek') as [?|?]; [left; by right|by right].
    + exists pend, fin. assert (called s k [SInv t sc] = []) as Ec. { cbn -[row_key]. destruct sc as [r|q]; [|done]. rewrite decide_False; [done|]. intros Hr. eauto. } constructor; cbn [g_calls g_cfg c_threads]; try done.
      * rewrite called_app, applied_app, Ec. cbn. by rewrite !app_nil_r.
      * rewrite succeeded_app, applied_app. cbn. by rewrite !app_nil_r.
      * intros t' r' Hin. by apply Hkeep, PI.
      * intros t' r' Hin. by apply Hkeep, PF.
      * intros t' r' Lg' Ek'. destruct (decide (t' = t)) as [->|Hne].
        -- rewrite list_lookup_insert in Lg' by done. injection Lg' as ->. exfalso. eauto.
        -- rewrite list_lookup_insert_ne in Lg' by done. by eapply PO.
  - assert (t < length (g_calls g))%nat as Hlt by (by eapply lookup_lt_Some). assert (t < length (c_threads (g_cfg g)))%nat as Hlt' by (by eapply lookup_lt_Some).
    assert (∀ r', sc = CWrite r' → r = RUpdate (Ok ())) as Hok. { intros r' ->. apply (reply_ok r'). apply (NF t). apply elem_of_app. right. by left. }
    assert (∀ t' r' (P : pc → Prop), t' ≠ t → row_key s r' = Some k ∧ (∃ o p, g_calls g !! t' = Some (Some (CWrite r')) ∧ c_threads (g_cfg g) !! t' = Some (Some (o, p)) ∧ P p) → row_key s r' = Some k ∧ ∃ o' p, <[t:=None]> (g_calls g) !! t' = Some (Some (CWrite r')) ∧ <[t:=None]> (c_threads (g_cfg g)) !! t' = Some (Some (o', p)) ∧ P p) as Hkeep.
    { intros t' r' P Hne (Ek' & o' & p' & Lg' & L' & Hu). split; [done|]. exists o', p'. by rewrite !list_lookup_insert_ne by done. }
    assert (∀ r', (t, r') ∉ pend) as Hnp.
    { intros r' Hin. destruct (PI _ _ Hin) as (Ek' & o' & p' & Lg' & L' & Hu). rewrite Lg in Lg'. injection Lg' as ->. rewrite L in L'. injection L' as <- <-. rewrite (Hok _ eq_refl) in Hu. by destruct (proj2 Hu ()). }
    destruct (write_dec sc k) as [(r' & -> & Ek)|Hno].
    + rewrite (Hok _ eq_refl) in *. destruct (PO _ _ Lg Ek) as [Hin|Hin]; [by apply Hnp in Hin|]. apply elem_of_list_split in Hin as (la & lb & ->). apply NoDup_remove_mid in ND' as [ND1 ND2].
      assert (∀ r0, (t, r0) ∉ la ++ lb) as Hnf. { intros r0 Hin. destruct (PF t r0) as (_ & ? & ? & L' & _); [by apply elem_mid|]. rewrite Lg in L'. by injection L' as <-. }
      exists pend, (la ++ lb). constructor; cbn [g_calls g_cfg c_threads]; try done.
      * rewrite called_app, applied_app. cbn. by rewrite !app_nil_r.
      * rewrite succeeded_app, applied_app, map_app, PP', !map_app. cbn -[row_key]. rewrite decide_True by done. cbn. rewrite app_nil_r, <- !app_assoc. apply Permutation_app_head. cbn. by rewrite Permutation_middle.
      * intros t' r0 Hin. apply Hkeep; [|by apply PI]. intros ->. by apply Hnp in Hin.
      * intros t' r0 Hin. apply Hkeep; [|by apply PF, elem_mid]. intros ->. by apply Hnf in Hin.
      * intros t' r0 Lg' Ek'. destruct (decide (t' = t)) as [->|Hne]; [by rewrite list_lookup_insert in Lg'|]. rewrite list_lookup_insert_ne in Lg' by done.
        destruct (PO _ _ Lg' Ek') as [?|Hin]; [by left|right]. apply elem_mid' in Hin as [[= -> ->]|?]; done.
    + assert (∀ r', (t, r') ∉ fin) as Hnf. { intros r' Hin. destruct (PF _ _ Hin) as (Ek' & o' & p' & Lg' & _). rewrite Lg in Lg'. injection Lg' as ->. apply Hno. eauto. }
      assert (succeeded s k [SRet t sc (Some r)] = []) as E3. { cbn -[row_key]. destruct sc as [r'|q]; [|done]. destruct r as [? ?|[[]| |]|]; try done. rewrite decide_False; [done|]. intros ?. apply Hno. eauto. }
      exists pend, fin. constructor; cbn [g_calls g_cfg c_threads]; try done.
      * rewrite called_app, applied_app. cbn. by rewrite !app_nil_r.
      * rewrite succeeded_app, applied_app, E3. cbn. by rewrite !app_nil_r.
      * intros t' r0 Hin. apply Hkeep; [|by apply PI]. intros ->. by apply Hnp in Hin.
      * intros t' r0 Hin. apply Hkeep; [|by apply PF]. intros ->. by apply Hnf in Hin.
      * intros t' r0 Lg' Ek'. destruct (decide (t' = t)) as [->|Hne]; [by rewrite list_lookup_insert in Lg'|]. rewrite list_lookup_insert_ne in Lg' by done. by apply PO.
  - assert (t < length (c_threads (g_cfg g)))%nat as Hlt' by (by eapply lookup_lt_Some).
    assert (∀ t' r' (P : pc → Prop), t' ≠ t → row_key s r' = Some k ∧ (∃ o p, g_calls g !! t' = Some (Some (CWrite r')) ∧ c_threads (g_cfg g) !! t' = Some (Some (o, p)) ∧ P p) → row_key s r' = Some k ∧ ∃ o' p0, g_calls g !! t' = Some (Some (CWrite r')) ∧ <[t:=Some (o, p')]> (c_threads (g_cfg g)) !! t' = Some (Some (o', p0)) ∧ P p0) as Hkeep.
    { intros t' r' P Hne (Ek' & o' & p0 & Lg' & L' & Hu). split; [done|]. exists o', p0. by rewrite !list_lookup_insert_ne by done. }
    assert ((∃ r init, sc = CWrite r ∧ es = [SDone t k r init]) ∨ ¬ ∃ r init, sc = CWrite r ∧ es = [SDone t k r init]) as [(r & init & -> & ->)|Hno].
    { destruct Hes as [->|(k0 & r0 & x & init0 & -> & -> & [(_ & ->)|[(res & -> & ->)|(q & _ & ->)]])]; [right; by intros (? & ? & _ & [=])|right; by intros (? & ? & _ & [=])| |right; by intros (? & ? & _ & [=])].
      destruct (decide (k0 = k)) as [->|Hn]; [left; eauto|right; intros (? & ? & _ & [= ? ?]); congruence]. }
    + destruct Hes as [[=]|(k0 & r0 & x & init0 & [= <-] & -> & [(_ & [=])|[(res & -> & [= -> ->])|(q & _ & [=])]])].
      assert (row_key s r = Some k0) as Ek by (rewrite (op_write s impl) in Eo; destruct (row_key s r); [by injection Eo as <-|done]).
      assert (∀ r', (t, r') ∉ fin) as Hnf. { intros r' Hin. destruct (PF _ _ Hin) as (Ek' & o' & p0 & Lg' & L' & Hu). rewrite L in L'. injection L' as <- <-. by destruct Hu as [(? & ? & [=])|(? & [=])]. }
      destruct (PO _ _ Lg Ek) as [Hin|Hin]; [|by apply Hnf in Hin]. apply elem_of_list_split in Hin as (la & lb & ->). apply NoDup_remove_mid in ND as [ND1 ND2].
      assert (p' = PRet RPanic ∨ p' = UUnlock x res) as Hp' by (cbn [step_call] in Es; destruct (index _ x); inversion Es; eauto).
      assert (∀ r0, (t, r0) ∉ la ++ lb) as Hnp. { intros r0 Hin. destruct (PI t r0) as (_ & ? & ? & L' & _); [by apply elem_mid|]. rewrite Lg in L'. by injection L' as <-. }
      exists (la ++ lb), ((t, r) :: fin). constructor; cbn [g_calls g_cfg c_threads].
      * done.
      * constructor; [apply Hnf|done].
      * rewrite called_app, applied_app, PP, !map_app. cbn -[row_key]. rewrite decide_True by done. cbn. rewrite !app_nil_r, <- !app_assoc. apply Permutation_app_head. cbn. by rewrite Permutation_middle.
      * rewrite succeeded_app, applied_app, map_app, PP'. cbn. rewrite decide_True by done. cbn. rewrite app_nil_r, <- app_assoc. apply Permutation_app_head. apply Permutation_app_comm.
      * intros t' r' Hin. apply Hkeep; [|by apply PI, elem_mid]. intros ->. by apply Hnp in Hin.
      * intros t' r' Hin. apply elem_of_cons in Hin as [[= -> ->]|Hin]; [|apply Hkeep; [|by apply PF]; intros ->; by apply Hnf in Hin].
        split; [done|]. eexists _, _. rewrite list_lookup_insert by done. split; [done|]. split; [done|]. destruct Hp' as [->| ->]; unfold ended; eauto.
      * intros t' r' Lg' Ek'. destruct (decide (t' = t)) as [->|Hn]; [rewrite Lg in Lg'; injection Lg' as <-; right; left|].
        destruct (PO _ _ Lg' Ek') as [Hin|?]; [|right; by right]. left. apply elem_mid' in Hin as [[= -> ->]|?]; done.
    + assert (called s k es = [] ∧ applied k es = [] ∧ succeeded s k es = []) as (E1 & E2 & E3).
      { destruct Hes as [->|(k0 & r0 & x & init0 & -> & -> & [(_ & ->)|[(res & -> & ->)|(q & _ & ->)]])]; try done. cbn. destruct (decide (k0 = k)) as [->|]; [|done]. exfalso. eauto. }
      exists pend, fin. constructor; cbn [g_calls g_cfg c_threads]; try done.
      * by rewrite called_app, applied_app, E1, E2, !app_nil_r.
      * by rewrite succeeded_app, applied_app, E3, E2, !app_nil_r.
      * intros t' r' Hin. destruct (decide (t' = t)) as [->|Hne]; [|by apply Hkeep, PI]. destruct (PI _ _ Hin) as (Ek' & o' & p0 & Lg' & L' & Hu). split; [done|].
        rewrite list_lookup_insert by done. exists o, p'. split; [done|]. split; [done|]. rewrite L in L'. injection L' as <- <-. eapply step_undone; [done|done|done|].
        intros t0 k0 fn init Ee. assert (sc = CWrite r') as -> by congruence. rewrite (op_write s impl), Ek' in Eo. injection Eo as <-.
        destruct Hes as [->|(k1 & r0 & x & init0 & [= <-] & [= <-] & [(_ & ->)|[(res & -> & ->)|(q & _ & ->)]])]; try done. apply Hno. eauto.
      * intros t' r' Hin. destruct (decide (t' = t)) as [->|Hne]; [|by apply Hkeep, PF]. destruct (PF _ _ Hin) as (Ek' & o' & p0 & Lg' & L' & Hu). split; [done|].
        rewrite list_lookup_insert by done. exists o, p'. split; [done|]. split; [done|]. rewrite L in L'. injection L' as <- <-. by eapply step_ended.
Qed.

(** in every prefix of a history: the writes that have returned are among those
    applied, those among the writes that have been called *)
Definition within (k : Z) (h : list sevent) : Prop := ∀ a b, h = a ++ b → succeeded s k a ⊆+ map snd (applied k a) ∧ map snd (applied k a) ⊆+ called s k a.
Lemma pinv_within k g h pend fin : pinv k g h pend fin → succeeded s k h ⊆+ map snd (applied k h) ∧ map snd (applied k h) ⊆+ called s k h.
Proof. intros [ND ND' PP PP' PI PF PO]. rewrite PP. split; [rewrite PP'|]; by apply submseteq_inserts_r. Qed.
Lemma sstep_events g a g' es : winv s impl g → sstep g a = (g', es) → (length es ≤ 1)%nat ∨ ∃ t sc, op_of sc = None ∧ es = [SInv t sc; SRet t sc None].
Proof.
  intros W E. apply sstep_shape in E as [(_ & _ & [->|(t & sc & _ & Eo & -> & _)])|[(t & sc & o & _ & _ & _ & _ & -> & _)|[(t & sc & o & r & _ & _ & _ & _ & -> & _)|(t & sc & o & p & m & p' & es0 & _ & _ & _ & _ & _ & _ & _ & _ & _ & Hes)]]]; [..|done]; [left; cbn; lia|right; eauto|left; cbn; lia..|left].
  destruct Hes as [->|(k0 & r0 & x & init0 & -> & -> & [(_ & ->)|[(res & -> & ->)|(q & _ & ->)]])]; cbn; lia.
Qed.
Lemma sstep_within k g h pend fin a g' es : k ≠ 0 → winv s impl g → pinv k g h pend fin → within k h → sstep g a = (g', es) → no_failures s (h ++ es) → within k (h ++ es).
Proof.
  intros H0 W P Wi E NF x y Exy. destruct (sstep_pinv _ _ _ _ _ _ _ _ H0 W P E NF) as (pend' & fin' & P'). apply pinv_within in P'. apply app_eq_app in Exy as (z & [[-> ->]|[-> ->]]).
  - apply (Wi x z). done.
  - destruct y as [|e y]; [by rewrite app_nil_r in *|]. destruct z as [|e' z]; [rewrite app_nil_r; apply (Wi h []); by rewrite app_nil_r|]. destruct (sstep_events _ _ _ _ W E) as [Hl|(t & sc & Eo & Ee)].
    + cbn in Hl. rewrite app_length in Hl. cbn in Hl. lia.
    + destruct z; [|by destruct z]. injection Ee as -> _. rewrite succeeded_app, applied_app, called_app. cbn -[row_key].
      assert (omap (λ e : sevent, match e with SInv _ (CWrite r) => if decide (row_key s r = Some k) then Some r else None | _ => None end) [SInv t sc] = []) as Ec.
      { cbn -[row_key]. destruct sc as [r|q]; [|done]. rewrite (op_write s impl) in Eo. by destruct (row_key s r). }
      cbn -[row_key] in Ec. rewrite Ec, !app_nil_r. apply (Wi h []). by rewrite app_nil_r.
Qed.
Lemma no_failures_app a b : no_failures s (a ++ b) → no_failures s a.
Proof. intros H t r res Hin. apply (H t). apply elem_of_app. by left. Qed.

Context (l : Z) (Hs : schema_ok s) (Hd : dims_ok l size) (Himpl : impl_ok pf s impl).
Lemma sexec_pinv k g h acts g' es pend fin : k ≠ 0 → winv2 l g h → Forall saction_ok acts → pinv k g h pend fin → within k h → sexec g acts = (g', es) → no_failures s (h ++ es) →
  within k (h ++ es) ∧ ∃ pend' fin', pinv k g' (h ++ es) pend' fin'.
Proof.
  intros H0 I HF. revert g h pend fin es I. induction HF as [|a acts Ha HF IH]; intros g h pend fin es I P Wi; cbn [StoreConcModel.sexec]; [intros [= <- <-]; rewrite app_nil_r; eauto|].
  destruct (sstep g a) as [g1 e1] eqn:E1. destruct (sexec g1 acts) as [g2 e2] eqn:E2. intros [= <- <-] NF. rewrite app_assoc in NF |- *. pose proof (no_failures_app _ _ NF) as NF1.
  pose proof (w_wf _ _ _ _ _ I) as W. destruct (sstep_pinv _ _ _ _ _ _ _ _ H0 W P E1 NF1) as (pend' & fin' & P'). eapply IH; [|exact P'| |exact E2|exact NF].
  - by eapply (sstep_inv s impl l).
  - by eapply sstep_within.
Qed.
Lemma sexecution_pinv k n acts g h : k ≠ 0 → Forall saction_ok acts → sexecution s impl l n acts g h → no_failures s h → within k h ∧ ∃ pend fin, pinv k g h pend fin.
Proof.
  intros H0 HF (m & Em & E) NF. assert (winv2 l (MkS (MkCfg m (replicate n None)) (replicate n None)) []) as I0. { apply (sexecution_inv s impl l Hd n []); [constructor|]. exists m. done. }
  change h with ([] ++ h). apply (sexec_pinv k (MkS (MkCfg m (replicate n None)) (replicate n None)) [] acts g h [] []); try done.
  - constructor; [constructor|constructor|done|done|intros ? ? Hin; by apply elem_of_nil in Hin|intros ? ? Hin; by apply elem_of_nil in Hin|]. intros ? ? Lg. cbn [g_calls] in Lg. by apply lookup_replicate in Lg as [? _].
  - intros a b Eab. symmetry in Eab. apply app_eq_nil in Eab as [-> ->]. done.
Qed.
(** when nobody is inside a call, the writes applied are exactly those called *)
Lemma all_applied k n acts g h : k ≠ 0 → Forall saction_ok acts → sexecution s impl l n acts g h → no_failures s h → squiescent g → map snd (applied k h) ≡ₚ called s k h.
Proof.
  intros H0 HF Ex NF Q. destruct (sexecution_pinv k n acts g h H0 HF Ex NF) as (_ & pend & fin & P). destruct pend as [|[t r] pend].
  - rewrite (p_perm _ _ _ _ _ P). cbn. by rewrite app_nil_r.
  - destruct (p_in _ _ _ _ _ P t r) as (_ & o & p & Lg & _); [left|]. by apply Q in Lg.
Qed.
End top.
