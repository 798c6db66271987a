From Coq Require Import ZifyBool ZifyNat.
From Verif Require Import Base BaseProofs Float64 FnvSpec HllModel CollationModel CollationSpec CollationProofs CollationTop CollationTop2 BufmapModel BufmapSpec QueryModel Probe
  BufconcModel BufconcSpec BufconcProofs BufconcInv BufconcStep BufconcTop BufconcProps ServerModel StoreProofs StoreConcModel StoreConcSpec StoreConcProofs.
Local Open Scope Z_scope.

Section top.
Context (pf : bytes → option float) (est : Counter → Z) (s : Schema) (impl : Row → bool → prog).
Notation c := (Compile s).
Notation size := (c_size (Compile s)).
Notation sstep := (sstep c impl).
Notation sexec := (sexec c impl).
Notation op_of := (op_of c impl).

(** ** from the store to its record map *)
Definition erase1 (e : sevent) : list event :=
  match e with
  | SInv t sc => match op_of sc with Some o => [EInv t o] | None => [] end
  | SBegin t k => [EBegin t k]
  | SDone t k r init => [EDone t k (impl r) init]
  | SPanic t k r init => [EPanic t k (impl r) init]
  | SRet t sc (Some r) => match op_of sc with Some o => [ERet t o r] | None => [] end
  | SRet _ _ None => []
  end.
Definition erase (h : list sevent) : list event := h ≫= erase1.
Lemma erase_app a b : erase (a ++ b) = erase a ++ erase b.
Proof. unfold erase. by rewrite bind_app. Qed.
Definition proj1a (a : saction) : list action :=
  match a with SCall t sc => match op_of sc with Some o => [ACall t o] | None => [] end | SStep t => [AStep t] end.
Definition winv (g : scfg) : Prop := ∀ t,
  match g_calls g !! t with
  | Some None => c_threads (g_cfg g) !! t = Some None
  | Some (Some sc) => ∃ o p, op_of sc = Some o ∧ c_threads (g_cfg g) !! t = Some (Some (o, p))
  | None => c_threads (g_cfg g) !! t = None
  end.
Lemma op_write r : op_of (CWrite r) = match row_key s r with Some k => Some (OUpdate k (impl r)) | None => None end.
Proof. unfold op_of, StoreConcModel.op_of, Row_KeyValue, row_key. rewrite KeyValue_spec, (proj1 (compile_names s)). by destruct (record_key _ _). Qed.
Lemma op_read q : op_of (CRead q) = match record_key (s_keys s) (q_crit q) with Some k => Some (OGet k (replicate (Z.to_nat size) 0)) | None => None end.
Proof. unfold op_of, StoreConcModel.op_of, Query_KeyValue. rewrite KeyValue_spec, (proj1 (compile_names s)). by destruct (record_key _ _). Qed.

(** one step of the store is at most one step of the map *)
Lemma sstep_shape g a g' es : winv g → sstep g a = (g', es) →
  (g' = g ∧ erase es = [] ∧ (es = [] ∨ ∃ t sc, a = SCall t sc ∧ op_of sc = None ∧ es = [SInv t sc; SRet t sc None] ∧ g_calls g !! t = Some None)) ∨
  (∃ t sc o, a = SCall t sc ∧ op_of sc = Some o ∧ g_calls g !! t = Some None ∧ c_threads (g_cfg g) !! t = Some None ∧ es = [SInv t sc] ∧
     g' = MkS (MkCfg (c_map (g_cfg g)) (<[t := Some (o, start o)]> (c_threads (g_cfg g)))) (<[t := Some sc]> (g_calls g)) ∧ step (g_cfg g) (ACall t o) = (g_cfg g', [EInv t o])) ∨
  (∃ t sc o r, a = SStep t ∧ op_of sc = Some o ∧ g_calls g !! t = Some (Some sc) ∧ c_threads (g_cfg g) !! t = Some (Some (o, PRet r)) ∧ es = [SRet t sc (Some r)] ∧
     g' = MkS (MkCfg (c_map (g_cfg g)) (<[t := None]> (c_threads (g_cfg g)))) (<[t := None]> (g_calls g)) ∧ step (g_cfg g) (AStep t) = (g_cfg g', [ERet t o r])) ∨
  (∃ t sc o p m p' es0, a = SStep t ∧ op_of sc = Some o ∧ g_calls g !! t = Some (Some sc) ∧ c_threads (g_cfg g) !! t = Some (Some (o, p)) ∧ (∀ r, p ≠ PRet r) ∧
     step_call (c_map (g_cfg g)) t o p = (m, p', es0) ∧ g' = MkS (MkCfg m (<[t := Some (o, p')]> (c_threads (g_cfg g)))) (g_calls g) ∧ step (g_cfg g) (AStep t) = (g_cfg g', es0) ∧ erase es = es0 ∧
     (es = [] ∨ ∃ k r x init, sc = CWrite r ∧ o = OUpdate k (impl r) ∧ ((p = USeq1 x init ∧ es = [SBegin t k]) ∨ (∃ res, p = USeq2 x init res ∧ es = [SDone t k r init]) ∨ (∃ q, p = UFn x init q ∧ es = [SPanic t k r init])))).
Proof.
  intros W. destruct a as [t sc|t]; cbn [StoreConcModel.sstep].
  - destruct (g_calls g !! t) as [[sc'|]|] eqn:Lg; [intros [= <- <-]; left; auto| |intros [= <- <-]; left; auto].
    pose proof (W t) as Wt. rewrite Lg in Wt. change (StoreConcModel.op_of c impl sc) with (op_of sc). destruct (op_of sc) as [o|] eqn:Eo.
    + intros [= <- <-]. right. left. exists t, sc, o. cbn [step]. rewrite Wt. cbn [fst]. done.
    + intros [= <- <-]. left. split; [done|]. split; [cbn; by rewrite Eo|]. right. exists t, sc. done.
  - destruct (g_calls g !! t) as [[sc|]|] eqn:Lg; [|intros [= <- <-]; left; auto..].
    pose proof (W t) as Wt. rewrite Lg in Wt. destruct Wt as (o & p & Eo & L). destruct (step (g_cfg g) (AStep t)) as [c' es0] eqn:E. intros [= <- <-].
    assert ((∃ r, p = PRet r) ∨ ∀ r, p ≠ PRet r) as [(r & ->)|Hp] by (destruct p; eauto; right; done).
    + cbn [step] in E. rewrite L in E. injection E as <- <-. right. right. left. exists t, sc, o, r. cbn [step]. rewrite L. done.
    + right. right. right. pose proof E as E0. cbn [step] in E. rewrite L in E. destruct (step_call (c_map (g_cfg g)) t o p) as [[m p'] es1] eqn:Es.
      assert (MkCfg m (<[t := Some (o, p')]> (c_threads (g_cfg g))) = c' ∧ es1 = es0) as [<- <-] by (destruct p; try (by injection E as <- <-); by destruct (Hp r)).
      assert (es1 = [] ∨ ∃ k fn x init, o = OUpdate k fn ∧ ((p = USeq1 x init ∧ es1 = [EBegin t k]) ∨ (∃ r, p = USeq2 x init r ∧ es1 = [EDone t k fn init]) ∨ (∃ q, p = UFn x init q ∧ es1 = [EPanic t k fn init]))) as Hes.
      { apply step_shape in E0 as [[_ ->]|[(t' & o' & [=] & _)|[(t' & o' & r & [= <-] & L' & _)|(t' & o' & p0 & m0 & p0' & [= <-] & L' & _ & _ & _ & Hes)]]]; [by left| |].
        - rewrite L in L'. injection L' as _ ->. by destruct (Hp r).
        - rewrite L in L'. by injection L' as <- <-. }
      exists t, sc, o, p, m, p', es1. destruct Hes as [->|(k & fn & x & init & -> & Hes)].
      { cbn. splits; try done. by left. }
      assert (∃ r, sc = CWrite r ∧ fn = impl r) as (r & -> & ->).
      { destruct sc as [r|q]; [|rewrite op_read in Eo; by destruct (record_key _ _)]. exists r. rewrite op_write in Eo. destruct (row_key s r); [by injection Eo as _ <-|done]. }
      destruct Hes as [(-> & ->)|[(res & -> & ->)|(q & -> & ->)]]; cbn; splits; try done; right; exists k, r, x, init; eauto 8.
Qed.


(** the history of the store, and its state, seen together *)
Context (l : Z) (Hs : schema_ok s) (Hd : dims_ok l size) (Himpl : impl_ok pf s impl).
Record winv2 (g : scfg) (h : list sevent) : Prop := {
  w_wf : winv g;
  w_inv : inv l size (g_cfg g) (erase h);
  w_res : results size (g_cfg g) (erase h);
  w_calls : ∀ t sc, g_calls g !! t = Some (Some sc) → call_ok sc;
  w_done : ∀ t k r init, SDone t k r init ∈ h ∨ SPanic t k r init ∈ h → call_ok (CWrite r) ∧ row_key s r = Some k }.
Lemma op_ok sc o t : call_ok sc → op_of sc = Some o → action_ok (ACall t o).
Proof.
  intros Hc Eo. destruct sc as [r|q].
  - rewrite op_write in Eo. destruct (row_key s r) as [k|] eqn:Ek; [|done]. injection Eo as <-. exact (record_key_range _ _ _ Hc Ek).
  - rewrite op_read in Eo. destruct (record_key _ _) as [k|] eqn:Ek; [|done]. injection Eo as <-. exact (record_key_range _ _ _ Hc Ek).
Qed.
Lemma winv_insert g m t o p (W : winv g) sc : g_calls g !! t = Some (Some sc) → op_of sc = Some o → winv (MkS (MkCfg m (<[t := Some (o, p)]> (c_threads (g_cfg g)))) (g_calls g)).
Proof.
  intros L Eo t'. cbn [g_calls g_cfg c_threads]. destruct (decide (t' = t)) as [->|Hne].
  - rewrite L. pose proof (W t) as Wt. rewrite L in Wt. destruct Wt as (o' & p0 & _ & L'). exists o, p. split; [done|]. apply list_lookup_insert. by eapply lookup_lt_Some.
  - rewrite list_lookup_insert_ne by done. apply W.
Qed.
Lemma sstep_inv g h a g' es : winv2 g h → saction_ok a → sstep g a = (g', es) → winv2 g' (h ++ es).
Proof.
  intros [W I R C D] Ha E.
  assert (∀ t k r init, (∀ t k r init, SDone t k r init ∉ es ∧ SPanic t k r init ∉ es) → SDone t k r init ∈ h ++ es ∨ SPanic t k r init ∈ h ++ es → call_ok (CWrite r) ∧ row_key s r = Some k) as D'.
  { intros t k r init Hn [H|H]; (apply elem_of_app in H as [H|H]; [by eapply D; eauto|by apply Hn in H]). }
  apply sstep_shape in E as [(-> & Ee & Hes)|[(t & sc & o & -> & Eo & Lg & L & -> & -> & Est)|[(t & sc & o & r & -> & Eo & Lg & L & -> & -> & Est)|(t & sc & o & p & m & p' & es0 & -> & Eo & Lg & L & Hp & Es & -> & Est & <- & Hes)]]]; [..|done].
  - constructor; try done; [by rewrite erase_app, Ee, app_nil_r..|]. intros t k r init. apply D'. destruct Hes as [->|(t' & sc & _ & _ & -> & _)]; intros; split; intros H; rewrite ?elem_of_cons, ?elem_of_nil in H; naive_solver.
  - assert (erase [SInv t sc] = [EInv t o]) as Ee by (cbn; by rewrite Eo). constructor.
    + intros t'. cbn [g_calls g_cfg c_threads]. destruct (decide (t' = t)) as [->|Hne]; [|rewrite !list_lookup_insert_ne by done; apply W].
      rewrite list_lookup_insert by (by eapply lookup_lt_Some). exists o, (start o). split; [done|]. apply list_lookup_insert. by eapply lookup_lt_Some.
    + rewrite erase_app, Ee. eapply step_inv; [done|by eapply op_ok|exact Est].
    + rewrite erase_app, Ee. eapply step_results; [done|done|exact Est].
    + intros t' sc' L'. cbn [g_calls] in L'. destruct (decide (t' = t)) as [->|Hne]; [|rewrite list_lookup_insert_ne in L' by done; by eapply C].
      rewrite list_lookup_insert in L' by (by eapply lookup_lt_Some). by injection L' as <-.
    + intros t' k r init. apply D'. intros; split; intros H; rewrite ?elem_of_cons, ?elem_of_nil in H; naive_solver.
  - assert (erase [SRet t sc (Some r)] = [ERet t o r]) as Ee by (cbn; by rewrite Eo). constructor.
    + intros t'. cbn [g_calls g_cfg c_threads]. destruct (decide (t' = t)) as [->|Hne]; [|rewrite !list_lookup_insert_ne by done; apply W].
      rewrite list_lookup_insert by (by eapply lookup_lt_Some). apply list_lookup_insert. by eapply lookup_lt_Some.
    + rewrite erase_app, Ee. eapply step_inv; [done| |exact Est]. done.
    + rewrite erase_app, Ee. eapply step_results; [done|done|exact Est].
    + intros t' sc' L'. cbn [g_calls] in L'. destruct (decide (t' = t)) as [->|Hne]; [|rewrite list_lookup_insert_ne in L' by done; by eapply C].
      rewrite list_lookup_insert in L' by (by eapply lookup_lt_Some). done.
    + intros t' k r' init. apply D'. intros; split; intros H; rewrite ?elem_of_cons, ?elem_of_nil in H; naive_solver.
  - constructor.
    + by eapply winv_insert.
    + rewrite erase_app. eapply step_inv; [done| |exact Est]. done.
    + rewrite erase_app. eapply step_results; [done|done|exact Est].
    + done.
    + intros t' k r' init'. destruct Hes as [->|(k0 & r & x & init & -> & -> & Hes)]; [apply D'; intros; split; apply not_elem_of_nil|].
      intros H. assert (r' = r ∧ k = k0 ∨ SDone t' k r' init' ∈ h ∨ SPanic t' k r' init' ∈ h) as [[-> ->]|H'].
      { destruct Hes as [(_ & ->)|[(res & _ & ->)|(q & _ & ->)]]; destruct H as [H|H]; apply elem_of_app in H as [H|H]; eauto; apply elem_of_list_singleton in H; try done; injection H as -> -> -> ->; by left. }
      * split; [by eapply C|]. rewrite op_write in Eo. destruct (row_key s r); [by injection Eo as <-|done].
      * by eapply D.
Qed.
Lemma sexec_inv g h acts g' es : winv2 g h → Forall saction_ok acts → sexec g acts = (g', es) → winv2 g' (h ++ es).
Proof.
  intros I HF. revert g h es I. induction HF as [|a acts Ha HF IH]; intros g h es I; cbn [StoreConcModel.sexec]; [by intros [= <- <-]; rewrite app_nil_r|].
  destruct (sstep g a) as [g1 e1] eqn:E1. destruct (sexec g1 acts) as [g2 e2] eqn:E2. intros [= <- <-]. rewrite app_assoc. eapply IH; [|done]. by eapply sstep_inv.
Qed.
Lemma sexecution_inv n acts g h : Forall saction_ok acts → sexecution s impl l n acts g h → winv2 g h.
Proof.
  intros HF (m & Em & E). change h with ([] ++ h). eapply sexec_inv; [|done|done]. constructor.
  - intros t. cbn [g_calls g_cfg c_threads]. destruct (replicate n None !! t) as [x|] eqn:L; [apply lookup_replicate in L as [-> ?]|apply lookup_replicate_None in L]; [by apply lookup_replicate|by apply lookup_replicate_None].
  - by apply init_inv.
  - split; intros ha hb t k fn init Eh; by destruct ha.
  - intros t sc L. cbn [g_calls] in L. by apply lookup_replicate in L as [? _].
  - intros t k r init [H|H]; by apply elem_of_nil in H.
Qed.

(** ** contents *)
Lemma contents_content k h : content size k (erase h) = contents pf s k h.
Proof.
  induction h as [|e h IH] using rev_ind; [done|]. rewrite erase_app, content_app. unfold contents, applied. rewrite omap_app, fold_left_app. fold (applied k h) (contents pf s k h). rewrite <- IH.
  destruct e as [t sc|t k' |t k' r init|t k' r init|t sc res]; cbn; try done; [by destruct (op_of sc)| |destruct res as [r0|]; [|done]; by destruct (op_of sc)].
  destruct (decide (k' = k)); [|done]. cbn. by rewrite Himpl by apply content_len.
Qed.
Lemma writes_applied k h : writes k (erase h) = Z.of_nat (length (applied k h)).
Proof.
  induction h as [|e h IH] using rev_ind; [done|]. rewrite erase_app, writes_app, IH. unfold applied. rewrite omap_app, app_length. fold (applied k h).
  destruct e as [t sc|t k' |t k' r init|t k' r init|t sc res]; unfold erase; cbn -[writes];
    [destruct (op_of sc); unfold writes; cbn; lia|unfold writes; cbn; lia| |unfold writes; cbn; lia|destruct res as [r0|]; [destruct (op_of sc)|]; unfold writes; cbn; lia].
  unfold writes. cbn. destruct (decide (k' = k)); cbn; lia.
Qed.
Lemma contents_reachable k h : (∀ t k r init, SDone t k r init ∈ h ∨ SPanic t k r init ∈ h → call_ok (CWrite r) ∧ row_key s r = Some k) → CollationSpec.reachable pf s (contents pf s k h).
Proof.
  induction h as [|e h IH] using rev_ind; intros D; [exact (CollationSpec.reach_new pf s)|].
  assert (CollationSpec.reachable pf s (contents pf s k h)) as Hr. { apply IH. intros t k' r init [H|H]; eapply D; [left|right]; apply elem_of_app; by left. }
  unfold contents, applied. rewrite omap_app, fold_left_app. fold (applied k h) (contents pf s k h).
  destruct e as [t sc|t k' |t k' r init|t k' r init|t sc res]; cbn; try done. destruct (decide (k' = k)); [|done]. cbn.
  eapply (CollationSpec.reach_row pf s _ r init _ (Coll_Update pf c r (contents pf s k h) init).2); [exact Hr| |by destruct (Coll_Update _ _ _ _ _)].
  destruct (D t k' r init) as [Hc _]; [left; apply elem_of_app; right; by left|]. cbn in Hc. eapply Forall_impl; [exact Hc|]. naive_solver.
Qed.
Lemma erase_split_done h t k r init ha hb : h = ha ++ SDone t k r init :: hb → erase h = erase ha ++ EDone t k (impl r) init :: erase hb.
Proof. intros ->. rewrite erase_app. done. Qed.
Lemma no_panic g h : winv2 g h → ∀ t k r init, SPanic t k r init ∉ h.
Proof.
  intros [W I R C D] t k r init Hin. apply elem_of_list_split in Hin as (ha & hb & ->).
  destruct (proj2 R (erase ha) (erase hb) t k (impl r) init) as [Hr _]; [by rewrite erase_app|].
  rewrite contents_content, Himpl in Hr.
  - destruct (CollationTop2.never_panics pf s (contents pf s k ha) r init Hs) as (b & o & E & Ho & _); [| |rewrite E in Hr; done].
    + apply contents_reachable. intros t' k' r' init' [H|H]; eapply D; [left|right]; apply elem_of_app; by left.
    + destruct (D t k r init) as [Hc _]; [right; apply elem_of_app; right; by left|]. cbn in Hc. eapply Forall_impl; [exact Hc|]. naive_solver.
  - rewrite <- contents_content. apply content_len.
Qed.
Lemma erase_panic h t k fn init : EPanic t k fn init ∈ erase h → ∃ r, SPanic t k r init ∈ h.
Proof.
  unfold erase. rewrite elem_of_list_bind. intros (e & Hin & He). destruct e as [t' sc|t' k'|t' k' r init'|t' k' r init'|t' sc res]; cbn in Hin.
  - destruct (op_of sc); rewrite ?elem_of_cons, ?elem_of_nil in Hin; naive_solver.
  - rewrite ?elem_of_cons, ?elem_of_nil in Hin; naive_solver.
  - rewrite ?elem_of_cons, ?elem_of_nil in Hin; naive_solver.
  - apply elem_of_list_singleton in Hin. injection Hin as -> -> _ ->. by exists r.
  - destruct res as [res|]; [destruct (op_of sc)|]; rewrite ?elem_of_cons, ?elem_of_nil in Hin; naive_solver.
Qed.
Lemma quiescent_q g h : winv2 g h → squiescent g → quiescent (g_cfg g).
Proof.
  intros [W _ _ _ _] Q t p L. specialize (W t). destruct (g_calls g !! t) as [sc|] eqn:Lg; [|congruence]. rewrite (Q t sc Lg) in W. congruence.
Qed.
Lemma store_record n acts g h k : Forall saction_ok acts → sexecution s impl l n acts g h → squiescent g → k ≠ 0 →
  record (c_map (g_cfg g)) k = Some (contents pf s k h) ∨ (record (c_map (g_cfg g)) k = None ∧ applied k h = []).
Proof.
  intros HF Ex Q H0. pose proof (sexecution_inv _ _ _ _ HF Ex) as V. pose proof (w_inv _ _ V) as I.
  assert (¬ dead k (erase h)) as Hnd. { intros (t & fn & init & Hin). apply erase_panic in Hin as (r & Hin). by eapply (no_panic g h V). }
  destruct (quiescent_record l size (g_cfg g) (erase h) k I (quiescent_q g h V Q) H0 Hnd) as [(x & Hx & Ek & Eb)|[Hno Hw]].
  - left. by rewrite (conc_record l size (g_cfg g) (erase h) k x), Eb, contents_content.
  - right. split; [|rewrite writes_applied in Hw; destruct (applied k h); [done|cbn in Hw; lia]].
    unfold record. assert (slots_of (c_map (g_cfg g)) k = []) as ->; [|done]. destruct (slots_of (c_map (g_cfg g)) k) as [|a L] eqn:E; [done|]. exfalso. assert (a ∈ slots_of (c_map (g_cfg g)) k) as Ha by (rewrite E; left).
    unfold slots_of in Ha. rewrite elem_of_list_filter, elem_of_list_fmap in Ha. rewrite (sh_keys _ _ _ (v_shape _ _ _ _ I)) in Ha. destruct Ha as [Ea (i & -> & Hi)]. apply elem_of_seq in Hi. apply (Hno (Z.of_nat i)); [lia|done].
Qed.
End top.
