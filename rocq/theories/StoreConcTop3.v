From Coq Require Import ZifyBool ZifyNat.
From Verif Require Import Base BaseProofs Float64 FnvSpec HllModel CollationModel CollationSpec CollationProofs CollationTop CollationTop2 BufmapModel BufmapSpec QueryModel Probe
  BufconcModel BufconcSpec BufconcProofs BufconcInv BufconcStep BufconcTop BufconcProps ServerModel StoreProofs StoreConcModel StoreConcSpec StoreConcProofs StoreConcTop StoreConcTop2.
Local Open Scope Z_scope.

Section top.
Context (pf : bytes → option float) (est : Counter → Z) (s : Schema) (impl : Row → bool → prog).
Notation c := (Compile s).
Notation size := (c_size (Compile s)).
Notation sstep := (sstep c impl).
Notation sexec := (sexec c impl).
Notation op_of := (op_of c impl).
Notation erase := (erase s impl).
Notation erase1 := (erase1 s impl).
Notation winv2 := (winv2 s impl).

(** ** from a moment in the history of the map to one in that of the store *)
Lemma erase1_le e : (length (erase1 e) ≤ 1)%nat.
Proof. destruct e as [t sc|t k|t k r init|t k r init|t sc [r|]]; cbn; try destruct (op_of sc); cbn; lia. Qed.
Lemma erase_split h x y : erase h = x ++ y → ∃ h1 h2, h = h1 ++ h2 ∧ erase h1 = x ∧ erase h2 = y.
Proof.
  revert x. induction h as [|e h IH]; intros x; cbn.
  - intros E. symmetry in E. apply app_eq_nil in E as [-> ->]. by exists [], [].
  - fold (erase h). pose proof (erase1_le e) as Hl. destruct (erase1 e) as [|e1 [|]] eqn:Ee; [|..|cbn in Hl; lia]; cbn; intros E.
    + destruct (IH _ E) as (h1 & h2 & -> & E1 & E2). exists (e :: h1), h2. split; [done|]. split; [|done]. cbn. fold (erase h1). by rewrite Ee.
    + destruct x as [|e2 x]; cbn in E.
      * exists [], (e :: h). split; [done|]. split; [done|]. cbn. fold (erase h). by rewrite Ee.
      * injection E as <- E. destruct (IH _ E) as (h1 & h2 & -> & E1 & E2). exists (e :: h1), h2. split; [done|]. split; [|done]. cbn. fold (erase h1). rewrite Ee. cbn. by rewrite E1.
Qed.
Lemma erase_at h x e y : erase h = x ++ e :: y → ∃ h1 e' h2, h = h1 ++ e' :: h2 ∧ erase1 e' = [e] ∧ erase h1 = x ∧ erase h2 = y.
Proof.
  intros E. destruct (erase_split _ _ _ E) as (h1 & h2 & -> & E1 & E2). clear E. revert h1 E1. induction h2 as [|e' h2 IH]; intros h1 E1; cbn in E2; [done|]. fold (erase h2) in E2.
  pose proof (erase1_le e') as Hl. destruct (erase1 e') as [|e1 [|]] eqn:Ee; [|..|cbn in Hl; lia]; cbn in E2.
  - destruct (IH E2 (h1 ++ [e'])) as (a & b & d & Eh & ?); [rewrite (erase_app s impl), E1; cbn; by rewrite Ee, app_nil_r|]. exists a, b, d. split; [by rewrite <- Eh, <- app_assoc|done].
  - injection E2 as <- E2. by exists h1, e', h2.
Qed.
Lemma squiet_quiet t h : squiet t h → quiet t (erase h).
Proof.
  intros H. unfold quiet. apply Forall_forall. intros e Hin. unfold StoreConcTop.erase in Hin. apply elem_of_list_bind in Hin as (e' & Hin & He). unfold squiet in H. rewrite Forall_forall in H. specialize (H _ He).
  destruct e' as [t' sc|t' k|t' k r init|t' k r init|t' sc [r|]]; cbn in Hin; try (destruct (op_of sc)); rewrite ?elem_of_cons, ?elem_of_nil in Hin; naive_solver.
Qed.
Lemma calls_called k h : calls k (erase h) = length (called s k h).
Proof.
  unfold calls, called. induction h as [|e h IH] using rev_ind; [done|]. rewrite (erase_app s impl), !omap_app, !app_length, IH. f_equal. unfold StoreConcTop.erase.
  destruct e as [t [r|q]|t k'|t k' r init|t k' r init|t sc [r|]]; cbn -[StoreConcModel.op_of row_key]; try done.
  - rewrite (op_write s impl). destruct (row_key s r) as [k'|]; cbn; [|by rewrite decide_False]. destruct (decide (k' = k)) as [->|]; [by rewrite decide_True|]. rewrite decide_False by congruence. done.
  - rewrite (op_read s impl). by destruct (record_key _ _).
  - by destruct (op_of sc).
Qed.

Context (l : Z) (Hs : schema_ok s) (Hd : dims_ok l size) (Himpl : impl_ok pf s impl).
(** ** the map sees an execution too *)
Lemma sexec_exec g h acts g' es : winv2 l g h → Forall saction_ok acts → sexec g acts = (g', es) → ∃ acts', Forall action_ok acts' ∧ exec (g_cfg g) acts' = (g_cfg g', erase es).
Proof.
  intros I HF. revert g h es I. induction HF as [|a acts Ha HF IH]; intros g h es I; cbn [StoreConcModel.sexec]; [intros [= <- <-]; by exists []|].
  destruct (sstep g a) as [g1 e1] eqn:E1. destruct (sexec g1 acts) as [g2 e2] eqn:E2. intros [= <- <-]. pose proof (sstep_inv s impl l _ _ _ _ _ I Ha E1) as I1.
  destruct (IH _ _ _ I1 E2) as (acts' & HF' & E). rewrite (erase_app s impl).
  apply sstep_shape in E1 as [(-> & Ee & _)|[(t & sc & o & -> & Eo & Lg & L & -> & Eg & Est)|[(t & sc & o & r & -> & Eo & Lg & L & -> & Eg & Est)|(t & sc & o & p & m & p' & es0 & -> & Eo & Lg & L & Hp & Es & Eg & Est & <- & Hes)]]]; [..|apply I].
  - exists acts'. by rewrite Ee.
  - exists (ACall t o :: acts'). split; [constructor; [|done]; eapply (op_ok s impl); [exact Ha|done]|]. cbn [exec]. rewrite Est, E. cbn. by rewrite Eo.
  - exists (AStep t :: acts'). split; [by constructor|]. cbn [exec]. rewrite Est, E. cbn. by rewrite Eo.
  - exists (AStep t :: acts'). split; [by constructor|]. cbn [exec]. by rewrite Est, E.
Qed.
Lemma sexecution_execution n acts g h : Forall saction_ok acts → sexecution s impl l n acts g h → ∃ acts', Forall action_ok acts' ∧ execution l size n acts' (g_cfg g) (erase h).
Proof.
  intros HF (m & Em & E). assert (winv2 l (MkS (MkCfg m (replicate n None)) (replicate n None)) []) as I0. { apply (sexecution_inv s impl l Hd n []); [constructor|]. exists m. done. }
  destruct (sexec_exec _ _ _ _ _ I0 HF E) as (acts' & HF' & E'). exists acts'. split; [done|]. exists m. done.
Qed.

(** ** with no failures, every application succeeded *)
Lemma all_ok n acts g h ha hb t k r init : Forall saction_ok acts → sexecution s impl l n acts g h → no_failures s h → squiescent g → h = ha ++ SDone t k r init :: hb →
  (Coll_Update pf c r (contents pf s k ha) init).2 = Ok ().
Proof.
  intros HF Ex NF Q Eh. pose proof (sexecution_inv s impl l Hd _ _ _ _ HF Ex) as V. pose proof (w_res _ _ _ _ _ V) as [R _].
  assert (erase h = erase ha ++ EDone t k (impl r) init :: erase hb) as Ee by (rewrite Eh, (erase_app s impl); done).
  destruct (R _ _ _ _ _ _ Ee) as [_ [(b1 & b2 & Eb & _)|(_ & p & L & _)]].
  - destruct (erase_at _ _ _ _ Eb) as (h1 & e' & h2 & -> & E1 & _ & _). rewrite (contents_content pf s impl Himpl), Himpl in E1 by (rewrite <- (contents_content pf s impl Himpl); apply content_len).
    destruct e' as [t' sc|t' k'|t' k' r' init'|t' k' r' init'|t' sc [r'|]]; cbn -[StoreConcModel.op_of] in E1; try done; [by destruct (op_of sc)|]. destruct (op_of sc) as [o|] eqn:Eo; [|done]. injection E1 as -> -> ->.
    destruct sc as [r0|q]; [|rewrite (op_read s impl) in Eo; by destruct (record_key _ _)].
    assert (SRet t (CWrite r0) (Some (RUpdate (Coll_Update pf c r (contents pf s k ha) init).2)) ∈ h) as Hin. { rewrite Eh. apply elem_of_app. right. right. apply elem_of_app. right. left. }
    apply NF in Hin. apply (reply_ok s) in Hin. by injection Hin.
  - assert (quiescent (g_cfg g)) as Q' by (by eapply (quiescent_q s impl l)). apply Q' in L. done.
Qed.
Lemma contents_app k a b : contents pf s k (a ++ b) = fold_left (λ d ir, (Coll_Update pf c ir.2 d ir.1).1) (applied k b) (contents pf s k a).
Proof. unfold contents. by rewrite applied_app, fold_left_app. Qed.
Lemma apply_rows_app cl b x y : apply_rows pf cl b (x ++ y) = match apply_rows pf cl b x with Ok b' => apply_rows pf cl b' y | e => e end.
Proof. revert b. induction x as [|[i r] x IH]; intros b; [done|]. cbn. destruct (Coll_Update pf cl r b i) as [b' [| |]]; [apply IH|done..]. Qed.
Lemma apply_ok n acts g h k ha hb : Forall saction_ok acts → sexecution s impl l n acts g h → no_failures s h → squiescent g → h = ha ++ hb →
  apply_rows pf c (replicate (Z.to_nat size) 0) (applied k ha) = Ok (contents pf s k ha).
Proof.
  intros HF Ex NF Q. revert hb. induction ha as [|e ha IH] using rev_ind; intros hb Eh; [done|]. rewrite <- app_assoc in Eh. specialize (IH _ Eh). rewrite applied_app, contents_app, apply_rows_app, IH.
  destruct e as [t sc|t k'|t k' r init|t k' r init|t sc res]; try done. cbn. destruct (decide (k' = k)) as [->|]; [|done]. pose proof (all_ok _ _ _ _ _ _ _ _ _ _ HF Ex NF Q Eh) as Eo. cbn.
  destruct (Coll_Update pf c r (contents pf s k ha) init) as [b o]. cbn in Eo |- *. by rewrite Eo.
Qed.

(** ** the first write alone *)
Lemma calls_app k a b : calls k (a ++ b) = (calls k a + calls k b)%nat.
Proof. unfold calls. by rewrite omap_app, app_length. Qed.
Lemma one_call k h a t fn b a' t' fn' b' : calls k h = 1%nat → h = a ++ EInv t (OUpdate k fn) :: b → h = a' ++ EInv t' (OUpdate k fn') :: b' → a = a' ∧ t = t' ∧ b = b'.
Proof.
  intros Hc E E'. rewrite E in E'. apply app_eq_app in E' as (z & [[-> Ez]|[-> Ez]]).
  - destruct z as [|e z]; [rewrite app_nil_r; by injection Ez as <- <- <-|]. injection Ez as <- ->. exfalso. rewrite E, calls_app in Hc. change (EInv t (OUpdate k fn) :: b) with ([EInv t (OUpdate k fn)] ++ b) in Hc.
    rewrite !calls_app in Hc. change (EInv t' (OUpdate k fn') :: z) with ([EInv t' (OUpdate k fn')] ++ z) in Hc. rewrite !calls_app in Hc. unfold calls in Hc at 2 4. cbn in Hc. rewrite !decide_True in Hc by done. cbn in Hc. lia.
  - destruct z as [|e z]; [rewrite app_nil_r; by injection Ez as -> -> ->|]. injection Ez as <- ->. exfalso. rewrite E, !calls_app in Hc.
    change (EInv t (OUpdate k fn) :: z ++ EInv t' (OUpdate k fn') :: b') with ([EInv t (OUpdate k fn)] ++ z ++ [EInv t' (OUpdate k fn')] ++ b') in Hc. rewrite !calls_app in Hc. unfold calls in Hc at 2 4. cbn in Hc. rewrite !decide_True in Hc by done. cbn in Hc. lia.
Qed.
Lemma applied_elem k h init r : (init, r) ∈ applied k h → ∃ a t b, h = a ++ SDone t k r init :: b.
Proof.
  unfold applied. rewrite elem_of_list_omap. intros (e & Hin & He). apply elem_of_list_split in Hin as (a & b & ->). destruct e as [t sc|t k'|t k' r' init'|t k' r' init'|t sc res]; try done.
  destruct (decide (k' = k)) as [->|]; [|done]. injection He as -> ->. eauto.
Qed.
Lemma all_false (L : list (bool * Row)) : (∀ init r, (init, r) ∈ L → init = false) → L = map (Datatypes.pair false) (map snd L).
Proof. induction L as [|[i r] L IH]; intros H; [done|]. cbn. rewrite (H i r) by left. f_equal. apply IH. intros i' r' Hin. apply (H i' r'). by right. Qed.
Lemma first_flags n acts g h ha hb t k r0 : Forall saction_ok acts → sexecution s impl l n acts g h → no_failures s h → squiescent g → k ≠ 0 →
  h = ha ++ SRet t (CWrite r0) (Some (RUpdate (Ok ()))) :: hb → row_key s r0 = Some k → called s k ha = [r0] → key_at (c_map (g_cfg g)) (home l k) = k →
  applied k h = (true, r0) :: map (Datatypes.pair false) (map snd (applied k hb)).
Proof.
  intros HF Ex NF Q H0 Eh Ek Hcal Hhome. pose proof (sexecution_inv s impl l Hd _ _ _ _ HF Ex) as V. destruct (sexecution_execution _ _ _ _ HF Ex) as (acts' & HF' & Ex').
  destruct (sexecution_pinv s impl l Hd k n acts g h H0 HF Ex NF) as (Wi & _).
  assert (erase h = erase ha ++ ERet t (OUpdate k (impl r0)) (RUpdate (Ok ())) :: erase hb) as Ee by (rewrite Eh, (erase_app s impl); cbn -[StoreConcModel.op_of]; by rewrite (op_write s impl), Ek).
  destruct (C39_update_once _ _ _ _ _ _ _ _ _ _ _ _ Hd HF' Ex' Ee) as (i1 & i2 & Ei & Hqi & [(g1 & g2 & init & -> & _)|[(_ & [[_ [=]]|(_ & [=] & _)])|([=] & _)]]).
  assert (1 ≤ writes k (erase ha)) as Hw. { rewrite Ei, writes_app. change (EInv t (OUpdate k (impl r0)) :: g1 ++ EDone t k (impl r0) init :: g2) with ([EInv t (OUpdate k (impl r0))] ++ g1 ++ [EDone t k (impl r0) init] ++ g2). rewrite !writes_app.
    pose proof (writes_nonneg k i1). pose proof (writes_nonneg k [EInv t (OUpdate k (impl r0))]). pose proof (writes_nonneg k g1). pose proof (writes_nonneg k g2). assert (writes k [EDone t k (impl r0) init] = 1) by (unfold writes; cbn; by rewrite decide_True). lia. }
  pose proof Hw as Hw'. rewrite (writes_applied s impl) in Hw'. destruct (Wi _ _ Eh) as [_ Hsub]. rewrite Hcal in Hsub.
  assert (map snd (applied k ha) = [r0]) as Hone. { apply Permutation_singleton_r. apply submseteq_Permutation_length_le; [|done]. rewrite map_length. cbn. lia. }
  destruct (applied k ha) as [|[i0 r1] [|]] eqn:Ea; try done. cbn in Hone. injection Hone as ->.
  assert (i0 = true) as ->.
  { destruct i0; [done|]. destruct (applied_elem k ha false r0) as (a & t1 & b & Eab); [rewrite Ea; left|]. assert (erase h = erase a ++ EDone t1 k (impl r0) false :: erase (b ++ SRet t (CWrite r0) (Some (RUpdate (Ok ()))) :: hb)) as Ee1.
    { rewrite Eh, Eab, <- app_assoc, (erase_app s impl). done. }
    pose proof (C42_first_partial _ _ _ _ _ _ _ _ _ _ _ _ Hd HF' Ex' Ee1 eq_refl) as Hc. pose proof (calls_called k ha) as Hc'. rewrite Hcal, Eab, (erase_app s impl), calls_app in Hc'. cbn [length] in Hc'. lia. }
  rewrite Eh, applied_app, Ea. change (SRet t (CWrite r0) (Some (RUpdate (Ok ()))) :: hb) with ([SRet t (CWrite r0) (Some (RUpdate (Ok ())))] ++ hb). rewrite applied_app. cbn. f_equal.
  apply all_false. intros i1' r1 Hin. destruct i1'; [|done]. exfalso. destruct (applied_elem _ _ _ _ Hin) as (a & t1 & b & Eab).
  assert (erase h = (erase ha ++ ERet t (OUpdate k (impl r0)) (RUpdate (Ok ())) :: erase a) ++ EDone t1 k (impl r1) true :: erase b) as Ee1. { rewrite Ee, Eab, (erase_app s impl). by rewrite <- app_assoc. }
  destruct (C39_inside _ _ _ _ _ _ _ _ _ _ _ _ Hd HF' Ex' (or_introl Ee1)) as (_ & j1 & j2 & Ej & Hqj).
  pose proof (w_res _ _ _ _ _ V) as [R _]. destruct (R _ _ _ _ _ _ Ee1) as [_ [(b1 & b2 & Eb & Hqb)|(_ & p & L & _)]]; [|assert (quiescent (g_cfg g)) as Q' by (by eapply (quiescent_q s impl l)); by apply Q' in L].
  rewrite Eb, Ej in Ee1. assert (writes k j1 = 0) as Hj.
  { eapply (C42_flag_partial l size n acts' (g_cfg g) (erase h) (j1 ++ EInv t1 (OUpdate k (impl r1)) :: j2 ++ EDone t1 k (impl r1) true :: b1) b2 t1 k (impl r1) _ j1 j2 b1 true Hd HF' Ex'); [|done| |done|done].
    - rewrite Ee1. rewrite <- !app_assoc. cbn. by rewrite <- app_assoc.
    - apply Forall_app_2; [done|]. by constructor. }
  apply app_eq_app in Ej as (z & [[Ez1 Ez2]|[Ez1 Ez2]]).
  - destruct z as [|e z]; [done|]. injection Ez2 as <- ->. destruct (one_call k _ _ _ _ _ _ _ _ _ ltac:(rewrite calls_called, Hcal; done) Ei Ez1) as (_ & <- & _).
    unfold quiet in Hqj. rewrite Forall_app, Forall_cons in Hqj. destruct Hqj as (_ & Hx & _). done.
  - rewrite Ez1, writes_app in Hj. pose proof (writes_nonneg k z). lia.
Qed.

(** ** calls and returns *)
Record cinv (g : scfg) (h : list sevent) : Prop := {
  k_act : ∀ t sc, g_calls g !! t = Some (Some sc) → ∃ h1 h2, h = h1 ++ SInv t sc :: h2 ∧ squiet t h2;
  k_ret : ∀ ha hb t sc res, h = ha ++ SRet t sc res :: hb → (res = None ↔ op_of sc = None) ∧ ∃ h1 h2, ha = h1 ++ SInv t sc :: h2 ∧ squiet t h2;
  k_done : ∀ ha hb t k r init, h = ha ++ SDone t k r init :: hb → ∃ h1 h2, ha = h1 ++ SInv t (CWrite r) :: h2 ∧ squiet t h2 }.
Lemma ssnoc_split (h : list sevent) e ha x hb : h ++ [e] = ha ++ x :: hb → (∃ hb', h = ha ++ x :: hb' ∧ hb = hb' ++ [e]) ∨ (ha = h ∧ x = e ∧ hb = []).
Proof.
  intros E. destruct hb as [|y hb _] using rev_ind; [right; apply app_inj_tail in E as [-> ->]; done|]. left. exists hb. rewrite app_comm_cons, app_assoc in E. apply app_inj_tail in E as [-> ->]. done.
Qed.
Definition head_of (t : nat) (e : sevent) : Prop := match e with SInv t' _ | SRet t' _ _ => t' ≠ t | _ => True end.
Lemma act_snoc (h : list sevent) t sc e : head_of t e → (∃ h1 h2, h = h1 ++ SInv t sc :: h2 ∧ squiet t h2) → ∃ h1 h2, h ++ [e] = h1 ++ SInv t sc :: h2 ∧ squiet t h2.
Proof. intros He (h1 & h2 & -> & Hq). exists h1, (h2 ++ [e]). rewrite <- app_assoc. split; [done|]. apply Forall_app_2; [done|]. by constructor. Qed.
Lemma sstep_cinv g h a g' es : winv s impl g → cinv g h → sstep g a = (g', es) → cinv g' (h ++ es).
Proof.
  intros W [KA KR KD] E.
  apply sstep_shape in E as [(-> & Ee & Hes)|[(t & sc & o & -> & Eo & Lg & L & -> & -> & Est)|[(t & sc & o & r & -> & Eo & Lg & L & -> & -> & Est)|(t & sc & o & p & m & p' & es0 & -> & Eo & Lg & L & Hp & Es & -> & Est & <- & Hes)]]]; [..|done].
  - destruct Hes as [->|(t & sc & -> & Eo & -> & Lg)]; [by rewrite app_nil_r|]. change [SInv t sc; SRet t sc None] with ([SInv t sc] ++ [SRet t sc None]). rewrite app_assoc.
    assert (∀ t' sc', g_calls g !! t' = Some (Some sc') → t ≠ t') as Hne by (intros t' sc' L' ->; congruence). constructor.
    + intros t' sc' Lg'. pose proof (Hne _ _ Lg'). apply act_snoc; [done|]. apply act_snoc; [done|]. by apply KA.
    + intros ha hb t' sc' res Eh. apply ssnoc_split in Eh as [(hb' & Eh & ->)|(-> & [= -> -> ->] & ->)]; [apply ssnoc_split in Eh as [(hb'' & Eh & ->)|(_ & [=] & _)]; by eapply KR|]. split; [done|]. exists h, []. split; [done|constructor].
    + intros ha hb t' k r init Eh. apply ssnoc_split in Eh as [(hb' & Eh & ->)|(_ & [=] & _)]. apply ssnoc_split in Eh as [(hb'' & Eh & ->)|(_ & [=] & _)]. by eapply KD.
  - constructor.
    + intros t' sc' Lg'. cbn [g_calls] in Lg'. destruct (decide (t' = t)) as [->|Hne].
      * rewrite list_lookup_insert in Lg' by (by eapply lookup_lt_Some). injection Lg' as <-. exists h, []. split; [done|constructor].
      * rewrite list_lookup_insert_ne in Lg' by done. apply act_snoc; [cbn; congruence|]. by apply KA.
    + intros ha hb t' sc' res Eh. apply ssnoc_split in Eh as [(hb' & Eh & ->)|(_ & [=] & _)]. by eapply KR.
    + intros ha hb t' k r init Eh. apply ssnoc_split in Eh as [(hb' & Eh & ->)|(_ & [=] & _)]. by eapply KD.
  - constructor.
    + intros t' sc' Lg'. cbn [g_calls] in Lg'. destruct (decide (t' = t)) as [->|Hne]; [by rewrite list_lookup_insert in Lg' by (by eapply lookup_lt_Some)|].
      rewrite list_lookup_insert_ne in Lg' by done. apply act_snoc; [cbn; congruence|]. by apply KA.
    + intros ha hb t' sc' res Eh. apply ssnoc_split in Eh as [(hb' & Eh & ->)|(-> & [= -> -> ->] & ->)]; [by eapply KR|]. split; [split; congruence|]. by apply KA.
    + intros ha hb t' k r0 init Eh. apply ssnoc_split in Eh as [(hb' & Eh & ->)|(_ & [=] & _)]. by eapply KD.
  - destruct Hes as [->|(k0 & r0 & x & init0 & -> & -> & Hes)]; [rewrite app_nil_r; by constructor|].
    assert (∃ e, es = [e] ∧ (∀ t', head_of t' e) ∧ (∀ t' sc res, e ≠ SRet t' sc res) ∧ ∀ t' k r init, e = SDone t' k r init → t' = t ∧ r = r0) as (e & -> & H1 & H2 & H3).
    { destruct Hes as [(_ & ->)|[(res & _ & ->)|(q & _ & ->)]]; eexists; (split; [reflexivity|]); (split; [done|]); (split; [done|]); intros ? ? ? ?; try done. by intros [= -> -> -> ->]. }
    constructor.
    + intros t' sc' Lg'. cbn [g_calls] in Lg'. apply act_snoc; [apply H1|]. by apply KA.
    + intros ha hb t' sc' res Eh. apply ssnoc_split in Eh as [(hb' & Eh & ->)|(_ & He & _)]; [by eapply KR|]. by destruct (H2 t' sc' res).
    + intros ha hb t' k r init Eh. apply ssnoc_split in Eh as [(hb' & Eh & ->)|(-> & He & ->)]; [by eapply KD|]. symmetry in He. destruct (H3 _ _ _ _ He) as [-> ->]. by apply KA.
Qed.
Lemma sexec_cinv g h acts g' es : winv2 l g h → Forall saction_ok acts → cinv g h → sexec g acts = (g', es) → cinv g' (h ++ es).
Proof.
  intros I HF. revert g h es I. induction HF as [|a acts Ha HF IH]; intros g h es I K; cbn [StoreConcModel.sexec]; [by intros [= <- <-]; rewrite app_nil_r|].
  destruct (sstep g a) as [g1 e1] eqn:E1. destruct (sexec g1 acts) as [g2 e2] eqn:E2. intros [= <- <-]. rewrite app_assoc. eapply IH; [by eapply (sstep_inv s impl l)| |exact E2]. eapply sstep_cinv; [apply I|done|done].
Qed.
Lemma sexecution_cinv n acts g h : Forall saction_ok acts → sexecution s impl l n acts g h → cinv g h.
Proof.
  intros HF (m & Em & E). assert (winv2 l (MkS (MkCfg m (replicate n None)) (replicate n None)) []) as I0. { apply (sexecution_inv s impl l Hd n []); [constructor|]. exists m. done. }
  change h with ([] ++ h). eapply sexec_cinv; [exact I0|done| |exact E]. constructor.
  - intros t sc Lg. cbn [g_calls] in Lg. by apply lookup_replicate in Lg as [? _].
  - intros [] ? ? ? ? [=].
  - intros [] ? ? ? ? ? [=].
Qed.

(** ** reads *)
(** what a Read finds of a record d in slot x *)
Definition found_of (x : Z) (d : bytes) : bytes := let j := Nat.min (Z.to_nat x) (Z.to_nat size) in take j d ++ drop j (replicate (Z.to_nat size) 0).
Lemma read_exact n acts g h ha hb t q res k : Forall saction_ok acts → sexecution s impl l n acts g h → h = ha ++ SRet t (CRead q) res :: hb → record_key (s_keys s) (q_crit q) = Some k → k ≠ 0 →
  ∃ h1 h2, ha = h1 ++ SInv t (CRead q) :: h2 ∧ squiet t h2 ∧
    ((∃ x, 0 ≤ x < l ∧ key_at (c_map (g_cfg g)) x = k ∧ x * (size + 1) ≤ l * size ∧ (Z.of_nat (length (applied k h2)) < 2^31 →
        ∃ a b, h2 = a ++ b ∧ reply est c (CRead q) res = ARead (match Coll_Read est c (q_fms q) (found_of x (contents pf s k (h1 ++ SInv t (CRead q) :: a))) with Panic => Panics | r => Ret r end))) ∨
     (reply est c (CRead q) res = ARead (Ret (Ok [])) ∧ applied k h1 = []) ∨
     (reply est c (CRead q) res = ARead Panics ∧ ∃ x, 0 ≤ x < l ∧ key_at (c_map (g_cfg g)) x = k ∧ l * size < x * (size + 1))).
Proof.
  intros HF Ex Eh Ek H0. pose proof (sexecution_inv s impl l Hd _ _ _ _ HF Ex) as V. destruct (sexecution_execution _ _ _ _ HF Ex) as (acts' & HF' & Ex').
  destruct (k_ret _ _ (sexecution_cinv _ _ _ _ HF Ex) _ _ _ _ _ Eh) as (Hnone & h1 & h2 & Ea & Hq). exists h1, h2. split; [done|]. split; [done|].
  pose proof (op_read s impl q) as Eo. rewrite Ek in Eo. destruct res as [r|]; [|by rewrite (proj1 Hnone eq_refl) in Eo]. clear Hnone. set (buf := replicate (Z.to_nat size) 0) in *.
  assert (erase h = erase ha ++ ERet t (OGet k buf) r :: erase hb) as Ee by (rewrite Eh, (erase_app s impl); cbn -[StoreConcModel.op_of]; by rewrite Eo).
  assert (erase ha = erase h1 ++ EInv t (OGet k buf) :: erase h2) as Ea' by (rewrite Ea, (erase_app s impl); cbn -[StoreConcModel.op_of]; by rewrite Eo).
  assert (length buf = Z.to_nat size) as Lb by apply replicate_length. destruct Hd as (D1 & D2 & D3).
  destruct (C40_not_torn_partial _ _ _ _ _ _ _ _ _ _ _ _ Hd HF' Ex' H0 Ee) as (i1 & i2 & Ei & Hqi & Hcase). rewrite Ea' in Ei. destruct (last_call Ei (squiet_quiet _ _ Hq) Hqi) as (-> & _ & ->).
  destruct Hcase as [(b & x & -> & Hlb & Hx & Hkx & Hxl & Hmom)|[(-> & Hns)|(-> & Hp)]].
  - left. exists x. split; [done|]. split; [done|]. split; [done|]. intros Hw. destruct Hmom as (g1 & g2 & Eg & ->); [lia|by rewrite (writes_applied s impl)|]. destruct (erase_split _ _ _ Eg) as (a & b' & -> & <- & _).
    exists a, b'. split; [done|]. cbn [reply]. assert (EInv t (OGet k buf) :: erase a = erase (SInv t (CRead q) :: a)) as -> by (cbn -[StoreConcModel.op_of]; by rewrite Eo).
    rewrite <- (erase_app s impl), (contents_content pf s impl Himpl). unfold found_of. rewrite (Nat.min_comm (Z.to_nat x)), Lb. fold buf. done.
  - right. left. split; [done|]. unfold seen in Hns. destruct (applied k h1) eqn:Ep; [done|]. exfalso. apply Hns. left. rewrite (writes_applied s impl), Ep. cbn. lia.
  - right. right. split; [done|]. destruct Hp as (x & ? & ? & ?). eauto.
Qed.
Lemma found_whole x d : size ≤ x → length d = Z.to_nat size → found_of x d = d.
Proof.
  intros Hx Hl. destruct Hd as (D1 & D2 & D3). unfold found_of. rewrite Nat.min_r by lia. rewrite (drop_ge (replicate _ _)) by (rewrite replicate_length; lia). by rewrite app_nil_r, take_ge by lia.
Qed.
Lemma read_moment n acts g h ha hb t q res k : Forall saction_ok acts → sexecution s impl l n acts g h → h = ha ++ SRet t (CRead q) res :: hb → record_key (s_keys s) (q_crit q) = Some k → k ≠ 0 →
  ∃ h1 h2, ha = h1 ++ SInv t (CRead q) :: h2 ∧ squiet t h2 ∧
    ((∃ x, 0 ≤ x < l ∧ key_at (c_map (g_cfg g)) x = k ∧ (size ≤ x → Z.of_nat (length (applied k h2)) < 2^31 →
        ∃ a b, h2 = a ++ b ∧ reply est c (CRead q) res = ARead (Ret (Coll_Read est c (q_fms q) (contents pf s k (h1 ++ SInv t (CRead q) :: a)))))) ∨
     (reply est c (CRead q) res = ARead (Ret (Ok [])) ∧ applied k h1 = []) ∨
     (reply est c (CRead q) res = ARead Panics ∧ ∃ x, 0 ≤ x < l ∧ key_at (c_map (g_cfg g)) x = k ∧ l * size < x * (size + 1))).
Proof.
  intros HF Ex Eh Ek H0. destruct (read_exact n acts g h ha hb t q res k HF Ex Eh Ek H0) as (h1 & h2 & Ea & Hq & Hcase). exists h1, h2. split; [done|]. split; [done|].
  pose proof (sexecution_inv s impl l Hd _ _ _ _ HF Ex) as V. destruct Hcase as [(x & Hx & Hkx & _ & Hm)|Hcase]; [left|by right]. exists x. split; [done|]. split; [done|]. intros Hsx Hw. destruct (Hm Hw) as (a & b & -> & ->). exists a, b. split; [done|].
  assert (length (contents pf s k (h1 ++ SInv t (CRead q) :: a)) = Z.to_nat size) as Hlc by (rewrite <- (contents_content pf s impl Himpl); apply content_len). rewrite found_whole by done.
  destruct (Coll_Read est c (q_fms q) _) as [| |] eqn:Er; try done. exfalso. eapply (CollationTop2.read_never_panics pf est s _ (q_fms q) Hs); [|exact Er].
  apply (contents_reachable pf s). intros t' k' r' init' Hin. apply (w_done _ _ _ _ _ V t' k' r' init'). rewrite Eh, Ea. destruct Hin as [Hin|Hin]; [left|right]; rewrite ?elem_of_app, ?elem_of_cons, ?elem_of_app in *; naive_solver.
Qed.
End top.
