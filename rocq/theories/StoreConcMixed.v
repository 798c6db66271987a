From Coq Require Import ZifyBool ZifyNat.
From Verif Require Import Base BaseProofs Float64 FnvSpec HllModel CollationModel CollationSpec CollationProofs CollationTop CollationTop2 BufmapModel BufmapSpec QueryModel Probe
  BufconcModel BufconcSpec BufconcProofs BufconcInv BufconcStep BufconcTop BufconcProps ServerModel ServerSpec StoreProofs StoreConcModel StoreConcSpec StoreConcProofs StoreConcTop StoreConcTop2 StoreConcTop3 StoreConcProps
  ServerConcModel ServerConcSpec ServerConcProofs ServerMixedSpec.
Local Open Scope Z_scope.

Section mixed.
Context (pf : bytes → option float) (s : Schema) (impl : Row → bool → prog).
Context (l : Z) (Hs : schema_ok s) (Hd : dims_ok l (c_size (Compile s))) (Himpl : impl_ok pf s impl).
Notation c := (Compile s).
Notation size := (c_size (Compile s)).
Notation op_of := (op_of c impl).

(** ** the rows applied, with the goroutine and whether the update succeeded *)
Definition is_ok {A} (o : outcome A) : bool := match o with Ok _ => true | _ => false end.
Fixpoint marks (k : Z) (d : bytes) (h : list sevent) : list (nat * (Row * bool)) :=
  match h with
  | [] => []
  | SDone t k' r init :: h =>
      if decide (k' = k) then (t, (r, is_ok (Coll_Update pf c r d init).2)) :: marks k (Coll_Update pf c r d init).1 h else marks k d h
  | _ :: h => marks k d h
  end.
Definition after (k : Z) (d : bytes) (h : list sevent) : bytes := fold_left (λ d ir, (Coll_Update pf c ir.2 d ir.1).1) (applied k h) d.
Lemma marks_app k d a b : marks k d (a ++ b) = marks k d a ++ marks k (after k d a) b.
Proof.
  revert d. induction a as [|e a IH]; intros d; [done|]. destruct e as [t sc|t k'|t k' r init|t k' r init|t sc res]; cbn [app marks]; try apply IH.
  unfold after, applied. cbn [omap list_omap]. destruct (decide (k' = k)); [|apply IH]. cbn [app fold_left]. f_equal. apply IH.
Qed.
Lemma marks_outcomes k d h : apply_all pf c d (applied k h) = (after k d h, map snd (marks k d h)).
Proof.
  revert d. induction h as [|e h IH]; intros d; [done|]. destruct e as [t sc|t k'|t k' r init|t k' r init|t sc res]; try apply IH.
  unfold after, applied. cbn [omap list_omap marks]. destruct (decide (k' = k)); [|apply IH]. cbn [apply_all fold_left map fst snd].
  destruct (Coll_Update pf c r d init) as [d1 o]. cbn [fst snd]. specialize (IH d1). unfold applied in IH. rewrite IH. by destruct o.
Qed.
Definition zero : bytes := replicate (Z.to_nat size) 0.
Lemma after_contents k h : after k zero h = contents pf s k h.
Proof. done. Qed.
Definition trets (t : nat) (h : list sevent) : list (scall * option res) := omap (λ e, match e with SRet t' sc r => if decide (t' = t) then Some (sc, r) else None | _ => None end) h.
Definition tmarks (t : nat) (k : Z) (d : bytes) (h : list sevent) : list (Row * bool) := map snd (filter (λ x, x.1 = t) (marks k d h)).
Lemma trets_app t a b : trets t (a ++ b) = trets t a ++ trets t b.
Proof. apply omap_app. Qed.
Lemma tmarks_app t k d a b : tmarks t k d (a ++ b) = tmarks t k d a ++ tmarks t k (after k d a) b.
Proof. unfold tmarks. by rewrite marks_app, filter_app, map_app. Qed.
Lemma tmarks_none t k d h : (∀ r init, SDone t k r init ∉ h) → tmarks t k d h = [].
Proof.
  unfold tmarks. revert d. induction h as [|e h IH]; intros d Hn; [done|]. assert (∀ d, map snd (filter (λ x, x.1 = t) (marks k d h)) = []) as IH'. { intros d'. apply IH. intros r init Hin. apply (Hn r init). by right. }
  destruct e as [t' sc|t' k'|t' k' r init|t' k' r init|t' sc res]; cbn [marks]; try apply IH'. destruct (decide (k' = k)) as [->|]; [|apply IH'].
  rewrite filter_cons_False; [apply IH'|]. cbn. intros ->. apply (Hn r init). left.
Qed.
(** what is left of the calls of a goroutine that have returned *)
Inductive did (k : Z) : list (scall * option res) → list (Row * bool) → Prop :=
  | did_nil : did k [] []
  | did_skip R D sc res : (∀ r, sc = CWrite r → row_key s r ≠ Some k) → did k R D → did k (R ++ [(sc, res)]) D
  | did_ok R D r : row_key s r = Some k → did k R D → did k (R ++ [(CWrite r, Some (RUpdate (Ok ())))]) (D ++ [(r, true)])
  | did_bad R D r e : row_key s r = Some k → did k R D → did k (R ++ [(CWrite r, Some (RUpdate (Err e)))]) (D ++ [(r, false)])
  | did_none R D r : row_key s r = Some k → did k R D → did k (R ++ [(CWrite r, Some (RUpdate (Err ErrOutOfSlots)))]) D.
Definition tst (k : Z) (cl : option (option scall)) (h : list sevent) (t : nat) : Prop :=
  match cl with
  | Some (Some sc) => ∃ h1 h2, h = h1 ++ SInv t sc :: h2 ∧ squiet t h2 ∧ did k (trets t h1) (tmarks t k zero h1)
  | _ => did k (trets t h) (tmarks t k zero h)
  end.
Definition tinv (k : Z) (g : scfg) (h : list sevent) : Prop := ∀ t, tst k (g_calls g !! t) h t.
Lemma trets_quiet t h : squiet t h → trets t h = [].
Proof. induction 1 as [|e h He H IH]; [done|]. destruct e as [t' sc|t' k'|t' k' r init|t' k' r init|t' sc res]; try exact IH. unfold trets. cbn. by rewrite decide_False. Qed.
Lemma slast_call (h1 h2 i1 i2 : list sevent) t sc sc' : h1 ++ SInv t sc :: h2 = i1 ++ SInv t sc' :: i2 → squiet t h2 → squiet t i2 → i1 = h1 ∧ sc' = sc ∧ i2 = h2.
Proof.
  intros E Q1 Q2. apply app_eq_app in E as (z & [[-> E]|[-> E]]).
  - destruct z as [|e z]; [injection E; intros; subst; by rewrite app_nil_r|]. injection E; intros; subst. exfalso. unfold squiet in Q2. rewrite Forall_app, Forall_cons in Q2. destruct Q2 as (_ & Hx & _). done.
  - destruct z as [|e z]; [injection E; intros; subst; by rewrite app_nil_r|]. injection E; intros; subst. exfalso. unfold squiet in Q1. rewrite Forall_app, Forall_cons in Q1. destruct Q1 as (_ & Hx & _). done.
Qed.
Lemma done_by_none t k h r init : done_by t (erase s impl h) = [] → SDone t k r init ∉ h.
Proof.
  intros E Hin. apply elem_of_list_split in Hin as (a & b & ->). rewrite (erase_app s impl) in E. change (erase s impl (SDone t k r init :: b)) with (EDone t k (impl r) init :: erase s impl b) in E.
  unfold done_by in E. rewrite omap_app in E. apply app_eq_nil in E as [_ E]. cbn in E. by rewrite decide_True in E.
Qed.
Definition other (t : nat) (es : list sevent) : Prop := Forall (λ e, sthread e ≠ t) es.
Lemma other1 t e : sthread e ≠ t → other t [e].
Proof. intros H. constructor; [done|constructor]. Qed.
Lemma other_quiet t es : other t es → squiet t es.
Proof. intros H. eapply Forall_impl; [exact H|]. by intros []. Qed.
Lemma other_marks t k d es : other t es → tmarks t k d es = [].
Proof. intros H. apply tmarks_none. intros r init Hin. unfold other in H. rewrite Forall_forall in H. specialize (H _ Hin). done. Qed.
Lemma tinv_other k cl h es t : other t es → tst k cl h t → tst k cl (h ++ es) t.
Proof.
  intros Ho. unfold tst. assert (did k (trets t h) (tmarks t k zero h) → did k (trets t (h ++ es)) (tmarks t k zero (h ++ es))) as G.
  { rewrite trets_app, tmarks_app, (trets_quiet t es) by (by apply other_quiet). rewrite (other_marks t k _ es Ho). by rewrite !app_nil_r. }
  destruct cl as [[sc|]|]; [|exact G..]. intros (h1 & h2 & -> & Hq & Hdid). exists h1, (h2 ++ es). rewrite <- app_assoc. split; [done|]. split; [|done]. apply Forall_app_2; [done|by apply other_quiet].
Qed.
Lemma sexecution_tinv k n acts g h : k ≠ 0 → Forall saction_ok acts → sexecution s impl l n acts g h → tinv k g h.
Proof.
  intros H0. revert g h. induction acts as [|a acts IH] using rev_ind; intros g h HF Ex.
  - destruct Ex as (m & Em & E). cbn in E. injection E as <- <-. intros t. cbn [g_calls]. destruct (replicate n None !! t) as [[sc|]|] eqn:L; [by apply lookup_replicate in L as [? _]|constructor|constructor].
  - pose proof HF as HF0. pose proof Ex as Ex0. apply Forall_app in HF as [HF Ha]. apply Forall_cons in Ha as [Ha _]. destruct Ex as (m & Em & E). rewrite sexec_app in E. destruct (sexec c impl _ acts) as [g1 h1] eqn:E1. cbn [sexec] in E. destruct (sstep c impl g1 a) as [g2 es] eqn:E2. injection E as -> <-. rewrite app_nil_r in *.
    assert (sexecution s impl l n acts g1 h1) as Ex1 by (by exists m). specialize (IH _ _ HF Ex1). pose proof (sexecution_inv s impl l Hd _ _ _ _ HF Ex1) as V1. pose proof (w_wf _ _ _ _ _ V1) as W. pose proof (sexecution_cinv s impl l Hd _ _ _ _ HF Ex1) as K1.
    apply sstep_shape in E2 as [(-> & Ee & Hes)|[(t & sc & o & -> & Eo & Lg & L & -> & -> & Est)|[(t & sc & o & r & -> & Eo & Lg & L & -> & -> & Est)|(t & sc & o & p & m0 & p' & es0 & -> & Eo & Lg & L & Hp & Es & -> & Est & <- & Hes)]]]; [..|done].
    + destruct Hes as [->|(t & sc & -> & Eo & -> & Lg)]; [by rewrite app_nil_r|]. intros t'. destruct (decide (t' = t)) as [->|Hne].
      * specialize (IH t). rewrite Lg in *. unfold tst in *. rewrite trets_app, tmarks_app. rewrite (tmarks_none t k _ [SInv t sc; SRet t sc None]) by (intros ? ? Hin; rewrite !elem_of_cons, elem_of_nil in Hin; naive_solver). unfold trets at 2. cbn. rewrite decide_True by done. rewrite app_nil_r.
        apply did_skip; [|done]. intros r ->. rewrite (op_write s impl) in Eo. destruct (row_key s r); [done|]. done.
      * apply tinv_other; [|apply IH]. constructor; [cbn; congruence|]. apply other1; cbn; congruence.
    + intros t'. cbn [g_calls]. destruct (decide (t' = t)) as [->|Hne].
      * rewrite list_lookup_insert by (by eapply lookup_lt_Some). specialize (IH t). rewrite Lg in IH. unfold tst in *. exists h1, []. split; [done|]. split; [constructor|done].
      * rewrite list_lookup_insert_ne by done. apply tinv_other; [apply other1; cbn; congruence|apply IH].
    + intros t'. cbn [g_calls]. destruct (decide (t' = t)) as [->|Hne].
      2:{ rewrite list_lookup_insert_ne by done. apply tinv_other; [apply other1; cbn; congruence|apply IH]. }
      rewrite list_lookup_insert by (by eapply lookup_lt_Some). specialize (IH t). rewrite Lg in IH. unfold tst in *. destruct IH as (i1 & i2 & Ei & Hq & Hdid).
      rewrite trets_app, tmarks_app. rewrite (tmarks_none t k _ [SRet t sc (Some r)]) by (intros ? ? Hin; rewrite !elem_of_cons, elem_of_nil in Hin; naive_solver). rewrite app_nil_r. unfold trets at 2. cbn. rewrite decide_True by done.
      rewrite Ei at 1. rewrite trets_app. change (SInv t sc :: i2) with ([SInv t sc] ++ i2). rewrite trets_app. rewrite (trets_quiet t i2) by done. change (trets t [SInv t sc]) with (@nil (scall * option res)). cbn [app]. rewrite (app_nil_r (trets t i1)).
      assert (tmarks t k zero h1 = tmarks t k zero i1 ++ tmarks t k (after k zero i1) i2) as ->. { rewrite Ei, tmarks_app. f_equal. }
      (* the rows that this call applied *)
      assert (∀ a b k' r' init, i2 = a ++ SDone t k' r' init :: b → sc = CWrite r' ∧ row_key s r' = Some k') as Hmine.
      { intros a b k' r' init E. assert (h1 = (i1 ++ SInv t sc :: a) ++ SDone t k' r' init :: b) as E'. { rewrite Ei, E, <- app_assoc. done. } destruct (k_done s impl _ _ K1 _ _ _ _ _ _ E') as (j1 & j2 & Ej & Hqj).
        assert (squiet t a) as Hqa. { rewrite E in Hq. unfold squiet in Hq. by apply Forall_app in Hq as [? _]. } destruct (slast_call _ _ _ _ _ _ _ Ej Hqa Hqj) as (_ & <- & _). split; [done|].
        destruct (w_done _ _ _ _ _ V1 t k' r' init) as [_ Hk]; [left; rewrite E'; apply elem_of_app; right; left|done]. }
      assert ((∃ r0, sc = CWrite r0 ∧ row_key s r0 = Some k) ∨ ¬ ∃ r0, sc = CWrite r0 ∧ row_key s r0 = Some k) as [(r0 & -> & Ek)|Hno] by apply write_dec.
      2:{ rewrite (tmarks_none t k _ i2); [|intros r' init Hin; apply elem_of_list_split in Hin as (a & b & E); apply Hno; exists r'; exact (Hmine _ _ _ _ _ E)]. rewrite app_nil_r. apply did_skip; [|done]. intros r' -> Hk. apply Hno. eauto. }
      assert (o = OUpdate k (impl r0)) as -> by (rewrite (op_write s impl), Ek in Eo; by injection Eo).
      destruct (sexecution_execution s impl l Hd _ _ _ _ HF0 Ex0) as (acts' & HF' & Ex').
      assert (erase s impl (h1 ++ [SRet t (CWrite r0) (Some r)]) = erase s impl h1 ++ ERet t (OUpdate k (impl r0)) r :: []) as Ee by (rewrite (erase_app s impl); cbn -[StoreConcModel.op_of]; by rewrite Eo).
      destruct (C39_update_once _ _ _ _ _ _ _ _ _ _ _ _ Hd HF' Ex' Ee) as (j1 & j2 & Ej & Hqj & Hcase).
      assert (erase s impl h1 = erase s impl i1 ++ EInv t (OUpdate k (impl r0)) :: erase s impl i2) as Ee1 by (rewrite Ei, (erase_app s impl); cbn -[StoreConcModel.op_of]; by rewrite Eo).
      rewrite Ee1 in Ej. destruct (last_call Ej (squiet_quiet s impl _ _ Hq) Hqj) as (-> & _ & ->).
      destruct Hcase as [(g1' & g2' & init & Ed & A & B & -> & Hr)|[(Hn & [[-> ->]|(_ & -> & _)])|(-> & g1' & g2' & init & Ed & _)]].
      * destruct (erase_at s impl _ _ _ _ Ed) as (a & e' & b & Eab & E3 & <- & <-). assert (∃ r', e' = SDone t k r' init) as (r' & ->).
        { destruct e' as [t' sc'|t' k'|t' k' r' init'|t' k' r' init'|t' sc' [r'|]]; cbn -[StoreConcModel.op_of] in E3; try done; [by destruct (op_of sc')| |by destruct (op_of sc')]. injection E3 as -> -> _ ->. eauto. }
        destruct (Hmine _ _ _ _ _ Eab) as [[= <-] _]. rewrite Eab, tmarks_app. rewrite (tmarks_none t k _ a) by (intros ? ?; by apply done_by_none). cbn [app]. unfold tmarks. cbn [marks]. rewrite (decide_True (P := k = k)) by done. rewrite filter_cons_True by done. cbn [map snd].
        fold (tmarks t k (Coll_Update pf c r0 (after k (after k zero i1) a) init).1 b). rewrite (tmarks_none t k _ b) by (intros ? ?; by apply done_by_none).
        assert (content size k (erase s impl i1 ++ EInv t (OUpdate k (impl r0)) :: erase s impl a) = after k (after k zero i1) a) as Ec.
        { replace (erase s impl i1 ++ EInv t (OUpdate k (impl r0)) :: erase s impl a) with (erase s impl (i1 ++ SInv t (CWrite r0) :: a)) by (rewrite (erase_app s impl); cbn -[StoreConcModel.op_of]; by rewrite Eo).
          rewrite (contents_content pf s impl Himpl), (contents_app pf s). done. }
        rewrite Ec in Hr |- *. rewrite Himpl in Hr |- * by (rewrite <- Ec; apply content_len). destruct (Coll_Update pf c r0 (after k (after k zero i1) a) init) as [d' o]. cbn [snd] in *. destruct o as [[]|e|]; [by apply did_ok|by apply did_bad|done].
      * done.
      * rewrite (tmarks_none t k _ i2) by (intros ? ?; by apply done_by_none). rewrite app_nil_r. by apply did_none.
      * exfalso. assert (EPanic t k (impl r0) init ∈ erase s impl (h1 ++ [SRet t (CWrite r0) (Some RPanic)])) as Hin. { rewrite Ee, Ee1, Ed. rewrite ?elem_of_app, ?elem_of_cons, ?elem_of_app, ?elem_of_cons. naive_solver. }
        apply erase_panic in Hin as (r' & Hin). by eapply (proj1 (C84_never_panics pf (λ _, 0) s impl l Hs Hd Himpl _ _ _ _ HF0 Ex0)).
    + intros t'. cbn [g_calls]. destruct (decide (t' = t)) as [->|Hne].
      * specialize (IH t). rewrite Lg in *. unfold tst in *. destruct IH as (i1 & i2 & -> & Hq & Hdid). exists i1, (i2 ++ es). rewrite <- app_assoc. split; [done|]. split; [|done]. apply Forall_app_2; [done|].
        destruct Hes as [->|(k0 & r0 & x & init0 & -> & -> & [(_ & ->)|[(res & -> & ->)|(q & _ & ->)]])]; by repeat constructor.
      * apply tinv_other; [|apply IH]. destruct Hes as [->|(k0 & r0 & x & init0 & -> & -> & [(_ & ->)|[(res & -> & ->)|(q & _ & ->)]])]; [constructor|apply other1; cbn; congruence..].
Qed.
End mixed.
