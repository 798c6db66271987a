From Coq Require Import ZifyBool ZifyNat.
From Verif Require Import Base BaseProofs Float64 FnvSpec HllModel CollationModel CollationSpec CollationProofs CollationTop CollationTop2 BufmapModel BufmapSpec RegexpModel RegexpProofs QueryModel Probe
  BufconcModel BufconcSpec BufconcInv BufconcProofs BufconcStep BufconcTop BufconcLive BufconcFair ServerModel ServerSpec ParseRowProofs ServerProofs StoreProofs ServerInv ServerTop StoreConcModel StoreConcSpec StoreConcProofs StoreConcTop StoreConcTop2 StoreConcTop3 ServerConcModel ServerConcSpec ServerConcProofs ServerFairSpec.
Local Open Scope Z_scope.

(** ** sums *)
Lemma sum_other (f f' : nat → nat) t r (l : list nat) : t ∉ l → (∀ u, u ≠ t → f' u ≤ f u + r)%nat → (sum_list_with f' l ≤ sum_list_with f l + length l * r)%nat.
Proof.
  intros Ht H. induction l as [|u l IH]; cbn; [lia|]. apply not_elem_of_cons in Ht as [Hu Ht]. specialize (IH Ht). pose proof (H u ltac:(done)). lia.
Qed.
Lemma sum_bump (f f' : nat → nat) t r m (l : list nat) : NoDup l → t ∈ l → (length l ≤ m)%nat → (∀ u, u ≠ t → f' u ≤ f u + r)%nat → (f' t + 1 + m * r ≤ f t)%nat → (sum_list_with f' l < sum_list_with f l)%nat.
Proof.
  intros Hn Ht Hm H Ho. assert (sum_list_with f' l + m * r + 1 ≤ sum_list_with f l + length l * r)%nat; [|nia].
  clear Hm. induction Hn as [|u l Hu Hn IH]; [by apply elem_of_nil in Ht|]. cbn. apply elem_of_cons in Ht as [<-|Ht].
  - pose proof (sum_other f f' t r l Hu H). lia.
  - specialize (IH Ht). pose proof (H u ltac:(by intros ->)). lia.
Qed.

(** one step of a goroutine that is inside a call *)
Lemma sstep_in s impl g t sc o p g' es : g_calls g !! t = Some (Some sc) → c_threads (g_cfg g) !! t = Some (Some (o, p)) → sstep (Compile s) impl g (SStep t) = (g', es) →
  (∃ r, p = PRet r ∧ es = [SRet t sc (Some r)] ∧ g' = MkS (MkCfg (c_map (g_cfg g)) (<[t := None]> (c_threads (g_cfg g)))) (<[t := None]> (g_calls g))) ∨
  (∃ m p' es0, (∀ r, p ≠ PRet r) ∧ step_call (c_map (g_cfg g)) t o p = (m, p', es0) ∧ g' = MkS (MkCfg m (<[t := Some (o, p')]> (c_threads (g_cfg g)))) (g_calls g) ∧ es = es0 ≫= tag sc ∧ returned es = None).
Proof.
  intros Lg L. cbn [StoreConcModel.sstep]. rewrite Lg. destruct (step (g_cfg g) (AStep t)) as [c' es0] eqn:E. intros [= <- <-].
  assert ((∃ r, p = PRet r) ∨ ∀ r, p ≠ PRet r) as [(r & ->)|Hp] by (destruct p; eauto; right; done).
  - cbn [step] in E. rewrite L in E. injection E as <- <-. left. by exists r.
  - right. assert (existsb is_ret es0 = false ∧ returned (es0 ≫= tag sc) = None) as [-> Hr].
    { apply step_shape in E as [[_ ->]|[(t' & o' & [=] & _)|[(t' & o' & r & [= <-] & L' & _)|(t' & o' & p0 & m & p' & [= <-] & L' & _ & _ & _ & Hes)]]]; [done|..].
      - rewrite L in L'. injection L' as _ ->. by destruct (Hp r).
      - destruct Hes as [->|(k & fn & x & init & _ & [(_ & ->)|[(r & _ & ->)|(q & _ & ->)]])]; [done|..]; by destruct sc. }
    cbn [step] in E. rewrite L in E. destruct (step_call (c_map (g_cfg g)) t o p) as [[m p'] es1] eqn:Es.
    assert (MkCfg m (<[t := Some (o, p')]> (c_threads (g_cfg g))) = c' ∧ es1 = es0) as [<- <-] by (destruct p; try (by injection E as <- <-); by destruct (Hp r)).
    exists m, p', es1. done.
Qed.

Section bound.
Context (impl : nat → Row → bool → prog) (q : nat).
(** a handler that calls the stores at most d times *)
Inductive hbound : nat → handler → Prop :=
  | hb_ret d r : hbound d (HRet r)
  | hb_call d i sc k : (∀ r, sc = CWrite r → costs (impl i r) q) → (∀ rep, hbound d (k rep)) → hbound (S d) (HCall i sc k).
Lemma hbound_mono d d' h : hbound d h → (d ≤ d')%nat → hbound d' h.
Proof. intros H. revert d'. induction H as [d r|d i sc k H1 H2 IH]; intros d' Hd; [constructor|]. destruct d' as [|d']; [lia|]. constructor; [done|]. intros rep. apply IH. lia. Qed.
End bound.

Section fair.
Context (pf : bytes → option float) (est : Counter → Z) (ff : float → bytes) (et : error → bytes) (pm : bytes → option bytes) (order : list FM → list FM).
Context (c : list (Z * Schema)) (impl : nat → Row → bool → prog) (Hc : cfg_ok c) (Himpl : impls_ok pf c impl) (rqs : list request) (Hrq : Forall request_ok rqs).
Notation cs := (map (λ ls : Z * Schema, Compile ls.2) c).
Notation n := (length rqs).
Notation handle := (handle ff et pm order cs).
Notation vstep := (vstep est ff et pm order cs impl rqs).
Notation vexec := (vexec est ff et pm order cs impl rqs).
Notation vinv := (vinv est ff et pm order c impl rqs).
(** R, q: bounds for one read and one update *)
Context (R q : nat) (HR : ∀ i l s, c !! i = Some (l, s) → (Z.to_nat (c_size (Compile s)) + 3 ≤ R)%nat).
Notation B := (n * R)%nat.

Notation hbound := (hbound impl q).
Definition K : nat := call_cost R B q + 2.
Definition tfits (v : vcfg) (t : nat) (x : rstate) (f : nat) : Prop :=
  match x with
  | RWait => ∃ rq d, rqs !! t = Some rq ∧ hbound d (handle rq) ∧ (d * K + 2 ≤ f)%nat
  | RRun hd => ∃ d, hbound d hd ∧ (d * K + 1 ≤ f)%nat
  | RIn i k => ∃ d f0 g o p, (∀ rep, hbound d (k rep)) ∧ v_stores v !! i = Some g ∧ c_threads (g_cfg g) !! t = Some (Some (o, p)) ∧ op_fits R q o ∧ fits2 B q (c_map (g_cfg g)) o p f0 ∧ (d * K + 1 + f0 ≤ f)%nat
  | RAnswered _ => True
  end.
Definition total (v : vcfg) (F : nat) : Prop := ∃ fs, (∀ t x, v_reqs v !! t = Some x → tfits v t x (fs t)) ∧ (sum_list_with fs (seq 0 n) ≤ F)%nat.
Definition enabled (v : vcfg) (a : vaction) : Prop :=
  match a with
  | VArrive t => v_reqs v !! t = Some RWait
  | VStep t => match v_reqs v !! t with
      | Some (RRun _) => True
      | Some (RIn i k) => ∃ g o p, v_stores v !! i = Some g ∧ c_threads (g_cfg g) !! t = Some (Some (o, p)) ∧ spins (c_map (g_cfg g)) p = false
      | _ => False
      end
  end.
(** what is known about a goroutine inside a call *)
Lemma in_call v h t i k : vinv v h → v_reqs v !! t = Some (RIn i k) → ∃ l s g acts sc o p, c !! i = Some (l, s) ∧ v_stores v !! i = Some g ∧ winv2 s (impl i) l g (proj i h) ∧ Forall saction_ok acts ∧ sexecution s (impl i) l n acts g (proj i h) ∧
  g_calls g !! t = Some (Some sc) ∧ op_of (Compile s) (impl i) sc = Some o ∧ c_threads (g_cfg g) !! t = Some (Some (o, p)) ∧ hok c (HCall i sc k).
Proof.
  intros V Lx. assert (t < n)%nat as Ht. { rewrite <- (vi_rlen _ _ _ _ _ _ _ _ _ _ V). by eapply lookup_lt_Some. } destruct (lookup_lt_is_Some_2 rqs t Ht) as [rq Lr].
  pose proof (vi_req _ _ _ _ _ _ _ _ _ _ V t rq _ Lr Lx) as (sc & Hok & _ & _ & _ & Hid). pose proof Hok as (Hi & _). destruct (lookup_lt_is_Some_2 c i Hi) as [[l s] Lc].
  destruct (vi_stores _ _ _ _ _ _ _ _ _ _ V i l s Lc) as (g & acts & Lg & HF & Exs). destruct (dims_at c Hc i l s Lc) as [Hs Hd]. pose proof (sexecution_inv s (impl i) l Hd _ _ _ _ HF Exs) as W.
  specialize (Hid i g Lg). rewrite decide_True in Hid by done. pose proof (w_wf _ _ _ _ _ W t) as Wt. rewrite Hid in Wt. destruct Wt as (o & p & Eo & L). exists l, s, g, acts, sc, o, p. done.
Qed.
Lemma total_others v v' fs t f' r : (∀ u, u ≠ t → v_reqs v' !! u = v_reqs v !! u) → (t < n)%nat →
  (∀ u x, v_reqs v !! u = Some x → tfits v u x (fs u)) → (∀ x, v_reqs v' !! t = Some x → tfits v' t x f') → (∀ u x f, u ≠ t → tfits v u x f → tfits v' u x (f + r)) → (f' + 1 + n * r ≤ fs t)%nat →
  ∃ F', total v' F' ∧ (F' < sum_list_with fs (seq 0 n))%nat.
Proof.
  intros Hsame Ht Hfs Hme Hoth Hf. set (gs := λ u, if decide (u = t) then f' else (fs u + r)%nat). exists (sum_list_with gs (seq 0 n)). split.
  - exists gs. split; [|done]. intros u x Lx. unfold gs. destruct (decide (u = t)) as [->|Hne]; [by apply Hme|]. apply Hoth; [done|]. apply Hfs. by rewrite <- Hsame.
  - apply (sum_bump fs gs t r n); [apply NoDup_seq|apply elem_of_seq; lia|by rewrite seq_length| |].
    + intros u Hu. unfold gs. by rewrite decide_False.
    + unfold gs. by rewrite decide_True.
Qed.
Lemma enabled_step v h a v' es F : vinv v h → total v F → enabled v a → vstep v a = (v', es) → ∃ F', total v' F' ∧ (F' < F)%nat.
Proof.
  intros V (fs & Hfs & HF) Hen E. assert (∀ F0, (∃ F', total v' F' ∧ (F' < F0)%nat) → (F0 ≤ F)%nat → ∃ F', total v' F' ∧ (F' < F)%nat) as Hup. { intros F0 (F' & ? & ?) ?. exists F'. split; [done|lia]. }
  apply (Hup (sum_list_with fs (seq 0 n))); [|done]. clear Hup HF.
  destruct a as [t|t]; cbn [enabled] in Hen; cbn [ServerConcModel.vstep] in E.
  - pose proof (Hfs t _ Hen) as (rq & d & Lr & Hb & Hf). rewrite Hen, Lr in E. injection E as <- <-. assert (t < length (v_reqs v))%nat as Hlt by (by eapply lookup_lt_Some). pose proof (vi_rlen _ _ _ _ _ _ _ _ _ _ V) as Hn.
    eapply (total_others v _ fs t (fs t - 1) 0); cbn [v_reqs]; [intros u Hu; by rewrite list_lookup_insert_ne|lia|done| | |lia].
    + intros x Lx. rewrite list_lookup_insert in Lx by done. injection Lx as <-. exists d. split; [done|lia].
    + intros u x f _. rewrite Nat.add_0_r. done.
  - destruct (v_reqs v !! t) as [x|] eqn:Lx; [|done]. assert (t < length (v_reqs v))%nat as Hlt by (by eapply lookup_lt_Some). pose proof (vi_rlen _ _ _ _ _ _ _ _ _ _ V) as Hn. assert (t < n)%nat as Ht by lia. destruct (lookup_lt_is_Some_2 rqs t Ht) as [rq Lr].
    pose proof (Hfs t _ Lx) as Hft. destruct x as [|[r|i sc k]|i k|r]; [done| | | |done].
    + injection E as <- <-. destruct Hft as (d & _ & Hf). eapply (total_others v _ fs t (fs t - 1) 0); cbn [v_reqs]; [intros u Hu; by rewrite list_lookup_insert_ne|lia|done| | |lia].
      * intros x Lx'. rewrite list_lookup_insert in Lx' by done. injection Lx' as <-. exact I.
      * intros u x f _. rewrite Nat.add_0_r. done.
    + pose proof (vi_req _ _ _ _ _ _ _ _ _ _ V t rq _ Lr Lx) as ((Hi & Hok & Hk) & _ & _ & _ & Hid). destruct (lookup_lt_is_Some_2 c i Hi) as [[l s] Lc]. destruct (vi_stores _ _ _ _ _ _ _ _ _ _ V i l s Lc) as (g & acts & Lg & HFa & Exs).
      destruct (dims_at c Hc i l s Lc) as [Hs Hd]. pose proof (sexecution_inv s (impl i) l Hd _ _ _ _ HFa Exs) as W. pose proof (Hid i g Lg) as Hg. destruct Hft as (d0 & Hb & Hf). inversion Hb as [|d i' sc' k' Hcost Hkb]. subst.
      unfold store_step in E. rewrite Lg, list_lookup_fmap, Lc in E. cbn [fmap option_fmap option_map snd] in E. destruct (sstep (Compile s) (impl i) g (SCall t sc)) as [g' es'] eqn:Es. injection E as <- <-.
      assert (i < length (v_stores v))%nat as Hil by (by eapply lookup_lt_Some).
      cbn [sstep] in Es. rewrite Hg in Es. destruct (op_of (Compile s) (impl i) sc) as [o|] eqn:Eo; injection Es as <- <-.
      * pose proof (w_wf _ _ _ _ _ W t) as Wt. rewrite Hg in Wt. assert (t < length (c_threads (g_cfg g)))%nat as Hlt' by (by eapply lookup_lt_Some).
        eapply (total_others v _ fs t (d * K + 1 + call_cost R B q) 0); cbn [v_reqs]; [intros u Hu; by rewrite list_lookup_insert_ne|lia|done| | |unfold K in *; lia].
        -- intros x Lx'. rewrite list_lookup_insert in Lx' by done. injection Lx' as <-. cbn [after returned omap list_omap head tfits v_stores].
           eexists d, (call_cost R B q), _, o, (start o). split; [done|]. split; [by apply list_lookup_insert|]. cbn [g_cfg step]. rewrite Wt. cbn [fst c_threads c_map]. split; [by apply list_lookup_insert|].
           assert (op_fits R q o) as Hop. { destruct sc as [r|q0]; [rewrite op_write in Eo; destruct (row_key s r); [|done]; injection Eo as <-; by apply Hcost|rewrite op_read in Eo; destruct (record_key _ _); [|done]; injection Eo as <-]. cbn. rewrite replicate_length. by eapply HR. }
           split; [done|]. split; [by apply fits2_start|lia].
        -- intros u x f Hu. rewrite Nat.add_0_r. destruct x as [|hd|j k2|r]; try done. intros (d2 & f2 & g2 & o2 & p2 & H1 & H2 & H3 & H4 & H5 & H6). cbn [tfits v_stores]. destruct (decide (j = i)) as [->|Hne].
           ++ rewrite Lg in H2. injection H2 as <-. eexists d2, f2, _, o2, p2. split; [done|]. split; [by apply list_lookup_insert|]. cbn [g_cfg step]. rewrite Wt. cbn [fst c_threads c_map]. rewrite list_lookup_insert_ne by done. done.
           ++ exists d2, f2, g2, o2, p2. rewrite list_lookup_insert_ne by done. done.
      * rewrite list_insert_id by done. eapply (total_others v _ fs t (d * K + 1) 0); cbn [v_reqs]; [intros u Hu; by rewrite list_lookup_insert_ne|lia|done| | |unfold K in *; lia].
        -- intros x Lx'. rewrite list_lookup_insert in Lx' by done. injection Lx' as <-. cbn [after returned omap list_omap head tfits]. exists d. split; [apply Hkb|lia].
        -- intros u x f _. rewrite Nat.add_0_r. done.
    + destruct (in_call v h t i k V Lx) as (l & s & g & acts & sc & o & p & Lc & Lg & W & _ & _ & Hg & Eo & L & _).
      destruct Hft as (d & f0 & g0 & o0 & p0 & Hkb & Lg0 & L0 & Hop & Hf0 & Hf). rewrite Lg in Lg0. injection Lg0 as <-. rewrite L in L0. injection L0 as <- <-.
      destruct Hen as (g0 & o0 & p0 & Lg0 & L0 & Hsp). rewrite Lg in Lg0. injection Lg0 as <-. rewrite L in L0. injection L0 as <- <-.
      unfold store_step in E. rewrite Lg, list_lookup_fmap, Lc in E. cbn [fmap option_fmap option_map snd] in E. destruct (sstep (Compile s) (impl i) g (SStep t)) as [g' es'] eqn:Es. injection E as <- <-.
      assert (i < length (v_stores v))%nat as Hil by (by eapply lookup_lt_Some). assert (t < length (c_threads (g_cfg g)))%nat as Hlt' by (by eapply lookup_lt_Some).
      pose proof (w_inv _ _ _ _ _ W) as Iv.
      destruct (sstep_in s (impl i) g t sc o p g' es' Hg L Es) as [(r & -> & -> & ->)|(m & p' & es0 & Hnr & Es0 & -> & _ & Ern)].
      * eapply (total_others v _ fs t (d * K + 1) 0); cbn [v_reqs]; [intros u Hu; by rewrite list_lookup_insert_ne|lia|done| | |apply fits2_pos in Hf0; lia].
        -- intros x Lx'. rewrite list_lookup_insert in Lx' by done. injection Lx' as <-. cbn [after returned omap list_omap head tfits]. exists d. split; [apply Hkb|lia].
        -- intros u x f Hu. rewrite Nat.add_0_r. destruct x as [|hd|j k2|r2]; try done. intros (d2 & f2 & g2 & o2 & p2 & H1 & H2 & H3 & H4 & H5 & H6). cbn [tfits v_stores]. destruct (decide (j = i)) as [->|Hne].
           ++ rewrite Lg in H2. injection H2 as <-. eexists d2, f2, _, o2, p2. split; [done|]. split; [by apply list_lookup_insert|]. cbn [g_cfg c_threads c_map]. rewrite list_lookup_insert_ne by done. done.
           ++ exists d2, f2, g2, o2, p2. rewrite list_lookup_insert_ne by done. done.
      * destruct (own_fits R B q l _ (g_cfg g) _ t o p m p' es0 f0 Iv L Hop Hsp Hnr Es0 Hf0) as (f1 & Hf1 & Hle).
        unfold after. rewrite Ern. eapply (total_others v _ fs t (d * K + 1 + f1) (if bumps p then R else 0)); cbn [v_reqs]; [intros u Hu; by rewrite list_lookup_insert_ne|lia|done| | |destruct (bumps p); lia].
        -- intros x Lx'. rewrite list_lookup_insert in Lx' by done. injection Lx' as <-. cbn [tfits v_stores]. eexists d, f1, _, o, p'. split; [done|]. split; [by apply list_lookup_insert|]. cbn [g_cfg c_threads c_map]. split; [by apply list_lookup_insert|]. done.
        -- intros u x f Hu. destruct x as [|hd|j k2|r2]; [intros (rq2 & d2 & ? & ? & ?); exists rq2, d2; split_and!; [done|done|lia]|intros (d2 & ? & ?); exists d2; split; [done|lia]| |done].
           intros (d2 & f2 & g2 & o2 & p2 & H1 & H2 & H3 & H4 & H5 & H6). cbn [tfits v_stores]. destruct (decide (j = i)) as [->|Hne].
           ++ rewrite Lg in H2. injection H2 as <-. eexists d2, (f2 + if bumps p then R else 0)%nat, _, o2, p2. split; [done|]. split; [by apply list_lookup_insert|]. cbn [g_cfg c_threads c_map]. rewrite list_lookup_insert_ne by done. split; [done|]. split; [done|].
              split; [|lia]. by eapply (other_fits R B q l _ (g_cfg g) _ t o p m p' es0 u o2 p2 f2 Iv).
           ++ exists d2, f2, g2, o2, p2. rewrite list_lookup_insert_ne by done. split_and!; try done. lia.
Qed.
Lemma disabled_step v h a : vinv v h → ¬ enabled v a → vstep v a = (v, []).
Proof.
  intros V Hen. destruct a as [t|t]; cbn [enabled] in Hen; cbn [ServerConcModel.vstep].
  - destruct (v_reqs v !! t) as [[]|] eqn:Lx; try done.
  - destruct (v_reqs v !! t) as [[|hd|i k|r]|] eqn:Lx; try done.
    destruct (in_call v h t i k V Lx) as (l & s & g & acts & sc & o & p & Lc & Lg & W & _ & _ & Hg & Eo & L & _).
    assert (spins (c_map (g_cfg g)) p = true) as Hsp. { apply not_false_iff_true. intros Hsp. apply Hen. eauto 8. }
    unfold store_step. rewrite Lg, list_lookup_fmap, Lc. cbn [fmap option_fmap option_map snd]. destruct (sstep (Compile s) (impl i) g (SStep t)) as [g' es'] eqn:Es.
    destruct (sstep_in s (impl i) g t sc o p g' es' Hg L Es) as [(r & -> & -> & ->)|(m & p' & es0 & Hnr & Es0 & -> & Ees & Ern)]; [done|].
    rewrite (spin_step _ _ _ _ t o p (w_inv _ _ _ _ _ W) L Hsp) in Es0. injection Es0 as <- <- <-. cbn in Ees. subst es'. unfold after. rewrite Ern. rewrite (list_insert_id (c_threads (g_cfg g))) by done.
    destruct g as [[m0 th0] ca]. cbn [g_cfg g_calls c_map c_threads]. rewrite (list_insert_id (v_stores v)) by done. rewrite list_insert_id by done. by destruct v.
Qed.
Lemma nobody_dead i l s g acts h : c !! i = Some (l, s) → Forall saction_ok acts → sexecution s (impl i) l n acts g h → ∀ k, ¬ dead k (erase s (impl i) h).
Proof.
  intros Lc HF Ex k (t & fn & init & Hin). destruct (dims_at c Hc i l s Lc) as [Hs Hd]. apply erase_panic in Hin as (r & Hin). eapply (no_panic pf s (impl i) l Hs (Himpl i l s Lc) g h); [|exact Hin]. by apply (sexecution_inv s (impl i) l Hd _ _ _ _ HF Ex).
Qed.
Lemma sstep_len s im g a g' es : sstep (Compile s) im g a = (g', es) → length (g_calls g') = length (g_calls g).
Proof.
  destruct a as [t sc|t]; cbn [sstep]; repeat (case_match; simplify_eq/=); intros [= <- <-]; cbn [g_calls]; by rewrite ?insert_length.
Qed.
Lemma sexec_len s im acts : ∀ g g' es, sexec (Compile s) im g acts = (g', es) → length (g_calls g') = length (g_calls g).
Proof.
  induction acts as [|a acts IH]; intros g g' es; cbn [sexec]; [by intros [= <- <-]|]. destruct (sstep _ _ g a) as [g1 e1] eqn:E1. destruct (sexec _ _ g1 acts) as [g2 e2] eqn:E2. intros [= <- <-].
  rewrite (IH _ _ _ E2). by eapply sstep_len.
Qed.
Lemma all_or (xs : list rstate) : (∃ rs, xs = map RAnswered rs) ∨ ∃ t x, xs !! t = Some x ∧ ∀ r, x ≠ RAnswered r.
Proof.
  induction xs as [|x xs [(rs & ->)|(t & y & L & Hy)]]; [left; by exists []| |right; by exists (S t), y].
  destruct x as [|hd|i k|r]; try (right; by eexists 0%nat, _). left. by exists (r :: rs).
Qed.
(** unless every request has been answered, some goroutine can go on *)
Lemma some_enabled v h : vinv v h → (∃ rs, answered v rs) ∨ ∃ a t, (a = VArrive t ∨ a = VStep t) ∧ (t < n)%nat ∧ enabled v a.
Proof.
  intros V. pose proof (vi_rlen _ _ _ _ _ _ _ _ _ _ V) as Hn. destruct (all_or (v_reqs v)) as [?|(t & x & Lx & Hx)]; [by left|]. right. assert (t < n)%nat as Ht by (rewrite <- Hn; by eapply lookup_lt_Some).
  destruct x as [|hd|i k|r]; [| | |by destruct (Hx r)].
  - exists (VArrive t), t. split; [by left|]. split; [done|]. done.
  - exists (VStep t), t. split; [by right|]. split; [done|]. cbn. by rewrite Lx.
  - destruct (in_call v h t i k V Lx) as (l & s & g & acts & sc & o & p & Lc & Lg & W & HF & Exs & Hg & Eo & L & _).
    assert (∃ t' o' p', c_threads (g_cfg g) !! t' = Some (Some (o', p')) ∧ spins (c_map (g_cfg g)) p' = false) as (t' & o' & p' & L' & Hs').
    { destruct (spins (c_map (g_cfg g)) p) eqn:Hsp; [|eauto]. eapply (waits_for _ _ _ _ t o p (w_inv _ _ _ _ _ W)); [|done..]. by eapply (nobody_dead i l s). }
    exists (VStep t'), t'. split; [by right|]. pose proof (w_wf _ _ _ _ _ W t') as Wt. destruct (g_calls g !! t') as [[sc'|]|] eqn:Lg'; [|congruence..].
    assert (t' < n)%nat as Ht'. { destruct Exs as (m & _ & Ex). apply sexec_len in Ex. cbn in Ex. rewrite replicate_length in Ex. rewrite <- Ex. by eapply lookup_lt_Some. }
    split; [done|]. destruct (lookup_lt_is_Some_2 rqs t' Ht') as [rq' Lr']. destruct (lookup_lt_is_Some_2 (v_reqs v) t') as [x' Lx']; [by rewrite Hn|].
    pose proof (vi_req _ _ _ _ _ _ _ _ _ _ V t' rq' x' Lr' Lx') as Hr. cbn [enabled]. rewrite Lx'.
    assert (∀ P : Prop, idle v t' → P) as Hni. { intros P Hid. specialize (Hid i g Lg). congruence. }
    destruct x' as [|hd|j k'|r]; [by apply Hni, Hr|done| |by apply Hni, Hr].
    destruct Hr as (sc2 & _ & _ & _ & _ & Hcl). specialize (Hcl i g Lg). rewrite Lg' in Hcl. destruct (decide (i = j)) as [<-|]; [|done]. exists g, o', p'. done.
Qed.
(** ** rounds *)
Lemma disabled_exec v h acts : vinv v h → Forall (λ a, ¬ enabled v a) acts → vexec v acts = (v, []).
Proof. intros V. induction 1 as [|a acts Ha HF IH]; [done|]. cbn [ServerConcModel.vexec]. rewrite (disabled_step v h a V Ha), IH. done. Qed.
Lemma total_step v h a v' es F : vinv v h → total v F → vstep v a = (v', es) → v' = v ∧ es = [] ∧ ¬ enabled v a ∨ ∃ F', total v' F' ∧ (F' < F)%nat.
Proof.
  intros V HT E. assert (enabled v a ∨ ¬ enabled v a) as [He|He].
  { destruct a as [t|t]; cbn [enabled]; [destruct (v_reqs v !! t) as [[]|]; (by left) || (by right)|]. destruct (v_reqs v !! t) as [[|hd|i k|r]|] eqn:Lx; [right; by intros []|by left| |right; by intros []|right; by intros []].
    destruct (in_call v h t i k V Lx) as (l & s & g & acts & sc & o & p & Lc & Lg & W & HF & Exs & Hg & Eo & L & _). destruct (spins (c_map (g_cfg g)) p) eqn:Hs; [right|left; eauto 8].
    intros (g' & o' & p' & Lg' & L' & Hs'). congruence. }
  - right. by eapply enabled_step.
  - left. rewrite (disabled_step v h a V He) in E. by injection E as <- <-.
Qed.
Lemma total_exec acts : ∀ v h v' es F, vinv v h → total v F → vexec v acts = (v', es) → (v' = v ∧ Forall (λ a, ¬ enabled v a) acts) ∨ ∃ F', total v' F' ∧ (F' < F)%nat.
Proof.
  induction acts as [|a acts IH]; intros v h v' es F V HT; cbn [ServerConcModel.vexec]; [intros [= <- <-]; by left|].
  destruct (vstep v a) as [v1 e1] eqn:E1. destruct (vexec v1 acts) as [v2 e2] eqn:E2. intros [= <- <-]. pose proof (vstep_inv pf est ff et pm order c impl Hc rqs Hrq v h a v1 e1 V E1) as V1.
  destruct (total_step v h a v1 e1 F V HT E1) as [(-> & -> & Hen)|(F1 & HT1 & Hlt)].
  - rewrite app_nil_r in V1. destruct (IH _ _ _ _ F V1 HT E2) as [[-> ?]|?]; [left; split; [done|by constructor]|by right].
  - right. destruct (IH _ _ _ _ F1 V1 HT1 E2) as [[-> _]|(F2 & ? & ?)]; [eauto|]. exists F2. split; [done|lia].
Qed.
Lemma vexec_app a b v0 : vexec v0 (a ++ b) = let '(v1, e1) := vexec v0 a in let '(v2, e2) := vexec v1 b in (v2, e1 ++ e2).
Proof.
  revert v0. induction a as [|x a IH]; intros v0; cbn [app ServerConcModel.vexec]; [by destruct (vexec v0 b)|]. destruct (vstep v0 x) as [v1 e1]. rewrite IH. destruct (vexec v1 a) as [v2 e2]. destruct (vexec v2 b) as [v3 e3]. by rewrite app_assoc.
Qed.
Lemma answered_disabled v rs a : answered v rs → ¬ enabled v a.
Proof. unfold answered. intros E. destruct a as [t|t]; cbn [enabled]; rewrite E, list_lookup_fmap; destruct (rs !! t); cbn; by intros ?. Qed.
Lemma answered_exec v h rs acts : vinv v h → answered v rs → vexec v acts = (v, []).
Proof. intros V A. apply (disabled_exec v h acts V). apply Forall_forall. intros a _. by eapply answered_disabled. Qed.
Lemma rounds_answer rounds : ∀ v h v' es F, vinv v h → total v F → Forall (round n) rounds → (F < length rounds)%nat → vexec v (mjoin rounds) = (v', es) → ∃ rs, answered v' rs.
Proof.
  induction rounds as [|acts rounds IH]; intros v h v' es F V HT HF Hlen; cbn in Hlen; [lia|]. inversion_clear HF as [|? ? Hr HF']. cbn [mjoin list_join].
  rewrite vexec_app. destruct (vexec v acts) as [v1 e1] eqn:E1. destruct (vexec v1 (mjoin rounds)) as [v2 e2] eqn:E2. intros [= <- <-].
  pose proof (vexec_inv pf est ff et pm order c impl Hc rqs Hrq acts v h v1 e1 V E1) as V1.
  destruct (total_exec acts v h v1 e1 F V HT E1) as [[-> Hdis]|(F1 & HT1 & Hlt)]; [|eapply (IH v1 _ v2 e2 F1 V1 HT1 HF' ltac:(lia) E2)].
  destruct (some_enabled v h V) as [(rs & A)|(a & t & Ha & Ht & Hen)].
  - exists rs. rewrite (answered_exec v h rs (mjoin rounds) V A) in E2. by injection E2 as <- _.
  - exfalso. rewrite Forall_forall in Hdis. apply (Hdis a); [|done]. destruct (Hr t Ht) as [? ?]. by destruct Ha as [-> | ->].
Qed.
End fair.
