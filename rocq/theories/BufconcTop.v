From Coq Require Import ZifyBool ZifyNat.
From Verif Require Import Base BaseProofs Probe BufmapModel BufmapSpec BufconcModel BufconcSpec BufconcProofs BufconcInv BufconcStep.
From Verif Require BufmapProofs.
Local Open Scope Z_scope.

Lemma init_inv l s m n : dims_ok l s → New l s = Ok m → inv l s (MkCfg m (replicate n None)) [].
Proof.
  intros Hd E. rewrite (BufmapProofs.New_ok l s Hd) in E. injection E as <-. pose proof Hd as (H1 & H2 & H3). assert (0 ≤ l * s) as Hls by nia. set (m := MkMap _ _ _ _).
  assert (∀ x, sl m x = Slot 0 0 false) as Hsl.
  { intros x. unfold sl, m. cbn [m_keys]. destruct (replicate _ _ !! _) eqn:L; [|done]. by apply lookup_replicate in L as [-> _]. }
  assert (∀ x, key_at m x = 0) as Hk by (intros x; by rewrite key_at_sl, Hsl).
  constructor; cbn [c_map c_threads]; try done.
  - constructor; try done; cbn [m m_keys m_values]; by rewrite replicate_length.
  - intros x _ H. by rewrite Hk in H.
  - intros x Hx. split; [by rewrite Hk, Hsl|]. left. rewrite Hk, Hsl. splits; try done.
    + unfold bytes_at, m. cbn [m_s m_values]. rewrite drop_replicate, take_replicate. unfold content, zeros. cbn. f_equal. assert (x * s + s ≤ l * s) by nia. assert (0 ≤ x * s) by nia. lia.
    + intros t o p _ L. by apply lookup_replicate in L as [? _].
    + by intros (? & ? & ? & ?%elem_of_nil).
  - intros k _ [[H|[(t & b & b' & H)|(t & b & b' & H)]]|[H|(t & b & b' & H)]]; try done; by apply elem_of_nil in H.
  - split; [done|]. split; [done|]. by intros (? & ? & ? & ?%elem_of_nil).
  - intros t o p L. by apply lookup_replicate in L as [? _].
  - intros ha hb t o r E. by destruct ha.
Qed.
Lemma exec_app c a b : exec c (a ++ b) = (let '(c1, e1) := exec c a in let '(c2, e2) := exec c1 b in (c2, e1 ++ e2)).
Proof.
  revert c. induction a as [|x a IH]; intros c; cbn [app exec]; [by destruct (exec c b)|].
  destruct (step c x) as [c1 e1]. rewrite IH. destruct (exec c1 a) as [c2 e2]. destruct (exec c2 b) as [c3 e3]. by rewrite app_assoc.
Qed.
Lemma exec_inv l s c h acts c' es : inv l s c h → Forall action_ok acts → exec c acts = (c', es) → inv l s c' (h ++ es).
Proof.
  intros I HF. revert c h es I. induction HF as [|a acts Ha HF IH]; intros c h es I; cbn [exec]; [by intros [= <- <-]; rewrite app_nil_r|].
  destruct (step c a) as [c1 e1] eqn:E1. destruct (exec c1 acts) as [c2 e2] eqn:E2. intros [= <- <-]. rewrite app_assoc. eapply IH; [|done]. by eapply step_inv.
Qed.
Lemma execution_inv l s n acts c h : dims_ok l s → Forall action_ok acts → execution l s n acts c h → inv l s c h.
Proof. intros Hd HF (m & Em & E). change h with ([] ++ h). eapply exec_inv; [by apply init_inv|done|done]. Qed.

(** ** what a step can look like *)
Lemma step_shape c a c' es : step c a = (c', es) →
  (c' = c ∧ es = []) ∨
  (∃ t o, a = ACall t o ∧ c_threads c !! t = Some None ∧ c' = MkCfg (c_map c) (<[t := Some (o, start o)]> (c_threads c)) ∧ es = [EInv t o]) ∨
  (∃ t o r, a = AStep t ∧ c_threads c !! t = Some (Some (o, PRet r)) ∧ c' = MkCfg (c_map c) (<[t := None]> (c_threads c)) ∧ es = [ERet t o r]) ∨
  (∃ t o p m p', a = AStep t ∧ c_threads c !! t = Some (Some (o, p)) ∧ (∀ r, p ≠ PRet r) ∧ step_call (c_map c) t o p = (m, p', es) ∧ c' = MkCfg m (<[t := Some (o, p')]> (c_threads c)) ∧
     (es = [] ∨ ∃ k fn x init, o = OUpdate k fn ∧ ((p = USeq1 x init ∧ es = [EBegin t k]) ∨ (∃ r, p = USeq2 x init r ∧ es = [EDone t k fn init]) ∨ (∃ q, p = UFn x init q ∧ es = [EPanic t k fn init])))).
Proof.
  destruct a as [t o|t]; cbn [step].
  - destruct (c_threads c !! t) as [[q|]|] eqn:L; intros [= <- <-]; [by left| |by left]. right. left. eauto 8.
  - destruct (c_threads c !! t) as [[[o p]|]|] eqn:L; [|intros [= <- <-]; by left..]. intros E.
    assert ((∃ r, p = PRet r) ∨ ∀ r, p ≠ PRet r) as [(r & ->)|Hp] by (destruct p; eauto; right; done).
    + injection E as <- <-. right. right. left. eauto 8.
    + right. right. right. destruct (step_call (c_map c) t o p) as [[m p'] es'] eqn:Es.
      assert (MkCfg m (<[t := Some (o, p')]> (c_threads c)) = c' ∧ es' = es) as [<- <-] by (destruct p; try (by injection E as <- <-); by destruct (Hp r)).
      exists t, o, p, m, p'. split; [done|]. split; [done|]. split; [done|]. split; [done|]. split; [done|].
      clear -Es. destruct o as [k b|k fn]; destruct p as [i|x b'|x q j b'|x q b'|i init|i x|i x|x init|x init|x init p|x init r|x r|r]; cbn [step_call] in Es; try (injection Es as _ _ <-; by left).
      all: repeat match type of Es with context [match ?q with _ => _ end] => destruct q end; try (injection Es as _ _ <-; by left).
      all: injection Es as _ _ <-; right; exists k, fn, x, init; eauto 10.
Qed.

(** begins, completions and panics happen inside calls of Update, and none happens after a panic on the same key *)
Definition inside (h : list event) : Prop := ∀ ha hb t k fn init, h = ha ++ EDone t k fn init :: hb ∨ h = ha ++ EPanic t k fn init :: hb →
  k ≠ 0 ∧ ¬ dead k ha ∧ ∃ h1 h2, ha = h1 ++ EInv t (OUpdate k fn) :: h2 ∧ quiet t h2.
Lemma step_inside l s c h a c' es : inv l s c h → inside h → step c a = (c', es) → inside (h ++ es).
Proof.
  intros I A E ha hb t' k fn init Eh.
  assert (∀ e, es = [e] → (∀ t k fn init, e ≠ EDone t k fn init ∧ e ≠ EPanic t k fn init) → k ≠ 0 ∧ ¬ dead k ha ∧ ∃ h1 h2, ha = h1 ++ EInv t' (OUpdate k fn) :: h2 ∧ quiet t' h2) as Ho.
  { intros e -> He. destruct Eh as [Eh|Eh]; (apply snoc_split in Eh as [(hb' & Eh & ->)|(-> & -> & [= ->])]; [by eapply (A ha hb'); eauto|by destruct (He t' k fn init)|cbn; lia]). }
  apply step_shape in E as [[-> ->]|[(t & o & -> & L & -> & ->)|[(t & o & r & -> & L & -> & ->)|(t & o & p & m & p' & -> & L & _ & _ & -> & Hes)]]].
  - rewrite app_nil_r in Eh. by eapply A.
  - by apply (Ho (EInv t o)).
  - by apply (Ho (ERet t o r)).
  - destruct Hes as [->|(k' & fn' & x & init' & -> & [(-> & ->)|Hes])]; [rewrite app_nil_r in Eh; by eapply A|by apply (Ho (EBegin t k'))|].
    assert (∃ e, es = [e] ∧ (e = EDone t k' fn' init' ∨ e = EPanic t k' fn' init') ∧ anycrit p = true ∧ (∀ h1 h2, thr l s (key_at (c_map c)) h1 h2 t (OUpdate k' fn') p → 0 < k' ∧ 0 ≤ x < l ∧ key_at (c_map c) x = k') ∧ crit x p = true) as (e & -> & He & Hc & Hth & Hcr).
    { destruct Hes as [(r & -> & ->)|(q & -> & ->)]; eexists; (split; [done|]); (split; [eauto|]); (split; [done|]); (split; [intros h1 h2 (?&?&?&_); splits; try done; lia|cbn; by apply bool_decide_eq_true]). }
    destruct (v_thr _ _ _ _ I _ _ _ L) as (h1 & h2 & Eh' & Hq & Ht). destruct (Hth _ _ Ht) as (Hk & Hx & Ek). destruct (holder I Hx t _ _ L Hcr) as (_ & Hnd & _). rewrite Ek in Hnd.
    destruct Eh as [Eh|Eh]; (apply snoc_split in Eh as [(hb' & Eh & ->)|(-> & -> & [= ->])]; [by eapply (A ha hb'); eauto| |cbn; lia]); (destruct He as [He|He]; [|]; try done; injection He as -> -> -> ->; split; [lia|]; split; [done|]; eauto).
Qed.
Lemma exec_inside l s c h acts c' es : inv l s c h → Forall action_ok acts → inside h → exec c acts = (c', es) → inside (h ++ es).
Proof.
  intros I HF. revert c h es I. induction HF as [|a acts Ha HF IH]; intros c h es I A; cbn [exec]; [by intros [= <- <-]; rewrite app_nil_r|].
  destruct (step c a) as [c1 e1] eqn:E1. destruct (exec c1 acts) as [c2 e2] eqn:E2. intros [= <- <-]. rewrite app_assoc. eapply IH; [by eapply step_inv|by eapply step_inside|done].
Qed.
Lemma execution_inside l s n acts c h : dims_ok l s → Forall action_ok acts → execution l s n acts c h → inside h.
Proof. intros Hd HF (m & Em & E). change h with ([] ++ h). eapply exec_inside; [by apply init_inv|done| |done]. intros ha hb t k fn init [Eh|Eh]; by destruct ha. Qed.

(** the last call of a goroutine is determined by the history *)
Lemma last_call {h1 h2 i1 i2 : list event} {t o o'} : h1 ++ EInv t o :: h2 = i1 ++ EInv t o' :: i2 → quiet t h2 → quiet t i2 → i1 = h1 ∧ o' = o ∧ i2 = h2.
Proof.
  intros E Hq Hqi. apply app_eq_app in E as (z & [[Z1 Z2]|[Z1 Z2]]); (destruct z as [|e z]; [rewrite app_nil_r in Z1; cbn in Z2; by injection Z2 as -> ->|injection Z2 as <- Z2; exfalso]).
  - rewrite Z2 in Hqi. apply Forall_app in Hqi as [_ Hqi]. inversion_clear Hqi as [|? ? Hbad _]. done.
  - rewrite Z2 in Hq. apply Forall_app in Hq as [_ Hq]. inversion_clear Hq as [|? ? Hbad _]. done.
Qed.

(** ** quiescence *)
Lemma quiescent_record l s c h k : inv l s c h → quiescent c → k ≠ 0 → ¬ dead k h →
  (∃ x, 0 ≤ x < l ∧ key_at (c_map c) x = k ∧ bytes_at (c_map c) x = content s k h) ∨ ((∀ x, 0 ≤ x < l → key_at (c_map c) x ≠ k) ∧ writes k h = 0).
Proof.
  intros I Q H0 Hnd. destruct (decide (Exists (λ x, key_at (c_map c) x = k) (map Z.of_nat (seq 0 (Z.to_nat l))))) as [He|Hn].
  - left. apply Exists_exists in He as (x & Hx & Ek). apply elem_of_list_fmap in Hx as (n & -> & Hn). apply elem_of_seq in Hn. exists (Z.of_nat n). split; [lia|]. split; [done|].
    destruct (phase I (x := Z.of_nat n) ltac:(lia)) as [(_ & _ & Hb & _)|[(_ & _ & t & o & p & L & _)|(_ & _ & Hd & _)]]; [by rewrite Ek in Hb|by apply Q in L|by rewrite Ek in Hd].
  - right. assert (∀ x, 0 ≤ x < l → key_at (c_map c) x ≠ k) as Hno.
    { intros x Hx E. apply Hn. apply Exists_exists. exists x. split; [|done]. apply elem_of_list_fmap. exists (Z.to_nat x). split; [lia|]. apply elem_of_seq. lia. }
    split; [done|]. destruct (decide (writes k h = 0)); [done|]. destruct (v_seen _ _ _ _ I k H0) as (x & Hx & Ek); [left; by left|]. by destruct (Hno x Hx).
Qed.

(** ** a panic in a function given to Update blocks its key *)
Definition never (o : op) (p : pc) : Prop :=
  match o, p with
  | OGet _ _, (GLoad _ | GSeq1 _ _) => True
  | OUpdate _ _, (ULoad _ _ | UCas _ _ | UReload _ _ | ULock _ _) => True
  | _, _ => False
  end.
Lemma never_step l s c h a c' es t o p h1 h2 k : inv l s c h → action_ok a → step c a = (c', es) → k ≠ 0 → on_key k o → c_threads c !! t = Some (Some (o, p)) → never o p →
  h = h1 ++ EInv t o :: h2 → quiet t h2 → dead k h1 → (∃ p', c_threads c' !! t = Some (Some (o, p')) ∧ never o p') ∧ quiet t es.
Proof.
  intros I Ha E H0 Ho L Hn Eh Hq Hd. pose proof (step_inv _ _ _ _ _ _ _ I Ha E) as I'.
  assert (dead k h) as Hdh. { destruct Hd as (t' & fn & init & Hin). exists t', fn, init. rewrite Eh. apply elem_of_app. by left. }
  destruct (v_seen _ _ _ _ I k H0) as (x & Hx & Ek); [auto|].
  assert (∀ y, 0 ≤ y < l → key_at (c_map c) y = k → y = x) as Hu. { intros y Hy Ey. apply (placed_unique l (key_at (c_map c)) y x); [apply I|done..|congruence|congruence]. }
  destruct (phase I Hx) as [(_ & _ & _ & _ & Hb)|[(_ & Hb & _)|(Hmu & Hbal & _ & _)]]; [by rewrite Ek in Hb..|]. rewrite Ek in Hbal.
  assert ((sl_seq (sl (c_map c) x) mod 2 =? 0) = false) as Hodd. { destruct (_ =? 0) eqn:Ev; [|done]. apply (even_balance I Hx) in Ev. rewrite Ek in Ev. lia. }
  pose proof (v_dims _ _ _ _ I) as Hdim. pose proof (v_shape _ _ _ _ I) as Hsh. assert (0 < l < 2^63) as Hl by (destruct Hdim as (?&?&?); nia).
  apply step_shape in E as [[-> ->]|[(t' & o' & -> & L' & -> & ->)|[(t' & o' & r & -> & L' & -> & ->)|(t' & o' & p' & m & q & -> & L' & Hnr & Es & -> & Hes)]]].
  - split; [eauto|constructor].
  - assert (t' ≠ t) as Hne by congruence. cbn [c_threads]. rewrite list_lookup_insert_ne by done. split; [eauto|by repeat constructor].
  - assert (t' ≠ t) as Hne. { intros ->. rewrite L in L'. injection L' as <- ->. by destruct o. } cbn [c_threads]. rewrite list_lookup_insert_ne by done. split; [eauto|by repeat constructor].
  - assert (quiet t es) as Hqe. { destruct Hes as [->|(?&?&?&?&_&[(_&->)|[(?&_&->)|(?&_&->)]])]; repeat constructor. }
    split; [|done]. cbn [c_threads]. destruct (decide (t' = t)) as [->|Hne]; [|rewrite list_lookup_insert_ne by done; eauto].
    rewrite L in L'. injection L' as <- <-. assert (t < length (c_threads c))%nat as Hlt by (by eapply lookup_lt_Some). rewrite list_lookup_insert by done. exists q. split; [done|].
    destruct (v_thr _ _ _ _ I' t o q) as (i1 & i2 & Ei & Hqi & Htq). { cbn [c_threads]. by rewrite list_lookup_insert. }
    assert (h ++ es = h1 ++ EInv t o :: (h2 ++ es)) as Eh2 by (by rewrite Eh, <- app_assoc). rewrite Eh2 in Ei.
    destruct (last_call Ei ltac:(by apply Forall_app) Hqi) as (-> & _ & ->). cbn [c_map] in Htq.
    destruct (v_thr _ _ _ _ I t o p L) as (i1 & i2 & Ei' & Hqi' & Htp). rewrite Eh in Ei'. destruct (last_call Ei' Hq Hqi') as (-> & _ & ->). clear Ei Ei' Hqi Hqi'.
    destruct (v_seen _ _ _ _ I' k H0) as (x' & Hx' & Ek'). { right. right. destruct Hdh as (?&?&?&?). eexists _, _, _. apply elem_of_app. by left. } cbn [c_map] in Ek'.
    destruct o as [k' buf|k' fn]; cbn in Ho; subst k'; destruct p as [i|y b|y q' j b|y q' b|i init|i y|i y|y init|y init|y init pr|y init r|y r|r]; try done; cbn [step_call] in Es.
    + destruct (let! _ := _ in _) as [[y sy]| |] eqn:Ep.
      * injection Es as <- <- <-. destruct (sl_key sy =? k); [done|]. unfold greprobe in *. destruct (maxReprobe <? S i)%nat; [|done]. cbn in Htq. destruct Htq as (_ & _ & Hns). apply Hns; [done|]. right. by left.
      * exfalso. destruct Htp as (Hk & Hi & _). rewrite (sh_l _ _ _ Hsh), pos_probe in Ep by done. cbn [obind] in Ep. rewrite (index_sl Hsh) in Ep by (apply probe_range; lia). done.
      * exfalso. destruct Htp as (Hk & Hi & _). rewrite (sh_l _ _ _ Hsh), pos_probe in Ep by done. cbn [obind] in Ep. rewrite (index_sl Hsh) in Ep by (apply probe_range; lia). done.
    + destruct Htp as (Hy & _ & Eky & _). rewrite (Hu y Hy (Eky H0)) in Es. rewrite (index_sl Hsh) in Es by done. rewrite Hodd in Es. by injection Es as <- <- <-.
    + destruct Htp as (Hk & Hi & _). rewrite (sh_l _ _ _ Hsh), pos_probe in Es by (done || lia). cbn [obind] in Es. rewrite (index_sl Hsh) in Es by (apply probe_range; lia). injection Es as <- <- <-. destruct (_ =? k); [done|]. by destruct (_ =? 0).
    + destruct Htp as (Hk & Hi & _ & _ & -> & _). rewrite (index_sl Hsh) in Es by (apply probe_range; lia). destruct (_ =? 0); by injection Es as <- <- <-.
    + destruct Htp as (Hk & Hi & _ & Hnd & -> & _). rewrite (index_sl Hsh) in Es by (apply probe_range; lia). destruct (_ =? k); injection Es as <- <- <-; [done|]. unfold reprobe in *. destruct (maxReprobe <? S i)%nat; [|done].
      cbn in Htq. destruct Htq as [(a1&a2&?&?&Ea&_)|(_ & [(? & _)|(_ & _ & Hpass)])]; [|done|].
      * cbn. rewrite app_nil_r in Ea. rewrite Ea, done_by_app in Hnd. apply app_eq_nil in Hnd as [_ Hnd]. cbn in Hnd. by rewrite decide_True in Hnd.
      * cbn. apply (passed_not_placed l (key_at (c_map c)) x k 11); [apply I|lia|done..].
    + destruct Htp as (Hk & Hy & Eky & _). rewrite (Hu y Hy Eky) in Es. rewrite (index_sl Hsh) in Es by done. rewrite Hmu in Es. by injection Es as <- <- <-.
Qed.

Lemma never_exec l s c h acts c' es t o p h1 h2 k : inv l s c h → Forall action_ok acts → exec c acts = (c', es) → k ≠ 0 → on_key k o → c_threads c !! t = Some (Some (o, p)) → never o p →
  h = h1 ++ EInv t o :: h2 → quiet t h2 → dead k h1 → quiet t es.
Proof.
  intros I HF. revert c h es p h2 I. induction HF as [|a acts Ha HF IH]; intros c h es p h2 I; cbn [exec]; [intros [= <- <-] **; constructor|].
  destruct (step c a) as [c1 e1] eqn:E1. destruct (exec c1 acts) as [c2 e2] eqn:E2. intros [= <- <-] H0 Ho L Hn Eh Hq Hd.
  destruct (never_step l s c h a c1 e1 t o p h1 h2 k I Ha E1 H0 Ho L Hn Eh Hq Hd) as [(p' & L' & Hn') Hq']. apply Forall_app. split; [done|].
  eapply (IH c1 (h ++ e1) e2 p' (h2 ++ e1)); try done; [by eapply step_inv|by rewrite Eh, <- app_assoc|by apply Forall_app].
Qed.

(** ** who installs a key *)
Definition past (p : pc) : Prop := match p with ULoad _ _ | UCas _ _ | UReload _ _ => False | _ => True end.
Definition owned (l : Z) (c : cfg) (h : list event) : Prop := ∀ x, 0 ≤ x < l → key_at (c_map c) x ≠ 0 →
  ∃ t fn ha hb, h = ha ++ EInv t (OUpdate (key_at (c_map c) x) fn) :: hb ∧ (quiet t hb → ∃ p, c_threads c !! t = Some (Some (OUpdate (key_at (c_map c) x) fn, p)) ∧ past p).
Definition noinit (p : pc) : Prop := match p with ULock _ false | USeq1 _ false | UFn _ false _ | USeq2 _ false _ => True | _ => False end.
Record races (l : Z) (c : cfg) (h : list event) : Prop := {
  r_owned : owned l c h;
  r_thr : ∀ t k fn p, c_threads c !! t = Some (Some (OUpdate k fn, p)) → noinit p → (2 ≤ calls k h)%nat;
  r_done : ∀ ha hb t k fn, h = ha ++ EDone t k fn false :: hb → (2 ≤ calls k ha)%nat }.
Lemma calls_app k a b : calls k (a ++ b) = (calls k a + calls k b)%nat.
Proof. unfold calls. by rewrite omap_app, app_length. Qed.
Lemma key_set_slot m x v y l s : dims_ok l s → shape l s m → 0 ≤ x < l → 0 ≤ y → key_at (set_slot m x v) y = if decide (x = y) then sl_key v else key_at m y.
Proof. intros Hd Hsh Hx Hy. rewrite !key_at_sl, (sl_set Hsh) by done. by destruct (decide _). Qed.
Lemma index_range {A} (l : list A) x v : index l x = Ok v → 0 ≤ x < Z.of_nat (length l).
Proof. unfold index. destruct (_ && _) eqn:E; [lia|done]. Qed.
Lemma step_call_keys l s m t o p m' p' es : dims_ok l s → shape l s m → step_call m t o p = (m', p', es) → ∀ y, 0 ≤ y → key_at m' y = key_at m y ∨ (key_at m y = 0 ∧ ∃ k fn, o = OUpdate k fn ∧ key_at m' y = k ∧ past p').
Proof.
  intros Hd Hsh E y Hy.
  assert (∀ x sy v, index (m_keys m) x = Ok sy → sl_key v = sl_key sy → key_at (set_slot m x v) y = key_at m y) as Hs.
  { intros x sy v Hi Hk. pose proof (index_range _ _ _ Hi) as Hr. rewrite (sh_keys _ _ _ Hsh) in Hr. assert (0 ≤ x < l) as Hx by (destruct Hd as (?&?&?); lia). rewrite (key_set_slot m x v y l s) by done. rewrite (index_sl Hsh) in Hi by done. injection Hi as <-. destruct (decide (x = y)) as [->|]; [|done]. by rewrite key_at_sl. }
  destruct o as [k b|k fn]; destruct p as [i|x b'|x q j b'|x q b'|i init|i x|i x|x init|x init|x init p|x init r|x r|r]; cbn [step_call] in E; try (injection E as <- <- <-; by left).
  all: repeat match type of E with context [match ?q with _ => _ end] => destruct q eqn:? end; try (injection E as <- <- <-; by left).
  all: try (injection E as <- <- <-; left; by eapply Hs).
  injection E as <- <- <-. match goal with H : index _ _ = Ok _ |- _ => pose proof (index_range _ _ _ H) as Hr; rename H into Hi end. rewrite (sh_keys _ _ _ Hsh) in Hr. assert (0 ≤ x < l) as Hx by (destruct Hd as (?&?&?); lia).
  rewrite (key_set_slot m x _ y l s) by done. destruct (decide (x = y)) as [->|]; [|by left]. rewrite (index_sl Hsh) in Hi by done. injection Hi as <-. right. rewrite key_at_sl. split; [lia|]. exists k, fn. done.
Qed.
Lemma step_call_past m t k fn p m' p' es : step_call m t (OUpdate k fn) p = (m', p', es) → past p → past p'.
Proof.
  intros E Hp. destruct p; try done; cbn [step_call] in E; repeat match type of E with context [match ?q with _ => _ end] => destruct q end; by injection E as <- <- <-.
Qed.
Lemma step_races l s c h a c' es : inv l s c h → races l c h → step c a = (c', es) → races l c' (h ++ es).
Proof.
  intros I [Ho Ht Hd] E. apply step_shape in E as [[-> ->]|[(t & o & -> & L & -> & ->)|[(t & o & r & -> & L & -> & ->)|(t & o & p & m & p' & -> & L & Hnr & Es & -> & Hes)]]].
  - by rewrite app_nil_r.
  - assert (t < length (c_threads c))%nat as Hlt by (by eapply lookup_lt_Some). constructor; cbn [c_map c_threads].
    + intros x Hx Hk. destruct (Ho x Hx Hk) as (t' & fn & ha & hb & Eh & Hq). exists t', fn, ha, (hb ++ [EInv t o]). cbn [c_map c_threads] in *. split; [by rewrite Eh at 1; rewrite <- app_assoc|]. intros Hqq. apply Forall_app in Hqq as [Hqq Hq2]. rewrite Forall_singleton in Hq2.
      destruct (Hq Hqq) as (p & Lp & Hp). exists p. rewrite list_lookup_insert_ne by done. done.
    + intros t' k fn p Lt Hn. rewrite calls_app. destruct (decide (t' = t)) as [->|Hne]; [|rewrite list_lookup_insert_ne in Lt by done; specialize (Ht t' k fn p Lt Hn); lia].
      rewrite list_lookup_insert in Lt by done. injection Lt as -> <-. exfalso. cbn in Hn. by destruct (k =? 0).
    + intros ha hb t' k fn Eh. apply snoc_split in Eh as [(hb' & Eh & ->)|(-> & -> & [=])]; [by eapply Hd|cbn; lia].
  - assert (t < length (c_threads c))%nat as Hlt by (by eapply lookup_lt_Some). constructor; cbn [c_map c_threads].
    + intros x Hx Hk. destruct (Ho x Hx Hk) as (t' & fn & ha & hb & Eh & Hq). exists t', fn, ha, (hb ++ [ERet t o r]). cbn [c_map c_threads] in *. split; [by rewrite Eh at 1; rewrite <- app_assoc|]. intros Hqq. apply Forall_app in Hqq as [Hqq Hq2]. rewrite Forall_singleton in Hq2.
      destruct (Hq Hqq) as (p & Lp & Hp). exists p. rewrite list_lookup_insert_ne by done. done.
    + intros t' k fn p Lt Hn. rewrite calls_app. destruct (decide (t' = t)) as [->|Hne]; [|rewrite list_lookup_insert_ne in Lt by done; specialize (Ht t' k fn p Lt Hn); lia].
      by rewrite list_lookup_insert in Lt by done.
    + intros ha hb t' k fn Eh. apply snoc_split in Eh as [(hb' & Eh & ->)|(-> & -> & [=])]; [by eapply Hd|cbn; lia].
  - assert (t < length (c_threads c))%nat as Hlt by (by eapply lookup_lt_Some). pose proof (v_dims _ _ _ _ I) as Hdim. pose proof (v_shape _ _ _ _ I) as Hsh.
    pose proof (step_call_keys _ _ _ _ _ _ _ _ _ Hdim Hsh Es) as Hkeys.
    assert (∀ k, calls k es = 0%nat) as Hc. { intros k. destruct Hes as [->|(?&?&?&?&_&[(_&->)|[(?&_&->)|(?&_&->)]])]; done. }
    assert (∀ t, quiet t es) as Hqe. { intros t'. destruct Hes as [->|(?&?&?&?&_&[(_&->)|[(?&_&->)|(?&_&->)]])]; repeat constructor. }
    constructor; cbn [c_map c_threads].
    + intros x Hx Hk. cbn [c_map c_threads] in *. destruct (Hkeys x ltac:(lia)) as [Ek|(E0 & k & fn & -> & Ek & Hp)].
      * rewrite Ek in Hk |- *. destruct (Ho x Hx Hk) as (t' & fn & ha & hb & Eh & Hq). exists t', fn, ha, (hb ++ es). split; [by rewrite Eh at 1; rewrite <- app_assoc|]. intros Hqq. apply Forall_app in Hqq as [Hqq _].
        destruct (Hq Hqq) as (q & Lq & Hp). destruct (decide (t' = t)) as [->|Hne]; [|exists q; by rewrite list_lookup_insert_ne].
        rewrite L in Lq. injection Lq as -> <-. exists p'. rewrite list_lookup_insert by done. split; [done|]. by eapply step_call_past.
      * rewrite Ek. destruct (v_thr _ _ _ _ I t _ p L) as (h1 & h2 & Eh & Hq & _). exists t, fn, h1, (h2 ++ es). split; [by rewrite Eh, <- app_assoc|]. intros _. exists p'. rewrite list_lookup_insert by done. done.
    + intros t' k fn q Lt Hn. rewrite calls_app, Hc, Nat.add_0_r. destruct (decide (t' = t)) as [->|Hne]; [|rewrite list_lookup_insert_ne in Lt by done; by eapply Ht].
      rewrite list_lookup_insert in Lt by done. injection Lt as -> ->.
      destruct p as [i|x b'|x qq j b'|x qq b'|i init|i x|i x|x init|x init|x init pr|x init r|x r|r]; cbn [step_call] in Es; repeat match type of Es with context [match ?z with _ => _ end] => destruct z eqn:? end; injection Es as <- <- <-; try done;
        try (by destruct init); try (eapply Ht; [exact L|by destruct init]); try (unfold reprobe in Hn; by destruct (_ <? _)%nat).
      (* ULoad: the key was found *)
      destruct init; [done|]. destruct (v_thr _ _ _ _ I t _ _ L) as (h1 & h2 & Eh & Hq & (Hk & Hi & _ & _ & Hin)). destruct i as [|i]; [|done].
      match goal with H : (let! _ := _ in _) = Ok (?y, ?v) |- _ => rename H into Ep; rename y into x; rename v into sx end.
      assert (0 < l < 2^63) as Hl by (destruct Hdim as (?&?&?); nia). rewrite (sh_l _ _ _ Hsh), pos_probe in Ep by lia. cbn [obind] in Ep. rewrite (index_sl Hsh) in Ep by (apply probe_range; lia). injection Ep as <- <-.
      assert (key_at (c_map c) (probe l k 0) = k) as Ek by (rewrite key_at_sl; lia).
      destruct (Ho (probe l k 0)) as (t' & fn' & ha & hb & Eh' & Hq'); [apply probe_range; lia|rewrite Ek; lia|]. rewrite Ek in Eh', Hq'.
      assert (ha ≠ h1) as Hne. { intros ->. rewrite Eh in Eh'. apply app_inv_head in Eh'. injection Eh' as -> <- <-. destruct (Hq' Hq) as (q' & Lq & Hp). rewrite L in Lq. by injection Lq as <-. }
      rewrite Eh in Eh'. apply app_eq_app in Eh' as (z & [[Z1 Z2]|[Z1 Z2]]).
      * destruct z as [|e z]; [by rewrite app_nil_r in Z1|]. injection Z2 as <- ->. rewrite Eh, Z1, !calls_app. unfold calls. cbn. rewrite !decide_True by done. cbn. lia.
      * destruct z as [|e z]; [by rewrite app_nil_r in Z1|]. injection Z2 as <- ->. rewrite Eh, !calls_app. unfold calls. cbn. rewrite decide_True by done. rewrite omap_app. cbn. rewrite decide_True by done. rewrite app_length. cbn. lia.
    + intros ha hb t' k fn Eh. destruct Hes as [->|(k' & fn' & x & init & -> & [(-> & ->)|[(r & -> & ->)|(q & -> & ->)]])]; [rewrite app_nil_r in Eh; by eapply Hd|..];
        (apply snoc_split in Eh as [(hb' & Eh & ->)|(-> & -> & Ee)]; [by eapply Hd| |cbn; lia]); try done. injection Ee as -> -> -> ->. by eapply Ht.
Qed.
Lemma execution_races l s n acts c h : dims_ok l s → Forall action_ok acts → execution l s n acts c h → races l c h.
Proof.
  intros Hd HF (m & Em & E). change h with ([] ++ h). pose proof (init_inv l s m n Hd Em) as I.
  assert (races l (MkCfg m (replicate n None)) []) as R.
  { constructor.
    - intros x Hx H. exfalso. apply H. cbn [c_map]. rewrite (BufmapProofs.New_ok l s Hd) in Em. injection Em as <-. unfold key_at. cbn [m_keys]. destruct (replicate _ _ !! _) eqn:L; [|done]. by apply lookup_replicate in L as [-> _].
    - intros t k fn p L. by apply lookup_replicate in L as [? _].
    - intros ha hb t k fn Eh. by destruct ha. }
  revert I R E. generalize (MkCfg m (replicate n None)), (@nil event), h. clear Em h. induction HF as [|a acts Ha HF IH]; intros c0 h0 h I R; cbn [exec]; [by intros [= <- <-]; rewrite app_nil_r|].
  destruct (step c0 a) as [c1 e1] eqn:E1. destruct (exec c1 acts) as [c2 e2] eqn:E2. intros [= <- <-]. rewrite app_assoc. apply (IH c1); [by eapply step_inv|by eapply step_races|done].
Qed.

(** ** functions over the whole slice *)
Lemma run_write_all d' r d pre : length d = length d' → run (write_all d' (length pre) r) (pre ++ d) = (pre ++ d', r).
Proof.
  revert d pre. induction d' as [|v d' IH]; intros d pre Hl; [by destruct d|]. destruct d as [|w d]; [done|]. cbn [write_all run]. rewrite app_length. assert ((0 <=? Z.of_nat (length pre)) && (Z.of_nat (length pre) <? Z.of_nat (length pre + length (w :: d))) = true) as -> by (cbn; lia).
  rewrite Nat2Z.id. rewrite insert_app_r_alt, Nat.sub_diag by lia. cbn [insert list_insert]. replace (S (length pre)) with (length (pre ++ [v])) by (rewrite app_length; cbn; lia).
  rewrite (cons_middle v pre d), (cons_middle v pre d'), !app_assoc. apply IH. by injection Hl.
Qed.
Lemma run_read_all n i acc g d : (i + n = length d)%nat → acc = take i d → run (read_all n i acc g) d = run (g d) d.
Proof.
  revert i acc. induction n as [|n IH]; intros i acc Hl ->; cbn [read_all run]; [by rewrite take_ge by lia|].
  assert ((0 <=? Z.of_nat i) && (Z.of_nat i <? Z.of_nat (length d)) = true) as -> by lia. apply IH; [lia|]. rewrite Nat2Z.id. destruct (lookup_lt_is_Some_2 d i) as [v Lv]; [lia|]. rewrite Lv. cbn. by rewrite (take_S_r d i v).
Qed.
Lemma run_as_prog s fn init d : fn_ok fn → length d = Z.to_nat s → run (as_prog s fn init) d = fn d init.
Proof.
  intros Hf Hl. unfold as_prog. rewrite run_read_all by (cbn; lia || done). specialize (Hf d init). destruct (fn d init) as [d' r] eqn:E. cbn in Hf. exact (run_write_all d' r d [] (eq_sym Hf)).
Qed.

(** at any moment at least as many updates have begun as have been completed *)
Lemma inv_wb l s c h k : inv l s c h → writes k h ≤ begins k h.
Proof.
  intros I. destruct (decide (k = 0)) as [->|H0]; [destruct (v_zero _ _ _ _ I) as (-> & -> & _); lia|].
  destruct (decide (writes k h = 0)) as [->|Hw]; [apply begins_nonneg|]. destruct (v_seen _ _ _ _ I k H0) as (x & Hx & Ek); [left; by left|]. pose proof (balance I Hx). rewrite Ek in *. lia.
Qed.
Definition begun (h : list event) : Prop := ∀ ha hb k, h = ha ++ hb → writes k ha ≤ begins k ha.
Lemma exec_begun l s c h acts c' es : inv l s c h → Forall action_ok acts → begun h → exec c acts = (c', es) → begun (h ++ es).
Proof.
  intros I HF. revert c h es I. induction HF as [|a acts Ha HF IH]; intros c h es I B; cbn [exec]; [by intros [= <- <-]; rewrite app_nil_r|].
  destruct (step c a) as [c1 e1] eqn:E1. destruct (exec c1 acts) as [c2 e2] eqn:E2. intros [= <- <-]. rewrite app_assoc. pose proof (step_inv _ _ _ _ _ _ _ I Ha E1) as I1. eapply IH; [done| |done].
  intros ha hb k E. assert (length e1 ≤ 1)%nat as Hl. { apply step_shape in E1 as [[-> ->]|[(?&?&_&_&_&->)|[(?&?&?&_&_&_&->)|(?&?&?&?&?&_&_&_&_&_&[->|(?&?&?&?&_&[(_&->)|[(?&_&->)|(?&_&->)]])])]]]; cbn; lia. }
  destruct hb as [|e hb]; [rewrite app_nil_r in E; rewrite <- E; by eapply inv_wb|]. apply snoc_split in E as [(hb' & E & _)|(-> & _ & _)]; [by eapply B|apply (inv_wb _ _ _ _ k I)|done].
Qed.
Lemma execution_begun l s n acts c h : dims_ok l s → Forall action_ok acts → execution l s n acts c h → begun h.
Proof. intros Hd HF (m & Em & E). change h with ([] ++ h). eapply exec_begun; [by apply init_inv|done| |done]. intros ha hb k Eh. by destruct ha. Qed.
