From Coq Require Import ZifyBool ZifyNat.
From Verif Require Import Base BaseProofs Probe BufmapModel BufmapSpec BufconcModel BufconcSpec BufconcProofs BufconcInv BufconcStep BufconcTop.
Local Open Scope Z_scope.

(** how many more steps a goroutine needs if nobody else updates its key *)
Definition costs (fn : bool → prog) (q : nat) : Prop := bounded q (fn true) ∧ bounded q (fn false).
Definition again (m : Map) (x seq : Z) (buf : bytes) : nat := if seq =? sl_seq (sl m x) then 0%nat else (length buf + 3)%nat.
Definition fits (m : Map) (o : op) (p : pc) (f : nat) : Prop :=
  match o, p with
  | OGet k buf, GLoad i => ((11 - i) + length buf + 3 ≤ f)%nat
  | OGet k buf, GSeq1 x _ => (length buf + 3 ≤ f)%nat
  | OGet k buf, GCopy x q j _ => (again m x q buf + (length buf - j) + 2 ≤ f)%nat
  | OGet k buf, GSeq2 x q _ => (again m x q buf + 2 ≤ f)%nat
  | OUpdate k fn, ULoad i _ => ∃ q, costs fn q ∧ (3 * (11 - i) + q + 5 ≤ f)%nat
  | OUpdate k fn, UCas i _ => ∃ q, costs fn q ∧ (3 * (11 - i) + q + 4 ≤ f)%nat
  | OUpdate k fn, UReload i _ => ∃ q, costs fn q ∧ (3 * (11 - i) + q + 3 ≤ f)%nat
  | OUpdate k fn, ULock _ _ => ∃ q, costs fn q ∧ (q + 5 ≤ f)%nat
  | OUpdate k fn, USeq1 _ _ => ∃ q, costs fn q ∧ (q + 4 ≤ f)%nat
  | OUpdate k fn, UFn _ _ p => ∃ q, bounded q p ∧ (q + 3 ≤ f)%nat
  | OUpdate k fn, USeq2 _ _ _ => (3 ≤ f)%nat
  | OUpdate k fn, UUnlock _ _ => (2 ≤ f)%nat
  | _, PRet _ => (1 ≤ f)%nat
  | _, _ => False
  end.
Definition alone (k : Z) (t : nat) (ts : list (option (op * pc))) : Prop := ∀ t' fn p, t' ≠ t → ts !! t' ≠ Some (Some (OUpdate k fn, p)).
(** nobody else is in the way *)
Lemma alone_free l s c h k t o p x : inv l s c h → alone k t (c_threads c) → ¬ dead k h → k ≠ 0 → 0 ≤ x < l → key_at (c_map c) x = k → c_threads c !! t = Some (Some (o, p)) → anycrit p = false →
  sl_mu (sl (c_map c) x) = false ∧ (sl_seq (sl (c_map c) x) mod 2 =? 0) = true.
Proof.
  intros I A Hnd H0 Hx Ek L Hp. destruct (phase I Hx) as [(Hmu & Hbal & _)|[(_ & _ & t' & o' & p' & L' & Hc & _)|(_ & _ & Hd & _)]].
  - split; [done|]. by apply (even_balance I Hx).
  - exfalso. destruct (decide (t' = t)) as [->|Hne]; [rewrite L in L'; injection L' as <- <-; apply crit_any in Hc; congruence|].
    destruct (v_thr _ _ _ _ I t' o' p' L') as (h1 & h2 & _ & _ & Ht). destruct o' as [k' b|k' fn]; [by destruct p'|].
    apply (A t' fn p' Hne). rewrite L'. repeat f_equal. destruct p'; try done; cbn in Hc; apply bool_decide_eq_true in Hc; destruct Ht as (_ & _ & Ht & _); congruence.
  - by rewrite Ek in Hd.
Qed.
(** other goroutines leave the slot of the key alone *)
Lemma other_step l s m t o p m' p' es x k h1 h2 : dims_ok l s → shape l s m → 0 ≤ x < l → key_at m x = k → k ≠ 0 → (∀ fn, o ≠ OUpdate k fn) → thr l s (key_at m) h1 h2 t o p → step_call m t o p = (m', p', es) →
  sl_seq (sl m' x) = sl_seq (sl m x) ∧ (∀ fn init t', EPanic t' k fn init ∉ es).
Proof.
  intros Hd Hsh Hx Ek H0 Ho Ht E. split.
  - destruct o as [k' b|k' fn]; destruct p as [i|y b'|y q j b'|y q b'|i init|i y|i y|y init|y init|y init p|y init r|y r|r]; cbn [step_call] in E;
      repeat match type of E with context [match ?q with _ => _ end] => destruct q eqn:? end; injection E as <- <- <-; try done;
      match goal with H : index _ _ = Ok _ |- _ => pose proof (index_range _ _ _ H) as Hr; rewrite (sh_keys _ _ _ Hsh) in Hr; assert (0 ≤ y < l) as Hy by (destruct Hd as (?&?&?); lia); rewrite (index_sl Hsh) in H by done; injection H as <- end;
      rewrite (sl_set Hsh) by (done || lia); destruct (decide (y = x)) as [->|]; try done;
      (destruct Ht as (_ & _ & Ht & _); exfalso; apply (Ho fn); congruence).
  - intros fn init t' Hin. destruct o as [k' b|k' fn']; destruct p as [i|y b'|y q j b'|y q b'|i init'|i y|i y|y init'|y init'|y init' p|y init' r|y r|r]; cbn [step_call] in E;
      repeat match type of E with context [match ?q with _ => _ end] => destruct q eqn:? end; injection E as <- <- <-; try (by apply elem_of_nil in Hin); apply elem_of_list_singleton in Hin; try done; injection Hin as -> -> -> ->; by apply (Ho fn').
Qed.
Lemma own_step l s c h t o p m' p' es k f h1 h2 : inv l s c h → alone k t (c_threads c) → ¬ dead k h → k ≠ 0 → on_key k o → c_threads c !! t = Some (Some (o, p)) →
  thr l s (key_at (c_map c)) h1 h2 t o p → (∀ r, p ≠ PRet r) → step_call (c_map c) t o p = (m', p', es) → fits (c_map c) o p f → ∃ f', f = S f' ∧ fits m' o p' f' ∧ ((∃ r, p' = PRet r) ∨ ¬ dead k (h ++ es)).
Proof.
  intros I A Hnd H0 Ho L Ht Hnr E Hf. pose proof (v_dims _ _ _ _ I) as Hd. pose proof (v_shape _ _ _ _ I) as Hsh. assert (0 < l < 2^63) as Hl by (destruct Hd as (?&?&?); nia).
  assert (∀ e, (∀ fn init t', e ≠ EPanic t' k fn init) → ¬ dead k (h ++ [e])) as Hnd1.
  { intros e He D. apply Hnd. eapply dead_same; [|exact D]. intros ? ? ? Hin. apply elem_of_list_singleton in Hin. by eapply He. }
  assert (¬ dead k (h ++ [])) as Hnd0 by (by rewrite app_nil_r).
  destruct o as [k' buf|k' fn]; cbn in Ho; subst k'; destruct p as [i|y b'|y q j b'|y q b'|i init|i y|i y|y init|y init|y init p|y init r|y r|r]; try done; cbn [step_call fits] in E, Hf; try (by destruct (Hnr r)).
  - destruct Ht as (Hk & Hi & _). rewrite (sh_l _ _ _ Hsh), pos_probe in E by (done || lia). cbn [obind] in E. rewrite (index_sl Hsh) in E by (apply probe_range; lia). injection E as <- <- <-. destruct f as [|f]; [lia|]. exists f. split; [done|]. split; [|by right].
    destruct (_ =? k); cbn; [lia|]. unfold greprobe. destruct (Nat.ltb_spec maxReprobe (S i)); cbn; unfold maxReprobe in *; lia.
  - destruct Ht as (Hx & _ & Ek & _). specialize (Ek H0). destruct (alone_free l s c h k t _ _ y I A Hnd H0 Hx Ek L eq_refl) as [_ Hev]. rewrite (index_sl Hsh) in E by done. rewrite Hev in E. destruct f as [|f]; [lia|]. exists f. split; [done|].
    destruct (slice _ _ _); injection E as <- <- <-; (split; [|by right]); [|cbn; lia..]. destruct (_ <? _)%nat; cbn; unfold again; rewrite Z.eqb_refl; lia.
  - destruct Ht as (Hx & _ & _ & [Hb _] & Hj & _). injection E as <- <- <-. destruct f as [|f]; [lia|]. exists f. split; [done|]. split; [|by right]. unfold ncopy in Hj. destruct (_ <? _); cbn; lia.
  - destruct Ht as (Hx & _). rewrite (index_sl Hsh) in E by done. injection E as <- <- <-. destruct f as [|f]; [lia|]. exists f. split; [done|]. split; [|by right]. unfold again in Hf. destruct (_ =? _); cbn; lia.
  - destruct Ht as (Hk & Hi & _). destruct Hf as (q & Hc & Hf). rewrite (sh_l _ _ _ Hsh), pos_probe in E by (done || lia). cbn [obind] in E. rewrite (index_sl Hsh) in E by (apply probe_range; lia). injection E as <- <- <-. destruct f as [|f]; [lia|]. exists f. split; [done|]. split; [|by right].
    destruct (_ =? k); [|destruct (_ =? 0)]; exists q; (split; [done|lia]).
  - destruct Ht as (Hk & Hi & _ & _ & -> & _). destruct Hf as (q & Hc & Hf). rewrite (index_sl Hsh) in E by (apply probe_range; lia). destruct f as [|f]; [lia|]. exists f. split; [done|]. destruct (_ =? 0); injection E as <- <- <-; (split; [|by right]); exists q; (split; [done|lia]).
  - destruct Ht as (Hk & Hi & _ & _ & -> & _). destruct Hf as (q & Hc & Hf). rewrite (index_sl Hsh) in E by (apply probe_range; lia). injection E as <- <- <-. destruct f as [|f]; [lia|]. exists f. split; [done|]. split; [|by right].
    destruct (_ =? k); [exists q; split; [done|lia]|]. unfold reprobe. destruct (Nat.ltb_spec maxReprobe (S i)); cbn; unfold maxReprobe in *; [lia|]. exists q; split; [done|lia].
  - destruct Ht as (Hk & Hx & Ek & _). destruct (alone_free l s c h k t _ _ y I A Hnd H0 Hx Ek L eq_refl) as [Hmu _]. destruct Hf as (q & Hc & Hf). rewrite (index_sl Hsh) in E by done. rewrite Hmu in E. injection E as <- <- <-. destruct f as [|f]; [lia|]. exists f. split; [done|]. split; [|by right]. exists q. split; [done|lia].
  - destruct Ht as (Hk & Hx & Ek & _). destruct Hf as (q & [Hc1 Hc2] & Hf). rewrite (index_sl Hsh) in E by done. injection E as <- <- <-. destruct f as [|f]; [lia|]. exists f. split; [done|]. split; [|right; by apply Hnd1]. exists q. split; [by destruct init|lia].
  - destruct Ht as (Hk & Hx & Ek & _). destruct Hf as (q & Hq & Hf). rewrite (slice_slot Hd Hsh) in E by done. destruct f as [|f]; [lia|]. exists f. split; [done|]. destruct q as [|q]; [done|]. cbn [bounded] in Hq.
    destruct p as [r|i g|i v g].
    + destruct r; injection E as <- <- <-; (split; [cbn; lia|]); eauto.
    + destruct (_ && _); injection E as <- <- <-; [split; [|by right]; exists q; split; [done|lia]|split; [cbn; lia|eauto]].
    + destruct (_ && _); injection E as <- <- <-; [split; [|by right]; exists q; split; [done|lia]|split; [cbn; lia|eauto]].
  - destruct Ht as (Hk & Hx & Ek & _). rewrite (index_sl Hsh) in E by done. injection E as <- <- <-. destruct f as [|f]; [lia|]. exists f. split; [done|]. split; [cbn; lia|right; by apply Hnd1].
  - destruct Ht as (Hk & Hx & Ek & _). rewrite (index_sl Hsh) in E by done. injection E as <- <- <-. destruct f as [|f]; [lia|]. exists f. split; [done|]. split; [cbn; lia|eauto].
Qed.
Lemma live l s c h acts c' es t o p k f : inv l s c h → Forall action_ok acts → alone k t (c_threads c) → (∃ r, p = PRet r) ∨ ¬ dead k h → k ≠ 0 → on_key k o → c_threads c !! t = Some (Some (o, p)) →
  Forall (λ a, match a with ACall _ (OUpdate k' _) => k' ≠ k | _ => True end) acts → exec c acts = (c', es) → fits (c_map c) o p f → (f ≤ steps_of t acts)%nat → ∃ r, ERet t o r ∈ es.
Proof.
  intros I HF. revert c h es p f I. induction HF as [|a acts Ha HF IH]; intros c h es p f I A Hdd H0 Ho L HG; cbn [exec steps_of].
  - intros _ Hf Hs. exfalso. destruct o, p; cbn in Hf; try done; try lia; destruct Hf as (? & ? & ?); lia.
  - inversion_clear HG as [|? ? HGa HG']. destruct (step c a) as [c1 e1] eqn:E1. destruct (exec c1 acts) as [c2 e2] eqn:E2. intros [= <- <-] Hf Hs.
    assert (t < length (c_threads c))%nat as Hlen by (by eapply lookup_lt_Some). pose proof (step_inv _ _ _ _ _ _ _ I Ha E1) as I1.
    assert ((∃ r, ERet t o r ∈ e2) → ∃ r, ERet t o r ∈ e1 ++ e2) as Hup by (intros (r & Hr); exists r; apply elem_of_app; by right).
    destruct a as [t' o'|t'].
    + cbn [step] in E1. destruct (c_threads c !! t') as [[q|]|] eqn:L'; injection E1 as <- <-.
      * apply Hup. rewrite app_nil_r in I1. by eapply (IH c h e2 p f).
      * assert (t' ≠ t) as Hne by congruence. apply Hup. eapply (IH _ _ e2 p f I1); try done; cbn [c_threads c_map]; try (by rewrite list_lookup_insert_ne).
        -- intros t2 fn2 p2 Hn2 L2. destruct (decide (t2 = t')) as [->|Hn3]; [rewrite list_lookup_insert in L2 by (by eapply lookup_lt_Some); injection L2 as -> _; done|rewrite list_lookup_insert_ne in L2 by done; by eapply A].
        -- destruct Hdd as [?|Hnd]; [by left|right]. intros D. apply Hnd. eapply dead_same; [|exact D]. intros ? ? ? Hin. by apply elem_of_list_singleton in Hin.
      * apply Hup. rewrite app_nil_r in I1. by eapply (IH c h e2 p f).
    + destruct (decide (t' = t)) as [->|Hne].
      * cbn [step] in E1. rewrite L in E1. assert ((∃ r, p = PRet r) ∨ ∀ r, p ≠ PRet r) as [(r & ->)|Hnr] by (destruct p; eauto; right; done).
        { injection E1 as <- <-. exists r. apply elem_of_app. left. left. }
        destruct Hdd as [(r & ->)|Hnd]; [by destruct (Hnr r)|].
        destruct (step_call (c_map c) t o p) as [[m p'] es'] eqn:Es.
        assert (MkCfg m (<[t := Some (o, p')]> (c_threads c)) = c1 ∧ es' = e1) as [<- <-] by (destruct p; try (by injection E1 as <- <-); by destruct (Hnr r)).
        destruct (v_thr _ _ _ _ I t o p L) as (h1 & h2 & _ & _ & Ht). destruct (own_step l s c h t o p m p' es' k f h1 h2 I A Hnd H0 Ho L Ht Hnr Es Hf) as (f' & -> & Hf' & Hdd').
        apply Hup. eapply (IH _ _ e2 p' f' I1); try done; cbn [c_threads c_map]; [|by rewrite list_lookup_insert|lia].
        intros t2 fn2 p2 Hn2. rewrite list_lookup_insert_ne by done. by apply A.
      * apply Hup. apply step_shape in E1 as [[-> ->]|[(t2 & o' & [=] & _)|[(t2 & o' & r & [= <-] & L' & -> & ->)|(t2 & o' & p' & m & q & [= <-] & L' & Hnr & Es & -> & Hes)]]].
        -- rewrite app_nil_r in I1. by eapply (IH c h e2 p f).
        -- eapply (IH _ _ e2 p f I1); try done; cbn [c_threads c_map]; try (by rewrite list_lookup_insert_ne).
           ++ intros t2 fn2 p2 Hn2 L2. destruct (decide (t2 = t')) as [->|Hn3]; [by rewrite list_lookup_insert in L2 by (by eapply lookup_lt_Some)|rewrite list_lookup_insert_ne in L2 by done; by eapply A].
           ++ destruct Hdd as [?|Hnd]; [by left|right]. intros D. apply Hnd. eapply dead_same; [|exact D]. intros ? ? ? Hin. by apply elem_of_list_singleton in Hin.
        -- assert (∀ fn, o' ≠ OUpdate k fn) as Ho'. { intros fn ->. by apply (A t' fn p' Hne). }
           destruct (v_thr _ _ _ _ I t' o' p' L') as (h1 & h2 & _ & _ & Ht'). pose proof (other_step l s (c_map c) t' o' p' m q e1) as Hos.
           assert (∀ fn init t', EPanic t' k fn init ∉ e1) as Hnp. { intros fn init t2 Hin. destruct Hes as [->|(k' & fn' & x & init' & -> & [(-> & ->)|[(r & -> & ->)|(qq & -> & ->)]])]; [by apply elem_of_nil in Hin|by apply elem_of_list_singleton in Hin..|]. apply elem_of_list_singleton in Hin as [= -> -> -> ->]. by apply (Ho' fn'). }
           eapply (IH _ _ e2 p f I1); try done; cbn [c_threads c_map]; try (by rewrite list_lookup_insert_ne).
           ++ intros t2 fn2 p2 Hn2 L2. destruct (decide (t2 = t')) as [->|Hn3]; [rewrite list_lookup_insert in L2 by (by eapply lookup_lt_Some); injection L2 as -> ->; by apply (Ho' fn2)|rewrite list_lookup_insert_ne in L2 by done; by eapply A].
           ++ destruct Hdd as [?|Hnd]; [by left|right]. intros D. apply Hnd. eapply dead_same; [|exact D]. intros t3 fn3 init3. apply Hnp.
           ++ destruct (v_thr _ _ _ _ I t o p L) as (i1 & i2 & _ & _ & Ht). pose proof (v_dims _ _ _ _ I) as Hd. pose proof (v_shape _ _ _ _ I) as Hsh.
              destruct o as [k' buf|k' fn]; cbn in Ho; subst k'; [|by destruct p]. assert (∀ x q', 0 ≤ x < l → key_at (c_map c) x = k → again m x q' buf = again (c_map c) x q' buf) as Hag.
              { intros x q' Hx Ek. destruct (Hos x k h1 h2 Hd Hsh Hx Ek H0 Ho' Ht' Es) as [Hse _]. unfold again. by rewrite Hse. }
              destruct p; try done; cbn [fits] in *; destruct Ht as (Hx & _ & Ek & _); by rewrite Hag by auto.
Qed.
