From Coq Require Import ZifyBool ZifyNat.
From Verif Require Import Base BaseProofs Float64 FnvSpec HllModel CollationModel CollationSpec CollationProofs CollationTop CollationTop2 BufmapModel BufmapSpec RegexpModel QueryModel Probe
  BufconcModel BufconcSpec BufconcProofs BufconcInv BufconcTop BufconcProps ServerModel ServerSpec ScanProofs ParseRowProofs ServerProofs StoreProofs ServerInv ServerTop ServerHomeSpec StoreConcModel StoreConcSpec StoreConcProofs StoreConcTop StoreConcTop2 StoreConcTop3
  ServerConcModel ServerConcSpec ServerConcProofs ServerConcTop ServerConcTop2 ServerConcTop3.
Local Open Scope Z_scope.

Section top.
Context (pf : bytes → option float) (est : Counter → Z) (ff : float → bytes) (et : error → bytes) (pm : bytes → option bytes) (order : list FM → list FM).
Context (c : list (Z * Schema)) (impl : nat → Row → bool → prog) (Hc : cfg_ok c) (Himpl : impls_ok pf c impl) (rqs : list request) (Hrq : Forall request_ok rqs).
Notation n := (length rqs).
Notation vinv := (vinv est ff et pm order c impl rqs).
Context (v : vcfg) (h : list vevent) (rs : list response) (V : vinv v h) (A : answered v rs) (Seq : ∀ t, (t < n)%nat → sequential t h).
Context (sent : nat → list Row) (Ac : accepted pm rqs rs sent) (i : nat) (l : Z) (s : Schema) (Lc : c !! i = Some (l, s)) (k : Z) (H0 : k ≠ 0).

(** a record that has a row is in a slot *)
Lemma record_slot acts g : Forall saction_ok acts → sexecution s (impl i) l n acts g (proj i h) → squiescent g → applied k (proj i h) ≠ [] → ∃ x, 0 ≤ x < l ∧ key_at (c_map (g_cfg g)) x = k.
Proof.
  intros HF Ex Q Hne. destruct (dims_at c Hc i l s Lc) as [Hs Hd]. destruct (store_record pf s (impl i) l Hs Hd (Himpl i l s Lc) _ acts g _ k HF Ex Q H0) as [Hr|[_ Ha]]; [|done].
  pose proof (w_inv _ _ _ _ _ (sexecution_inv s (impl i) l Hd _ _ _ _ HF Ex)) as I. unfold record in Hr. destruct (slots_of (c_map (g_cfg g)) k) as [|x L] eqn:E; [done|].
  assert (x ∈ slots_of (c_map (g_cfg g)) k) as Hx by (rewrite E; left). unfold slots_of in Hx. rewrite elem_of_list_filter, elem_of_list_fmap in Hx.
  rewrite (sh_keys _ _ _ (v_shape _ _ _ _ I)) in Hx. destruct Hx as [Ex' (j & -> & Hj)]. apply elem_of_seq in Hj. exists (Z.of_nat j). split; [lia|done].
Qed.
(** the flags of the rows applied to the record up to any moment *)
Lemma first_prefix ha hb t0 r r0 rest p z : h = ha ++ VAnswer t0 r :: hb → rows_for s k (sent t0) = r0 :: rest → (∀ t, t ∈ arrived ha → t ≠ t0 → rows_for s k (sent t) = []) →
  undisturbed l s k (rows_of sent (seq 0 n)) → proj i h = p ++ z → applied k p ≠ [] → ∃ rows, applied k p = (true, r0) :: map (Datatypes.pair false) rows.
Proof.
  intros Eh Es Hoth Hu Ep Hne. destruct (first_alone est ff et pm order c impl Hc rqs v h rs V A Seq sent Ac i l s Lc k ha hb t0 r r0 rest Eh Es Hoth) as (pa & pb & E & Hcal & _).
  destruct (vi_stores _ _ _ _ _ _ _ _ _ _ V i l s Lc) as (g & acts' & Lg & HF & Exs). destruct (dims_at c Hc i l s Lc) as [Hs Hd].
  pose proof (all_fine est ff et pm order c impl rqs v h rs sent i l s V A Ac Lc) as NF. assert (squiescent g) as Q by (by eapply (all_quiet est ff et pm order c impl rqs)).
  assert (applied k (proj i h) = applied k p ++ applied k z) as Ea by (by rewrite Ep, applied_app). assert (applied k (proj i h) ≠ []) as Hne' by (rewrite Ea; by destruct (applied k p)).
  destruct (record_slot acts' g HF Exs Q Hne') as (x & Hx & Hk). pose proof (key_home est ff et pm order c impl Hc rqs v h rs V A sent Ac i l s Lc k acts' g x) as Hh.
  rewrite Hh in Hk; try done. assert (proj i h = proj i pa ++ SRet t0 (CWrite r0) (Some (RUpdate (Ok ()))) :: proj i pb) as Epr. { rewrite E, proj_app. cbn. by rewrite decide_True. }
  assert (row_key s r0 = Some k) as Ek. { assert (r0 ∈ rows_for s k (sent t0)) as Hin by (rewrite Es; left). unfold rows_for in Hin. by apply elem_of_list_filter in Hin as [? _]. }
  pose proof (first_flags s (impl i) l Hd n acts' g _ _ _ t0 k r0 HF Exs NF Q H0 Epr Ek Hcal Hk) as Ef. rewrite Ef in Ea. destruct (applied k p) as [|y p'] eqn:Eap; [done|]. cbn in Ea. injection Ea as <- Ea.
  exists (map snd p'). f_equal. clear -Ea. set (L := map snd (applied k (proj i pb))) in *. clearbody L. revert L Ea. induction p' as [|y p' IH]; intros [|b L] Ea; cbn in *; try done. injection Ea as <- Ea. cbn. f_equal. by eapply IH.
Qed.
End top.
