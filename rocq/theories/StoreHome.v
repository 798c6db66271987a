(** Records that stay in their home slot: only their first row initialises them. *)
From Coq Require Import ZifyBool ZifyNat.
From Verif Require Import Base BaseProofs Float64 FnvModel FnvSpec FnvProofs HllModel CollationModel CollationSpec CollationProofs CollationTop CollationTop2
  BufmapModel BufmapSpec BufmapProofs BufmapTop QueryModel ServerModel ServerSpec ScanProofs ParseRowProofs ServerProofs StoreProofs ServerInv ServerTop ServerHomeSpec.
Local Open Scope Z_scope.

Lemma Update_key_at l s m k fn m' r : inv l s m → is_key k → fn_ok fn → Update m k fn = (m', r) → ∀ y, 0 ≤ y < l →
  key_at m' y = key_at m y ∨ (upd_target l m k = Some y ∧ key_at m' y = k).
Proof.
  intros I Hk Hfn E y Hy. pose proof (Update_eq l s m k fn I Hk Hfn) as H. destruct (upd_target l m k) as [x|] eqn:Et; [|rewrite E in H; injection H as -> _; by left].
  destruct H as (sl & L & H). destruct (upd_target_spec _ _ _ _ _ I Et) as (i & Hi & Ex & Hx & Hor & Hm). destruct (sl_mu sl); [rewrite E in H; injection H as -> _; by left|].
  destruct (fn (bytes_at m x) (first_flag l m k)) as [d o] eqn:Ef. pose proof (fn_len _ _ _ _ _ Hfn Ef) as Hd. rewrite (bytes_at_len I) in Hd by lia.
  assert (∀ sl', sl_key sl' = k → key_at (set_slot m x sl' d) y = key_at m y ∨ (Some x = Some y ∧ key_at (set_slot m x sl' d) y = k)) as G.
  { intros sl' Hsl. rewrite (key_at_set I) by lia. destruct (decide (x = y)) as [->|]; [right; done|by left]. }
  destruct o; rewrite E in H; injection H as -> _; by apply G.
Qed.
Lemma home_target l s m k : inv l s m → is_key k → key_at m (home l k) = 0 ∨ key_at m (home l k) = k → upd_target l m k = Some (home l k).
Proof.
  intros I Hk H. unfold upd_target, probe_slots. cbn [seq map find]. change (Z.of_nat 0) with 0. rewrite Z.add_0_r. change (k mod l) with (home l k).
  destruct H as [H|H]; rewrite H, Z.eqb_refl; [by rewrite orb_true_r|done].
Qed.
Lemma target_probe l s m k y : inv l s m → upd_target l m k = Some y → y ∈ probe_slots l k.
Proof. intros I Et. unfold upd_target in Et. apply find_some in Et as [H _]. by apply elem_of_list_In. Qed.

Section stores.
Context (pf : bytes → option float).
(** record k of a store that was given these rows *)
Definition store_home (l : Z) (s : Schema) (st : Store) (rows : list Row) : Prop := ∀ k, is_key k → undisturbed l s k rows →
  match record (st_map st) k with
  | None => rows_for s k rows = [] ∧ (key_at (st_map st) (home l k) = 0 ∨ key_at (st_map st) (home l k) = k)
  | Some d => rows_for s k rows ≠ [] ∧ key_at (st_map st) (home l k) = k ∧ record_after pf s (rows_for s k rows) = Ok d
  end.
Lemma home_slot l s m k : inv l s m → 0 ≤ home l k < l.
Proof. intros I. unfold home. apply Z.mod_pos_bound. destruct (i_dims _ _ _ I). lia. Qed.
Lemma store_home_step l s st r st' rows : schema_ok s → store_inv pf l s st → row_ok r → store_takes pf r st st' → store_home l s st rows → store_home l s st' (rows ++ [r]).
Proof.
  intros Hs I Hr Ht H k Hk Hu. unfold store_takes in Ht. destruct (Store_Write_cases _ _ _ _ _ _ _ _ _ Hs I Hr Ht) as (I' & _ & HC).
  assert (rows_for s k (rows ++ [r]) = if decide (record_key (s_keys s) (row_data r) = Some k) then rows_for s k rows ++ [r] else rows_for s k rows) as Erf.
  { unfold rows_for. rewrite filter_app. case_decide as Hd; [rewrite filter_cons_True by done|rewrite filter_cons_False by done]; rewrite filter_nil; [done|apply app_nil_r]. }
  rewrite Erf. assert (undisturbed l s k rows) as Hu'. { intros r' k' Hr'. apply Hu. apply elem_of_app. by left. } specialize (H k Hk Hu').
  pose proof (home_slot _ _ _ k (si_inv _ _ _ _ I)) as Hh.
  destruct (record_key (s_keys s) (row_data r)) as [k0|] eqn:Ek.
  2:{ rewrite decide_False by done. destruct HC as (-> & _). done. }
  destruct HC as (Hoth & HC).
  assert (∀ y, 0 ≤ y < l → key_at (st_map st') y = key_at (st_map st) y ∨ (is_key k0 ∧ upd_target l (st_map st) k0 = Some y ∧ key_at (st_map st') y = k0)) as Hkeys.
  { destruct HC as [(_ & -> & _)|[(_ & _ & -> & _)|[(_ & _ & _ & _ & -> & _)|(_ & Hk0 & _)]]]; [by left..|]. intros y Hy.
    unfold Store_Write, Row_KeyValue in Ht. rewrite KeyValue_spec, (si_coll _ _ _ _ I), (proj1 (compile_names s)), Ek in Ht. cbn [negb ctx_done] in Ht.
    destruct (Update (st_map st) k0 (transaction pf (Compile s) r)) as [m' res'] eqn:Eu. injection Ht as <- _. cbn [st_map].
    destruct (Update_key_at l _ _ _ _ _ _ (si_inv _ _ _ _ I) Hk0 (transaction_ok pf _ _) Eu y Hy) as [?|[? ?]]; [by left|right; done]. }
  case_decide as Hd.
  - injection Hd as ->. destruct HC as [(? & _)|[(_ & _ & _ & ?)|[(_ & _ & _ & _ & _ & ?)|(_ & _ & d & o & Ed & Ho & Eo & Er)]]]; [congruence..|]. injection Eo as <-. rewrite Er.
    split; [by destruct (rows_for s k rows)|].
    assert (key_at (st_map st) (home l k) = 0 ∨ key_at (st_map st) (home l k) = k) as Hhome. { destruct (record (st_map st) k); [destruct H as (_ & ? & _); auto|by destruct H]. }
    assert (key_at (st_map st') (home l k) = k) as Hk'.
    { destruct (Hkeys _ Hh) as [E|(_ & _ & E)]; [|exact E]. destruct Hhome as [E0|E0]; [|congruence]. exfalso. rewrite E0 in E.
      assert (key_at (st_map st') (home l k) ≠ 0) as Hne; [|congruence].
      unfold Store_Write, Row_KeyValue in Ht. rewrite KeyValue_spec, (si_coll _ _ _ _ I), (proj1 (compile_names s)), Ek in Ht. cbn [negb ctx_done] in Ht.
      destruct (Update (st_map st) k (transaction pf (Compile s) r)) as [m' res'] eqn:Eu. injection Ht as <- ->. cbn [st_map] in *.
      pose proof (Update_eq l _ _ k _ (si_inv _ _ _ _ I) Hk (transaction_ok pf (Compile s) r)) as HE. rewrite (home_target l _ _ k (si_inv _ _ _ _ I) Hk) in HE by auto.
      destruct HE as (sl & L & HE). destruct (sl_mu sl); [congruence|]. destruct (transaction pf (Compile s) r (bytes_at (st_map st) (home l k)) (first_flag l (st_map st) k)) as [d' o'] eqn:Etr.
      pose proof (fn_len _ _ _ _ _ (transaction_ok pf (Compile s) r) Etr) as Hd'. rewrite (bytes_at_len (si_inv _ _ _ _ I)) in Hd' by lia.
      assert (∀ sl', sl_key sl' = k → key_at (set_slot (st_map st) (home l k) sl' d') (home l k) ≠ 0) as G.
      { intros sl' Hsl. rewrite (key_at_set (si_inv _ _ _ _ I)) by lia. rewrite decide_True by done. unfold is_key in Hk. lia. }
      destruct o'; rewrite Eu in HE; injection HE as -> _; by apply G. }
    split; [exact Hk'|]. destruct (record (st_map st) k) as [d0|] eqn:E0; cbn [default] in Ed.
    + destruct H as (Hne & Hkh & Ha). destruct (rows_for s k rows) as [|r0 rs] eqn:Ers; [done|]. unfold record_after in *. cbn [app first_init] in *. rewrite map_app. cbn [map].
      rewrite app_comm_cons. eapply apply_rows_snoc; [exact Ha|]. unfold first_flag in Ed. rewrite Hkh, Z.eqb_refl in Ed. exact Ed.
    + destruct H as [-> _]. rewrite (first_flag_absent l _ _ _ (si_inv _ _ _ _ I) Hk E0) in Ed. unfold id in Ed. unfold record_after. cbn [app first_init map apply_rows]. unfold BufmapSpec.zeros in Ed. by rewrite Ed.
  - rewrite Hoth by (try done; congruence). assert (key_at (st_map st') (home l k) = key_at (st_map st) (home l k)) as ->; [|done].
    destruct (Hkeys _ Hh) as [?|(_ & Et & _)]; [done|]. exfalso. apply (Hu r k0); [apply elem_of_app; right; by left|done|congruence|]. by eapply target_probe; [exact (si_inv _ _ _ _ I)|].
Qed.
Lemma store_home_new l s st : schema_ok s → dims_ok l (c_size (Compile s)) → add_collation l s = Ok st → store_home l s st [].
Proof.
  intros H1 H2 H k Hk _. destruct (add_collation_inv pf _ _ _ H1 H2 H) as [I Hn]. rewrite Hn by done. split; [done|].
  pose proof (home_slot _ _ _ k (si_inv _ _ _ _ I)) as Hh. left. destruct (decide (key_at (st_map st) (home l k) = 0)) as [|Hne]; [done|]. exfalso.
  assert (is_key (key_at (st_map st) (home l k))) as Hk'.
  { unfold key_at in *. destruct (m_keys (st_map st) !! Z.to_nat (home l k)) as [sl|] eqn:L; [|done]. destruct (i_seq _ _ _ (si_inv _ _ _ _ I) _ _ L) as (? & ? & ?). unfold is_key. lia. }
  pose proof (record_present _ _ _ _ _ (si_inv _ _ _ _ I) Hne Hh eq_refl) as Hr. rewrite Hn in Hr by done. done.
Qed.
End stores.
