From Coq Require Import ZifyBool ZifyNat.
From Verif Require Import Base BaseProofs Float64 FnvModel FnvSpec FnvProofs HllModel CollationModel CollationSpec CollationProofs CollationTop CollationTop2
  BufmapModel BufmapSpec BufmapProofs BufmapTop QueryModel ServerModel ServerSpec ScanProofs ParseRowProofs ServerProofs.
Local Open Scope Z_scope.

Lemma compile_names s : c_keys (Compile s) = s_keys s ∧ c_name (Compile s) = s_name s.
Proof.
  unfold Compile. set (c0 := Coll (s_name s) (s_keys s) [] ∅ ∅ ∅ 0).
  assert (∀ rms (st : Collator * Z), c_keys (fold_left compile_row rms st).1 = c_keys st.1 ∧ c_name (fold_left compile_row rms st).1 = c_name st.1) as H1.
  { intros rms. induction rms as [|rm rms IH]; intros [c p]; cbn [fold_left]; [done|]. destruct (IH (compile_row (c, p) rm)) as [-> ->]. done. }
  assert (∀ f ms (st : Collator * Z * option (Z * Z)), c_keys (fold_left (compile_measure f) ms st).1.1 = c_keys st.1.1 ∧ c_name (fold_left (compile_measure f) ms st).1.1 = c_name st.1.1) as H2.
  { intros f ms. induction ms as [|m ms IH]; intros [[c p] st]; cbn [fold_left]; [done|]. destruct (IH (compile_measure f (c, p, st) m)) as [-> ->].
    unfold compile_measure. destruct (is_cont_input m), (is_disc_input m), (is_stat m); try destruct st as [[]|]; done. }
  assert (∀ l (st : Collator * Z), c_keys (fold_left compile_spec l st).1 = c_keys st.1 ∧ c_name (fold_left compile_spec l st).1 = c_name st.1) as H3.
  { intros l. induction l as [|ms l IH]; intros st; cbn [fold_left]; [done|]. destruct (IH (compile_spec st ms)) as [-> ->]. unfold compile_spec. apply (H2 _ _ (st, None)). }
  destruct (H3 (s_measures s) (fold_left compile_row (s_rows s) (c0, 0))) as [-> ->]. apply (H1 _ (c0, 0)).
Qed.

Definition row_ok (r : Row) : Prop := Forall (λ fv, is_bytes (fv_F fv) ∧ is_bytes (fv_V fv)) (row_data r).
Lemma value_of_bytes k fvs v : Forall (λ fv, is_bytes (fv_F fv) ∧ is_bytes (fv_V fv)) fvs → value_of k fvs = Some v → is_bytes k ∧ is_bytes v.
Proof. intros H. induction H as [|fv fvs [] H IH]; cbn; [done|]. case_decide; [|done]. intros [= <-]. subst. done. Qed.
Lemma record_key_range keys fvs k : Forall (λ fv, is_bytes (fv_F fv) ∧ is_bytes (fv_V fv)) fvs → record_key keys fvs = Some k → 0 ≤ k < 2^64.
Proof.
  intros HF. unfold record_key. destruct (key_text keys fvs) as [t|] eqn:E; [|done]. cbn. intros [= <-]. rewrite <- Sum64_spec. apply Sum64_range.
  revert t E. induction keys as [|kk keys IH]; intros t; cbn [key_text]; [intros [= <-]; constructor|].
  destruct (value_of kk fvs) as [v|] eqn:Ev; [|done]. destruct (key_text keys fvs) as [t'|]; [|done]. intros [= <-]. destruct (value_of_bytes _ _ _ HF Ev).
  apply Forall_app. split; [done|]. apply Forall_app. split; [done|]. by apply IH.
Qed.

Section stores.
Context (pf : bytes → option float).
Record store_inv (l : Z) (s : Schema) (st : Store) : Prop := {
  si_coll : st_coll st = Compile s;
  si_inv : BufmapProofs.inv l (c_size (Compile s)) (st_map st);
  si_wedge : ∀ k, is_key k → ¬ wedged (st_map st) k;
  si_good : ∀ k d, is_key k → record (st_map st) k = Some d → reachable pf s d }.

Lemma transaction_ok c r : fn_ok (transaction pf c r).
Proof. intros d i. apply Coll_Update_len. Qed.
Lemma row_values r : row_ok r → Forall (λ fv, is_bytes (fv_V fv)) (row_data r).
Proof. intros H. eapply Forall_impl; [exact H|]. by intros ? []. Qed.

(** everything about one write *)
Lemma Store_Write_cases l s st r cx st' cx' res : schema_ok s → store_inv l s st → row_ok r → Store_Write pf cx st r = (st', cx', res) →
  store_inv l s st' ∧ (∃ o, res = Ret o ∧ o ≠ Panic) ∧
  match record_key (s_keys s) (row_data r) with
  | None => st' = st ∧ cx' = cx ∧ res = Ret (Ok ())
  | Some k =>
      (∀ k', is_key k' → k' ≠ k → record (st_map st') k' = record (st_map st) k') ∧
      ((res = Ret (Err ErrCtx) ∧ st' = st ∧ cx = Some O) ∨
       (cx ≠ Some O ∧ k = 0 ∧ st' = st ∧ res = Ret (Err ErrInvalidKey)) ∨
       (cx ≠ Some O ∧ is_key k ∧ (∀ x, x ∈ probe_slots l k → key_at (st_map st) x ≠ k ∧ key_at (st_map st) x ≠ 0) ∧ record (st_map st) k = None ∧ st' = st ∧ res = Ret (Err ErrOutOfSlots)) ∨
       (cx ≠ Some O ∧ is_key k ∧ ∃ d o, Coll_Update pf (Compile s) r (default (zeros (c_size (Compile s))) (record (st_map st) k)) (first_flag l (st_map st) k) = (d, o) ∧
          o ≠ Panic ∧ res = Ret o ∧ record (st_map st') k = Some d))
  end.
Proof.
  intros Hs I Hr. unfold Store_Write, Row_KeyValue. rewrite KeyValue_spec. rewrite (si_coll _ _ _ I). rewrite (proj1 (compile_names s)).
  destruct (record_key (s_keys s) (row_data r)) as [k|] eqn:Ek; cbn [negb].
  2:{ intros [= <- <- <-]. split; [done|]. split; [by eexists|done]. }
  destruct (ctx_done cx) as [dn cx1] eqn:Ec. assert (dn = true ↔ cx = Some O) as Hdn. { destruct cx as [[|n]|]; injection Ec as <- <-; split; done. }
  destruct dn; [intros [= <- <- <-]; split; [done|]; split; [by eexists|]; split; [done|]; left; split; [done|]; split; [done|by apply Hdn]|].
  assert (cx ≠ Some O) as Hcx. { intros ->. by discriminate (proj2 Hdn eq_refl). } clear Hdn.
  destruct (Update (st_map st) k (transaction pf (Compile s) r)) as [m' res'] eqn:Eu. intros [= <- <- <-].
  pose proof (record_key_range _ _ _ Hr Ek) as Hk.
  destruct (decide (k = 0)) as [->|Hk0].
  { unfold Update in Eu. cbn in Eu. injection Eu as <- <-. assert (MkStore (st_map st) (Compile s) = st) as E by (destruct I as [Hc _ _ _]; destruct st as [m' c']; cbn in *; congruence). rewrite E.
    split; [done|]. split; [by eexists|]. split; [done|]. right. left. done. }
  assert (is_key k) as Hkey by (unfold is_key; lia).
  destruct (Update_full l _ _ k _ (si_inv _ _ _ I) Hkey (transaction_ok (Compile s) r)) as [(Hn & Hfull & E)|[(Hw & _)|(_ & _ & m2 & H)]].
  - rewrite Eu in E. injection E as -> ->. assert (MkStore (st_map st) (Compile s) = st) as E by (destruct I as [Hc _ _ _]; destruct st as [m' c']; cbn in *; congruence). rewrite E.
    split; [done|]. split; [by eexists|]. split; [done|]. right. right. left. done.
  - exfalso. by apply (si_wedge _ _ _ I) in Hw.
  - unfold transaction in H. set (d0 := default (zeros (c_size (Compile s))) (record (st_map st) k)) in *.
    assert (reachable pf s d0) as Hd0. { unfold d0. destruct (record (st_map st) k) as [d|] eqn:E; cbn; [by eapply si_good|]. apply CollationSpec.reach_new. }
    destruct (CollationTop2.never_panics pf s d0 r (first_flag l (st_map st) k) Hs Hd0 (row_values r Hr)) as (d & o & Ed & Ho & _).
    rewrite Ed in H. destruct H as (E & H1 & H2 & H3 & H4 & H5 & H6). fold (transaction pf (Compile s) r) in E. rewrite Eu in E. injection E as <- E.
    assert (res' = Ret o) as ->. { rewrite E. destruct o; done. }
    cbn [st_map]. split; [split; cbn [st_map st_coll]; [done|done| |]|split; [by eexists|split]].
    + intros k' Hk'. destruct (decide (k' = k)) as [->|Hne]; [by rewrite H4|]. destruct (H5 k' Hk' Hne) as [_ ->]. by apply (si_wedge _ _ _ I).
    + intros k' d' Hk' E'. destruct (decide (k' = k)) as [->|Hne].
      * rewrite H1 in E'. injection E' as <-. eapply reach_row; [exact Hd0|by apply row_values|exact Ed].
      * destruct (H5 k' Hk' Hne) as [E5 _]. rewrite E5 in E'. by eapply si_good.
    + intros k' Hk' Hne. by destruct (H5 k' Hk' Hne).
    + right. right. right. split; [done|]. split; [done|]. exists d, o. done.
Qed.
Lemma Store_Write_inv l s st r cx st' cx' res : schema_ok s → store_inv l s st → row_ok r → Store_Write pf cx st r = (st', cx', res) →
  store_inv l s st' ∧ ∃ o, res = Ret o ∧ o ≠ Panic.
Proof. intros Hs I Hr E. by destruct (Store_Write_cases _ _ _ _ _ _ _ _ Hs I Hr E) as (? & ? & _). Qed.

(** a new store *)
Lemma add_collation_inv l s st : schema_ok s → dims_ok l (c_size (Compile s)) → add_collation l s = Ok st → store_inv l s st ∧ ∀ k, is_key k → record (st_map st) k = None.
Proof.
  intros Hs Hd. unfold add_collation. destruct (BufmapModel.New l (c_size (Compile s))) as [m| |] eqn:E; [|done..]. cbn [obind]. intros [= <-].
  assert (∀ k, is_key k → record m k = None) as Hn by (intros k Hk; by eapply New_record).
  split; [split; cbn; [done| | |]|exact Hn].
  - by apply New_inv.
  - intros k Hk. by eapply New_not_wedged.
  - intros k d Hk Hrec. rewrite Hn in Hrec; done.
Qed.

(** ** histories of accepted rows *)
Definition rows_for (s : Schema) (k : Z) (rows : list Row) : list Row := filter (λ r, record_key (s_keys s) (row_data r) = Some k) rows.
Definition store_rows (s : Schema) (st : Store) (rows : list Row) : Prop := ∀ k, is_key k →
  match record (st_map st) k with
  | None => rows_for s k rows = []
  | Some d => rows_for s k rows ≠ [] ∧ ∃ inits, length inits = length (rows_for s k rows) ∧ head inits = Some true ∧
      apply_rows pf (Compile s) (zeros (c_size (Compile s))) (zip inits (rows_for s k rows)) = Ok d
  end.
Lemma apply_rows_snoc c rows : ∀ b b' r i b'', apply_rows pf c b rows = Ok b' → Coll_Update pf c r b' i = (b'', Ok ()) → apply_rows pf c b (rows ++ [(i, r)]) = Ok b''.
Proof.
  induction rows as [|[i0 r0] rows IH]; intros b b' r i b''; cbn [apply_rows app].
  - intros [= ->] ->. done.
  - destruct (Coll_Update pf c r0 b i0) as [b1 [[]| |]]; [|done..]. apply IH.
Qed.
Lemma store_takes_rows l s st r st' rows : schema_ok s → store_inv l s st → row_ok r → store_takes pf r st st' → store_rows s st rows → store_rows s st' (rows ++ [r]).
Proof.
  intros Hs I Hr Ht H k Hk. unfold store_takes in Ht. destruct (Store_Write_cases _ _ _ _ _ _ _ _ Hs I Hr Ht) as (_ & _ & HC).
  assert (rows_for s k (rows ++ [r]) = if decide (record_key (s_keys s) (row_data r) = Some k) then rows_for s k rows ++ [r] else rows_for s k rows) as Erf.
  { unfold rows_for. rewrite filter_app. case_decide as Hd; [rewrite filter_cons_True by done|rewrite filter_cons_False by done]; rewrite filter_nil; [done|apply app_nil_r]. }
  rewrite Erf. specialize (H k Hk). destruct (record_key (s_keys s) (row_data r)) as [k0|] eqn:Ek.
  - destruct HC as (Hoth & HC). case_decide as Hd.
    + injection Hd as ->. destruct HC as [(? & _)|[(_ & _ & _ & ?)|[(_ & _ & _ & _ & _ & ?)|(_ & _ & d & o & Ed & Ho & Eo & Er)]]]; [congruence..|]. injection Eo as <-. rewrite Er.
      split; [by destruct (rows_for s k rows)|]. destruct (record (st_map st) k) as [d0|] eqn:E0; cbn [default] in Ed.
      * destruct H as (Hne & inits & Hl & Hh & Ha). exists (inits ++ [first_flag l (st_map st) k]). split; [rewrite !app_length; cbn; lia|]. split; [by destruct inits|].
        rewrite zip_with_app by done. cbn [zip_with]. by eapply apply_rows_snoc.
      * rewrite H. exists [true]. split; [done|]. split; [done|]. rewrite (first_flag_absent l _ _ _ (si_inv _ _ _ I) Hk E0) in Ed. unfold id in Ed. cbn [app zip_with apply_rows]. by rewrite Ed.
    + rewrite Hoth by (try done; congruence). done.
  - rewrite decide_False by done. destruct HC as (-> & _). done.
Qed.
End stores.
