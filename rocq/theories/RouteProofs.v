(** The paths cleanPath leaves alone. *)
From Verif Require Import Base BaseProofs ServerModel ServerSpec ParseRowProofs ServerTop RouteSpec.
From Coq Require Import ZifyBool ZifyNat.

Lemma join_concat (l : list bytes) : mjoin l = concat l.
Proof. induction l as [|x l IH]; [done|]. cbn. by rewrite <- IH. Qed.
Lemma split_on_ne c l : split_on c l ≠ [].
Proof. destruct l as [|b l]; [done|]. cbn [split_on]. destruct (split_on c l); [done|]. by destruct (b =? c). Qed.
Lemma split_no_slash l w : w ∈ split_on 47 l → 47 ∉ w.
Proof.
  revert w. induction l as [|b l IH]; intros w; cbn [split_on].
  - intros ->%elem_of_list_singleton. apply not_elem_of_nil.
  - destruct (split_on 47 l) as [|v vs] eqn:E; [intros ->%elem_of_list_singleton; exfalso; by apply (split_on_ne 47 l)|].
    destruct (Z.eqb_spec b 47) as [->|Hb].
    + intros [->|Hw]%elem_of_cons; [apply not_elem_of_nil|by apply IH].
    + intros [->|Hw]%elem_of_cons; [|apply IH; by right]. apply not_elem_of_cons. split; [done|]. apply IH. left.
Qed.
Lemma clean_stack ws st : Forall (λ w, 47 ∉ w) ws → Forall plain_name st → Forall plain_name (fold_left clean_step ws st).
Proof.
  revert st. induction ws as [|w ws IH]; intros st Hw Hs; [done|]. apply Forall_cons in Hw as [H1 H2]. cbn [fold_left]. apply IH; [done|].
  unfold clean_step. destruct (decide _) as [|Hn]; [done|]. destruct (decide _); [destruct st; [done|]; by apply Forall_cons in Hs as [_ ?]|]. constructor; [|done]. repeat split; tauto.
Qed.
Lemma path_clean_form p : path_clean p = str "/" ∨ ∃ ws, ws ≠ [] ∧ Forall plain_name ws ∧ path_clean p = path_of ws.
Proof.
  unfold path_clean. set (ws := rev _). assert (Forall plain_name ws) as H.
  { apply Forall_rev, clean_stack; [|constructor]. apply Forall_forall. apply split_no_slash. }
  destruct ws as [|w ws]; [by left|]. right. exists (w :: ws). split; [done|]. split; [done|]. apply join_concat.
Qed.
Lemma clean_path_clean p : is_clean (clean_path p).
Proof.
  destruct p as [|c p]; [by left|]. unfold clean_path. set (p' := if c =? 47 then c :: p else 47 :: c :: p).
  destruct (path_clean_form p') as [->|(ws & H1 & H2 & ->)].
  - rewrite (bool_decide_eq_false_2 (str "/" ≠ str "/")) by (intros H; by apply H). rewrite andb_false_r. by left.
  - right. exists ws. destruct (_ && _); auto.
Qed.
(** ... and cleaning a clean path changes nothing *)
Lemma path_of_cons w ws : path_of (w :: ws) = 47 :: w ++ path_of ws.
Proof. done. Qed.
Lemma path_of_head ws : ws ≠ [] → ∃ r, path_of ws = 47 :: r.
Proof. destruct ws as [|w ws]; [done|]. intros _. rewrite path_of_cons. eauto. Qed.
Lemma split_path w ws tl : tl = [] ∨ tl = str "/" → Forall plain_name (w :: ws) →
  split_on 47 (w ++ path_of ws ++ tl) = (w :: ws) ++ (match tl with [] => [] | _ => [[]] end).
Proof.
  intros Ht H. revert w H. induction ws as [|v ws IH]; intros w H.
  - apply Forall_cons in H as [(_ & Hw & _) _]. cbn [path_of map concat app]. destruct Ht as [->| ->].
    + rewrite app_nil_r, split_on_none by done. done.
    + change (str "/") with (47 :: @nil Z). rewrite split_on_app by done. done.
  - apply Forall_cons in H as [(_ & Hw & _) H]. rewrite path_of_cons. change ((47 :: v ++ path_of ws) ++ tl) with (47 :: (v ++ path_of ws) ++ tl).
    rewrite split_on_app by done. rewrite <- app_assoc, IH by done. done.
Qed.
Lemma fold_plain ws st : Forall plain_name ws → fold_left clean_step ws st = rev ws ++ st.
Proof.
  revert st. induction ws as [|w ws IH]; intros st H; [done|]. apply Forall_cons in H as [(H1 & H2 & H3 & H4) H]. cbn [fold_left rev]. rewrite IH by done.
  unfold clean_step. rewrite decide_False by tauto. rewrite decide_False by done. by rewrite <- app_assoc.
Qed.
Lemma path_clean_id ws tl : tl = [] ∨ tl = str "/" → ws ≠ [] → Forall plain_name ws → path_clean (path_of ws ++ tl) = path_of ws.
Proof.
  intros Ht Hne H. destruct ws as [|w ws]; [done|]. rewrite path_of_cons. unfold path_clean.
  change ((47 :: w ++ path_of ws) ++ tl) with ([] ++ 47 :: (w ++ path_of ws) ++ tl). rewrite split_on_app by apply not_elem_of_nil.
  rewrite <- app_assoc, split_path by done. cbn [fold_left]. rewrite fold_left_app, (fold_plain (w :: ws)) by done.
  assert (∀ st, fold_left clean_step match tl with [] => [] | _ => [[]] end st = st) as Hx.
  { intros st. destruct tl; [done|]. cbn [fold_left]. unfold clean_step. by rewrite decide_True by auto. }
  rewrite Hx. change (clean_step [] []) with (@nil bytes). rewrite app_nil_r, rev_involutive. rewrite join_concat. done.
Qed.
Lemma last_path w ws : Forall plain_name (w :: ws) → last (path_of (w :: ws)) ≠ Some 47.
Proof.
  revert w. induction ws as [|v ws IH]; intros w H.
  - apply Forall_cons in H as [(Hne & Hw & _) _]. rewrite path_of_cons. cbn [path_of map concat]. rewrite app_nil_r. change (47 :: w) with ([47] ++ w). rewrite last_app.
    destruct (last w) as [z|] eqn:El; [|by apply last_None in El]. intros [= ->]. apply Hw. by apply last_Some_elem_of in El.
  - apply Forall_cons in H as [_ H]. rewrite path_of_cons. change (47 :: w ++ path_of (v :: ws)) with ((47 :: w) ++ path_of (v :: ws)). rewrite last_app.
    specialize (IH v H). destruct (last (path_of (v :: ws))) as [z|] eqn:El; [done|]. apply last_None in El. rewrite path_of_cons in El. done.
Qed.
Lemma clean_path_id p : is_clean p → clean_path p = p.
Proof.
  intros [->|(ws & Hne & H & Hp)]; [reflexivity|]. destruct ws as [|w ws]; [done|].
  assert (∃ tl, (tl = [] ∨ tl = str "/") ∧ p = path_of (w :: ws) ++ tl) as (tl & Ht & ->).
  { destruct Hp as [->| ->]; [exists []; rewrite app_nil_r|exists (str "/")]; auto. }
  clear Hp. rewrite path_of_cons. unfold clean_path. change ((47 :: w ++ path_of ws) ++ tl) with (47 :: (w ++ path_of ws) ++ tl). cbn iota. rewrite Z.eqb_refl.
  change (47 :: (w ++ path_of ws) ++ tl) with (path_of (w :: ws) ++ tl). rewrite path_clean_id by done. rewrite last_app.
  rewrite (bool_decide_eq_true_2 (path_of (w :: ws) ≠ str "/")).
  2:{ apply Forall_cons in H as [(Hw & _) _]. rewrite path_of_cons. destruct w; [done|]. intros E. apply (f_equal length) in E. cbn in E. lia. }
  rewrite andb_true_r. destruct Ht as [->| ->].
  - cbn [last]. rewrite bool_decide_eq_false_2 by (by apply last_path). by rewrite app_nil_r.
  - change (last (str "/")) with (Some 47). by rewrite bool_decide_eq_true_2.
Qed.
Lemma strip_prefix_Some pre l r : strip_prefix pre l = Some r ↔ l = pre ++ r.
Proof.
  revert l. induction pre as [|a pre IH]; intros l; cbn [strip_prefix app]; [by split; [intros [= ->]|intros ->]|].
  destruct l as [|b l]; [done|]. destruct (Z.eqb_spec a b) as [->|Hn]; [rewrite IH; split; [by intros ->|by intros [= ->]]|]. split; [done|]. intros [= ->]; done.
Qed.
