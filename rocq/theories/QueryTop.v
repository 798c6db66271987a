From Coq Require Import ZifyBool ZifyNat.
From Verif Require Import Base RegexpModel RegexpProofs Float64 CollationModel QueryModel QuerySpec QueryProofs.
Local Open Scope Z_scope.

Lemma kw_where_nonws w : kw_where w → Forall (λ c, ¬ is_ws c) w.
Proof.
  unfold kw_where. change (str "where") with [119;104;101;114;101]. intros E. apply Forall_forall. intros c Hc.
  apply ws_false, lower_letter_nonws. assert (lower c ∈ map lower w) as H by (apply elem_of_list_In, in_map, elem_of_list_In; done).
  rewrite E in H. unfold is_lower. rewrite !elem_of_cons, elem_of_nil in H. lia.
Qed.
Lemma nonws_skip x a c y t : Forall (λ c, ¬ is_ws c) x → is_ws c → x ++ t = a ++ c :: y → ∃ a', a = x ++ a' ∧ t = a' ++ c :: y.
Proof. intros Hx Hc E. apply later_char; [|done]. intros H. rewrite Forall_forall in Hx. by apply (Hx c). Qed.
Lemma hw_nonws x t : Forall (λ c, ¬ is_ws c) x → has_where (x ++ t) → has_where t.
Proof. intros Hx (a & c1 & w & c2 & b & E & H1 & H2 & H3). apply nonws_skip in E as (a' & -> & ->); [|done..]. exists a', c1, w, c2, b. done. Qed.
Definition starts_where (t : bytes) : Prop := ∃ w c r, t = w ++ c :: r ∧ kw_where w ∧ is_ws c.
Lemma hw_ws x t : Forall is_ws x → has_where (x ++ t) → has_where t ∨ starts_where t.
Proof.
  induction 1 as [|d x Hd Hx IH]; [auto|]. intros (a & c1 & w & c2 & b & E & H1 & H2 & H3). cbn in E. destruct a as [|d' a]; cbn in E; injection E as -> E.
  - destruct Hx as [|d' x Hd' Hx].
    + right. exists w, c2, b. done.
    + exfalso. pose proof (kw_where_nonws w H2) as Hw. destruct w as [|c w]; [done|]. cbn in E. injection E as -> E. inversion_clear Hw. done.
  - apply IH. exists a, c1, w, c2, b. done.
Qed.
Lemma where_no_eq w : kw_where w → 61 ∉ w ∧ 39 ∉ w ∧ w ≠ [].
Proof.
  unfold kw_where. change (str "where") with [119;104;101;114;101]. intros E. split; [|split].
  - eapply lower_no_eq; [exact E|]. rewrite !not_elem_of_cons. repeat split; try done. apply not_elem_of_nil.
  - intros H. assert (39 ∈ map lower w) as Hin. { change 39 with (lower 39). apply elem_of_list_In, in_map, elem_of_list_In. done. }
    rewrite E in Hin. rewrite !elem_of_cons, elem_of_nil in Hin. lia.
  - by destruct w.
Qed.
Lemma crit_starts l b : crit_text l b → Forall (λ p, key_ok p.1 ∧ value_ok p.2) l → ∃ k r, b = k ++ 61 :: r ∧ key_ok k.
Proof.
  intros H HF. assert (∃ p s, b = crit_item p ++ s ∧ key_ok p.1) as (p & s & -> & Hk).
  - destruct H as [p|p t l s Ht Hl Hs].
    + exists p, []. rewrite app_nil_r. split; [done|]. by apply Forall_inv in HF as [? _].
    + exists p, (t ++ s). split; [done|]. by apply Forall_inv in HF as [? _].
  - exists p.1. eexists. split; [|exact Hk]. unfold crit_item. change (str "='") with [61;39]. rewrite <- !app_assoc. reflexivity.
Qed.
Lemma crit_not_where l b t : crit_text l b → Forall (λ p, key_ok p.1 ∧ value_ok p.2) l → ¬ starts_where (b ++ t).
Proof.
  intros H HF (w & c & r & E & Hw & Hc). destruct (crit_starts l b H HF) as (k & r' & -> & [Nk Hk]). destruct (where_no_eq w Hw) as (W1 & _ & _).
  rewrite <- app_assoc in E. apply nonws_skip in E as (a' & -> & E); [| |done].
  - destruct a' as [|d a']; cbn in E; injection E as <- E; [unfold is_ws in Hc; rewrite !elem_of_cons, elem_of_nil in Hc; lia|]. apply W1, elem_of_app. right. left.
  - eapply Forall_impl; [exact Hk|]. by intros ? [? _].
Qed.
Lemma crit_last l b : crit_text l b → last b = Some 39.
Proof.
  induction 1 as [p|p t l s _ _ _ IH].
  - unfold crit_item. change (str "'") with [39]. rewrite !app_assoc. apply last_snoc.
  - rewrite !app_assoc. rewrite last_app, IH. done.
Qed.
Lemma hw_trailing b t : last b = Some 39 → Forall is_ws t → has_where (b ++ t) → has_where b.
Proof.
  intros Hl Ht (a & c1 & w & c2 & r & E & H1 & H2 & H3). destruct (where_no_eq w H2) as (_ & W2 & W3).
  assert (last (a ++ c1 :: w) = last w) as Hlw. { rewrite last_app. destruct w as [|c w] using rev_ind; [done|]. rewrite app_comm_cons, !last_snoc. done. }
  change (a ++ c1 :: w ++ c2 :: r) with (a ++ (c1 :: w) ++ c2 :: r) in E. rewrite app_assoc in E.
  destruct (decide (length b ≤ length (a ++ c1 :: w))%nat) as [Hle|Hle].
  - exfalso. apply app_split_le in E as (u & Eb & ->); [|done]. apply Forall_app in Ht as [Hu _]. rewrite Eb in Hlw. rewrite last_app in Hlw.
    destruct (last u) as [x|] eqn:Lu.
    + symmetry in Hlw. apply last_Some in Hlw as (w' & ->). apply last_Some in Lu as (u' & ->). apply Forall_app in Hu as [_ Hu]. inversion_clear Hu.
      apply kw_where_nonws in H2. apply Forall_app in H2 as [_ H2]. by inversion_clear H2.
    + rewrite Hl in Hlw. symmetry in Hlw. apply last_Some in Hlw as (w' & ->). apply W2, elem_of_app. right. left.
  - symmetry in E. apply app_split_le in E as (u & -> & E); [|lia]. destruct u as [|d u]; [rewrite app_nil_r in Hle; lia|]. cbn in E. injection E as <- _.
    exists a, c1, w, c2, u. rewrite <- app_assoc. done.
Qed.

Lemma sel_first ps a : sel_text ps a → Forall (λ p, name_ok p.1 ∧ name_ok p.2) ps → a ≠ [] ∧ stops ws a ∧ 10 ∉ a.
Proof.
  assert (Hit : ∀ p, name_ok p.1 → name_ok p.2 → sel_item p ≠ [] ∧ stops ws (sel_item p) ∧ 10 ∉ sel_item p).
  { intros [m f] [Nm Hm] [Nf Hf]. unfold sel_item. cbn [fst snd] in *. destruct m as [|c m]; [done|]. split; [done|]. split.
    - right. eexists c, _. split; [done|]. inversion_clear Hm. apply ws_false. tauto.
    - assert (∀ n, Forall (λ c : Z, ¬ is_ws c ∧ c ≠ 44 ∧ c ≠ 40 ∧ c ≠ 41) n → 10 ∉ n) as G.
      { intros n Hn Hin. rewrite Forall_forall in Hn. apply Hn in Hin as [Hin _]. apply Hin. unfold is_ws. rewrite !elem_of_cons. lia. }
      rewrite !not_elem_of_app. split; [by apply G|]. split; [rewrite not_elem_of_cons; split; [lia|apply not_elem_of_nil]|]. split; [by apply G|]. rewrite not_elem_of_cons. split; [lia|apply not_elem_of_nil]. }
  induction 1 as [p|p t l s [Nt Ht] Hs IH]; intros HF; inversion_clear HF as [|? ? [H1 H2] HF']; destruct (Hit p H1 H2) as (A1 & A2 & A3); [done|].
  destruct (IH HF') as (B1 & B2 & B3). split; [by destruct (sel_item p)|]. split.
  - destruct A2 as [?|(d & t' & -> & Hd)]; [done|]. right. eexists d, _. done.
  - rewrite !not_elem_of_app. split; [done|]. split; [|done]. intros Hin. rewrite Forall_forall in Ht. apply Ht in Hin as [Hin|Hin]; [|done]. by apply blank_ws in Hin as [_ ?].
Qed.
Lemma crit_first qs b : crit_text qs b → Forall (λ p, key_ok p.1 ∧ value_ok p.2) qs → b ≠ [] ∧ stops ws b ∧ 10 ∉ b.
Proof.
  intros H HF. destruct (crit_starts qs b H HF) as (k & r & E & [Nk Hk]). split; [by intros ->; destruct k|]. split.
  { rewrite E. destruct k as [|c k]; [done|]. right. eexists c, _. split; [done|]. inversion_clear Hk. apply ws_false. tauto. }
  clear k r E Nk Hk.
  assert (Hit : ∀ p, key_ok p.1 → value_ok p.2 → 10 ∉ crit_item p).
  { intros [k v] [Nk Hk] [Nv Hv]. unfold crit_item. cbn [fst snd] in *. rewrite Forall_forall in Hk, Hv. rewrite !not_elem_of_app. split; [|split; [|split]].
    - intros Hin. apply Hk in Hin as [Hin _]. apply Hin. unfold is_ws. rewrite !elem_of_cons. lia.
    - change (str "='") with [61;39]. rewrite !not_elem_of_cons. repeat split; try lia. apply not_elem_of_nil.
    - intros Hin. apply Hv in Hin. lia.
    - change (str "'") with [39]. rewrite not_elem_of_cons. split; [lia|apply not_elem_of_nil]. }
  induction H as [p|p t l s (b1 & w & b2 & -> & _ & B1 & Ew & _ & B2) _ Hs IH]; inversion_clear HF as [|? ? [H1 H2] HF']; [by apply Hit|].
  assert (∀ n, Forall is_blank n → 10 ∉ n) as G. { intros n Hn Hin. rewrite Forall_forall in Hn. by apply Hn, blank_ws in Hin as [_ ?]. }
  rewrite !not_elem_of_app. split; [by apply Hit|]. split; [|by apply IH]. split; [by apply G|]. split; [|by apply G].
  intros Hin. assert (10 ∈ map lower w) as H. { change 10 with (lower 10). apply elem_of_list_In, in_map, elem_of_list_In. done. }
  rewrite Ew in H. change (str "and") with [97;110;100] in H. rewrite !elem_of_cons, elem_of_nil in H. lia.
Qed.

Lemma split_newline w : Forall is_ws w → ∃ a b, w = a ++ b ∧ Forall is_blank a ∧ Forall is_ws b ∧ stops dot b.
Proof.
  induction 1 as [|d w Hd Hw (a & b & -> & Ha & Hb & Hs)]; [exists [], []; split; [done|]; split; [constructor|]; split; [constructor|by left]|].
  destruct (decide (d = 10)) as [->|Hne].
  - exists [], (10 :: a ++ b). split; [done|]. split; [constructor|]. split; [by constructor|]. right. eexists 10, _. done.
  - exists (d :: a), b. split; [done|]. split; [|done]. constructor; [|done]. unfold is_ws, is_blank in *. rewrite !elem_of_cons, elem_of_nil in *. lia.
Qed.

Lemma parse_wf order ps qs s : query_text ps qs s → RoughParse order s = Ok (MkQuery (order (grouped ps)) (criteria qs)).
Proof.
  intros (w0 & sel & w1 & a & w2 & wh & w3 & b & w4 & -> & W0 & Hsel & (Nw1 & W1) & (Ha & Hps) & (Nw2 & W2) & Hwh & (Nw3 & W3) & (Hb & Hqs & Hno) & W4).
  destruct (exists_last Nw2) as (u & d & ->). apply Forall_app in W2 as [U D]. inversion_clear D.
  destruct (sel_first ps a Ha Hps) as (A1 & A2 & A3). destruct (crit_first qs b Hb Hqs) as (B1 & B2 & B3).
  destruct (split_newline w4 W4) as (w4a & w4b & -> & W4a & W4b & S4). unfold RoughParse.
  rewrite query_groups; try done.
  - rewrite (find_all_select ps) by done. rewrite (find_all_where qs) by done. rewrite fold_grouped. do 2 f_equal. unfold criteria. rewrite map_map. done.
  - intros Hw. apply hw_nonws in Hw; [|by apply kw_where_nonws]. apply hw_ws in Hw as [Hw|Hw]; [|by apply (crit_not_where qs b _ Hb Hqs) in Hw|done].
    apply hw_trailing in Hw; [done|by apply (crit_last qs)|done].
Qed.

(** criteria whose values contain no whitespace never contain the word where *)
Lemma no_where_simple qs b : crit_text qs b → Forall (λ p, key_ok p.1 ∧ value_ok p.2) qs → Forall (λ p, Forall (λ c, ¬ is_ws c) p.2) qs → ¬ has_where b.
Proof.
  assert (Hit : ∀ p, key_ok p.1 → Forall (λ c, ¬ is_ws c) p.2 → Forall (λ c, ¬ is_ws c) (crit_item p)).
  { intros [k v] [_ Hk] Hv. unfold crit_item. cbn [fst snd] in *. rewrite !Forall_app. split; [eapply Forall_impl; [exact Hk|]; by intros ? [? _]|].
    split; [|split; [done|]].
    - change (str "='") with [61;39]. rewrite !Forall_cons. split; [by apply ws_false|]. split; [by apply ws_false|]. by apply Forall_nil.
    - change (str "'") with [39]. rewrite !Forall_cons. split; [by apply ws_false|]. by apply Forall_nil. }
  intros H HF HV. induction H as [p|p t l s (b1 & w & b2 & -> & _ & B1 & Ew & Nb2 & B2) _ Hs IH].
  - inversion_clear HF as [|? ? [H1 H2] _]. inversion_clear HV. rewrite <- (app_nil_r (crit_item p)). intros Hw. apply hw_nonws in Hw; [|by apply Hit].
    destruct Hw as (x & ? & ? & ? & ? & E & _). by destruct x.
  - inversion_clear HF as [|? ? [H1 H2] HF']. inversion_clear HV as [|? ? H3 HV']. rewrite <- !app_assoc. intros Hw. apply hw_nonws in Hw; [|by apply Hit].
    assert (Forall (λ c, ¬ is_ws c) w) as Ww.
    { change (str "and") with [97;110;100] in Ew. apply Forall_forall. intros c Hc.
      apply ws_false, lower_letter_nonws. assert (lower c ∈ map lower w) as H by (apply elem_of_list_In, in_map, elem_of_list_In; done).
      rewrite Ew in H. unfold is_lower. rewrite !elem_of_cons, elem_of_nil in H. lia. }
    assert (∀ n, Forall is_blank n → Forall is_ws n) as G. { intros n Hn. eapply Forall_impl; [exact Hn|]. intros c Hc. by apply blank_ws. }
    apply hw_ws in Hw as [Hw|Hw]; [| |by apply G].
    + apply hw_nonws in Hw; [|done]. apply hw_ws in Hw as [Hw|Hw]; [by apply IH| |by apply G]. rewrite <- (app_nil_r s) in Hw. by apply (crit_not_where l s [] Hs HF') in Hw.
    + destruct Hw as (w' & c & r & E & Hw' & Hc). apply nonws_skip in E as (a' & -> & E); [|done..]. destruct a' as [|d a'].
      * rewrite app_nil_r in Hw'. unfold kw_where in Hw'. rewrite Ew in Hw'. vm_compute in Hw'. discriminate Hw'.
      * destruct b2 as [|d' b2]; [done|]. cbn in E. injection E as -> E. apply kw_where_nonws in Hw'. apply Forall_app in Hw' as [_ Hw']. inversion_clear Hw' as [|? ? Hd _]. inversion_clear B2. apply Hd. by apply blank_ws.
Qed.
