From Coq Require Import ZifyBool ZifyNat.
From Verif Require Import Base RegexpModel RegexpProofs Float64 CollationModel QueryModel QuerySpec.
Local Open Scope Z_scope.

(** ** characters *)
Lemma ws_spec c : ws c = true ↔ is_ws c.
Proof. unfold ws, is_ws. rewrite !elem_of_cons, elem_of_nil. lia. Qed.
Lemma ws_false c : ws c = false ↔ ¬ is_ws c.
Proof. rewrite <- ws_spec. destruct (ws c); split; congruence. Qed.
Lemma forallb_ws w : forallb ws w = true ↔ Forall is_ws w.
Proof.
  rewrite forallb_forall, Forall_forall. split; intros H c Hc.
  - apply ws_spec, H. by apply elem_of_list_In.
  - apply ws_spec, H. by apply elem_of_list_In.
Qed.
Lemma forallb_dot w : forallb dot w = true ↔ 10 ∉ w.
Proof.
  rewrite forallb_forall. unfold dot. split.
  - intros H Hin. apply elem_of_list_In in Hin. specialize (H _ Hin). cbn in H. done.
  - intros H c Hc. apply elem_of_list_In in Hc. destruct (Z.eqb_spec c 10) as [->|]; done.
Qed.
Lemma blank_ws c : is_blank c → is_ws c ∧ c ≠ 10.
Proof. unfold is_blank, is_ws. rewrite !elem_of_cons, elem_of_nil. lia. Qed.
Lemma letter_i_lower d c : 97 ≤ d ≤ 122 → letter_i d c = true ↔ lower c = d.
Proof. unfold letter_i, lower. intros. destruct (65 <=? c) eqn:E1, (c <=? 90) eqn:E2; cbn; lia. Qed.
Definition is_lower (d : Z) : Prop := 97 ≤ d ≤ 122.

Lemma in_lit_i w k s c t : Forall is_lower w → (c, t) ∈ matches (lit_i w k) s ↔ ∃ u s', s = u ++ s' ∧ map lower u = w ∧ (c, t) ∈ matches k s'.
Proof.
  intros Hw. revert s. induction Hw as [|d w Hd Hw IH]; intros s; cbn [lit_i].
  - split; [intros H; exists [], s; done|]. intros (u & s' & -> & E & H). by destruct u.
  - rewrite in_cat. split.
    + intros (c1 & s1 & c2 & H1 & H2 & ->). apply in_cls in H1 as (-> & d' & -> & Hd'). apply IH in H2 as (u & s' & -> & E & H2).
      exists (d' :: u), s'. split; [done|]. split; [|done]. cbn. f_equal; [|done]. by apply letter_i_lower.
    + intros (u & s' & -> & E & H). destruct u as [|d' u]; [done|]. cbn in E. injection E as E1 E2. exists [], (u ++ s'), c. split; [|split; [|done]].
      * apply in_cls. split; [done|]. exists d'. split; [done|]. apply letter_i_lower; done.
      * apply IH. eauto.
Qed.
Lemma best_lit_i w k u s : Forall is_lower w → map lower u = w → best (lit_i w k) (u ++ s) = best k s.
Proof.
  intros Hw. revert u. induction Hw as [|d w Hd Hw IH]; intros u E; cbn [lit_i]; [by destruct u|].
  destruct u as [|d' u]; [done|]. cbn in E. injection E as E1 E2. cbn [app]. rewrite best_cat_cls by (apply letter_i_lower; done). by apply IH.
Qed.
Lemma low_elect : Forall is_lower (str "elect").
Proof. change (str "elect") with [101;108;101;99;116]. rewrite !Forall_cons, Forall_nil. unfold is_lower. lia. Qed.
Lemma low_where : Forall is_lower (str "where").
Proof. change (str "where") with [119;104;101;114;101]. rewrite !Forall_cons, Forall_nil. unfold is_lower. lia. Qed.

(** ** C58 *)
Lemma in_letter_s s c t : (c, t) ∈ matches letter_s s ↔ c = [] ∧ ((∃ d, s = d :: t ∧ lower d = 115) ∨ s = 197 :: 191 :: t).
Proof.
  unfold letter_s. rewrite in_alt, in_cls, in_cat. split.
  - intros [(-> & d & -> & H)|(c1 & s1 & c2 & H1 & H2 & ->)].
    + split; [done|]. left. exists d. split; [done|]. apply letter_i_lower in H; [done|lia].
    + apply in_cls in H1 as (-> & d & -> & H1), H2 as (-> & d' & -> & H2). unfold is_chr in *. split; [done|]. right. f_equal; [lia|]. f_equal; lia.
  - intros (-> & [(d & -> & H)| ->]).
    + left. split; [done|]. exists d. split; [done|]. apply letter_i_lower; [lia|done].
    + right. exists [], (191 :: t), []. rewrite !in_cls. split; [split; [done|]; by exists 197|]. split; [|done]. split; [done|]. by exists 191.
Qed.

Lemma in_query s c t : (c, t) ∈ matches queryRe s ↔ t = [] ∧
  ∃ w0 sel w1 a w2 whr w3 b w4, c = [a; b] ∧ s = w0 ++ sel ++ w1 ++ a ++ w2 ++ whr ++ w3 ++ b ++ w4 ∧
    Forall is_ws w0 ∧ kw_select sel ∧ (w1 ≠ [] ∧ Forall is_ws w1) ∧ (a ≠ [] ∧ 10 ∉ a) ∧
    (w2 ≠ [] ∧ Forall is_ws w2) ∧ kw_where whr ∧ (w3 ≠ [] ∧ Forall is_ws w3) ∧ (b ≠ [] ∧ 10 ∉ b) ∧ Forall is_ws w4.
Proof.
  unfold queryRe. split.
  - intros (? & ? & c0 & H & H0 & ->)%in_cat. apply in_star in H as (-> & w0 & -> & W0). apply forallb_ws in W0.
    apply in_cat in H0 as (? & ? & c1 & H & H0 & ->). apply in_letter_s in H as (-> & HS).
    apply in_lit_i in H0 as (el & ? & -> & Eel & H0); [|exact low_elect].
    apply in_cat in H0 as (? & ? & c2 & H & H0 & ->). apply in_plus in H as (-> & w1 & -> & Nw1 & W1). apply forallb_ws in W1.
    apply in_cat in H0 as (? & ? & c3 & H & H0 & ->). apply in_grp_plus in H as (a & -> & -> & Na & A). apply forallb_dot in A.
    apply in_cat in H0 as (? & ? & c4 & H & H0 & ->). apply in_plus in H as (-> & w2 & -> & Nw2 & W2). apply forallb_ws in W2.
    apply in_lit_i in H0 as (wh & ? & -> & Ewh & H0); [|exact low_where].
    apply in_cat in H0 as (? & ? & c5 & H & H0 & ->). apply in_plus in H as (-> & w3 & -> & Nw3 & W3). apply forallb_ws in W3.
    apply in_cat in H0 as (? & ? & c6 & H & H0 & ->). apply in_grp_plus in H as (b & -> & -> & Nb & B). apply forallb_dot in B.
    apply in_cat in H0 as (? & ? & c7 & H & H0 & ->). apply in_star in H as (-> & w4 & -> & W4). apply forallb_ws in W4.
    apply in_end in H0 as (-> & -> & ->). split; [done|].
    destruct HS as [(d & -> & Hd)| ->].
    + exists w0, (d :: el), w1, a, w2, wh, w3, b, w4. rewrite !app_nil_r. split; [done|]. split; [done|]. split; [done|].
      split; [left; cbn [map]; by rewrite Hd, Eel|]. done.
    + exists w0, (197 :: 191 :: el), w1, a, w2, wh, w3, b, w4. rewrite !app_nil_r. split; [done|]. split; [done|]. split; [done|].
      split; [right; by exists el|]. done.
  - intros (-> & w0 & sel & w1 & a & w2 & wh & w3 & b & w4 & -> & -> & W0 & S & (Nw1 & W1) & (Na & A) & (Nw2 & W2) & Ewh & (Nw3 & W3) & (Nb & B) & W4).
    apply in_cat. eexists [], _, _. split; [apply in_star; split; [done|]; exists w0; split; [done|by apply forallb_ws]|]. split; [|done].
    assert (∃ se el, sel = se ++ el ∧ map lower el = str "elect" ∧ ∀ t, ([], t) ∈ matches letter_s (se ++ t)) as (se & el & -> & Eel & Hse).
    { destruct S as [S|(w' & -> & S)].
      - destruct sel as [|d sel]; [done|]. cbn [map] in S. injection S as S1 S2. exists [d], sel. split; [done|]. split; [done|]. intros t'. apply in_letter_s. split; [done|]. left. by exists d.
      - exists [197;191], w'. split; [done|]. split; [done|]. intros t'. apply in_letter_s. split; [done|]. by right. }
    rewrite <- app_assoc. apply in_cat. eexists [], _, _. split; [apply Hse|]. split; [|done].
    apply in_lit_i; [exact low_elect|]. eexists _, _. split; [done|]. split; [done|].
    apply in_cat. eexists [], _, _. split; [apply in_plus; split; [done|]; exists w1; split; [done|]; split; [done|by apply forallb_ws]|]. split; [|done].
    apply in_cat. eexists [a], _, _. split; [apply in_grp_plus; exists a; split; [done|]; split; [done|]; split; [done|by apply forallb_dot]|]. split; [|done].
    apply in_cat. eexists [], _, _. split; [apply in_plus; split; [done|]; exists w2; split; [done|]; split; [done|by apply forallb_ws]|]. split; [|done].
    apply in_lit_i; [exact low_where|]. eexists _, _. split; [done|]. split; [done|].
    apply in_cat. eexists [], _, _. split; [apply in_plus; split; [done|]; exists w3; split; [done|]; split; [done|by apply forallb_ws]|]. split; [|done].
    apply in_cat. eexists [b], _, _. split; [apply in_grp_plus; exists b; split; [done|]; split; [done|]; split; [done|by apply forallb_dot]|]. split; [|done].
    apply in_cat. eexists [], _, _. split; [apply in_star; split; [done|]; exists w4; split; [symmetry; apply app_nil_r|by apply forallb_ws]|]. split; [|done].
    by apply in_end.
Qed.

Lemma parse_total order s : (∃ q, RoughParse order s = Ok q) ∨ RoughParse order s = Err ErrSyntax.
Proof. unfold RoughParse. destruct (find_anchored queryRe s) as [[|? [|? [|]]]|]; eauto. Qed.
Lemma parse_fails order s : RoughParse order s = Err ErrSyntax ↔ ¬ query_form s.
Proof.
  unfold RoughParse, find_anchored. destruct (matches queryRe s) as [|[c t] l] eqn:E.
  - split; [intros _|done]. intros (w0 & sel & w1 & a & w2 & wh & w3 & b & w4 & H).
    assert (([a;b], []) ∈ matches queryRe s) as Hin. { apply in_query. split; [done|]. exists w0, sel, w1, a, w2, wh, w3, b, w4. done. }
    rewrite E in Hin. inversion Hin.
  - assert ((c, t) ∈ matches queryRe s) as Hin by (rewrite E; left). apply in_query in Hin as (-> & w0 & sel & w1 & a & w2 & wh & w3 & b & w4 & -> & H).
    split; [done|]. intros Hn. exfalso. apply Hn. exists w0, sel, w1, a, w2, wh, w3, b, w4. done.
Qed.

(** ** greedy repetition stopped by a character outside the class *)
Definition stops (p : Z → bool) (t : bytes) : Prop := t = [] ∨ ∃ d t', t = d :: t' ∧ p d = false.
Lemma stops_longer p w t : stops p t → ∀ w' t', w ++ t = w' ++ t' → (length w < length w')%nat → forallb p w' = true → False.
Proof.
  intros Hs w' t' E Hl Hp. assert (∃ d u, w' = w ++ d :: u ∧ t = d :: u ++ t') as (d & u & -> & ->).
  { exists (nth 0 (drop (length w) w') 0), (drop (S (length w)) w'). 
    assert (w = take (length w) w') as Hw. { apply (f_equal (take (length w))) in E. rewrite take_app, take_app_le in E by lia. done. }
    destruct (drop (length w) w') as [|d u] eqn:Ed. { apply (f_equal length) in Ed. rewrite drop_length in Ed. cbn in Ed. lia. }
    assert (drop (S (length w)) w' = u) as ->. { replace (S (length w)) with (length w + 1)%nat by lia. rewrite <- drop_drop, Ed. done. }
    cbn [nth]. assert (w' = w ++ d :: u) as Hw'. { rewrite <- (take_drop (length w) w'), <- Hw, Ed. done. }
    split; [done|]. rewrite Hw' in E. rewrite <- app_assoc in E. by apply app_inv_head in E. }
  destruct Hs as [?|(d' & t2 & [= <- <-] & Hd)]; [done|]. rewrite forallb_app in Hp. cbn in Hp. rewrite Hd in Hp. cbn in Hp. by rewrite andb_false_r in Hp.
Qed.

Section stop.
Context (p : Z → bool) (r : re) (w t : bytes) (c : list bytes) (rest : bytes) (Hp : forallb p w = true) (Hs : stops p t).
Lemma plus_stop : w ≠ [] → best r t = Some (c, rest) → best (RCat (RPlus p) r) (w ++ t) = Some (c, rest).
Proof. intros Hw Hb. apply best_cat_plus; try done. intros w' t' E Hl H. destruct (stops_longer p w t Hs w' t' E Hl H). Qed.
Lemma star_stop : best r t = Some (c, rest) → best (RCat (RStar p) r) (w ++ t) = Some (c, rest).
Proof. intros Hb. apply best_cat_star; try done. intros w' t' E Hl H. destruct (stops_longer p w t Hs w' t' E Hl H). Qed.
Lemma grp_stop : w ≠ [] → best r t = Some (c, rest) → best (RCat (RGrp (RPlus p)) r) (w ++ t) = Some (w :: c, rest).
Proof. intros Hw Hb. apply best_cat_grp; try done. intros w' t' E Hl H. destruct (stops_longer p w t Hs w' t' E Hl H). Qed.
End stop.

Lemma best_letter_s se k t : (∃ d, se = [d] ∧ lower d = 115) ∨ se = [197; 191] → best (RCat letter_s k) (se ++ t) = best k t.
Proof.
  intros [(d & -> & H)| ->]; unfold best, letter_s.
  - assert (letter_i 115 d = true) as L by (apply letter_i_lower; [lia|done]). assert (is_chr 197 d = false) as L2.
    { unfold is_chr. unfold lower in H. destruct (65 <=? d) eqn:?, (d <=? 90) eqn:?; cbn in *; lia. }
    cbn [matches app]. rewrite L, L2. cbn [flat_map app]. rewrite app_nil_r. by destruct (matches k t) as [|[]].
  - cbn [matches app]. change (letter_i 115 197) with false. change (is_chr 197 197) with true. cbn [flat_map app]. change (is_chr 191 191) with true.
    cbn [flat_map app map]. rewrite app_nil_r. by destruct (matches k t) as [|[]].
Qed.

Lemma lower_letter_nonws c : is_lower (lower c) → ws c = false.
Proof. unfold is_lower, lower, ws. destruct (65 <=? c) eqn:E1, (c <=? 90) eqn:E2; cbn; lia. Qed.

Lemma app_split_le {A} (x y w t : list A) : x ++ y = w ++ t → (length x ≤ length w)%nat → ∃ u, w = x ++ u ∧ y = u ++ t.
Proof.
  intros E Hl. exists (drop (length x) w). assert (x = take (length x) w) as Hx. { apply (f_equal (take (length x))) in E. rewrite take_app, take_app_le in E by lia. done. }
  split. { rewrite <- (take_drop (length x) w) at 1. by rewrite <- Hx. }
  apply (f_equal (drop (length x))) in E. rewrite drop_app, drop_app_le in E by lia. done.
Qed.
Lemma has_where_suffix x t : has_where t → has_where (x ++ t).
Proof. intros (a & c1 & w & c2 & b & -> & H). exists (x ++ a), c1, w, c2, b. rewrite <- app_assoc. done. Qed.

(** the expression after the first group *)
Definition tailRe : re := RCat (RPlus ws) (lit_i (str "where") (RCat (RPlus ws) (RCat (RGrp (RPlus dot)) (RCat (RStar ws) REnd)))).
Lemma tail_has_where t : matches tailRe t ≠ [] → has_where t.
Proof.
  intros H. destruct (matches tailRe t) as [|[c r] l] eqn:E; [done|]. assert ((c, r) ∈ matches tailRe t) as Hin by (rewrite E; left). clear E H.
  apply in_cat in Hin as (? & ? & c4 & H & H0 & ->). apply in_plus in H as (-> & w2 & -> & Nw2 & W2). apply forallb_ws in W2.
  apply in_lit_i in H0 as (wh & ? & -> & Ewh & H0); [|exact low_where].
  apply in_cat in H0 as (? & ? & c5 & H & H0 & ->). apply in_plus in H as (-> & w3 & -> & Nw3 & W3). apply forallb_ws in W3.
  destruct (exists_last Nw2) as (w2' & c1 & ->). destruct w3 as [|c3 w3]; [done|].
  eexists w2', c1, wh, c3, _. rewrite <- !app_assoc. cbn. split; [reflexivity|].
  apply Forall_app in W2 as [_ W2]. inversion_clear W2. inversion_clear W3. done.
Qed.

Lemma query_groups w0 sel w1 a u d wh w3 b w4a w4b :
  Forall is_ws w0 → kw_select sel → w1 ≠ [] → Forall is_ws w1 → a ≠ [] → 10 ∉ a → stops ws a → Forall is_blank u → is_blank d →
  kw_where wh → w3 ≠ [] → Forall is_ws w3 → b ≠ [] → 10 ∉ b → stops ws b → ¬ has_where (wh ++ w3 ++ b ++ w4a ++ w4b) →
  Forall is_blank w4a → Forall is_ws w4b → stops dot w4b →
  find_anchored queryRe (w0 ++ sel ++ w1 ++ a ++ (u ++ [d]) ++ wh ++ w3 ++ b ++ w4a ++ w4b) = Some [a ++ u; b ++ w4a].
Proof.
  intros W0 S Nw1 W1 Na A Sa U D Ewh Nw3 W3 Nb B Sb Hno W4a W4b S4.
  assert (best queryRe (w0 ++ sel ++ w1 ++ a ++ (u ++ [d]) ++ wh ++ w3 ++ b ++ w4a ++ w4b) = Some ([a ++ u; b ++ w4a], [])) as Hb.
  2:{ unfold find_anchored. unfold best in Hb. destruct (matches queryRe _) as [|[c t] l]; [done|]. cbn in Hb. congruence. }
  assert (∃ se el, sel = se ++ el ∧ map lower el = str "elect" ∧ ((∃ d, se = [d] ∧ lower d = 115) ∨ se = [197; 191])) as (se & el & -> & Eel & Hse).
  { destruct S as [S|(w' & -> & S)].
    - destruct sel as [|d' sel]; [done|]. cbn [map] in S. injection S as S1 S2. exists [d'], sel. split; [done|]. split; [done|]. left. by exists d'.
    - exists [197;191], w'. eauto. }
  unfold queryRe. apply star_stop.
  { by apply forallb_ws. }
  { destruct Hse as [(d' & -> & Hd')| ->]; cbn [app].
    - right. eexists d', _. split; [done|]. apply lower_letter_nonws. rewrite Hd'. unfold is_lower. lia.
    - right. eexists 197, _. split; [done|]. done. }
  rewrite <- app_assoc. rewrite best_letter_s by done. rewrite best_lit_i by (exact low_elect || done).
  apply plus_stop; [by apply forallb_ws| |done|].
  { destruct Sa as [->|(d' & a' & -> & Hd')]; [done|]. right. eexists d', _. done. }
  fold tailRe. rewrite <- (app_assoc u [d]). rewrite (app_assoc a u). apply best_cat_grp.
  - rewrite forallb_app. rewrite (proj2 (forallb_dot a) A). cbn. apply forallb_dot. intros H. rewrite Forall_forall in U. apply U, blank_ws in H. by destruct H.
  - unfold tailRe. apply plus_stop; [cbn; destruct (blank_ws d D) as [D1 _]; apply ws_spec in D1; by rewrite D1| |done|].
    { unfold kw_where in Ewh. destruct wh as [|c wh]; [done|]. right. eexists c, _. split; [done|]. apply lower_letter_nonws. change (str "where") with [119;104;101;114;101] in Ewh. cbn in Ewh. injection Ewh as -> _. unfold is_lower. lia. }
    rewrite best_lit_i by (exact low_where || done). apply plus_stop; [by apply forallb_ws| |done|].
    { destruct Sb as [->|(d' & b' & -> & Hd')]; [done|]. right. eexists d', _. done. }
    rewrite (app_assoc b). apply grp_stop; [|done|by destruct b|].
    { rewrite forallb_app. rewrite (proj2 (forallb_dot b) B). cbn. apply forallb_dot. intros H. rewrite Forall_forall in W4a. apply W4a, blank_ws in H. by destruct H. }
    rewrite <- (app_nil_r w4b). apply star_stop; [by apply forallb_ws|by left|done].
  - intros w' t' E Hl _. apply app_split_le in E as (y & -> & E); [|lia]. rewrite (app_length _ y) in Hl. destruct y as [|d' y]; [cbn in Hl; lia|].
    cbn in E. injection E as <- E. destruct (matches tailRe t') eqn:Em; [done|]. exfalso. apply Hno. rewrite E. apply has_where_suffix, tail_has_where. by rewrite Em.
  - destruct a; done.
Qed.

(** ** selections *)
Lemma selchar_false c : selchar c = false ↔ c = 44 ∨ is_ws c.
Proof. unfold selchar. rewrite <- ws_spec. destruct (Z.eqb_spec c 44), (ws c); cbn; intuition (done || lia). Qed.
Lemma selectRe_consuming : consuming selectRe.
Proof.
  intros s c t (? & ? & ? & H & H0 & _)%in_cat. apply in_grp_plus in H as (w & _ & -> & Nw & _).
  apply in_cat in H0 as (? & ? & ? & H & H0 & _). apply in_cls in H as (_ & d & -> & _).
  apply in_cat in H0 as (? & ? & ? & H & H0 & _). apply in_grp_plus in H as (w' & _ & -> & _).
  apply in_cls in H0 as (_ & d' & -> & _). rewrite app_length. cbn. rewrite app_length. cbn. lia.
Qed.
Lemma skip_class (r : re) (p : Z → bool) (k : re) x s : r = RCat (RGrp (RPlus p)) k → Forall (λ c, p c = false) x → find_all r (x ++ s) = find_all r s.
Proof.
  intros -> Hx. induction Hx as [|c x Hc Hx IH]; [done|]. cbn [app]. rewrite find_all_skip; [done|]. apply none_iff. intros c' t' Hin.
  apply in_cat in Hin as (? & ? & ? & H & _). apply in_grp_plus in H as (w & _ & E & Nw & Hp). destruct w; [done|]. cbn in E. injection E as <- _. cbn in Hp. by rewrite Hc in Hp.
Qed.
Lemma name_sel n : name_ok n → forallb selchar n = true ∧ 40 ∉ n ∧ 41 ∉ n ∧ n ≠ [].
Proof.
  intros [Hn H]. rewrite Forall_forall in H. split; [|split; [|split; [|done]]].
  - apply forallb_forall. intros c Hc. apply elem_of_list_In, H in Hc as (H1 & H2 & _). destruct (selchar c) eqn:E; [done|]. apply selchar_false in E as [|]; done.
  - intros Hc. apply H in Hc. lia.
  - intros Hc. apply H in Hc. lia.
Qed.
(** in x ++ d :: y with d not in x, a longer prefix followed by d needs d in y after characters of y *)
Lemma later_char (d : Z) x y w t : d ∉ x → x ++ y = w ++ d :: t → ∃ u, w = x ++ u ∧ y = u ++ d :: t.
Proof.
  intros Hd E. destruct (decide (length x ≤ length w)%nat) as [Hl|Hl]; [by apply app_split_le|]. exfalso. symmetry in E. apply app_split_le in E as (u & -> & E); [|lia].
  destruct u as [|d' u]; [rewrite app_nil_r in Hl; lia|]. injection E as -> ->. apply Hd. apply elem_of_app. right. left.
Qed.
Lemma best_sel p rest : name_ok p.1 → name_ok p.2 → stops selchar rest → best selectRe (sel_item p ++ rest) = Some ([p.1; p.2], rest).
Proof.
  destruct p as [m f]. cbn [fst snd]. intros Hm Hf Hs. destruct (name_sel m Hm) as (M1 & M2 & M3 & M4), (name_sel f Hf) as (F1 & F2 & F3 & F4).
  unfold sel_item. cbn [fst snd]. rewrite <- !app_assoc. unfold selectRe. apply best_cat_grp; [done| | |done].
  - cbn [app]. rewrite best_cat_cls by done. apply best_cat_grp; [done|by apply best_cls| |done].
    intros w' t' E Hl Hp. apply none_iff. intros c' r Hin. apply in_cls in Hin as (_ & d & -> & Hd). unfold is_chr in Hd. assert (d = 41) as -> by lia.
    change (41 :: rest) with ([41] ++ rest) in E. apply later_char in E as (u & -> & E); [|done]. rewrite app_length in Hl. destruct u as [|d u]; [cbn in Hl; lia|]. cbn in E. injection E as <- E.
    rewrite forallb_app in Hp. apply andb_true_iff in Hp as [_ Hp]. cbn in Hp.
    destruct Hs as [->|(d' & r' & -> & Hd')]; [by destruct u|]. destruct u as [|d2 u]; cbn in E; injection E as -> ->; [done|]. cbn in Hp. by rewrite Hd' in Hp.
  - intros w' t' E Hl Hp. apply none_iff. intros c' r Hin. apply in_cat in Hin as (? & ? & ? & Hin & _). apply in_cls in Hin as (_ & d & -> & Hd). unfold is_chr in Hd. assert (d = 40) as -> by lia.
    apply later_char in E as (u & -> & E); [|done]. rewrite app_length in Hl. destruct u as [|d u]; [cbn in Hl; lia|]. cbn in E. injection E as <- E.
    apply later_char in E as (u' & -> & E); [|done]. rewrite forallb_app in Hp. apply andb_true_iff in Hp as [_ Hp]. cbn in Hp. rewrite forallb_app in Hp. apply andb_true_iff in Hp as [_ Hp].
    destruct u' as [|d u']; [done|]. cbn in E. injection E as <- E. cbn in Hp.
    destruct Hs as [->|(d' & r' & -> & Hd')]; [by destruct u'|]. destruct u' as [|d2 u']; cbn in E; injection E as -> ->; [done|]. cbn in Hp. by rewrite Hd' in Hp.
Qed.
Lemma find_all_select l a u : sel_text l a → Forall (λ p, name_ok p.1 ∧ name_ok p.2) l → Forall is_blank u → find_all selectRe (a ++ u) = map (λ p, [p.1; p.2]) l.
Proof.
  intros H HF Hu. induction H as [p|p t l s Ht Hs IH].
  - inversion_clear HF as [|? ? [H1 H2] _]. assert (Hst : stops selchar u).
    { destruct Hu as [|c u Hc Hu]; [by left|]. right. exists c, u. split; [done|]. apply selchar_false. right. by apply blank_ws. }
    rewrite (find_all_match _ _ _ _ selectRe_consuming (best_sel p u H1 H2 Hst)).
    cbn [map]. f_equal. rewrite <- (app_nil_r u). rewrite (skip_class selectRe selchar _ u [] eq_refl); [by apply find_all_nil|]. eapply Forall_impl; [exact Hu|]. intros c Hc. apply selchar_false. right. by apply blank_ws.
  - inversion_clear HF as [|? ? [H1 H2] HF']. destruct Ht as [Nt Ht]. rewrite <- !app_assoc.
    assert (Forall (λ c, selchar c = false) t) as Ht'. { eapply Forall_impl; [exact Ht|]. intros c [Hc|Hc]; apply selchar_false; [right; by apply blank_ws|by left]. }
    rewrite (find_all_match selectRe (sel_item p ++ t ++ s ++ u) [p.1; p.2] (t ++ s ++ u) selectRe_consuming).
    + cbn [map]. f_equal. rewrite (skip_class selectRe selchar _ t _ eq_refl); [by apply IH|done].
    + apply best_sel; try done. destruct t as [|c t]; [done|]. right. eexists c, _. split; [done|]. by inversion_clear Ht'.
Qed.

(** ** criteria *)
Lemma whereRe_consuming : consuming whereRe.
Proof.
  intros s c t (? & ? & ? & H & H0 & _)%in_cat. apply in_grp_plus in H as (w & _ & -> & Nw & _).
  apply in_cat in H0 as (? & ? & ? & H & H0 & _). apply in_cls in H as (_ & d & -> & _).
  apply in_cat in H0 as (? & ? & ? & H & H0 & _). apply in_cls in H as (_ & d' & -> & _).
  apply in_cat in H0 as (? & ? & ? & H & H0 & _). apply in_grp_plus in H as (w' & _ & -> & _).
  apply in_cls in H0 as (_ & d'' & -> & _). rewrite app_length. cbn. rewrite app_length. cbn. lia.
Qed.
Lemma nonspace_false c : nonspace c = false ↔ is_ws c.
Proof. unfold nonspace. rewrite <- ws_spec. destruct (ws c); cbn; split; done. Qed.
(** a criterion followed by text that starts with a space (or nothing); if the
    value ends in = then no quote follows *)
Lemma best_crit p rest : key_ok p.1 → value_ok p.2 → stops nonspace rest → (last p.2 = Some 61 → 39 ∉ rest) →
  best whereRe (crit_item p ++ rest) = Some ([p.1; p.2], rest).
Proof.
  destruct p as [k v]. cbn [fst snd]. intros [Nk Hk] [Nv Hv] Hs Hlast. unfold crit_item. cbn [fst snd]. rewrite <- !app_assoc. unfold whereRe.
  rewrite Forall_forall in Hk, Hv.
  apply best_cat_grp; [| | |done].
  - apply forallb_forall. intros c Hc. apply elem_of_list_In, Hk in Hc as [Hc _]. apply ws_false in Hc. unfold nonspace. by rewrite Hc.
  - change (str "='") with [61; 39]. cbn [app]. rewrite !best_cat_cls by done. apply grp_stop; [| |done|by apply best_cls].
    + apply forallb_forall. intros c Hc. apply elem_of_list_In, Hv in Hc as [Hc _]. unfold nonquote. destruct (Z.eqb_spec c 39); done.
    + right. eexists 39, _. done.
  - intros w' t' E Hl Hp. apply none_iff. intros c' r Hin. apply in_cat in Hin as (? & ? & ? & Hin & H0 & _). apply in_cls in Hin as (_ & d & -> & Hd). unfold is_chr in Hd. assert (d = 61) as -> by lia.
    apply in_cat in H0 as (? & ? & ? & Hin & H0 & _). apply in_cls in Hin as (_ & d & -> & Hd'). unfold is_chr in Hd'. assert (d = 39) as -> by lia. clear Hd Hd'.
    apply in_cat in H0 as (? & ? & ? & Hin & H0 & _). apply in_grp_plus in Hin as (z & _ & -> & Nz & Hz). apply in_cls in H0 as (_ & d & -> & Hd). unfold is_chr in Hd. assert (d = 39) as -> by lia. clear Hd.
    apply app_split_le in E as (y & -> & E); [|lia]. rewrite app_length in Hl. rewrite forallb_app in Hp. apply andb_true_iff in Hp as [_ Hp].
    destruct y as [|d y]; [cbn in Hl; lia|]. change (str "='") with [61; 39] in E. change (str "'") with [39] in E. cbn in E. injection E as <- E.
    destruct y as [|d y]; [done|]. cbn in E. injection E as <- E. cbn in Hp.
    change (y ++ 61 :: 39 :: z ++ 39 :: r) with (y ++ [61] ++ [39] ++ z ++ 39 :: r) in E. rewrite (app_assoc y) in E. cbn [app] in E.
    assert (39 ∉ v) as Hq by (intros Hc; apply Hv in Hc; lia).
    apply later_char in E as (u & E1 & E2); [|done]. destruct u as [|d u].
    + (* the value ends in = *)
      rewrite app_nil_r in E1. cbn in E2. injection E2 as E2. apply Hlast; [rewrite <- E1; by rewrite last_snoc|]. rewrite E2. apply elem_of_app. right. left.
    + cbn in E2. injection E2 as <- E2. assert (∃ u', y = v ++ 39 :: u' ∧ u = u' ++ [61]) as (u' & -> & ->).
      { destruct u as [|xl u _] using rev_ind; [exfalso|].
        - rewrite <- (app_nil_r y) in E1. apply (f_equal last) in E1. rewrite app_nil_r, last_snoc in E1. rewrite last_snoc in E1. done.
        - change (39 :: u ++ [xl]) with ((39 :: u) ++ [xl]) in E1. rewrite app_assoc in E1. apply app_inj_tail in E1 as [-> ->]. eauto. }
      cbn in Hp. rewrite forallb_app in Hp. apply andb_true_iff in Hp as [_ Hp]. cbn in Hp.
      destruct Hs as [->|(d' & r' & -> & Hd')]; [by destruct u'|]. destruct u' as [|d2 u']; cbn in E2; injection E2 as -> ->; [done|]. cbn in Hp. by rewrite Hd' in Hp.
Qed.
(** text without = before a space cannot be matched *)
Lemma skip_word x d s : 61 ∉ x → is_ws d → find_all whereRe (x ++ d :: s) = find_all whereRe (d :: s).
Proof.
  intros Hx Hd. induction x as [|c x IH]; [done|]. cbn [app]. apply not_elem_of_cons in Hx as [Hc Hx]. rewrite find_all_skip; [by apply IH|].
  apply none_iff. intros c' r Hin. apply in_cat in Hin as (? & ? & ? & Hin & H0 & _). apply in_grp_plus in Hin as (w & _ & E & Nw & Hp).
  apply in_cat in H0 as (? & ? & ? & Hin & _). apply in_cls in Hin as (_ & d' & -> & Hd'). unfold is_chr in Hd'. assert (d' = 61) as -> by lia.
  change (c :: x ++ d :: s) with ((c :: x) ++ d :: s) in E. apply later_char in E as (u & -> & E); [|apply not_elem_of_cons; done].
  destruct u as [|d' u]; cbn in E; injection E as -> E; [|].
  - apply ws_spec in Hd. done.
  - rewrite forallb_app in Hp. apply andb_true_iff in Hp as [_ Hp]. cbn in Hp. apply nonspace_false in Hd. by rewrite Hd in Hp.
Qed.
Lemma lower_no_eq w t : map lower w = t → 61 ∉ t → 61 ∉ w.
Proof. intros <- H Hin. apply H. change 61 with (lower 61). apply elem_of_list_In, in_map, elem_of_list_In. done. Qed.
Lemma find_all_where l b u : crit_text l b → Forall (λ p, key_ok p.1 ∧ value_ok p.2) l → Forall is_blank u → find_all whereRe (b ++ u) = map (λ p, [p.1; p.2]) l.
Proof.
  assert (Hskip : ∀ u s, Forall is_blank u → find_all whereRe (u ++ s) = find_all whereRe s).
  { intros u' s Hu. apply (skip_class whereRe nonspace _ u' s eq_refl). eapply Forall_impl; [exact Hu|]. intros c Hc. apply nonspace_false. by apply blank_ws. }
  intros H HF Hu. induction H as [p|p t l s Ht Hlast Hs IH].
  - inversion_clear HF as [|? ? [H1 H2] _]. rewrite (find_all_match whereRe _ [p.1; p.2] u whereRe_consuming).
    + cbn [map]. f_equal. rewrite <- (app_nil_r u). rewrite Hskip by done. by apply find_all_nil.
    + apply best_crit; try done.
      * destruct Hu as [|c u Hc Hu]; [by left|]. right. exists c, u. split; [done|]. apply nonspace_false. by apply blank_ws.
      * intros _ Hin. rewrite Forall_forall in Hu. apply Hu in Hin. unfold is_blank in Hin. rewrite !elem_of_cons, elem_of_nil in Hin. lia.
  - inversion_clear HF as [|? ? [H1 H2] HF']. destruct Ht as (b1 & w & b2 & -> & Nb1 & B1 & Ew & Nb2 & B2). rewrite <- !app_assoc.
    rewrite (find_all_match whereRe _ [p.1; p.2] (b1 ++ w ++ b2 ++ s ++ u) whereRe_consuming).
    + cbn [map]. f_equal. rewrite Hskip by done. destruct b2 as [|d b2]; [done|]. cbn [app]. rewrite skip_word.
      * change (d :: b2 ++ s ++ u) with ((d :: b2) ++ s ++ u). rewrite Hskip by done. by apply IH.
      * eapply lower_no_eq; [exact Ew|]. cbn. rewrite !not_elem_of_cons. repeat split; try done. apply not_elem_of_nil.
      * inversion_clear B2. by apply blank_ws.
    + apply best_crit; try done. destruct b1 as [|d b1]; [done|]. right. eexists d, _. split; [done|]. apply nonspace_false. inversion_clear B1. by apply blank_ws.
Qed.

(** ** grouping *)
Lemma dedup_snoc l f : dedup (l ++ [f]) = if decide (f ∈ dedup l) then dedup l else dedup l ++ [f].
Proof.
  induction l as [|g l IH]; [done|]. cbn [app dedup]. rewrite IH. destruct (decide (f = g)) as [->|Hne].
  - rewrite (decide_True (P := g ∈ g :: filter (λ g0, g0 ≠ g) (dedup l))) by left. f_equal. destruct (decide (g ∈ dedup l)); [done|]. rewrite filter_app. rewrite filter_cons_False by (intros H; by apply H). by rewrite filter_nil, app_nil_r.
  - destruct (decide (f ∈ dedup l)) as [Hin|Hin].
    + rewrite decide_True; [done|]. right. apply elem_of_list_filter. done.
    + rewrite decide_False. 2:{ intros [->|Hc]%elem_of_cons; [done|]. apply elem_of_list_filter in Hc. by destruct Hc. }
      cbn [app]. f_equal. rewrite filter_app. f_equal. rewrite filter_cons_True by done. by rewrite filter_nil.
Qed.
Lemma elem_dedup f l : f ∈ dedup l ↔ f ∈ l.
Proof.
  induction l as [|g l IH]; [done|]. cbn [dedup]. rewrite !elem_of_cons, elem_of_list_filter, IH. destruct (decide (f = g)); intuition done.
Qed.
Lemma NoDup_dedup l : NoDup (dedup l).
Proof.
  induction l as [|g l IH]; [constructor|]. cbn [dedup]. constructor; [|by apply NoDup_filter]. intros H. apply elem_of_list_filter in H. by destruct H.
Qed.
Lemma measures_snoc f l p : measures_of f (l ++ [p]) = measures_of f l ++ (if decide (p.2 = f) then [p.1] else []).
Proof.
  unfold measures_of. rewrite filter_app, map_app. f_equal. destruct (decide (p.2 = f)) as [E|E].
  - rewrite filter_cons_True by done. done.
  - rewrite filter_cons_False by done. done.
Qed.
Lemma add_field_map (g : bytes → list bytes) fs f m : NoDup fs →
  add_field (map (λ f, MkFM f (g f)) fs) f m =
  map (λ f', MkFM f' (g f' ++ (if decide (f = f') then [m] else []))) fs ++ (if decide (f ∈ fs) then [] else [MkFM f [m]]).
Proof.
  induction fs as [|h fs IH]; intros ND; [done|]. apply NoDup_cons in ND as [Hh ND]. cbn [map add_field fm_F fm_M app].
  destruct (decide (h = f)) as [->|Hne].
  - rewrite (decide_True (P:=f = f)) by done. rewrite decide_True by left. cbn [app]. rewrite app_nil_r. f_equal. apply map_ext_in. intros f' Hf'.
    rewrite decide_False; [by rewrite app_nil_r|]. intros <-. apply Hh. by apply elem_of_list_In.
  - rewrite (decide_False (P:=f = h)) by done. rewrite app_nil_r. cbn [app]. f_equal. rewrite IH by done. f_equal.
    destruct (decide (f ∈ fs)) as [H|H]; [rewrite decide_True; [done|by right]|]. rewrite decide_False; [done|]. intros [->|?]%elem_of_cons; done.
Qed.
Lemma grouped_snoc l p : grouped (l ++ [p]) = add_field (grouped l) p.2 p.1.
Proof.
  unfold grouped. rewrite map_app. cbn [map]. rewrite dedup_snoc. rewrite add_field_map by apply NoDup_dedup.
  assert (∀ fs, map (λ f, MkFM f (measures_of f (l ++ [p]))) fs = map (λ f', MkFM f' (measures_of f' l ++ (if decide (p.2 = f') then [p.1] else []))) fs) as E.
  { intros fs. apply map_ext. intros f. by rewrite measures_snoc. }
  destruct (decide (p.2 ∈ dedup (map snd l))) as [Hin|Hin].
  - by rewrite E, app_nil_r.
  - rewrite map_app, E. f_equal. cbn. rewrite measures_snoc. rewrite decide_True by done.
    assert (measures_of p.2 l = []) as ->; [|done]. unfold measures_of.
    destruct (filter (λ q, q.2 = p.2) l) as [|q L] eqn:Ef; [done|]. exfalso. assert (q ∈ filter (λ q, q.2 = p.2) l) as Hq by (rewrite Ef; left).
    apply elem_of_list_filter in Hq as [Hq1 Hq2]. apply Hin. rewrite <- Hq1. apply elem_dedup. apply elem_of_list_In, in_map, elem_of_list_In. done.
Qed.
Lemma fold_grouped l : fold_left add_selection (map (λ p, [p.1; p.2]) l) [] = grouped l.
Proof.
  induction l as [|p l IH] using rev_ind; [done|]. rewrite map_app, fold_left_app, IH. cbn. symmetry. apply grouped_snoc.
Qed.
