From Coq Require Import ZifyBool ZifyNat.
From Verif Require Import Base RegexpModel.
Local Open Scope Z_scope.

Lemma run_app p w t : forallb p w = true → run p (w ++ t) = (length w + run p t)%nat.
Proof. induction w as [|c w IH]; intros H; [done|]. cbn in *. apply andb_true_iff in H as [-> H]. by rewrite IH. Qed.
Lemma run_take p s k : (k ≤ run p s)%nat → forallb p (take k s) = true ∧ (k ≤ length s)%nat.
Proof.
  revert k. induction s as [|c s IH]; intros k H; cbn in H; [assert (k = 0%nat) as -> by lia; done|]. destruct (p c) eqn:E; [|assert (k = 0%nat) as -> by lia; cbn; split; [done|lia]].
  destruct k; [cbn; split; [done|lia]|]. destruct (IH k) as [H1 H2]; [lia|]. cbn. rewrite E, H1. split; [done|lia].
Qed.

(** ** membership *)
Lemma in_plus p s c t : (c, t) ∈ matches (RPlus p) s ↔ c = [] ∧ ∃ w, s = w ++ t ∧ w ≠ [] ∧ forallb p w = true.
Proof.
  cbn [matches]. rewrite elem_of_list_In, in_map_iff. split.
  - intros (k & [= <- <-] & Hk). apply in_rev, in_seq in Hk. destruct (run_take p s k) as [H1 H2]; [lia|]. split; [done|]. exists (take k s). rewrite take_drop. split; [done|]. split; [|done].
    intros E. apply (f_equal length) in E. rewrite take_length in E. cbn in E. lia.
  - intros (-> & w & -> & Hw & Hp). exists (length w). rewrite drop_app. split; [done|]. rewrite <- in_rev. apply in_seq. rewrite run_app by done. destruct w; [done|]. cbn. lia.
Qed.
Lemma in_star p s c t : (c, t) ∈ matches (RStar p) s ↔ c = [] ∧ ∃ w, s = w ++ t ∧ forallb p w = true.
Proof.
  cbn [matches]. rewrite elem_of_list_In, in_map_iff. split.
  - intros (k & [= <- <-] & Hk). apply in_rev, in_seq in Hk. destruct (run_take p s k) as [H1 H2]; [lia|]. split; [done|]. exists (take k s). rewrite take_drop. done.
  - intros (-> & w & -> & Hp). exists (length w). rewrite drop_app. split; [done|]. rewrite <- in_rev. apply in_seq. rewrite run_app by done. lia.
Qed.
Lemma in_cls p s c t : (c, t) ∈ matches (RCls p) s ↔ c = [] ∧ ∃ d, s = d :: t ∧ p d = true.
Proof.
  cbn [matches]. destruct s as [|d s]; [split; [intros H; inversion H|intros (_ & d & ? & _); done]|].
  destruct (p d) eqn:E.
  - rewrite elem_of_list_singleton. split; [intros [= -> ->]; eauto|intros (-> & d' & [= -> ->] & _); done].
  - split; [intros H; inversion H|]. intros (_ & d' & [= -> ->] & ?). congruence.
Qed.
Lemma in_cat r1 r2 s c t : (c, t) ∈ matches (RCat r1 r2) s ↔ ∃ c1 s1 c2, (c1, s1) ∈ matches r1 s ∧ (c2, t) ∈ matches r2 s1 ∧ c = c1 ++ c2.
Proof.
  cbn [matches]. rewrite elem_of_list_In, in_flat_map. split.
  - intros ([c1 s1] & H1 & H2). apply in_map_iff in H2 as ([c2 s2] & [= <- <-] & H2). exists c1, s1, c2. by rewrite !elem_of_list_In.
  - intros (c1 & s1 & c2 & H1 & H2 & ->). exists (c1, s1). rewrite <- elem_of_list_In. split; [done|]. apply in_map_iff. exists (c2, t). by rewrite <- elem_of_list_In.
Qed.
Lemma in_alt r1 r2 s x : x ∈ matches (RAlt r1 r2) s ↔ x ∈ matches r1 s ∨ x ∈ matches r2 s.
Proof. cbn [matches]. apply elem_of_app. Qed.
Lemma in_end s c t : (c, t) ∈ matches REnd s ↔ s = [] ∧ c = [] ∧ t = [].
Proof.
  cbn [matches]. destruct s; [rewrite elem_of_list_singleton; split; [intros [= -> ->]|intros (_ & -> & ->)]; done|].
  split; [intros H; inversion H|by intros (? & _)].
Qed.
Lemma in_grp_plus p s c t : (c, t) ∈ matches (RGrp (RPlus p)) s ↔ ∃ w, c = [w] ∧ s = w ++ t ∧ w ≠ [] ∧ forallb p w = true.
Proof.
  change (matches (RGrp (RPlus p)) s) with (map (λ '(c, s'), (take (length s - length s') s :: c, s')) (matches (RPlus p) s)).
  rewrite elem_of_list_In, in_map_iff. split.
  - intros ([c' s'] & [= <- <-] & H). apply elem_of_list_In, in_plus in H as (-> & w & -> & Hw & Hp). exists w. split; [|done]. f_equal.
    rewrite app_length. replace (length w + length s' - length s')%nat with (length w) by lia. by rewrite take_app.
  - intros (w & -> & -> & Hw & Hp). exists ([], t). split.
    + rewrite app_length. replace (length w + length t - length t)%nat with (length w) by lia. by rewrite take_app.
    + apply elem_of_list_In, in_plus. eauto.
Qed.

(** ** the preferred match *)
Definition best (r : re) (s : bytes) : option (list bytes * bytes) := head (matches r s).
Lemma best_none r s : best r s = None ↔ matches r s = [].
Proof. unfold best. destruct (matches r s); done. Qed.

Lemma head_app {A} (l1 l2 : list A) : head (l1 ++ l2) = match head l1 with Some x => Some x | None => head l2 end.
Proof. by destruct l1. Qed.
Lemma head_flat_rev {A} (f : nat → list A) a n k x : (a ≤ k < a + n)%nat → (∀ j, (k < j < a + n)%nat → f j = []) → head (f k) = Some x →
  head (flat_map f (rev (seq a n))) = Some x.
Proof.
  intros Hk Hj Hx. induction n as [|n IH]; [lia|]. rewrite seq_S, rev_app_distr. cbn [rev app flat_map].
  destruct (decide (k = (a + n)%nat)) as [->|Hne].
  - rewrite head_app, Hx. done.
  - rewrite Hj by lia. cbn [app]. apply IH; [lia|]. intros j ?. apply Hj. lia.
Qed.
Lemma flat_map_map {A B C} (f : B → list C) (g : A → B) l : flat_map f (map g l) = flat_map (λ x, f (g x)) l.
Proof. induction l as [|x l IH]; [done|]. cbn. by rewrite IH. Qed.

Lemma best_map c1 l : head (map (λ '(c2, s2), (c1 ++ c2, s2)) l) = option_map (λ '(c2, s2) , ((c1 : list bytes) ++ c2, (s2 : bytes))) (head l).
Proof. by destruct l as [|[]]. Qed.

Section greedy.
Context (p : Z → bool) (r : re) (w t : bytes) (c : list bytes) (rest : bytes).
Context (Hp : forallb p w = true) (Hbest : best r t = Some (c, rest)).
Context (Hlonger : ∀ w' t', w ++ t = w' ++ t' → (length w < length w')%nat → forallb p w' = true → matches r t' = []).
Lemma longer_none j : (length w < j ≤ run p (w ++ t))%nat → matches r (drop j (w ++ t)) = [].
Proof.
  intros Hj. destruct (run_take p (w ++ t) j) as [H1 H2]; [lia|]. apply (Hlonger (take j (w ++ t)) (drop j (w ++ t))); [by rewrite take_drop|rewrite take_length; lia|done].
Qed.
Lemma best_cat_plus : w ≠ [] → best (RCat (RPlus p) r) (w ++ t) = Some (c, rest).
Proof.
  intros Hw. assert (0 < length w)%nat by (destruct w; cbn; [done|lia]). unfold best. cbn [matches]. rewrite flat_map_map.
  apply (head_flat_rev _ _ _ (length w)).
  - rewrite run_app by done. lia.
  - intros j Hj. rewrite longer_none by lia. done.
  - rewrite drop_app. unfold best in Hbest. rewrite best_map, Hbest. done.
Qed.
Lemma best_cat_star : best (RCat (RStar p) r) (w ++ t) = Some (c, rest).
Proof.
  unfold best. cbn [matches]. rewrite flat_map_map. apply (head_flat_rev _ _ _ (length w)).
  - rewrite run_app by done. lia.
  - intros j Hj. rewrite longer_none by lia. done.
  - rewrite drop_app. unfold best in Hbest. rewrite best_map, Hbest. done.
Qed.
Lemma best_cat_grp : w ≠ [] → best (RCat (RGrp (RPlus p)) r) (w ++ t) = Some (w :: c, rest).
Proof.
  intros Hw. assert (0 < length w)%nat by (destruct w; cbn; [done|lia]). unfold best. cbn [matches]. rewrite !flat_map_map.
  apply (head_flat_rev _ _ _ (length w)).
  - rewrite run_app by done. lia.
  - intros j Hj. rewrite longer_none by lia. done.
  - rewrite drop_app. unfold best in Hbest. rewrite best_map, Hbest. cbn. do 3 f_equal. rewrite app_length.
    replace (length w + length t - length t)%nat with (length w) by lia. by rewrite take_app.
Qed.
End greedy.

Lemma best_cat_cls p r d t : p d = true → best (RCat (RCls p) r) (d :: t) = best r t.
Proof. intros H. unfold best. cbn [matches]. rewrite H. cbn [flat_map]. rewrite app_nil_r, best_map. by destruct (head (matches r t)) as [[]|]. Qed.
Lemma best_cls p d t : p d = true → best (RCls p) (d :: t) = Some ([], t).
Proof. intros H. unfold best. cbn. by rewrite H. Qed.
Lemma cat_none r1 r2 s : (∀ c1 s1, (c1, s1) ∈ matches r1 s → matches r2 s1 = []) → matches (RCat r1 r2) s = [].
Proof.
  intros H. destruct (matches (RCat r1 r2) s) as [|[c t] l] eqn:E; [done|]. exfalso.
  assert ((c, t) ∈ matches (RCat r1 r2) s) as Hin by (rewrite E; left). apply in_cat in Hin as (c1 & s1 & c2 & H1 & H2 & _). rewrite (H _ _ H1) in H2. inversion H2.
Qed.
Lemma none_iff r s : matches r s = [] ↔ ∀ c t, (c, t) ∉ matches r s.
Proof. split; [intros -> c t H; inversion H|]. intros H. destruct (matches r s) as [|[c t] l]; [done|]. exfalso. apply (H c t). left. Qed.

(** ** find_all *)
(** an expression that consumes at least one character *)
Lemma find_all_skip r c s : matches r (c :: s) = [] → find_all r (c :: s) = find_all r s.
Proof. intros H. unfold find_all. cbn [length]. remember (S (length s)) as n. cbn [find_all_n]. by rewrite H. Qed.
Lemma find_all_nil r : matches r [] = [] → find_all r [] = [].
Proof. intros H. unfold find_all. cbn. by rewrite H. Qed.
Definition consuming (r : re) : Prop := ∀ s c t, (c, t) ∈ matches r s → (length t < length s)%nat.
Lemma find_all_n_more r n s : consuming r → (length s < n)%nat → find_all_n n r s = find_all r s.
Proof.
  intros Hc. unfold find_all. assert (∀ n m s, (length s < n)%nat → (length s < m)%nat → find_all_n n r s = find_all_n m r s) as G; [|intros; apply G; lia].
  clear n s. induction n as [|n IH]; intros [|m] s H1 H2; try lia. cbn [find_all_n]. destruct (matches r s) as [|[c t] l] eqn:E.
  - destruct s; [done|]. cbn in *. apply IH; lia.
  - assert (length t < length s)%nat by (apply (Hc s c); rewrite E; left). f_equal. apply IH; lia.
Qed.
Lemma find_all_match r s c t : consuming r → best r s = Some (c, t) → find_all r s = c :: find_all r t.
Proof.
  intros Hc H. unfold best in H. destruct (matches r s) as [|[c' t'] l] eqn:E; [done|]. cbn in H. injection H as -> ->.
  assert (length t < length s)%nat by (apply (Hc s c); rewrite E; left).
  unfold find_all at 1. cbn [find_all_n]. rewrite E. f_equal. by apply find_all_n_more.
Qed.
