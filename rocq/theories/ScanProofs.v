From Coq Require Import ZifyBool ZifyNat.
From Verif Require Import Base BaseProofs Float64 HllModel CollationModel CollationSpec BufmapModel BufmapSpec QueryModel ServerModel ServerSpec.
Local Open Scope Z_scope.

Lemma index_byte_Some l c i : index_byte l c = Some i ↔ ∃ rest, l = take i l ++ c :: rest ∧ c ∉ take i l ∧ (i < length l)%nat ∧ drop (S i) l = rest.
Proof.
  revert i. induction l as [|b l IH]; intros i; cbn [index_byte].
  - split; [done|]. intros (rest & _ & _ & H & _). cbn in H. lia.
  - destruct (b =? c) eqn:E.
    + apply Z.eqb_eq in E as ->. split.
      * intros [= <-]. exists l. cbn. split; [done|]. split; [apply not_elem_of_nil|]. split; [lia|done].
      * intros (rest & _ & H & _ & _). destruct i as [|i]; [done|]. exfalso. apply H. cbn. left.
    + split.
      * destruct (index_byte l c) as [j|] eqn:Ej; [|done]. cbn. intros [= <-]. pose proof (proj1 (IH j) eq_refl) as (rest & H1 & H2 & H3 & H4). exists rest. cbn [take drop app length].
        split; [by f_equal|]. split; [|split; [lia|done]]. rewrite not_elem_of_cons. split; [lia|done].
      * intros (rest & H1 & H2 & H3 & H4). destruct i as [|i]; [cbn in H1; injection H1 as ? _; lia|]. cbn [take drop app length] in *. injection H1 as H1.
        rewrite not_elem_of_cons in H2. enough (index_byte l c = Some i) as -> by done. apply IH. exists rest. split; [done|]. split; [tauto|]. split; [lia|done].
Qed.
Lemma index_byte_None l c : index_byte l c = None ↔ c ∉ l.
Proof.
  induction l as [|b l IH]; cbn [index_byte]; [split; [intros _; apply not_elem_of_nil|done]|]. rewrite not_elem_of_cons, <- IH.
  destruct (b =? c) eqn:E; [split; [done|lia]|]. destruct (index_byte l c); cbn; split; try done; [intros [_ ?]; done|]. intros _. split; [lia|done].
Qed.
Lemma index_byte_app x c y : c ∉ x → index_byte (x ++ c :: y) c = Some (length x).
Proof. intros H. apply index_byte_Some. exists y. rewrite take_app. split; [done|]. split; [done|]. split; [rewrite app_length; cbn; lia|].
  rewrite drop_app_ge by lia. replace (S (length x) - length x)%nat with 1%nat by lia. done.
Qed.

(** remaining work, for the fuel *)
Definition rd_size (r : reader) : nat := sum_list_with event_size r.
Definition work (sc : scanner) : nat := (length (sc_data sc) + 3 * rd_size (sc_rd sc) + (if sc_err sc then 0 else 2))%nat.
Record sc_wf (sc : scanner) : Prop := {
  wf_end : (sc_start sc + length (sc_data sc) ≤ sc_len sc)%nat;
  wf_len : (sc_len sc ≤ max_token)%nat }.

Lemma read_work k r d e r' : (0 < k)%nat → read k r = (d, e, r') → (length d ≤ k)%nat ∧ (length d + rd_size r' ≤ rd_size r)%nat ∧ (e = None → d = [] → (rd_size r' < rd_size r)%nat).
Proof.
  intros Hk. destruct r as [|[c|c|] r]; cbn [read].
  - intros [= <- <- <-]. cbn. repeat split; [lia..|done].
  - destruct (length c <=? k)%nat eqn:E; intros [= <- <- <-]; unfold rd_size; cbn [sum_list_with event_size].
    + split; [lia|]. split; lia.
    + rewrite take_length, drop_length. split; [lia|]. split; [lia|]. intros _ H. apply (f_equal length) in H. rewrite take_length in H. cbn in H. lia.
  - destruct (length c <=? k)%nat eqn:E; intros [= <- <- <-]; unfold rd_size; cbn [sum_list_with event_size].
    + split; [lia|]. split; [lia|done].
    + rewrite take_length, drop_length. split; [lia|]. split; [lia|]. intros _ H. apply (f_equal length) in H. rewrite take_length in H. cbn in H. lia.
  - intros [= <- <- <-]. cbn. repeat split; [lia..|done].
Qed.
Lemma fill_work n k r d e r' : (0 < k)%nat → fill n k r = (d, e, r') → (length d ≤ k)%nat ∧ (length d + rd_size r' ≤ rd_size r)%nat ∧ (e = None → d ≠ []).
Proof.
  intros Hk. revert r. induction n as [|n IH]; intros r; cbn [fill]; destruct (read k r) as [[d1 e1] r1] eqn:E; destruct (read_work _ _ _ _ _ Hk E) as (H1 & H2 & H3).
  - destruct e1 as [e1|]; [intros [= <- <- <-]; done|]. destruct d1; intros [= <- <- <-]; done.
  - destruct e1 as [e1|]; [intros [= <- <- <-]; done|]. destruct d1; [|intros [= <- <- <-]; done]. intros Ef. apply IH in Ef as (A & B & C). specialize (H3 eq_refl eq_refl). split; [lia|]. split; [lia|done].
Qed.
(** what one successful round of reading does to what is yet to come *)
Lemma fill_yields n k r b e d e' r' : (0 < k)%nat → yields r b e → fill n k r = (d, e', r') →
  (e' = None ∧ ∃ b', b = d ++ b' ∧ yields r' b' e) ∨ (e' = Some e ∧ b = d).
Proof.
  intros Hk Hy. destruct Hy as [|c r|r|c r l e Hc Hy].
  - destruct n; cbn; intros [= <- <- <-]; right; done.
  - assert (read k (EvDataEOF c :: r) = (d, e', r') → (e' = None → d ≠ []) → (e' = None ∧ ∃ b', c = d ++ b' ∧ yields r' b' ErrEOF) ∨ (e' = Some ErrEOF ∧ c = d)) as G.
    { cbn [read]. destruct (length c <=? k)%nat; intros [= <- <- <-] _; [by right|]. left. split; [done|]. exists (drop k c). split; [by rewrite take_drop|]. constructor. }
    intros E. pose proof (fill_work _ _ _ _ _ _ Hk E) as (_ & _ & Hd). apply G; [|done]. clear G.
    destruct n; cbn [fill] in E; destruct (read k (EvDataEOF c :: r)) as [[d1 e1] r1] eqn:Er; (destruct e1; [congruence|]); (destruct d1; [|congruence]); exfalso;
      destruct (read_work _ _ _ _ _ Hk Er) as (_ & _ & H3); cbn [read] in Er; (destruct (length c <=? k)%nat eqn:El; [congruence|]); injection Er as Er _; apply (f_equal length) in Er; rewrite take_length in Er; cbn in Er; lia.
  - destruct n; cbn; intros [= <- <- <-]; right; done.
  - assert (fill n k (EvData c :: r) = (if (length c <=? k)%nat then (c, None, r) else (take k c, None, EvData (drop k c) :: r))) as ->.
    { destruct c as [|x c]; [done|]. destruct k as [|k]; [lia|]. destruct n; cbn [fill read]; destruct (length (x :: c) <=? S k)%nat; done. }
    destruct (length c <=? k)%nat eqn:El; intros [= <- <- <-]; left; (split; [done|]).
    + by exists l.
    + exists (drop k c ++ l). split; [by rewrite app_assoc, take_drop|]. constructor; [|done]. intros H. apply (f_equal length) in H. rewrite drop_length in H. cbn in H. lia.
Qed.

Inductive step_case (sc : scanner) : scanner + (option bytes * scanner) → Prop :=
  | sc_more sc' d e rd : sc_err sc = None → 10 ∉ sc_data sc → (∃ n k, (0 < k)%nat ∧ fill n k (sc_rd sc) = (d, e, rd)) →
      sc_data sc' = sc_data sc ++ d → sc_err sc' = e → sc_rd sc' = rd → step_case sc (inl sc')
  | sc_line sc' seg rest : 10 ∉ seg → sc_data sc = seg ++ 10 :: rest → sc_data sc' = rest → sc_err sc' = sc_err sc → sc_rd sc' = sc_rd sc →
      step_case sc (inr (Some (drop_cr seg), sc'))
  | sc_last sc' e : sc_err sc = Some e → sc_data sc ≠ [] → 10 ∉ sc_data sc → sc_data sc' = [] → sc_err sc' = sc_err sc → sc_rd sc' = sc_rd sc →
      step_case sc (inr (Some (drop_cr (sc_data sc)), sc'))
  | sc_end sc' e : sc_err sc = Some e → sc_data sc = [] → sc_err sc' = sc_err sc → step_case sc (inr (None, sc'))
  | sc_long sc' : sc_err sc = None → 10 ∉ sc_data sc → length (sc_data sc) = max_token → sc_err sc' = Some ErrTooLong → step_case sc (inr (None, sc')).
Lemma scan_step_case sc : sc_wf sc → step_case sc (scan_step sc) ∧
  match scan_step sc with inl sc' => sc_wf sc' ∧ (work sc' < work sc)%nat | inr (Some _, sc') => sc_wf sc' ∧ (work sc' < work sc)%nat | inr (None, _) => True end.
Proof.
  intros [W1 W2]. unfold scan_step. destruct sc as [len start data err rd]. cbn [sc_len sc_start sc_data sc_err sc_rd] in *.
  assert (Hline : ∀ i, index_byte data 10 = Some i → let sc' := Scanner len (start + S i) (drop (S i) data) err rd in
    step_case (Scanner len start data err rd) (inr (Some (drop_cr (take i data)), sc')) ∧ sc_wf sc' ∧ (work sc' < work (Scanner len start data err rd))%nat).
  { intros i Hi sc'. apply index_byte_Some in Hi as (rest & H1 & H2 & H3 & H4). split; [|split].
    - eapply (sc_line _ sc' (take i data) rest); done.
    - split; cbn; rewrite ?drop_length; lia.
    - unfold work, sc'. cbn [sc_data sc_rd sc_err]. rewrite drop_length. destruct err; lia. }
  destruct err as [e|].
  - (* an error has been met *)
    rewrite orb_true_r. unfold scan_lines. rewrite andb_true_l. destruct (length data =? 0)%nat eqn:El.
    + destruct data; [|done]. cbn. split; [|done]. by eapply sc_end.
    + destruct (index_byte data 10) as [i|] eqn:Ei; [by apply Hline|]. apply index_byte_None in Ei. split.
      * eapply sc_last; cbn; try done; [by destruct data|]. by rewrite drop_all.
      * split; [split; cbn; rewrite ?drop_length; lia|]. unfold work. cbn [sc_data sc_rd sc_err]. rewrite drop_length. lia.
  - rewrite orb_false_r. destruct (index_byte data 10) as [i|] eqn:Ei.
    { destruct data as [|x data]; [done|]. cbn [length Nat.ltb Nat.leb]. unfold scan_lines. rewrite andb_false_l, Ei. by apply Hline. }
    assert ((if (0 <? length data)%nat then scan_lines data false else (O, None)) = (O, None)) as ->.
    { destruct (0 <? length data)%nat; [|done]. unfold scan_lines. by rewrite andb_false_l, Ei. }
    apply index_byte_None in Ei.
    set (start1 := if (0 <? start)%nat && _ then O else start).
    assert (start1 + length data ≤ len)%nat as H1 by (unfold start1; case_match; lia).
    destruct (start1 + length data =? len)%nat eqn:Ef.
    + assert (start1 = O) as E0 by (unfold start1 in *; case_match; [done|lia]). rewrite E0 in *. cbn [andb].
      destruct (max_token <=? len)%nat eqn:Em.
      * split; [|done]. apply sc_long; cbn; try done. lia.
      * set (len' := Nat.min _ max_token). assert (length data < len' ≤ max_token)%nat as Hl'.
        { unfold len', max_token, start_buf in *. destruct (len =? 0)%nat eqn:E1; lia. }
        assert (0 < len' - (0 + length data))%nat as Hk0 by lia. destruct (fill max_empty_reads (len' - (0 + length data)) rd) as [[d e] rd'] eqn:Efl. pose proof (fill_work _ _ _ _ _ _ Hk0 Efl) as (A & B & C). split.
        -- eapply sc_more; cbn; try done. exists max_empty_reads, (len' - (0 + length data))%nat. split; [lia|done].
        -- split; [split; cbn; rewrite ?app_length; lia|]. unfold work. cbn [sc_data sc_rd sc_err]. rewrite app_length. destruct e; [lia|]. destruct d; [by specialize (C eq_refl)|]. cbn [length] in *. lia.
    + cbn [andb]. assert (0 < len - (start1 + length data))%nat as Hk0 by lia. destruct (fill max_empty_reads (len - (start1 + length data)) rd) as [[d e] rd'] eqn:Efl. pose proof (fill_work _ _ _ _ _ _ Hk0 Efl) as (A & B & C). split.
      * eapply sc_more; cbn; try done. exists max_empty_reads, (len - (start1 + length data))%nat. split; [lia|done].
      * split; [split; cbn; rewrite ?app_length; lia|]. unfold work. cbn [sc_data sc_rd sc_err]. rewrite app_length. destruct e; [lia|]. destruct d; [by specialize (C eq_refl)|]. cbn [length] in *. lia.
Qed.

(** what the scanner should produce from bytes ending with e *)
Inductive scan_out (e : error) : bytes → list bytes → option error → Prop :=
  | so_end : scan_out e [] [] (scan_error (Some e))
  | so_line seg rest ts x : 10 ∉ seg → Z.of_nat (length seg) < line_limit → scan_out e rest ts x → scan_out e (seg ++ 10 :: rest) (drop_cr seg :: ts) x
  | so_last seg : seg ≠ [] → 10 ∉ seg → Z.of_nat (length seg) < line_limit → scan_out e seg [drop_cr seg] (scan_error (Some e))
  | so_long b : 10 ∉ take (Z.to_nat line_limit) b → line_limit < Z.of_nat (length b) → scan_out e b [] (Some ErrTooLong).

Lemma tokens_loop_total n : ∀ sc, sc_wf sc → (work sc < n)%nat → ∃ out, tokens_loop n sc = Some out.
Proof.
  induction n as [|n IH]; intros sc W Hn; [lia|]. cbn [tokens_loop]. destruct (scan_step_case sc W) as [_ H]. destruct (scan_step sc) as [sc'|[[t|] sc']].
  - destruct H. apply IH; [done|lia].
  - destruct H. destruct (IH sc') as [[ts e] ->]; [done|lia|]. by eexists.
  - by eexists.
Qed.
Lemma tokens_loop_out n : ∀ sc e rest ts x, sc_wf sc → (work sc < n)%nat →
  (sc_err sc = None ∧ yields (sc_rd sc) rest e ∨ sc_err sc = Some e ∧ rest = []) → scan_out e (sc_data sc ++ rest) ts x → tokens_loop n sc = Some (ts, x).
Proof.
  induction n as [|n IH]; intros sc e rest ts x W Hn Hy Hout; [lia|]. cbn [tokens_loop]. destruct (scan_step_case sc W) as [C H].
  assert (Hsplit : ∀ seg t1 seg' t2 : bytes, 10 ∉ seg → 10 ∉ seg' → seg ++ 10 :: t1 = seg' ++ 10 :: t2 → seg = seg' ∧ t1 = t2).
  { clear. intros seg. induction seg as [|a seg IH]; intros t1 [|a' seg'] t2 H1 H2 E; cbn in E.
    - by injection E as ->. - injection E as <- _. exfalso. apply H2. left. - injection E as -> _. exfalso. apply H1. left.
    - injection E as -> E2. rewrite not_elem_of_cons in H1, H2. destruct (IH t1 seg' t2) as [-> ->]; [tauto..|done]. }
  destruct C as [sc' d e' rd He Hno (fn & k & Hk & Hf) Ed Ee Er|sc' seg rest' Hs Ed Ed' Ee Er|sc' e' He Hne Hno Ed' Ee Er|sc' e' He Ed Ee|sc' He Hno Hlen Ee].
  - destruct H as [W' Hw]. destruct Hy as [[_ Hy]|[? _]]; [|congruence]. rewrite <- Er in Hf. destruct (fill_yields _ _ _ _ _ _ _ _ Hk Hy Hf) as [(-> & b' & -> & Hy')|(-> & ->)].
    + apply (IH _ e b'); try done; [lia|by left|]. by rewrite Ed, <- app_assoc.
    + apply (IH _ e []); try done; [lia|by right|]. by rewrite Ed, app_nil_r.
  - destruct H as [W' Hw]. rewrite Ed, <- app_assoc in Hout. cbn [app] in Hout. inversion Hout as [E1|seg0 rest0 ts0 x0 H1 H2 H3 E1|seg0 H1 H2 H3 E1|b0 H1 H2 E1].
    + by destruct seg.
    + apply Hsplit in E1 as [-> ->]; [|done..]. subst. rewrite (IH sc' e rest ts0 x); try done; [lia|rewrite Ee, Er; done].
    + exfalso. apply H2. apply elem_of_app. right. left.
    + exfalso. subst. destruct W as [W1 W2]. rewrite Ed in W1. rewrite app_length in W1. cbn [length] in W1. apply H1.
      rewrite take_app_ge by (unfold max_token, line_limit in *; lia). apply elem_of_app. right.
      destruct (Z.to_nat line_limit - length seg)%nat eqn:En; [unfold max_token, line_limit in *; lia|]. cbn. left.
  - destruct H as [W' Hw]. destruct Hy as [[? _]|[He' ->]]; [congruence|]. rewrite app_nil_r in Hout. rewrite He in He'. injection He' as <-. inversion Hout as [E1|seg0 rest0 ts0 x0 H1 H2 H3 E1|seg0 H1 H2 H3 E1|b0 H1 H2 E1].
    + congruence.
    + exfalso. apply Hno. rewrite <- E1. apply elem_of_app. right. left.
    + subst. rewrite (IH sc' e' [] [] (scan_error (Some e'))); try done; [lia| |].
      * right. split; [|done]. by rewrite Ee.
      * rewrite Ed'. constructor.
    + exfalso. destruct W as [W1 W2]. unfold max_token, line_limit in *. lia.
  - destruct Hy as [[? _]|[He' ->]]; [congruence|]. rewrite Ed, app_nil_r in Hout. rewrite He in He'. injection He' as <-. inversion Hout as [E1|seg0 rest0 ts0 x0 H1 H2 H3 E1|seg0 H1 H2 H3 E1|b0 H1 H2 E1].
    + by rewrite Ee, He.
    + by destruct seg0.
    + done.
    + unfold line_limit in *. cbn in *. lia.
  - destruct Hy as [[_ Hy]|[? _]]; [|congruence]. inversion Hout as [E1|seg0 rest0 ts0 x0 H1 H2 H3 E1|seg0 H1 H2 H3 E1|b0 H1 H2 E1].
    + symmetry in E1. apply app_eq_nil in E1 as [E1 _]. rewrite E1 in Hlen. unfold max_token in Hlen. cbn in Hlen. lia.
    + exfalso. apply (f_equal (take (length (sc_data sc)))) in E1. rewrite take_app in E1. rewrite take_app_ge in E1 by (unfold max_token, line_limit in *; lia). apply Hno. rewrite <- E1. apply elem_of_app. right.
      destruct (length (sc_data sc) - length seg0)%nat eqn:En; [unfold max_token, line_limit in *; lia|]. cbn. left.
    + exfalso. subst. rewrite app_length in H3. unfold max_token, line_limit in *. lia.
    + by rewrite Ee.
Qed.

Lemma new_wf r : sc_wf (NewScanner r). Proof. split; cbn; lia. Qed.
Lemma new_work r : (work (NewScanner r) < tokens_fuel r)%nat.
Proof. unfold work, tokens_fuel, rd_size. cbn [NewScanner sc_data sc_rd sc_err length]. lia. Qed.
(** the fuel is enough for every reader *)
Lemma tokens_total r : ∃ out, tokens r = Some out.
Proof. apply tokens_loop_total; [apply new_wf|apply new_work]. Qed.
Lemma tokens_out r b e ts x : yields r b e → scan_out e b ts x → tokens r = Some (ts, x).
Proof. intros Hy Ho. apply (tokens_loop_out _ _ e b); [apply new_wf|apply new_work|by left|done]. Qed.

(** every body of short lines has an outcome *)
Lemma drop_cr_keep l : no_cr_end l → drop_cr l = l.
Proof. unfold drop_cr, no_cr_end. destruct (last l) as [c|]; [|done]. intros H. destruct (decide (c = 13)) as [->|Hn]; [done|]. destruct c as [|p|p]; try done. repeat (destruct p as [p|p|]; try done). Qed.
Lemma drop_cr_snoc l : drop_cr (l ++ [13]) = l.
Proof. unfold drop_cr. rewrite last_snoc. apply removelast_last. Qed.
Lemma short_sub x b : short_lines (x ++ b) → short_lines b.
Proof. intros H y1 y2 y3 ->. apply (H (x ++ y1) y2 y3). by rewrite <- app_assoc. Qed.
Lemma text_out e ls b : text_of ls b → short_lines b → scan_out e b ls (scan_error (Some e)).
Proof.
  induction 1 as [|l Hne Hn Hc|l Hn|l ls b Hn Hc Ht IH|l ls b Hn Ht IH]; intros Hs.
  - constructor.
  - rewrite <- (drop_cr_keep l Hc) at 2. constructor; try done. apply (Hs [] l []); [by rewrite app_nil_r|done].
  - rewrite <- (drop_cr_snoc l) at 2. assert (10 ∉ l ++ [13]) as Hn'. { rewrite not_elem_of_app. split; [done|]. rewrite not_elem_of_cons. split; [done|apply not_elem_of_nil]. }
    constructor; [by destruct l|done|]. apply (Hs [] (l ++ [13]) []); [by rewrite app_nil_r|done].
  - rewrite <- (drop_cr_keep l Hc) at 2. change (l ++ [10] ++ b) with (l ++ 10 :: b). constructor; [done| |].
    + apply (Hs [] l (10 :: b)); done.
    + apply IH. apply (short_sub (l ++ [10])). by rewrite <- app_assoc.
  - rewrite <- (drop_cr_snoc l) at 2. change (l ++ [13; 10] ++ b) with (l ++ [13] ++ 10 :: b). rewrite app_assoc.
    assert (10 ∉ l ++ [13]) as Hn'. { rewrite not_elem_of_app. split; [done|]. rewrite not_elem_of_cons. split; [done|apply not_elem_of_nil]. }
    constructor; [done| |].
    + apply (Hs [] (l ++ [13]) (10 :: b)); [by rewrite <- app_assoc|done].
    + apply IH. apply (short_sub (l ++ [13; 10])). by rewrite <- app_assoc.
Qed.
(** every byte string is the text of some lines *)
Lemma seg_text seg : 10 ∉ seg → ∃ l, 10 ∉ l ∧ ((l = seg ∧ no_cr_end l) ∨ seg = l ++ [13]).
Proof.
  intros Hn. destruct (decide (last seg = Some 13)) as [H|H].
  - apply last_Some in H as (l & ->). exists l. rewrite not_elem_of_app in Hn. split; [tauto|by right].
  - exists seg. split; [done|]. by left.
Qed.
Lemma text_exists b : ∃ ls, text_of ls b.
Proof.
  remember (length b) as n eqn:En. revert b En. induction n as [n IH] using lt_wf_ind. intros b En. destruct (index_byte b 10) as [i|] eqn:Ei.
  - apply index_byte_Some in Ei as (rest & H1 & H2 & H3 & H4). destruct (IH (length rest)) with (b := rest) as [ls Hl]; [|done|].
    { rewrite H1, app_length in En. cbn in En. lia. }
    destruct (seg_text _ H2) as (l & Hl1 & [[El Hc]|El]).
    + exists (l :: ls). rewrite H1, <- El. by apply (tx_lf l ls rest).
    + exists (l :: ls). rewrite H1, El, <- app_assoc. by apply (tx_crlf l ls rest).
  - apply index_byte_None in Ei. destruct (decide (b = [])) as [->|Hne]; [exists []; constructor|]. destruct (seg_text _ Ei) as (l & Hl1 & [[-> Hc]|Hc]).
    + exists [b]. by constructor.
    + exists [l]. rewrite Hc. by constructor.
Qed.

(** every body has an outcome that does not depend on how it arrives, unless its
    last, unterminated line has exactly 65536 bytes *)
Lemma scan_out_exists e b : ¬ edge_body b → ∃ ts x, scan_out e b ts x.
Proof.
  remember (length b) as n eqn:En. revert b En. induction n as [n IH] using lt_wf_ind. intros b En Hb. destruct (index_byte b 10) as [i|] eqn:Ei.
  - apply index_byte_Some in Ei as (rest & H1 & H2 & H3 & H4). destruct (decide (Z.of_nat i < line_limit)) as [Hi|Hi].
    + destruct (IH (length rest)) with (b := rest) as (ts & x & Hx); [|done| |].
      { rewrite H1, app_length in En. cbn in En. lia. }
      { intros (pre & seg & -> & Hp & Hs & Hl). apply Hb. exists (take i b ++ 10 :: pre), seg. split; [|split; [|done]].
        - rewrite H1 at 1. by rewrite <- app_assoc.
        - right. destruct Hp as [->|Hp]; [by rewrite last_snoc|]. rewrite last_app_cons. destruct pre; [done|]. done. }
      exists (drop_cr (take i b) :: ts), x. rewrite H1 at 1. constructor; [done| |done]. rewrite take_length. lia.
    + exists [], (Some ErrTooLong). constructor; [|lia]. intros Hin. apply H2. unfold line_limit in *.
      assert (take (Z.to_nat 65536) b = take (Z.to_nat 65536) (take i b)) as E by (rewrite take_take; f_equal; lia). rewrite E in Hin.
      rewrite <- (take_drop (Z.to_nat 65536) (take i b)). apply elem_of_app. by left.
  - apply index_byte_None in Ei. destruct (decide (b = [])) as [->|Hne]; [by eexists _, _; constructor|].
    destruct (decide (Z.of_nat (length b) < line_limit)); [by eexists _, _; constructor|]. destruct (decide (Z.of_nat (length b) = line_limit)) as [Hl|Hl].
    + exfalso. apply Hb. exists [], b. split; [done|]. split; [by left|done].
    + exists [], (Some ErrTooLong). constructor; [|lia]. intros Hin. apply Ei. rewrite <- (take_drop (Z.to_nat line_limit) b). apply elem_of_app. by left.
Qed.
Lemma tokens_fragmentation r r' b e : yields r b e → yields r' b e → ¬ edge_body b → tokens r = tokens r'.
Proof. intros H H' Hb. destruct (scan_out_exists e b Hb) as (ts & x & Hx). rewrite (tokens_out _ _ _ _ _ H Hx). by rewrite (tokens_out _ _ _ _ _ H' Hx). Qed.
(** complete lines followed by an overlong one *)
Lemma long_out e ls b long : text_of ls b → (b = [] ∨ last b = Some 10) → short_lines b → 10 ∉ take (Z.to_nat line_limit) long → line_limit < Z.of_nat (length long) →
  scan_out e (b ++ long) ls (Some ErrTooLong).
Proof.
  induction 1 as [|l Hne Hn Hc|l Hn|l ls b Hn Hc Ht IH|l ls b Hn Ht IH]; intros Hb Hs H1 H2.
  - by constructor.
  - exfalso. destruct Hb as [->|Hb]; [done|]. apply Hn. by apply last_Some_elem_of.
  - exfalso. destruct Hb as [Hb|Hb]; [by destruct l|]. by rewrite last_snoc in Hb.
  - rewrite <- (drop_cr_keep l Hc) at 2. change (l ++ [10] ++ b) with (l ++ 10 :: b). rewrite <- app_assoc. cbn [app]. constructor; [done| |].
    + apply (Hs [] l (10 :: b)); done.
    + apply IH; try done; [|apply (short_sub (l ++ [10])); by rewrite <- app_assoc]. destruct b as [|x b]; [by left|right]. destruct Hb as [Hb|Hb]; [by destruct l|]. rewrite app_assoc, last_app in Hb.
      destruct (last (x :: b)) eqn:El; [done|]. by apply last_None in El.
  - rewrite <- (drop_cr_snoc l) at 2. change (l ++ [13; 10] ++ b) with (l ++ [13] ++ 10 :: b). rewrite (app_assoc l [13]), <- app_assoc. cbn [app].
    assert (10 ∉ l ++ [13]) as Hn'. { rewrite not_elem_of_app. split; [done|]. rewrite not_elem_of_cons. split; [done|apply not_elem_of_nil]. }
    constructor; [done| |].
    + apply (Hs [] (l ++ [13]) (10 :: b)); [by rewrite <- app_assoc|done].
    + apply IH; try done; [|apply (short_sub (l ++ [13; 10])); by rewrite <- app_assoc]. destruct b as [|x b]; [by left|right]. destruct Hb as [Hb|Hb]; [by destruct l|]. rewrite app_assoc, last_app in Hb.
      destruct (last (x :: b)) eqn:El; [done|]. by apply last_None in El.
Qed.
