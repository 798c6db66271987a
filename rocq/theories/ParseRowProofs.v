From Coq Require Import ZifyBool ZifyNat.
From Verif Require Import Base BaseProofs Float64 HllModel CollationModel CollationSpec BufmapModel BufmapSpec QueryModel ServerModel ServerSpec ScanProofs.
Local Open Scope Z_scope.

Lemma slice_tail {A} (pre rest : list A) : slice (pre ++ rest) (Z.of_nat (length pre)) (Z.of_nat (length (pre ++ rest))) = Ok rest.
Proof.
  rewrite slice_Ok by (rewrite ?app_length; lia). f_equal. rewrite Nat2Z.id, drop_app. apply take_ge. rewrite app_length. lia.
Qed.
Lemma slice_mid {A} (pre f rest : list A) : slice (pre ++ f ++ rest) (Z.of_nat (length pre)) (Z.of_nat (length pre) + Z.of_nat (length f)) = Ok f.
Proof.
  rewrite slice_Ok by (rewrite ?app_length; lia). f_equal. rewrite Nat2Z.id, drop_app. replace (Z.to_nat _) with (length f) by lia. apply take_app.
Qed.
Lemma index_mid (pre : bytes) b rest : index (pre ++ b :: rest) (Z.of_nat (length pre)) = Ok b.
Proof.
  unfold index. replace (_ && _) with true by (rewrite app_length; cbn [length]; lia). rewrite Nat2Z.id, lookup_app_r by lia. by rewrite Nat.sub_diag.
Qed.

(** the delimiter loop splits *)
Lemma split_on_app d x y : d ∉ x → split_on d (x ++ d :: y) = x :: split_on d y.
Proof.
  induction x as [|a x IH]; intros H; cbn [app split_on].
  - destruct (split_on d y) as [|w ws] eqn:E; [|by rewrite Z.eqb_refl]. exfalso. clear -E. destruct y; cbn in E; [done|]. repeat case_match; done.
  - rewrite not_elem_of_cons in H. rewrite IH by tauto. replace (a =? d) with false by lia. done.
Qed.
Lemma split_on_none d x : d ∉ x → split_on d x = [x].
Proof.
  induction x as [|a x IH]; intros H; [done|]. cbn [split_on]. rewrite not_elem_of_cons in H. rewrite IH by tauto. replace (a =? d) with false by lia. done.
Qed.
Lemma fields_loop_split d data : ∀ fuel pre rest, data = pre ++ rest → (length rest < fuel)%nat →
  fields_loop fuel data (Z.of_nat (length pre)) d = Ok (map parseFV (split_on d rest)).
Proof.
  induction fuel as [|fuel IH]; intros pre rest E Hf; [lia|]. cbn [fields_loop]. rewrite E at 1. rewrite E at 1. rewrite slice_tail. cbn [obind].
  destruct (index_byte rest d) as [off|] eqn:Ei.
  - apply index_byte_Some in Ei as (r & H1 & H2 & H3 & H4). rewrite E, H1. rewrite H1 in Hf.
    assert (length (take off rest) = off) as Ho by (rewrite take_length; lia).
    rewrite <- Ho at 2. rewrite slice_mid. cbn [obind].
    replace (Z.of_nat (length pre) + Z.of_nat off + 1) with (Z.of_nat (length (pre ++ take off rest ++ [d]))) by (rewrite !app_length, Ho; cbn [length]; lia).
    rewrite <- H1, <- E. rewrite (IH _ r). 2:{ rewrite E, H1 at 1. by rewrite <- !app_assoc. } 2:{ rewrite app_length in Hf. cbn in Hf. lia. }
    cbn [obind]. rewrite H1 at 2. by rewrite split_on_app.
  - apply index_byte_None in Ei. by rewrite split_on_none.
Qed.
Lemma parseFV_text fv : 61 ∉ fv_F fv → parseFV (fv_text fv) = fv.
Proof.
  intros H. unfold parseFV, fv_text. change (str "=") with [61]. cbn [app]. rewrite index_byte_app by done. rewrite take_app.
  rewrite drop_app_ge by lia. replace (length (fv_F fv) + 1 - length (fv_F fv))%nat with 1%nat by lia. by destruct fv.
Qed.
Lemma split_joined d items : items ≠ [] → Forall (λ x, d ∉ x) items → split_on d (joined d items) = items.
Proof.
  intros Hne HF. induction HF as [|x items Hx HF IH]; [done|]. destruct items as [|y items]; [by apply split_on_none|].
  cbn [joined app] in *. rewrite split_on_app by done. by rewrite IH.
Qed.

(** timestamps *)
Lemma digits_value_acc l : ∀ acc, fold_left (λ acc b : Z, 10 * acc + (b - 48)) l acc = acc * 10 ^ Z.of_nat (length l) + digits_value l.
Proof.
  unfold digits_value. induction l as [|b l IH]; intros acc; cbn [fold_left length]; [rewrite Z.pow_0_r; lia|]. rewrite IH. rewrite (IH (10 * 0 + (b - 48))).
  rewrite Nat2Z.inj_succ, Z.pow_succ_r by lia. lia.
Qed.
Lemma decimal_value ds v : decimal ds v ↔ Forall is_digit ds ∧ v = digits_value ds.
Proof.
  revert v. induction ds as [|d ds IH]; intros v; cbn [decimal].
  - split; [intros ->; by split|]. by intros [_ ->].
  - assert (digits_value (d :: ds) = (d - 48) * 10 ^ Z.of_nat (length ds) + digits_value ds) as E.
    { unfold digits_value at 1. cbn [fold_left]. rewrite digits_value_acc. replace (10 * 0 + (d - 48)) with (d - 48) by lia. done. }
    rewrite E. split.
    + intros (v' & H1 & H2 & ->). apply IH in H1 as [H1 ->]. split; [by constructor|done].
    + intros [H1 ->]. inversion_clear H1. exists (digits_value ds). split; [by apply IH|]. done.
Qed.
Lemma decimal_bound ds v : decimal ds v → 0 ≤ v < 10 ^ Z.of_nat (length ds).
Proof.
  revert v. induction ds as [|d ds IH]; intros v; cbn [decimal length]; [intros ->; cbn; lia|]. intros (v' & H1 & H2 & ->). apply IH in H1.
  rewrite Nat2Z.inj_succ, Z.pow_succ_r by lia. unfold is_digit in H2. nia.
Qed.
Definition stop_digit (rest : bytes) : Prop := match rest with [] => True | c :: _ => ¬ is_digit c end.
Lemma ts_loop_digits data ds rest : Forall is_digit ds → ∀ pre n, data = pre ++ ds ++ rest → (length ds = n ∨ (length ds ≤ n)%nat ∧ stop_digit rest) → (length pre + n ≤ length data)%nat →
  ts_loop data (length pre) n = Ok (length pre + length ds)%nat.
Proof.
  intros HF. induction HF as [|d ds Hd HF IH]; intros pre n E H Hn; cbn [length].
  - rewrite Nat.add_0_r. destruct n as [|n]; [done|]. destruct H as [H|[_ H]]; [cbn in H; lia|]. cbn [ts_loop].
    destruct rest as [|c rest]; [exfalso; rewrite E, app_length in Hn; cbn in Hn; lia|]. rewrite E. cbn [app]. rewrite index_mid. cbn [obind].
    cbn in H. unfold is_digit in H. destruct ((c <? 48) || (57 <? c)) eqn:Ec; [done|lia].
  - destruct n as [|n]; [cbn in H; lia|]. cbn [ts_loop]. rewrite E at 1. cbn [app]. rewrite index_mid. cbn [obind]. unfold is_digit in Hd.
    destruct ((d <? 48) || (57 <? d)) eqn:Ec; [lia|]. replace (S (length pre)) with (length (pre ++ [d])) by (rewrite app_length; cbn; lia).
    rewrite (IH (pre ++ [d]) n).
    + f_equal. rewrite app_length. cbn. lia.
    + by rewrite E, <- app_assoc.
    + cbn in H. destruct H as [H|[H1 H2]]; [left; lia|right; split; [lia|done]].
    + rewrite app_length. cbn. lia.
Qed.
(** every text starts with a maximal run of at most n digits *)
Lemma digit_prefix n (data : bytes) : ∃ ds rest, data = ds ++ rest ∧ Forall is_digit ds ∧ (length ds = n ∨ (length ds ≤ n)%nat ∧ stop_digit rest).
Proof.
  revert data. induction n as [|n IH]; intros data; [exists [], data; split; [done|]; split; [constructor|by left]|].
  destruct data as [|c data]; [exists [], []; split; [done|]; split; [constructor|right; cbn; split; [lia|done]]|].
  destruct (decide (48 ≤ c ∧ c ≤ 57)) as [Hc|Hc].
  - destruct (IH data) as (ds & rest & -> & H1 & H2). exists (c :: ds), rest. split; [done|]. split; [constructor; [unfold is_digit; lia|done]|]. cbn. destruct H2 as [?|[? ?]]; [left; lia|right; split; [lia|done]].
  - exists [], (c :: data). split; [done|]. split; [constructor|]. right. split; [cbn; lia|]. cbn. unfold is_digit. lia.
Qed.
(** the whole of parseRow, given the maximal run of digits *)
Definition row_fields (rest : bytes) : list FV := match rest with [] => [] | d :: rest => map parseFV (split_on d rest) end.
Lemma parseRow_eq ds rest : Forall is_digit ds → (length ds = 20%nat ∨ (length ds ≤ 20)%nat ∧ stop_digit rest) →
  parseRow (ds ++ rest) = if decide (ds = []) then Err ErrNoTimestamp else if digits_value ds <? 2^63 then Ok (MkRow (s64 (digits_value ds * 1000)) (row_fields rest)) else Err ErrAtoi.
Proof.
  intros HF H. unfold parseRow. pose proof (ts_loop_digits (ds ++ rest) ds rest HF [] (Nat.min 20 (length (ds ++ rest))) eq_refl) as E. cbn [length] in E.
  rewrite E; [|rewrite app_length; destruct H as [H|[H1 H2]]; [lia|right; split; [lia|done]]|lia]. clear E. cbn [obind]. rewrite Nat.add_0_l.
  destruct (decide (ds = [])) as [->|Hne]; [done|]. destruct (length ds =? 0)%nat eqn:E0; [destruct ds; [done|cbn in E0; lia]|].
  pose proof (slice_mid [] ds rest) as E. cbn [length app] in E. change (Z.of_nat 0) with 0 in E. rewrite Z.add_0_l in E. rewrite E. cbn [obind]. unfold Atoi. destruct (digits_value ds <? 2^63); [|done]. cbn [obind].
  destruct (length ds =? length (ds ++ rest))%nat eqn:El.
  - rewrite app_length in El. destruct rest; [done|]. cbn in El. lia.
  - destruct rest as [|d rest]; [rewrite app_nil_r in El; lia|]. rewrite index_mid. cbn [obind].
    replace (Z.of_nat (length ds) + 1) with (Z.of_nat (length (ds ++ [d]))) by (rewrite app_length; cbn; lia).
    rewrite (fields_loop_split d _ _ (ds ++ [d]) rest); [done|by rewrite <- app_assoc|]. rewrite app_length. cbn. lia.
Qed.
Lemma parseRow_total data : parseRow data ≠ Panic.
Proof.
  destruct (digit_prefix 20 data) as (ds & rest & -> & H1 & H2). rewrite parseRow_eq by done. destruct (decide _); [done|]. by destruct (_ <? _).
Qed.
Lemma parseRow_accepts data : (∃ r, parseRow data = Ok r) ↔
  ∃ ds rest v, data = ds ++ rest ∧ ds ≠ [] ∧ decimal ds v ∧ (length ds = 20%nat ∨ (length ds ≤ 20)%nat ∧ stop_digit rest) ∧ v < 2^63.
Proof.
  split.
  - intros [r E]. destruct (digit_prefix 20 data) as (ds & rest & -> & H1 & H2). rewrite parseRow_eq in E by done. destruct (decide (ds = [])) as [|Hne]; [done|].
    destruct (digits_value ds <? 2^63) eqn:Ev; [|done]. exists ds, rest, (digits_value ds). split; [done|]. split; [done|]. split; [by apply decimal_value|]. split; [done|lia].
  - intros (ds & rest & v & -> & Hne & Hd & H & Hv). apply decimal_value in Hd as [Hd ->]. rewrite parseRow_eq by done. rewrite decide_False by done. replace (_ <? _) with true by lia. by eexists.
Qed.
Lemma pow18 : 10 ^ 18 < 2 ^ 63. Proof. reflexivity. Qed.
Lemma parseRow_line ds v d fvs : decimal ds v → ds ≠ [] → (length ds ≤ 18)%nat → ¬ is_digit d → d ≠ 61 → fvs ≠ [] →
  Forall (λ fv, d ∉ fv_F fv ∧ d ∉ fv_V fv ∧ 61 ∉ fv_F fv) fvs →
  parseRow (ds ++ [d] ++ joined d (map fv_text fvs)) = Ok (MkRow (s64 (v * 1000)) fvs).
Proof.
  intros Hdec Hne Hlen Hd Hd61 Hf HF. pose proof (decimal_bound _ _ Hdec) as Hb. apply decimal_value in Hdec as [Hds ->].
  assert (10 ^ Z.of_nat (length ds) ≤ 10 ^ 18) as Hp by (apply Z.pow_le_mono_r; lia). pose proof pow18.
  rewrite parseRow_eq; [|done|right; split; [lia|done]]. rewrite decide_False by done. replace (_ <? _) with true by lia. do 2 f_equal. cbn [app row_fields].
  rewrite split_joined.
  - rewrite map_map. rewrite <- (map_id fvs) at 2. apply map_ext_in. intros fv Hin. apply elem_of_list_In in Hin. rewrite Forall_forall in HF. apply parseFV_text. by apply HF.
  - by destruct fvs.
  - apply Forall_forall. intros x Hx. apply elem_of_list_In, in_map_iff in Hx as (fv & <- & Hin). apply elem_of_list_In in Hin. rewrite Forall_forall in HF. destruct (HF fv Hin) as (A & B & _).
    unfold fv_text. change (str "=") with [61]. rewrite !not_elem_of_app. split; [done|]. split; [|done]. rewrite not_elem_of_cons. split; [done|apply not_elem_of_nil].
Qed.
Lemma parseRow_bare ds v : decimal ds v → ds ≠ [] → (length ds ≤ 18)%nat → parseRow ds = Ok (MkRow (s64 (v * 1000)) []).
Proof.
  intros Hdec Hne Hlen. pose proof (decimal_bound _ _ Hdec) as Hb. apply decimal_value in Hdec as [Hds ->].
  assert (10 ^ Z.of_nat (length ds) ≤ 10 ^ 18) as Hp by (apply Z.pow_le_mono_r; lia). pose proof pow18.
  rewrite <- (app_nil_r ds) at 1. rewrite parseRow_eq; [|done|right; split; [lia|done]]. rewrite decide_False by done. replace (_ <? _) with true by lia. done.
Qed.
(** rows parsed from bytes hold bytes *)
Lemma split_on_bytes d l : is_bytes l → Forall is_bytes (split_on d l).
Proof.
  unfold is_bytes. intros H. induction H as [|b l Hb H IH]; cbn [split_on]; [constructor; constructor|].
  destruct (split_on d l) as [|w ws]; [constructor; [by constructor|constructor]|].
  inversion_clear IH as [|? ? Hw Hws]. destruct (b =? d); constructor; [constructor|by constructor|by constructor|done].
Qed.
Lemma parseFV_bytes l : is_bytes l → is_bytes (fv_F (parseFV l)) ∧ is_bytes (fv_V (parseFV l)).
Proof. intros H. unfold parseFV. destruct (index_byte l 61); cbn; [split; [by apply Forall_take|by apply Forall_drop]|split; [done|constructor]]. Qed.
Lemma parseRow_bytes l r : is_bytes l → parseRow l = Ok r → Forall (λ fv, is_bytes (fv_F fv) ∧ is_bytes (fv_V fv)) (row_data r).
Proof.
  intros Hl E. destruct (digit_prefix 20 l) as (ds & rest & -> & H1 & H2). rewrite parseRow_eq in E by done. destruct (decide _); [done|]. destruct (_ <? _); [|done]. injection E as <-.
  cbn [row_data]. apply Forall_app in Hl as [_ Hl]. destruct rest as [|d rest]; cbn; [constructor|]. inversion_clear Hl. apply Forall_forall. intros fv Hfv.
  apply elem_of_list_In, in_map_iff in Hfv as (x & <- & Hx). apply parseFV_bytes. apply elem_of_list_In in Hx. pose proof (split_on_bytes d rest) as Hs. rewrite Forall_forall in Hs; auto.
Qed.
