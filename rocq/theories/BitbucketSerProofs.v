From Verif Require Import Base BaseProofs BitbucketModel BitbucketSpec BitbucketProofs.
From Coq Require Import ZifyBool ZifyNat.
Ltac Zify.zify_post_hook ::= Z.div_mod_to_equations.

Lemma wf_header b n : wf b n → bb_header b ++ bb_data b = bb_serial n (bb_w b) (bb_data b).
Proof.
  intros [Hn [Hw Hs] Hb Hl]. unfold bb_header, bb_serial. rewrite Hn, u64_small; [done|].
  assert (Z.of_nat n ≤ Z.of_nat n * bb_w b) by nia. lia.
Qed.
Lemma serial_length n w d : length (bb_serial n w d) = (10 + length d)%nat.
Proof. unfold bb_serial. rewrite !app_length, put64_length. simpl. lia. Qed.

Lemma WriteTo_Ok b n out : wf b n →
  BB_WriteTo b (Writer out None) =
    (BB_Len b, None, Writer (out ++ bb_serial n (bb_w b) (bb_data b)) None).
Proof.
  intros Hwf. unfold BB_WriteTo, write. cbn [w_room w_out].
  rewrite <- app_assoc, (wf_header b n Hwf).
  assert (length (bb_header b) = 10%nat) as -> by (unfold bb_header; rewrite app_length, put64_length; done).
  unfold BB_Len. repeat f_equal.
Qed.
Lemma WriteTo_fail b n out k : wf b n →
  ∃ m e w', BB_WriteTo b (Writer out (Some k)) = (Z.of_nat m, e, w') ∧
   w_out w' = out ++ take m (bb_serial n (bb_w b) (bb_data b)) ∧
   (e = None ↔ Z.of_nat k >= BB_Len b) ∧
   (e = None → Z.of_nat m = BB_Len b) ∧ (e ≠ None → m = k).
Proof.
  intros Hwf. unfold BB_WriteTo, write. cbn [w_room w_out]. rewrite <- (wf_header b n Hwf).
  assert (Hh : length (bb_header b) = 10%nat) by (unfold bb_header; rewrite app_length, put64_length; done).
  unfold BB_Len.
  destruct (Nat.leb_spec (length (bb_header b)) k) as [H|H].
  - cbn [w_room w_out]. destruct (Nat.leb_spec (length (bb_data b)) (k - length (bb_header b))) as [H'|H'].
    + exists (length (bb_header b) + length (bb_data b))%nat. eexists _, _. split; [f_equal; f_equal; lia|].
      cbn [w_out]. split_and!.
      * rewrite take_ge by (rewrite app_length; lia). by rewrite app_assoc.
      * split; [lia|done].
      * lia.
      * done.
    + exists k. eexists _, _. split; [f_equal; f_equal; lia|]. cbn [w_out]. split_and!.
      * rewrite take_app_ge by lia. rewrite app_assoc. done.
      * split; [done|lia].
      * done.
      * done.
  - exists k. eexists _, _. split; [done|]. cbn [w_out]. split_and!.
    + rewrite take_app_le by lia. done.
    + split; [done|lia].
    + done.
    + done.
Qed.

Lemma wf_n_range b n : wf b n → 0 ≤ Z.of_nat n < 2^63.
Proof. intros [Hn [Hw Hs] Hb Hl]. assert (Z.of_nat n ≤ Z.of_nat n * bb_w b) by nia. lia. Qed.

Lemma take10_app h (l : bytes) : length h = 10%nat → take 10 (h ++ l) = h.
Proof. intros H. rewrite <- H. apply take_app. Qed.
Lemma drop10_app h (l : bytes) : length h = 10%nat → drop 10 (h ++ l) = l.
Proof. intros H. rewrite <- H. apply drop_app. Qed.

Lemma slice_2_10 (x y : Z) (nb l : bytes) : length nb = 8%nat → slice ([x; y] ++ nb ++ l) 2 10 = Ok nb.
Proof.
  intros Hl. rewrite slice_Ok by (rewrite ?app_length; simpl; lia).
  change (Z.to_nat (10 - 2)) with 8%nat. change (Z.to_nat 2) with 2%nat.
  change (drop 2 ([x; y] ++ nb ++ l)) with (nb ++ l). rewrite <- Hl, take_app. done.
Qed.
Lemma slice_10 (h d r : bytes) m : length h = 10%nat → m = Z.of_nat (length d) → slice (h ++ d ++ r) 10 (10 + m) = Ok d.
Proof.
  intros Hh ->. rewrite slice_Ok by (rewrite ?app_length; lia).
  change (Z.to_nat 10) with 10%nat. rewrite drop10_app by done.
  replace (Z.to_nat _) with (length d) by lia. rewrite take_app. done.
Qed.

Lemma WithBytes_serial b n rest : wf b n → BB_WithBytes (bb_serial n (bb_w b) (bb_data b) ++ rest) = Ok b.
Proof.
  intros Hwf. pose proof (wf_n_range b n Hwf) as Hr. destruct Hwf as [Hn Hs Hb Hl].
  unfold BB_WithBytes, BBhdrLen. rewrite app_length, serial_length.
  replace (_ <? 10) with false by lia.
  unfold bb_serial. rewrite <- !app_assoc.
  rewrite (index_lookup _ 0 1) by done. cbn [obind].
  change (negb (1 =? BBVersion)) with false. cbn match.
  rewrite (index_lookup _ 1 (bb_w b)) by done. cbn [obind].
  replace (8 <? bb_w b) with false by (destruct Hs; lia).
  rewrite slice_2_10 by apply put64_length. cbn [obind].
  rewrite get64_put64 by lia. rewrite s64_small by lia.
  rewrite bb_length_ok by done.
  rewrite app_assoc. 
  pose proof (dlen_Z n (bb_w b) Hs) as HD. rewrite <- Hl in HD. rewrite <- HD.
  replace (_ <? _) with false by lia.
  rewrite slice_10; [|rewrite app_length, put64_length; done|done].
  cbn [obind]. destruct b; simpl in *; subst; done.
Qed.

Lemma ReadFrom_delivers b n b0 r : wf b n → delivers r (bb_serial n (bb_w b) (bb_data b)) →
  BB_ReadFrom b0 r = Ok (BB_Len b, None, b, []).
Proof.
  intros Hwf Hd. pose proof (wf_n_range b n Hwf) as Hr. destruct Hwf as [Hn Hs Hb Hl].
  unfold BB_ReadFrom.
  destruct (read_full_delivers r _ 10 Hd ltac:(rewrite serial_length; lia)) as (r1 & E1 & Hd1). rewrite E1.
  unfold bb_serial in *. rewrite app_assoc in *.
  rewrite take10_app by (rewrite app_length, put64_length; done).
  rewrite drop10_app in Hd1 by (rewrite app_length, put64_length; done).
  change (index ([1; bb_w b] ++ put64 (Z.of_nat n)) 0) with (Ok 1 : outcome Z). cbn [obind].
  change (negb (1 =? BBVersion)) with false. cbn match.
  change (index ([1; bb_w b] ++ put64 (Z.of_nat n)) 1) with (Ok (bb_w b)). cbn [obind].
  unfold BBhdrLen.
  replace (slice ([1; bb_w b] ++ put64 (Z.of_nat n)) 2 10) with (Ok (put64 (Z.of_nat n)) : outcome bytes)
    by (rewrite <- (app_nil_r (put64 (Z.of_nat n))) at 2; rewrite slice_2_10; [done|apply put64_length]).
  cbn [obind]. rewrite get64_put64, s64_small, bb_length_ok by (done || lia).
  fold (dlen n (bb_w b)). rewrite <- Hl.
  destruct (read_full_delivers r1 _ (length (bb_data b)) Hd1 ltac:(lia)) as (r2 & E2 & Hd2). rewrite E2.
  rewrite take_ge by lia. rewrite drop_ge in Hd2 by lia.
  rewrite (read_delivers_nil r2 10 Hd2).
  replace (_ <? 0) with false by (symmetry; apply Z.ltb_ge; apply Z.div_pos; destruct Hs; nia).
  replace (BB (bb_data b) (Z.of_nat n) (bb_w b)) with b by (destruct b; simpl in *; subst; done).
  do 4 f_equal. rewrite app_length, put64_length. unfold BB_Len. cbn [length]. lia.
Qed.

(** a truncated serialisation *)
Lemma ReadFrom_truncated b n b0 r j : wf b n → (Z.of_nat j < BB_Len b) →
  delivers r (take j (bb_serial n (bb_w b) (bb_data b))) →
  ∃ b' r', BB_ReadFrom b0 r = Ok (Z.of_nat j, Some ErrUnexpectedEOF, b', r').
Proof.
  intros Hwf Hj Hd. pose proof (wf_n_range b n Hwf) as Hr. destruct Hwf as [Hn Hs Hb Hl].
  unfold BB_Len, BBhdrLen in Hj.
  unfold BB_ReadFrom.
  destruct (decide (j < 10)%nat) as [Hj1|Hj1].
  - assert (Hlt : length (take j (bb_serial n (bb_w b) (bb_data b))) = j) by (rewrite take_length, serial_length; lia).
    destruct (read_full_delivers_trunc r _ 10 Hd ltac:(lia)) as (r1 & E1). rewrite E1, Hlt.
    destruct (0 <? j)%nat; cbn [noEOF]; by eexists _, _.
  - destruct (read_full_delivers r _ 10 Hd ltac:(rewrite take_length, serial_length; lia)) as (r1 & E1 & Hd1). rewrite E1.
    unfold bb_serial in *. rewrite app_assoc in *.
    rewrite take_take, Nat.min_l, take10_app by (rewrite ?app_length, ?put64_length; done || lia).
    rewrite skipn_firstn_comm, drop10_app in Hd1 by (rewrite app_length, put64_length; done).
    change (index ([1; bb_w b] ++ put64 (Z.of_nat n)) 0) with (Ok 1 : outcome Z). cbn [obind].
    change (negb (1 =? BBVersion)) with false. cbn match.
    change (index ([1; bb_w b] ++ put64 (Z.of_nat n)) 1) with (Ok (bb_w b)). cbn [obind].
    unfold BBhdrLen.
    replace (slice ([1; bb_w b] ++ put64 (Z.of_nat n)) 2 10) with (Ok (put64 (Z.of_nat n)) : outcome bytes)
      by (rewrite <- (app_nil_r (put64 (Z.of_nat n))) at 2; rewrite slice_2_10; [done|apply put64_length]).
    cbn [obind]. rewrite get64_put64, s64_small, bb_length_ok by (done || lia).
    fold (dlen n (bb_w b)). rewrite <- Hl.
    replace (_ <? 0) with false by (symmetry; apply Z.ltb_ge; apply Z.div_pos; destruct Hs; nia).
    assert (Hlt : length (take (j - 10) (bb_data b)) = (j - 10)%nat) by (rewrite take_length; lia).
    destruct (read_full_delivers_trunc r1 _ (length (bb_data b)) Hd1 ltac:(lia)) as (r2 & E2). rewrite E2, Hlt.
    rewrite app_length, put64_length. cbn [length].
    replace (Z.of_nat (2 + 8) + Z.of_nat (j - 10)) with (Z.of_nat j) by lia.
    destruct (0 <? j - 10)%nat; cbn [noEOF]; by eexists _, _.
Qed.

(** ** acceptance *)
Lemma sane_header_split buf : is_bytes buf → sane_header buf → ∃ n w rest,
  buf = [1; w] ++ put64 (Z.of_nat n) ++ rest ∧ size_ok n w ∧ 0 ≤ Z.of_nat n < 2^63.
Proof.
  intros Hb (w & nb & E & Hl & Hs).
  assert (Hbt : is_bytes ([1; w] ++ nb)) by (rewrite <- E; by apply is_bytes_take).
  apply is_bytes_app in Hbt. destruct Hbt as [_ Hnb].
  pose proof (get64_range nb Hnb Hl) as Hr.
  exists (Z.to_nat (get64 nb)), w, (drop 10 buf). rewrite Z2Nat.id by lia. rewrite put64_get64 by done.
  split_and!; [|done|lia|].
  - rewrite <- (take_drop 10 buf) at 1. rewrite E. by rewrite <- app_assoc.
  - destruct Hs as [Hw Hs]. rewrite Z2Nat.id in Hs by lia. assert (get64 nb ≤ get64 nb * w) by nia. lia.
Qed.

(** what WithBytes does with a sane header *)
Lemma WithBytes_sane n w rest : size_ok n w → 0 ≤ Z.of_nat n < 2^63 →
  BB_WithBytes ([1; w] ++ put64 (Z.of_nat n) ++ rest) =
    if (length rest <? dlen n w)%nat then Err ErrShortBuffer
    else Ok (BB (take (dlen n w) rest) (Z.of_nat n) w).
Proof.
  intros Hs Hr. unfold BB_WithBytes, BBhdrLen. rewrite !app_length, put64_length. cbn [length].
  replace (_ <? 10) with false by lia.
  rewrite (index_lookup _ 0 1) by done. cbn [obind].
  change (negb (1 =? BBVersion)) with false. cbn match.
  rewrite (index_lookup _ 1 w) by done. cbn [obind].
  replace (8 <? w) with false by (destruct Hs; lia).
  rewrite slice_2_10 by apply put64_length. cbn [obind].
  rewrite get64_put64 by lia. rewrite s64_small by lia. rewrite bb_length_ok by done.
  pose proof (dlen_Z n w Hs) as HD. rewrite <- HD.
  destruct (Nat.ltb_spec (length rest) (dlen n w)) as [H|H].
  - replace (_ <? _) with true by lia. done.
  - replace (_ <? _) with false by lia. rewrite app_assoc.
    rewrite <- (take_drop (dlen n w) rest) at 1.
    rewrite slice_10; [done|rewrite app_length, put64_length; done|rewrite take_length; lia].
Qed.
Lemma WithBytes_sane_iff buf : is_bytes buf → sane_header buf →
  (∃ b n, BB_WithBytes buf = Ok b ∧ wf b n ∧ ∃ rest, buf = bb_serial n (bb_w b) (bb_data b) ++ rest) ∨
  (BB_WithBytes buf = Err ErrShortBuffer ∧
    ∀ b n rest, wf b n → buf ≠ bb_serial n (bb_w b) (bb_data b) ++ rest).
Proof.
  intros Hb Hs. destruct (sane_header_split buf Hb Hs) as (n & w & rest & -> & Hs' & Hr).
  apply is_bytes_app in Hb. destruct Hb as [_ Hb]. apply is_bytes_app in Hb. destruct Hb as [_ Hb].
  rewrite WithBytes_sane by done.
  destruct (Nat.ltb_spec (length rest) (dlen n w)) as [H|H].
  - right. split; [done|]. intros b n' rest' Hwf E.
    pose proof (WithBytes_serial b n' rest' Hwf) as E2. rewrite <- E in E2.
    rewrite WithBytes_sane in E2 by done.
    replace (length rest <? dlen n w)%nat with true in E2 by lia. done.
  - left. exists (BB (take (dlen n w) rest) (Z.of_nat n) w), n. split; [done|]. split.
    + constructor; simpl; [done|done|by apply is_bytes_take|rewrite take_length; lia].
    + exists (drop (dlen n w) rest). unfold bb_serial. cbn [bb_w bb_data]. rewrite <- !app_assoc, take_drop. done.
Qed.
Lemma WithBytes_reject buf : is_bytes buf →
  (length buf < 10)%nat ∨ buf !! 0%nat ≠ Some 1 ∨ (∃ w, buf !! 1%nat = Some w ∧ 8 < w) →
  ∃ e, BB_WithBytes buf = Err e.
Proof.
  intros Hb H. unfold BB_WithBytes, BBhdrLen. destruct (Z.ltb_spec (Z.of_nat (length buf)) 10) as [Hl|Hl]; [eauto|].
  destruct buf as [|v [|w buf]]; [simpl in Hl; lia ..|].
  rewrite (index_lookup _ 0 v) by done. cbn [obind].
  destruct (Z.eqb_spec v BBVersion) as [Ev|Ev]; simpl; [|eauto].
  change (Pos.to_nat 1) with 1%nat.
  rewrite (index_lookup _ 1 w) by done. cbn [obind].
  destruct (Z.ltb_spec 8 w) as [Hw|Hw]; [eauto|].
  destruct H as [H|[H|(w' & H & Hw')]]; simpl in *; [lia|unfold BBVersion in Ev; congruence|]. 
  injection H as ->. lia.
Qed.

(** write-through *)
Lemma ops_flush buf b n os b' rest : wf b n → buf = bb_serial n (bb_w b) (bb_data b) ++ rest →
  Forall (bop_ok n) os → bb_ops b os = Ok b' →
  BB_flush buf b' = bb_serial n (bb_w b') (bb_data b') ++ rest ∧ bb_w b' = bb_w b.
Proof.
  intros Hwf -> Hos E. destruct (ops_sim os b n (bb_w b) Hwf eq_refl Hos) as (b2 & E2 & Hwf2 & Hw2 & _).
  rewrite E in E2. injection E2 as <-. split; [|done].
  unfold BB_flush, splice. unfold bb_serial. rewrite Hw2, <- !app_assoc.
  rewrite (app_assoc [1; bb_w b]), (app_assoc [1; bb_w b]).
  rewrite take10_app by (rewrite app_length, put64_length; done).
  rewrite <- drop_drop. rewrite drop10_app by (rewrite app_length, put64_length; done).
  do 2 f_equal.
  assert (length (bb_data b') = length (bb_data b)) as -> by (rewrite (wf_len _ _ Hwf), (wf_len _ _ Hwf2), Hw2; done).
  apply drop_app.
Qed.

(** ReadFrom over a reader that never returns data together with EOF *)
Lemma read_plain_eof cs err k d r : read k (plain cs err) = (d, Some ErrEOF, r) → cs = [] ∧ err = false ∧ d = [].
Proof.
  destruct cs as [|c cs]; unfold plain; simpl.
  - destruct err; simpl; intros H; [congruence|]. by injection H as <- <-.
  - destruct (_ <=? _)%nat; congruence.
Qed.
Lemma ReadFrom_plain b0 cs err : is_bytes (concat cs) → sane_header (concat cs) →
  ∃ k e b r, BB_ReadFrom b0 (plain cs err) = Ok (k, e, b, r) ∧
    (e = None → err = false ∧ ∃ n, wf b n ∧ concat cs = bb_serial n (bb_w b) (bb_data b) ∧ k = BB_Len b).
Proof.
  intros Hb Hs. destruct (sane_header_split _ Hb Hs) as (n & w & rest & E & Hs' & Hr).
  unfold BB_ReadFrom.
  destruct (read_loop_plain cs err 10) as (h & e1 & cs1 & E1 & HE & He). unfold read_full at 1. rewrite E1.
  destruct e1 as [e1|].
  - destruct He as (Hl & -> & ->). destruct err.
    + do 4 eexists. split; [done|]. discriminate.
    + destruct (0 <? length h)%nat; do 4 eexists; (split; [done|]); discriminate.
  - assert (h = [1; w] ++ put64 (Z.of_nat n) ∧ concat cs1 = rest) as [-> Hc1].
    { rewrite E, app_assoc in HE. apply app_inj_1 in HE; [naive_solver|].
      rewrite He, app_length, put64_length. done. }
    rewrite (index_lookup _ 0 1) by done. cbn [obind].
    change (negb (1 =? BBVersion)) with false. cbn match.
    rewrite (index_lookup _ 1 w) by done. cbn [obind]. unfold BBhdrLen.
    replace (slice ([1; w] ++ put64 (Z.of_nat n)) 2 10) with (Ok (put64 (Z.of_nat n)) : outcome bytes)
      by (rewrite <- (app_nil_r (put64 (Z.of_nat n))) at 2; rewrite slice_2_10; [done|apply put64_length]).
    cbn [obind]. rewrite get64_put64, s64_small, bb_length_ok by (done || lia).
    pose proof (dlen_Z n w Hs') as HD. rewrite <- HD. replace (_ <? 0) with false by lia. rewrite Nat2Z.id.
    destruct (read_loop_plain cs1 err (dlen n w)) as (d & e2 & cs2 & E2 & HE2 & He2). unfold read_full. rewrite E2.
    destruct e2 as [e2|].
    + destruct He2 as (Hl & -> & ->). destruct err.
      * do 4 eexists. split; [done|]. discriminate.
      * destruct (0 <? length d)%nat; do 4 eexists; (split; [done|]); discriminate.
    + destruct (read 10 (plain cs2 err)) as [[t e3] r3] eqn:E3.
      destruct e3 as [e3|]; [|do 4 eexists; split; [done|]; discriminate].
      destruct (decide (e3 = ErrEOF)) as [->|Hne].
      * apply read_plain_eof in E3. destruct E3 as (-> & -> & ->).
        do 4 eexists. split; [done|]. intros _. split; [done|]. exists n. simpl bb_w. simpl bb_data.
        simpl concat in HE2. rewrite app_nil_r in HE2.
        split_and!.
        -- constructor; simpl; [done|done| |done].
           rewrite E in Hb. apply is_bytes_app in Hb. destruct Hb as [_ Hb]. apply is_bytes_app in Hb. destruct Hb as [_ Hb].
           rewrite <- HE2, Hc1. done.
        -- rewrite E, <- Hc1, HE2. done.
        -- rewrite app_length, put64_length. unfold BB_Len. simpl. lia.
      * do 4 eexists. split; [destruct e3; try done|]. discriminate.
Qed.
