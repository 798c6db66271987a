From Coq Require Import ZifyBool ZifyNat.
From Verif Require Import Base BaseProofs Probe BufmapModel BufmapSpec BufconcModel BufconcSpec BufconcProofs BufconcInv.
Local Open Scope Z_scope.

Lemma held_slot s m' ts h x t o p : (t < length ts)%nat → sl_seq (sl m' x) = incs (key_at m' x) h mod 2^32 → sl_mu (sl m' x) = true → ¬ dead (key_at m' x) h → crit x p = true →
  hold s (key_at m' x) (bytes_at m' x) h o p → free x ts (λ t', t' = t) → slot_ok s m' (<[t := Some (o, p)]> ts) h x.
Proof.
  intros Hlt Hseq Hmu Hnd Hc Hh F. split; [done|]. right. left. split; [done|]. split; [done|]. exists t, o, p. rewrite list_lookup_insert by done. splits; try done. apply free_set; try done.
Qed.
Lemma seq_step x : u32 (x mod 2^32 + 1) = (x + 1) mod 2^32.
Proof. unfold u32. by rewrite Z.add_mod_idemp_l by lia. Qed.
Lemma begins_1 t k : begins k [EBegin t k] = 1. Proof. unfold begins. cbn. by rewrite decide_True. Qed.
Lemma writes_1 t k fn init : writes k [EDone t k fn init] = 1. Proof. unfold writes. cbn. by rewrite decide_True. Qed.
Lemma dead_same k h es : (∀ t fn init, EPanic t k fn init ∉ es) → dead k (h ++ es) → dead k h.
Proof. intros H (t & fn & init & Hin). exists t, fn, init. apply elem_of_app in Hin as [?|Hin]; [done|]. by destruct (H _ _ _ Hin). Qed.
Lemma slice_get l s m x : dims_ok l s → shape l s m → 0 ≤ x < l →
  slice (m_values m) (s64 (x * m_s m)) (s64 (x * (m_s m + 1))) = if x * (s + 1) <=? l * s then Ok (take (Z.to_nat x) (drop (Z.to_nat (x * s)) (m_values m))) else Panic.
Proof.
  intros Hd I Hx. rewrite (s64_lo Hd I), (s64_ghi Hd I) by done. unfold slice. rewrite (sh_vals _ _ _ I). destruct Hd as (? & ? & ?). assert (0 ≤ x * s ∧ x * s ≤ x * (s + 1)) as [B1 B2] by nia. assert (0 ≤ l * s) by nia.
  assert ((0 <=? x * s) = true) as -> by (by apply Z.leb_le). assert ((x * s <=? x * (s + 1)) = true) as -> by (by apply Z.leb_le). rewrite Z2Nat.id by done. cbn [andb].
  destruct (_ <=? _); [|done]. do 2 f_equal. lia.
Qed.
Lemma slice_get_len l s m x : dims_ok l s → shape l s m → 0 ≤ x < l → x * (s + 1) ≤ l * s → length (take (Z.to_nat x) (drop (Z.to_nat (x * s)) (m_values m))) = Z.to_nat x.
Proof. intros Hd I Hx H. rewrite take_length, drop_length, (sh_vals _ _ _ I). destruct Hd as (? & ? & ?). assert (0 ≤ x * s) by nia. assert (x * (s + 1) = x * s + x) by lia. lia. Qed.
Lemma copy_byte (b d : bytes) j n v : (j < n)%nat → (n ≤ length b)%nat → (n ≤ length d)%nat → d !! j = Some v → take j b = take j d → take (S j) (<[j := v]> b) = take (S j) d.
Proof.
  intros Hj Hb Hd Lv E. rewrite (take_S_r d j v) by done. rewrite (take_S_r (<[j := v]> b) j v) by (apply list_lookup_insert; lia). by rewrite take_insert, E.
Qed.

Lemma step_inv l s c h a c' es : inv l s c h → action_ok a → step c a = (c', es) → inv l s c' (h ++ es).
Proof.
  intros I Ha. pose proof (v_dims _ _ _ _ I) as Hd. pose proof (v_shape _ _ _ _ I) as Hsh. assert (0 < l < 2^63) as Hl by (destruct Hd as (?&?&?); nia). destruct a as [t o|t]; cbn [step].
  - destruct (c_threads c !! t) as [[q|]|] eqn:L; [by intros [= <- <-]; rewrite app_nil_r| |by intros [= <- <-]; rewrite app_nil_r]. intros [= <- <-].
    eapply calm_inv; try done.
    + intros o2 p2 [= <- <-]. destruct o as [k b|k fn]; cbn; [done|]. by destruct (k =? 0).
    + by repeat constructor.
    + intros t' Hne. repeat constructor. congruence.
    + intros k _ (? & ? & ? & Hin). by apply elem_of_list_singleton in Hin.
    + intros o2 p2 [= <- <-]. exists h, []. split; [done|]. split; [constructor|]. destruct o as [k b|k fn]; cbn in Ha |- *.
      * splits; try lia; try done.
      * destruct (Z.eqb_spec k 0) as [->|H0]; cbn; [right; split; [done|by left]|]. splits; try lia; try done. apply passed_0.
  - destruct (c_threads c !! t) as [[[o p]|]|] eqn:L; [|by intros [= <- <-]; rewrite app_nil_r..].
    destruct (v_thr _ _ _ _ I t o p L) as (h1 & h2 & Eh & Hq & Ht). assert (t < length (c_threads c))%nat as Hlt by (by eapply lookup_lt_Some).
    set (m := c_map c) in *.
    assert (∀ i k, 0 ≤ k < 2^64 → (i ≤ 10)%nat → (let! x := pos (m_l m) k i in let! sl := index (m_keys m) x in Ok (x, sl)) = Ok (probe l k i, sl m (probe l k i))) as Hpr.
    { intros i k Hk Hi. rewrite (sh_l _ _ _ Hsh), pos_probe by done. cbn [obind]. rewrite (index_sl Hsh) by (apply probe_range; lia). done. }
    assert (∀ r, p = PRet r → inv l s (MkCfg (c_map c) (<[t:=None]> (c_threads c))) (h ++ [ERet t o r])) as Hret.
    { intros r ->. eapply calm_inv; try done.
      - intros ? ? [= <- <-]. done.
      - by repeat constructor.
      - intros t' Hne. repeat constructor. congruence.
      - intros k Hk0 (t' & b & b' & Hin). apply elem_of_list_singleton in Hin. injection Hin as -> <- <-. destruct Ht as (_ & _ & Ht). destruct (Ht Hk0) as (x & ? & ? & _). eauto.
      - intros t' o' r' [= <- <- <-]. eauto. }
    destruct o as [k buf|k fn]; destruct p as [i|x b|x q j b|x q b|i init|i x|i x|x init|x init|x init p|x init r|x r|r]; try (by destruct Ht); cbn [step_call]; try (intros [= <- <-]; by apply Hret).
    + (* GLoad *) destruct Ht as (Hk & Hi & _). rewrite Hpr by done. intros [= <- <-]. rewrite app_nil_r. rewrite <- key_at_sl.
      eapply pure_inv; [exact I|exact L|done|destruct (_ =? k); [done|unfold greprobe; by destruct (_ <? _)%nat]|].
      intros g1 g2 Eg _ (_ & _ & Hnd & Hn). pose proof (probe_range l k i ltac:(lia)) as Hx. destruct (Z.eqb_spec (key_at m (probe l k i)) k) as [E|E].
      { cbn. splits; try lia; try done. }
      assert (k ≠ 0 → seen k g1 → ∀ j, (j < S i)%nat → key_at m (probe l k j) ≠ k) as Hn'.
      { intros H0 Hs j Hj. destruct (decide (j = i)) as [->|]; [done|]. apply Hn; [done..|lia]. }
      unfold greprobe, maxReprobe. destruct (Nat.ltb_spec 10 (S i)); cbn; [|splits; try lia; done]. splits; try done. intros Hk0 Hs.
      destruct (v_seen _ _ _ _ I k Hk0) as (x & Hxx & Ex). { left. rewrite Eg. by apply seen_app. }
      destruct (placed_found l _ x k (v_place _ _ _ _ I) Hxx Ex Hk0) as (j & Hj & -> & _). apply (Hn' Hk0 Hs j); [lia|done].
    + (* GSeq1 *) destruct Ht as (Hx & Hnd & Ek & [Hb1 Hb2]). rewrite (index_sl Hsh) by done. destruct (_ mod 2 =? 0) eqn:Ev.
      2:{ intros [= <- <-]. rewrite app_nil_r. by eapply pure_inv. }
      rewrite (slice_get l s) by done. destruct (Z.leb_spec (x * (s + 1)) (l * s)) as [Hle|Hgt].
      2:{ intros [= <- <-]. rewrite app_nil_r. eapply pure_inv; [exact I|exact L|done..|]. intros g1 g2 _ _ (_ & Hnd' & _ & _). cbn. split; [done|]. intros Hk0. exists x. auto. }
      rewrite (slice_get_len l s) by done. intros [= <- <-]. rewrite app_nil_r. apply (even_balance I Hx) in Ev.
      eapply pure_inv; [exact I|exact L|done|by destruct (_ <? _)%nat|]. intros g1 g2 Eg _ (_ & Hnd' & _ & _).
      assert (∀ j, j = 0%nat → k ≠ 0 → snap s k g1 g2 t (OGet k buf) (sl_seq (sl m x)) j b) as Hsn.
      { intros j -> Hk0. exists g2, []. rewrite app_nil_r. rewrite <- Eg. specialize (Ek Hk0). destruct (v_slot _ _ _ _ I x Hx) as [Hseq _]. fold m in Hseq, Ev. rewrite Ek in Ev, Hseq. splits; try done. }
      assert (Nat.min (length b) (Z.to_nat x) = ncopy x buf) as En by (unfold ncopy; by rewrite Hb1). rewrite En.
      destruct (Nat.ltb_spec 0 (ncopy x buf)); cbn [thr]; splits; try lia; try done; intros; apply Hsn; (done || lia).
    + (* GCopy *) destruct Ht as (Hx & Hnd & Ek & [Hb1 Hb2] & Hj & Hle & Hsn). intros [= <- <-]. rewrite app_nil_r. rewrite (s64_lo Hd Hsh), (s64_ghi Hd Hsh) by done. rewrite insert_length, Hb1.
      set (b' := <[j := _]> b). replace (x * (s + 1) - x * s) with x by lia.
      eapply pure_inv; [exact I|exact L|done|by destruct (_ <? _)|]. intros g1 g2 Eg _ (_ & Hnd' & _ & _ & _ & _ & Hsn'). clear Hsn.
      assert (bufok x buf b') as Hbo. { split; [unfold b'; by rewrite insert_length|]. unfold b'. rewrite drop_insert_gt by lia. done. }
      assert (k ≠ 0 → Z.of_nat (length buf) ≤ s → snap s k g1 g2 t (OGet k buf) q (S j) b') as Hsn.
      { intros Hk0 Hlb. destruct (Hsn' Hk0 Hlb) as (a1 & a2 & -> & Hbal & Hqq & Hcp). exists a1, a2. splits; try done. intros H0. specialize (Hcp H0). specialize (Ek Hk0).
        set (A := g1 ++ EInv t (OGet k buf) :: a1) in *. assert (h = A ++ a2) as Eh' by (unfold A; rewrite Eg, <- app_assoc; done).
        pose proof (begins_nonneg k a2). pose proof (writes_nonneg k a2). unfold incs in H0.
        assert (bytes_at m x = content s k A) as Hcl. { unfold m. rewrite (clean I Hx); fold m; rewrite Ek; [rewrite Eh'; apply content_nowrites; lia|]. rewrite Eh', begins_app, writes_app. lia. }
        unfold ncopy in Hj. pose proof (content_len s k A) as Hcl2. pose proof Hd as (Hd1 & Hd2 & Hd3).
        unfold b'. rewrite (byte_at_slot Hd Hsh) by lia. rewrite Hcl. rewrite Nat2Z.id. destruct (lookup_lt_is_Some_2 (content s k A) j) as [v Lv]; [lia|]. rewrite Lv. cbn [default].
        apply (copy_byte b _ j (S j)); try lia; done. }
      destruct (Z.ltb_spec (Z.of_nat (S j)) (Z.min (Z.of_nat (length buf)) x)) as [Hc|Hc]; cbn [thr]; splits; try lia; try done.
      * unfold ncopy. lia.
      * replace (ncopy x buf) with (S j); [done|]. unfold ncopy in *. lia.
    + (* GSeq2 *) destruct Ht as (Hx & Hnd & Ek & [Hb1 Hb2] & Hle & Hsn). rewrite (index_sl Hsh) by done. intros [= <- <-]. rewrite app_nil_r.
      eapply pure_inv; [exact I|exact L|done|by destruct (_ =? _)|]. intros g1 g2 Eg _ (_ & Hnd' & _ & _ & _ & Hsn'). clear Hsn.
      destruct (Z.eqb_spec q (sl_seq (sl m x))) as [E|E]; cbn [thr]; splits; try lia; try done. intros Hk0. exists x. split; [lia|]. split; [auto|]. split; [done|]. intros Hlb Hw.
      destruct (Hsn' Hk0 Hlb) as (a1 & a2 & -> & Hbal & Hqq & Hcp). exists a1, a2. split; [done|]. specialize (Ek Hk0).
      set (A := g1 ++ EInv t (OGet k buf) :: a1) in *. assert (h = A ++ a2) as Eh' by (unfold A; rewrite Eg, <- app_assoc; done).
      rewrite writes_app in Hw. pose proof (writes_nonneg k a1). pose proof (writes_nonneg k a2). pose proof (begins_nonneg k a2).
      assert (begins k h = writes k h) as Hbh.
      { pose proof (even_balance I Hx) as Hev. fold m in Hev. rewrite Ek in Hev. apply Hev. rewrite <- E, Hqq. unfold incs. rewrite Hbal. replace (writes k A + writes k A) with (2 * writes k A) by lia. change (2^32) with (2 * 2^31). rewrite Z.mul_mod_distr_l by lia. rewrite Z.mul_comm, Z.mod_mul by lia. done. }
      destruct (v_slot _ _ _ _ I x Hx) as [Hseq _]. fold m in Hseq. rewrite Ek in Hseq.
      rewrite Hqq, Hseq, Eh' in E. unfold incs in *. rewrite Eh', !begins_app, !writes_app in Hbh. rewrite begins_app, writes_app in E.
      replace (begins k A + begins k a2 + (writes k A + writes k a2)) with (begins k A + writes k A + 2 * writes k a2) in E by lia.
      assert ((2 * writes k a2) mod 2^32 = 0) as Hm.
      { replace (2 * writes k a2) with ((begins k A + writes k A + 2 * writes k a2) - (begins k A + writes k A)) by lia. rewrite Zminus_mod, <- E, Z.sub_diag. done. }
      rewrite Z.mod_small in Hm by lia. rewrite <- Hcp by lia. rewrite <- Hb2. by rewrite take_drop.
    + (* ULoad *) destruct Ht as (Hk & Hi & _). rewrite Hpr by lia. intros [= <- <-]. rewrite app_nil_r. rewrite <- key_at_sl.
      eapply pure_inv; [exact I|exact L|done|destruct (_ =? k); [done|by destruct (_ =? 0)]|].
      intros g1 g2 Eg _ (_ & _ & Hp & Hnd & ->). pose proof (probe_range l k i ltac:(lia)) as Hx. destruct (Z.eqb_spec (key_at m (probe l k i)) k) as [E|E].
      { cbn. splits; try lia; try done. split.
        - intros Hi0. apply bool_decide_eq_false in Hi0. by replace i with 0%nat by lia.
        - intros Hi0 Epp. apply bool_decide_eq_true in Hi0. destruct (Hp 0%nat Hi0) as [_ Hb]. by rewrite <- Epp in Hb. }
      destruct (Z.eqb_spec (key_at m (probe l k i)) 0) as [E0|E0]; cbn; splits; try lia; try done.
      intros ->. destruct (decide (begins k h = 0)) as [Hb|Hb]. { rewrite Eg, begins_app in Hb. pose proof (begins_nonneg k g1). pose proof (begins_nonneg k (EInv t (OUpdate k fn) :: g2)). lia. }
      exfalso. destruct (v_seen _ _ _ _ I k ltac:(lia) ltac:(auto)) as (y & Hy & Ey). destruct (placed_found l _ y k (v_place _ _ _ _ I) Hy Ey ltac:(lia)) as (j & Hj & -> & Hpj). fold m in Hpj, Ey. destruct j as [|j]; [congruence|]. destruct (Hpj 0%nat ltac:(lia)). done.
    + (* UCas *) destruct Ht as (Hk & Hi & Hp & Hnd & -> & Hb0). pose proof (probe_range l k i ltac:(lia)) as Hx. set (x := probe l k i) in *. rewrite (index_sl Hsh) by done. rewrite <- key_at_sl.
      destruct (Z.eqb_spec (key_at m x) 0) as [E0|E0].
      2:{ intros [= <- <-]. rewrite app_nil_r. eapply pure_inv; [exact I|exact L|done..|]. intros g1 g2 _ _ (? & ? & ? & ? & ? & ?). cbn. splits; try lia; try done. }
      intros [= <- <-]. destruct (placed_install l (key_at m) k i ltac:(lia) (v_place _ _ _ _ I) Hp Hi ltac:(lia) E0) as [Hpl Hno].
      set (m' := set_slot m x _).
      assert (∀ y, 0 ≤ y → key_at m' y = install (key_at m) x k y) as Hka.
      { intros y Hy. rewrite !key_at_sl. unfold m'. rewrite (sl_set Hsh) by done. unfold install. destruct (decide (x = y)) as [->|Hne]; [by rewrite decide_True|]. rewrite decide_False by done. by rewrite key_at_sl. }
      assert (key_at m' x = k) as Hkx by (rewrite Hka by lia; unfold install; by rewrite decide_True).
      assert (∀ y, 0 ≤ y → y ≠ x → key_at m' y = key_at m y) as Hky by (intros y Hy Hne; rewrite Hka by done; unfold install; by rewrite decide_False).
      assert (begins k h = 0 ∧ writes k h = 0 ∧ ¬ dead k h) as (Hbk & Hwk & Hdk).
      { assert (∀ P : Prop, (seen k h ∨ begins k h ≠ 0 ∨ dead k h) → P) as Hc. { intros P Hs. exfalso. destruct (v_seen _ _ _ _ I k ltac:(lia) Hs) as (y & Hy & Ey). by apply (Hno y Hy). }
        splits; [destruct (decide (begins k h = 0)); [done|apply Hc; auto]|destruct (decide (writes k h = 0)); [done|apply Hc; left; by left]|intros D; apply Hc; auto]. }
      assert (grows (key_at m) (key_at m')) as G.
      { intros y Hy. destruct (decide (0 ≤ y)) as [Hy0|Hy0]; [rewrite Hka by done; by apply install_grows|]. specialize (Hka 0 ltac:(lia)). unfold key_at in *. replace (Z.to_nat y) with (Z.to_nat 0) in * by lia. rewrite Hka. pose proof (install_grows (key_at m) x k E0) as G. specialize (G 0). unfold key_at in G. by apply G. }
      eapply mk_inv; try done; fold m.
      * by apply set_slot_shape.
      * eapply placed_ext; [lia| |exact Hpl]. intros y Hy. symmetry. apply Hka. lia.
      * cbn. lia.
      * intros. repeat constructor.
      * intros y Hy. destruct (decide (x = y)) as [<-|Hne].
        -- rewrite app_nil_r. destruct (v_slot _ _ _ _ I x Hx) as [Hseq P]. fold m in Hseq, P. destruct (v_zero _ _ _ _ I) as (Hz1 & Hz2 & Hz3). unfold phase_ok in P. rewrite E0 in Hseq, P.
           assert (sl m' x = Slot k (sl_seq (sl m x)) (sl_mu (sl m x))) as Esl by (unfold m'; rewrite (sl_set Hsh) by lia; by rewrite decide_True).
           assert (content s k h = content s 0 h) as Econ. { pose proof (content_nowrites s k [] h Hwk) as E1. pose proof (content_nowrites s 0 [] h Hz2) as E2. cbn [app] in E1, E2. by rewrite E1, E2. }
           unfold slot_ok, phase_ok. rewrite Hkx, Esl. change (bytes_at m' x) with (bytes_at m x). cbn [sl_seq sl_mu]. unfold incs in *. rewrite Hbk, Hwk. rewrite Hz1, Hz2 in Hseq. split; [done|].
           destruct P as [(P1 & P2 & P3 & P4 & P5)|[(P1 & P2 & t' & o' & p' & L' & Hc & Hh & F)|(_ & _ & ? & _)]]; [| |done].
           ++ left. splits; try done; [congruence|]. intros t' o' p' HX. destruct (decide (t' = t)) as [->|Hnt]; [rewrite list_lookup_insert by done; by intros [= <- <-]|rewrite list_lookup_insert_ne by done; by apply P4].
           ++ exfalso. destruct (v_thr _ _ _ _ I t' o' p' L') as (a1 & a2 & _ & _ & Ht'). fold m in Ht'. destruct o' as [k' b'|k' fn']; [done|]. destruct p'; try done; cbn in Hc; apply bool_decide_eq_true in Hc; destruct Ht' as (? & ? & Hkk & _); rewrite Hc in Hkk; lia.
        -- eapply (slot_frame s m); [apply I; done|exact L|..|constructor].
           ++ intros o2 p2 [= <- <-]. done.
           ++ intros o2 p2 [= <- <-]. done.
           ++ unfold m'. rewrite (sl_set Hsh) by lia. by rewrite decide_False.
           ++ done.
      * rewrite app_nil_r. intros k' H0 Hs. destruct (v_seen _ _ _ _ I k' H0 Hs) as (y & Hy & Ey). exists y. split; [done|]. fold m in Ey. rewrite Hky; [done|lia|]. intros ->. congruence.
      * constructor.
      * intros o2 p2 [= <- <-]. exists h1, h2. rewrite app_nil_r. split; [done|]. split; [done|]. cbn. splits; try lia; try done. split; [done|]. intros _ Epp. destruct i as [|i]; [auto|]. exfalso. destruct (Hp 0%nat ltac:(lia)) as [Hp0 _]. by rewrite <- Epp in Hp0.
    + (* UReload *) destruct Ht as (Hk & Hi & Hp & Hnd & -> & Hn0 & Hb0). pose proof (probe_range l k i ltac:(lia)) as Hx. rewrite (index_sl Hsh) by done. rewrite <- key_at_sl. intros [= <- <-]. rewrite app_nil_r.
      eapply pure_inv; [exact I|exact L|done|destruct (_ =? k); [done|unfold reprobe; by destruct (_ <? _)%nat]|].
      intros g1 g2 _ _ (_ & _ & _ & Hnd' & _ & _ & Hb0'). destruct (Z.eqb_spec (key_at m (probe l k i)) k) as [E|E].
      { cbn. splits; try lia; try done. split; [done|]. intros _ Epp. destruct i as [|i]; [auto|]. exfalso. destruct (Hp 0%nat ltac:(lia)) as [_ Hp0]. by rewrite <- Epp in Hp0. }
      pose proof (passed_S _ _ _ _ Hp Hn0 E) as HS.
      unfold reprobe, maxReprobe. destruct (Nat.ltb_spec 10 (S i)); cbn; [|splits; try lia; done]. right. split; [done|]. right. splits; try done; try lia. by replace 11%nat with (S i) by lia.
    + (* ULock *) destruct Ht as (Hk & Hx & Ek & Hnd & Hfl). rewrite (index_sl Hsh) by done. destruct (sl_mu (sl m x)) eqn:Hmu; intros [= <- <-].
      { rewrite app_nil_r. by eapply pure_inv. }
      set (m' := set_slot m x _). assert (sl m' x = Slot (sl_key (sl m x)) (sl_seq (sl m x)) true) as Esl by (unfold m'; rewrite (sl_set Hsh) by lia; by rewrite decide_True).
      assert (key_at m' x = k) as Ek' by (by rewrite key_at_sl, Esl, <- key_at_sl).
      eapply (crit_inv l s c h t k fn x); try done; fold m; auto.
      * lia.
      * intros y Hy. cbn. by rewrite bool_decide_eq_false.
      * by apply set_slot_shape.
      * intros y Hy. unfold m'. rewrite (sl_set Hsh) by lia. by destruct (decide (x = y)) as [->|].
      * intros y Hy Hne. unfold m'. rewrite (sl_set Hsh) by lia. rewrite decide_False by done. done.
      * rewrite app_nil_r. destruct (v_slot _ _ _ _ I x Hx) as [Hseq P]. fold m in Hseq, P. unfold phase_ok in P. rewrite Hmu, Ek in P. rewrite Ek in Hseq.
        destruct P as [(_ & P2 & P3 & P4 & P5)|[(? & _)|(? & _)]]; [|done..]. apply held_slot; try done; rewrite ?Ek', ?Esl; try done.
        -- cbn. by apply bool_decide_eq_true.
        -- intros t' o' p' _. exact (P4 t' o' p' (λ z, z)).
      * intros g1 g2 _ _ H. rewrite app_nil_r. exact H.
    + (* USeq1 *) destruct Ht as (Hk & Hx & Ek & Hnd & Hfl). rewrite (index_sl Hsh) by done. intros [= <- <-].
      destruct (holder I Hx t _ _ L) as (Hmu & Hndd & (Hb & Hdd) & F); [cbn; by apply bool_decide_eq_true|]. destruct (v_slot _ _ _ _ I x Hx) as [Hseq _]. fold m in Hmu, Hndd, Hb, Hdd, Hseq. rewrite Ek in Hndd, Hb, Hdd, Hseq.
      set (m' := set_slot m x _). assert (sl m' x = Slot (sl_key (sl m x)) (u32 (sl_seq (sl m x) + 1)) (sl_mu (sl m x))) as Esl by (unfold m'; rewrite (sl_set Hsh) by lia; by rewrite decide_True).
      assert (key_at m' x = k) as Ek' by (by rewrite key_at_sl, Esl, <- key_at_sl).
      eapply (crit_inv l s c h t k fn x); try done; fold m; auto.
      * lia.
      * intros y Hy. cbn. by rewrite bool_decide_eq_false.
      * intros y Hy. cbn. by rewrite bool_decide_eq_false.
      * by apply set_slot_shape.
      * intros y Hy. unfold m'. rewrite (sl_set Hsh) by lia. by destruct (decide (x = y)) as [->|].
      * intros y Hy Hne. unfold m'. rewrite (sl_set Hsh) by lia. rewrite decide_False by done. done.
      * apply held_slot; try done; rewrite ?Ek', ?Esl; try done.
        -- cbn [sl_seq]. rewrite Hseq, seq_step. unfold incs. rewrite begins_app, writes_app, begins_1. change (writes k [EBegin t k]) with 0. f_equal. lia.
        -- intros D. apply Hndd. eapply dead_same; [|exact D]. intros ? ? ? Hin. by apply elem_of_list_singleton in Hin.
        -- cbn. by apply bool_decide_eq_true.
        -- cbn [hold]. rewrite begins_app, writes_app, begins_1. change (writes k [EBegin t k]) with 0. split; [lia|]. rewrite content_nowrites by done. change (bytes_at m' x) with (bytes_at m x). by rewrite Hdd.
      * intros g1 g2 _ _ (?&?&?&Hnd'&?). cbn [thr]. rewrite done_by_app, Hnd'. splits; try lia; done.
    + (* UFn *) destruct Ht as (Hk & Hx & Ek & Hnd & Hfl). rewrite (slice_slot Hd Hsh), (bytes_at_len Hd Hsh), (s64_lo Hd Hsh) by done.
      destruct (holder I Hx t _ _ L) as (Hmu & Hndd & (Hb & Hrun) & F); [cbn; by apply bool_decide_eq_true|]. destruct (v_slot _ _ _ _ I x Hx) as [Hseq _]. fold m in Hmu, Hndd, Hb, Hrun, Hseq. rewrite Ek in Hndd, Hb, Hrun, Hseq.
      assert ((run p (bytes_at m x)).2 = Panic → inv l s (MkCfg m (<[t:=Some (OUpdate k fn, PRet RPanic)]> (c_threads c))) (h ++ [EPanic t k fn init])) as Hpan.
      { intros Hp. eapply (crit_inv l s c h t k fn x); try done; fold m; eauto 6.
        - lia.
        - intros y Hy. cbn. by rewrite bool_decide_eq_false.
        - split; [rewrite Ek, Hseq; unfold incs; rewrite begins_app, writes_app; change (begins k [EPanic t k fn init]) with 0; change (writes k [EPanic t k fn init]) with 0; by rewrite !Z.add_0_r|].
          right. right. rewrite Ek. rewrite begins_app, writes_app. change (begins k [EPanic t k fn init]) with 0. change (writes k [EPanic t k fn init]) with 0. splits; try done; [lia|exists t, fn, init; apply elem_of_app; right; left|]. apply free_set; try done. by intros o2 p2 [= <- <-].
        - intros g1 g2 Eg _ (?&?&?&Hnd'&?). cbn [thr]. exists g2, [], init, x. splits; try done; try lia. rewrite <- Eg, <- Hrun. done. }
      assert (∀ m' p', shape l s m' → sl m' = sl m → (∀ y, 0 ≤ y < l → y ≠ x → bytes_at m' y = bytes_at m y) → run p' (bytes_at m' x) = run p (bytes_at m x) →
        inv l s (MkCfg m' (<[t:=Some (OUpdate k fn, UFn x init p')]> (c_threads c))) (h ++ [])) as Hgo.
      { intros m' p' Hsh' Esl Hby Hr. assert (key_at m' x = k) as Ek' by (by rewrite key_at_sl, Esl, <- key_at_sl). eapply (crit_inv l s c h t k fn x); try done; fold m; auto.
        - lia.
        - intros y Hy. cbn. by rewrite bool_decide_eq_false.
        - intros y Hy. cbn. by rewrite bool_decide_eq_false.
        - intros y Hy. by rewrite Esl.
        - intros y Hy Hne. rewrite Esl. auto.
        - rewrite app_nil_r. apply held_slot; try done; rewrite ?Ek', ?Esl; try done; [cbn; by apply bool_decide_eq_true|]. cbn [hold]. split; [done|]. by rewrite Hr.
        - intros g1 g2 _ _ H. rewrite app_nil_r. exact H. }
      pose proof Hd as (Hd1 & Hd2 & Hd3). destruct p as [r|i g|i v g].
      * assert (∀ r', r' = r → r' ≠ Panic → inv l s (MkCfg m (<[t:=Some (OUpdate k fn, USeq2 x init r')]> (c_threads c))) (h ++ [])) as Hdone.
        { intros r' -> Hnp. eapply (crit_inv l s c h t k fn x); try done; fold m; auto.
          - lia.
          - intros y Hy. cbn. by rewrite bool_decide_eq_false.
          - intros y Hy. cbn. by rewrite bool_decide_eq_false.
          - rewrite app_nil_r. apply held_slot; rewrite ?Ek; try done. cbn. by apply bool_decide_eq_true.
          - intros g1 g2 _ _ H. rewrite app_nil_r. exact H. }
        destruct r as [u|e|]; intros [= <- <-]; [by apply Hdone..|]. by apply Hpan.
      * rewrite Z2Nat.id by done. destruct ((0 <=? i) && (i <? s)) eqn:Hb'; intros [= <- <-].
        -- apply Hgo; try done. cbn [run]. rewrite (bytes_at_len Hd Hsh) by done. rewrite Z2Nat.id by done. rewrite Hb'. by rewrite (byte_at_slot Hd Hsh) by lia.
        -- apply Hpan. cbn [run]. rewrite (bytes_at_len Hd Hsh) by done. rewrite Z2Nat.id by done. by rewrite Hb'.
      * rewrite Z2Nat.id by done. destruct ((0 <=? i) && (i <? s)) eqn:Hb'; intros [= <- <-].
        -- apply Hgo; try done; [by apply set_byte_shape|..].
           ++ intros y Hy Hne. rewrite (bytes_set_byte Hd Hsh) by lia. by rewrite decide_False.
           ++ rewrite (bytes_set_byte Hd Hsh) by lia. rewrite decide_True by done. cbn [run]. rewrite (bytes_at_len Hd Hsh) by done. rewrite Z2Nat.id by done. by rewrite Hb'.
        -- apply Hpan. cbn [run]. rewrite (bytes_at_len Hd Hsh) by done. rewrite Z2Nat.id by done. by rewrite Hb'.
    + (* USeq2 *) destruct Ht as (Hk & Hx & Ek & Hnd & Hfl). rewrite (index_sl Hsh) by done. intros [= <- <-].
      destruct (holder I Hx t _ _ L) as (Hmu & Hndd & (Hb & Hrun & Hnp) & F); [cbn; by apply bool_decide_eq_true|]. destruct (v_slot _ _ _ _ I x Hx) as [Hseq _]. fold m in Hmu, Hndd, Hb, Hrun, Hseq. rewrite Ek in Hndd, Hb, Hrun, Hseq.
      set (m' := set_slot m x _). assert (sl m' x = Slot (sl_key (sl m x)) (u32 (sl_seq (sl m x) + 1)) (sl_mu (sl m x))) as Esl by (unfold m'; rewrite (sl_set Hsh) by lia; by rewrite decide_True).
      assert (key_at m' x = k) as Ek' by (by rewrite key_at_sl, Esl, <- key_at_sl).
      eapply (crit_inv l s c h t k fn x); try done; fold m; eauto 6.
      * lia.
      * intros y Hy. cbn. by rewrite bool_decide_eq_false.
      * intros y Hy. cbn. by rewrite bool_decide_eq_false.
      * by apply set_slot_shape.
      * intros y Hy. unfold m'. rewrite (sl_set Hsh) by lia. by destruct (decide (x = y)) as [->|].
      * intros y Hy Hne. unfold m'. rewrite (sl_set Hsh) by lia. rewrite decide_False by done. done.
      * apply held_slot; try done; rewrite ?Ek', ?Esl; try done.
        -- cbn [sl_seq]. rewrite Hseq, seq_step. unfold incs. rewrite begins_app, writes_app, writes_1. change (begins k [EDone t k fn init]) with 0. f_equal. lia.
        -- intros D. apply Hndd. eapply dead_same; [|exact D]. intros ? ? ? Hin. by apply elem_of_list_singleton in Hin.
        -- cbn. by apply bool_decide_eq_true.
        -- cbn [hold]. rewrite begins_app, writes_app, writes_1. change (begins k [EDone t k fn init]) with 0. split; [lia|]. rewrite content_app. cbn [fold_left]. rewrite decide_True by done. change (bytes_at m' x) with (bytes_at m x). by rewrite Hrun.
      * intros g1 g2 Eg _ (?&?&?&Hnd'&?). cbn [thr]. splits; try lia; try done. exists g2, [], init, x. splits; try done; try lia. rewrite <- Eg. by rewrite Hrun.
    + (* UUnlock *) destruct Ht as (Hk & Hx & Ek & Hcmp). rewrite (index_sl Hsh) by done. intros [= <- <-].
      destruct (holder I Hx t _ _ L) as (Hmu & Hndd & (Hb & Hdd) & F); [cbn; by apply bool_decide_eq_true|]. destruct (v_slot _ _ _ _ I x Hx) as [Hseq _]. fold m in Hmu, Hndd, Hb, Hdd, Hseq. rewrite Ek in Hndd, Hb, Hdd, Hseq.
      set (m' := set_slot m x _). assert (sl m' x = Slot (sl_key (sl m x)) (sl_seq (sl m x)) false) as Esl by (unfold m'; rewrite (sl_set Hsh) by lia; by rewrite decide_True).
      assert (key_at m' x = k) as Ek' by (by rewrite key_at_sl, Esl, <- key_at_sl).
      eapply (crit_inv l s c h t k fn x); try done; fold m; eauto 6.
      * lia.
      * intros y Hy. cbn. by rewrite bool_decide_eq_false.
      * by apply set_slot_shape.
      * intros y Hy. unfold m'. rewrite (sl_set Hsh) by lia. by destruct (decide (x = y)) as [->|].
      * intros y Hy Hne. unfold m'. rewrite (sl_set Hsh) by lia. rewrite decide_False by done. done.
      * rewrite app_nil_r. split; [by rewrite Ek', Esl|]. left. rewrite Ek', Esl. splits; try done. apply free_set; try done. by intros o2 p2 [= <- <-].
      * intros g1 g2 _ _ (?&?&?&?). rewrite app_nil_r. by left.
Qed.
