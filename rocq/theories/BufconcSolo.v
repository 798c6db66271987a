From Coq Require Import ZifyBool ZifyNat.
From Verif Require Import Base BaseProofs Probe BufmapModel BufmapSpec BufconcModel BufconcSpec BufconcProofs BufconcInv.
Local Open Scope Z_scope.

(** a call that nobody interferes with: its own steps up to its result *)
Inductive solo (t : nat) (o : op) : Map → pc → Map → res → Prop :=
  | solo_ret m r : solo t o m (PRet r) m r
  | solo_step m p m1 p1 es m' r : (∀ r, p ≠ PRet r) → step_call m t o p = (m1, p1, es) → solo t o m1 p1 m' r → solo t o m p m' r.
Lemma solo_next t o m p m' r m1 p1 es : solo t o m p m' r → (∀ r, p ≠ PRet r) → step_call m t o p = (m1, p1, es) → solo t o m1 p1 m' r.
Proof. intros H Hp E. destruct H as [m r|m p m2 p2 es2 m' r _ E2 H]; [by destruct (Hp r)|]. rewrite E in E2. by injection E2 as <- <- <-. Qed.
Lemma solo_result t o m r m' r' : solo t o m (PRet r) m' r' → m' = m ∧ r' = r.
Proof. intros H. inversion H as [|? ? ? ? ? ? ? Hp]; [done|]. by destruct (Hp r). Qed.

Section solo.
Context {l s : Z} (Hd : dims_ok l s) (t : nat).
Lemma gocopy_snoc {A} (buf src : list A) j b : src !! j = Some b → (j < length buf)%nat → <[j := b]> (gocopy buf (take j src)) = gocopy buf (take (S j) src).
Proof.
  intros Lb Hj. pose proof (lookup_lt_Some _ _ _ Lb) as Hs. apply list_eq. intros i. unfold gocopy. rewrite !take_length, !take_take.
  replace (length buf `min` (j `min` length src))%nat with j by lia. replace (length buf `min` (S j `min` length src))%nat with (S j) by lia. rewrite !Nat.min_id.
  destruct (decide (i = j)) as [->|Hne].
  - rewrite list_lookup_insert by (rewrite app_length, take_length, drop_length; lia). rewrite lookup_app_l by (rewrite take_length; lia). by rewrite lookup_take by lia.
  - rewrite list_lookup_insert_ne by done. destruct (decide (i < j)%nat).
    + rewrite !lookup_app_l by (rewrite take_length; lia). by rewrite !lookup_take by lia.
    + rewrite !lookup_app_r by (rewrite take_length; lia). rewrite !take_length, !lookup_drop. f_equal. lia.
Qed.
Lemma gocopy_none {A} (buf : list A) : gocopy buf [] = buf.
Proof. unfold gocopy. cbn. by rewrite Nat.min_0_r. Qed.
Lemma gocopy_take {A} (buf src : list A) j : (Nat.min (length buf) (length src) ≤ j)%nat → gocopy buf (take j src) = gocopy buf src.
Proof. intros H. unfold gocopy. rewrite take_length, take_take. replace (length buf `min` (j `min` length src))%nat with (length buf `min` length src)%nat by lia. do 2 f_equal. lia. Qed.

Lemma solo_copy m k buf x src : shape l s m → 0 ≤ x < l → slice (m_values m) (s64 (x * m_s m)) (s64 (x * (m_s m + 1))) = Ok src → ∀ d j, (d + S j = Nat.min (length buf) (length src))%nat →
  solo t (OGet k buf) m (GCopy x (sl_seq (sl m x)) j (gocopy buf (take j src))) m (RGet (gocopy buf src) true).
Proof.
  intros Sh Hx Es.
  assert (∀ j, (j < length src)%nat → src !! j = Some (byte_at (m_values m) (s64 (x * m_s m) + Z.of_nat j))) as Hb.
  { intros j Hj. destruct (lookup_lt_is_Some_2 src j Hj) as [b Lb]. rewrite Lb. revert Es. unfold slice, byte_at. destruct (_ && _) eqn:Hr; [|done]. intros [= <-]. apply lookup_take_Some in Lb as [Lb _]. rewrite lookup_drop in Lb.
    replace (Z.to_nat (s64 (x * m_s m) + Z.of_nat j)) with (Z.to_nat (s64 (x * m_s m)) + j)%nat by lia. by rewrite Lb. }
  assert (Z.of_nat (length src) = s64 (x * (m_s m + 1)) - s64 (x * m_s m)) as Hlen.
  { revert Es. unfold slice. destruct (_ && _) eqn:Hr; [|done]. intros [= <-]. rewrite take_length, drop_length. lia. }
  induction d as [|d IH]; intros j Hdj; (eapply solo_step; [done|cbn [step_call]; reflexivity|]); rewrite (gocopy_snoc buf src j _ (Hb j ltac:(lia)) ltac:(lia)), gocopy_length, <- Hlen.
  - assert ((Z.of_nat (S j) <? Z.min (Z.of_nat (length buf)) (Z.of_nat (length src))) = false) as -> by lia.
    eapply solo_step; [done|cbn [step_call]; rewrite (index_sl Sh) by done; rewrite Z.eqb_refl; reflexivity|]. rewrite gocopy_take by lia. constructor.
  - assert ((Z.of_nat (S j) <? Z.min (Z.of_nat (length buf)) (Z.of_nat (length src))) = true) as -> by lia. apply IH. lia.
Qed.
Definition get_res (buf : bytes) (g : call (option bytes)) : option res :=
  match g with Ret None => Some (RGet buf false) | Ret (Some b) => Some (RGet b true) | Panics => Some RPanic | Hangs => None end.
Lemma solo_get m k buf r : shape l s m → 0 ≤ k < 2^64 → get_res buf (Get m k buf) = Some r → solo t (OGet k buf) m (start (OGet k buf)) m r.
Proof.
  intros Sh Hk. cbn [start]. assert (0 < l < 2^63) as Hl by (destruct Hd as (?&?&?); nia).
  unfold Get. assert (∀ n i, (i + n = 11)%nat → (1 ≤ n)%nat → get_res buf (match get_probe m k i n with
    | Ok None => Ret None
    | Ok (Some x) => match index (m_keys m) x with
        | Ok sl => if sl_seq sl mod 2 =? 1 then Hangs else match slice (m_values m) (s64 (x * m_s m)) (s64 (x * (m_s m + 1))) with Ok src => Ret (Some (gocopy buf src)) | _ => Panics end
        | _ => Panics end
    | _ => Panics end) = Some r → solo t (OGet k buf) m (GLoad i) m r) as Hind; [|apply (Hind (S maxReprobe) 0%nat); unfold maxReprobe; lia].
  induction n as [|n IH]; intros i Hi Hn; [lia|]. cbn [get_probe]. rewrite (sh_l _ _ _ Sh), pos_probe by (done || lia). cbn [obind]. pose proof (probe_range l k i ltac:(lia)) as Hx. rewrite (index_sl Sh) by done. cbn [obind].
  intros H. eapply solo_step; [done|cbn [step_call]; rewrite (sh_l _ _ _ Sh), pos_probe by (done || lia); cbn [obind]; rewrite (index_sl Sh) by done; cbn [obind]; reflexivity|].
  set (x := probe l k i) in *. destruct (sl_key (sl m x) =? k).
  - rewrite (index_sl Sh) in H by done. destruct (sl_seq (sl m x) mod 2 =? 1) eqn:Ho; [done|].
    assert (sl_seq (sl m x) mod 2 =? 0 = true) as He by (pose proof (Z.mod_pos_bound (sl_seq (sl m x)) 2); lia).
    destruct (slice _ _ _) as [src|e|] eqn:Es; cbn [get_res] in H; injection H as <-; (eapply solo_step; [done|cbn [step_call]; rewrite (index_sl Sh) by done; rewrite He, Es; reflexivity|]); [|constructor..].
    destruct (0 <? _)%nat eqn:Hmin.
    + pose proof (solo_copy m k buf x src Sh Hx Es (Nat.min (length buf) (length src) - 1) 0 ltac:(lia)) as Hc. by rewrite take_0, gocopy_none in Hc.
    + eapply solo_step; [done|cbn [step_call]; rewrite (index_sl Sh) by done; rewrite Z.eqb_refl; reflexivity|]. rewrite <- (gocopy_take buf src 0), take_0, gocopy_none by lia. constructor.
  - unfold greprobe. destruct n as [|n].
    + cbn in H. injection H as <-. replace (maxReprobe <? S i)%nat with true by (unfold maxReprobe; lia). constructor.
    + replace (maxReprobe <? S i)%nat with false by (unfold maxReprobe; lia). apply IH; [lia|lia|done].
Qed.

(** an update function inside the critical section *)
Definition with_vals (m : Map) (vs : bytes) : Map := MkMap (m_l m) (m_s m) (m_keys m) vs.
Lemma splice_insert {A} (L : list A) a i (v : A) p : (i < length p)%nat → (a + length p ≤ length L)%nat → splice (<[(a + i)%nat := v]> L) a p = splice L a p.
Proof. intros Hi Ha. unfold splice. rewrite take_insert by lia. rewrite drop_insert_gt by lia. done. Qed.
Lemma solo_fn k fn init x r : ∀ p m d', shape l s m → 0 ≤ x < l → run p (bytes_at m x) = (d', r) → r ≠ Panic →
  ∀ m' r', solo t (OUpdate k fn) (with_vals m (splice (m_values m) (Z.to_nat (x * s)) d')) (USeq2 x init r) m' r' → solo t (OUpdate k fn) m (UFn x init p) m' r'.
Proof.
  induction p as [r0|i g IH|i v g IH]; intros m d' Sh Hx Hr Hp m' r' Hs; pose proof (bytes_at_len Hd Sh x Hx) as Hlen; cbn [run] in Hr.
  - injection Hr as <- ->. eapply solo_step; [done|cbn [step_call]; rewrite (slice_slot Hd Sh) by done; by destruct r|].
    assert (with_vals m (splice (m_values m) (Z.to_nat (x * s)) (bytes_at m x)) = m) as E; [|by rewrite E in Hs]. unfold with_vals. destruct m as [ml ms ks vs]. cbn in *. f_equal. destruct Sh as [_ Es _ Ev]. cbn in Es, Ev. subst ms. unfold splice. rewrite Hlen. unfold bytes_at. cbn [m_s m_values].
    rewrite app_assoc, take_take_drop. apply take_drop.
  - destruct (_ && _) eqn:Hi; [|injection Hr as _ <-; done]. eapply solo_step; [done|cbn [step_call]; rewrite (slice_slot Hd Sh), Hi by done; reflexivity|]. rewrite (s64_lo Hd Sh), (byte_at_slot Hd Sh) by (done || lia). eapply IH; eauto.
  - destruct (_ && _) eqn:Hi; [|injection Hr as _ <-; done]. eapply solo_step; [done|cbn [step_call]; rewrite (slice_slot Hd Sh), Hi by done; reflexivity|]. rewrite (s64_lo Hd Sh) by done.
    eapply (IH (set_byte m (x * s + i) v) d'); [by apply set_byte_shape|done|rewrite (bytes_set_byte Hd Sh), decide_True by (done || lia); exact Hr|done|].
    assert (with_vals (set_byte m (x * s + i) v) (splice (m_values (set_byte m (x * s + i) v)) (Z.to_nat (x * s)) d') = with_vals m (splice (m_values m) (Z.to_nat (x * s)) d')) as ->; [|done].
    unfold with_vals. cbn. f_equal. assert (0 ≤ x * s ∧ x * s + s ≤ l * s) as [? ?] by (destruct Hd as (?&?&?); nia). replace (Z.to_nat (x * s + i)) with (Z.to_nat (x * s) + Z.to_nat i)%nat by lia.
    pose proof (run_len g (<[Z.to_nat i := v]> (bytes_at m x))) as Hl. rewrite Hr, insert_length in Hl. cbn in Hl. apply splice_insert; [lia|]. rewrite (sh_vals _ _ _ Sh). lia.
Qed.
Lemma solo_fn_panic k fn init x : ∀ p m d', shape l s m → 0 ≤ x < l → run p (bytes_at m x) = (d', Panic) →
  solo t (OUpdate k fn) m (UFn x init p) (with_vals m (splice (m_values m) (Z.to_nat (x * s)) d')) RPanic.
Proof.
  induction p as [r0|i g IH|i v g IH]; intros m d' Sh Hx Hr; pose proof (bytes_at_len Hd Sh x Hx) as Hlen; cbn [run] in Hr.
  all: assert (with_vals m (splice (m_values m) (Z.to_nat (x * s)) (bytes_at m x)) = m) as E by (unfold with_vals; destruct m as [ml ms ks vs]; cbn in *; f_equal; destruct Sh as [_ Es _ Ev]; cbn in Es, Ev; subst ms; unfold splice; rewrite Hlen; unfold bytes_at; cbn [m_s m_values]; rewrite app_assoc, take_take_drop; apply take_drop).
  - injection Hr as <- ->. eapply solo_step; [done|cbn [step_call]; rewrite (slice_slot Hd Sh) by done; reflexivity|]. rewrite E. constructor.
  - destruct (_ && _) eqn:Hi.
    + eapply solo_step; [done|cbn [step_call]; rewrite (slice_slot Hd Sh), Hi by done; reflexivity|]. rewrite (s64_lo Hd Sh), (byte_at_slot Hd Sh) by (done || lia). eapply IH; eauto.
    + injection Hr as <-. eapply solo_step; [done|cbn [step_call]; rewrite (slice_slot Hd Sh), Hi by done; reflexivity|]. rewrite E. constructor.
  - destruct (_ && _) eqn:Hi.
    + eapply solo_step; [done|cbn [step_call]; rewrite (slice_slot Hd Sh), Hi by done; reflexivity|]. rewrite (s64_lo Hd Sh) by done.
      pose proof (IH (set_byte m (x * s + i) v) d' ltac:(by apply set_byte_shape) Hx) as IH'. rewrite (bytes_set_byte Hd Sh), decide_True in IH' by (done || lia). specialize (IH' Hr).
      assert (with_vals (set_byte m (x * s + i) v) (splice (m_values (set_byte m (x * s + i) v)) (Z.to_nat (x * s)) d') = with_vals m (splice (m_values m) (Z.to_nat (x * s)) d')) as EE; [|by rewrite EE in IH'].
      unfold with_vals. cbn. f_equal. assert (0 ≤ x * s ∧ x * s + s ≤ l * s) as [? ?] by (destruct Hd as (?&?&?); nia). replace (Z.to_nat (x * s + i)) with (Z.to_nat (x * s) + Z.to_nat i)%nat by lia.
      pose proof (run_len g (<[Z.to_nat i := v]> (bytes_at m x))) as Hl. rewrite Hr, insert_length in Hl. cbn in Hl. apply splice_insert; [lia|]. rewrite (sh_vals _ _ _ Sh). lia.
    + injection Hr as <-. eapply solo_step; [done|cbn [step_call]; rewrite (slice_slot Hd Sh), Hi by done; reflexivity|]. rewrite E. constructor.
Qed.
Definition upd_res (o : call (outcome unit)) : option res := match o with Ret r => Some (RUpdate r) | Panics => Some RPanic | Hangs => None end.
Lemma solo_update m k fn fn' m' o r : shape l s m → 0 ≤ k < 2^64 → (∀ d init, length d = Z.to_nat s → run (fn' init) d = fn d init) → Update m k fn = (m', o) → upd_res o = Some r →
  solo t (OUpdate k fn') m (start (OUpdate k fn')) m' r.
Proof.
  intros Sh Hk Hfn HU Hr. revert HU Hr. unfold Update. cbn [start]. destruct (k =? 0) eqn:H0; [intros [= <- <-] [= <-]; constructor|]. assert (0 < l < 2^63) as Hl by (destruct Hd as (?&?&?); nia).
  assert (∀ n i init, (i + n = 11)%nat → (1 ≤ n)%nat → match upd_probe m k init i n with
    | Ok None => (m, Ret (Err ErrOutOfSlots))
    | Ok (Some (x, init, fresh)) => match index (m_keys m) x with
        | Ok sl => let key := if fresh then k else sl_key sl in let with_slot s vs := MkMap (m_l m) (m_s m) (<[Z.to_nat x := s]> (m_keys m)) vs in
          if sl_mu sl then (with_slot (Slot key (sl_seq sl) true) (m_values m), Hangs)
          else let seq1 := u32 (sl_seq sl + 1) in
            match slice (m_values m) (s64 (x * m_s m)) (s64 ((x + 1) * m_s m)) with
            | Ok data => let '(data', r) := fn data init in let vs := splice (m_values m) (Z.to_nat (s64 (x * m_s m))) data' in
                match r with Panic => (with_slot (Slot key seq1 true) vs, Panics) | r => (with_slot (Slot key (u32 (seq1 + 1)) false) vs, Ret r) end
            | _ => (with_slot (Slot key seq1 true) (m_values m), Panics)
            end
        | _ => (m, Panics) end
    | _ => (m, Panics) end = (m', o) → upd_res o = Some r → solo t (OUpdate k fn') m (ULoad i init) m' r) as Hind; [|apply (Hind (S maxReprobe) 0%nat false); unfold maxReprobe; lia].
  assert (∀ x init sq key, 0 ≤ x < l → sl m x = Slot key sq false → ∀ d' r0, run (fn' init) (bytes_at m x) = (d', r0) →
    ∀ m0, m0 = m ∨ (∃ kk, m0 = set_slot m x kk) → sl m0 x = Slot key sq false ∨ sl m0 x = Slot k sq false → 
    solo t (OUpdate k fn') m0 (ULock x init) (MkMap (m_l m) (m_s m) (<[Z.to_nat x := match r0 with Panic => Slot (sl_key (sl m0 x)) (u32 (sq + 1)) true | _ => Slot (sl_key (sl m0 x)) (u32 (u32 (sq + 1) + 1)) false end]> (m_keys m)) (splice (m_values m) (Z.to_nat (x * s)) d')) (match r0 with Panic => RPanic | _ => RUpdate r0 end)) as Hcrit.
  { intros x init sq key Hx Esl d' r0 Hrun m0 Hm0 Hsl0. assert (shape l s m0) as Sh0 by (destruct Hm0 as [->|(kk & ->)]; [done|by apply set_slot_shape]).
    assert (sl_mu (sl m0 x) = false ∧ sl_seq (sl m0 x) = sq) as [Hmu Hsq] by (by destruct Hsl0 as [->| ->]).
    assert (m_l m0 = m_l m ∧ m_s m0 = m_s m ∧ m_values m0 = m_values m ∧ ∀ v, <[Z.to_nat x := v]> (m_keys m0) = <[Z.to_nat x := v]> (m_keys m)) as (E1 & E2 & E3 & E4).
    { destruct Hm0 as [->|(kk & ->)]; [done|]. cbn. split_and!; try done. intros v. by rewrite list_insert_insert. }
    eapply solo_step; [done|cbn [step_call]; rewrite (index_sl Sh0) by done; rewrite Hmu; reflexivity|]. set (m1 := set_slot m0 x _).
    assert (shape l s m1) as Sh1 by (by apply set_slot_shape).
    eapply solo_step; [done|cbn [step_call]; rewrite (index_sl Sh1) by done; reflexivity|]. set (m2 := set_slot m1 x _). assert (shape l s m2) as Sh2 by (by apply set_slot_shape).
    assert (bytes_at m2 x = bytes_at m x) as Eb by (unfold m2, m1; rewrite !bytes_set_slot; unfold bytes_at; by rewrite E2, E3).
    assert (sl m1 x = Slot (sl_key (sl m0 x)) sq true) as F1 by (unfold m1; rewrite (sl_set Sh0), decide_True by (done || lia); by rewrite Hsq).
    assert (r0 = Panic ∨ r0 ≠ Panic) as [->|Hp] by (destruct r0; [by right..|by left]).
    { rewrite <- Eb in Hrun. pose proof (solo_fn_panic k fn' init x (fn' init) m2 d' Sh2 Hx Hrun) as Hpan.
      assert (with_vals m2 (splice (m_values m2) (Z.to_nat (x * s)) d') = MkMap (m_l m) (m_s m) (<[Z.to_nat x := Slot (sl_key (sl m0 x)) (u32 (sq + 1)) true]> (m_keys m)) (splice (m_values m) (Z.to_nat (x * s)) d')) as EE; [|by rewrite EE in Hpan].
      unfold with_vals, m2. rewrite F1. unfold m1. cbn [set_slot m_l m_s m_keys m_values sl_key sl_seq sl_mu]. rewrite list_insert_insert, E1, E2, E3, E4. done. }
    assert ((match r0 with Panic => Slot (sl_key (sl m0 x)) (u32 (sq + 1)) true | _ => Slot (sl_key (sl m0 x)) (u32 (u32 (sq + 1) + 1)) false end) = Slot (sl_key (sl m0 x)) (u32 (u32 (sq + 1) + 1)) false) as -> by (by destruct r0).
    assert ((match r0 with Panic => RPanic | _ => RUpdate r0 end) = RUpdate r0) as -> by (by destruct r0).
    eapply (solo_fn k fn' init x r0 (fn' init) m2 d'); [done|done|by rewrite Eb|done|].
    set (m3 := with_vals m2 _). assert (shape l s m3) as Sh3.
    { destruct Sh2 as [? ? ? Ev]. constructor; try done. cbn. pose proof (run_len (fn' init) (bytes_at m x)) as Hrl. rewrite Hrun in Hrl. cbn in Hrl. rewrite (bytes_at_len Hd Sh) in Hrl by done. rewrite splice_length; [done|]. assert (0 ≤ x * s ∧ x * s + s ≤ l * s) as [? ?] by (destruct Hd as (?&?&?); nia). cbn in Ev. lia. }
    eapply solo_step; [done|cbn [step_call]; rewrite (index_sl Sh3) by done; reflexivity|]. set (m4 := set_slot m3 x _). assert (shape l s m4) as Sh4 by (by apply set_slot_shape).
    eapply solo_step; [done|cbn [step_call]; rewrite (index_sl Sh4) by done; reflexivity|]. set (m5 := set_slot m4 x _).
    assert (m5 = MkMap (m_l m) (m_s m) (<[Z.to_nat x := Slot (sl_key (sl m0 x)) (u32 (u32 (sq + 1) + 1)) false]> (m_keys m)) (splice (m_values m) (Z.to_nat (x * s)) d')) as ->; [|constructor].
    assert (sl m2 x = Slot (sl_key (sl m0 x)) (u32 (sq + 1)) true) as F2 by (unfold m2; rewrite (sl_set Sh1), decide_True by (done || lia); by rewrite F1).
    assert (sl m3 x = sl m2 x) as F3 by done.
    assert (sl m4 x = Slot (sl_key (sl m0 x)) (u32 (u32 (sq + 1) + 1)) true) as F4 by (unfold m4; rewrite (sl_set Sh3), decide_True by (done || lia); by rewrite F3, F2).
    assert (∀ v, <[Z.to_nat x := v]> (m_keys m4) = <[Z.to_nat x := v]> (m_keys m)) as G1 by (intros v; unfold m4, m3, m2, m1; cbn [set_slot with_vals m_keys]; rewrite !list_insert_insert; apply E4).
    assert (m_values m4 = splice (m_values m) (Z.to_nat (x * s)) d') as G2 by (unfold m4, m3, m2, m1; cbn [set_slot with_vals m_values]; by rewrite E3).
    unfold m5. rewrite F4. cbn [sl_key sl_seq]. unfold set_slot. rewrite G1, G2. f_equal; [exact E1|exact E2]. }
  assert (∀ x : Z, 0 ≤ x < l → s64 (x * m_s m) = x * s) as Hlo by (intros; by apply (s64_lo Hd Sh)).
  induction n as [|n IH]; intros i init Hi Hn; [lia|]. cbn [upd_probe]. rewrite (sh_l _ _ _ Sh), pos_probe by (done || lia). cbn [obind]. pose proof (probe_range l k i ltac:(lia)) as Hx. rewrite (index_sl Sh) by done. cbn [obind].
  intros H Hr. eapply solo_step; [done|cbn [step_call]; rewrite (sh_l _ _ _ Sh), pos_probe by (done || lia); cbn [obind]; rewrite (index_sl Sh) by done; cbn [obind]; reflexivity|].
  set (x := probe l k i) in *. destruct (sl_key (sl m x) =? k) eqn:Ek; [|destruct (sl_key (sl m x) =? 0) eqn:E0].
  - rewrite (index_sl Sh) in H by done. cbn zeta in H. destruct (sl_mu (sl m x)) eqn:Hmu; [by injection H as <- <-|]. rewrite (slice_slot Hd Sh), (Hlo x) in H by done. rewrite <- (Hfn (bytes_at m x) init) in H by (by apply (bytes_at_len Hd Sh)).
    destruct (run (fn' init) (bytes_at m x)) as [d' r0] eqn:Hrun. assert (r = (match r0 with Panic => RPanic | _ => RUpdate r0 end) ∧ m' = MkMap (m_l m) (m_s m) (<[Z.to_nat x := match r0 with Panic => Slot (sl_key (sl m x)) (u32 (sl_seq (sl m x) + 1)) true | _ => Slot (sl_key (sl m x)) (u32 (u32 (sl_seq (sl m x) + 1) + 1)) false end]> (m_keys m)) (splice (m_values m) (Z.to_nat (x * s)) d')) as [-> ->] by (rewrite (sh_l _ _ _ Sh); destruct r0; injection H as <- <-; by injection Hr as <-).
    eapply (Hcrit x init (sl_seq (sl m x)) (sl_key (sl m x))); [done|destruct (sl m x); cbn in *; by subst|done|by left|left; destruct (sl m x); cbn in *; by subst].
  - rewrite (index_sl Sh) in H by done. cbn zeta in H. destruct (sl_mu (sl m x)) eqn:Hmu; [by injection H as <- <-|]. rewrite (slice_slot Hd Sh), (Hlo x) in H by done. rewrite <- (Hfn (bytes_at m x) true) in H by (by apply (bytes_at_len Hd Sh)).
    destruct (run (fn' true) (bytes_at m x)) as [d' r0] eqn:Hrun. assert (r = (match r0 with Panic => RPanic | _ => RUpdate r0 end) ∧ m' = MkMap (m_l m) (m_s m) (<[Z.to_nat x := match r0 with Panic => Slot k (u32 (sl_seq (sl m x) + 1)) true | _ => Slot k (u32 (u32 (sl_seq (sl m x) + 1) + 1)) false end]> (m_keys m)) (splice (m_values m) (Z.to_nat (x * s)) d')) as [-> ->] by (rewrite (sh_l _ _ _ Sh); destruct r0; injection H as <- <-; by injection Hr as <-).
    eapply solo_step; [done|cbn [step_call]; rewrite (index_sl Sh) by done; rewrite E0; reflexivity|].
    assert (sl (set_slot m x (Slot k (sl_seq (sl m x)) (sl_mu (sl m x)))) x = Slot k (sl_seq (sl m x)) false) as Es by (rewrite (sl_set Sh), decide_True by (done || lia); by rewrite Hmu).
    pose proof (Hcrit x true (sl_seq (sl m x)) (sl_key (sl m x)) Hx ltac:(destruct (sl m x); cbn in *; by subst) d' r0 Hrun _ (or_intror (ex_intro _ _ eq_refl)) (or_intror Es)) as Hc. by rewrite Es in Hc.
  - eapply solo_step; [done|cbn [step_call]; rewrite (index_sl Sh) by done; rewrite Ek; reflexivity|]. unfold reprobe. destruct n as [|n].
    + cbn in H. injection H as <- <-. injection Hr as <-. replace (maxReprobe <? S i)%nat with true by (unfold maxReprobe; lia). constructor.
    + replace (maxReprobe <? S i)%nat with false by (unfold maxReprobe; lia). rewrite (sh_l _ _ _ Sh) in IH. apply (IH (S i) true); [lia|lia|exact H|done].
Qed.
End solo.
