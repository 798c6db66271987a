(** Properties C84, C85, C86 of a store shared by any number of goroutines (as by
    the requests of the HTTP server), in every interleaving of atomic operations,
    lock operations and single byte accesses; for every way of carrying out the
    update of a record by a row that has the effect of Collator.Update when nobody
    interferes ([impl_ok]). *)
From Coq Require Import ZifyBool ZifyNat.
From Verif Require Import Base BaseProofs Float64 FnvSpec HllModel HllSpec Stat64Model Stat64Spec BitbucketModel CollationModel CollationSpec CollationProofs CollationTop CollationTop2 DemoModel BufmapModel BufmapSpec QueryModel Probe
  BufconcModel BufconcSpec BufconcProofs BufconcInv BufconcStep BufconcTop BufconcProps ServerModel StoreProofs StoreConcModel StoreConcSpec StoreConcProofs StoreConcTop StoreConcTop2 StoreConcTop3.
Local Open Scope Z_scope.

Section props.
Context (pf : bytes → option float) (est : Counter → Z) (s : Schema) (impl : Row → bool → prog).
Context (l : Z) (Hs : schema_ok s) (Hd : dims_ok l (c_size (Compile s))) (Himpl : impl_ok pf s impl).
Notation size := (c_size (Compile s)).

(** ** C84: no Write is lost or applied twice, none panics *)
(** No Write panics, so no record is ever left locked. *)
Theorem C84_never_panics n acts g h : Forall saction_ok acts → sexecution s impl l n acts g h →
  (∀ t k r init, SPanic t k r init ∉ h) ∧ ∀ t r res, SRet t (CWrite r) res ∈ h → reply est (Compile s) (CWrite r) res ≠ AWrite Panics ∧ reply est (Compile s) (CWrite r) res ≠ AWrite (Ret Panic).
Proof.
  intros HF Ex. pose proof (sexecution_inv s impl l Hd _ _ _ _ HF Ex) as V. assert (∀ t k r init, SPanic t k r init ∉ h) as Hnp by (by eapply (no_panic pf s impl l)).
  split; [done|]. intros t r res Hin. apply elem_of_list_split in Hin as (ha & hb & Eh). destruct res as [res|]; [|done].
  destruct (sexecution_execution s impl l Hd _ _ _ _ HF Ex) as (acts' & HF' & Ex'). pose proof (op_write s impl r) as Eo. destruct (row_key s r) as [k|] eqn:Ek.
  - assert (erase s impl h = erase s impl ha ++ ERet t (OUpdate k (impl r)) res :: erase s impl hb) as Ee by (rewrite Eh, (erase_app s impl); cbn -[StoreConcModel.op_of]; by rewrite Eo).
    destruct (C39_update_once _ _ _ _ _ _ _ _ _ _ _ _ Hd HF' Ex' Ee) as (i1 & i2 & Ei & Hqi & [(g1 & g2 & init & -> & _ & _ & -> & Hr)|[(_ & [[_ ->]|(_ & -> & _)])|(-> & g1 & g2 & init & -> & _)]]); try done.
    + cbn [reply]. split; [done|]. intros [= E]. by rewrite E in Hr.
    + exfalso. assert (EPanic t k (impl r) init ∈ erase s impl h) as Hin. { rewrite Ee, Ei. rewrite ?elem_of_app, ?elem_of_cons, ?elem_of_app, ?elem_of_cons. naive_solver. }
      apply erase_panic in Hin as (r' & Hin). by apply Hnp in Hin.
  - exfalso. (* a call that needs no record returns at once, without a result of the map *)
    destruct (k_ret s impl _ _ (sexecution_cinv s impl l Hd _ _ _ _ HF Ex) _ _ _ _ _ Eh) as (Hn & _). apply Hn in Eo. done.
Qed.
(** Every Write that returned nil was applied to its record exactly once, between
    its call and its return: when all calls have returned, and none failed, the
    record of key k is the result of applying the rows written to k, each exactly
    once, one after another in some order, to a zeroed record. *)
Theorem C84_no_write_lost n acts g h k : Forall saction_ok acts → sexecution s impl l n acts g h → squiescent g → no_failures s h → k ≠ 0 → called s k h ≠ [] →
  ∃ rows buf, map snd rows ≡ₚ called s k h ∧ record (c_map (g_cfg g)) k = Some buf ∧ apply_rows pf (Compile s) (replicate (Z.to_nat size) 0) rows = Ok buf.
Proof.
  intros HF Ex Q NF H0 Hne. pose proof (all_applied s impl l Hd k n acts g h H0 HF Ex NF Q) as Hp. exists (applied k h), (contents pf s k h). split; [done|].
  destruct (store_record pf s impl l Hs Hd Himpl n acts g h k HF Ex Q H0) as [Hr|[_ Ha]].
  - split; [done|]. by eapply (apply_ok pf s impl l Hd Himpl n acts g h k h []); [..|by rewrite app_nil_r].
  - rewrite Ha in Hp. cbn in Hp. symmetry in Hp. by apply Permutation_nil_r in Hp.
Qed.
(** a record that nobody writes to does not come into being with anything in it *)
Theorem C84_nothing_invented n acts g h k : Forall saction_ok acts → sexecution s impl l n acts g h → squiescent g → k ≠ 0 → called s k h = [] → no_failures s h →
  record (c_map (g_cfg g)) k = None ∨ record (c_map (g_cfg g)) k = Some (replicate (Z.to_nat size) 0).
Proof.
  intros HF Ex Q H0 Hc NF. pose proof (all_applied s impl l Hd k n acts g h H0 HF Ex NF Q) as Hp. rewrite Hc in Hp. apply Permutation_nil_r in Hp.
  destruct (store_record pf s impl l Hs Hd Himpl n acts g h k HF Ex Q H0) as [Hr|[Hr _]]; [right|by left]. rewrite Hr. unfold contents. destruct (applied k h); [done|]. done.
Qed.
(** count( * ) is the number of Writes *)
Theorem C84_count n acts g h k : Forall saction_ok acts → sexecution s impl l n acts g h → squiescent g → no_failures s h → k ≠ 0 → called s k h ≠ [] → s_rows s ≠ [] →
  ∃ buf, record (c_map (g_cfg g)) k = Some buf ∧ answer est s buf (str "*") (str "count") = Ok [MkFMV (str "*") (str "count") (f_of_Z (Z.of_nat (length (called s k h)) mod 2^64))].
Proof.
  intros HF Ex Q NF H0 Hne Hr. destruct (C84_no_write_lost n acts g h k HF Ex Q NF H0 Hne) as (rows & buf & Hp & Hrec & Ha). exists buf. split; [done|].
  rewrite (count_answer pf est s rows buf Hs Hr Ha). by rewrite <- (Permutation_length Hp), map_length.
Qed.
(** sum, mean and var are those of the rows written, in one and the same order for all fields *)
Theorem C84_stats n acts g h k : Forall saction_ok acts → sexecution s impl l n acts g h → squiescent g → no_failures s h → k ≠ 0 → called s k h ≠ [] →
  ∃ rows buf, rows ≡ₚ called s k h ∧ record (c_map (g_cfg g)) k = Some buf ∧ ∀ f, let vs := field_floats pf f rows in
    (field_measure s f MSum → answer est s buf f (str "sum") = Ok [MkFMV f (str "sum") (sum_spec vs)]) ∧
    (field_measure s f MMean → answer est s buf f (str "mean") = Ok [MkFMV f (str "mean") (mean_spec vs)]) ∧
    (field_measure s f MVariance → answer est s buf f (str "var") = Ok [MkFMV f (str "var") (var_spec vs)]).
Proof.
  intros HF Ex Q NF H0 Hne. destruct (C84_no_write_lost n acts g h k HF Ex Q NF H0 Hne) as (rows & buf & Hp & Hrec & Ha). exists (map snd rows), buf. split; [done|]. split; [done|]. intros f vs.
  split; [|split]; intros Hm.
  - exact (proj1 (stat_answer pf est s f MSum _ rows buf Hs Hm Ha eq_refl)).
  - exact (proj1 (stat_answer pf est s f MMean _ rows buf Hs Hm Ha eq_refl)).
  - exact (proj1 (stat_answer pf est s f MVariance _ rows buf Hs Hm Ha eq_refl)).
Qed.

(** ** C85: max, min and uniquecount.  Refuted below for Writes that create a record
    at the same time.  In part: if the Write that creates the record returns before
    any other Write to it is called, and the record got the home slot of its key, the
    record is that of a sequential history of the rows, first the creating one. *)
Theorem C85_first_alone_partial n acts g h ha hb t k r0 : Forall saction_ok acts → sexecution s impl l n acts g h → no_failures s h → squiescent g → k ≠ 0 →
  h = ha ++ SRet t (CWrite r0) (Some (RUpdate (Ok ()))) :: hb → row_key s r0 = Some k → called s k ha = [r0] → key_at (c_map (g_cfg g)) (home l k) = k →
  ∃ rs buf, r0 :: rs ≡ₚ called s k h ∧ record (c_map (g_cfg g)) k = Some buf ∧ record_after pf s (r0 :: rs) = Ok buf ∧
    ∀ f, has_once f r0 →
      (field_measure s f MMax → Forall (λ v, fisnan v = false) (field_floats pf f (r0 :: rs)) → ∃ v, answer est s buf f (str "max") = Ok [MkFMV f (str "max") v] ∧ is_max v (field_floats pf f (r0 :: rs))) ∧
      (field_measure s f MMin → Forall (λ v, fisnan v = false) (field_floats pf f (r0 :: rs)) → ∃ v, answer est s buf f (str "min") = Ok [MkFMV f (str "min") v] ∧ is_min v (field_floats pf f (r0 :: rs))) ∧
      (∀ p, field_measure s f (MCardinality p) → (∀ p', field_measure s f (MCardinality p') → p' = p) → Forall is_bytes (field_values f (r0 :: rs)) →
         ∃ c0 c, Hll_New p = Ok c0 ∧ Hll_Adds c0 (field_values f (r0 :: rs)) = Ok c ∧ answer est s buf f (str "uniquecount") = Ok [MkFMV f (str "uniquecount") (f_of_Z (est c))]).
Proof.
  intros HF Ex NF Q H0 Eh Ek Hc Hh. pose proof (first_flags s impl l Hd n acts g h ha hb t k r0 HF Ex NF Q H0 Eh Ek Hc Hh) as Ef.
  pose proof (all_applied s impl l Hd k n acts g h H0 HF Ex NF Q) as Hp. set (rs := map snd (applied k hb)) in *.
  exists rs, (contents pf s k h). rewrite Ef in Hp. cbn [map snd] in Hp. rewrite map_map in Hp. cbn [snd] in Hp. rewrite map_id in Hp. split; [done|].
  assert (record (c_map (g_cfg g)) k = Some (contents pf s k h)) as Hrec. { destruct (store_record pf s impl l Hs Hd Himpl n acts g h k HF Ex Q H0) as [Hr|[_ Ha]]; [done|]. by rewrite Ef in Ha. }
  assert (record_after pf s (r0 :: rs) = Ok (contents pf s k h)) as Hra.
  { unfold record_after. cbn [first_init]. rewrite <- Ef. by eapply (apply_ok pf s impl l Hd Himpl n acts g h k h []); [..|by rewrite app_nil_r]. }
  split; [done|]. split; [done|]. intros f Hf. split; [|split].
  - intros Hm Hn. by apply (max_answer pf est s f r0 rs).
  - intros Hm Hn. by apply (min_answer pf est s f r0 rs).
  - intros p Hm Hu Hb. by apply (card_answer pf est s f p r0 rs).
Qed.

(** ** C86, in part.  A Read concurrent with any Writes and Reads answers from the
    complete record as it was at one moment between its call and its return, if the
    record is in a slot numbered at least the record size (see C33, C34 for the
    others) and fewer than 2^31 rows are applied to it meanwhile. *)
Theorem C86_one_moment_partial n acts g h ha hb t q res k : Forall saction_ok acts → sexecution s impl l n acts g h → h = ha ++ SRet t (CRead q) res :: hb →
  record_key (s_keys s) (q_crit q) = Some k → k ≠ 0 →
  ∃ h1 h2, ha = h1 ++ SInv t (CRead q) :: h2 ∧ squiet t h2 ∧
    ((∃ x, 0 ≤ x < l ∧ key_at (c_map (g_cfg g)) x = k ∧ (size ≤ x → Z.of_nat (length (applied k h2)) < 2^31 →
        ∃ a b, h2 = a ++ b ∧ reply est (Compile s) (CRead q) res = ARead (Ret (Coll_Read est (Compile s) (q_fms q) (contents pf s k (h1 ++ SInv t (CRead q) :: a)))))) ∨
     (reply est (Compile s) (CRead q) res = ARead (Ret (Ok [])) ∧ applied k h1 = []) ∨
     (reply est (Compile s) (CRead q) res = ARead Panics ∧ ∃ x, 0 ≤ x < l ∧ key_at (c_map (g_cfg g)) x = k ∧ l * size < x * (size + 1))).
Proof. exact (read_moment pf est s impl l Hs Hd Himpl n acts g h ha hb t q res k). Qed.
(** where the whole record can be read *)
Definition well_placed (g : scfg) (k : Z) : Prop := ∀ x, 0 ≤ x < l → key_at (c_map (g_cfg g)) x = k → size ≤ x ∧ x * (size + 1) ≤ l * size.
Definition count_query (q : Query) : Prop := q_fms q = [MkFM (str "*") [str "count"]].
(** the count that a Read reports: number of rows, or nothing when there is no record *)
Definition reports (res : option BufconcModel.res) (q : Query) (m : nat) : Prop :=
  reply est (Compile s) (CRead q) res = ARead (Ret (Ok [MkFMV (str "*") (str "count") (f_of_Z (Z.of_nat m mod 2^64))])) ∨ (m = 0%nat ∧ reply est (Compile s) (CRead q) res = ARead (Ret (Ok []))).
Lemma read_count n acts g h ha hb t q res k : Forall saction_ok acts → sexecution s impl l n acts g h → squiescent g → no_failures s h → s_rows s ≠ [] → count_query q → k ≠ 0 → well_placed g k →
  h = ha ++ SRet t (CRead q) res :: hb → record_key (s_keys s) (q_crit q) = Some k → Z.of_nat (length (called s k h)) < 2^31 →
  ∃ h1 h2 a b, ha = h1 ++ SInv t (CRead q) :: h2 ∧ squiet t h2 ∧ h2 = a ++ b ∧ ∃ m, reports res q m ∧ (length (applied k h1) ≤ m ≤ length (applied k (h1 ++ SInv t (CRead q) :: a)))%nat ∧ (m = length (applied k (h1 ++ SInv t (CRead q) :: a)) ∨ (m = 0%nat ∧ a = [])).
Proof.
  intros HF Ex Q NF Hr Hq H0 Hw Eh Ek Hlt. destruct (read_moment pf est s impl l Hs Hd Himpl n acts g h ha hb t q res k HF Ex Eh Ek H0) as (h1 & h2 & -> & Hqu & Hc).
  destruct (sexecution_pinv s impl l Hd k n acts g h H0 HF Ex NF) as (Wi & _).
  assert (length (applied k h2) ≤ length (called s k h))%nat as Hle.
  { destruct (Wi h [] ltac:(by rewrite app_nil_r)) as [_ Hsub]. apply submseteq_length in Hsub. rewrite map_length in Hsub. assert (applied k h = applied k h1 ++ applied k h2 ++ applied k hb) as Eapp by (rewrite Eh, !applied_app, <- app_assoc; done). rewrite Eapp, !app_length in Hsub. lia. }
  destruct Hc as [(x & Hx & Hkx & Hm)|[[Hrep Ha]|(Hrep & x & Hx & Hkx & Hbad)]].
  - destruct (Hw x Hx Hkx) as [Hsx _]. destruct Hm as (a & b & -> & Hrep); [done|lia|]. exists h1, (a ++ b), a, b. split; [done|]. split; [done|]. split; [done|].
    exists (length (applied k (h1 ++ SInv t (CRead q) :: a))). split; [|split; [|by left]].
    + left. rewrite Hrep. f_equal. f_equal. rewrite Hq. apply (count_answer pf est s _ _ Hs Hr). eapply (apply_ok pf s impl l Hd Himpl n acts g h k _ (b ++ SRet t (CRead q) res :: hb)); try done. rewrite Eh, <- !app_assoc. cbn. by rewrite <- app_assoc.
    + rewrite applied_app, app_length. lia.
  - exists h1, h2, [], h2. split; [done|]. split; [done|]. split; [done|]. exists 0%nat. split; [by right|]. rewrite Ha. split; [cbn; lia|]. by right.
  - destruct (Hw x Hx Hkx) as [_ ?]. lia.
Qed.
(** the count reported by a Read is at least the number of Writes that had returned
    when it was called, and at most the number called when it returned *)
Theorem C86_count_between_partial n acts g h ha hb t q res k : Forall saction_ok acts → sexecution s impl l n acts g h → squiescent g → no_failures s h → s_rows s ≠ [] → count_query q → k ≠ 0 → well_placed g k →
  h = ha ++ SRet t (CRead q) res :: hb → record_key (s_keys s) (q_crit q) = Some k → Z.of_nat (length (called s k h)) < 2^31 →
  ∃ h1 h2 m, ha = h1 ++ SInv t (CRead q) :: h2 ∧ squiet t h2 ∧ reports res q m ∧ (length (succeeded s k h1) ≤ m ≤ length (called s k ha))%nat.
Proof.
  intros HF Ex Q NF Hr Hq H0 Hw Eh Ek Hlt. destruct (read_count n acts g h ha hb t q res k HF Ex Q NF Hr Hq H0 Hw Eh Ek Hlt) as (h1 & h2 & a & b & Ea & Hqu & -> & m & Hrep & Hb & _).
  exists h1, (a ++ b), m. split; [done|]. split; [done|]. split; [done|]. destruct (sexecution_pinv s impl l Hd k n acts g h H0 HF Ex NF) as (Wi & _).
  destruct (Wi h1 (SInv t (CRead q) :: (a ++ b) ++ SRet t (CRead q) res :: hb)) as [S1 _]. { rewrite Eh, Ea, <- app_assoc. done. }
  destruct (Wi (h1 ++ SInv t (CRead q) :: a) (b ++ SRet t (CRead q) res :: hb)) as [_ S2]. { rewrite Eh, Ea, <- !app_assoc. cbn. by rewrite <- app_assoc. }
  apply submseteq_length in S1, S2. rewrite map_length in S1, S2. assert (length (called s k (h1 ++ SInv t (CRead q) :: a)) ≤ length (called s k ha))%nat; [|lia].
  rewrite Ea. change (SInv t (CRead q) :: a ++ b) with ((SInv t (CRead q) :: a) ++ b). rewrite app_assoc, (called_app s k _ b), app_length. lia.
Qed.
(** of two Reads of a key, one returning before the other is called, the later does
    not report a smaller count *)
Theorem C86_count_monotone_partial n acts g h h1 h2 h3 t1 q1 res1 t2 q2 res2 k : Forall saction_ok acts → sexecution s impl l n acts g h → squiescent g → no_failures s h → s_rows s ≠ [] →
  count_query q1 → count_query q2 → k ≠ 0 → well_placed g k → record_key (s_keys s) (q_crit q1) = Some k → record_key (s_keys s) (q_crit q2) = Some k → Z.of_nat (length (called s k h)) < 2^31 →
  h = h1 ++ SRet t1 (CRead q1) res1 :: h2 ++ SInv t2 (CRead q2) :: h3 → (∃ h4 h5, h3 = h4 ++ SRet t2 (CRead q2) res2 :: h5 ∧ squiet t2 h4) →
  ∃ m1 m2, reports res1 q1 m1 ∧ reports res2 q2 m2 ∧ (m1 ≤ m2)%nat.
Proof.
  intros HF Ex Q NF Hr Hq1 Hq2 H0 Hw Ek1 Ek2 Hlt Eh (h4 & h5 & -> & Hqu).
  destruct (read_count n acts g h h1 (h2 ++ SInv t2 (CRead q2) :: h4 ++ SRet t2 (CRead q2) res2 :: h5) t1 q1 res1 k HF Ex Q NF Hr Hq1 H0 Hw Eh Ek1 Hlt) as (a1 & b1 & a & b & -> & _ & -> & m1 & Hrep1 & Hb1 & _).
  assert (h = ((a1 ++ SInv t1 (CRead q1) :: a ++ b) ++ SRet t1 (CRead q1) res1 :: h2 ++ SInv t2 (CRead q2) :: h4) ++ SRet t2 (CRead q2) res2 :: h5) as Eh'. { rewrite Eh. rewrite <- !app_assoc. cbn. by rewrite <- !app_assoc. }
  destruct (read_count n acts g h _ h5 t2 q2 res2 k HF Ex Q NF Hr Hq2 H0 Hw Eh' Ek2 Hlt) as (a2 & b2 & a' & b' & Ea & Hq & -> & m2 & Hrep2 & Hb2 & _).
  exists m1, m2. split; [done|]. split; [done|]. 
  assert (a2 = (a1 ++ SInv t1 (CRead q1) :: a ++ b) ++ SRet t1 (CRead q1) res1 :: h2) as ->.
  { assert (((a1 ++ SInv t1 (CRead q1) :: a ++ b) ++ SRet t1 (CRead q1) res1 :: h2) ++ SInv t2 (CRead q2) :: h4 = a2 ++ SInv t2 (CRead q2) :: (a' ++ b')) as E by (rewrite <- Ea; by rewrite <- app_assoc).
    apply app_eq_app in E as (z & [[Z1 Z2]|[Z1 Z2]]); (destruct z as [|e z]; [by rewrite app_nil_r in Z1|injection Z2 as <- Z2; exfalso]).
    - unfold squiet in Hq. rewrite Z2, Forall_app, Forall_cons in Hq. by destruct Hq as (_ & Hx & _).
    - unfold squiet in Hqu. rewrite Z2, Forall_app, Forall_cons in Hqu. by destruct Hqu as (_ & Hx & _). }
  rewrite applied_app, app_length in Hb2. assert (length (applied k (a1 ++ SInv t1 (CRead q1) :: a)) ≤ length (applied k (a1 ++ SInv t1 (CRead q1) :: a ++ b)))%nat; [|lia].
  change (SInv t1 (CRead q1) :: a ++ b) with ((SInv t1 (CRead q1) :: a) ++ b). rewrite app_assoc, (applied_app k _ b), app_length. lia.
Qed.
End props.
Print Assumptions C84_never_panics.
Print Assumptions C84_no_write_lost.
Print Assumptions C84_nothing_invented.
Print Assumptions C84_count.
Print Assumptions C84_stats.
Print Assumptions C85_first_alone_partial.
Print Assumptions C86_one_moment_partial.
Print Assumptions C86_count_between_partial.
Print Assumptions C86_count_monotone_partial.

(** ** Concrete runs.  Records have 16 bytes: a counter of rows and the maximum of x. *)
Definition zschema : Schema := MkSchema (str "s") [str "k"] [MkMS (str "x") [MMax]] [RCount].
Definition zimpl (r : Row) : bool → prog := as_prog 16 (transaction int_parse (Compile zschema) r).
Lemma zimpl_ok : impl_ok int_parse zschema zimpl.
Proof. intros r init d Hl. unfold zimpl. rewrite run_as_prog; [done|apply transaction_ok|done]. Qed.
Definition zrow (x : bytes) : Row := MkRow 0 [MkFV (str "k") (str "d"); MkFV (str "x") x].
Definition zkey : Z := Eval vm_compute in fnv1_spec (str "kd").
Lemma zkey_pos : zkey ≠ 0.
Proof. done. Qed.
Lemma zhome : 0 ≤ home 32 zkey < 32.
Proof. vm_compute. done. Qed.
Lemma zplace : c_size (Compile zschema) ≤ home 32 zkey ∧ home 32 zkey * (c_size (Compile zschema) + 1) ≤ 32 * c_size (Compile zschema).
Proof. vm_compute. done. Qed.
Lemma zdims : dims_ok 32 (c_size (Compile zschema)).
Proof. vm_compute. done. Qed.
Lemma zschema_ok : schema_ok zschema.
Proof. by repeat constructor. Qed.
Definition zst (t n : nat) : list saction := replicate n (SStep t).
(** the values of an answer, as float64 bits *)
Definition zbits (a : outcome (list FMV)) : outcome (list Z) := let! l := a in Ok (map (λ r, fbits (r_V r)) l).
Definition zcount : Query := MkQuery [MkFM (str "*") [str "count"]] [MkFV (str "k") (str "d")].
Definition zmax : Query := MkQuery [MkFM (str "x") [str "max"]] [MkFV (str "k") (str "d")].
Definition is_fine (e : sevent) : bool := match e with SRet _ (CWrite r) res => match reply (λ _, 0) (Compile zschema) (CWrite r) res with AWrite (Ret (Ok _)) => true | _ => false end | _ => true end.
Lemma fine_ok h : forallb is_fine h = true → no_failures zschema h.
Proof.
  intros H t r res Hin. rewrite forallb_forall in H. apply elem_of_list_In in Hin. apply H in Hin. unfold is_fine in Hin. destruct (reply (λ _, 0) (Compile zschema) (CWrite r) res) as [[[[]| |]| |]|] eqn:Er; first [discriminate Hin|reflexivity].
Qed.
(** C85 is false: one goroutine writes x=5, another x=9, to a record that does not
    exist yet.  Both return nil, both are counted; the maximum reported is 5. *)
Definition race85 : list saction := [SCall 0 (CWrite (zrow (str "5")))] ++ zst 0 2 ++ [SCall 1 (CWrite (zrow (str "9")))] ++ zst 1 42 ++ zst 0 42.
Theorem C85_refuted : ∃ g h, schema_ok zschema ∧ dims_ok 32 (c_size (Compile zschema)) ∧ impl_ok int_parse zschema zimpl ∧ Forall saction_ok race85 ∧
  sexecution zschema zimpl 32 2 race85 g h ∧ squiescent g ∧ no_failures zschema h ∧ key_at (c_map (g_cfg g)) (home 32 zkey) = zkey ∧
  called zschema zkey h = [zrow (str "5"); zrow (str "9")] ∧
  ∃ buf, record (c_map (g_cfg g)) zkey = Some buf ∧ zbits (answer (λ _, 0) zschema buf (str "*") (str "count")) = Ok [fbits (f_of_Z 2)] ∧
    zbits (answer (λ _, 0) zschema buf (str "x") (str "max")) = Ok [fbits (f_of_Z 5)].
Proof.
  destruct (New 32 (c_size (Compile zschema))) as [m| |] eqn:Em; [|vm_compute in Em; discriminate..].
  destruct (sexec (Compile zschema) zimpl (MkS (MkCfg m (replicate 2 None)) (replicate 2 None)) race85) as [g h] eqn:E. exists g, h.
  assert (Forall saction_ok race85) as HF. { repeat first [apply Forall_app_2|apply Forall_cons; split|apply Forall_nil; exact I]; try (apply Forall_replicate; exact I); cbn; repeat constructor; by vm_compute. }
  split; [exact zschema_ok|]. split; [exact zdims|]. split; [exact zimpl_ok|]. split; [exact HF|]. split; [exists m; split; [exact Em|exact E]|].
  vm_compute in Em. injection Em as <-. vm_compute in E. injection E as <- <-. split; [|split; [|split; [|split]]].
  - intros t p L. apply elem_of_list_lookup_2 in L. cbn [g_calls] in L. rewrite !elem_of_cons, elem_of_nil in L. tauto.
  - apply fine_ok. vm_compute. reflexivity.
  - vm_compute. reflexivity.
  - vm_compute. reflexivity.
  - eexists. split; [vm_compute; reflexivity|]. split; vm_compute; reflexivity.
Qed.
Print Assumptions C85_refuted.

(** A run that meets the hypotheses of the theorems: the first Write alone, then two
    Writes and a Read interleaved, the Read retrying while a Write is in progress. *)
Definition run86 : list saction := [SCall 0 (CWrite (zrow (str "5")))] ++ zst 0 42 ++ [SCall 2 (CRead zcount)] ++ zst 2 3 ++ [SCall 1 (CWrite (zrow (str "9")))] ++ zst 1 20 ++ [SCall 0 (CWrite (zrow (str "7")))] ++ zst 0 5 ++ zst 2 30 ++ zst 1 42 ++ zst 2 40 ++ zst 0 42 ++ [SCall 2 (CRead zmax)] ++ zst 2 40.
Definition zreplies (h : list sevent) : list (outcome (list Z)) :=
  omap (λ e, match e with SRet _ sc res => Some (match reply (λ _, 0) (Compile zschema) sc res with ARead (Ret a) => zbits a | AWrite (Ret (Ok _)) => Ok [] | _ => Panic end) | _ => None end) h.
Example store_conc_nonvacuous : ∃ g h, schema_ok zschema ∧ dims_ok 32 (c_size (Compile zschema)) ∧ impl_ok int_parse zschema zimpl ∧ Forall saction_ok run86 ∧
  sexecution zschema zimpl 32 3 run86 g h ∧ squiescent g ∧ no_failures zschema h ∧ key_at (c_map (g_cfg g)) (home 32 zkey) = zkey ∧ well_placed zschema 32 g zkey ∧
  called zschema zkey h = [zrow (str "5"); zrow (str "9"); zrow (str "7")] ∧ (∃ ha hb, h = ha ++ SRet 0 (CWrite (zrow (str "5"))) (Some (RUpdate (Ok ()))) :: hb ∧ called zschema zkey ha = [zrow (str "5")]) ∧
  zreplies h = [Ok []; Ok []; Ok [fbits (f_of_Z 2)]; Ok []; Ok [fbits (f_of_Z 9)]].
Proof.
  destruct (New 32 (c_size (Compile zschema))) as [m| |] eqn:Em; [|vm_compute in Em; discriminate..].
  destruct (sexec (Compile zschema) zimpl (MkS (MkCfg m (replicate 3 None)) (replicate 3 None)) run86) as [g h] eqn:E. exists g, h.
  assert (Forall saction_ok run86) as HF. { repeat first [apply Forall_app_2|apply Forall_cons; split|apply Forall_nil; exact I]; try (apply Forall_replicate; exact I); cbn; repeat constructor; by vm_compute. }
  split; [exact zschema_ok|]. split; [exact zdims|]. split; [exact zimpl_ok|]. split; [exact HF|]. split; [exists m; split; [exact Em|exact E]|].
  pose proof (C41_bufmap_one_slot) as One. destruct (sexecution_execution zschema zimpl 32 zdims 3 run86 g h HF (ex_intro _ m (conj Em E))) as (acts' & HF' & Ex').
  assert (key_at (c_map (g_cfg g)) (home 32 zkey) = zkey) as Hh. { vm_compute in Em. injection Em as <-. vm_compute in E. injection E as <- <-. vm_compute. reflexivity. }
  assert (well_placed zschema 32 g zkey) as Hwp.
  { intros x Hx Hkx. destruct (One 32 (c_size (Compile zschema)) 3%nat acts' (g_cfg g) _ x (home 32 zkey) zkey zdims HF' Ex' zkey_pos Hx zhome Hkx Hh) as [-> _]. exact zplace. }
  split; [|split; [|split; [exact Hh|split; [exact Hwp|]]]]; clear One Ex' HF' Hwp Hh; vm_compute in Em; injection Em as <-; vm_compute in E; injection E as <- <-.
  - intros t p L. apply elem_of_list_lookup_2 in L. cbn [g_calls] in L. rewrite !elem_of_cons, elem_of_nil in L. tauto.
  - apply fine_ok. vm_compute. reflexivity.
  - split; [vm_compute; reflexivity|]. split; [|vm_compute; reflexivity].
    eexists [_; _; _], _. split; [reflexivity|]. vm_compute. reflexivity.
Qed.
