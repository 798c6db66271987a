(** Properties C23 - C32 and C66: internal/collation. *)
From Verif Require Import Base BaseProofs Float64 FnvModel FnvSpec FnvProofs BitbucketModel HllModel HllSpec Stat64Model Stat64Spec
  CollationModel CollationSpec CollationLayout CollationCells CollationProofs CollationMeasures CollationTop CollationSafe CollationTop2 DemoModel.
Local Open Scope Z_scope.

(** ** C23: record keys *)
(** The key is the FNV-1 hash of the text made of the names and values of the key
    fields; in particular it depends on nothing else. *)
Theorem C23_key_is_hash fvs keys :
  KeyValue fvs keys = match record_key keys fvs with Some h => (h, true) | None => (0, false) end.
Proof. exact (KeyValue_spec fvs keys). Qed.
Print Assumptions C23_key_is_hash.
Theorem C23_only_key_fields keys (r : Row) (q : Query) : (∀ k, k ∈ keys → value_of k (row_data r) = value_of k (q_crit q)) →
  Row_KeyValue r keys = Query_KeyValue q keys.
Proof. exact (KeyValue_ext keys (row_data r) (q_crit q)). Qed.
Print Assumptions C23_only_key_fields.
Theorem C23_field_order keys fvs fvs' : NoDup (map fv_F fvs) → fvs ≡ₚ fvs' → KeyValue fvs keys = KeyValue fvs' keys.
Proof. intros Hn Hp. apply KeyValue_ext. intros k _. by apply value_of_perm. Qed.
Print Assumptions C23_field_order.
Theorem C23_other_fields keys fvs1 fv fvs2 : fv_F fv ∉ keys → KeyValue (fvs1 ++ fv :: fvs2) keys = KeyValue (fvs1 ++ fvs2) keys.
Proof. intros H. apply KeyValue_ext. intros k Hk. apply value_of_other. by intros <-. Qed.
Print Assumptions C23_other_fields.
Theorem C23_fails_iff_missing keys fvs : (KeyValue fvs keys).2 = false ↔ ∃ k, k ∈ keys ∧ value_of k fvs = None.
Proof. exact (KeyValue_fails keys fvs). Qed.
Print Assumptions C23_fails_iff_missing.
(** a field is missing exactly if no field has its name *)
Theorem C23_missing k fvs : value_of k fvs = None ↔ k ∉ map fv_F fvs.
Proof.
  induction fvs as [|fv fvs IH]; simpl; [set_solver|]. case_decide; [|rewrite IH]; set_solver.
Qed.
Print Assumptions C23_missing.
Example C23_nonvacuous : KeyValue [MkFV (str "h") (str "3"); MkFV (str "country") (str "SA")] [str "country"] = (Sum64 (str "countrySA"), true).
Proof. vm_compute. reflexivity. Qed.

(** ** C24 is false: different key values can produce the same key, because names
    and values are hashed without separators. *)
Theorem C24_refuted : ∃ keys fvs fvs' h, KeyValue fvs keys = (h, true) ∧ KeyValue fvs' keys = (h, true) ∧
  NoDup keys ∧ map fv_F fvs = keys ∧ map fv_F fvs' = keys ∧ ∃ k, k ∈ keys ∧ value_of k fvs ≠ value_of k fvs'.
Proof.
  exists [str "a"; str "b"], [MkFV (str "a") (str "b"); MkFV (str "b") (str "")], [MkFV (str "a") (str ""); MkFV (str "b") (str "b")].
  eexists. split; [vm_compute; reflexivity|]. split; [vm_compute; reflexivity|]. split.
  - repeat constructor; set_solver.
  - split; [done|]. split; [done|]. exists (str "a"). split; [left|]. vm_compute. discriminate.
Qed.
Print Assumptions C24_refuted.
(** What does hold: key texts that differ in exactly one byte never collide. *)
Theorem C24_one_byte_partial keys fvs fvs' pre a b post : is_bytes pre → is_bytes post → is_byte a → is_byte b → a ≠ b →
  key_text keys fvs = Some (pre ++ a :: post) → key_text keys fvs' = Some (pre ++ b :: post) →
  KeyValue fvs keys ≠ KeyValue fvs' keys.
Proof.
  intros Hp Hq Ha Hb Hab E E'. rewrite !KeyValue_spec. unfold record_key. rewrite E, E'. simpl. intros [= H].
  rewrite <- !Sum64_spec in H. revert H. by apply Sum64_one_byte.
Qed.
Print Assumptions C24_one_byte_partial.
Example C24_partial_nonvacuous : key_text [str "c"] [MkFV (str "c") (str "FR")] = Some (str "cF" ++ 82 :: []).
Proof. reflexivity. Qed.

(** ** C25: layout *)
Theorem C25_layout s : schema_ok s → let c := Compile s in
  (∀ k g, g ∈ writers_of c k → 0 ≤ g_low g ∧ g_high g = g_low g + m_size (g_m g) ∧ 0 < m_size (g_m g) ∧ g_high g ≤ c_size c) ∧
  (∀ k i g k' j g', writers_of c k !! i = Some g → writers_of c k' !! j = Some g' → (k, i) ≠ (k', j) →
     g_high g ≤ g_low g' ∨ g_high g' ≤ g_low g) ∧
  (∀ f n g, reader_of c f n = Some g →
     n = m_name (g_m g) ∧ ∃ k m', Rg (g_low g) (g_high g) m' ∈ writers_of c k ∧ feeds k m' f (g_m g)) ∧
  (∀ f n, is_Some (reader_of c f n) ↔ declared s f n).
Proof.
  intros Hs c. split; [|split; [|split]].
  - intros k g. exact (layout_bounds s k g Hs).
  - intros k i g k' j g'. exact (layout_disjoint s k k' i j g g' Hs).
  - intros f n g. exact (layout_readers s f n g Hs).
  - intros f n. exact (layout_declared s f n Hs).
Qed.
Print Assumptions C25_layout.
(** the writers of a field hold measures declared for that field *)
Theorem C25_writers_declared s f g : (g ∈ writers_of (Compile s) (KCont f) ∨ g ∈ writers_of (Compile s) (KDisc f)) → field_measure s f (g_m g).
Proof.
  simpl. intros [H|H].
  - destruct (c_cont (Compile s) !! f) as [ws|] eqn:E; [by eapply Compile_cont|by apply elem_of_nil in H].
  - destruct (c_disc (Compile s) !! f) as [ws|] eqn:E; [by eapply Compile_disc|by apply elem_of_nil in H].
Qed.
Print Assumptions C25_writers_declared.
Example C25_nonvacuous : schema_ok country_schema ∧ schema_ok tz_schema ∧ c_size (Compile country_schema) = 900 ∧
  reader_of (Compile country_schema) (str "height") (str "var") = Some (Rg 8 40 MVariance) ∧
  writers_of (Compile country_schema) (KCont (str "height")) = [Rg 8 40 MMean; Rg 104 112 MMax; Rg 112 120 MMin].
Proof. split; [repeat constructor; simpl; lia|]. split; [repeat constructor; simpl; lia|]. vm_compute. done. Qed.

Section props.
(** for every parse function and every cardinality estimator *)
Context (pf : bytes → option float) (est : Counter → Z).

(** ** C26: count *)
Theorem C26_count s rows buf : schema_ok s → s_rows s ≠ [] →
  apply_rows pf (Compile s) (replicate (Z.to_nat (c_size (Compile s))) 0) rows = Ok buf →
  answer est s buf (str "*") (str "count") = Ok [MkFMV (str "*") (str "count") (f_of_Z (Z.of_nat (length rows) mod 2^64))].
Proof. exact (count_answer pf est s rows buf). Qed.

(** ** C27: sum, mean and var, whatever the init flags of the rows *)
Theorem C27_stats s f rows buf : schema_ok s →
  apply_rows pf (Compile s) (replicate (Z.to_nat (c_size (Compile s))) 0) rows = Ok buf →
  let vs := field_floats pf f (map snd rows) in
  (field_measure s f MSum → answer est s buf f (str "sum") = Ok [MkFMV f (str "sum") (sum_spec vs)]) ∧
  (field_measure s f MMean → answer est s buf f (str "mean") = Ok [MkFMV f (str "mean") (mean_spec vs)]) ∧
  (field_measure s f MVariance → answer est s buf f (str "var") = Ok [MkFMV f (str "var") (var_spec vs)]).
Proof.
  intros Hs Ha vs. split; [|split]; intros Hm.
  - exact (proj1 (stat_answer pf est s f MSum _ rows buf Hs Hm Ha eq_refl)).
  - exact (proj1 (stat_answer pf est s f MMean _ rows buf Hs Hm Ha eq_refl)).
  - exact (proj1 (stat_answer pf est s f MVariance _ rows buf Hs Hm Ha eq_refl)).
Qed.
(** in an accepted history every value of such a field was parsed (none was skipped) *)
Theorem C27_all_parsed s f m rows buf : schema_ok s → field_measure s f m → m ∈ [MSum; MMean; MVariance] →
  apply_rows pf (Compile s) (replicate (Z.to_nat (c_size (Compile s))) 0) rows = Ok buf →
  Forall2 (λ x v, pf x = Some v) (field_values f (map snd rows)) (field_floats pf f (map snd rows)).
Proof.
  intros Hs Hm Hin Ha.
  assert (Forall (λ x, is_Some (pf x)) (field_values f (map snd rows))) as H.
  { rewrite !elem_of_cons, elem_of_nil in Hin. destruct Hin as [->|[->|[->|[]]]];
      [exact (proj2 (stat_answer pf est s f MSum _ rows buf Hs Hm Ha eq_refl))
      |exact (proj2 (stat_answer pf est s f MMean _ rows buf Hs Hm Ha eq_refl))
      |exact (proj2 (stat_answer pf est s f MVariance _ rows buf Hs Hm Ha eq_refl))]. }
  unfold field_floats. clear -H. induction H as [|x l [v Hv] Hl IH]; [constructor|]. cbn [omap list_omap]. rewrite Hv. by constructor.
Qed.

(** ** C28: extremes, when the first row carries the field (once) and no value is NaN *)
Theorem C28_max_partial s f r0 rs buf : schema_ok s → field_measure s f MMax → has_once f r0 →
  record_after pf s (r0 :: rs) = Ok buf → Forall (λ v, fisnan v = false) (field_floats pf f (r0 :: rs)) →
  ∃ v, answer est s buf f (str "max") = Ok [MkFMV f (str "max") v] ∧ is_max v (field_floats pf f (r0 :: rs)).
Proof. exact (max_answer pf est s f r0 rs buf). Qed.
Theorem C28_min_partial s f r0 rs buf : schema_ok s → field_measure s f MMin → has_once f r0 →
  record_after pf s (r0 :: rs) = Ok buf → Forall (λ v, fisnan v = false) (field_floats pf f (r0 :: rs)) →
  ∃ v, answer est s buf f (str "min") = Ok [MkFMV f (str "min") v] ∧ is_min v (field_floats pf f (r0 :: rs)).
Proof. exact (min_answer pf est s f r0 rs buf). Qed.

(** ** C29: uniquecount, when the first row carries the field (once) and only one
    precision is declared for it *)
Theorem C29_uniquecount_partial s f p r0 rs buf : schema_ok s → field_measure s f (MCardinality p) →
  (∀ p', field_measure s f (MCardinality p') → p' = p) → has_once f r0 → Forall is_bytes (field_values f (r0 :: rs)) →
  record_after pf s (r0 :: rs) = Ok buf →
  ∃ c0 c, Hll_New p = Ok c0 ∧ Hll_Adds c0 (field_values f (r0 :: rs)) = Ok c ∧
    answer est s buf f (str "uniquecount") = Ok [MkFMV f (str "uniquecount") (f_of_Z (est c))].
Proof. exact (card_answer pf est s f p r0 rs buf). Qed.

(** ** C30 (partial): a row leaves alone every answer about fields it does not
    carry, in every state of the record. *)
Theorem C30_absent_field_unaffected_partial s buf r init buf' o f n : schema_ok s → Z.of_nat (length buf) = c_size (Compile s) →
  Coll_Update pf (Compile s) r buf init = (buf', o) → f ∉ map fv_F (row_data r) → (f, n) ≠ (str "*", str "count") →
  answer est s buf' f n = answer est s buf f n.
Proof. exact (frame_answer pf est s buf r init buf' o f n). Qed.
(** ... and a history is accepted if its numeric fields parse and every
    uniquecount field that occurs at all occurs in the first row. *)
Theorem C30_accepted_partial s r0 rs : schema_ok s → Forall (λ r, Forall (λ fv, is_bytes (fv_V fv)) (row_data r)) (r0 :: rs) →
  (∀ r fv m, r ∈ r0 :: rs → fv ∈ row_data r → field_measure s (fv_F fv) m → is_cont_input m = true → is_Some (pf (fv_V fv))) →
  (∀ r fv p, r ∈ rs → fv ∈ row_data r → field_measure s (fv_F fv) (MCardinality p) → fv_F fv ∈ map fv_F (row_data r0)) →
  ∃ buf, record_after pf s (r0 :: rs) = Ok buf.
Proof. exact (accepted pf s r0 rs). Qed.
(** ** C31 (partial): a rejected row changes nothing but the row count and the
    statistics of fields it carries. *)
Theorem C31_rejected_row_partial s buf r init buf' e f n : schema_ok s → Z.of_nat (length buf) = c_size (Compile s) →
  Coll_Update pf (Compile s) r buf init = (buf', Err e) → f ∉ map fv_F (row_data r) → (f, n) ≠ (str "*", str "count") →
  answer est s buf' f n = answer est s buf f n.
Proof. exact (frame_answer pf est s buf r init buf' (Err e) f n). Qed.

(** ** C32: reading a list of measures is reading each (field, measure) pair of
    the list in order ... *)
Theorem C32_in_order s buf fml res : Coll_Read est (Compile s) fml buf = Ok res →
  ∃ ls, Forall2 (λ '(f, n) l, answer est s buf f n = Ok l) (fm ← fml; map (pair (fm_F fm)) (fm_M fm)) ls ∧ res = concat ls.
Proof. exact (Read_answers est s buf fml res). Qed.
(** ... each pair giving exactly one value if the schema declares it and nothing,
    without error, otherwise. *)
Theorem C32_declared_only s buf f n : schema_ok s →
  (∀ l, declared s f n → answer est s buf f n = Ok l → ∃ v, l = [MkFMV f n v]) ∧ (¬ declared s f n → answer est s buf f n = Ok []).
Proof.
  intros Hs. split.
  - intros l Hd Ha. exact (proj1 (answer_shape est s buf f n l Hs Ha) Hd).
  - exact (answer_unknown est s buf f n Hs).
Qed.

(** ** C66: at supported precisions neither applying a row nor reading panics, in
    any state a record can get into, including after failed rows. *)
Theorem C66_update_never_panics s buf r init : schema_ok s → reachable pf s buf → Forall (λ fv, is_bytes (fv_V fv)) (row_data r) →
  ∃ buf' o, Coll_Update pf (Compile s) r buf init = (buf', o) ∧ o ≠ Panic ∧ Z.of_nat (length buf') = c_size (Compile s).
Proof. exact (never_panics pf s buf r init). Qed.
Theorem C66_read_never_panics s buf fml : schema_ok s → reachable pf s buf → Coll_Read est (Compile s) fml buf ≠ Panic.
Proof. exact (read_never_panics pf est s buf fml). Qed.
End props.
Print Assumptions C26_count.
Print Assumptions C27_stats.
Print Assumptions C27_all_parsed.
Print Assumptions C28_max_partial.
Print Assumptions C28_min_partial.
Print Assumptions C29_uniquecount_partial.
Print Assumptions C30_absent_field_unaffected_partial.
Print Assumptions C30_accepted_partial.
Print Assumptions C31_rejected_row_partial.
Print Assumptions C32_in_order.
Print Assumptions C32_declared_only.
Print Assumptions C66_update_never_panics.
Print Assumptions C66_read_never_panics.

(** ** concrete histories, and the failures of C28 - C32 *)
Definition mkrow (l : list (bytes * bytes)) : Row := MkRow 0 (map (λ '(f, v), MkFV f v) l).
(** the float64 bits of the answer to n(f) of a record *)
Definition answer_bits (s : Schema) (buf f n : bytes) : outcome (list Z) :=
  let! l := answer (λ c, match BB_CountN (hc_bits c) 0 with Ok z => BB_Count (hc_bits c) - z | _ => 0 end) s buf f n in
  Ok (map (λ r, fbits (r_V r)) l).
(** ... and of the record the rows leave *)
Definition asked (s : Schema) (rows : list Row) (f n : bytes) : outcome (list Z) :=
  let! buf := record_after int_parse s rows in answer_bits s buf f n.
Definition xschema : Schema := MkSchema (str "s") [str "k"] [MkMS (str "x") [MSum; MMax; MMin]; MkMS (str "u") [MCardinality 4]] [RCount].

Example collation_nonvacuous :
  let rows := [mkrow [(str "country", str "FR"); (str "height", str "10"); (str "iata", str "LFPG")];
               mkrow [(str "height", str "20"); (str "country", str "FR")];
               mkrow [(str "country", str "FR"); (str "iata", str "EGLL"); (str "height", str "-6")]] in
  has_once (str "height") (mkrow [(str "country", str "FR"); (str "height", str "10"); (str "iata", str "LFPG")]) ∧
  asked country_schema rows (str "*") (str "count") = Ok [fbits (f_of_Z 3)] ∧
  asked country_schema rows (str "height") (str "mean") = Ok [fbits (f_of_Z 8)] ∧
  asked country_schema rows (str "height") (str "max") = Ok [fbits (f_of_Z 20)] ∧
  asked country_schema rows (str "height") (str "min") = Ok [fbits (f_of_Z (-6))] ∧
  asked country_schema rows (str "iata") (str "uniquecount") = Ok [fbits (f_of_Z 2)] ∧
  asked country_schema rows (str "iata") (str "max") = Ok [].
Proof. vm_compute. repeat split. Qed.

(** C28 is false when the first row lacks the field: max of {-5} is reported as 0 *)
Theorem C28_absent_first_refuted :
  asked xschema [mkrow [(str "k", str "a")]; mkrow [(str "k", str "a"); (str "x", str "-5")]] (str "x") (str "max") = Ok [fbits (f_of_Z 0)] ∧
  asked xschema [mkrow [(str "k", str "a")]; mkrow [(str "k", str "a"); (str "x", str "5")]] (str "x") (str "min") = Ok [fbits (f_of_Z 0)].
Proof. split; vm_compute; reflexivity. Qed.
Print Assumptions C28_absent_first_refuted.
(** ... and when a value is NaN: the history before it is forgotten. *)
Theorem C28_nan_refuted :
  asked xschema [mkrow [(str "x", str "10")]; mkrow [(str "x", str "NaN")]; mkrow [(str "x", str "3")]] (str "x") (str "max") = Ok [fbits (f_of_Z 3)].
Proof. vm_compute. reflexivity. Qed.
Print Assumptions C28_nan_refuted.
(** C29/C30 are false when the first row lacks the field: every later row that
    carries it is rejected, and the query fails too. *)
Theorem C30_absent_first_refuted :
  record_after int_parse xschema [mkrow [(str "k", str "a")]; mkrow [(str "k", str "a"); (str "u", str "v")]] = Err ErrHllVersion ∧
  asked xschema [mkrow [(str "k", str "a")]] (str "u") (str "uniquecount") = Err ErrHllVersion.
Proof. split; vm_compute; reflexivity. Qed.
Print Assumptions C30_absent_first_refuted.
(** C29 is false for a first row that carries the field twice: the second value
    re-initialises the counter. *)
Theorem C29_duplicate_refuted :
  asked xschema [mkrow [(str "u", str "A"); (str "u", str "zzz")]] (str "u") (str "uniquecount") = Ok [fbits (f_of_Z 1)] ∧
  asked xschema [mkrow [(str "u", str "A")]; mkrow [(str "u", str "zzz")]] (str "u") (str "uniquecount") = Ok [fbits (f_of_Z 2)].
Proof. split; vm_compute; reflexivity. Qed.
Print Assumptions C29_duplicate_refuted.
(** C31 is false: a row whose value does not parse is counted before it is rejected. *)
Theorem C31_refuted : ∃ buf0 buf r, record_after int_parse xschema [mkrow [(str "x", str "1")]] = Ok buf0 ∧
  Coll_Update int_parse (Compile xschema) r buf0 false = (buf, Err ErrParseFloat) ∧
  answer_bits xschema buf0 (str "*") (str "count") = Ok [fbits (f_of_Z 1)] ∧
  answer_bits xschema buf (str "*") (str "count") = Ok [fbits (f_of_Z 2)].
Proof.
  destruct (record_after int_parse xschema [mkrow [(str "x", str "1")]]) as [buf0|e|] eqn:E0; [|vm_compute in E0; discriminate..].
  exists buf0, (Coll_Update int_parse (Compile xschema) (mkrow [(str "x", str "oops")]) buf0 false).1, (mkrow [(str "x", str "oops")]).
  split; [done|]. vm_compute in E0. injection E0 as <-. split; [vm_compute; reflexivity|]. split.
  - vm_compute. reflexivity.
  - vm_compute. reflexivity.
Qed.
Print Assumptions C31_refuted.
(** C25/C26: a count declared for a field is silently ignored *)
Theorem C25_field_count_ignored : ¬ declared (MkSchema [] [] [MkMS (str "x") [MCount]] []) (str "x") (str "count") ∧
  ∀ est buf, answer est (MkSchema [] [] [MkMS (str "x") [MCount]] []) buf (str "x") (str "count") = Ok [].
Proof.
  split; [|intros; reflexivity]. intros [(_ & _ & H)|(m & _ & H & Hn)]; [done|]. destruct (name_inj MCount m Hn) as [|(?&?&?&?)]; congruence.
Qed.
Print Assumptions C25_field_count_ignored.
