(** C109 over HTTP: the mean and the variance a query answers with, against the
    textbook mean and sample variance of the numbers posted; and C104 over HTTP
    in the two upper ranges of the cardinality estimator. *)
From Coq Require Import ZifyBool ZifyNat.
From Verif Require Import Base BaseProofs Float64 Float64Spec Float64Proofs FloatMore FloatRel FnvModel FnvSpec FnvProofs HllModel HllSpec HllCountModel HllCountSpec HllCountTop HllCountProps HllEstSpec HllEstProps
  Stat64Model Stat64Spec Stat64RealSpec Stat64FloatProofs Stat64ErrSpec Stat64ErrProofs CollationModel CollationSpec CollationProofs CollationLayout CollationTop CollationTop2 CollationProps DemoModel
  BufmapModel BufmapSpec BufmapProofs BufmapTop QueryModel QuerySpec ServerModel ServerSpec ScanProofs ParseRowProofs ServerProofs StoreProofs ServerInv ServerTop ServerAnswers ServerProps ServerDemo ServerUniqueSpec ServerUniqueProps.
From Coq Require Import Reals Lra.
From Flocq Require Import Core.
From stdpp Require Import sets.
Notation float := Float64.float.
Local Open Scope Z_scope.

Lemma spread_pw D : (/ 2 ^ 400 <= D <= 2 ^ 400)%R → (pw (-400) <= D <= pw 400)%R.
Proof. intros HD. change (-400)%Z with (Z.opp 400). rewrite bpow_opp. change 400%Z with (Z.of_nat 400). rewrite bpow_pow. exact HD. Qed.

Section props.
Context (pf : bytes → option float) (est : Counter → Z) (ff : float → bytes) (et : error → bytes) (pm : bytes → option bytes) (order : list FM → list FM).
Notation serve := (ServeHTTP pf est ff et pm order).
Notation serve_all := (serve_all pf est ff et pm order).

(** The answer to mean(f) and var(f) where key=v after any run of requests:
    [xs] are the numbers posted as f with key=v.  Partial, as C70: the record
    must be readable and its key not collide. *)
Theorem C109_mean_http_partial c sts0 rqs sts rs rows l s rq key v f M D : cfg_ok c → initial c sts0 → Forall request_ok rqs → serve_all sts0 rqs = (sts, rs) → posted pm rqs rs rows →
  installed c l s → plain_name (s_name s) → s_keys s = [key] → map_order order → key_ok key → value_ok v → ¬ has_where (crit_item (key, v)) → name_ok f → field_measure s f MMean →
  coll_query rq (s_name s) (str "select mean(" ++ f ++ str ") where " ++ key ++ str "='" ++ v ++ str "'") →
  let k := fnv1_spec (key ++ v) in is_key k → no_collision [key] [MkFV key v] rows → readable l (c_size (Compile s)) (c_size (Compile s)) k →
  let mine := filter (λ r, value_of key (row_data r) = Some v) rows in let xs := field_floats pf f mine in
  xs ≠ [] → Z.of_nat (length xs) ≤ 2 ^ 40 → (/ 2 ^ 400 <= D <= 2 ^ 400)%R → within M D xs →
  ∃ mean, serve sts rq = (sts, Resp 200 (key ++ str "=" ++ v ++ [10] ++ str "mean(" ++ f ++ str ")=" ++ ff mean ++ [10])) ∧ ffinite mean = true ∧
  (Rabs (f2r mean - Rmean (map f2r xs)) <= / 2 ^ 53 * ((INR (length xs) / 2 + 1) * M + 3 * D))%R.
Proof.
  intros Hc H0 Hr E Hp Hins Hpn Hkeys Ho Hk Hv Hw Hf Hm Hq k Hkey Hcol Hread mine xs Hne Hn HD HW. exists (mean_spec xs).
  assert (mine ≠ []) as Hmine by (intros E0; apply Hne; unfold xs; by rewrite E0). split.
  - rewrite (C70_stats_partial pf est ff et pm order c sts0 rqs sts rs rows l s rq key v f MMean (mean_spec xs)) by (try done; right; left; done).
    fold mine. destruct (decide (mine = [])); [done|]. reflexivity.
  - pose proof (spread_pw D HD) as HD'. split.
    + apply mean_hull.
      * destruct xs; [done|cbn [length] in *; lia].
      * exact (bounded_finite M D _ HW).
      * exact (bounded_spread M D _ (proj2 HD') HW).
    + rewrite <- uu_eq. exact (mean_err M D _ Hne Hn HD' HW).
Qed.
Theorem C109_variance_http_partial c sts0 rqs sts rs rows l s rq key v f M D : cfg_ok c → initial c sts0 → Forall request_ok rqs → serve_all sts0 rqs = (sts, rs) → posted pm rqs rs rows →
  installed c l s → plain_name (s_name s) → s_keys s = [key] → map_order order → key_ok key → value_ok v → ¬ has_where (crit_item (key, v)) → name_ok f → field_measure s f MVariance →
  coll_query rq (s_name s) (str "select var(" ++ f ++ str ") where " ++ key ++ str "='" ++ v ++ str "'") →
  let k := fnv1_spec (key ++ v) in is_key k → no_collision [key] [MkFV key v] rows → readable l (c_size (Compile s)) (c_size (Compile s)) k →
  let mine := filter (λ r, value_of key (row_data r) = Some v) rows in let xs := field_floats pf f mine in
  2 ≤ Z.of_nat (length xs) ≤ 2 ^ 40 → (/ 2 ^ 400 <= D <= 2 ^ 400)%R → within M D xs →
  ∃ var, serve sts rq = (sts, Resp 200 (key ++ str "=" ++ v ++ [10] ++ str "var(" ++ f ++ str ")=" ++ ff var ++ [10])) ∧ ffinite var = true ∧
  (Rabs (f2r var - Rvariance (map f2r xs)) <= / 2 ^ 53 * D * ((INR (length xs) + 10) * M + (INR (length xs) + 30) * D))%R.
Proof.
  intros Hc H0 Hr E Hp Hins Hpn Hkeys Ho Hk Hv Hw Hf Hm Hq k Hkey Hcol Hread mine xs Hn HD HW. exists (var_spec xs).
  assert (mine ≠ []) as Hmine by (intros E0; unfold xs in Hn; rewrite E0 in Hn; cbn in Hn; lia). split.
  - rewrite (C70_stats_partial pf est ff et pm order c sts0 rqs sts rs rows l s rq key v f MVariance (var_spec xs)) by (try done; right; right; done).
    fold mine. destruct (decide (mine = [])); [done|]. reflexivity.
  - destruct (var_err M D xs Hn (spread_pw D HD) HW) as [F B]. split; [exact F|]. rewrite <- uu_eq. exact B.
Qed.
End props.
Print Assumptions C109_mean_http_partial.
Print Assumptions C109_variance_http_partial.

Lemma x_within : within 5 2 [f_of_Z 3; f_of_Z 5].
Proof.
  destruct (f_of_Z_exact 3 ltac:(lia)) as (F1 & R1 & _). destruct (f_of_Z_exact 5 ltac:(lia)) as (F2 & R2 & _).
  assert (B1 : (Rabs (f2r (f_of_Z 3)) <= 5)%R) by (rewrite R1; apply Rabs_le; lra).
  assert (B2 : (Rabs (f2r (f_of_Z 5)) <= 5)%R) by (rewrite R2; apply Rabs_le; lra).
  assert (S11 : (Rabs (f2r (f_of_Z 3) - f2r (f_of_Z 3)) <= 2)%R) by (rewrite R1; apply Rabs_le; lra).
  assert (S12 : (Rabs (f2r (f_of_Z 3) - f2r (f_of_Z 5)) <= 2)%R) by (rewrite R1, R2; apply Rabs_le; lra).
  assert (S21 : (Rabs (f2r (f_of_Z 5) - f2r (f_of_Z 3)) <= 2)%R) by (rewrite R1, R2; apply Rabs_le; lra).
  assert (S22 : (Rabs (f2r (f_of_Z 5) - f2r (f_of_Z 5)) <= 2)%R) by (rewrite R2; apply Rabs_le; lra).
  generalize dependent (f_of_Z 3). generalize dependent (f_of_Z 5). intros y F2 R2 B2 S22 x F1 R1 B1 S11 S12 S21. split.
  - intros v Hv. rewrite !elem_of_cons, elem_of_nil in Hv. destruct Hv as [->|[->|[]]]; split; assumption.
  - intros v w Hv Hw. rewrite !elem_of_cons, elem_of_nil in Hv, Hw. destruct Hv as [->|[->|[]]]; destruct Hw as [->|[->|[]]]; assumption.
Qed.
(** Non-vacuity: the two rows h=3 and h=5 posted with k=a on the server of
    ServerDemo.v, asked for their mean. *)
Example C109_http_nonvacuous : ∃ sts0 sts rs mean, initial x_cfg sts0 ∧
  x_serve_all sts0 [x_post1; x_get (str "select count(*) where k='a'"); x_post2] = (sts, rs) ∧
  x_serve sts (x_get (str "select mean(h) where k='a'")) = (sts, Resp 200 (str "k" ++ str "=" ++ str "a" ++ [10] ++ str "mean(" ++ str "h" ++ str ")=" ++ x_ff mean ++ [10])) ∧
  (Rabs (f2r mean - 4) <= / 2 ^ 53 * 16)%R.
Proof.
  destruct x_start as (sts0 & H0 & Ers). destruct (x_serve_all sts0 _) as [sts rs] eqn:E. cbn [snd] in Ers. exists sts0, sts, rs.
  assert (Forall request_ok [x_post1; x_get (str "select count(*) where k='a'"); x_post2]) as Hr by (apply Forall_forall; exact x_req_ok).
  pose proof (x_posted rs Ers) as Hp. destruct x_words as (Hk & Hv & Hw & Hh & Ht).
  assert (Hx : field_floats int_parse (str "h") (filter (λ r, value_of (str "k") (row_data r) = Some (str "a")) x_rows) = [f_of_Z 3; f_of_Z 5]).
  { unfold field_floats. assert (field_values (str "h") (filter (λ r, value_of (str "k") (row_data r) = Some (str "a")) x_rows) = [[51]; [53]]) as -> by (vm_compute; reflexivity).
    cbn [omap list_omap]. unfold int_parse. rewrite !decide_False by discriminate.
    assert (dec_nat [51] = Some 3) as -> by reflexivity. assert (dec_nat [53] = Some 5) as -> by reflexivity. reflexivity. }
  destruct (C109_mean_http_partial int_parse (λ _, 0) x_ff x_et Some Datatypes.id x_cfg sts0 _ sts rs x_rows 128 x_schema (x_get (str "select mean(h) where k='a'")) (str "k") (str "a") (str "h") 5 2 x_cfg_ok H0 Hr E Hp x_installed Ht
      eq_refl (λ l, reflexivity l) Hk Hv Hw Hh) as (mean & H1 & H2 & H3).
  - eexists. split; [left|]. split; [done|left].
  - split; [left|]. split; [done|]. split; [done|]. reflexivity.
  - exact x_is_key.
  - exact x_no_collision.
  - apply x_readable. change (c_size (Compile x_schema)) with 40. lia.
  - rewrite Hx. done.
  - rewrite Hx. cbn. lia.
  - assert (1 <= 2 ^ 399)%R by (apply pow_R1_Rle; lra). change (2 ^ 400)%R with (2 * 2 ^ 399)%R. split; [|lra].
    apply Rle_trans with 1%R; [|lra]. rewrite <- Rinv_1. apply Rinv_le_contravar; lra.
  - rewrite Hx. exact x_within.
  - exists mean. split; [exact H0|]. split; [exact E|]. split; [exact H1|]. rewrite Hx in H3. cbn [map length] in H3.
    destruct (f_of_Z_exact 3 ltac:(lia)) as (_ & R1 & _). destruct (f_of_Z_exact 5 ltac:(lia)) as (_ & R2 & _). rewrite R1, R2 in H3.
    unfold Rmean in H3. cbn [Rsum length INR] in H3. replace ((3 + (5 + 0)) / (1 + 1))%R with 4%R in H3 by field.
    eapply Rle_trans; [exact H3|]. apply Rmult_le_compat_l; [left; apply Rinv_0_lt_compat, pow_lt; lra|lra].
Qed.

Section unique.
Context (pf : bytes → option float) (glog : float → float) (est : Counter → Z) (Hest : is_Count glog est) (ff : float → bytes) (et : error → bytes) (pm : bytes → option bytes) (order : list FM → list FM).
Notation serve := (ServeHTTP pf est ff et pm order).
Notation asked := (unique_asked pf est ff et pm order).
Notation answer := (unique_answer ff).
(** C104 with many distinct values: the answer is alpha m^2 / h rounded up, h the
    harmonic sum of the registers the posted values give ... *)
Theorem C104_high_range_partial c rqs sts l s rq key v f p mine : log_ok glog → asked c rqs sts l s rq key v f p mine →
  let h := Rsum_over half_weight (hll_values p (field_values f mine)) in
  (h <= harmonic_limit p * (1 - / 10 ^ 6))%R → (estimate p h <= 2 ^ 61)%R →
  ∃ n, serve sts rq = (sts, answer key v f n) ∧ rounded_up n (estimate p h).
Proof.
  intros Hlog H h H1 H2. destruct (C104_count_partial pf glog est Hest ff et pm order _ _ _ _ _ _ _ _ _ _ _ H) as (n & Hn & Hs).
  destruct (C107_high_range glog p _ Hlog (asked_range _ _ _ _ _ _ _ _ _ _ _ _ _ _ _ _ _ H) (asked_bytes _ _ _ _ _ _ _ _ _ _ _ _ _ _ _ _ _ H) H1 H2) as (n' & Hn' & H3).
  rewrite <- (C17_deterministic _ _ _ _ _ Hn Hn') in *. eauto.
Qed.
(** ... and in between it is Ertl's estimate. *)
Theorem C104_middle_range_partial c rqs sts l s rq key v f p mine : log_ok glog → asked c rqs sts l s rq key v f p mine →
  let xs := field_values f mine in
  (harmonic_limit p * (1 + / 10 ^ 6) <= Rsum_over half_weight (hll_values p xs))%R →
  buckets_hit p xs = 2 ^ p ∨ (IZR (linear_limit p) + / 2 ^ 27 < linear_counting p (2 ^ p - buckets_hit p xs))%R →
  ∃ n z, serve sts rq = (sts, answer key v f n) ∧ is_ertl p (hll_values p xs) z ∧ rounded_up n (estimate p z).
Proof.
  intros Hlog H xs H1 H2. destruct (C104_count_partial pf glog est Hest ff et pm order _ _ _ _ _ _ _ _ _ _ _ H) as (n & Hn & Hs).
  destruct (C107_middle_range glog p _ Hlog (asked_range _ _ _ _ _ _ _ _ _ _ _ _ _ _ _ _ _ H) (asked_bytes _ _ _ _ _ _ _ _ _ _ _ _ _ _ _ _ _ H) H1 H2) as (n' & z & Hz & Hn' & H3).
  rewrite <- (C17_deterministic _ _ _ _ _ Hn Hn') in *. eauto.
Qed.
End unique.
Print Assumptions C104_high_range_partial.
Print Assumptions C104_middle_range_partial.
