From Coq Require Import ZifyBool ZifyNat.
From Verif Require Import Base BaseProofs Float64 FnvSpec HllModel CollationModel CollationSpec CollationProofs CollationTop CollationTop2 BufmapModel BufmapSpec RegexpModel QueryModel Probe
  BufconcModel BufconcSpec BufconcProofs BufconcInv BufconcTop BufconcProps ServerModel ServerSpec ScanProofs ParseRowProofs ServerProofs StoreProofs ServerInv ServerTop ServerHomeSpec StoreConcModel StoreConcSpec StoreConcProofs StoreConcTop StoreConcTop2 StoreConcTop3 StoreConcProps
  ServerConcModel ServerConcSpec ServerConcProofs ServerConcTop ServerConcTop2 ServerMixedSpec StoreConcMixed ServerConcMixed.
Local Open Scope Z_scope.

(** ** queries in runs in which posts may fail half way *)
Section mixed.
Context (pf : bytes → option float) (est : Counter → Z) (ff : float → bytes) (et : error → bytes) (pm : bytes → option bytes) (order : list FM → list FM).
Context (c : list (Z * Schema)) (impl : nat → Row → bool → prog) (Hc : cfg_ok c) (Himpl : impls_ok pf c impl) (rqs : list request) (Hrq : Forall request_ok rqs).
Notation cs := (map (λ ls : Z * Schema, Compile ls.2) c).
Notation n := (length rqs).
Notation handle := (handle ff et pm order cs).
Notation runs := (runs est c).
Notation vinv := (vinv est ff et pm order c impl rqs).
Context (v : vcfg) (h : list vevent) (rs : list response) (V : vinv v h) (A : answered v rs).
Context (lines : nat → list bytes) (whole : nat → bool) (rows : nat → list Row) (B : brought pm rqs lines whole rows).
Context (i : nat) (l : Z) (s : Schema) (Lc : c !! i = Some (l, s)).
Notation respond := (respond ff et).

Lemma thread_rows t r res : (t < n)%nat → (CWrite r, res) ∈ at_store i (rets t h) → r ∈ rows t.
Proof.
  intros Ht Hin. destruct (request_events est ff et pm order c impl rqs v h rs V A t Ht) as (rq & R & mid & Lr & Lrs & Et & Hs & Hr & Hi). destruct (B t rq Lr) as [Hca Hle].
  assert (i < length c)%nat as Hlt by (by eapply lookup_lt_Some). pose proof (all_fine_calls pf est ff et pm order c impl Hc Himpl rqs v h V t Ht) as Hf.
  destruct (handle_carries est ff et pm order c rq (lines t) (whole t) Hca) as [(serr & Eh & Hw)|(El & Ew & Hro)].
  - rewrite Eh in Hr. destruct (mixed_lines est et pm c i _ _ serr R Hlt Hle _ _ Hr Hf) as (took & oks & tl & (P1 & P2 & P3 & P4) & HR). rewrite P1 in Hin. apply elem_of_app in Hin as [Hin|Hin].
    + apply elem_of_list_lookup in Hin as (j & Hj). destruct (Forall2_lookup_r _ _ _ _ _ P2 Hj) as (r' & Hr' & [= <-] & _). apply elem_of_list_lookup. exists j. rewrite lookup_take_Some in Hr'. apply Hr'.
    + destruct P4 as [->|(r' & res' & e & -> & Hat & _)]; [by apply elem_of_nil in Hin|]. apply elem_of_list_singleton in Hin as [= -> ->]. by eapply elem_of_list_lookup_2.
  - specialize (Hro _ _ Hr). unfold at_store in Hin. apply elem_of_list_omap in Hin as ([[j sc'] res'] & Hin & E). cbn in E. destruct (decide (j = i)); [|done]. injection E as -> ->. unfold reads_only in Hro. rewrite Forall_forall in Hro. destruct (Hro _ Hin) as [q [=]].
Qed.
Lemma called_rows t r : SInv t (CWrite r) ∈ proj i h → r ∈ rows_of rows (seq 0 n).
Proof.
  intros Hin. unfold proj in Hin. apply elem_of_list_omap in Hin as (e & He & Ee). destruct e as [|j e|]; [done| |done]. destruct (decide (j = i)) as [->|]; [|done]. injection Ee as ->.
  pose proof (vi_thr _ _ _ _ _ _ _ _ _ _ V) as Hthr. rewrite Forall_forall in Hthr. specialize (Hthr _ He). cbn in Hthr. destruct (request_events est ff et pm order c impl rqs v h rs V A t Hthr) as (rq & R & mid & Lr & Lrs & Et & Hs & Hr & Hi).
  assert ((i, CWrite r) ∈ invs t h) as Hv. { unfold invs. apply elem_of_list_omap. exists (VStore i (SInv t (CWrite r))). split; [|done]. unfold th. by apply elem_of_list_filter. }
  rewrite Hi in Hv. apply elem_of_list_In, in_map_iff in Hv as ([[j sc] res] & [= -> ->] & Hv). apply elem_of_list_In in Hv.
  assert (r ∈ rows t) as Hrow. { apply (thread_rows t r res Hthr). unfold at_store. apply elem_of_list_omap. eexists. split; [exact Hv|]. cbn. by rewrite decide_True. }
  unfold rows_of. apply elem_of_list_join. exists (rows t). split; [done|]. apply elem_of_list_In, in_map. apply in_seq. lia.
Qed.
Lemma handle_query a b rq text q : c = a ++ (l, s) :: b → Forall (λ ls, s_name ls.2 ≠ s_name s) a → plain_name (s_name s) → coll_query rq (s_name s) text → RoughParse order text = Ok q →
  ∃ K, handle rq = HCall (length a) (CRead q) K ∧ ∀ x, K (ARead x) = HRet match x with Ret r => respond q r | Panics => Aborted | Hangs => Hung end.
Proof.
  intros Ea Ha Hn (Hm & Hp & Hst & Hq) Hpq. unfold ServerConcModel.handle. rewrite Hst, Hp. rewrite route_name by done. destruct Hn as (Hne & Hsl & _). rewrite decide_False by done. rewrite decide_False by done.
  rewrite decide_False by (rewrite !elem_of_cons, elem_of_nil in Hm; naive_solver). unfold h_query. rewrite Hq, Hpq, Ea.
  assert (∀ i0, h_stores ff et (s_name s) q (map (λ ls : Z * Schema, Compile ls.2) (a ++ (l, s) :: b)) i0 = h_stores ff et (s_name s) q (map (λ ls : Z * Schema, Compile ls.2) ((l, s) :: b)) (i0 + length a)) as ->.
  { clear Ea. induction Ha as [|[l0 s0] a Hx Ha IH]; intros i0; cbn [app length]; [by rewrite Nat.add_0_r|]. change (map ?f ((l0, s0) :: ?x)) with (f (l0, s0) :: map f x). cbn [h_stores snd]. rewrite (proj2 (compile_names s0)). cbn [snd] in Hx. rewrite decide_False by done.
    rewrite IH. f_equal. lia. }
  cbn [map h_stores snd Nat.add]. rewrite (proj2 (compile_names s)). rewrite decide_True by done. eexists. split; [reflexivity|]. intros [[]| |]; done.
Qed.
Section store.
Context (k : Z).
(** every key in a store is that of a row sent *)
Lemma key_sent acts g x : Forall saction_ok acts → sexecution s (impl i) l n acts g (proj i h) → 0 ≤ x < l → key_at (c_map (g_cfg g)) x ≠ 0 →
  ∃ r, r ∈ rows_of rows (seq 0 n) ∧ row_key s r = Some (key_at (c_map (g_cfg g)) x).
Proof.
  intros HF Ex Hx Hk. destruct (dims_at c Hc i l s Lc) as [_ Hd]. destruct (sexecution_execution s (impl i) l Hd _ _ _ _ HF Ex) as (acts' & HF' & Ex').
  destruct (r_owned _ _ _ (execution_races _ _ _ _ _ _ Hd HF' Ex') x Hx Hk) as (t & fn & ha & hb & Eh & _). set (k' := key_at (c_map (g_cfg g)) x) in *.
  assert (EInv t (OUpdate k' fn) ∈ erase s (impl i) (proj i h)) as Hin by (rewrite Eh; apply elem_of_app; right; left). unfold erase in Hin. apply elem_of_list_bind in Hin as (e & He & Hin).
  destruct e as [t' [r|q]|t' k0|t' k0 r init|t' k0 r init|t' sc res]; cbn [erase1] in He.
  - rewrite (op_write s (impl i)) in He. destruct (row_key s r) as [k0|] eqn:Ek; [|by apply elem_of_nil in He]. apply elem_of_list_singleton in He. injection He as -> -> ->. exists r. split; [|done].
    by eapply called_rows.
  - rewrite (op_read s (impl i)) in He. destruct (record_key _ _); [|by apply elem_of_nil in He]. by apply elem_of_list_singleton in He.
  - by apply elem_of_list_singleton in He.
  - by apply elem_of_list_singleton in He.
  - by apply elem_of_list_singleton in He.
  - destruct res; [|by apply elem_of_nil in He]. destruct (StoreConcModel.op_of _ _ _); [|by apply elem_of_nil in He]. by apply elem_of_list_singleton in He.
Qed.
Lemma key_home acts g x : k ≠ 0 → Forall saction_ok acts → sexecution s (impl i) l n acts g (proj i h) → undisturbed l s k (rows_of rows (seq 0 n)) → 0 ≤ x < l → key_at (c_map (g_cfg g)) x = k → x = home l k.
Proof.
  intros H0 HF Ex Hu Hx Hkx. destruct (dims_at c Hc i l s Lc) as [_ Hd]. destruct (sexecution_execution s (impl i) l Hd _ _ _ _ HF Ex) as (acts' & HF' & Ex').
  pose proof (v_place _ _ _ _ (execution_inv _ _ _ _ _ _ Hd HF' Ex')) as P. destruct (placed_found _ _ _ _ P Hx Hkx H0) as (j & Hj & -> & Hp). destruct j as [|j].
  - unfold probe, home. by rewrite Z.add_0_r.
  - exfalso. destruct (Hp 0%nat ltac:(lia)) as [Hn0 Hnk]. assert (0 ≤ probe l k 0 < l) as Hr by (apply Probe.probe_range; destruct Hd as (?&?&?); lia).
    destruct (key_sent acts g _ HF Ex Hr Hn0) as (r & Hin & Er). apply (Hu r _ Hin Er Hnk). destruct (C41_bufmap_one_slot l _ n acts' (g_cfg g) _ _ _ _ Hd HF' Ex' Hn0 Hr Hr eq_refl eq_refl) as [_ Hps].
    assert (probe l k 0 = home l k) as Eph by (unfold probe, home; by rewrite Z.add_0_r). rewrite Eph in *. exact Hps.
Qed.
Lemma well_placed_home acts g : k ≠ 0 → Forall saction_ok acts → sexecution s (impl i) l n acts g (proj i h) → undisturbed l s k (rows_of rows (seq 0 n)) → home_readable l (c_size (Compile s)) (c_size (Compile s)) k → well_placed s l g k.
Proof. intros H0 HF Ex Hu [R1 R2] x Hx Hkx. rewrite (key_home acts g x H0 HF Ex Hu Hx Hkx). done. Qed.
Lemma share_sub rq R lns w rws tk ct : share et rq R lns w rws tk ct → take tk rws ++ option_list ct ⊆+ rws.
Proof.
  intros (Hl & Hcut & _). destruct ct as [r|]; cbn [option_list].
  - destruct (Hcut r eq_refl) as [Hat _]. change (option_list (Some r)) with [r]. rewrite <- take_S_r by done. rewrite <- (take_drop (S tk) rws) at 2. by apply submseteq_inserts_r.
  - change (option_list None) with (@nil Row). rewrite app_nil_r. rewrite <- (take_drop tk rws) at 2. by apply submseteq_inserts_r.
Qed.
Lemma rows_for_sub k0 a b : a ⊆+ b → rows_for s k0 a ⊆+ rows_for s k0 b.
Proof. intros H. apply submseteq_Permutation in H as [z Hz]. unfold rows_for. rewrite Hz, filter_app. by apply submseteq_inserts_r. Qed.
Lemma marks_length k0 d h0 : length (marks pf s k0 d h0) = length (applied k0 h0).
Proof. pose proof (f_equal (λ x, length x.2) (marks_outcomes pf s k0 d h0)) as E. cbn [snd] in E. rewrite map_length in E. rewrite <- E. generalize (applied k0 h0) as L. clear. intros L. revert d. induction L as [|[init r] L IH]; intros d; [done|]. cbn [apply_all]. destruct (Coll_Update pf (Compile s) r d init) as [d1 o]. specialize (IH d1). destruct (apply_all pf (Compile s) d1 L) as [d2 l2]. cbn [snd length] in *. by rewrite IH. Qed.
Lemma applied_bound : k ≠ 0 → (length (applied k (proj i h)) ≤ length (rows_for s k (rows_of rows (seq 0 n))))%nat.
Proof.
  intros H0. rewrite <- (marks_length k (zero s)). rewrite <- (map_length snd). rewrite <- (map_length fst). apply submseteq_length.
  rewrite (Permutation_map fst (marks_by_thread pf est ff et pm order c impl rqs v h V i s k (zero s) h [] ltac:(by rewrite app_nil_r))). rewrite map_mjoin. unfold rows_of. rewrite rows_for_mjoin, map_map. apply submseteq_join_pointwise. intros t Ht. apply elem_of_seq in Ht.
  destruct (request_events est ff et pm order c impl rqs v h rs V A t ltac:(lia)) as (rq & R & mid & Lr & Lrs & _).
  destruct (thread_share pf est ff et pm order c impl Hc Himpl rqs v h rs V A lines whole rows B i l s Lc t ltac:(lia)) as ([tk ct] & Hsh & HT). specialize (Hsh rq R Lr Lrs). cbn [fst snd] in *. rewrite (HT k H0). unfold left_by. rewrite map_app, !map_map. cbn. rewrite !map_id, <- (rows_for_app s). apply rows_for_sub. by eapply share_sub.
Qed.
(** the answer of a query, wherever the record lies, is that of the rows applied up to some moment between the arrival of the request and its answer *)
Lemma mixed_exact a b rq text q t h1 h2 r h3 g acts : i = length a → c = a ++ (l, s) :: b → Forall (λ ls, s_name ls.2 ≠ s_name s) a → plain_name (s_name s) → coll_query rq (s_name s) text → RoughParse order text = Ok q →
  rqs !! t = Some rq → h = h1 ++ VBegin t :: h2 ++ VAnswer t r :: h3 → record_key (s_keys s) (q_crit q) = Some k → k ≠ 0 →
  Z.of_nat (length (rows_for s k (rows_of rows (seq 0 n)))) < 2^31 → Forall saction_ok acts → sexecution s (impl i) l n acts g (proj i h) → let size := c_size (Compile s) in
  ∃ y z, proj i (h1 ++ VBegin t :: h2) = (proj i h1 ++ y) ++ z ∧ let p := proj i h1 ++ y in
    ((∃ x, 0 ≤ x < l ∧ key_at (c_map (g_cfg g)) x = k ∧ x * (size + 1) ≤ l * size ∧ r = respond q (Coll_Read est (Compile s) (q_fms q) (found_of s x (contents pf s k p)))) ∨
     (applied k p = [] ∧ r = Resp 200 (query_body ff q [])) ∨
     (∃ x, 0 ≤ x < l ∧ key_at (c_map (g_cfg g)) x = k ∧ l * size < x * (size + 1) ∧ r = Aborted)).
Proof.
  intros Ei Ea Ha Hpn Hq Hpq Lr Eh Ek H0 Hlt HF Ex size. destruct (handle_query a b rq text q Ea Ha Hpn Hq Hpq) as (K & EK & HK). rewrite <- Ei in EK.
  assert (h = (h1 ++ VBegin t :: h2) ++ VAnswer t r :: h3) as Eh' by (rewrite Eh, <- app_assoc; done). destruct (answer_last est ff et pm order c impl rqs v h rs V A _ _ _ _ Eh') as (Lrs & _ & Hrets & _).
  assert (t < n)%nat as Ht by (by eapply lookup_lt_Some). destruct (request_events est ff et pm order c impl rqs v h rs V A t Ht) as (rq' & r' & mid & Lr' & Lrs' & Et & Hs & Hr & Hi). rewrite Lr in Lr'. injection Lr' as <-. rewrite Lrs in Lrs'. injection Lrs' as <-.
  rewrite EK in Hr. destruct (rets t h) as [|[[j sc] res] tr] eqn:Er; [done|]. destruct Hr as (l' & s' & K' & [= <- <- <-] & Lc' & Hr). rewrite Lc in Lc'. injection Lc' as <- <-.
  assert (∃ x, reply est (Compile s) (CRead q) res = ARead x) as [x Hx]. { pose proof (reply_read est s (CRead q) res ltac:(eauto)) as Hx. destruct (reply est (Compile s) (CRead q) res); [done|eauto]. }
  rewrite Hx, HK in Hr. destruct tr as [|[[? ?] ?] tr]; [|by destruct Hr as (? & ? & ? & [=] & _)]. cbn in Hr. injection Hr as Hr.
  (* where the Read returns *)
  pose proof (begin_first est ff et pm order c impl rqs v h rs V A _ _ _ Eh) as Hb. assert (rets t (h1 ++ VBegin t :: h2) = rets t h2) as E2. { rewrite rets_app. change (VBegin t :: h2) with ([VBegin t] ++ h2). rewrite rets_app. unfold rets at 1. rewrite Hb. unfold rets at 1. rewrite th_mine by (by constructor). done. }
  assert (VStore i (SRet t (CRead q) res) ∈ h2) as Hin. { assert ((i, CRead q, res) ∈ rets t h2) as Hin by (rewrite <- E2, <- Hrets; left). unfold rets in Hin. apply elem_of_list_omap in Hin as (e & He & Ee). unfold th in He. apply elem_of_list_filter in He as [Hv He].
    destruct e as [|j' [| | | |t' sc' r']|]; try done. injection Ee as -> -> ->. cbn in Hv. by subst t'. }
  apply elem_of_list_split in Hin as (ha & hb & E3).
  destruct (dims_at c Hc i l s Lc) as [Hsc Hd].
  assert (proj i (VBegin t :: ha ++ [VStore i (SRet t (CRead q) res)] ++ hb) = proj i ha ++ SRet t (CRead q) res :: proj i hb) as Eph.
  { change (VBegin t :: ?x) with ([VBegin t] ++ x). rewrite !proj_app. change (proj i [VBegin t]) with (@nil sevent). cbn [app]. f_equal. change [VStore i (SRet t (CRead q) res)] with (map (VStore i) [SRet t (CRead q) res]). by rewrite proj_same. }
  assert (proj i h = (proj i h1 ++ proj i ha) ++ SRet t (CRead q) res :: (proj i hb ++ proj i h3)) as Eph'.
  { rewrite Eh, E3, proj_app. change (VBegin t :: (ha ++ VStore i (SRet t (CRead q) res) :: hb) ++ VAnswer t r :: h3) with ((VBegin t :: (ha ++ [VStore i (SRet t (CRead q) res)] ++ hb)) ++ [VAnswer t r] ++ h3). rewrite proj_app, Eph, proj_app. change (proj i [VAnswer t r]) with (@nil sevent). cbn [app]. by rewrite <- !app_assoc. }
  destruct (read_exact pf est s (impl i) l Hd (Himpl i l s Lc) n acts g (proj i h) _ _ t q res k HF Ex Eph' Ek H0) as (H1 & H2 & E4 & Hqu & Hcase).
  (* proj i h1 ends before the call *)
  assert (∃ y, H1 = proj i h1 ++ y) as [y ->].
  { apply app_eq_app in E4 as (z & [[Z1 Z2]|[Z1 Z2]]); [|by exists z]. destruct z as [|e z]; [exists []; rewrite app_nil_r in Z1; by rewrite app_nil_r|]. exfalso. injection Z2 as <- Z2.
    assert (SInv t (CRead q) ∈ proj i h1) as Hin by (rewrite Z1; apply elem_of_app; right; left). unfold proj in Hin. apply elem_of_list_omap in Hin as (e & He & Ee). destruct e as [|j' e|]; [done| |done]. destruct (decide (j' = i)) as [->|]; [|done]. injection Ee as ->.
    assert (VStore i (SInv t (CRead q)) ∈ th t h1) as Hin by (unfold th; by apply elem_of_list_filter). rewrite Hb in Hin. by apply elem_of_nil in Hin. }
  assert (∀ p z, proj i h1 ++ proj i ha = p ++ z → ∃ z', proj i (h1 ++ VBegin t :: h2) = p ++ z') as Hext.
  { intros p z E. exists (z ++ SRet t (CRead q) res :: proj i hb). rewrite proj_app, E3. rewrite app_assoc, <- E. rewrite <- app_assoc. f_equal. exact Eph. }
  assert (length (applied k H2) ≤ length (rows_for s k (rows_of rows (seq 0 n))))%nat as Hle.
  { pose proof (applied_bound H0) as Hsub. assert (applied k (proj i h) = applied k (proj i h1 ++ y) ++ applied k H2 ++ applied k (proj i hb ++ proj i h3)) as Eapp.
    { rewrite Eph', E4. change (SInv t (CRead q) :: H2) with ([SInv t (CRead q)] ++ H2). change (SRet t (CRead q) res :: ?x) with ([SRet t (CRead q) res] ++ x). rewrite !applied_app, <- !app_assoc. done. } rewrite Eapp, !app_length in Hsub. lia. }
  destruct Hcase as [(slot & Hsl & Hks & Hsx & Hm)|[[Hrep Hap]|(Hrep & slot & Hsl & Hks & Hbad)]].
  - destruct Hm as (a' & b' & -> & Hrep); [lia|]. destruct (Hext ((proj i h1 ++ y) ++ SInv t (CRead q) :: a') b') as (z' & Ez). { rewrite E4, <- (app_assoc (proj i h1 ++ y)). done. }
    exists (y ++ SInv t (CRead q) :: a'), z'. rewrite app_assoc. split; [done|]. left. exists slot. split; [done|]. split; [done|]. split; [done|]. rewrite Hx in Hrep. injection Hrep as ->. rewrite Hr. by destruct (Coll_Read est (Compile s) (q_fms q) _).
  - destruct (Hext (proj i h1 ++ y) (SInv t (CRead q) :: H2) E4) as (z' & Ez). exists y, z'. split; [done|]. right. left. split; [done|]. rewrite Hx in Hrep. injection Hrep as ->. done.
  - destruct (Hext (proj i h1 ++ y) (SInv t (CRead q) :: H2) E4) as (z' & Ez). exists y, z'. split; [done|]. right. right. exists slot. split; [done|]. split; [done|]. split; [done|]. rewrite Hx in Hrep. injection Hrep as ->. done.
Qed.
(** the answer of a query is that of the rows applied up to some moment between the arrival of the request and its answer *)
Lemma mixed_moment a b rq text q t h1 h2 r h3 : i = length a → c = a ++ (l, s) :: b → Forall (λ ls, s_name ls.2 ≠ s_name s) a → plain_name (s_name s) → coll_query rq (s_name s) text → RoughParse order text = Ok q →
  rqs !! t = Some rq → h = h1 ++ VBegin t :: h2 ++ VAnswer t r :: h3 → record_key (s_keys s) (q_crit q) = Some k → k ≠ 0 → whole_readable l s k (rows_of rows (seq 0 n)) →
  Z.of_nat (length (rows_for s k (rows_of rows (seq 0 n)))) < 2^31 →
  ∃ y z, proj i (h1 ++ VBegin t :: h2) = (proj i h1 ++ y) ++ z ∧ let p := proj i h1 ++ y in
    (r = respond q (Coll_Read est (Compile s) (q_fms q) (contents pf s k p)) ∨ (applied k p = [] ∧ r = Resp 200 (query_body ff q []))).
Proof.
  intros Ei Ea Ha Hpn Hq Hpq Lr Eh Ek H0 Hread Hlt. destruct (vi_stores _ _ _ _ _ _ _ _ _ _ V i l s Lc) as (g & acts & Lg & HF & Ex). destruct (dims_at c Hc i l s Lc) as [Hsc Hd].
  assert (well_placed s l g k) as Hw by (destruct Hread as [Hread|[Hu Hread]]; [by eapply (well_placed_readable c impl Hc rqs h i l s Lc)|by eapply well_placed_home]).
  destruct (mixed_exact a b rq text q t h1 h2 r h3 g acts Ei Ea Ha Hpn Hq Hpq Lr Eh Ek H0 Hlt HF Ex) as (y & z & Ep & [(x & Hx & Hkx & _ & Hr)|[Hr|(x & Hx & Hkx & Hbad & _)]]).
  - exists y, z. split; [done|]. left. rewrite (found_whole s l Hd) in Hr; [done|by apply Hw|]. rewrite <- (contents_content pf s (impl i) (Himpl i l s Lc)). apply content_len.
  - exists y, z. split; [done|]. by right.
  - destruct (Hw x Hx Hkx) as [_ ?]. lia.
Qed.
End store.
End mixed.
