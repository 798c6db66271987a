(** Property C111: does uniquecount tell few different values from many? *)
From Coq Require Import ZifyBool ZifyNat.
From stdpp Require Import list.
From Verif Require Import Base FnvSpec Float64 Float64Spec BitbucketModel HllModel HllSpec HllCountModel HllCountSpec HllCountTop HllCountEst HllCountMore HllCountProps HllRegsTop HllSuffixSpec HllSuffixProofs.
From Coq Require Import Reals Lra.
Open Scope Z_scope.
(** the count exists, and is bounded by the number of registers that can be reached *)
Lemma count_exists glog p vs R B : log_ok glog → 4 ≤ p ≤ 18 → Forall is_bytes vs → buckets_hit p vs ≤ R → bound_ok p R B = true →
  ∃ n, Count_after glog p vs n ∧ 0 ≤ n ≤ B.
Proof.
  intros Hlog Hp Hvs Hb HB. assert (HB' := HB). unfold bound_ok in HB. rewrite !andb_true_iff, !Z.leb_le, Z.ltb_lt in HB. destruct HB as (((H0 & H1) & H2) & H3).
  pose proof (buckets_hit_nonneg p vs) as Hb0. pose proof (linear_le p _ R Hp (conj Hb0 Hb) H1) as HL. apply frac_le in H2; [|lia].
  destruct (C74_low_range glog p vs Hlog Hp Hvs ltac:(lia) ltac:(lra)) as (n & Hn & _ & Hge). exists n. split; [done|]. split; [lia|].
  by apply (count_bound glog p vs R B n).
Qed.

(** C111, the direction that holds: d different values (d < m = 2^p) never count
    as more than m d/(m-d) rounded up, as long as that is in the range of linear counting. *)
Theorem C111_no_overcount_partial glog p vs n : log_ok glog → 4 ≤ p ≤ 18 → Forall is_bytes vs →
  let d := Z.of_nat (length (remove_dups vs)) in
  d < 2 ^ p → (IZR (2 ^ p * d) / IZR (2 ^ p - d) + / 2 ^ 27 <= IZR (linear_limit p))%R →
  Count_after glog p vs n → (IZR n < IZR (2 ^ p * d) / IZR (2 ^ p - d) + 1 + / 2 ^ 27)%R.
Proof.
  intros Hlog Hp Hvs d Hd Hlim Hn. pose proof (buckets_hit_nonneg p vs) as H0.
  assert (buckets_hit p vs ≤ d) as Hb.
  { unfold buckets_hit, d. apply Nat2Z.inj_le. rewrite <- (map_length (λ v, hll_bucket p (fnv1_spec v)) (remove_dups vs)).
    apply submseteq_length, NoDup_submseteq; [apply NoDup_remove_dups|]. intros x Hx.
    apply elem_of_remove_dups, elem_of_list_fmap in Hx. destruct Hx as (v & -> & Hv). apply elem_of_list_fmap. exists v. split; [done|]. by apply elem_of_remove_dups. }
  pose proof (linear_le p _ d Hp (conj H0 Hb) Hd) as HL.
  destruct (C74_low_range glog p vs Hlog Hp Hvs ltac:(lia) ltac:(lra)) as (n' & Hn' & [_ Hr] & _).
  assert (n' = n) as -> by (eapply C17_deterministic; done). lra.
Qed.
Print Assumptions C111_no_overcount_partial.

(** C111 is false in the other direction. Whatever the values begin with: any number of values that differ in
    their last two bytes only (there are 65536 of them) count as at most 3, at every precision up to 16. *)
Theorem C111_two_bytes_refuted glog p pre vs n : log_ok glog → 4 ≤ p ≤ 16 → is_bytes pre →
  Forall (λ v, ∃ a b, is_byte a ∧ is_byte b ∧ v = pre ++ [a; b]) vs → Count_after glog p vs n → n ≤ 3.
Proof.
  intros Hlog Hp Hpre Hvs. apply (count_bound glog p vs 2 3); [done|lia| |by apply (two_bytes_hit p pre)|].
  - eapply Forall_impl; [exact Hvs|]. intros v (a & b & Ha & Hb & ->). apply Forall_app. split; [done|]. by apply Forall_cons; split; [|apply Forall_singleton].
  - pose proof (seqZ_forallb (λ p, if p <=? 16 then bound_ok p 2 3 else true) p ltac:(vm_compute; reflexivity) ltac:(lia)) as H.
    cbv beta in H. by destruct (Z.leb_spec p 16); [|lia].
Qed.
Print Assumptions C111_two_bytes_refuted.

(** ... any number of values that differ in their last three bytes only (16777216 of them; the
    strings of three bytes are a case) count as at most 2 + one for every 63 registers: at the precision 10 of
    the demo collation at most 18, ... *)
Theorem C111_three_bytes_refuted glog p pre vs n : log_ok glog → 6 ≤ p ≤ 18 → is_bytes pre →
  Forall (λ v, ∃ a b c, is_byte a ∧ is_byte b ∧ is_byte c ∧ v = pre ++ [a; b; c]) vs → Count_after glog p vs n → 63 * (n - 2) ≤ 2 ^ p.
Proof.
  intros Hlog Hp Hpre Hvs Hn. assert (n ≤ 2 ^ p / 63 + 2) as H; [|pose proof (Z.mul_div_le (2 ^ p) 63 ltac:(lia)); lia].
  revert Hn. apply (count_bound glog p vs (2 ^ (p - 6) + 1)); [done|lia| |by apply (three_bytes_hit p pre)|].
  - eapply Forall_impl; [exact Hvs|]. intros v (a & b & c & Ha & Hb & Hc & ->). apply Forall_app. split; [done|]. repeat (apply Forall_cons; split; [done|]). by apply Forall_nil.
  - pose proof (seqZ_forallb (λ p, if 6 <=? p then bound_ok p (2 ^ (p - 6) + 1) (2 ^ p / 63 + 2) else true) p ltac:(vm_compute; reflexivity) ltac:(lia)) as H.
    cbv beta in H. by destruct (Z.leb_spec 6 p); [|lia].
Qed.
Print Assumptions C111_three_bytes_refuted.

(** ... any number of values that differ in their last three decimal digits count as at
    most 3 at every precision up to 10, which is that of the demo collation (a thousand consecutive
    identifiers are a case), ... *)
Theorem C111_three_digits_refuted glog p pre vs n : log_ok glog → 4 ≤ p ≤ 10 → is_bytes pre → Forall (numbered pre 3) vs → Count_after glog p vs n → n ≤ 3.
Proof.
  intros Hlog Hp Hpre Hvs. apply (count_bound glog p vs 2 3); [done|lia| |by apply (numbered_hit p pre 0)|].
  - eapply Forall_impl; [exact Hvs|]. intros v Hv. by eapply numbered_bytes.
  - pose proof (seqZ_forallb (λ p, if p <=? 16 then bound_ok p 2 3 else true) p ltac:(vm_compute; reflexivity) ltac:(lia)) as H.
    cbv beta in H. by destruct (Z.leb_spec p 16); [|lia].
Qed.
Print Assumptions C111_three_digits_refuted.

(** ... and at precision 10 values that differ in their last four digits count as at most 21, in
    their last five digits as at most 249. *)
Theorem C111_more_digits_refuted glog pre vs n : log_ok glog → is_bytes pre → Count_after glog 10 vs n →
  (Forall (numbered pre 4) vs → n ≤ 21) ∧ (Forall (numbered pre 5) vs → n ≤ 249).
Proof.
  intros Hlog Hpre Hn. split; intros Hvs.
  - apply (count_bound glog 10 vs 20 21); [done|lia| |by apply (numbered_hit 10 pre 1)|vm_compute; reflexivity|done]. eapply Forall_impl; [exact Hvs|]. intros v Hv. by eapply numbered_bytes.
  - apply (count_bound glog 10 vs 200 249); [done|lia| |by apply (numbered_hit 10 pre 2)|vm_compute; reflexivity|done]. eapply Forall_impl; [exact Hvs|]. intros v Hv. by eapply numbered_bytes.
Qed.
Print Assumptions C111_more_digits_refuted.

(** So after every beginning there are ten thousand different values that count as at most 21, and
    a hundred thousand that count as at most 249: the numbered ones. *)
Theorem C111_numbered_refuted glog pre : log_ok glog → is_bytes pre →
  let vs4 := all_numbered pre 4 in let vs5 := all_numbered pre 5 in
  (NoDup vs4 ∧ Z.of_nat (length vs4) = 10000 ∧ ∃ n, Count_after glog 10 vs4 n ∧ 0 ≤ n ≤ 21) ∧
  (NoDup vs5 ∧ Z.of_nat (length vs5) = 100000 ∧ ∃ n, Count_after glog 10 vs5 n ∧ 0 ≤ n ≤ 249).
Proof.
  intros Hlog Hpre. cbv zeta. split.
  - split; [apply all_numbered_NoDup|]. split; [rewrite all_numbered_length; reflexivity|].
    apply (count_exists glog 10 _ 20 21 Hlog); [lia| | |vm_compute; reflexivity].
    + eapply Forall_impl; [apply all_numbered_ok|]. intros v Hv. by eapply numbered_bytes.
    + apply (numbered_hit 10 pre 1); [lia|done|apply all_numbered_ok].
  - split; [apply all_numbered_NoDup|]. split; [rewrite all_numbered_length; reflexivity|].
    apply (count_exists glog 10 _ 200 249 Hlog); [lia| | |vm_compute; reflexivity].
    + eapply Forall_impl; [apply all_numbered_ok|]. intros v Hv. by eapply numbered_bytes.
    + apply (numbered_hit 10 pre 2); [lia|done|apply all_numbered_ok].
Qed.
Print Assumptions C111_numbered_refuted.
(** ... and after every beginning there are 16777216 that count as at most 18. *)
Theorem C111_sixteen_million_refuted glog pre : log_ok glog → is_bytes pre →
  ∃ vs n, NoDup vs ∧ Z.of_nat (length vs) = 16777216 ∧ Forall (λ v, ∃ l, v = pre ++ l ∧ length l = 3%nat ∧ is_bytes l) vs ∧ Count_after glog 10 vs n ∧ 0 ≤ n ≤ 18.
Proof.
  intros Hlog Hpre. set (vs := map (app pre) (byte_strings 3)).
  assert (∀ v, v ∈ vs → ∃ l, v = pre ++ l ∧ length l = 3%nat ∧ is_bytes l) as Hvs.
  { intros v Hv. unfold vs in Hv. apply elem_of_list_fmap in Hv. destruct Hv as (l & -> & Hl). apply byte_strings_ok in Hl. exists l. tauto. }
  destruct (count_exists glog 10 vs 17 18 Hlog) as (n & Hn & Hr); [lia| | |vm_compute; reflexivity|].
  - apply Forall_forall. intros v Hv. destruct (Hvs v Hv) as (l & -> & _ & Hl). apply Forall_app. by split.
  - apply (three_bytes_hit 10 pre vs); [lia|done|]. apply Forall_forall. intros v Hv. destruct (Hvs v Hv) as (l & -> & Hl & Hb).
    destruct l as [|a [|b [|c [|? ?]]]]; try (cbn in Hl; lia). unfold is_bytes in Hb. rewrite !Forall_cons in Hb. exists a, b, c. tauto.
  - exists vs, n. split; [|split; [|split; [by apply Forall_forall|done]]].
    + unfold vs. apply NoDup_fmap_2; [|apply byte_strings_NoDup]. intros x y H. by apply app_inv_head in H.
    + unfold vs. rewrite map_length, byte_strings_length. reflexivity.
Qed.
Print Assumptions C111_sixteen_million_refuted.
(** the list meant: user0000 ... user9999 *)
Example C111_suffix_nonvacuous : all_numbered (str "user") 4 !! 1234%nat = Some (str "user1234") ∧ numbered (str "user") 4 (str "user1234") ∧
  Forall (λ v, ∃ a b, is_byte a ∧ is_byte b ∧ v = str "user12" ++ [a; b]) [str "user1234"; str "user12zz"] ∧
  Forall (λ v, ∃ a b c, is_byte a ∧ is_byte b ∧ is_byte c ∧ v = [] ++ [a; b; c]) [str "JFK"; str "SFO"] ∧ is_bytes (str "user").
Proof.
  split; [vm_compute; done|]. split; [|split].
  - exists [49; 50; 51; 52]. split; [done|]. split; [|done]. rewrite !Forall_cons. unfold is_digit. repeat split; try lia; try exact I.
    by apply Forall_nil.
  - apply Forall_cons. split; [exists 51, 52; cbv; repeat split; congruence|]. apply Forall_singleton. exists 122, 122. cbv; repeat split; congruence.
  - split; [apply Forall_cons; split; [exists 74, 70, 75; cbv; repeat split; congruence|]; apply Forall_singleton; exists 83, 70, 79; cbv; repeat split; congruence|].
    apply (Forall_singleton is_bytes (str "user")). apply HllCountMore.all_bytes. vm_compute. done.
Qed.
