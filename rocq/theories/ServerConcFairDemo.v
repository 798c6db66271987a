(** A concrete case of C96: two posts and two queries at the same time, round robin. *)
From Coq Require Import ZifyBool ZifyNat.
From Verif Require Import Base BaseProofs Float64 HllModel CollationModel CollationSpec CollationProofs DemoModel BufmapModel BufmapSpec QueryModel BufconcModel BufconcSpec ServerModel ServerSpec StoreProofs ServerDemo StoreConcModel StoreConcSpec StoreConcProps
  ServerConcModel ServerConcSpec ServerConcDemo ServerFairSpec ServerConcFair ServerConcFair2 ServerConcFairProps.
Local Open Scope Z_scope.

Lemma write_all_bounded d r i : bounded (S (length d)) (write_all d i r).
Proof. revert i. induction d as [|v d IH]; intros i; [done|]. cbn [write_all length]. exact (IH (S i)). Qed.
Lemma read_all_bounded n g m : (∀ d, length d = m → bounded (S m) (g d)) → ∀ i acc, (length acc + n = m)%nat → bounded (n + S m) (read_all n i acc g).
Proof.
  intros Hg. induction n as [|n IH]; intros i acc Hl; cbn [read_all]; [apply Hg; lia|]. change (S n + S m)%nat with (S (n + S m)). cbn [bounded]. intros v. apply IH. rewrite app_length. cbn. lia.
Qed.
(** the updates that read the whole record, then write it, are among those that C84-C96 speak of *)
Lemma as_prog_finite s fn init : fn_ok fn → ∃ q, bounded q (as_prog s fn init).
Proof.
  intros Hf. exists (Z.to_nat s + S (Z.to_nat s))%nat. unfold as_prog. apply read_all_bounded; [|done]. intros d Hd. pose proof (Hf d init) as Hl. destruct (fn d init) as [d' r]. cbn in Hl. rewrite <- Hd, <- Hl. apply write_all_bounded.
Qed.
(** every goroutine gets one turn *)
Definition turns (n : nat) : list vaction := map VArrive (seq 0 n) ++ map VStep (seq 0 n).
Lemma turns_round n : round n (turns n).
Proof.
  intros t Ht. split; apply elem_of_app; [left|right]; apply elem_of_list_fmap; exists t; (split; [done|]); apply elem_of_seq; lia.
Qed.
Example fair_nonvacuous : cfg_ok w_cfg ∧ impls_ok int_parse w_cfg w_impl ∧ finite_updates w_impl ∧ Forall request_ok w_rqs ∧
  ∃ N v h rs, Forall (round (length w_rqs)) (replicate N (turns 4)) ∧ vexecution (λ _, 0) x_ff x_et Some id w_cfg w_impl w_rqs (mjoin (replicate N (turns 4))) v h ∧ answered v rs ∧
    (∃ h1 h2, h = h1 ++ h2 ∧ arrived h1 = [0; 1; 2; 3]%nat ∧ finished h1 = []).
Proof.
  assert (finite_updates w_impl) as Hfin. { intros i r init. unfold w_impl, zimpl. apply as_prog_finite, transaction_ok. }
  split; [exact w_cfg_ok|]. split; [exact w_impls_ok|]. split; [exact Hfin|]. split; [exact w_req_ok|].
  destruct (C96_all_answered int_parse (λ _, 0) x_ff x_et Some id w_cfg w_impl w_cfg_ok w_impls_ok w_rqs w_req_ok Hfin) as [N HN]. exists (S N).
  destruct (w_exec (mjoin (replicate (S N) (turns 4)))) as [v h] eqn:E. exists v, h.
  assert (vexecution (λ _, 0) x_ff x_et Some id w_cfg w_impl w_rqs (mjoin (replicate (S N) (turns 4))) v h) as Ex.
  { exists w_new. split; [|exact E]. unfold w_new. destruct (New 32 (c_size (Compile zschema))) as [m| |] eqn:Em; [|vm_compute in Em; discriminate..]. constructor; [|constructor]. exists m. split; [exact Em|reflexivity]. }
  assert (Forall (round (length w_rqs)) (replicate (S N) (turns 4))) as HF. { apply Forall_replicate, turns_round. }
  destruct (HN [] (replicate (S N) (turns 4)) v h) as (rs & A & _); [rewrite replicate_length; lia|exact HF|exact Ex|]. exists rs. split; [exact HF|]. split; [exact Ex|]. split; [exact A|].
  clear -E. unfold w_exec in E. change (mjoin (replicate (S N) (turns 4))) with (map VArrive (seq 0 4) ++ (map VStep (seq 0 4) ++ mjoin (replicate N (turns 4)))) in E. rewrite vexec_app in E.
  set (x := vexec _ _ _ _ _ _ _ _ _ (map VArrive (seq 0 4))) in E. assert (x.2 = [VBegin 0; VBegin 1; VBegin 2; VBegin 3]) as Ex by (vm_compute; reflexivity). destruct x as [v1 e1]. cbv beta iota delta [snd] in Ex. subst e1.
  destruct (vexec _ _ _ _ _ _ _ _ v1 _) as [v2 e2]. exists [VBegin 0; VBegin 1; VBegin 2; VBegin 3], e2. split; [congruence|]. done.
Qed.
Print Assumptions fair_nonvacuous.
