(** Requests that do not overlap: the server with a goroutine per request does what the
    server of ServerModel does, so all that is proved of that one (see the
    theorems about serve_all and ServeHTTP) holds for such runs of this one. *)
From Coq Require Import ZifyBool ZifyNat.
From Verif Require Import Base BaseProofs Float64 HllModel CollationModel CollationSpec CollationProofs DemoModel BufmapModel BufmapSpec QueryModel BufconcModel BufconcSpec ServerModel ServerSpec ServerTop ServerDemo StoreConcModel StoreConcSpec StoreConcProps
  ServerConcModel ServerConcSpec ServerConcProofs ServerConcDemo ServerSoloSpec ServerConcSolo ServerConcSolo2.
Local Open Scope Z_scope.

Section props.
Context (pf : bytes → option float) (est : Counter → Z) (ff : float → bytes) (et : error → bytes) (pm : bytes → option bytes) (order : list FM → list FM).
Context (c : list (Z * Schema)) (impl : nat → Row → bool → prog) (Hc : cfg_ok c) (Himpl : impls_ok pf c impl).
(** ** C97: requests one at a time *)
(** When no request arrives before the earlier ones have been answered, the answers are
    those of the sequential server to the same requests in the order of their arrival,
    and so are the record maps left behind, to the last byte. *)
Theorem C97_one_at_a_time rqs acts v h sts0 : Forall request_ok rqs → fresh_stores c sts0 → vexecution est ff et pm order c impl rqs acts v h → one_at_a_time h → all_served h →
  ∃ sts, serve_all pf est ff et pm order sts0 (omap (rqs !!.) (arrived h)) = (sts, answers h) ∧ map (λ g, c_map (g_cfg g)) (v_stores v) = map st_map sts.
Proof.
  intros Hrq Hf Ex Hone Hserved. destruct (vexecution_solo pf est ff et pm order c impl Hc Himpl rqs Hrq sts0 acts v h Hf Ex Hone) as (sts & Hall & _ & Hfin & [(Ha & Hm & _)|(t & rq & x & Ha & _ & Lx & Hs & _)]).
  - exists sts. rewrite Ha. done.
  - exfalso. destruct (Hfin t) as [r Lr]. { apply Hserved. rewrite Ha. apply elem_of_app. right. by left. } rewrite Lx in Lr. by injection Lr as ->.
Qed.
(** In particular, whatever the byte accesses of the updates are and whatever the steps
    of the goroutines are: two such runs with the same requests in the same order give
    the same answers and leave the same bytes. *)
Theorem C97_deterministic rqs acts v h rqs' acts' v' h' (impl' : nat → Row → bool → prog) : Forall request_ok rqs → Forall request_ok rqs' → impls_ok pf c impl' →
  vexecution est ff et pm order c impl rqs acts v h → one_at_a_time h → all_served h →
  vexecution est ff et pm order c impl' rqs' acts' v' h' → one_at_a_time h' → all_served h' →
  omap (rqs !!.) (arrived h) = omap (rqs' !!.) (arrived h') → answers h = answers h' ∧ map (λ g, c_map (g_cfg g)) (v_stores v) = map (λ g, c_map (g_cfg g)) (v_stores v').
Proof.
  intros Hrq Hrq' Him' Ex Hone Hsv Ex' Hone' Hsv' Eq.
  assert (∃ sts0, fresh_stores c sts0) as [sts0 Hf].
  { clear -Hc. induction c as [|[l s] c' IH]; [exists []; constructor|]. apply Forall_cons in Hc as [[_ Hd] HC']. destruct (IH HC') as [sts Hs]. unfold fresh_stores, add_collation in *. cbn in Hd. pose proof (BufmapProofs.New_ok _ _ Hd) as En.
    eexists (_ :: sts). constructor; [|exact Hs]. cbn. rewrite En. reflexivity. }
  destruct (vexecution_solo pf est ff et pm order c impl Hc Himpl rqs Hrq sts0 acts v h Hf Ex Hone) as (stsa & Hall & _ & Hfin & [(Ha & Hm & _)|(t & rq & x & Ha & _ & Lx & Hs & _)]).
  2:{ exfalso. destruct (Hfin t) as [r Lr]. { apply Hsv. rewrite Ha. apply elem_of_app. right. by left. } rewrite Lx in Lr. by injection Lr as ->. }
  destruct (vexecution_solo pf est ff et pm order c impl' Hc Him' rqs' Hrq' sts0 acts' v' h' Hf Ex' Hone') as (stsb & Hall' & _ & Hfin' & [(Ha' & Hm' & _)|(t & rq & x & Ha' & _ & Lx & Hs & _)]).
  2:{ exfalso. destruct (Hfin' t) as [r Lr]. { apply Hsv'. rewrite Ha'. apply elem_of_app. right. by left. } rewrite Lx in Lr. by injection Lr as ->. }
  rewrite <- Ha in Hall. rewrite <- Ha' in Hall'. rewrite Eq, Hall' in Hall. injection Hall as <- ->. split; [done|]. unfold maps in *. by rewrite Hm, Hm'.
Qed.
End props.
Print Assumptions C97_one_at_a_time.
Print Assumptions C97_deterministic.

(** ** a concrete case: the four requests of ServerConcDemo, one after another *)
Fixpoint apart (arr fin : list nat) (h : list vevent) : bool :=
  match h with
  | [] => true
  | VBegin t :: h => forallb (λ t', bool_decide (t' ∈ fin)) arr && apart (arr ++ [t]) fin h
  | VAnswer t _ :: h => apart arr (fin ++ [t]) h
  | _ :: h => apart arr fin h
  end.
Lemma apart_ok h : ∀ arr fin, apart arr fin h = true → ∀ h1 t h2, h = h1 ++ VBegin t :: h2 → ∀ t', t' ∈ arr ++ arrived h1 → t' ∈ fin ++ finished h1.
Proof.
  induction h as [|e h IH]; intros arr fin Hb h1 t h2 E t' Ht'; [by destruct h1|]. destruct h1 as [|e1 h1].
  - injection E as -> ->. cbn in Hb, Ht' |- *. rewrite app_nil_r in Ht' |- *. apply andb_true_iff in Hb as [Hb _]. rewrite forallb_forall in Hb. apply elem_of_list_In, Hb in Ht'. by apply bool_decide_eq_true in Ht'.
  - injection E as -> ->. destruct e1 as [t1|j e|t1 r]; cbn in Hb.
    + apply andb_true_iff in Hb as [_ Hb]. eapply (IH _ _ Hb h1 t h2 eq_refl t'). rewrite <- app_assoc. exact Ht'.
    + exact (IH _ _ Hb h1 t h2 eq_refl t' Ht').
    + specialize (IH _ _ Hb h1 t h2 eq_refl t' Ht'). rewrite <- app_assoc in IH. exact IH.
Qed.
Definition w_apart : list vaction := [VArrive 1] ++ w_st 1 90 ++ [VArrive 2] ++ w_st 2 60 ++ [VArrive 0] ++ w_st 0 60 ++ [VArrive 3] ++ w_st 3 60.
Example solo_nonvacuous : cfg_ok w_cfg ∧ impls_ok int_parse w_cfg w_impl ∧ Forall request_ok w_rqs ∧ ∃ v h sts0, fresh_stores w_cfg sts0 ∧ vexecution (λ _, 0) x_ff x_et Some id w_cfg w_impl w_rqs w_apart v h ∧ one_at_a_time h ∧ all_served h ∧
  arrived h = [1; 2; 0; 3]%nat ∧ answers h = [Resp 200 []; w_resp (str "count(*)=") 2; Resp 200 []; w_resp (str "max(x)=") 9].
Proof.
  split; [exact w_cfg_ok|]. split; [exact w_impls_ok|]. split; [exact w_req_ok|]. destruct (w_exec w_apart) as [v h] eqn:E.
  assert ((apart [] [] h, arrived h, finished h, answers h) = (true, [1; 2; 0; 3]%nat, [1; 2; 0; 3]%nat, [Resp 200 []; w_resp (str "count(*)=") 2; Resp 200 []; w_resp (str "max(x)=") 9])) as Hh.
  { change h with (v, h).2. rewrite <- E. vm_compute. reflexivity. }
  apply (f_equal (λ x, (x.1.1.1, x.1.1.2, x.1.2))) in Hh as Hh'. cbv beta iota delta [fst snd] in Hh'. apply (f_equal snd) in Hh. cbv beta iota delta [fst snd] in Hh. injection Hh' as H1 H2 H3.
  destruct (New 32 (c_size (Compile zschema))) as [m| |] eqn:Em; [|vm_compute in Em; discriminate..].
  exists v, h, [MkStore m (Compile zschema)]. split. { constructor; [|constructor]. unfold add_collation. cbv beta iota delta [fst snd]. rewrite Em. reflexivity. }
  split. { exists w_new. split; [|exact E]. unfold w_new. rewrite Em. constructor; [|constructor]. exists m. split; [exact Em|reflexivity]. }
  split; [intros h1 t h2 Eh t' Ht'; exact (apart_ok h [] [] H1 h1 t h2 Eh t' Ht')|]. split; [intros t Ht; rewrite H3; by rewrite H2 in Ht|]. split; [exact H2|exact Hh].
Qed.
Print Assumptions solo_nonvacuous.
