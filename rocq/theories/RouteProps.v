(** Property C108: which requests are served. *)
From Coq Require Import ZifyBool ZifyNat.
From Verif Require Import Base BaseProofs Float64 HllModel CollationModel QueryModel ServerModel ServerSpec ServerTop RouteSpec RouteProofs.
Local Open Scope Z_scope.

Section route.
Context (pf : bytes → option float) (est : Counter → Z) (ff : float → bytes) (et : error → bytes) (pm : bytes → option bytes) (order : list FM → list FM).
Notation serve := (ServeHTTP pf est ff et pm order).
(** A path that is not clean is redirected (CONNECT is exempt), and so is /collation. *)
Theorem C108_redirected rq sts : rq_star rq = false →
  (rq_method rq ≠ str "CONNECT" ∧ ¬ is_clean (rq_path rq)) ∨ rq_path rq = str "/collation" → serve sts rq = (sts, Resp 301 []).
Proof.
  intros Hs H. unfold ServeHTTP. rewrite Hs. assert (mux_route (bool_decide (rq_method rq = str "CONNECT")) (rq_path rq) = RRedirect) as ->; [|done].
  unfold mux_route. destruct H as [[Hm Hc]| ->].
  - rewrite bool_decide_eq_false_2 by done. destruct (decide (_ = _)); [done|]. rewrite decide_True; [done|]. intros E. apply Hc. rewrite <- E. apply clean_path_clean.
  - assert ((if bool_decide (rq_method rq = str "CONNECT") then str "/collation" else clean_path (str "/collation")) = str "/collation") as -> by (by destruct (bool_decide _)).
    by rewrite decide_True.
Qed.
(** The path a client is redirected to is clean: it is not redirected again for that reason. *)
Theorem C108_redirect_once p : is_clean (clean_path p) ∧ (is_clean p ↔ clean_path p = p).
Proof. split; [apply clean_path_clean|]. split; [apply clean_path_id|]. intros <-. apply clean_path_clean. Qed.
(** Every clean path except /obs, /collation and those below /collation/ is not found. *)
Theorem C108_other rq sts : rq_star rq = false → rq_method rq = str "CONNECT" ∨ is_clean (rq_path rq) → other_path (rq_path rq) → rq_path rq ≠ str "/collation" →
  serve sts rq = (sts, error_answer 404 (str "404 page not found")).
Proof.
  intros Hs H [Ho Hc] Hn. unfold ServeHTTP. rewrite Hs. assert (mux_route (bool_decide (rq_method rq = str "CONNECT")) (rq_path rq) = RNotFound) as ->; [|done].
  unfold mux_route. assert ((if bool_decide (rq_method rq = str "CONNECT") then rq_path rq else clean_path (rq_path rq)) = rq_path rq) as ->.
  { destruct H as [->|H]; [by rewrite bool_decide_eq_true_2|]. rewrite clean_path_id by done. by destruct (bool_decide _). }
  rewrite decide_False by done. rewrite decide_False by (intros H'; by apply H'). rewrite decide_False by done.
  destruct (strip_prefix _ _) as [rest|] eqn:E; [|done]. apply strip_prefix_Some in E. by apply Hc in E.
Qed.
(** A request for * is a bad request. *)
Theorem C108_star rq sts : rq_star rq = true → serve sts rq = (sts, Resp 400 []).
Proof. intros Hs. unfold ServeHTTP. by rewrite Hs. Qed.
(** A request that is answered 200 was for /obs or for a collation by its plain name. *)
Theorem C108_only_two rq sts sts' body : serve sts rq = (sts', Resp 200 body) →
  (rq_method rq = str "POST" ∧ rq_path rq = str "/obs") ∨
  (rq_method rq ∈ [str "GET"; str "POST"] ∧ ∃ name, name ≠ [] ∧ 47 ∉ name ∧ rq_path rq = str "/collation/" ++ name).
Proof.
  unfold ServeHTTP. destruct (rq_star rq); [done|]. destruct (mux_route _ _) as [| | |rest] eqn:Er; [done|done| |].
  - apply route_obs in Er. destruct (decide _); [by left|done].
  - destruct (decide _) as [|H1]; [done|]. destruct (decide _) as [|H2]; [done|]. destruct (decide _) as [|H3]; [done|]. intros _. right.
    split.
    + destruct (decide (rq_method rq = str "GET")) as [->|]; [left|]. destruct (decide (rq_method rq = str "POST")) as [->|]; [right; left|]. tauto.
    + exists rest. split; [done|]. split; [done|]. revert Er. unfold mux_route. set (q := if bool_decide _ then _ else _). destruct (decide _); [done|]. destruct (decide (q ≠ _)) as [|Hq]; [done|].
      apply dec_stable in Hq. destruct (decide _); [done|]. rewrite Hq. destruct (strip_prefix _ _) eqn:E; [|done]. intros [= ->]. by apply strip_prefix_Some.
Qed.
End route.
Print Assumptions C108_redirected.
Print Assumptions C108_redirect_once.
Print Assumptions C108_other.
Print Assumptions C108_star.
Print Assumptions C108_only_two.

(** Non-vacuity: clean paths, a path that is not clean, other paths. *)
Example clean_nonvacuous : is_clean (str "/obs") ∧ is_clean (str "/a/b.c/") ∧ ¬ is_clean (str "/a/../obs") ∧ ¬ is_clean (str "//obs") ∧ ¬ is_clean [] ∧
  clean_path (str "/a/./../obs") = str "/obs" ∧ other_path (str "/obs/") ∧ other_path (str "/collations") ∧ ¬ other_path (str "/collation/x").
Proof.
  assert (∀ p q, clean_path p = q → p ≠ q → ¬ is_clean p) as H by (intros p q E Hn Hc; apply Hn; by rewrite <- E, clean_path_id).
  assert (∀ p, clean_path p = p → is_clean p) as H' by (intros p <-; apply clean_path_clean).
  split; [by apply H'|]. split; [by apply H'|]. split; [by eapply H|]. split; [by eapply H|]. split; [by eapply H|]. split; [reflexivity|].
  assert (∀ p, strip_prefix (str "/collation/") p = None → p ≠ str "/obs" → other_path p) as Ho.
  { intros p E Hn. split; [done|]. intros rest Hr. apply strip_prefix_Some in Hr. by rewrite Hr in E. }
  split; [by apply Ho|]. split; [by apply Ho|]. intros [_ Hx]. by apply (Hx (str "x")).
Qed.
