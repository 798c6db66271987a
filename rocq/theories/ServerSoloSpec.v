(** Specification of requests that do not overlap. *)
From Verif Require Import Base CollationModel ServerModel ServerConcModel ServerConcSpec.

(** a request arrives only when all that arrived before have been answered *)
Definition one_at_a_time (h : list vevent) : Prop := ∀ h1 t h2, h = h1 ++ VBegin t :: h2 → ∀ t', t' ∈ arrived h1 → t' ∈ finished h1.
(** nobody is being served *)
Definition all_served (h : list vevent) : Prop := ∀ t, t ∈ arrived h → t ∈ finished h.
(** the answers, in the order in which they were given *)
Definition answers (h : list vevent) : list response := omap (λ e, match e with VAnswer _ r => Some r | _ => None end) h.
(** the stores of a new server *)
Definition fresh_stores (c : list (Z * Schema)) (sts : list Store) : Prop := Forall2 (λ ls st, add_collation ls.1 ls.2 = Ok st) c sts.
