(** Which paths are clean: / or elements that are not empty, . or .., each after
    a slash, with perhaps a slash at the end. *)
From Verif Require Import Base ServerModel ServerSpec.

Definition path_of (ws : list bytes) : bytes := concat (map (λ w, str "/" ++ w) ws).
Definition is_clean (p : bytes) : Prop :=
  p = str "/" ∨ ∃ ws, ws ≠ [] ∧ Forall plain_name ws ∧ (p = path_of ws ∨ p = path_of ws ++ str "/").
(** neither /obs nor /collation/name *)
Definition other_path (p : bytes) : Prop := p ≠ str "/obs" ∧ ∀ rest, p ≠ str "/collation/" ++ rest.
(** how an error reaches the client: the status, and the message on a line *)
Definition error_answer (status : Z) (msg : bytes) : response := Resp status (msg ++ [10]).
