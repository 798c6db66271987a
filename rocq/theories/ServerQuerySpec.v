(** What the lines of an answer must say. *)
From Verif Require Import Base Float64 Stat64Spec HllModel HllSpec CollationModel CollationSpec BufmapModel BufmapSpec QueryModel QuerySpec ServerModel ServerSpec ServerHomeSpec.
Local Open Scope Z_scope.
(** one line per criterion: name=value, line feed *)
Definition crit_lines (qs : list (bytes * bytes)) : bytes := mjoin (map (λ p, p.1 ++ str "=" ++ p.2 ++ [10]) qs).
(** measure(field)=value, line feed *)
Definition value_line (ff : float → bytes) (n f : bytes) (v : float) : bytes := n ++ str "(" ++ f ++ str ")=" ++ ff v ++ [10].
(** the first of the rows has exactly one f *)
Definition first_has (f : bytes) (mine : list Row) : Prop := ∃ r0 rest, mine = r0 :: rest ∧ has_once f r0.
(** the right value of n(f) over the rows [mine], out of all posted [rows], in a
    map of l slots where the record has key k *)
Record right_value (pf : bytes → option float) (est : Counter → Z) (l : Z) (s : Schema) (k : Z) (rows mine : list Row) (n f : bytes) (v : float) : Prop := {
  rv_count : f = str "*" → n = str "count" → s_rows s ≠ [] → v = f_of_Z (Z.of_nat (length mine) mod 2^64);
  rv_sum : n = str "sum" → field_measure s f MSum → v = sum_spec (field_floats pf f mine);
  rv_mean : n = str "mean" → field_measure s f MMean → v = mean_spec (field_floats pf f mine);
  rv_var : n = str "var" → field_measure s f MVariance → v = var_spec (field_floats pf f mine);
  rv_max : n = str "max" → field_measure s f MMax → undisturbed l s k rows → first_has f mine → Forall (λ x, fisnan x = false) (field_floats pf f mine) →
    is_max v (field_floats pf f mine);
  rv_min : n = str "min" → field_measure s f MMin → undisturbed l s k rows → first_has f mine → Forall (λ x, fisnan x = false) (field_floats pf f mine) →
    is_min v (field_floats pf f mine);
  rv_unique p : n = str "uniquecount" → field_measure s f (MCardinality p) → (∀ p', field_measure s f (MCardinality p') → p' = p) → undisturbed l s k rows → first_has f mine →
    ∃ c0 ctr, Hll_New p = Ok c0 ∧ Hll_Adds c0 (field_values f mine) = Ok ctr ∧ v = f_of_Z (est ctr) }.
