(** What starbow with its demo collations answers: the tables of the two collations. *)
From Verif Require Import Base Float64 Stat64Spec HllModel HllSpec CollationModel CollationSpec BufmapSpec ServerHomeSpec ServerQuerySpec.
Local Open Scope Z_scope.
Section tables.
Context (pf : bytes → option float) (est : Counter → Z).
(** [mine] are the rows of the group asked for; [first f]: its record is where max, min
    and uniquecount work (C91) and the first row has one field f *)
Context (mine : list Row) (first : bytes → Prop).
Definition numbers (f : bytes) : list float := field_floats pf f mine.
Definition estimate (p : Z) (f : bytes) (v : float) : Prop := ∃ c0 c, Hll_New p = Ok c0 ∧ Hll_Adds c0 (field_values f mine) = Ok c ∧ v = f_of_Z (est c).
(** measure(field) = value in collation country: grouped by country; rows are counted;
    of height the mean, sum, variance, greatest and least value; of iata the number of
    different values, at precision 10 *)
Inductive country_value : bytes → bytes → float → Prop :=
  | cv_count : country_value (str "count") (str "*") (f_of_Z (Z.of_nat (length mine) mod 2^64))
  | cv_mean : country_value (str "mean") (str "height") (mean_spec (numbers (str "height")))
  | cv_sum : country_value (str "sum") (str "height") (sum_spec (numbers (str "height")))
  | cv_var : country_value (str "var") (str "height") (var_spec (numbers (str "height")))
  | cv_max v : (first (str "height") → Forall (λ x, fisnan x = false) (numbers (str "height")) → is_max v (numbers (str "height"))) → country_value (str "max") (str "height") v
  | cv_min v : (first (str "height") → Forall (λ x, fisnan x = false) (numbers (str "height")) → is_min v (numbers (str "height"))) → country_value (str "min") (str "height") v
  | cv_unique v : estimate 10 (str "iata") v → country_value (str "uniquecount") (str "iata") v.
(** collation tz: grouped by tz; rows are counted; of country and of height the number of
    different values, at precision 8 *)
Inductive tz_value : bytes → bytes → float → Prop :=
  | tv_count : tz_value (str "count") (str "*") (f_of_Z (Z.of_nat (length mine) mod 2^64))
  | tv_country v : estimate 8 (str "country") v → tz_value (str "uniquecount") (str "country") v
  | tv_height v : estimate 8 (str "height") v → tz_value (str "uniquecount") (str "height") v.
End tables.
(** the pairs measure, field of the two tables *)
Definition country_names : list (bytes * bytes) := [(str "count", str "*"); (str "mean", str "height"); (str "sum", str "height"); (str "var", str "height"); (str "max", str "height"); (str "min", str "height"); (str "uniquecount", str "iata")].
Definition tz_names : list (bytes * bytes) := [(str "count", str "*"); (str "uniquecount", str "country"); (str "uniquecount", str "height")].
