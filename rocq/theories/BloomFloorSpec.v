(** False positives counted over pairs of values. *)
From Verif Require Import Base BloomModel.
Local Open Scope Z_scope.
(** after v has been added to b, b reports the other value w *)
Definition reports_other (b : Bloom) (v w : bytes) : bool :=
  bool_decide (v ≠ w) && match Bloom_Add b v with Ok b' => match Bloom_Has b' w with Ok r => r | _ => false end | _ => false end.
(** the number of pairs (v, w) of values of vs, v <> w, such that w is reported after v has been added *)
Definition false_positives (b : Bloom) (vs : list bytes) : Z :=
  Z.of_nat (length (List.filter (λ vw, reports_other b vw.1 vw.2) (list_prod vs vs))).
