(** Model of /repo/demo.go: the two schemas it installs, and a parse function
    for examples. *)
From Verif Require Import Base Float64 HllModel CollationModel.
Local Open Scope Z_scope.
(** demo.go:11-27 *)
Definition country_schema : Schema := MkSchema (str "country") [str "country"]
  [ MkMS (str "height") [MMean; MSum; MVariance; MMax; MMin]; MkMS (str "iata") [MCardinality 10] ] [RCount].
(** demo.go:29-45 *)
Definition tz_schema : Schema := MkSchema (str "tz") [str "tz"]
  [ MkMS (str "country") [MCardinality 8]; MkMS (str "height") [MCardinality 8] ] [RCount].
(** demo.go:56: bufmap.New(5000, coll.Size()) *)
Definition demo_slots : Z := 5000.

(** A fragment of strconv.ParseFloat used in examples only: optional minus sign
    and decimal digits, and NaN. *)
Fixpoint dec_digits (acc : Z) (l : bytes) : option Z :=
  match l with
  | [] => Some acc
  | b :: l => if (48 <=? b) && (b <=? 57) then dec_digits (10 * acc + (b - 48)) l else None
  end.
Definition dec_nat (l : bytes) : option Z := match l with [] => None | _ => dec_digits 0 l end.
Definition int_parse (l : bytes) : option float :=
  if decide (l = str "NaN") then Some f_nan
  else match l with
       | b :: l' => if b =? 45 then option_map (λ n, f_of_Z (-n)) (dec_nat l') else option_map f_of_Z (dec_nat l)
       | [] => None
       end.
