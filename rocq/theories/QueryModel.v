(** Model of /repo/internal/query/rough.go *)
From Verif Require Import Base RegexpModel Float64 CollationModel.
Local Open Scope Z_scope.

(** \s = [\t\n\f\r ] and . = anything but \n *)
Definition ws (c : Z) : bool := (c =? 9) || (c =? 10) || (c =? 12) || (c =? 13) || (c =? 32).
Definition dot (c : Z) : bool := negb (c =? 10).
Definition is_chr (d c : Z) : bool := c =? d.
(** an ASCII letter under (?i), given in lower case *)
Definition letter_i (d c : Z) : bool := (c =? d) || (c =? d - 32).
Fixpoint lit_i (w : bytes) (k : re) : re :=
  match w with
  | [] => k
  | d :: w => RCat (RCls (letter_i d)) (lit_i w k)
  end.
(** s under (?i): s, S, U+017F *)
Definition letter_s : re := RAlt (RCls (letter_i 115)) (RCat (RCls (is_chr 197)) (RCls (is_chr 191))).

(** rough.go:11: (?i)^\s*select\s+(.+)\s+where\s+(.+)\s*$ *)
Definition queryRe : re :=
  RCat (RStar ws) (RCat letter_s (lit_i (str "elect")
  (RCat (RPlus ws) (RCat (RGrp (RPlus dot)) (RCat (RPlus ws) (lit_i (str "where")
  (RCat (RPlus ws) (RCat (RGrp (RPlus dot)) (RCat (RStar ws) REnd))))))))).
(** rough.go:12: ([^,\s]+)\(([^,\s]+)\) *)
Definition selchar (c : Z) : bool := negb ((c =? 44) || ws c).
Definition selectRe : re :=
  RCat (RGrp (RPlus selchar)) (RCat (RCls (is_chr 40)) (RCat (RGrp (RPlus selchar)) (RCls (is_chr 41)))).
(** rough.go:13: (\S+)='([^']+)' *)
Definition nonspace (c : Z) : bool := negb (ws c).
Definition nonquote (c : Z) : bool := negb (c =? 39).
Definition whereRe : re :=
  RCat (RGrp (RPlus nonspace)) (RCat (RCls (is_chr 61)) (RCat (RCls (is_chr 39)) (RCat (RGrp (RPlus nonquote)) (RCls (is_chr 39))))).

(** rough.go:25, 32: fields[f] = append(fields[f], m) on an association list in
    order of first insertion *)
Fixpoint add_field (fs : list FM) (f m : bytes) : list FM :=
  match fs with
  | [] => [MkFM f [m]]
  | fm :: fs => if decide (fm_F fm = f) then MkFM f (fm_M fm ++ [m]) :: fs else fm :: add_field fs f m
  end.
Definition add_selection (fs : list FM) (g : list bytes) : list FM :=
  match g with [m; f] => add_field fs f m | _ => fs end.
Definition criterion (g : list bytes) : FV := match g with [k; v] => MkFV k v | _ => MkFV [] [] end.

(** rough.go:17-48.  [order] is the order in which the map is ranged over
    (rough.go:35), which Go leaves unspecified: theorems quantify over every
    function that returns a permutation of its argument.  Every match of
    selectRe and whereRe has two groups, so the checks of rough.go:29 and :41
    never fail. *)
Definition RoughParse (order : list FM → list FM) (s : bytes) : outcome Query :=
  match find_anchored queryRe s with
  | Some [sel; whr] =>
      let fields := fold_left add_selection (find_all selectRe sel) [] in
      Ok (MkQuery (order fields) (map criterion (find_all whereRe whr)))
  | _ => Err ErrSyntax
  end.
