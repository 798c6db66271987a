(** Specification of the query text. *)
From Verif Require Import Base Float64 CollationModel.
Local Open Scope Z_scope.

Definition lower (c : Z) : Z := if (65 <=? c) && (c <=? 90) then c + 32 else c.
(** the keywords in any mix of cases; s may also be U+017F, in UTF-8 C5 BF *)
Definition kw_where (w : bytes) : Prop := map lower w = str "where".
Definition kw_select (w : bytes) : Prop := map lower w = str "select" ∨ ∃ w', w = 197 :: 191 :: w' ∧ map lower w' = str "elect".
(** whitespace: tab, line feed, form feed, carriage return, space *)
Definition is_ws (c : Z) : Prop := c ∈ [9; 10; 12; 13; 32].
Definition is_blank (c : Z) : Prop := c ∈ [9; 12; 13; 32].

(** select <a> where <b>, a and b non-empty and on one line *)
Definition query_form (s : bytes) : Prop :=
  ∃ w0 sel w1 a w2 whr w3 b w4, s = w0 ++ sel ++ w1 ++ a ++ w2 ++ whr ++ w3 ++ b ++ w4 ∧
    Forall is_ws w0 ∧ kw_select sel ∧ (w1 ≠ [] ∧ Forall is_ws w1) ∧ (a ≠ [] ∧ 10 ∉ a) ∧
    (w2 ≠ [] ∧ Forall is_ws w2) ∧ kw_where whr ∧ (w3 ≠ [] ∧ Forall is_ws w3) ∧ (b ≠ [] ∧ 10 ∉ b) ∧ Forall is_ws w4.

(** the text contains the word where between whitespace *)
Definition has_where (s : bytes) : Prop :=
  ∃ a c1 w c2 b, s = a ++ c1 :: w ++ c2 :: b ∧ is_ws c1 ∧ kw_where w ∧ is_ws c2.

(** m1(f1), m2(f2), ...: the items with their separators *)
Definition name_ok (n : bytes) : Prop := n ≠ [] ∧ Forall (λ c, ¬ is_ws c ∧ c ≠ 44 ∧ c ≠ 40 ∧ c ≠ 41) n.
Definition sel_sep (t : bytes) : Prop := t ≠ [] ∧ Forall (λ c, is_blank c ∨ c = 44) t.
Definition sel_item (p : bytes * bytes) : bytes := p.1 ++ [40] ++ p.2 ++ [41].
Inductive sel_text : list (bytes * bytes) → bytes → Prop :=
  | sel_one p : sel_text [p] (sel_item p)
  | sel_more p t l s : sel_sep t → sel_text l s → sel_text (p :: l) (sel_item p ++ t ++ s).

(** k1='v1' and k2='v2' ... *)
Definition key_ok (k : bytes) : Prop := k ≠ [] ∧ Forall (λ c, ¬ is_ws c ∧ c ≠ 39) k.
Definition value_ok (v : bytes) : Prop := v ≠ [] ∧ Forall (λ c, c ≠ 39 ∧ c ≠ 10) v.
Definition crit_item (p : bytes * bytes) : bytes := p.1 ++ str "='" ++ p.2 ++ str "'".
Definition and_sep (t : bytes) : Prop := ∃ b1 w b2, t = b1 ++ w ++ b2 ∧ b1 ≠ [] ∧ Forall is_blank b1 ∧ map lower w = str "and" ∧ b2 ≠ [] ∧ Forall is_blank b2.
Inductive crit_text : list (bytes * bytes) → bytes → Prop :=
  | crit_one p : crit_text [p] (crit_item p)
  | crit_more p t l s : and_sep t → last p.2 ≠ Some 61 → crit_text l s → crit_text (p :: l) (crit_item p ++ t ++ s).

(** the measures asked of each field, fields in order of first mention *)
Fixpoint dedup (l : list bytes) : list bytes :=
  match l with [] => [] | f :: l => f :: filter (λ g, g ≠ f) (dedup l) end.
Definition measures_of (f : bytes) (l : list (bytes * bytes)) : list bytes := map fst (filter (λ p, p.2 = f) l).
Definition grouped (l : list (bytes * bytes)) : list FM := map (λ f, MkFM f (measures_of f l)) (dedup (map snd l)).
Definition criteria (l : list (bytes * bytes)) : list FV := map (λ p, MkFV p.1 p.2) l.

(** a well-formed query text: select <ps> where <qs>, where only keywords
    delimit: the criteria do not contain the word where between whitespace *)
Definition query_text (ps qs : list (bytes * bytes)) (s : bytes) : Prop :=
  ∃ w0 sel w1 a w2 whr w3 b w4, s = w0 ++ sel ++ w1 ++ a ++ w2 ++ whr ++ w3 ++ b ++ w4 ∧
    Forall is_ws w0 ∧ kw_select sel ∧ (w1 ≠ [] ∧ Forall is_ws w1) ∧
    (sel_text ps a ∧ Forall (λ p, name_ok p.1 ∧ name_ok p.2) ps) ∧ (w2 ≠ [] ∧ Forall is_blank w2) ∧
    kw_where whr ∧ (w3 ≠ [] ∧ Forall is_ws w3) ∧
    (crit_text qs b ∧ Forall (λ p, key_ok p.1 ∧ value_ok p.2) qs ∧ ¬ has_where b) ∧ Forall is_ws w4.
(** the iteration order of a Go map: any permutation *)
Definition map_order (order : list FM → list FM) : Prop := ∀ l, order l ≡ₚ l.
