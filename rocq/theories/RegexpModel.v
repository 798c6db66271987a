(** The part of Go's regexp package the repository uses: leftmost-first matching
    with greedy repetition, by the usual list of successes in order of
    preference (regexp documents this as the semantics of Perl, which its
    automaton implements).

    Simplification: expressions match bytes, regexp matches UTF-8 encoded runes
    (an invalid byte counts as one rune).  The two agree on the expressions of
    internal/query/rough.go: every class used there either consists of ASCII
    characters or contains all non-ASCII runes, and every match begins at the
    start of the text or after an ASCII character and ends before one or at the
    end.  The one non-ASCII rune that matters, U+017F, which (?i) identifies
    with s, is written out as its two bytes. *)
From Verif Require Import Base.
Local Open Scope Z_scope.

Inductive re :=
  | RCls (p : Z → bool)      (* one character of a class *)
  | RPlus (p : Z → bool)     (* class +, greedy *)
  | RStar (p : Z → bool)     (* class *, greedy *)
  | RCat (r1 r2 : re)
  | RAlt (r1 r2 : re)        (* prefers the left branch *)
  | RGrp (r : re)            (* capturing group *)
  | REnd.                    (* $, end of text *)

(** length of the longest prefix in the class *)
Fixpoint run (p : Z → bool) (s : bytes) : nat :=
  match s with c :: s => if p c then S (run p s) else O | [] => O end.

(** all ways to match a prefix, most preferred first: captured groups (in order
    of their opening parenthesis) and what is left of the text *)
Fixpoint matches (r : re) (s : bytes) : list (list bytes * bytes) :=
  match r with
  | RCls p => match s with c :: s' => if p c then [([], s')] else [] | [] => [] end
  | RPlus p => map (λ k, ([], drop k s)) (rev (seq 1 (run p s)))
  | RStar p => map (λ k, ([], drop k s)) (rev (seq 0 (S (run p s))))
  | RCat r1 r2 => flat_map (λ '(c1, s1), map (λ '(c2, s2), (c1 ++ c2, s2)) (matches r2 s1)) (matches r1 s)
  | RAlt r1 r2 => matches r1 s ++ matches r2 s
  | RGrp r => map (λ '(c, s'), (take (length s - length s') s :: c, s')) (matches r s)
  | REnd => match s with [] => [([], [])] | _ => [] end
  end.

(** FindStringSubmatch of an expression that starts with ^: the groups of the
    preferred match at the start of the text (the whole match, element 0 of the
    Go result, is not used by any caller and left out). *)
Definition find_anchored (r : re) (s : bytes) : option (list bytes) :=
  match matches r s with (c, _) :: _ => Some c | [] => None end.

(** FindAllStringSubmatch(s, -1) of an expression that matches no empty text:
    successive leftmost matches, each searched for after the end of the previous
    one.  [n] bounds the number of steps by the length of the text. *)
Fixpoint find_all_n (n : nat) (r : re) (s : bytes) : list (list bytes) :=
  match n with
  | O => []
  | S n =>
      match matches r s with
      | (c, s') :: _ => c :: find_all_n n r s'
      | [] => match s with [] => [] | _ :: s => find_all_n n r s end
      end
  end.
Definition find_all (r : re) (s : bytes) : list (list bytes) := find_all_n (S (length s)) r s.
