(** Property theorems; the proofs are in ProofC59.v. *)
From Verif Require Import ProofC59.
Local Open Scope string_scope.
Local Open Scope list_scope.

(** C29, whatever the lines are: if the parser accepts them then the text of an entry is
    empty exactly if its line consists of line ends only, and otherwise starts with a
    character that is no white space.  So a line that is indented by a part of the unit, or
    that has only spaces, is rejected. *)
Theorem C29_content : ∀ lines indent ls, parse_indentations lines indent = Ok ls →
  ∀ i line l, lines !! i = Some line → ls !! i = Some l →
  (l.1.2 = "" ↔ ∃ k, line = times k line_end) ∧ (l.1.2 ≠ "" → ∃ c s, l.1.2 = String c s ∧ ¬ white c).
Proof. exact C29_content_proof. Qed.
Print Assumptions C29_content.

(** C29, instance: a blank line between two others; and rejected lines, indented by six
    spaces where the unit is four, or with spaces only. *)
Example C29_content_ex : parse_indentations ["a"; line_end; "    b"] None = Ok [(0, 0, "a", None); (1, 0, "", None); (2, 1, "b", Some 0)] ∧
  parse_indentations ["a"; "    b"; "      c"] None = Err ValueError ∧ parse_indentations ["a"; "    b"; "    "] None = Err ValueError.
Proof. exact C29_content_ex_proof. Qed.
Print Assumptions C29_content_ex.

(** C29.  A line of line ends only, after at least one other line, is always accepted: it
    gives an entry with empty text at the level of the entry before. *)
Theorem C29_blank : ∀ lines indent ls l k, parse_indentations lines indent = Ok ls → last ls = Some l →
  ∃ p, parse_indentations (lines ++ [times k line_end]) indent = Ok (ls ++ [(length lines, l.1.1.2, "", p)]).
Proof. exact C29_blank_proof. Qed.
Print Assumptions C29_blank.

(** C29, instance: two line ends after a line of level 1. *)
Example C29_blank_ex : ∃ ls l, parse_indentations ["a"; "    b"] None = Ok ls ∧ last ls = Some l ∧
  parse_indentations ["a"; "    b"; times 2 line_end] None = Ok (ls ++ [(2, 1, "", Some 0)]).
Proof. exact C29_blank_ex_proof. Qed.
Print Assumptions C29_blank_ex.
