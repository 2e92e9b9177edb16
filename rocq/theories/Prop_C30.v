(** Property theorems; the proofs are in ProofC30.v. *)
From Verif Require Import ProofC30.
Local Open Scope string_scope.
Local Open Scope list_scope.

(** C29, whatever the lines are: if the parser accepts them then it yields one entry
    per line, numbered from 0, whose levels form an outline (it starts at level 0 and no
    level is more than one deeper than the one before), and the parent of each entry
    is the last earlier entry one level up that is not blank.  So a line that is too
    deep is always rejected. *)
Theorem C29_outline : ∀ lines indent ls, parse_indentations lines indent = Ok ls →
  let o := (λ l : pline, (l.1.1.2, l.1.2)) <$> ls in
  length ls = length lines ∧ outline o ∧ ∀ i l, ls !! i = Some l → l.1.1.1 = i ∧ parent_text o i l.2.
Proof. exact C29_outline_proof. Qed.
Print Assumptions C29_outline.

(** Lines with two blank ones; and lines that are rejected. *)
Example C29_outline_ex : 
  parse_indentations ["a"; ""; "    b"; ""; "c"] None = Ok [(0, 0, "a", None); (1, 0, "", None); (2, 1, "b", Some 0); (3, 1, "", Some 0); (4, 0, "c", None)] ∧
  parse_indentations ["a"; "    b"; "            c"] None = Err ValueError.
Proof. exact C29_outline_ex_proof. Qed.
Print Assumptions C29_outline_ex.
