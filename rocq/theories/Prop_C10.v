(** Property theorems; the proofs are in ProofC10.v. *)
From Verif Require Import ProofC10.
Local Open Scope string_scope.
Local Open Scope list_scope.

(** C29, as far as it is true.  For every outline printed with any indent unit,
    given explicitly or detected, the parser yields one entry per line, with its
    index, its level and its parent line.  The content is the text of the line if
    the line is at level 0, or the indent unit is a single character, or it does
    not occur in the text. *)
Theorem C29_recovers_partial : ∀ u o lines indent, u ≠ "" →
  (indent = Some u ∨ indent = None ∧ ∀ c, has_char c u → space_or_tab c) →
  outline o → Forall (λ lc, text_line u lc.2) o → Forall2 (printed u) o lines →
  ∃ ls, parse_indentations lines indent = Ok ls ∧ length ls = length o ∧
    ∀ i level text, o !! i = Some (level, text) → ∃ content parent, ls !! i = Some (i, level, content, parent) ∧
      parent_line o i parent ∧ ((level = 0 ∨ String.length u = 1 ∨ ¬ occurs u text) → content = text).
Proof. exact C29_recovers_partial_proof. Qed.
Print Assumptions C29_recovers_partial.

(** C29 is false when the indent unit occurs in the text: it is replaced there too. *)
Theorem C29_refuted : ∃ u o lines ls, u ≠ "" ∧ (∀ c, has_char c u → space_or_tab c) ∧ outline o ∧
  Forall (λ lc, text_line u lc.2) o ∧ Forall2 (printed u) o lines ∧ parse_indentations lines None = Ok ls ∧
  o !! 1 = Some (1, "a  b") ∧ ls !! 1 = Some (1, 1, "a    b", Some 0).
Proof. exact C29_refuted_proof. Qed.
Print Assumptions C29_refuted.

(** The example of the documentation, tabs, indent detected; the second line ends
    with a newline. *)
Example C29_recovers_ex : let u := String "009"%char "" in let o := [(0, "a"); (1, "b"); (2, "c"); (1, "d"); (0, "e")] in
  let lines := ["a"; u +:+ "b" +:+ line_end; u +:+ u +:+ "c"; u +:+ "d"; "e"] in
  u ≠ "" ∧ (∀ c, has_char c u → space_or_tab c) ∧ outline o ∧ Forall (λ lc, text_line u lc.2) o ∧ Forall2 (printed u) o lines ∧
  parse_indentations lines None = Ok [(0, 0, "a", None); (1, 1, "b", Some 0); (2, 2, "c", Some 1); (3, 1, "d", Some 0); (4, 0, "e", None)].
Proof. exact C29_recovers_ex_proof. Qed.
Print Assumptions C29_recovers_ex.

(** C30.  from_indented_text fails exactly when the parser fails, and otherwise
    makes a new graph with a node 'root' labelled by the given text, one node per
    line, and one edge for each line, to it from its parent line or from 'root'. *)
Theorem C30_from_text : ∀ h d root lines indent, reachable h →
  match parse_indentations lines indent with
  | Err x => (from_indented_text d root lines indent h).2 = Err x
  | Ok ls => length ls = length lines ∧
      (∀ i l, ls !! i = Some l → l.1.1.1 = i ∧ ∀ j, l.2 = Some j → j < i) ∧
      ∃ h', from_indented_text d root lines indent h = (h', Ok (length (h_graphs h))) ∧
        shows h' (length (h_graphs h)) (plain_node "root" (PStr root) :: (line_node <$> seq 0 (length lines)))
          ((λ l : pline, line_edge l.1.1.1 l.2) <$> ls) ∧
        h_warns h' = h_warns h ∧ flags h' (length (h_graphs h)) = Some (true, true, Some d) ∧ extends h h'
  end.
Proof. exact C30_from_text_proof. Qed.
Print Assumptions C30_from_text.

(** C30.  Hence the graph is a tree with root 'root': nothing goes into the root,
    exactly one edge into every other node, every node is reachable from the root,
    and there is no cycle. *)
Theorem C30_tree : ∀ h d root lines indent h' g, reachable h →
  from_indented_text d root lines indent h = (h', Ok g) →
  (∀ r, in_graph h' g r ↔ named h' g (NStr "root") r ∨ ∃ i, i < length lines ∧ named h' g (line_name i) r) ∧
  (∀ i, i < length lines → ∃ r, named h' g (line_name i) r) ∧
  ∃ r0, named h' g (NStr "root") r0 ∧
    (∀ e s, ¬ joins h' g e s r0) ∧
    (∀ r, in_graph h' g r → r ≠ r0 → ∃ e s, joins h' g e s r ∧ ∀ e' s', joins h' g e' s' r → e' = e ∧ s' = s) ∧
    (∀ r, in_graph h' g r → path0 h' g r0 r) ∧
    acyclic h' g.
Proof. exact C30_tree_proof. Qed.
Print Assumptions C30_tree.

(** C30.  Hence for a printed outline the edges are those from each line's parent
    line, and from 'root' to the lines of level 0. *)
Theorem C30_outline : ∀ h d root u o lines indent, reachable h → u ≠ "" →
  (indent = Some u ∨ indent = None ∧ ∀ c, has_char c u → space_or_tab c) →
  outline o → Forall (λ lc, text_line u lc.2) o → Forall2 (printed u) o lines →
  ∃ h' g ps, from_indented_text d root lines indent h = (h', Ok g) ∧ length ps = length o ∧
    (∀ i p, ps !! i = Some p → parent_line o i p) ∧
    shows h' g (plain_node "root" (PStr root) :: (line_node <$> seq 0 (length o))) (imap line_edge ps).
Proof. exact C30_outline_proof. Qed.
Print Assumptions C30_outline.

(** Three lines, the second one below the first; and a text that is refused. *)
Example C30_from_text_ex : reachable sample ∧
  parse_indentations ["a"; "  b"; "c"] None = Ok [(0, 0, "a", None); (1, 1, "b", Some 0); (2, 0, "c", None)] ∧
  ((λ l : pline, line_edge l.1.1.1 l.2) <$> [(0, 0, "a", None); (1, 1, "b", Some 0); (2, 0, "c", None)]) =
    [plain_edge (nm "root") (nm "0") None PNone; plain_edge (nm "0") (nm "1") None PNone; plain_edge (nm "root") (nm "2") None PNone] ∧
  (from_indented_text disp0 "text" ["a"; "  b"; "c"] None sample).2 = Ok 2 ∧
  parse_indentations ["  a"; "b"] None = Err ValueError.
Proof. exact C30_from_text_ex_proof. Qed.
Print Assumptions C30_from_text_ex.

(** C30, instance for outlines: five lines indented by tabs. *)
Example C30_outline_ex : let u := String "009"%char "" in let o := [(0, "a"); (1, "b"); (2, "c"); (1, "d"); (0, "e")] in
  let lines := ["a"; u +:+ "b" +:+ line_end; u +:+ u +:+ "c"; u +:+ "d"; "e"] in
  reachable sample ∧ u ≠ "" ∧ (∀ c, has_char c u → space_or_tab c) ∧ outline o ∧ Forall (λ lc, text_line u lc.2) o ∧
  Forall2 (printed u) o lines ∧ (from_indented_text disp0 "text" lines None sample).2 = Ok 2.
Proof. exact C30_outline_ex_proof. Qed.
Print Assumptions C30_outline_ex.
