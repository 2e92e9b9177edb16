(** Property theorems; the proofs are in ProofC3.v. *)
From Verif Require Import ProofC3.
Local Open Scope string_scope.
Local Open Scope list_scope.

(** C22.  graph.get_tree_str() succeeds on every graph; the text is that of a forest
    of lines over the roots where below every unstarred line are the children of
    the node in order, every node has a line, every node with children has exactly
    one unstarred line, it comes before all its starred lines, and nothing is below
    starred lines; leaves are never starred; there is one line per root and per edge.
    (The trees are joined by an additional newline.) *)
Theorem C22_graph_tree : ∀ env h g G, reachable h → h_graphs h !! g = Some G →
  ∃ lbl f rs es, (∀ r, in_graph h g r → node_label env h r = Ok (lbl r)) ∧
    roots h g = Ok rs ∧ graph_edges h g = Ok es ∧
    graph_tree_str env h g = Ok (String.concat NL (print_trees lbl f)) ∧
    tops f = rs ∧ faithful h f ∧
    (∀ x, in_graph h g x ↔ ∃ b, (x, b) ∈ lines f) ∧
    (∀ x y, adj h g x y → length (filter (λ l, l = (x, false)) (lines f)) = 1) ∧
    (∀ pre x post, lines f = pre ++ (x, true) :: post → (x, false) ∈ pre ∧ ∃ y, adj h g x y) ∧
    length (lines f) = length rs + length es.
Proof. exact C22_graph_tree_proof. Qed.
Print Assumptions C22_graph_tree.

(** C22.  node.get_tree_str() succeeds on every node; the lines are those of the
    nodes reachable from it. *)
Theorem C22_node_tree : ∀ env h g r, reachable h → in_graph h g r →
  ∃ lbl f s, (∀ r, in_graph h g r → node_label env h r = Ok (lbl r)) ∧
    node_tree_str env h r = Ok s ∧ print_trees lbl f = [s] ∧ tops f = [r] ∧ faithful h f ∧
    (∀ x, path0 h g r x ↔ ∃ b, (x, b) ∈ lines f) ∧
    (∀ x y, path0 h g r x → adj h g x y → length (filter (λ l, l = (x, false)) (lines f)) = 1) ∧
    (∀ pre x post, lines f = pre ++ (x, true) :: post → (x, false) ∈ pre ∧ ∃ y, adj h g x y).
Proof. exact C22_node_tree_proof. Qed.
Print Assumptions C22_node_tree.

(** The sample graph: a with b twice, the cycle b, c, and the isolated node d. *)
Example C22_tree_ex : reachable sample ∧ in_graph sample 0 0 ∧
  graph_tree_str env0 sample 0 = Ok ("a" +:+ NL +:+ "├ b" +:+ NL +:+ "│ └ c" +:+ NL +:+ "│   ├ b*" +:+ NL +:+
    "│   └ c*" +:+ NL +:+ "└ b*" +:+ NL +:+ NL +:+ "d" +:+ NL).
Proof. exact C22_tree_ex_proof. Qed.
Print Assumptions C22_tree_ex.
