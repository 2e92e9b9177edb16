(** Property theorems; the proofs are in ProofC2b.v. *)
From Verif Require Import ProofC2b.
Local Open Scope string_scope.
Local Open Scope list_scope.

(** C14.  ancestors: never fails, no repetition, exactly the nodes with a path of
    at least one edge to the node. *)
Theorem C14_ancestors : ∀ h g x r, reachable h → denotes h g x r →
  ∃ L, get_ancestors h g x = Ok L ∧ node_ancestors h r = Ok L ∧ NoDup L ∧ ∀ y, y ∈ L ↔ path h g y r.
Proof. exact C14_ancestors_proof. Qed.
Print Assumptions C14_ancestors.

(** In the sample, c is on a cycle and a is not. *)
Example C14_ancestors_ex : reachable sample ∧ denotes sample 0 (an "c") 2 ∧
  get_ancestors sample 0 (an "c") = Ok [1; 0; 2] ∧ get_ancestors sample 0 (an "a") = Ok [].
Proof. exact C14_ancestors_ex_proof. Qed.
Print Assumptions C14_ancestors_ex.

(** C15.  descendants: never fails, no repetition, exactly the other nodes that
    can be reached; num_descendants counts them. *)
Theorem C15_descendants : ∀ h g x r, reachable h → denotes h g x r →
  ∃ L, get_descendants h g x = Ok L ∧ node_descendants h r = Ok L ∧ num_descendants h r = Ok (length L) ∧
    NoDup L ∧ ∀ y, y ∈ L ↔ path h g r y ∧ y ≠ r.
Proof. exact C15_descendants_proof. Qed.
Print Assumptions C15_descendants.

(** In the sample, c reaches itself but is not listed. *)
Example C15_descendants_ex : reachable sample ∧ denotes sample 0 (an "c") 2 ∧
  get_descendants sample 0 (an "c") = Ok [1] ∧ get_descendants sample 0 (an "a") = Ok [1; 2].
Proof. exact C15_descendants_ex_proof. Qed.
Print Assumptions C15_descendants_ex.

(** C16.  descendants and ancestors are converse. *)
Theorem C16_converse : ∀ h g a b, reachable h → in_graph h g a → in_graph h g b → a ≠ b →
  ∃ La Lb, node_descendants h a = Ok La ∧ node_ancestors h b = Ok Lb ∧ (b ∈ La ↔ a ∈ Lb).
Proof. exact C16_converse_proof. Qed.
Print Assumptions C16_converse.

(** Nodes a and c of the sample. *)
Example C16_converse_ex : reachable sample ∧ in_graph sample 0 0 ∧ in_graph sample 0 2 ∧
  node_descendants sample 0 = Ok [1; 2] ∧ node_ancestors sample 2 = Ok [1; 0; 2].
Proof. exact C16_converse_ex_proof. Qed.
Print Assumptions C16_converse_ex.

(** C17.  is_in_loop decides whether some cycle passes through the node. *)
Theorem C17_is_in_loop : ∀ h g x r, reachable h → denotes h g x r →
  ∃ b, is_node_in_loop h g x = Ok b ∧ node_is_in_loop h r = Ok b ∧ (b = true ↔ on_cycle h g r).
Proof. exact C17_is_in_loop_proof. Qed.
Print Assumptions C17_is_in_loop.

(** C17.  is_in_loop_with: each node can be reached from the other. *)
Theorem C17_is_in_loop_with : ∀ h g x y r1 r2, reachable h → denotes h g x r1 → denotes h g y r2 →
  ∃ b, are_nodes_in_same_loop h g x y = Ok b ∧ node_in_loop_with h r1 y = Ok b ∧
    (b = true ↔ path h g r1 r2 ∧ path h g r2 r1).
Proof. exact C17_is_in_loop_with_proof. Qed.
Print Assumptions C17_is_in_loop_with.

(** C17.  is_in_loop_with is symmetric and transitive. *)
Theorem C17_equivalence : ∀ h g x y z r1 r2 r3, reachable h → denotes h g x r1 → denotes h g y r2 → denotes h g z r3 →
  are_nodes_in_same_loop h g x y = are_nodes_in_same_loop h g y x ∧
  (are_nodes_in_same_loop h g x y = Ok true → are_nodes_in_same_loop h g y z = Ok true → are_nodes_in_same_loop h g x z = Ok true).
Proof. exact C17_equivalence_proof. Qed.
Print Assumptions C17_equivalence.

(** C17.  An edge is in a loop iff a path leads from its end back to its start. *)
Theorem C17_edge : ∀ h g e x y, reachable h → joins h g e x y →
  ∃ b, edge_is_in_loop h e = Ok b ∧ (b = true ↔ path0 h g y x).
Proof. exact C17_edge_proof. Qed.
Print Assumptions C17_edge.

(** C17.  loop_nodes: the nodes on cycles, in node order. *)
Theorem C17_loop_nodes : ∀ h g G, reachable h → h_graphs h !! g = Some G →
  ∃ l, loop_nodes h g = Ok l ∧ l `sublist_of` (g_nodes G).*2 ∧ NoDup l ∧ ∀ x, x ∈ l ↔ on_cycle h g x.
Proof. exact C17_loop_nodes_proof. Qed.
Print Assumptions C17_loop_nodes.

(** In the sample b and c are on a cycle; the edge c->b is on it, a->b is not. *)
Example C17_loops_ex : reachable sample ∧ joins sample 0 2 2 1 ∧ edge_is_in_loop sample 2 = Ok true ∧
  joins sample 0 0 0 1 ∧ edge_is_in_loop sample 0 = Ok false ∧ loop_nodes sample 0 = Ok [1; 2] ∧
  are_nodes_in_same_loop sample 0 (an "b") (ANode 2) = Ok true.
Proof. exact C17_loops_ex_proof. Qed.
Print Assumptions C17_loops_ex.

(** C20.  leaves and absolute_roots. *)
Theorem C20_leaves : ∀ h g G, reachable h → h_graphs h !! g = Some G →
  (∃ l, leaves h g = Ok l ∧ l `sublist_of` (g_nodes G).*2 ∧ NoDup l ∧
     ∀ x, x ∈ l ↔ in_graph h g x ∧ ¬ ∃ y, adj h g x y) ∧
  (∃ l, absolute_roots h g = Ok l ∧ l `sublist_of` (g_nodes G).*2 ∧ NoDup l ∧
     ∀ x, x ∈ l ↔ in_graph h g x ∧ ¬ ∃ y, adj h g y x).
Proof. exact C20_leaves_proof. Qed.
Print Assumptions C20_leaves.

(** The isolated node d of the sample is both; a is a source only. *)
Example C20_leaves_ex : reachable sample ∧ leaves sample 0 = Ok [3] ∧ absolute_roots sample 0 = Ok [0; 3].
Proof. exact C20_leaves_ex_proof. Qed.
Print Assumptions C20_leaves_ex.

(** C18.  roots: a sublist of the nodes; every node is reached from a root; no
    root reaches another; every source is a root; it is as small as possible. *)
Theorem C18_roots : ∀ h g G, reachable h → h_graphs h !! g = Some G →
  ∃ rs, roots h g = Ok rs ∧ rs `sublist_of` (g_nodes G).*2 ∧ NoDup rs ∧
    (∀ x, in_graph h g x → x ∈ rs ∨ ∃ r, r ∈ rs ∧ r ≠ x ∧ path h g r x) ∧
    (∀ r r', r ∈ rs → r' ∈ rs → path h g r r' → r' = r) ∧
    (∀ x, in_graph h g x → (¬ ∃ s, adj h g s x) → x ∈ rs) ∧
    (∀ S, (∀ x, in_graph h g x → ∃ s, s ∈ S ∧ path0 h g s x) → length rs ≤ length S).
Proof. exact C18_roots_proof. Qed.
Print Assumptions C18_roots.

(** C18.  On an acyclic graph roots is absolute_roots. *)
Theorem C18_acyclic : ∀ h g G, reachable h → h_graphs h !! g = Some G → acyclic h g →
  roots h g = absolute_roots h g.
Proof. exact C18_acyclic_proof. Qed.
Print Assumptions C18_acyclic.

(** In the sample the root a covers the cycle; graph 1 is acyclic. *)
Example C18_roots_ex : reachable sample ∧ roots sample 0 = Ok [0; 3] ∧ acyclic sample 1 ∧ roots sample 1 = Ok [4].
Proof. exact C18_roots_ex_proof. Qed.
Print Assumptions C18_roots_ex.
