(** Property theorems; the proofs are in ProofC12.v. *)
From Verif Require Import ProofC12.
Local Open Scope list_scope.

(** C37, what True means: is_similar_to returns True exactly for graphs with the
    same names, edge ids and flags, whose nodes and edges have equal values and
    parameters and the same style objects. *)
Theorem C37_true_partial : ∀ h g1 g2 G1 G2, reachable h → params_ok h → h_graphs h !! g1 = Some G1 → h_graphs h !! g2 = Some G2 →
  graph_similar h g1 g2 = Ok true ↔ similar h g1 g2.
Proof. exact C37_true_partial_proof. Qed.
Print Assumptions C37_true_partial.

(** C37: every graph is similar to itself. *)
Theorem C37_reflexive_partial : ∀ h g G, reachable h → params_ok h → h_graphs h !! g = Some G → graph_similar h g g = Ok true.
Proof. exact C37_reflexive_partial_proof. Qed.
Print Assumptions C37_reflexive_partial.

(** C37: True in one direction is True in the other. *)
Theorem C37_symmetric_partial : ∀ h g1 g2 G1 G2, reachable h → params_ok h → h_graphs h !! g1 = Some G1 → h_graphs h !! g2 = Some G2 →
  graph_similar h g1 g2 = Ok true → graph_similar h g2 g1 = Ok true.
Proof. exact C37_symmetric_partial_proof. Qed.
Print Assumptions C37_symmetric_partial.

(** C37: whatever the graphs, the answer is True, False or a KeyError. *)
Theorem C37_outcomes_partial : ∀ h g1 g2 G1 G2, reachable h → params_ok h → h_graphs h !! g1 = Some G1 → h_graphs h !! g2 = Some G2 →
  (∃ b, graph_similar h g1 g2 = Ok b) ∨ graph_similar h g1 g2 = Err KeyError.
Proof. exact C37_outcomes_partial_proof. Qed.
Print Assumptions C37_outcomes_partial.

(** C37: there is no KeyError if the names and the edge ids of the first graph occur
    in the second, or if the numbers of nodes differ. *)
Theorem C37_total_partial : ∀ h g1 g2 G1 G2, reachable h → params_ok h → h_graphs h !! g1 = Some G1 → h_graphs h !! g2 = Some G2 →
  length (g_nodes G1) ≠ length (g_nodes G2) ∨
  ((∀ k r, named h g1 k r → ∃ r', named h g2 k r') ∧ ∀ i e, has_id h g1 e i → ∃ e', has_id h g2 e' i) → ∃ b, graph_similar h g1 g2 = Ok b.
Proof. exact C37_total_partial_proof. Qed.
Print Assumptions C37_total_partial.

(** C37 refuted: two graphs with one node each, of different names. *)
Theorem C37_similar_refuted : ∃ h g1 g2, reachable h ∧ params_ok h ∧ graph_similar h g1 g2 = Err KeyError.
Proof. exact C37_similar_refuted_proof. Qed.
Print Assumptions C37_similar_refuted.

(** What is_similar_to says about them. *)
Example C37_similar_ex : reachable similar_heap ∧ params_ok similar_heap ∧ length (h_graphs similar_heap) = 3 ∧
  graph_similar similar_heap 0 1 = Ok true ∧ graph_similar similar_heap 0 2 = Ok false.
Proof. exact C37_similar_ex_proof. Qed.
Print Assumptions C37_similar_ex.
