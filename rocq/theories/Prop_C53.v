(** Property theorems; the proofs are in ProofC53.v. *)
From Verif Require Import ProofC53.
Local Open Scope string_scope.
Local Open Scope list_scope.

(** C92.  is_similar_to is transitive (for reflexive and symmetric see C37). *)
Theorem C92_transitive : ∀ h g1 g2 g3 G1 G2 G3, reachable h → params_ok h → h_graphs h !! g1 = Some G1 → h_graphs h !! g2 = Some G2 → h_graphs h !! g3 = Some G3 →
  graph_similar h g1 g2 = Ok true → graph_similar h g2 g3 = Ok true → graph_similar h g1 g3 = Ok true.
Proof. exact C92_transitive_proof. Qed.
Print Assumptions C92_transitive.

(** C92.  Similar graphs have walks of the same lengths between the same names, so the same
    relatives at the same distances, and cycles only together. *)
Theorem C92_paths : ∀ h g1 g2 G1 G2, reachable h → params_ok h → h_graphs h !! g1 = Some G1 → h_graphs h !! g2 = Some G2 →
  graph_similar h g1 g2 = Ok true →
  (∀ n a b, 1 ≤ n → strides h g1 n a b ↔ strides h g2 n a b) ∧ (acyclic h g1 ↔ acyclic h g2).
Proof. exact C92_paths_proof. Qed.
Print Assumptions C92_paths.

(** C92.  A copy is similar to the graph, if no edge of it has a style. *)
Theorem C92_copy_partial : ∀ h g G h' g', reachable h → h_graphs h !! g = Some G → copy g h = (h', Ok g') → params_ok h' →
  (∀ e E, h_edges h !! e = Some E → e_graph E = Some g → e_style E = None) → graph_similar h' g g' = Ok true.
Proof. exact C92_copy_partial_proof. Qed.
Print Assumptions C92_copy_partial.

(** C92.  A copy is never similar to a graph that has an edge with a style: the copy has style
    objects of its own, and these are compared as objects. *)
Theorem C92_styled_copy_partial : ∀ h g G h' g' e E s, reachable h → h_graphs h !! g = Some G → copy g h = (h', Ok g') → params_ok h' →
  h_edges h !! e = Some E → e_graph E = Some g → e_style E = Some s → graph_similar h' g g' = Ok false.
Proof. exact C92_styled_copy_partial_proof. Qed.
Print Assumptions C92_styled_copy_partial.

(** C92 refuted for copies: a graph with one styled edge. *)
Theorem C92_copy_refuted : ∃ h g h' g', reachable h ∧ is_Some (h_graphs h !! g) ∧ copy g h = (h', Ok g') ∧ params_ok h' ∧ graph_similar h' g g' = Ok false.
Proof. exact C92_copy_refuted_proof. Qed.
Print Assumptions C92_copy_refuted.

(** The sample graph without styles, its copy and the copy of that meet the hypotheses. *)
Example C92_ex : ∃ h1 h2, reachable h2 ∧ copy 0 sample = (h1, Ok 2) ∧ copy 2 h1 = (h2, Ok 3) ∧ params_ok h2 ∧ graph_similar h2 0 2 = Ok true ∧ graph_similar h2 2 3 = Ok true ∧
  strides sample 0 2 (nm "a") (nm "c").
Proof. exact C92_ex_proof. Qed.
Print Assumptions C92_ex.
