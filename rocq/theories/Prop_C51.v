(** Property theorems; the proofs are in ProofC51.v. *)
From Verif Require Import ProofC51.
Local Open Scope string_scope.
Local Open Scope list_scope.

(** C90.  from_lists: a node for each name in a row, an edge between two nodes exactly where
    there is a row for it, and walks of every length as the rows compose. *)
Theorem C90_rows : ∀ h d start end_ labels strict h' g', reachable h → from_lists d start end_ labels strict h = (h', Ok g') →
  (∀ a, has_name h' g' a ↔ ∃ b, row start end_ labels a b ∨ row start end_ labels b a) ∧
  (∀ a b, linked h' g' a b ↔ row start end_ labels a b) ∧
  (∀ n a b, 1 ≤ n → strides h' g' n a b ↔ nsteps (row start end_ labels) n a b).
Proof. exact C90_rows_proof. Qed.
Print Assumptions C90_rows.

(** C90.  If the rows are the edges of some graph, the graph that from_lists makes of them has
    the nodes that have an edge, and the same walks: so the same relatives, at the same distances,
    and cycles only if that graph has. *)
Theorem C90_rebuild : ∀ h g d start end_ labels strict h' g', reachable h → (∀ a b, row start end_ labels a b ↔ linked h g a b) →
  from_lists d start end_ labels strict h = (h', Ok g') →
  (∀ a, has_name h' g' a ↔ ∃ b, linked h g a b ∨ linked h g b a) ∧
  (∀ n a b, 1 ≤ n → strides h' g' n a b ↔ strides h g n a b) ∧ (acyclic h' g' ↔ acyclic h g).
Proof. exact C90_rebuild_proof. Qed.
Print Assumptions C90_rebuild.

(** C90.  Exporting graph.edges of any graph with string names as lists of the names of the
    starts and ends, and making a graph of them, whatever the labels: it succeeds, and gives the
    nodes that have an edge, the same walks, and one edge per edge. *)
Theorem C90_export : ∀ h g G d es start end_ labels strict, reachable h → h_graphs h !! g = Some G → graph_edges h g = Ok es →
  Forall2 (starts h g) es start → Forall2 (ends h g) es end_ → length labels = length es →
  ∃ h' g' es', from_lists d start end_ labels strict h = (h', Ok g') ∧ graph_edges h' g' = Ok es' ∧ length es' = length es ∧
    (∀ a, has_name h' g' a ↔ ∃ b, linked h g a b ∨ linked h g b a) ∧
    (∀ n a b, 1 ≤ n → strides h' g' n a b ↔ strides h g n a b) ∧ (acyclic h' g' ↔ acyclic h g).
Proof. exact C90_export_proof. Qed.
Print Assumptions C90_export.

(** The sample graph, with a loop, a cycle and parallel edges, can be exported. *)
Example C90_export_ex : reachable sample ∧ graph_edges sample 0 = Ok [0; 3; 1; 2; 4] ∧
  Forall2 (starts sample 0) [0; 3; 1; 2; 4] ["a"; "a"; "b"; "c"; "c"] ∧ Forall2 (ends sample 0) [0; 3; 1; 2; 4] ["b"; "b"; "c"; "b"; "c"] ∧
  (∀ a b, row ["a"; "a"; "b"; "c"; "c"] ["b"; "b"; "c"; "b"; "c"] (repeat PNone 5) a b ↔ linked sample 0 a b) ∧
  (∃ h', from_lists disp0 ["a"; "a"; "b"; "c"; "c"] ["b"; "b"; "c"; "b"; "c"] (repeat PNone 5) false sample = (h', Ok 2)).
Proof. exact C90_export_ex_proof. Qed.
Print Assumptions C90_export_ex.
