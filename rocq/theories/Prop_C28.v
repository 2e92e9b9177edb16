(** Property theorems; the proofs are in ProofC28.v. *)
From Verif Require Import ProofC28.
Local Open Scope string_scope.

(** C75: the text of a graph is DOT text, and reading it gives the graph: whether it is strict,
    the attributes of the graph, one node statement for each node in the order of the
    nodes, with its name, label, tooltip and style, and one edge statement for each
    edge in the order of the edges, with the names of its ends, its label, tooltip and
    style; nothing else.  The texts are free of quotes and backslashes (see harmless). *)
Theorem C75_read : ∀ env h g G D dir height width pad, reachable h → h_graphs h !! g = Some G → g_disp G = Some D →
  harmless env h g G D dir height width pad →
  ∃ text ns es nds eds, graphviz_str env h g dir height width pad = Ok text ∧
  read_dot text = Some (g_strict G, Drawing (graph_attrs env h G D dir height width pad) nds eds) ∧
  NoDup ns ∧ (∀ r, r ∈ ns ↔ in_graph h g r) ∧ NoDup es ∧ (∀ e, e ∈ es ↔ ∃ x y, joins h g e x y) ∧ nodes h g = Ok ns ∧ graph_edges h g = Ok es ∧
  Forall2 (λ r d, ∃ N, h_nodes h !! r = Some N ∧ d = node_drawn env h N) ns nds ∧
  Forall2 (λ e d, ∃ x y E X Y, joins h g e x y ∧ h_edges h !! e = Some E ∧ h_nodes h !! x = Some X ∧ h_nodes h !! y = Some Y ∧ d = edge_drawn env h E X Y) es eds.
Proof. exact C75_read_proof. Qed.
Print Assumptions C75_read.

(** C75: two graphs with the same text are both strict or both not, and have the same names
    of nodes and of the ends of edges, in the same order. *)
Theorem C75_same : ∀ env h g G D dir he wi pad h' g' G' D' dir' he' wi' pad' text ns es ns' es',
  reachable h → h_graphs h !! g = Some G → g_disp G = Some D → harmless env h g G D dir he wi pad →
  reachable h' → h_graphs h' !! g' = Some G' → g_disp G' = Some D' → harmless env h' g' G' D' dir' he' wi' pad' →
  graphviz_str env h g dir he wi pad = Ok text → graphviz_str env h' g' dir' he' wi' pad' = Ok text →
  nodes h g = Ok ns → graph_edges h g = Ok es → nodes h' g' = Ok ns' → graph_edges h' g' = Ok es' →
  g_strict G = g_strict G' ∧
  Forall2 (λ r r', ∃ N N', h_nodes h !! r = Some N ∧ h_nodes h' !! r' = Some N' ∧ name_str (n_id N) = name_str (n_id N')) ns ns' ∧
  Forall2 (λ e e', ∃ x y X Y x' y' X' Y', joins h g e x y ∧ joins h' g' e' x' y' ∧ h_nodes h !! x = Some X ∧ h_nodes h !! y = Some Y ∧
    h_nodes h' !! x' = Some X' ∧ h_nodes h' !! y' = Some Y' ∧ name_str (n_id X) = name_str (n_id X') ∧ name_str (n_id Y) = name_str (n_id Y')) es es'.
Proof. exact C75_same_proof. Qed.
Print Assumptions C75_same.

(** The sample of three nodes and two edges satisfies the conditions; here is what its
    text says. *)
Example C75_ex : ∃ G D text, reachable dot_sample ∧ h_graphs dot_sample !! 0 = Some G ∧ g_disp G = Some D ∧
  harmless env0 dot_sample 0 G D "lr" PNone (PInt 3) PNone ∧ graphviz_str env0 dot_sample 0 "lr" PNone (PInt 3) PNone = Ok text ∧
  read_dot text = Some (true, Drawing (graph_attrs env0 dot_sample G D "lr" PNone (PInt 3) PNone)
    [("a", [("label", "a")]); ("b", [("label", "B")]); ("c", [("label", "c")])] [("a", "b", [("label", "ab")]); ("b", "c", [])]) ∧
  ("size", "3!") ∈ graph_attrs env0 dot_sample G D "lr" PNone (PInt 3) PNone ∧ ("rankdir", "LR") ∈ graph_attrs env0 dot_sample G D "lr" PNone (PInt 3) PNone.
Proof. exact C75_ex_proof. Qed.
Print Assumptions C75_ex.
