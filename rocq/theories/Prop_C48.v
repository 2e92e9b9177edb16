(** Property theorems; the proofs are in ProofC48.v. *)
From Verif Require Import ProofC48.
Local Open Scope string_scope.
Local Open Scope list_scope.

(** C87.  Node(graph, name) and Edge(graph, start, end, id) called with a new name, or with an
    id that the two nodes of the graph do not have yet, keep everything consistent. *)
Theorem C87_fresh_partial : ∀ h, reachable h →
  (∀ g G n a i, h_graphs h !! g = Some G → n ∉ (g_nodes G).*1 → style_exists (length (h_ns h)) (a_style a) → consistent (node_ctor g n a i h).1) ∧
  (∀ g s t Ns Nt a, h_nodes h !! s = Some Ns → h_nodes h !! t = Some Nt → n_graph Ns = Some g → n_graph Nt = Some g →
    (∀ e E, h_edges h !! e = Some E → e_raw E = RId (c_id a) → ¬ joins h g e s t) → style_exists (length (h_es h)) (c_style a) →
    consistent (edge_ctor g s t a h).1).
Proof. exact C87_fresh_partial_proof. Qed.
Print Assumptions C87_fresh_partial.

(** C87.  Node(graph, name) with the name of a node [r] of the graph does not raise: a new
    node without edges takes the place of [r] in the graph. *)
Theorem C87_node : ∀ h g G n r a i, reachable h → h_graphs h !! g = Some G → (n, r) ∈ g_nodes G →
  node_ctor g n a i h =
  match restyled nstyle_ctor (length (h_ns h)) None (a_style a) with
  | Err x => (h, Err x)
  | Ok (st, l) =>
    (h <| h_nodes := h_nodes h ++ [MkNode (Some g) n (a_value a) (a_label a) (a_tooltip a) st false (a_params a) [] [] i] |>
       <| h_graphs := <[g := G <| g_nodes := refiled (g_nodes G) n (length (h_nodes h)) |>]> (h_graphs h) |>
       <| h_ns := h_ns h ++ l |>, Ok (length (h_nodes h)))
  end.
Proof. exact C87_node_proof. Qed.
Print Assumptions C87_node.

(** C87.  Then [r] is no longer in the graph, but still says that it is and keeps its edges;
    so the graph is inconsistent, whatever the graph is. *)
Theorem C87_node_breaks : ∀ h g n r a i h' r', reachable h → named h g n r → node_ctor g n a i h = (h', Ok r') →
  named h' g n r' ∧ ¬ in_graph h' g r ∧ h_nodes h' !! r = h_nodes h !! r ∧ (∀ g' e x y, joins h' g' e x y ↔ joins h g' e x y) ∧ ¬ consistent h'.
Proof. exact C87_node_breaks_proof. Qed.
Print Assumptions C87_node_breaks.

(** C87.  Edge(graph, start, end, id) with the id of an edge [e0] between the two nodes does
    not raise: a new edge takes the place of [e0] at both ends. *)
Theorem C87_edge : ∀ h g s t Ns Nt a e0 E0, reachable h → h_nodes h !! s = Some Ns → h_nodes h !! t = Some Nt →
  joins h g e0 s t → h_edges h !! e0 = Some E0 → e_raw E0 = RId (c_id a) →
  edge_ctor g s t a h =
  match restyled estyle_ctor (length (h_es h)) None (c_style a) with
  | Err x => (h, Err x)
  | Ok (st, l) =>
    (h <| h_nodes := imap (with_same_id s t (n_id Ns, n_id Nt, RId (c_id a)) (length (h_edges h))) (h_nodes h) |>
       <| h_edges := h_edges h ++ [MkEdge (Some g) (RId (c_id a)) (c_value a) (c_label a) (c_tooltip a) st false (c_params a) (Some s) (Some t)] |>
       <| h_es := h_es h ++ l |>, Ok (length (h_edges h)))
  end.
Proof. exact C87_edge_proof. Qed.
Print Assumptions C87_edge.

(** C87.  Then [e0] is listed at none of its ends any more, but still says that it is an edge
    of the graph between them; so the graph is inconsistent, whatever the graph is. *)
Theorem C87_edge_breaks : ∀ h g s t a e0 E0 h' e, reachable h → joins h g e0 s t → h_edges h !! e0 = Some E0 → e_raw E0 = RId (c_id a) →
  edge_ctor g s t a h = (h', Ok e) →
  listed h' e ∧ joins h' g e s t ∧ ¬ listed h' e0 ∧ joins h' g e0 s t ∧ ¬ consistent h'.
Proof. exact C87_edge_breaks_proof. Qed.
Print Assumptions C87_edge_breaks.

(** C87.  Removing [e0], which the program may still hold, then takes the new edge out of the
    graph: afterwards no node lists it, but it says that it joins its ends. *)
Theorem C87_stale : ∀ h g s t a e0 E0 h' e, reachable h → joins h g e0 s t → h_edges h !! e0 = Some E0 → e_raw E0 = RId (c_id a) →
  edge_ctor g s t a h = (h', Ok e) →
  ∃ h2, remove_self e0 h' = (h2, Ok tt) ∧ ¬ listed h2 e ∧ joins h2 g e s t.
Proof. exact C87_stale_proof. Qed.
Print Assumptions C87_stale.

(** C87.  Edge(graph, start, end) does not test that its ends are nodes of the graph: with a
    start or an end of another graph, or of none, the result is inconsistent. *)
Theorem C87_foreign : ∀ h g s t Ns Nt a h' e, reachable h → h_nodes h !! s = Some Ns → h_nodes h !! t = Some Nt →
  n_graph Ns ≠ Some g ∨ n_graph Nt ≠ Some g → edge_ctor g s t a h = (h', Ok e) → joins h' g e s t ∧ ¬ consistent h'.
Proof. exact C87_foreign_proof. Qed.
Print Assumptions C87_foreign.

(** C87.  remove_outward_edge (remove_inward_edge) of an edge the node lists does not raise and
    leaves the edge at its other end. *)
Theorem C87_half_removed : ∀ h r N i e, reachable h → h_nodes h !! r = Some N →
  ((i, e) ∈ n_out N → ∃ h', remove_outward r i h = (h', Ok tt) ∧ ¬ consistent h') ∧
  ((i, e) ∈ n_in N → ∃ h', remove_inward r i h = (h', Ok tt) ∧ ¬ consistent h').
Proof. exact C87_half_removed_proof. Qed.
Print Assumptions C87_half_removed.

(** C87.  append_outward_edge (append_inward_edge) of an edge of a graph at a node that is not
    its start (end) does not raise and makes the graph inconsistent. *)
Theorem C87_half_appended : ∀ h r N g e s t, reachable h → h_nodes h !! r = Some N → joins h g e s t →
  (r ≠ s → ∃ h', append_outward r e h = (h', Ok tt) ∧ ¬ consistent h') ∧ (r ≠ t → ∃ h', append_inward r e h = (h', Ok tt) ∧ ¬ consistent h').
Proof. exact C87_half_appended_proof. Qed.
Print Assumptions C87_half_appended.

(** C87 refuted: after Node(graph, 'b') for the existing name b the edge of a leads to a node
    that is not in the graph. *)
Theorem C87_node_refuted : ∃ h g n r a i h' r', reachable h ∧ named h g n r ∧ node_ctor g n a i h = (h', Ok r') ∧ ¬ consistent h' ∧
  (∃ e x, in_graph h' g x ∧ joins h' g e x r ∧ ¬ in_graph h' g r).
Proof. exact C87_node_refuted_proof. Qed.
Print Assumptions C87_node_refuted.

(** C87 refuted: a second Edge between a and b makes the graph inconsistent. *)
Theorem C87_edge_refuted : ∃ h g e0 s t h' e, reachable h ∧ joins h g e0 s t ∧ edge_ctor g s t eargs0 h = (h', Ok e) ∧ ¬ consistent h' ∧ listed h e0 ∧ ¬ listed h' e0.
Proof. exact C87_edge_refuted_proof. Qed.
Print Assumptions C87_edge_refuted.

(** Node a of the first sample graph and node z of the second can be joined. *)
Example C87_foreign_ex : reachable sample ∧ (∃ N, h_nodes sample !! 5 = Some N ∧ n_graph N ≠ Some 0) ∧ (edge_ctor 0 0 5 eargs0 sample).2 = Ok 7 ∧
  (∃ N i, h_nodes sample !! 0 = Some N ∧ (i, 0) ∈ n_out N) ∧ joins sample 0 0 0 1.
Proof. exact C87_foreign_ex_proof. Qed.
Print Assumptions C87_foreign_ex.
