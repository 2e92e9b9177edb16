(** Property theorems; the proofs are in ProofC24.v. *)
From Verif Require Import ProofC24.
Local Open Scope list_scope.

(** C72.  node.outward_edges lists the edges that start in the node, node.inward_edges
    those that end there, node.edges both; each edge once. *)
Theorem C72_lists : ∀ h g r, reachable h → in_graph h g r → ∃ os js es, outward_edges h r = Ok os ∧ inward_edges h r = Ok js ∧ node_edges h r = Ok es ∧ NoDup os ∧ NoDup js ∧ NoDup es ∧
  (∀ e, e ∈ os ↔ ∃ y, joins h g e r y) ∧ (∀ e, e ∈ js ↔ ∃ y, joins h g e y r) ∧ (∀ e, e ∈ es ↔ ∃ y, joins h g e r y ∨ joins h g e y r).
Proof. exact C72_lists_proof. Qed.
Print Assumptions C72_lists.

(** C72.  graph.get_edges lists first the edges that start in the node, then those that
    end there; so an edge is listed twice exactly if it is a loop from the node to
    itself.  Missing: that each edge is listed once (C72_loops_refuted). *)
Theorem C72_get_edges_partial : ∀ h g x r, reachable h → denotes h g x r → ∃ os js, outward_edges h r = Ok os ∧ inward_edges h r = Ok js ∧ get_edges h g x = Ok (os ++ js) ∧
  get_outward_edges h g x = Ok os ∧ get_inward_edges h g x = Ok js ∧ ∀ e, e ∈ os ∧ e ∈ js ↔ joins h g e r r.
Proof. exact C72_get_edges_partial_proof. Qed.
Print Assumptions C72_get_edges_partial.

(** C72 refuted for graph.get_edges: with one loop from a to a it lists the loop twice. *)
Theorem C72_loops_refuted : ∃ h e, reachable h ∧ denotes h 0 (AName (nm "a")) 0 ∧ joins h 0 e 0 0 ∧ node_edges h 0 = Ok [e] ∧ get_edges h 0 (AName (nm "a")) = Ok [e; e].
Proof. exact C72_loops_refuted_proof. Qed.
Print Assumptions C72_loops_refuted.

(** C72.  node.outward_edge_ids are the ids of node.outward_edges in the same order, all
    different; get_outward_edge finds exactly these edges by their ids and raises
    KeyError for other ids; num_outward_edges counts them. *)
Theorem C72_outward_ids : ∀ h g r, reachable h → in_graph h g r → ∃ os ids, outward_edges h r = Ok os ∧ outward_edge_ids h r = Ok ids ∧ NoDup ids ∧ Forall2 (edge_ident h) os ids ∧
  num_outward_edges h r = Ok (length os) ∧ (∀ i e, get_outward_edge h r i = Ok e ↔ e ∈ os ∧ edge_ident h e i) ∧ (∀ i, i ∉ ids → get_outward_edge h r i = Err KeyError).
Proof. exact C72_outward_ids_proof. Qed.
Print Assumptions C72_outward_ids.

(** C72.  The same for node.inward_edge_ids and get_inward_edge. *)
Theorem C72_inward_ids : ∀ h g r, reachable h → in_graph h g r → ∃ js ids, inward_edges h r = Ok js ∧ inward_edge_ids h r = Ok ids ∧ NoDup ids ∧ Forall2 (edge_ident h) js ids ∧
  (∀ i e, get_inward_edge h r i = Ok e ↔ e ∈ js ∧ edge_ident h e i) ∧ (∀ i, i ∉ ids → get_inward_edge h r i = Err KeyError).
Proof. exact C72_inward_ids_proof. Qed.
Print Assumptions C72_inward_ids.

(** C72, concretely: the node b of the sample has the edges a -> b twice, b -> c and
    c -> b, the node c a loop. *)
Example C72_ex : reachable sample ∧ in_graph sample 0 1 ∧ denotes sample 0 (an "b") 1 ∧ in_graph sample 0 2 ∧ outward_edges sample 1 = Ok [1] ∧ inward_edges sample 1 = Ok [0; 2; 3] ∧ node_edges sample 2 = Ok [2; 4; 1] ∧
  get_edges sample 0 (an "b") = Ok [1; 0; 2; 3] ∧ (∃ ids, inward_edge_ids sample 1 = Ok ids ∧ map (λ i, (i.1.1, i.1.2)) ids = [(nm "a", nm "b"); (nm "c", nm "b"); (nm "a", nm "b")]).
Proof. exact C72_ex_proof. Qed.
Print Assumptions C72_ex.
