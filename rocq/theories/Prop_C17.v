(** Property theorems; the proofs are in ProofC17.v. *)
From Verif Require Import ProofC17.
Local Open Scope string_scope.
Local Open Scope list_scope.

(** C66.  The header: opening, graph attributes (none, or one line), background, padding,
    ordering, size, direction.  What is written about the ordering is the negation of
    what the graph was created with. *)
Theorem C66_header_partial : ∀ env h g G D dir height width pad s, h_graphs h !! g = Some G → g_disp G = Some D →
  graphviz_header env h g dir height width pad = Ok s →
  ∃ attrs, (attrs = "" ∨ ∃ t, attrs = line (" graph [" +:+ t +:+ " ];")) ∧
    s = header_text (g_strict G) (negb (g_ordering G)) attrs (pe_hexadecimal env (d_background D)) (pad_text env h pad)
          (used_direction D dir) (size_lines env h height width).
Proof. exact C66_header_partial_proof. Qed.
Print Assumptions C66_header_partial.

(** C66.  A graph created with ordering=True gets no ordering statement, one created with
    ordering=False gets it. *)
Theorem C66_ordering_refuted : ∃ h g1 g2 G1 G2, reachable h ∧ h_graphs h !! g1 = Some G1 ∧ h_graphs h !! g2 = Some G2 ∧
  g_ordering G1 = true ∧ g_ordering G2 = false ∧
  (∃ s, graphviz_header env0 h g1 "" PNone PNone PNone = Ok s ∧ ¬ mentions "ordering" s) ∧
  (∃ s, graphviz_header env0 h g2 "" PNone PNone PNone = Ok s ∧ mentions "ordering=out" s).
Proof. exact C66_ordering_refuted_proof. Qed.
Print Assumptions C66_ordering_refuted.

(** C65.  render(path=...) leaves the same state as render() and returns the same text, or
    raises the same exception; the text it saves is the returned one with the size lines
    inserted (the same text if neither height nor width is given). *)
Theorem C65_save : ∀ env h g save dir height width pad shuffle,
  (render_save env g save dir height width pad shuffle h).1 = (render env g dir pad shuffle h).1 ∧
  match (render env g dir pad shuffle h).2 with
  | Err x => (render_save env g save dir height width pad shuffle h).2 = Err x
  | Ok t => ∃ o, (render_save env g save dir height width pad shuffle h).2 = Ok (o, t) ∧
      if save then ∃ s, o = Some s ∧ inserted (size_lines env (render env g dir pad shuffle h).1 height width) t s else o = None
  end.
Proof. exact C65_save_proof. Qed.
Print Assumptions C65_save.

(** Saving graph 1 of the sample with a height. *)
Example C65_ex : ∃ s t, (render_save env0 1 true "" (PInt 5) PNone PNone (λ l, l) sample).2 = Ok (Some s, t) ∧
  (render env0 1 "" PNone (λ l, l) sample).2 = Ok t ∧ mentions "size=" s ∧ ¬ mentions "size=" t.
Proof. exact C65_ex_proof. Qed.
Print Assumptions C65_ex.

(** C63.  Assigning node.raw_id changes only the name that the node reports: the graph
    keeps it under the old name; it is not found under the new one, and passing the node
    itself fails too, unless the graph has another node of the new name (which is then
    taken instead). *)
Theorem C63_node_partial : ∀ h g r N n, reachable h → h_nodes h !! r = Some N → n_graph N = Some g → n ≠ n_id N →
  let h' := renamed h r N n in
  node_set_raw_id r n h = (h', Ok tt) ∧ get_node h' g (AName (n_id N)) = Ok r ∧
  match get_node h g (AName n) with
  | Ok r2 => get_node h' g (AName n) = Ok r2 ∧ get_node h' g (ANode r) = Ok r2 ∧ r2 ≠ r
  | Err _ => get_node h' g (AName n) = Err KeyError ∧ get_node h' g (ANode r) = Err KeyError ∧
             node_children h' r = Err KeyError ∧ node_parents h' r = Err KeyError
  end.
Proof. exact C63_node_partial_proof. Qed.
Print Assumptions C63_node_partial.

(** C63.  So renaming a node by raw_id loses it. *)
Theorem C63_node_refuted : ∃ h g r n, reachable h ∧ in_graph h g r ∧ get_node h g (AName n) = Err KeyError ∧
  (node_set_raw_id r n h).2 = Ok tt ∧ get_node (node_set_raw_id r n h).1 g (AName n) = Err KeyError ∧
  node_children (node_set_raw_id r n h).1 r = Err KeyError.
Proof. exact C63_node_refuted_proof. Qed.
Print Assumptions C63_node_refuted.

(** C63.  After edge.raw_id = u for an id that the two nodes do not have yet, the edge is
    still listed under the old id, and disconnect and remove_self raise KeyError and
    change nothing. *)
Theorem C63_edge_partial : ∀ h g e i E u, reachable h → has_id h g e i → h_edges h !! e = Some E →
  (∀ e', ¬ has_id h g e' (i.1, RId u)) →
  let h' := reraw h e E u in
  edge_set_raw_id e u h = (h', Ok tt) ∧ get_edge_id h' e = Ok (i.1, RId u) ∧
  (∃ x N, e_start E = Some x ∧ h_nodes h' !! x = Some N ∧ (i, e) ∈ n_out N) ∧
  disconnect e h' = (h', Err KeyError) ∧ remove_self e h' = (h', Err KeyError).
Proof. exact C63_edge_partial_proof. Qed.
Print Assumptions C63_edge_partial.

(** C63.  Giving an edge the id of another edge between the same nodes and removing it
    unlists the other edge instead. *)
Theorem C63_edge_refuted : ∃ h g e1 e2 u h' es, reachable h ∧ e1 ≠ e2 ∧ (∃ x y, joins h g e1 x y ∧ joins h g e2 x y) ∧
  h' = (remove_self e1 (edge_set_raw_id e1 u h).1).1 ∧ (remove_self e1 (edge_set_raw_id e1 u h).1).2 = Ok tt ∧
  get_outward_edges h' g (an "a") = Ok es ∧ e1 ∈ es ∧ e2 ∉ es ∧ (∃ x y, joins h' g e2 x y) ∧ graph_edges h' g = Err ValueError.
Proof. exact C63_edge_refuted_proof. Qed.
Print Assumptions C63_edge_refuted.
