(** Property theorems; the proofs are in ProofC23.v. *)
From Verif Require Import ProofC23.
Local Open Scope list_scope.

(** C71.  With a style for all nodes, and possibly one for all edges, a successful call
    of stylize leaves every node with the style that NodeStyle makes of the given
    arguments, whatever the colour scheme; the shape 'auto' becomes 'circle' if all
    names have fewer than three characters. *)
Theorem C71_nodes_partial : ∀ h g G D sh h' d, reachable h → h_graphs h !! g = Some G → g_disp G = Some D → global_styles D → d_gnode D = Some d → NoDup d.*1 → entry d "colour" ≠ Some (PStr "") →
  stylize g sh h = (h', Ok tt) → ∃ d', shaped h g d d' ∧ ∀ r, in_graph h g r → ∃ s, made_of d' s ∧ style_of h' r s.
Proof. exact C71_nodes_partial_proof. Qed.
Print Assumptions C71_nodes_partial.

(** C71.  With a style for all edges, and possibly one for all nodes, a successful call
    of stylize leaves every edge with the style that EdgeStyle makes of the given
    arguments, whatever the colours of the nodes. *)
Theorem C71_edges_partial : ∀ h g G D sh h' d, reachable h → h_graphs h !! g = Some G → g_disp G = Some D → global_styles D → d_gedge D = Some d → NoDup d.*1 → entry d "colour" ≠ Some (PStr "") →
  stylize g sh h = (h', Ok tt) → ∀ e x y, joins h g e x y → ∃ s, emade_of d s ∧ edge_style_of h' e s.
Proof. exact C71_edges_partial_proof. Qed.
Print Assumptions C71_edges_partial.

(** C71.  If a style for all nodes is given, overwriting is not allowed and some node
    has a style already, e.g. from the last call, stylize does not succeed. *)
Theorem C71_raises_partial : ∀ h g G D sh h' d r, reachable h → h_graphs h !! g = Some G → g_disp G = Some D → global_styles D → d_gnode D = Some d → d_overwrite D = false →
  in_graph h g r → node_styled h r → stylize g sh h ≠ (h', Ok tt).
Proof. exact C71_raises_partial_proof. Qed.
Print Assumptions C71_raises_partial.

(** C71 refuted: a -> b with the scheme red, ... and the style shape = 'circle' for all
    nodes.  After stylize node a is gray, although without the style it is red. *)
Theorem C71_scheme_refuted : ∃ h G D h' s h2 h2' s2, reachable h ∧ h_graphs h !! 0 = Some G ∧ g_disp G = Some D ∧ global_styles D ∧ d_gnode D = Some [("shape"%string, PStr "circle")] ∧ d_gedge D = None ∧
  (∀ r, ¬ node_styled h r) ∧ stylize 0 id h = (h', Ok tt) ∧ style_of h' 0 s ∧ ns_shape s = PStr "circle" ∧ ns_colour s = CHexa "#AAAAAA" ∧
  h2 = h <| h_graphs := [G <| g_disp := Some (D <| d_gnode := None |>) |>] |> ∧ stylize 0 id h2 = (h2', Ok tt) ∧ style_of h2' 0 s2 ∧ ns_colour s2 = CName "red".
Proof. exact C71_scheme_refuted_proof. Qed.
Print Assumptions C71_scheme_refuted.

(** C71 refuted: with the shape 'auto' a graph with the node abc gets the shape 'auto',
    which Graphviz does not have. *)
Theorem C71_auto_refuted : ∃ h G D h' s, reachable h ∧ h_graphs h !! 0 = Some G ∧ g_disp G = Some D ∧ global_styles D ∧ d_gnode D = Some [("shape"%string, PStr "auto")] ∧
  named h 0 (nm "abc") 0 ∧ stylize 0 id h = (h', Ok tt) ∧ style_of h' 0 s ∧ ns_shape s = PStr "auto".
Proof. exact C71_auto_refuted_proof. Qed.
Print Assumptions C71_auto_refuted.

(** C71, an instance: a -> b with the shape 'Auto' and the colour blue for all nodes and
    the line width 7 for all edges; the styles come out so. *)
Example C71_ex : ∃ h G D d de h' s es, reachable h ∧ h_graphs h !! 0 = Some G ∧ g_disp G = Some D ∧ global_styles D ∧ d_gnode D = Some d ∧ d_gedge D = Some de ∧ NoDup d.*1 ∧ NoDup de.*1 ∧
  d = [("shape", PStr "Auto"); ("colour", PStr "blue")]%string ∧ de = [("line_width", PInt 7)]%string ∧ short_names h 0 ∧ joins h 0 0 0 1 ∧ stylize 0 id h = (h', Ok tt) ∧
  style_of h' 1 s ∧ ns_shape s = PStr "circle" ∧ ns_colour s = CName "blue" ∧ edge_style_of h' 0 es ∧ es_line_width es = PInt 7 ∧ es_colour es = CHexa "#AAAAAA".
Proof. exact C71_ex_proof. Qed.
Print Assumptions C71_ex.
