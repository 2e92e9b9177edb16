(** Property theorems; the proofs are in ProofC21.v. *)
From Verif Require Import ProofC21.
Local Open Scope list_scope.

(** C69.  Unless style_overwrite_allowed was given, the default stylist and any entry
    in the overwrites of edge styles, node colours or edge colours never go together:
    stylize does not succeed. *)
Theorem C69_never_partial : ∀ h g G D sh h', reachable h → h_graphs h !! g = Some G → g_disp G = Some D → pensieve_only D → d_overwrite D = false →
  d_edge_styles D ≠ [] ∨ d_node_colours D ≠ [] ∨ d_edge_colours D ≠ [] → stylize g sh h ≠ (h', Ok tt).
Proof. exact C69_never_partial_proof. Qed.
Print Assumptions C69_never_partial.

(** C69.  With overwriting allowed and only node colours given, a successful call of
    stylize does what the default stylist does; then each named node has the given
    colour, with fill, border and text colours derived from it, and the other attributes
    it got from the stylist or had before; all other nodes have the same style as without
    the overwrites, and so have the edges, also those that start at a named node. *)
Theorem C69_node_colours_partial : ∀ h g G D sh h', reachable h → h_graphs h !! g = Some G → g_disp G = Some D → node_colours_only D → NoDup (d_node_colours D).*1 →
  stylize g sh h = (h', Ok tt) → ∃ h1, stylize_with_pensieve g (d_scheme D) h = (h1, Ok tt) ∧
  (∀ n v r, (n, v) ∈ d_node_colours D → named h g n r → ∃ s c, style_of h1 r s ∧ to_colour v = Ok c ∧ style_of h' r (tinted c s)) ∧
  (∀ r s, (∀ n v, (n, v) ∈ d_node_colours D → ¬ named h g n r) → style_of h1 r s → style_of h' r s) ∧
  (∀ e s, edge_style_of h' e s ↔ edge_style_of h1 e s).
Proof. exact C69_node_colours_partial_proof. Qed.
Print Assumptions C69_node_colours_partial.

(** C69 refuted: a -> b, appended with the colour green for node a.  stylize raises
    RuntimeError although nothing had a style before. *)
Theorem C69_node_colour_refuted : ∃ h G D h', reachable h ∧ h_graphs h !! 0 = Some G ∧ g_disp G = Some D ∧ node_colours_only D ∧ d_overwrite D = false ∧ (∀ r, ¬ node_styled h r) ∧
  d_node_colours D = [(nm "a", PStr "green")] ∧ named h 0 (nm "a") 0 ∧ stylize 0 id h = (h', Err RuntimeError).
Proof. exact C69_node_colour_refuted_proof. Qed.
Print Assumptions C69_node_colour_refuted.

(** C69 refuted, with overwriting allowed: a becomes green, but the edge from a to b has
    the shade of red that it had without the overwrite. *)
Theorem C69_edge_shade_refuted : ∃ h G D h' s es, reachable h ∧ h_graphs h !! 0 = Some G ∧ g_disp G = Some D ∧ node_colours_only D ∧ NoDup (d_node_colours D).*1 ∧ d_overwrite D = true ∧
  d_node_colours D = [(nm "a", PStr "green")] ∧ named h 0 (nm "a") 0 ∧ stylize 0 id h = (h', Ok tt) ∧ joins h' 0 0 0 1 ∧ style_of h' 0 s ∧ ns_colour s = CName "green" ∧
  edge_style_of h' 0 es ∧ es_colour es = CDarken (CName "red") (1 # 10).
Proof. exact C69_edge_shade_refuted_proof. Qed.
Print Assumptions C69_edge_shade_refuted.
