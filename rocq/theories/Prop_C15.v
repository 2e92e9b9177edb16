(** Property theorems; the proofs are in ProofC15.v. *)
From Verif Require Import ProofC15.
Local Open Scope list_scope.

(** C42.  For a reachable graph with a non-empty colour scheme, the default stylist
    and no overwriting, whose nodes can be compared (see C54): if the start of every
    edge without style has a style, or is a root, or has only parents on cycles, or
    is on no cycle, and the values of these edges are None or numbers, then stylize
    succeeds.  Missing: the other graphs, on which it raises (C42_fails_partial). *)
Theorem C42_succeeds_partial : ∀ h g G D sh, reachable h → h_graphs h !! g = Some G → g_disp G = Some D → default_styling D → d_scheme D ≠ [] → comparable h g →
  (∀ e x y E, joins h g e x y → h_edges h !! e = Some E → e_style E = None →
     (node_styled h x ∨ rootlike h g x ∨ ¬ on_cycle h g x) ∧ numeric (e_value E)) →
  ∃ h', stylize g sh h = (h', Ok tt).
Proof. exact C42_succeeds_partial_proof. Qed.
Print Assumptions C42_succeeds_partial.

(** C42.  If some edge without style fails this condition, and no value is a Colour
    object, stylize raises AttributeError or TypeError. *)
Theorem C42_fails_partial : ∀ h g G D sh, reachable h → h_graphs h !! g = Some G → g_disp G = Some D → default_styling D → d_scheme D ≠ [] → comparable h g →
  (∀ e E c, h_edges h !! e = Some E → e_value E ≠ PCol c) →
  (∃ e x y E, joins h g e x y ∧ h_edges h !! e = Some E ∧ e_style E = None ∧
     ¬ ((node_styled h x ∨ rootlike h g x ∨ ¬ on_cycle h g x) ∧ numeric (e_value E))) →
  ∃ h' x, stylize g sh h = (h', Err x) ∧ (x = AttributeError ∨ x = TypeError).
Proof. exact C42_fails_partial_proof. Qed.
Print Assumptions C42_fails_partial.

(** C42.  When it succeeds, every edge of the graph has a style, and so has every node
    that had one, is a root, has only parents on cycles, or is on no cycle; exactly
    these have one.  Only styles of objects of the graph that had none are added. *)
Theorem C42_effect_partial : ∀ h g G D sh h', reachable h → h_graphs h !! g = Some G → g_disp G = Some D → default_styling D → stylize g sh h = (h', Ok tt) →
  styles_added g h h' ∧ (∀ e x y, joins h g e x y → edge_styled h' e) ∧
  (∀ r, in_graph h g r → node_styled h' r ↔ node_styled h r ∨ rootlike h g r ∨ ¬ on_cycle h g r).
Proof. exact C42_effect_partial_proof. Qed.
Print Assumptions C42_effect_partial.

(** C42.  In a graph without cycles whose edge values are None or numbers it succeeds,
    and every node and edge has a style. *)
Theorem C42_acyclic_partial : ∀ h g G D sh, reachable h → h_graphs h !! g = Some G → g_disp G = Some D → default_styling D → d_scheme D ≠ [] → comparable h g →
  acyclic h g → (∀ e x y E, joins h g e x y → h_edges h !! e = Some E → numeric (e_value E)) →
  ∃ h', stylize g sh h = (h', Ok tt) ∧ (∀ r, in_graph h' g r → node_styled h' r) ∧ (∀ e x y, joins h' g e x y → edge_styled h' e).
Proof. exact C42_acyclic_partial_proof. Qed.
Print Assumptions C42_acyclic_partial.

(** C42 refuted: a -> b, b -> c, c -> b.  Node b is on a cycle and has the parent a that
    is not, so it gets no style, and the edge from b fails. *)
Theorem C42_loop_refuted : ∃ h G D, reachable h ∧ h_graphs h !! 0 = Some G ∧ g_disp G = Some D ∧ default_styling D ∧ d_scheme D ≠ [] ∧ comparable h 0 ∧
  (∀ e E, h_edges h !! e = Some E → e_value E = PNone) ∧ ∀ sh, (stylize 0 sh h).2 = Err AttributeError.
Proof. exact C42_loop_refuted_proof. Qed.
Print Assumptions C42_loop_refuted.

(** The diamond a -> b -> d, a -> c -> d: four node styles and four edge styles. *)
Example C42_ex : ∃ h G D h', reachable h ∧ h_graphs h !! 0 = Some G ∧ g_disp G = Some D ∧ default_styling D ∧ d_scheme D ≠ [] ∧ comparable h 0 ∧ acyclic h 0 ∧
  (∀ e E, h_edges h !! e = Some E → e_value E = PNone) ∧ stylize 0 id h = (h', Ok tt) ∧ length (h_ns h') = 4 ∧ length (h_es h') = 4.
Proof. exact C42_ex_proof. Qed.
Print Assumptions C42_ex.

(** C45.  After a successful call the i-th edge (in the order of graph.edges) of those
    that had no style has the default edge style, with the colour of its start a tenth
    darker, and arrow size one half times the product of the values of this edge and
    of the edges before it that had no style (None counts as one).  Missing: its own
    value only, which is false of the code (C45_own_value_refuted). *)
Theorem C45_arrow_partial : ∀ h g G D sh h' es, reachable h → h_graphs h !! g = Some G → g_disp G = Some D → default_styling D → stylize g sh h = (h', Ok tt) →
  graph_edges h g = Ok es → ∀ i e, unstyled_edges h es !! i = Some e → ∃ x y s a,
    joins h g e x y ∧ style_of h' x s ∧ edge_style_of h' e (standard_edge (CDarken (ns_colour s) (1 # 10)%Q) a) ∧ (a == (1 # 2) * product (factor <$> take (Datatypes.S i) (values_of h (unstyled_edges h es))))%Q.
Proof. exact C45_arrow_partial_proof. Qed.
Print Assumptions C45_arrow_partial.

(** C45 refuted: in the graph with edges a -> b of value 2 and a -> c of value 3, the
    second edge has arrow size 3, not 3/2. *)
Theorem C45_own_value_refuted : ∃ h G D h' e E s a, reachable h ∧ h_graphs h !! 0 = Some G ∧ g_disp G = Some D ∧ default_styling D ∧
  stylize 0 id h = (h', Ok tt) ∧ h_edges h !! e = Some E ∧ e_style E = None ∧ numeric (e_value E) ∧ edge_style_of h' e s ∧ es_arrow s = PFlt a ∧
  ¬ (a == (1 # 2) * factor (e_value E))%Q.
Proof. exact C45_own_value_refuted_proof. Qed.
Print Assumptions C45_own_value_refuted.

(** The same graph, with a third edge b -> c without value: the sizes are 1, 3 and 3. *)
Example C45_arrow_ex : ∃ h G D h' es, reachable h ∧ h_graphs h !! 0 = Some G ∧ g_disp G = Some D ∧ default_styling D ∧ stylize 0 id h = (h', Ok tt) ∧
  graph_edges h 0 = Ok es ∧ unstyled_edges h es = es ∧ length es = 3 ∧ es_arrow <$> h_es h' = [PFlt (2 # 2)%Q; PFlt (6 # 2)%Q; PFlt (6 # 2)%Q].
Proof. exact C45_arrow_ex_proof. Qed.
Print Assumptions C45_arrow_ex.

(** C55.  With the default stylist and no overwriting, calling stylize again succeeds and
    changes nothing.  Missing: display options that overwrite styles, for which it is
    false (C55_dict_refuted, C55_random_refuted). *)
Theorem C55_default_partial : ∀ h g G D sh sh' h', reachable h → h_graphs h !! g = Some G → g_disp G = Some D → default_styling D →
  stylize g sh h = (h', Ok tt) → stylize g sh' h' = (h', Ok tt).
Proof. exact C55_default_partial_proof. Qed.
Print Assumptions C55_default_partial.

(** C55 refuted: Graph(node_style={'shape': 'circle'}) with one node raises RuntimeError the second time. *)
Theorem C55_dict_refuted : ∃ h h', reachable h ∧ (∃ G D, h_graphs h !! 0 = Some G ∧ g_disp G = Some D ∧ d_stylist D = PStr "pensieve"%string ∧ length (g_nodes G) = 1) ∧
  stylize 0 id h = (h', Ok tt) ∧ (stylize 0 id h').2 = Err RuntimeError.
Proof. exact C55_dict_refuted_proof. Qed.
Print Assumptions C55_dict_refuted.

(** C55 refuted: with stylist 'random' and one node it raises RuntimeError the second time, whatever the shuffle. *)
Theorem C55_random_refuted : ∃ h h', reachable h ∧ (∃ G D, h_graphs h !! 0 = Some G ∧ g_disp G = Some D ∧ d_stylist D = PStr "random"%string ∧ d_gnode D = None ∧ d_gedge D = None ∧ length (g_nodes G) = 1) ∧
  stylize 0 id h = (h', Ok tt) ∧ (stylize 0 id h').2 = Err RuntimeError.
Proof. exact C55_random_refuted_proof. Qed.
Print Assumptions C55_random_refuted.

(** A graph with the cycle a -> b -> a and a child c of b. *)
Example C55_default_ex : ∃ h G D h', reachable h ∧ h_graphs h !! 0 = Some G ∧ g_disp G = Some D ∧ default_styling D ∧ stylize 0 id h = (h', Ok tt) ∧
  on_cycle h 0 0 ∧ length (h_ns h') = 3 ∧ length (h_es h') = 3.
Proof. exact C55_default_ex_proof. Qed.
Print Assumptions C55_default_ex.

(** C59.  After a successful call of the default stylist, the nodes that had no style and
    of which every parent (if any) is on a cycle have the default node style with the
    colours of the scheme in turn, in node order. *)
Theorem C59_roots : ∀ h g G D sh h' ns, reachable h → h_graphs h !! g = Some G → g_disp G = Some D → default_styling D → stylize g sh h = (h', Ok tt) →
  nodes h g = Ok ns → ∃ rs, rs `sublist_of` ns ∧ (∀ r, r ∈ rs ↔ r ∈ ns ∧ ¬ node_styled h r ∧ rootlike h g r) ∧
  ∀ i r, rs !! i = Some r → ∃ c, distinct (d_scheme D) !! (i mod length (distinct (d_scheme D))) = Some c ∧ style_of h' r (standard_node c).
Proof. exact C59_roots_proof. Qed.
Print Assumptions C59_roots.

(** Three roots a, b, d (c is a child of a) and the scheme red, blue. *)
Example C59_roots_ex : ∃ h G D h', reachable h ∧ h_graphs h !! 0 = Some G ∧ g_disp G = Some D ∧ default_styling D ∧ stylize 0 id h = (h', Ok tt) ∧
  d_scheme D = [CName "red"; CName "blue"] ∧ nodes h 0 = Ok [0; 1; 2; 3] ∧ style_of h' 0 (standard_node (CName "red")) ∧
  style_of h' 1 (standard_node (CName "blue")) ∧ style_of h' 3 (standard_node (CName "red")).
Proof. exact C59_roots_ex_proof. Qed.
Print Assumptions C59_roots_ex.

(** C60.  After a successful call of the default stylist every edge that had no style has
    the default edge style with the colour of its start node (the one it has now), a
    tenth darker (for the arrow size see C45_arrow_partial); and styles that were there
    before are unchanged. *)
Theorem C60_edges : ∀ h g G D sh h', reachable h → h_graphs h !! g = Some G → g_disp G = Some D → default_styling D → stylize g sh h = (h', Ok tt) →
  (∀ e x y, joins h g e x y → ¬ edge_styled h e → ∃ s a, style_of h' x s ∧ edge_style_of h' e (standard_edge (CDarken (ns_colour s) (1 # 10)%Q) a)) ∧
  (∀ r s, style_of h r s → style_of h' r s) ∧ (∀ e s, edge_style_of h e s → edge_style_of h' e s).
Proof. exact C60_edges_proof. Qed.
Print Assumptions C60_edges.

(** The edge a -> b in a graph in which b was given a style when it was added. *)
Example C60_edges_ex : ∃ h G D h', reachable h ∧ h_graphs h !! 0 = Some G ∧ g_disp G = Some D ∧ default_styling D ∧ stylize 0 id h = (h', Ok tt) ∧
  joins h 0 0 0 1 ∧ ¬ edge_styled h 0 ∧ node_styled h 1 ∧ ¬ node_styled h 0 ∧ edge_style_of h' 0 (standard_edge (CDarken (CName "red") (1 # 10)%Q) (1 # 2)%Q).
Proof. exact C60_edges_ex_proof. Qed.
Print Assumptions C60_edges_ex.
