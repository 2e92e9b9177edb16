(** Property theorems; the proofs are in ProofC36.v. *)
From Verif Require Import ProofC36.
Local Open Scope list_scope.

(** C80.  Without templates and with the default ratios the direct calls do what
    stylize does for a graph with the default stylist, or with the stylist 'random',
    and no overwrites: the same state and the same result, whatever the state. *)
Theorem C80_default_partial : ∀ h g G D sh, h_graphs h !! g = Some G → g_disp G = Some D →
  (default_styling D → pensieve_main None None (1 # 20) (1 # 20) (1 # 10) g h = stylize g sh h) ∧
  (random_styling D → random_main None None (1 # 10) g sh h = stylize g sh h).
Proof. exact C80_default_partial_proof. Qed.
Print Assumptions C80_default_partial.

(** C80.  stylize_with_pensieve called with any templates (or none) and any ratios, if it
    succeeds: only objects of the graph without style get one; the nodes that have one
    afterwards are those that had one, the roots, those with all parents on cycles, and
    those on no cycle; the i-th root without style gets the i-th colour of the scheme
    in turn, with the colours derived from it and the other attributes of the
    template.  Missing: the colours of the branches (C80_branches_partial), and that
    lighter_fill and label_style are taken from the template, which is false
    (C80_lighter_refuted, C80_label_refuted). *)
Theorem C80_roots_partial : ∀ h g G D main tmpl pale div dark h' ns, reachable h → h_graphs h !! g = Some G → g_disp G = Some D → fine_node main → fine_edge tmpl →
  pensieve_main main tmpl pale div dark g h = (h', Ok tt) → nodes h g = Ok ns →
  styles_added g h h' ∧ (∀ r, in_graph h g r → node_styled h' r ↔ node_styled h r ∨ rootlike h g r ∨ ¬ on_cycle h g r) ∧
  ∃ rs, rs `sublist_of` ns ∧ (∀ r, r ∈ rs ↔ in_graph h g r ∧ ¬ node_styled h r ∧ rootlike h g r) ∧
    ∀ i r, rs !! i = Some r → ∃ c, distinct (d_scheme D) !! (i mod length (distinct (d_scheme D))) = Some c ∧ style_of h' r (node_made main c).
Proof. exact C80_roots_partial_proof. Qed.
Print Assumptions C80_roots_partial.

(** C80.  With a template for nodes, a node that had no style, is no root, has a parent on
    no cycle and is on no cycle itself gets the template's attributes; its colour comes
    from the template's colour by the rule of [template_colour]. *)
Theorem C80_branches_partial : ∀ h g G D t tmpl pale div dark h' r, reachable h → h_graphs h !! g = Some G → g_disp G = Some D → comparable h g → coloured t → fine_edge tmpl →
  pensieve_main (Some t) tmpl pale div dark g h = (h', Ok tt) → in_graph h g r → ¬ node_styled h r → ¬ rootlike h g r → ¬ on_cycle h g r →
  ∃ c, style_of h' r (tinted c t) ∧ template_colour h g (ns_colour t) pale div r c.
Proof. exact C80_branches_partial_proof. Qed.
Print Assumptions C80_branches_partial.

(** C80.  The i-th edge (in the order of graph.edges) of those that had no style gets the
    template's opacity, font, text size and line width, the colour of its start darkened
    by the given ratio, and as arrow size the template's times the product of its own
    value and those of the edges before it that had no style (None counts as one). *)
Theorem C80_edges_partial : ∀ h g G D main tmpl pale div dark h' es, reachable h → h_graphs h !! g = Some G → g_disp G = Some D → fine_node main → fine_edge tmpl →
  pensieve_main main tmpl pale div dark g h = (h', Ok tt) → graph_edges h g = Ok es →
  ∀ i e, unstyled_edges h es !! i = Some e → ∃ x y s a, joins h g e x y ∧ style_of h' x s ∧
    edge_style_of h' e (edge_made tmpl (CDarken (ns_colour s) dark) a) ∧ is_number a ∧
    (factor a == factor (first_arrow tmpl) * product (factor <$> take (Datatypes.S i) (values_of h (unstyled_edges h es))))%Q.
Proof. exact C80_edges_partial_proof. Qed.
Print Assumptions C80_edges_partial.

(** C80.  It succeeds exactly if the start of every edge without style has a style, or is a
    root, or has only parents on cycles, or is on no cycle, and the values of these
    edges are None or numbers (for a non-empty colour scheme and comparable nodes);
    templates and ratios do not matter. *)
Theorem C80_succeeds_partial : ∀ h g G D main tmpl pale div dark, reachable h → h_graphs h !! g = Some G → g_disp G = Some D → fine_node main → fine_edge tmpl → d_scheme D ≠ [] → comparable h g →
  (pensieve_main main tmpl pale div dark g h).2 = Ok tt ↔
  (∀ e x y E, joins h g e x y → h_edges h !! e = Some E → e_style E = None → (node_styled h x ∨ rootlike h g x ∨ ¬ on_cycle h g x) ∧ numeric (e_value E)).
Proof. exact C80_succeeds_partial_proof. Qed.
Print Assumptions C80_succeeds_partial.

(** C80.  stylize_randomly called with any templates (or none) and any darkness, for a
    non-empty scheme, if it succeeds: the i-th node in the shuffled order has the i-th
    colour of the scheme, in turn, and the template's attributes; every edge that had no
    style has the template's attributes and the colour of its start darkened by the
    ratio; the styles of the other edges are unchanged.  It succeeds if no node has a
    style or overwriting is allowed, and the values of the unstyled edges are None or
    numbers. *)
Theorem C80_random_partial : ∀ h g G D main tmpl dark sh ns, reachable h → h_graphs h !! g = Some G → g_disp G = Some D → fine_node main → fine_edge tmpl → (∀ l, sh l ≡ₚ l) → d_scheme D ≠ [] →
  nodes h g = Ok ns →
  (∀ h', random_main main tmpl dark g sh h = (h', Ok tt) →
    (∀ i r, sh ns !! i = Some r → ∃ c, distinct (d_scheme D) !! (i mod length (distinct (d_scheme D))) = Some c ∧ style_of h' r (node_made main c)) ∧
    (∀ e x y, joins h g e x y → ¬ edge_styled h e → ∃ s a, style_of h' x s ∧ edge_style_of h' e (edge_made tmpl (CDarken (ns_colour s) dark) a)) ∧
    (∀ e s, edge_style_of h e s → edge_style_of h' e s)) ∧
  (d_overwrite D = true ∨ (∀ r, in_graph h g r → ¬ node_styled h r) →
    (∀ e x y E, joins h g e x y → h_edges h !! e = Some E → e_style E = None → numeric (e_value E)) → ∃ h', random_main main tmpl dark g sh h = (h', Ok tt)).
Proof. exact C80_random_partial_proof. Qed.
Print Assumptions C80_random_partial.

(** C80 refuted: a -> b with the green template.  The root a is red, the first colour of the
    scheme; b gets the hue of green, not that of its parent, turned. *)
Theorem C80_hue_refuted : ∃ h G D t h' sp s, reachable h ∧ h_graphs h !! 0 = Some G ∧ g_disp G = Some D ∧ comparable h 0 ∧ nstyle_ctor [("colour", PStr "green")]%string = Ok t ∧
  pensieve_main (Some t) None (1 # 20) (1 # 20) (1 # 10) 0 h = (h', Ok tt) ∧ node_parents h' 1 = Ok [0] ∧ ¬ node_styled h 1 ∧ style_of h' 0 sp ∧ style_of h' 1 s ∧
  (∀ q, ns_colour s ≠ CSat (CHue (ns_colour sp) q)) ∧ (∃ q, ns_colour s = CSat (CHue (ns_colour t) q)).
Proof. exact C80_hue_refuted_proof. Qed.
Print Assumptions C80_hue_refuted.

(** C80 refuted: the template has lighter_fill off, the style of the root made from it
    has it on. *)
Theorem C80_lighter_refuted : ∃ h G D t h' s, reachable h ∧ h_graphs h !! 0 = Some G ∧ g_disp G = Some D ∧ nstyle_ctor [("lighter_fill", PInt 0)]%string = Ok t ∧ ns_lighter t = false ∧
  pensieve_main (Some t) None (1 # 20) (1 # 20) (1 # 10) 0 h = (h', Ok tt) ∧ ¬ node_styled h 0 ∧ style_of h' 0 s ∧ ns_lighter s = true.
Proof. exact C80_lighter_refuted_proof. Qed.
Print Assumptions C80_lighter_refuted.

(** C80 refuted: the template for edges has label_style 'above', the style made from it
    'below'. *)
Theorem C80_label_refuted : ∃ h G D t h' s, reachable h ∧ h_graphs h !! 0 = Some G ∧ g_disp G = Some D ∧ estyle_ctor [("label_style", PStr "above")]%string = Ok t ∧ es_label_style t = PStr "above" ∧
  pensieve_main None (Some t) (1 # 20) (1 # 20) (1 # 10) 0 h = (h', Ok tt) ∧ ¬ edge_styled h 0 ∧ edge_style_of h' 0 s ∧ es_label_style s = PStr "below".
Proof. exact C80_label_refuted_proof. Qed.
Print Assumptions C80_label_refuted.

(** The diamond a -> b, a -> c, b -> d, c -> d with a template of shape ellipse for the
    nodes and of line width 3 and arrow size 2 for the edges: all hypotheses hold; a is
    red, b has the hue of the template turned, d the paled mixture; every edge has width
    3 and arrow size 2. *)
Example C80_ex : ∃ h G D t te h', reachable h ∧ h_graphs h !! 0 = Some G ∧ g_disp G = Some D ∧ comparable h 0 ∧ d_scheme D ≠ [] ∧
  nstyle_ctor [("colour", PStr "green"); ("shape", PStr "ellipse")]%string = Ok t ∧ estyle_ctor [("line_width", PInt 3); ("arrow_size", PInt 2)]%string = Ok te ∧
  fine_node (Some t) ∧ fine_edge (Some te) ∧ pensieve_main (Some t) (Some te) (1 # 5) (1 # 10) (1 # 2) 0 h = (h', Ok tt) ∧
  ¬ node_styled h 1 ∧ ¬ rootlike h 0 1 ∧ ¬ on_cycle h 0 1 ∧
  style_of h' 0 (tinted (CName "red") t) ∧ (∃ q, style_of h' 1 (tinted (CSat (CHue (ns_colour t) q)) t) ∧ (q == - (1 # 10))%Q) ∧
  (∃ q1 q2, style_of h' 3 (tinted (CPale (mix [CSat (CHue (ns_colour t) q1); CSat (CHue (ns_colour t) q2)]) (1 # 5)) t) ∧ (q1 == 0)%Q ∧ (q2 == 0)%Q) ∧
  edge_style_of h' 0 (templated_edge te (CDarken (CName "red") (1 # 2)) (PInt 2)) ∧
  random_main (Some t) (Some te) (1 # 2) 0 id h ≠ (h, Ok tt).
Proof. exact C80_ex_proof. Qed.
Print Assumptions C80_ex.
