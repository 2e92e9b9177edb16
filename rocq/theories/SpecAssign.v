(** Which values overwrites may have (properties C68, C69). *)
From Verif Require Export SpecObj SpecOver.
Local Open Scope string_scope.

(** A value that names a colour: a string or a Colour. *)
Definition colour_like (v : pv) : Prop := (∃ s, v = PStr s) ∨ (∃ c, v = PCol c).
(** An entry that a NodeStyle takes: a colour for a colour attribute (or None, except for the
    main one), anything for every other attribute.  Attributes starting with an underscore and
    the methods are left out. *)
Definition style_methods : list string :=
  ["complement"; "reset_colours"; "invert_colours"; "copy"; "get_graphviz_str"; "fill_colour_based_on_main_colour";
   "border_colour_based_on_main_colour"; "text_colour_based_on_main_colour"; "graphviz_dictionary"].
Definition style_entry (k : string) (v : pv) : Prop :=
  String.prefix "_" k = false ∧ k ∉ style_methods ∧ (is_colour_key k → colour_like v ∨ (v = PNone ∧ k ≠ "colour")).
(** The keyword arguments of an EdgeStyle. *)
Definition edge_argument (k : string) (v : pv) : Prop :=
  k ∈ edge_attr_names ∧ (is_colour_key k → colour_like v ∨ v = PNone).
(** The overwrites [D] fit what the graph [g] contains. *)
Record overwrites_fit (h : heap) (g : gref) (D : display) : Prop := {
  fit_node_styles : ∀ n d, (n, d) ∈ d_node_styles D → (∃ r, named h g n r ∧ node_styled h r) ∧ ∀ k v, (k, v) ∈ d → style_entry k v;
  fit_edge_styles : ∀ i d, (i, d) ∈ d_edge_styles D → (∃ e, has_id h g e i) ∧ ∀ k v, (k, v) ∈ d → edge_argument k v;
  fit_node_colours : ∀ n v, (n, v) ∈ d_node_colours D → (∃ r, named h g n r ∧ node_styled h r) ∧ colour_like v;
  fit_edge_colours : ∀ i o, (i, o) ∈ d_edge_colours D → (∃ e, has_id h g e i) ∧ ∃ v, o = OvColour v ∧ colour_like v;
  fit_allowed : d_edge_styles D ≠ [] ∨ d_node_colours D ≠ [] ∨ d_edge_colours D ≠ [] → d_overwrite D = true
}.
(** No edge has a style object that came from copying a graph (such a style cannot be copied
    again, C57). *)
Definition no_copied_styles (h : heap) : Prop := ∀ k s, h_es h !! k = Some s → es_text_based s ≠ None.
(** The keyword arguments of a NodeStyle that can also be assigned afterwards. *)
Definition node_argument (k : string) (v : pv) : Prop :=
  (k ∈ node_attr_names ∨ k = "lighter_fill") ∧ (is_colour_key k → colour_like v ∨ (v = PNone ∧ k ≠ "colour")).
(** The style for all nodes and the style for all edges fit the graph [g]: known arguments; the
    shape is a string, and an automatic shape needs a node; what has a style may get a new
    one.  Without a style for all edges the stylist needs to know the starts of the
    edges that have none (see C42). *)
Record global_fit (h : heap) (g : gref) (D : display) : Prop := {
  gf_node : ∀ d, d_gnode D = Some d → (∀ k v, (k, v) ∈ d → node_argument k v) ∧
    (∀ v, ("shape", v) ∈ d → ∃ s, v = PStr s ∧ (auto_shape s → ∃ r, in_graph h g r)) ∧
    (d_overwrite D = true ∨ ∀ r, in_graph h g r → ¬ node_styled h r);
  gf_edge : ∀ d, d_gedge D = Some d → (∀ k v, (k, v) ∈ d → edge_argument k v ∧ (k = "colour" → v ≠ PNone)) ∧
    (d_overwrite D = true ∨ ∀ e x y, joins h g e x y → ¬ edge_styled h e);
  gf_rest : d_gedge D = None → ∀ e x y E, joins h g e x y → h_edges h !! e = Some E → e_style E = None →
    (d_gnode D ≠ None ∨ node_styled h x ∨ rootlike h g x ∨ ¬ on_cycle h g x) ∧ numeric (e_value E)
}.
