(** What style and colour overwrites do. *)
From Verif Require Export SpecMore.
Local Open Scope string_scope.

(** The last value that [d] has for the key [k] (a Python dictionary has at most one),
    and the last one that is not None. *)
Definition entry (d : sdict) (k : string) : option pv := last (omap (λ kv, if decide (kv.1 = k) then Some kv.2 else None) d).
Definition some_entry (d : sdict) (k : string) : option pv :=
  last (omap (λ kv, if decide (kv.1 = k) then match kv.2 with PNone => None | v => Some v end else None) d).
(** A colour attribute was [o] and is [o'] after the entries of [d] for [k]. *)
Definition colour_set (d : sdict) (k : string) (o o' : option colour) : Prop :=
  match some_entry d k with None => o' = o | Some v => ∃ c, to_colour v = Ok c ∧ o' = Some c end.
(** [s'] is the style [s] with the entries of [d]. *)
Record applied (d : sdict) (s s' : nstyle) : Prop := {
  ap_opacity : ns_opacity s' = default (ns_opacity s) (entry d "opacity");
  ap_font : ns_font s' = default (ns_font s) (entry d "font");
  ap_text_size : ns_text_size s' = default (ns_text_size s) (entry d "text_size");
  ap_shape : ns_shape s' = default (ns_shape s) (entry d "shape");
  ap_shape_style : ns_shape_style s' = default (ns_shape_style s) (entry d "shape_style");
  ap_colour : match entry d "colour" with None => ns_colour s' = ns_colour s | Some v => to_colour v = Ok (ns_colour s') end;
  ap_fill : colour_set d "fill_colour" (ns_fill s) (ns_fill s');
  ap_border : colour_set d "border_colour" (ns_border s) (ns_border s');
  ap_text : colour_set d "text_colour" (ns_text s) (ns_text s')
}.

(** The default stylist, and no style for all nodes or for all edges. *)
Definition pensieve_only (D : display) : Prop := d_stylist D = PStr "pensieve" ∧ d_gnode D = None ∧ d_gedge D = None.
(** Only node_styles are given besides; only node_colours. *)
Definition node_styles_only (D : display) : Prop := pensieve_only D ∧ d_edge_styles D = [] ∧ d_node_colours D = [] ∧ d_edge_colours D = [].
Definition node_colours_only (D : display) : Prop := pensieve_only D ∧ d_edge_styles D = [] ∧ d_node_styles D = [] ∧ d_edge_colours D = [].

(** The style object of the node named [n] of [g]. *)
Definition style_ref (h : heap) (g : gref) (n : name) : option sref :=
  G ← h_graphs h !! g; r ← dget (g_nodes G) n; N ← h_nodes h !! r; n_style N.
(** All entries given for nodes that have the style object [k], in order. *)
Definition entries_for (h : heap) (g : gref) (kvs : dict name sdict) (k : sref) : sdict :=
  kvs ≫= λ nd, if decide (style_ref h g nd.1 = Some k) then nd.2 else [].
(** No two nodes have the same style object. *)
Definition unshared (h : heap) : Prop := ∀ r1 r2 N1 N2 k, h_nodes h !! r1 = Some N1 → h_nodes h !! r2 = Some N2 →
  n_style N1 = Some k → n_style N2 = Some k → r1 = r2.
(** The stylist 'random' and no overwriting. *)
Definition random_styling (D : display) : Prop :=
  d_stylist D = PStr "random" ∧ d_gnode D = None ∧ d_gedge D = None ∧ d_node_styles D = [] ∧ d_edge_styles D = [] ∧ d_node_colours D = [] ∧ d_edge_colours D = [].

(** The first of the values that is not false in the sense of Python. *)
Fixpoint first_truthy (l : list pv) : pv := match l with [] => PNone | v :: l => if truthy v then v else first_truthy l end.
(** A colour attribute of a new style: as given in [d] for [k], otherwise [o]. *)
Definition colour_given (d : sdict) (k : string) (o o' : option colour) : Prop :=
  match some_entry d k with None => o' = o | Some v => ∃ c, to_colour v = Ok c ∧ o' = Some c end.
(** [s] is a new NodeStyle with the keyword arguments [d]: the main colour is the given
    one, or else the fill colour, the border colour or gray; colours that are not given
    are derived from it; the rest is as given or as by default. *)
Record made_of (d : sdict) (s : nstyle) : Prop := {
  mo_opacity : ns_opacity s = default PNone (entry d "opacity");
  mo_font : ns_font s = default (PStr "helvetica") (entry d "font");
  mo_text_size : ns_text_size s = default (PInt 10) (entry d "text_size");
  mo_shape : ns_shape s = default (PStr "box") (entry d "shape");
  mo_shape_style : ns_shape_style s = default (PStr "rounded, filled") (entry d "shape_style");
  mo_lighter : ns_lighter s = truthy (default (PInt 1) (entry d "lighter_fill"));
  mo_colour : to_colour (first_truthy [default (PCol (CHexa "#AAAAAA")) (entry d "colour"); default PNone (entry d "fill_colour");
                                       default PNone (entry d "border_colour"); PCol (CHexa "#AAAAAA")]) = Ok (ns_colour s);
  mo_fill : colour_given d "fill_colour" (Some ((if ns_lighter s then CLighten else CDarken) (ns_colour s) (1 # 2)%Q)) (ns_fill s);
  mo_border : colour_given d "border_colour" (Some ((if ns_lighter s then CDarken else CLighten) (ns_colour s) (1 # 6)%Q)) (ns_border s);
  mo_text : colour_given d "text_colour" (CGray <$> ns_fill s) (ns_text s)
}.
(** [s] is a new EdgeStyle with the keyword arguments [d]. *)
Record emade_of (d : sdict) (s : estyle) : Prop := {
  em_opacity : es_opacity s = default (PInt 1) (entry d "opacity");
  em_font : es_font s = default (PStr "helvetica") (entry d "font");
  em_text_size : es_text_size s = default (PInt 8) (entry d "text_size");
  em_arrow : es_arrow s = default (PFlt (1 # 2)) (entry d "arrow_size");
  em_label : es_label_style s = default (PStr "below") (entry d "label_style");
  em_width : es_line_width s = default (PInt 1) (entry d "line_width");
  em_colour : to_colour (first_truthy [default (PCol (CHexa "#AAAAAA")) (entry d "colour"); default PNone (entry d "text_colour"); PCol (CHexa "#AAAAAA")]) = Ok (es_colour s);
  em_text : colour_given d "text_colour" (Some (es_colour s)) (es_text s)
}.
(** [d'] is what the shape 'auto' makes of the style [d] for all nodes of [g]: a circle
    if all names have fewer than three characters, otherwise nothing. *)
Definition auto_shape (s : string) : Prop := String.prefix "auto" (smalls s) = true.
Definition short_names (h : heap) (g : gref) : Prop := ∀ n r, named h g n r → String.length (name_str n) < 3.
Definition shaped (h : heap) (g : gref) (d d' : sdict) : Prop :=
  (∃ s, entry d "shape" = Some (PStr s) ∧ auto_shape s ∧ short_names h g ∧ d'.*1 = d.*1 ∧ (∀ k, entry d' k = if decide (k = "shape") then Some (PStr "circle") else entry d k)) ∨
  (d' = d ∧ ∀ s, entry d "shape" = Some (PStr s) → auto_shape s → ¬ short_names h g).
(** Styles for all nodes or for all edges, with the default stylist, and no other
    overwrites. *)
Definition global_styles (D : display) : Prop :=
  d_stylist D = PStr "pensieve" ∧ d_node_styles D = [] ∧ d_edge_styles D = [] ∧ d_node_colours D = [] ∧ d_edge_colours D = [].
(** The edge style with main colour [c], also for the text, and the other attributes of
    [s], except that the label style is the default one. *)
Definition etinted (c : colour) (s : estyle) : estyle :=
  MkEStyle c (Some c) (Some true) (es_opacity s) (es_font s) (es_text_size s) (es_arrow s) (PStr "below") (es_line_width s) [].
(** Only edge_styles and edge_colours are given besides the default stylist. *)
Definition edge_overwrites_only (D : display) : Prop := pensieve_only D ∧ d_node_styles D = [] ∧ d_node_colours D = [].
