(** Style objects as programs see them: who uses them, reading and assigning attributes
    (property C79). *)
From Verif Require Export Spec SpecStyle ModelObj.
Local Open Scope string_scope.

(** Node [r] (edge [e]) has the style object [s]. *)
Definition uses (h : heap) (r : nref) (s : sref) : Prop := ∃ N, h_nodes h !! r = Some N ∧ n_style N = Some s.
Definition edge_uses (h : heap) (e : eref) (s : sref) : Prop := ∃ E, h_edges h !! e = Some E ∧ e_style E = Some s.

(** The attributes of a style: what its properties give (colours), what is drawn (others). *)
Definition colour_value (o : option colour) : pv := match o with Some c => PCol c | None => PNone end.
Definition node_attrs (s : nstyle) : dict string pv :=
  [("colour", PCol (ns_colour s)); ("fill_colour", colour_value (ns_fill s)); ("border_colour", colour_value (ns_border s));
   ("text_colour", colour_value (ns_text s)); ("opacity", ns_opacity s); ("font", ns_font s);
   ("text_size", ns_text_size s); ("shape", ns_shape s); ("shape_style", ns_shape_style s)].
Definition edge_attrs (s : estyle) : dict string pv :=
  [("colour", PCol (es_colour s)); ("text_colour", colour_value (es_text s)); ("opacity", es_opacity s); ("font", es_font s);
   ("text_size", es_text_size s); ("arrow_size", es_arrow s); ("label_style", es_label_style s);
   ("line_width", es_line_width s)].
Definition node_attr_names : list string :=
  ["colour"; "fill_colour"; "border_colour"; "text_colour"; "opacity"; "font"; "text_size"; "shape"; "shape_style"].
Definition edge_attr_names : list string :=
  ["colour"; "text_colour"; "opacity"; "font"; "text_size"; "arrow_size"; "label_style"; "line_width"].

(** What is stored by [style.complement({k: v})], for colours also [style.k = v]: colour attributes take the name of a
    colour or a Colour object, the others anything. *)
Definition is_colour_key (k : string) : Prop := k ∈ ["colour"; "fill_colour"; "border_colour"; "text_colour"].
Inductive stores (k : string) : pv → pv → Prop :=
| stores_name s : is_colour_key k → stores k (PStr s) (PCol (CName s))
| stores_colour c : is_colour_key k → stores k (PCol c) (PCol c)
| stores_other v : ¬ is_colour_key k → stores k v v.

(** [h'] is [h] but for the node style object [s] (edge style object [s]). *)
Record only_nstyle (s : sref) (h h' : heap) : Prop := {
  on_nodes : h_nodes h' = h_nodes h; on_edges : h_edges h' = h_edges h; on_graphs : h_graphs h' = h_graphs h;
  on_es : h_es h' = h_es h; on_warns : h_warns h' = h_warns h; on_length : length (h_ns h') = length (h_ns h);
  on_ns : ∀ s', s' ≠ s → h_ns h' !! s' = h_ns h !! s' }.
Record only_estyle (s : sref) (h h' : heap) : Prop := {
  oe_nodes : h_nodes h' = h_nodes h; oe_edges : h_edges h' = h_edges h; oe_graphs : h_graphs h' = h_graphs h;
  oe_ns : h_ns h' = h_ns h; oe_warns : h_warns h' = h_warns h; oe_length : length (h_es h') = length (h_es h);
  oe_es : ∀ s', s' ≠ s → h_es h' !! s' = h_es h !! s' }.

(** An entry that can be assigned, with what is stored for it; assigning entries in order. *)
Definition stored_entry (names : list string) (kv kw : string * pv) : Prop :=
  kw.1 = kv.1 ∧ kv.1 ∈ names ∧ stores kv.1 kv.2 kw.2.
Definition set_all (a d : dict string pv) : dict string pv := fold_left (λ a kv, dset a kv.1 kv.2) d a.
