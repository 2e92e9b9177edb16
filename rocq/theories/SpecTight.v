(** Texts with escaped quotes, keyword arguments of styles, inverted styles: used by theorems
    of C22, C46, C58 and C79. *)
From Verif Require Export SpecObj SpecDot SpecOrder.
Local Open Scope string_scope.

(** [t] is [s] with a backslash put before each double quote. *)
Inductive escaped : string → string → Prop :=
| escaped_nil : escaped "" ""
| escaped_quote s t : escaped s t → escaped (String quote s) (String backslash (String quote t))
| escaped_other c s t : c ≠ quote → escaped s t → escaped (String c s) (String c t).

(** The keyword arguments that NodeStyle and EdgeStyle take. *)
Definition node_keywords : list string := "lighter_fill" :: node_attr_names.
Definition edge_keywords : list string := edge_attr_names.

(** The node style [t'] looks as [t] with inverted colours: what was derived from the main colour
    is derived from its inverse, the fill being the lighter colour; the rest stays. *)
Record inverted (t t' : nstyle) : Prop := {
  inv_colour : ns_colour t' = CInvert (ns_colour t);
  inv_fill : ns_fill t' = (if ns_fill_based t then Some (CLighten (CInvert (ns_colour t)) (1 # 2)) else CInvert <$> ns_fill t);
  inv_border : ns_border t' = (if ns_border_based t then Some (CDarken (CInvert (ns_colour t)) (1 # 6)) else CInvert <$> ns_border t);
  inv_text : ns_text t' = (if ns_text_based t then CGray <$> ns_fill t' else CInvert <$> ns_text t);
  inv_rest : (ns_opacity t', ns_font t', ns_text_size t', ns_shape t', ns_shape_style t') =
             (ns_opacity t, ns_font t, ns_text_size t, ns_shape t, ns_shape_style t) }.
(** The same for edge styles; [b]: the text colour is derived from the main colour.  The label
    style is the default one. *)
Record edge_inverted (b : bool) (t t' : estyle) : Prop := {
  einv_colour : es_colour t' = CInvert (es_colour t);
  einv_text : es_text t' = (if b then Some (CInvert (es_colour t)) else CInvert <$> es_text t);
  einv_rest : (es_opacity t', es_font t', es_text_size t', es_arrow t', es_line_width t', es_label_style t') =
              (es_opacity t, es_font t, es_text_size t, es_arrow t, es_line_width t, PStr "below") }.
