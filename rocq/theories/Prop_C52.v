(** Property theorems; the proofs are in ProofC52.v. *)
From Verif Require Import ProofC52.
Local Open Scope string_scope.
Local Open Scope list_scope.

(** C91.  The text of a node style is that of the style whose font, shape and shape style lack
    the double quotes around them, however many. *)
Theorem C91_quoted_partial : ∀ env h sty font shape shape_style, wraps (ns_font sty) font → wraps (ns_shape sty) shape → wraps (ns_shape_style sty) shape_style →
  ns_graphviz env h sty = ns_graphviz env h (sty <| ns_font := font |> <| ns_shape := shape |> <| ns_shape_style := shape_style |>).
Proof. exact C91_quoted_partial_proof. Qed.
Print Assumptions C91_quoted_partial.

(** C91.  The same for an edge style: its font and label style. *)
Theorem C91_edge_quoted_partial : ∀ env h sty font label_style, wraps (es_font sty) font → wraps (es_label_style sty) label_style →
  es_graphviz env h sty = es_graphviz env h (sty <| es_font := font |> <| es_label_style := label_style |>).
Proof. exact C91_edge_quoted_partial_proof. Qed.
Print Assumptions C91_edge_quoted_partial.

(** C91.  A font, shape or shape style without quotes and backslashes inside reads back from
    the text of the node style, without the quotes around it. *)
Theorem C91_read_partial : ∀ env h sty k p q m, plain m →
  (k, PStr (quotes p +:+ m +:+ quotes q)) ∈ [("fontname", ns_font sty); ("shape", ns_shape sty); ("style", ns_shape_style sty)] →
  item_read (ns_graphviz env h sty) k m.
Proof. exact C91_read_partial_proof. Qed.
Print Assumptions C91_read_partial.

(** C91.  The same for the font and the label style of an edge style. *)
Theorem C91_edge_read_partial : ∀ env h sty k p q m, plain m →
  (k, PStr (quotes p +:+ m +:+ quotes q)) ∈ [("fontname", es_font sty); ("lblstyle", es_label_style sty)] →
  item_read (es_graphviz env h sty) k m.
Proof. exact C91_edge_read_partial_proof. Qed.
Print Assumptions C91_edge_read_partial.

(** C91 refuted: a font with a quote inside is cut short there, and the text of a graph with a
    node of that style is no DOT text. *)
Theorem C91_inner_refuted : ∃ h s text, reachable h ∧ h_ns h !! 0 = Some s ∧ style_of h 0 s ∧ ns_font s = PStr ("a" +:+ Qt +:+ "b") ∧
  item_read (ns_graphviz env0 h s) "fontname" "a" ∧ graphviz_str env0 h 0 "TB" PNone PNone PNone = Ok text ∧ read_dot text = None.
Proof. exact C91_inner_refuted_proof. Qed.
Print Assumptions C91_inner_refuted.

(** A font that was given with quotes. *)
Example C91_read_ex : ∃ h s, reachable h ∧ h_ns h !! 0 = Some s ∧ ns_font s = PStr (quotes 1 +:+ "Arial" +:+ quotes 1) ∧ plain "Arial" ∧
  wraps (ns_font s) (PStr "Arial") ∧ item_read (ns_graphviz env0 h s) "fontname" "Arial".
Proof. exact C91_read_ex_proof. Qed.
Print Assumptions C91_read_ex.
