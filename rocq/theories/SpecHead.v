(** The attribute line of the header of a DOT text. *)
From Verif Require Export SpecMore.
Local Open Scope string_scope.
Local Open Scope list_scope.

(** [s] between double quotes. *)
Definition in_quotes (s : string) : string := Qt +:+ s +:+ Qt.
(** [l] is an HTML label: it starts with < and ends with >. *)
Definition html_like (l : string) : Prop := ∃ m, l = "<" +:+ m +:+ ">".
(** The label with a background: a table with one cell. *)
Definition label_table (background label : string) : string :=
  "<table border=" +:+ in_quotes "0" +:+ " cellborder=" +:+ in_quotes "0" +:+ "><tr><td bgcolor=" +:+ in_quotes background +:+
  " title=" +:+ in_quotes label +:+ ">" +:+ label +:+ " </td></tr></table>".
(** The location starts with the letter [c]. *)
Definition located (D : display) (c : ascii) : Prop := ∃ s, d_label_location D = PStr (String c s).
(** The text that stands for the label of the graph: an HTML label as it is; else in
    quotes; with a background, a table, with a line end after it at the top and before it elsewhere. *)
Inductive label_written (env : penv) (h : heap) (D : display) : string → Prop :=
  | written_html l : d_label D = PStr l → html_like l → label_written env h D l
  | written_text l : d_label D = PStr l → ¬ html_like l → d_label_bg D = PNone → label_written env h D (in_quotes l)
  | written_top l : d_label D = PStr l → ¬ html_like l → d_label_bg D ≠ PNone → located D "t" →
      label_written env h D ("<" +:+ label_table (pv_str env h (d_label_bg D)) l +:+ NL +:+ ">")
  | written_other l c : d_label D = PStr l → ¬ html_like l → d_label_bg D ≠ PNone → located D c → c ≠ "t"%char →
      label_written env h D ("<" +:+ NL +:+ label_table (pv_str env h (d_label_bg D)) l +:+ ">").
(** [Some] unless the option is None. *)
Definition if_given {A} (v : pv) (x : A) : option A := match v with PNone => None | _ => Some x end.
(** The attributes of a graph with a label written [label], in order, with their values (if any). *)
Definition label_attributes (env : penv) (h : heap) (D : display) (label : string) : list (string * option string) :=
  [("label", Some label);
   ("labelloc", match d_label_location D with PStr (String c _) => Some (in_quotes (String c "")) | _ => None end);
   ("fontsize", if_given (d_font_size D) (pv_str env h (d_font_size D)));
   ("fontname", if_given (d_font D) (in_quotes (pv_str env h (d_font D))));
   ("fontcolor", if_given (d_label_colour D) (in_quotes (pv_str env h (d_label_colour D))));
   ("href", if_given (d_label_url D) (in_quotes (pv_str env h (d_label_url D))));
   ("target", if_given (d_label_url D) (in_quotes "_blank"))].
(** Those that have a value. *)
Definition present (l : list (string * option string)) : list (string * string) := omap (λ kv, (λ v, (kv.1, v)) <$> kv.2) l.
(** The attributes without the extra keyword arguments: those of the label, if there is one, and the tooltip. *)
Definition usual_attributes (env : penv) (h : heap) (D : display) (base : list (string * string)) : Prop :=
  ∃ lab, (d_label D = PNone ∧ lab = [] ∨ ∃ t, label_written env h D t ∧ lab = label_attributes env h D t) ∧
    base = present (lab ++ [("tooltip", if_given (d_tooltip D) (in_quotes (pv_str env h (d_tooltip D))))]).
(** An extra keyword argument: integers as they are, anything else in quotes. *)
Definition extra_text (env : penv) (h : heap) (v : pv) : string :=
  match v with PInt z => pretty z | _ => in_quotes (pv_str env h v) end.
(** [attrs] is [base] with the extra keyword arguments: they replace entries of [base] in
    place and are added at the end otherwise. *)
Record extended (env : penv) (h : heap) (kw : sdict) (base attrs : list (string * string)) : Prop := {
  ex_keys : attrs.*1 = base.*1 ++ filter (λ k, k ∉ base.*1) (kw.*1);
  ex_values : ∀ k v, (k, v) ∈ attrs ↔ (∃ w, (k, w) ∈ kw ∧ v = extra_text env h w) ∨ k ∉ kw.*1 ∧ (k, v) ∈ base }.
(** The line with the attributes; none if there are none. *)
Definition attribute_line (attrs : list (string * string)) : string :=
  match attrs with [] => "" | _ => line (" graph [" +:+ String.concat ", " ((λ kv, kv.1 +:+ " = " +:+ kv.2) <$> attrs) +:+ " ];") end.
(** The label of the graph is None, or a text; then the location is None (only without a background) or a non-empty text. *)
Definition label_fine (D : display) : Prop :=
  d_label D = PNone ∨ ∃ l, d_label D = PStr l ∧ ((∃ c, located D c) ∨ d_label_location D = PNone ∧ (html_like l ∨ d_label_bg D = PNone)).

(** The exact header of a graph made without options, [background] being the
    hexadecimal code of the default background colour and [pad] the text of the padding. *)
Definition default_header (background pad : string) : string :=
  "digraph G{" +:+ NL +:+
  line (" graph [label = " +:+ in_quotes (NL +:+ "Powered by Abstract") +:+ ", labelloc = " +:+ in_quotes "b" +:+ ", fontsize = 10, fontname = " +:+ in_quotes "helvetica" +:+
        ", fontcolor = " +:+ in_quotes "deepskyblue3" +:+ ", href = " +:+ in_quotes "https://github.com/idin/abstract" +:+ ", target = " +:+ in_quotes "_blank" +:+ " ];") +:+
  line ("bgcolor=" +:+ in_quotes background +:+ ";") +:+ line ("pad=" +:+ in_quotes pad +:+ ";") +:+ TAB +:+ "rankdir=" +:+ in_quotes "LR".
