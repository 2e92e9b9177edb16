(** Graphviz output.  Models the get_graphviz_* methods of
    /repo/abstract/Node.py, Edge.py, styling/NodeStyle.py, styling/EdgeStyle.py and
    _GraphWithoutDisplay.py:289-405. *)
From Verif Require Export ModelStylize.
Local Open Scope string_scope.
Local Open Scope list_scope.

(** The quote character of the f-strings, e.g. Node.py:321, 330. *)
Definition Qt : string := String quote "".
(** The tab of the f-strings, _GraphWithoutDisplay.py:354-376, 402-403. *)
Definition TAB : string := String "009"%char "".
(** An f-string of [s] between double quotes, e.g. Node.py:321, 330. *)
Definition quoted (s : string) : string := Qt +:+ s +:+ Qt.

(** The left half of [value.strip], NodeStyle.py:213, EdgeStyle.py:160. *)
Fixpoint lstrip_q (s : string) : string :=
  match s with String c s' => if eqb c quote then lstrip_q s' else s | "" => "" end.
(** The right half of [value.strip], NodeStyle.py:213, EdgeStyle.py:160. *)
Fixpoint rstrip_q (s : string) : string :=
  match s with
  | "" => ""
  | String c s' => match rstrip_q s' with
                   | "" => if eqb c quote then "" else String c ""
                   | r => String c r
                   end
  end.
(** [value.strip] of double quotes, NodeStyle.py:209-213, EdgeStyle.py:156-160 (the keys
    contain no quotes). *)
Definition strip_q (s : string) : string := rstrip_q (lstrip_q s).

(** The loop of NodeStyle.get_graphviz_str, NodeStyle.py:204-216, and of
    EdgeStyle.get_graphviz_str, EdgeStyle.py:151-163: [opacity] is [self._opacity]. *)
Definition style_item (env : penv) (h : heap) (opacity : pv) (kv : string * pv) : option string :=
  let '(k, v) := kv in
  match v with
  | PNone => None
  | PCol c => Some (quoted k +:+ "=" +:+ quoted (strip_q (pe_hex env c opacity)))
  | PStr s => Some (quoted k +:+ "=" +:+ quoted (strip_q s))
  | v => Some (quoted k +:+ "=" +:+ quoted (pv_str env h v))
  end.
(** The joined text, NodeStyle.py:218, EdgeStyle.py:165. *)
Definition style_items (env : penv) (h : heap) (opacity : pv) (l : sdict) : string :=
  String.concat " " (omap (style_item env h opacity) l).

(** NodeStyle._graphviz_dictionary and get_graphviz_str, NodeStyle.py:187-218 *)
Definition ns_graphviz (env : penv) (h : heap) (sty : nstyle) : string :=
  style_items env h (ns_opacity sty)
    [("color", opt_pv (ns_border sty)); ("fillcolor", opt_pv (ns_fill sty)); ("fontname", ns_font sty);
     ("fontcolor", opt_pv (ns_text sty)); ("fontsize", ns_text_size sty); ("opacity", ns_opacity sty);
     ("shape", ns_shape sty); ("style", ns_shape_style sty)].
(** EdgeStyle._graphviz_dictionary and get_graphviz_str, EdgeStyle.py:135-165 *)
Definition es_graphviz (env : penv) (h : heap) (sty : estyle) : string :=
  style_items env h (es_opacity sty)
    [("color", PCol (es_colour sty)); ("fontname", es_font sty); ("fontcolor", PCol (es_text_colour sty));
     ("fontsize", es_text_size sty); ("arrowsize", es_arrow sty); ("lblstyle", es_label_style sty);
     ("penwidth", es_line_width sty)].

(** [self.graph._node_label_converter] / [self.graph._edge_label_converter],
    Node.py:234-237, Edge.py:38-41 *)
Definition obj_display (h : heap) (og : option gref) : res display :=
  match og with None => Err AttributeError | Some g => get_display h g end.

(** GraphObj.display_label on a node, _GraphObj.py:106-110 *)
Definition node_display_label (env : penv) (h : heap) (r : nref) : res pv :=
  let! N := get_n h r in
  let! D := obj_display h (n_graph N) in
  let! l := node_label env h r in
  Ok (match d_node_conv D with Some f => f (PStr l) | None => PStr l end).
(** GraphObj.display_label_or_value on an edge, _GraphObj.py:112-119 *)
Definition edge_display_label (h : heap) (e : eref) : res pv :=
  let! E := get_e h e in
  match e_label E with
  | PNone => Ok (e_value E)
  | l => let! D := obj_display h (e_graph E) in
         Ok (match d_edge_conv D with Some f => f l | None => l end)
  end.

(** A part that is present unless its value is None, Node.py:323-324, Edge.py:146-149. *)
Definition opt_part (env : penv) (h : heap) (key : string) (v : pv) : list string :=
  match v with PNone => [] | _ => [key +:+ "=" +:+ quoted (pv_str env h v)] end.

(** Node.get_graphviz_str, Node.py:313-330 *)
Definition node_graphviz (env : penv) (h : heap) (r : nref) : res string :=
  let! l := node_display_label env h r in
  let! N := get_n h r in
  let! sty := match n_style N with
              | None => Ok []
              | Some _ => let! sty := node_style h r in Ok [ns_graphviz env h sty]
              end in
  let parts := ("label=" +:+ quoted (pv_str env h l)) :: opt_part env h "tooltip" (n_tooltip N) ++ sty in
  Ok (quoted (name_str (n_id N)) +:+ " [" +:+ String.concat " " parts +:+ "]").

(** Edge.get_graphviz_str, Edge.py:136-158 *)
Definition edge_graphviz (env : penv) (h : heap) (e : eref) : res string :=
  let! l := edge_display_label h e in
  let! E := get_e h e in
  let! sty := match e_style E with
              | None => Ok []
              | Some s => match h_es h !! s with
                          | Some sty => Ok [es_graphviz env h sty] | None => Err Unmodelled end
              end in
  let parts := opt_part env h "label" l ++ opt_part env h "tooltip" (e_tooltip E) ++ sty in
  let second := match parts with [] => "" | _ => "[" +:+ String.concat " " parts +:+ "]" end in
  let! s := edge_start h e in let! Ns := get_n h s in
  let! t := edge_end h e in let! Nt := get_n h t in
  Ok (quoted (name_str (n_id Ns)) +:+ " -> " +:+ quoted (name_str (n_id Nt)) +:+ second).

(** [direction.upper()] on one character, _GraphWithoutDisplay.py:374 *)
Definition upper_char (c : ascii) : ascii :=
  let n := nat_of_ascii c in if Nat.leb 97 n && Nat.leb n 122 then ascii_of_nat (n - 32) else c.
(** [direction.upper()], _GraphWithoutDisplay.py:374, ASCII letters only. *)
Fixpoint upper (s : string) : string :=
  match s with "" => "" | String c s' => String (upper_char c) (upper s') end.

(** [s[0]] of an attribute that should be a string, _GraphWithoutDisplay.py:323, 331 *)
Definition first_char (v : pv) : res string :=
  match v with
  | PStr (String c _) => Ok (String c "")
  | PStr "" => Err IndexError
  | _ => Err TypeError
  end.
(** [s.endswith('>')] for one character, _GraphWithoutDisplay.py:318 *)
Fixpoint last_is (c : ascii) (s : string) : bool :=
  match s with "" => false | String d "" => eqb c d | String _ s' => last_is c s' end.

(** _GraphWithoutDisplay.py:316-328: the 'label' attribute. *)
Definition header_label (env : penv) (h : heap) (D : display) : res string :=
  match d_label D with
  | PStr l =>
      if String.prefix "<" l && last_is ">" l then Ok l
      else match d_label_bg D with
           | PNone => Ok (quoted l)
           | bg =>
               let html := "<table border=" +:+ quoted "0" +:+ " cellborder=" +:+ quoted "0" +:+
                           "><tr><td bgcolor=" +:+ quoted (pv_str env h bg) +:+ " title=" +:+ quoted l +:+
                           ">" +:+ l +:+ " </td></tr></table>" in
               let! c := first_char (d_label_location D) in
               Ok (if eqb c "t" then "<" +:+ html +:+ NL +:+ ">" else "<" +:+ NL +:+ html +:+ ">")
           end
  | _ => Err AttributeError
  end.
(** A quoted attribute that is present unless None, _GraphWithoutDisplay.py:334-337,
    342-343. *)
Definition attr_q (env : penv) (h : heap) (k : string) (v : pv) : dict string string :=
  match v with PNone => [] | _ => [(k, quoted (pv_str env h v))] end.
(** _GraphWithoutDisplay.py:316-351: the graph attributes, in insertion order. *)
Definition header_attributes (env : penv) (h : heap) (D : display) : res (dict string string) :=
  let! a := match d_label D with
            | PNone => Ok []
            | _ =>
                let! l := header_label env h D in
                let! loc := match d_label_location D with
                            | PNone => Ok []
                            | v => let! c := first_char v in Ok [("labelloc", quoted c)]
                            end in
                Ok ([("label", l)] ++ loc
                    ++ match d_font_size D with PNone => [] | v => [("fontsize", pv_str env h v)] end
                    ++ attr_q env h "fontname" (d_font D)
                    ++ attr_q env h "fontcolor" (d_label_colour D)
                    ++ match d_label_url D with
                       | PNone => []
                       | v => [("href", quoted (pv_str env h v)); ("target", quoted "_blank")]
                       end)
            end in
  let a := a ++ attr_q env h "tooltip" (d_tooltip D) in
  Ok (fold_left (λ a kv, dset a kv.1 (match kv.2 with
                                      | PInt z => pretty z
                                      | v => quoted (pv_str env h v) end)) (d_kwargs D) a).

(** _GraphWithoutDisplay.py:364-372 *)
Definition header_size (env : penv) (h : heap) (height width : pv) : string :=
  let ratio := TAB +:+ "ratio=" +:+ quoted "fill" +:+ ";" +:+ NL in
  let size s := TAB +:+ "size=" +:+ quoted (s +:+ "!") +:+ ";" +:+ NL +:+ ratio in
  match height, width with
  | PNone, PNone => ""
  | _, PNone => size (pv_str env h height)
  | PNone, _ => size (pv_str env h width)
  | _, _ => size (pv_str env h width +:+ "," +:+ pv_str env h height)
  end.

(** GraphWithoutDisplay.get_graphviz_header, _GraphWithoutDisplay.py:289-380
    ([dpi] is not used). *)
Definition graphviz_header (env : penv) (h : heap) (g : gref) (direction : string) (height width pad : pv)
    : res string :=
  let! G := get_g h g in
  let! D := get_display h g in
  let direction := if eqb direction "" then d_direction D else direction in
  let first := if g_strict G then "strict digraph G {" +:+ NL else "digraph G{" +:+ NL in
  let! attrs := header_attributes env h D in
  let second :=
    (match attrs with
     | [] => ""
     | _ => TAB +:+ " graph [" +:+ String.concat ", " (map (λ kv, kv.1 +:+ " = " +:+ kv.2) attrs) +:+ " ];" +:+ NL
     end)
    +:+ TAB +:+ "bgcolor=" +:+ quoted (pe_hexadecimal env (d_background D)) +:+ ";" +:+ NL
    +:+ (match pad with PNone => "" | _ => TAB +:+ "pad=" +:+ quoted (pv_str env h pad) +:+ ";" +:+ NL end)
    +:+ (if g_ordering G then "" else TAB +:+ "ordering=out;" +:+ NL)
    +:+ header_size env h height width in
  let direction := upper direction in
  let third := if eqb direction "TB" then "" else TAB +:+ "rankdir=" +:+ quoted direction in
  Ok (first +:+ second +:+ third).

(** GraphWithoutDisplay.get_graphviz_str, _GraphWithoutDisplay.py:382-405 *)
Definition graphviz_str (env : penv) (h : heap) (g : gref) (direction : string) (height width pad : pv)
    : res string :=
  let! D := get_display h g in
  let direction := if eqb direction "" then d_direction D else direction in
  let! ns := nodes h g in
  let! nstrs := rmap (node_graphviz env h) ns in
  let! es := graph_edges h g in
  let! estrs := rmap (edge_graphviz env h) es in
  let nodes_str := TAB +:+ "{" +:+ NL +:+ TAB +:+ TAB +:+ String.concat (NL +:+ TAB +:+ TAB) nstrs
                   +:+ NL +:+ TAB +:+ "}" +:+ NL in
  let edges_str := TAB +:+ String.concat (NL +:+ TAB) estrs +:+ NL in
  let! header := graphviz_header env h g direction height width pad in
  Ok (header +:+ nodes_str +:+ edges_str +:+ "}").

(** GraphWithoutDisplay.render without [path], _GraphWithoutDisplay.py:695-725,
    with get_graphviz_source, lines 770-799: height and width are dropped when
    there is no path.  The result is the text given to graphviz.Source. *)
Definition render (env : penv) (g : gref) (direction : string) (pad : pv)
    (shuffle : list nref → list nref) : M string :=
  do* stylize g shuffle in
  sread (λ h, graphviz_str env h g direction PNone PNone pad).
