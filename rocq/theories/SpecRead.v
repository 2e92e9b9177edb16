(** Reading DOT text, following the grammar of the DOT language
    (graphviz.org/doc/info/lang.html): a scanner and a parser for the statements that
    occur here.  Not covered (the reader then fails): HTML strings, comments, ports, chains of edges,
    named subgraphs, undirected graphs, and strings joined with plus. *)
From Verif Require Export SpecDot.
Local Open Scope string_scope.

(** * The scanner *)
(** An unquoted word, a quoted string, a punctuation mark, the arrow. *)
Inductive token := TWord (s : string) | TStr (s : string) | TMark (c : ascii) | TArrow.
#[global] Instance token_eq_dec : EqDecision token.
Proof. solve_decision. Defined.

(** Letters, digits, underscore, the point of numerals, and characters beyond ASCII. *)
Definition word_char (c : ascii) : bool :=
  in_range "a" "z" c || in_range "A" "Z" c || in_range "0" "9" c || eqb c "_"%char || eqb c "."%char || in_range "128" "255" c.
Definition blank (c : ascii) : bool := eqb c " "%char || eqb c "009"%char || eqb c "010"%char || eqb c "013"%char.
Definition mark (c : ascii) : bool := existsb (eqb c) ["{"; "}"; "["; "]"; ";"; ","; "="]%char.

(** Between tokens; in a word; after a minus sign; in a quoted string; after a
    backslash in a quoted string. *)
Inductive scan := Idle | InWord (s : string) | AfterMinus | InStr (s : string) | AfterBackslash (s : string).
Definition char (c : ascii) : string := String c "".
Definition scan_idle (c : ascii) : option (scan * list token) :=
  if blank c then Some (Idle, [])
  else if eqb c quote then Some (InStr "", [])
  else if eqb c "-"%char then Some (AfterMinus, [])
  else if mark c then Some (Idle, [TMark c])
  else if word_char c then Some (InWord (char c), [])
  else None.
Definition scan_step (st : scan) (c : ascii) : option (scan * list token) :=
  match st with
  | Idle => scan_idle c
  | InWord s =>
      if word_char c then Some (InWord (s +:+ char c), [])
      else match scan_idle c with Some (st, ts) => Some (st, TWord s :: ts) | None => None end
  | AfterMinus =>
      if eqb c ">"%char then Some (Idle, [TArrow])
      else if word_char c then Some (InWord ("-" +:+ char c), []) else None
  | InStr s =>
      if eqb c quote then Some (Idle, [TStr s])
      else if eqb c backslash then Some (AfterBackslash s, [])
      else Some (InStr (s +:+ char c), [])
  | AfterBackslash s =>
      if eqb c quote then Some (InStr (s +:+ char quote), [])
      else if eqb c "010"%char then Some (InStr s, [])
      else Some (InStr (s +:+ char backslash +:+ char c), [])
  end.
Fixpoint scan_all (st : scan) (s : string) : option (scan * list token) :=
  match s with
  | "" => Some (st, [])
  | String c s =>
      match scan_step st c with
      | None => None
      | Some (st, ts) => match scan_all st s with Some (st, ts') => Some (st, (ts ++ ts')%list) | None => None end
      end
  end.
(** The tokens of a text. *)
Definition tokens (s : string) : option (list token) :=
  match scan_all Idle s with
  | Some (Idle, ts) => Some ts
  | Some (InWord w, ts) => Some (ts ++ [TWord w])%list
  | _ => None
  end.

(** * The parser *)
(** Keywords, in capitals: they count in any spelling. *)
Definition keyword (s : string) : bool := existsb (eqb (capitals s)) ["NODE"; "EDGE"; "GRAPH"; "DIGRAPH"; "SUBGRAPH"; "STRICT"].
(** An identifier: a quoted string, or a word that is no keyword. *)
Definition ident (t : token) : option string :=
  match t with
  | TStr s => Some s
  | TWord s => if keyword s then None else Some s
  | _ => None
  end.
Definition attrs := list (string * string).
(** An attribute list after the opening bracket; gives the attributes and what follows. *)
Fixpoint parse_attrs (ts : list token) : option (attrs * list token) :=
  match ts with
  | TMark "]" :: ts => Some ([], ts)
  | k :: TMark "=" :: v :: ts =>
      match ident k, ident v with
      | Some k, Some v =>
          match (match ts with TMark "," :: ts' => parse_attrs ts' | TMark ";" :: ts' => parse_attrs ts' | _ => parse_attrs ts end) with
          | Some (l, ts) => Some ((k, v) :: l, ts)
          | None => None
          end
      | _, _ => None
      end
  | _ => None
  end.
(** The attribute list, if there is one. *)
Definition opt_attrs (ts : list token) : option (attrs * list token) :=
  match ts with TMark "[" :: ts => parse_attrs ts | _ => Some ([], ts) end.

(** What the statements say: attributes of the graph, nodes and edges, with their
    attributes, in order. *)
Record drawing := Drawing { dr_graph : attrs; dr_nodes : list (string * attrs); dr_edges : list (string * string * attrs) }.
Definition nothing : drawing := Drawing [] [] [].
Definition with_attrs (l : attrs) (d : drawing) : drawing := Drawing (l ++ dr_graph d)%list (dr_nodes d) (dr_edges d).
Definition with_node (n : string) (l : attrs) (d : drawing) : drawing := Drawing (dr_graph d) ((n, l) :: dr_nodes d) (dr_edges d).
Definition with_edge (a b : string) (l : attrs) (d : drawing) : drawing := Drawing (dr_graph d) (dr_nodes d) ((a, b, l) :: dr_edges d).

(** The statements up to the brace that closes the graph; [depth] counts the open
    inner blocks, [n] bounds the number of statements. *)
Fixpoint parse_stmts (n depth : nat) (ts : list token) : option drawing :=
  match n with
  | 0 => None
  | S n =>
      match ts with
      | TMark "}" :: ts => match depth with 0 => if decide (ts = []) then Some nothing else None | S depth => parse_stmts n depth ts end
      | TMark "{" :: ts => parse_stmts n (S depth) ts
      | TMark ";" :: ts => parse_stmts n depth ts
      | TWord w :: TMark "[" :: ts =>
          if eqb (capitals w) "GRAPH" then
            match parse_attrs ts with Some (l, ts) => with_attrs l <$> parse_stmts n depth ts | None => None end
          else if keyword w then None
          else match parse_attrs ts with Some (l, ts) => with_node w l <$> parse_stmts n depth ts | None => None end
      | k :: TMark "=" :: v :: ts =>
          match ident k, ident v with
          | Some k, Some v => with_attrs [(k, v)] <$> parse_stmts n depth ts
          | _, _ => None
          end
      | a :: TArrow :: b :: ts =>
          match ident a, ident b with
          | Some a, Some b => match opt_attrs ts with Some (l, ts) => with_edge a b l <$> parse_stmts n depth ts | None => None end
          | _, _ => None
          end
      | a :: ts =>
          match ident a with
          | Some a => match opt_attrs ts with Some (l, ts) => with_node a l <$> parse_stmts n depth ts | None => None end
          | None => None
          end
      | [] => None
      end
  end.
(** A directed graph: strict or not, and its statements. *)
Definition parse_digraph (strict : bool) (ts : list token) : option (bool * drawing) :=
  match ts with
  | TWord d :: TMark "{" :: ts =>
      if eqb (capitals d) "DIGRAPH" then pair strict <$> parse_stmts (length ts) 0 ts else None
  | TWord d :: name :: TMark "{" :: ts =>
      if eqb (capitals d) "DIGRAPH" then
        match ident name with Some _ => pair strict <$> parse_stmts (length ts) 0 ts | None => None end
      else None
  | _ => None
  end.
Definition parse_graph (ts : list token) : option (bool * drawing) :=
  match ts with
  | TWord s :: ts' => if eqb (capitals s) "STRICT" then parse_digraph true ts' else parse_digraph false ts
  | _ => None
  end.
(** What a DOT text says. *)
Definition read_dot (s : string) : option (bool * drawing) := tokens s ≫= parse_graph.

(** * What the text should say *)
(** An attribute that is given unless its value is None; colours are printed with the opacity of the style. *)
Definition attr_of (env : penv) (h : heap) (opacity : pv) (kv : string * pv) : option (string * string) :=
  match kv.2 with
  | PNone => None
  | PCol c => Some (kv.1, pe_hex env c opacity)
  | v => Some (kv.1, pv_str env h v)
  end.
Definition some_colour (c : option colour) : pv := match c with Some c => PCol c | None => PNone end.
(** The Graphviz attributes of styles. *)
Definition node_style_attrs (env : penv) (h : heap) (s : nstyle) : attrs :=
  omap (attr_of env h (ns_opacity s))
    [("color", some_colour (ns_border s)); ("fillcolor", some_colour (ns_fill s)); ("fontname", ns_font s); ("fontcolor", some_colour (ns_text s));
     ("fontsize", ns_text_size s); ("opacity", ns_opacity s); ("shape", ns_shape s); ("style", ns_shape_style s)].
Definition edge_style_attrs (env : penv) (h : heap) (s : estyle) : attrs :=
  omap (attr_of env h (es_opacity s))
    [("color", PCol (es_colour s)); ("fontname", es_font s); ("fontcolor", PCol (match es_text s with Some c => c | None => es_colour s end)); ("fontsize", es_text_size s);
     ("arrowsize", es_arrow s); ("lblstyle", es_label_style s); ("penwidth", es_line_width s)].
Definition text_attr (env : penv) (h : heap) (k : string) (v : pv) : attrs :=
  match v with PNone => [] | v => [(k, pv_str env h v)] end.
(** A node: its name, its label (or name), tooltip and style. *)
Definition node_drawn (env : penv) (h : heap) (N : node) : string * attrs :=
  (name_str (n_id N), ("label", label_text env h N) :: text_attr env h "tooltip" (n_tooltip N) ++
    match n_style N ≫= λ s, h_ns h !! s with Some s => node_style_attrs env h s | None => [] end)%list.
(** An edge: the names of its ends, its label (or value), tooltip and style. *)
Definition edge_drawn (env : penv) (h : heap) (E : edge) (X Y : node) : string * string * attrs :=
  (name_str (n_id X), name_str (n_id Y), (text_attr env h "label" (edge_text E) ++ text_attr env h "tooltip" (e_tooltip E) ++
    match e_style E ≫= λ s, h_es h !! s with Some s => edge_style_attrs env h s | None => [] end)%list).
(** The attributes of the graph.  Those given as extra options replace others. *)
Definition title_attrs (env : penv) (h : heap) (D : display) : attrs :=
  match d_label D, d_label_location D with
  | PStr l, PStr (String c _) =>
      ("label", l) :: ("labelloc", char c) :: text_attr env h "fontsize" (d_font_size D) ++ text_attr env h "fontname" (d_font D) ++
      text_attr env h "fontcolor" (d_label_colour D) ++
      match d_label_url D with PNone => [] | v => [("href", pv_str env h v); ("target", "_blank")] end
  | _, _ => []
  end%list.
Definition size_attrs (env : penv) (h : heap) (height width : pv) : attrs :=
  match height, width with
  | PNone, PNone => []
  | v, PNone | PNone, v => [("size", pv_str env h v +:+ "!"); ("ratio", "fill")]
  | _, _ => [("size", (pv_str env h width +:+ "," +:+ pv_str env h height) +:+ "!"); ("ratio", "fill")]
  end.
Definition the_direction (D : display) (dir : string) : string := capitals (if eqb dir "" then d_direction D else dir).
Definition graph_attrs (env : penv) (h : heap) (G : graph) (D : display) (dir : string) (height width pad : pv) : attrs :=
  (fold_left (λ a kv, dset a kv.1 (pv_str env h kv.2)) (d_kwargs D) (title_attrs env h D ++ text_attr env h "tooltip" (d_tooltip D)) ++
   [("bgcolor", pe_hexadecimal env (d_background D))] ++ text_attr env h "pad" pad ++ (if g_ordering G then [] else [("ordering", "out")]) ++
   size_attrs env h height width ++ (if eqb (the_direction D dir) "TB" then [] else [("rankdir", the_direction D dir)]))%list.

(** * Harmless texts *)
(** A text that is one unquoted identifier. *)
Definition one_word (s : string) : Prop := tokens s = Some [TWord s] ∧ keyword s = false.
Definition plain_attrs (l : attrs) : Prop := ∀ k v, (k, v) ∈ l → plain v.
(** Everything that is printed is free of quotes and backslashes (node labels may contain
    them, but no backslash before a quote, a line end or the end); the font size, which is
    printed without quotes, and the names of extra options are words; the graph label is no
    HTML and has no background. *)
Record harmless (env : penv) (h : heap) (g : gref) (G : graph) (D : display) (dir : string) (height width pad : pv) : Prop := {
  ha_nconv : d_node_conv D = None;
  ha_econv : d_edge_conv D = None;
  ha_nodes : ∀ r N, h_nodes h !! r = Some N → n_graph N = Some g → plain (name_str (n_id N)) ∧ safe (label_text env h N) ∧
    plain_attrs (text_attr env h "tooltip" (n_tooltip N)) ∧ ∀ s S, n_style N = Some s → h_ns h !! s = Some S → plain_attrs (node_style_attrs env h S);
  ha_edges : ∀ e E, h_edges h !! e = Some E → e_graph E = Some g → plain_attrs (text_attr env h "label" (edge_text E)) ∧
    plain_attrs (text_attr env h "tooltip" (e_tooltip E)) ∧ ∀ s S, e_style E = Some s → h_es h !! s = Some S → plain_attrs (edge_style_attrs env h S);
  ha_label : d_label D = PNone ∨ d_label_bg D = PNone ∧ ∃ l c loc, d_label D = PStr l ∧ String.prefix "<" l = false ∧ d_label_location D = PStr (String c loc);
  ha_graph : plain_attrs (graph_attrs env h G D dir height width pad);
  ha_font_size : d_font_size D = PNone ∨ one_word (pv_str env h (d_font_size D));
  ha_options : ∀ k v, (k, v) ∈ d_kwargs D → one_word k }.
