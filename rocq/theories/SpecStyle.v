(** Style objects: colours and appearance; colour tables; diverging numbers. *)
From Verif Require Export Spec ModelStylize.

(** A NodeStyle has concrete colours; an EdgeStyle has a text colour. *)
Definition coloured (s : nstyle) : Prop := is_Some (ns_fill s) ∧ is_Some (ns_border s) ∧ is_Some (ns_text s).
Definition text_coloured (s : estyle) : Prop := is_Some (es_text s).
(** What the DOT text of a node depends on, and whether colours are derived from the
    main colour. *)
Definition node_look (s : nstyle) := (ns_colour s, ns_fill s, ns_border s, ns_text s, ns_opacity s, ns_font s, ns_text_size s, ns_shape s, ns_shape_style s).
Definition derived (s : nstyle) := (ns_fill_based s, ns_border_based s, ns_text_based s).
(** The same for an edge; the label style is apart, because copy loses it. *)
Definition edge_look (s : estyle) := (es_colour s, es_text s, es_opacity s, es_font s, es_text_size s, es_arrow s, es_line_width s).

(** [n] successive calls of get_least_used_colour on one table. *)
Fixpoint pick (n : nat) (used : dict colour nat) : res (dict colour nat * list colour) :=
  match n with
  | 0 => Ok (used, [])
  | S n => let! (used, c) := get_least_used_colour used in
           let! (used, cs) := pick n used in Ok (used, c :: cs)
  end.
(** The [i]-th smallest of [n] diverging numbers, with m = n / 2: for odd n
    -m/m, ..., -1/m, 0, 1/m, ..., m/m; for even n the same without 0. *)
Definition diverging (n i : nat) : Q :=
  let m := Z.of_nat (Nat.div2 n) in
  (inject_Z (if Nat.odd n then Z.of_nat i - m else if (Z.of_nat i <? m)%Z then Z.of_nat i - m else Z.of_nat i - m + 1)%Z / inject_Z m)%Q.

(** All parents of the node (if any) lie on cycles. *)
Definition rootlike (h : heap) (g : gref) (r : nref) : Prop := ∀ p, adj h g p r → on_cycle h g p.
(** The node or edge has a style. *)
Definition node_styled (h : heap) (r : nref) : Prop := ∃ N, h_nodes h !! r = Some N ∧ n_style N ≠ None.
Definition edge_styled (h : heap) (e : eref) : Prop := ∃ E, h_edges h !! e = Some E ∧ e_style E ≠ None.
(** The style object of a node or of an edge. *)
Definition style_of (h : heap) (r : nref) (s : nstyle) : Prop := ∃ N k, h_nodes h !! r = Some N ∧ n_style N = Some k ∧ h_ns h !! k = Some s.
Definition edge_style_of (h : heap) (e : eref) (s : estyle) : Prop := ∃ E k, h_edges h !! e = Some E ∧ e_style E = Some k ∧ h_es h !! k = Some s.

(** [h'] is [h] with new style objects given to some nodes and edges of [g] that had
    no style; no two of them share one; nothing else changes. *)
Definition fresh_style {O} (sty : O → option sref) (own : O → option gref) (g : gref) (lo hi : nat) (o o' : O) : Prop :=
  sty o = None ∧ own o = Some g ∧ ∃ k, sty o' = Some k ∧ lo ≤ k < hi.
Record styles_added (g : gref) (h h' : heap) : Prop := {
  sa_graphs : h_graphs h' = h_graphs h;
  sa_warns : h_warns h' = h_warns h;
  sa_ns : ∃ l, h_ns h' = h_ns h ++ l;
  sa_es : ∃ l, h_es h' = h_es h ++ l;
  sa_nlen : length (h_nodes h') = length (h_nodes h);
  sa_elen : length (h_edges h') = length (h_edges h);
  sa_node : ∀ r N N', h_nodes h !! r = Some N → h_nodes h' !! r = Some N' → N' = N <| n_style := n_style N' |> ∧
    (n_style N' = n_style N ∨ fresh_style n_style n_graph g (length (h_ns h)) (length (h_ns h')) N N');
  sa_edge : ∀ e E E', h_edges h !! e = Some E → h_edges h' !! e = Some E' → E' = E <| e_style := e_style E' |> ∧
    (e_style E' = e_style E ∨ fresh_style e_style e_graph g (length (h_es h)) (length (h_es h')) E E');
  sa_node_inj : ∀ r1 r2 N1 N2 k, h_nodes h' !! r1 = Some N1 → h_nodes h' !! r2 = Some N2 →
    n_style N1 = Some k → n_style N2 = Some k → length (h_ns h) ≤ k → r1 = r2;
  sa_edge_inj : ∀ e1 e2 E1 E2 k, h_edges h' !! e1 = Some E1 → h_edges h' !! e2 = Some E2 →
    e_style E1 = Some k → e_style E2 = Some k → length (h_es h) ≤ k → e1 = e2
}.

(** The display options that involve no overwriting, with the default stylist. *)
Definition default_styling (D : display) : Prop :=
  d_stylist D = PStr "pensieve"%string ∧ d_gnode D = None ∧ d_gedge D = None ∧ d_node_styles D = [] ∧ d_edge_styles D = [] ∧
  d_node_colours D = [] ∧ d_edge_colours D = [].
(** None or a number. *)
Definition numeric (v : pv) : Prop := match v with PNone | PInt _ | PFlt _ => True | _ => False end.
(** The factor that an edge value is for the arrow size, and the product of several. *)
Definition factor (v : pv) : Q := match v with PInt z => inject_Z z | PFlt q => q | _ => 1 end%Q.
Fixpoint product (l : list Q) : Q := match l with [] => 1 | q :: l => q * product l end%Q.
(** The values of the edges [es]. *)
Definition values_of (h : heap) (es : list eref) : list pv := omap (λ e, e_value <$> h_edges h !! e) es.
(** The EdgeStyle with colour [c] and arrow size [a], otherwise as by default. *)
Definition standard_edge (c : colour) (a : Q) : estyle :=
  MkEStyle c (Some c) (Some true) (PInt 1) (PStr "helvetica") (PInt 8) (PFlt a) (PStr "below") (PInt 1) [].
(** The edges of [es] without style. *)
Definition unstyled_edges (h : heap) (es : list eref) : list eref := filter (λ e, (h_edges h !! e) ≫= e_style = None) es.
(** The NodeStyle with main colour [c], otherwise as by default. *)
Definition standard_node (c : colour) : nstyle :=
  MkNStyle c (Some (CLighten c (1 # 2)%Q)) (Some (CDarken c (1 # 6)%Q)) (Some (CGray (CLighten c (1 # 2)%Q))) true true true true
    PNone (PStr "helvetica") (PInt 10) (PStr "box") (PStr "rounded, filled") [].
