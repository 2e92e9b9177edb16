(** The heap: node, edge, graph and style objects, and the state monad. *)
From RecordUpdate Require Export RecordSet.
Export RecordSetNotations.
From Verif Require Export Base.

(** Object identities.  A reference is a position in the list that stores the
    objects of its class; allocation appends, so references are never reused. *)
Notation nref := nat (only parsing).
Notation eref := nat (only parsing).
Notation gref := nat (only parsing).
Notation sref := nat (only parsing).

(** Node names.  Models /repo/abstract/_BasicGraph.py:226 ([str] and [int]
    names are accepted by [get_node]).  Simplification: no other hashable
    types, and [bool] is not distinguished from [int]. *)
Inductive name := NStr (s : string) | NInt (z : Z).
#[global] Instance name_eq_dec : EqDecision name.
Proof. solve_decision. Defined.

(** [Edge._raw_id]: what the user passed ([None], a str or an int;
    /repo/abstract/Edge.py:9,34) or the tuple [(None, None, None)] that
    [disconnect] stores (/repo/abstract/_BasicGraph.py:733).  Simplification:
    a user id is never that tuple. *)
Inductive rawid := RId (u : option name) | RDead.
#[global] Instance rawid_eq_dec : EqDecision rawid.
Proof. solve_decision. Defined.

(** [Edge.id] (/repo/abstract/Edge.py:126). *)
Definition edge_id : Type := name * name * rawid.

(** Colours of the external package [colouration] as uninterpreted terms:
    every constructor stands for the library call of that name (NodeStyle.py:4,
    113-124, inherit_style.py:42-62, stylize_edges_based_on_nodes.py:7).  Equal terms
    denote equal colours; nothing is claimed about unequal terms. *)
Inductive colour :=
  | CHexa (s : string)              (* Colour(hexadecimal=s) *)
  | CName (s : string)              (* Colour(obj=s), s a string *)
  | CLighten (c : colour) (q : Q)   (* c.lighten(ratio=q) *)
  | CDarken (c : colour) (q : Q)    (* c.darken(ratio=q) *)
  | CGray (c : colour)              (* c.farthest_gray *)
  | CHue (c : colour) (q : Q)       (* c.increase_hue(amount=q) *)
  | CSat (c : colour)               (* c with saturation * 3 / 4 *)
  | CPale (c : colour) (q : Q)      (* c.pale(ratio=q) *)
  | CInvert (c : colour)            (* c.invert() *)
  | CMixNil | CMixCons (c cs : colour). (* Colour.mix(colours=[...]) *)
#[global] Instance Q_struct_eq_dec : EqDecision Q.
Proof. solve_decision. Defined.
#[global] Instance colour_eq_dec : EqDecision colour.
Proof. solve_decision. Defined.

(** Python objects that can be stored as value, label, tooltip or style
    attribute.  [PFlt q] is a float (rounding is not modelled); [PMeth r] is the
    bound method [display_label_or_value] of node [r], which
    /repo/abstract/_GraphWithoutDisplay.py:530 stores as a label. *)
Inductive pv :=
  | PNone | PInt (z : Z) | PFlt (q : Q) | PStr (s : string)
  | PCol (c : colour) | PMeth (r : nref).
#[global] Instance pv_eq_dec : EqDecision pv.
Proof. solve_decision. Defined.

(** Truth value of an object ([bool(x)]).  Python semantics; e.g. NodeStyle.py:18, Node.py:223. *)
Definition truthy (v : pv) : bool :=
  match v with
  | PNone => false
  | PInt z => negb (z =? 0)%Z
  | PFlt q => negb (Qnum q =? 0)%Z
  | PStr s => negb (eqb s ""%string)
  | PCol _ | PMeth _ => true
  end.
(** [x or y].  Python semantics; e.g. NodeStyle.py:18, _GraphWithoutDisplay.py:638, 653. *)
Definition py_or (x y : pv) : pv := if truthy x then x else y.

(** [x == y].  Python semantics; used for _GraphObj.py:149, 151.  Simplification: colours are equal iff their terms are. *)
Definition py_eqb (x y : pv) : bool :=
  match x, y with
  | PInt a, PInt b => (a =? b)%Z
  | PInt a, PFlt q | PFlt q, PInt a => Qeq_bool (inject_Z a) q
  | PFlt p, PFlt q => Qeq_bool p q
  | _, _ => eqb x y
  end.

(** [x + y].  Python semantics; used for _GraphWithoutDisplay.py:438, 640.  Adding to a colour is outside the model. *)
Definition py_add (x y : pv) : res pv :=
  match x, y with
  | PInt a, PInt b => Ok (PInt (a + b))
  | PInt a, PFlt q => Ok (PFlt (inject_Z a + q)%Q)
  | PFlt q, PInt a => Ok (PFlt (q + inject_Z a)%Q)
  | PFlt p, PFlt q => Ok (PFlt (p + q)%Q)
  | PStr a, PStr b => Ok (PStr (a +:+ b))
  | PCol _, _ | _, PCol _ => Err Unmodelled
  | _, _ => Err TypeError
  end.

(** A dictionary of keyword arguments / style attributes (NodeStyle.py:42-52, _GraphObj.py:12, 20). *)
Definition sdict := dict string pv.

(** NodeStyle instances; /repo/abstract/styling/NodeStyle.py:12-40.
    [ns_extra] holds attributes created by [complement] (line 50). *)
Record nstyle := MkNStyle {
  ns_colour : colour;
  ns_fill : option colour; ns_border : option colour; ns_text : option colour;
  ns_fill_based : bool; ns_border_based : bool; ns_text_based : bool;
  ns_lighter : bool;
  ns_opacity : pv; ns_font : pv; ns_text_size : pv; ns_shape : pv; ns_shape_style : pv;
  ns_extra : sdict }.
#[global] Instance eta_nstyle : Settable _ := settable! MkNStyle
  <ns_colour; ns_fill; ns_border; ns_text; ns_fill_based; ns_border_based; ns_text_based;
   ns_lighter; ns_opacity; ns_font; ns_text_size; ns_shape; ns_shape_style; ns_extra>.

(** EdgeStyle instances; /repo/abstract/styling/EdgeStyle.py:13-35.
    [es_text_based = None]: the attribute does not exist (after unpickling,
    lines 113-133 do not restore it). *)
Record estyle := MkEStyle {
  es_colour : colour; es_text : option colour; es_text_based : option bool;
  es_opacity : pv; es_font : pv; es_text_size : pv; es_arrow : pv;
  es_label_style : pv; es_line_width : pv; es_extra : sdict }.
#[global] Instance eta_estyle : Settable _ := settable! MkEStyle
  <es_colour; es_text; es_text_based; es_opacity; es_font; es_text_size; es_arrow;
   es_label_style; es_line_width; es_extra>.

(** Node instances; /repo/abstract/Node.py:12-42 with the attributes of
    GraphObj, /repo/abstract/_GraphObj.py:11-23.  The two flags
    [_outward_edges_have_start_node] / [_inward_edges_have_end_node] are not
    stored: they are False only inside [copy]. *)
Record node := MkNode {
  n_graph : option gref; n_id : name; n_value : pv; n_label : pv; n_tooltip : pv;
  n_style : option sref; n_frozen : bool; n_params : sdict;
  n_out : dict edge_id eref; n_in : dict edge_id eref; n_index : Z }.
#[global] Instance eta_node : Settable _ := settable! MkNode
  <n_graph; n_id; n_value; n_label; n_tooltip; n_style; n_frozen; n_params; n_out; n_in; n_index>.

(** Edge instances; /repo/abstract/Edge.py:7-36. *)
Record edge := MkEdge {
  e_graph : option gref; e_raw : rawid; e_value : pv; e_label : pv; e_tooltip : pv;
  e_style : option sref; e_frozen : bool; e_params : sdict;
  e_start : option nref; e_end : option nref }.
#[global] Instance eta_edge : Settable _ := settable! MkEdge
  <e_graph; e_raw; e_value; e_label; e_tooltip; e_style; e_frozen; e_params; e_start; e_end>.

(** Values of [_edge_colour_overwrites]: a colour, or a style dictionary
    (/repo/abstract/_GraphWithoutDisplay.py:491 stores styles there). *)
Inductive ovr := OvColour (v : pv) | OvStyle (d : sdict).

(** The attributes GraphWithoutDisplay.__init__ adds
    (/repo/abstract/_GraphWithoutDisplay.py:57-101), plus the two label
    converters of BasicGraph (/repo/abstract/_BasicGraph.py:30-31), i.e. all the
    attributes that [copy] does not carry over.  [d_scheme] is the list
    [colour_scheme.colours]. *)
Record display := MkDisplay {
  d_overwrite : bool;                        (* _style_overwrite_allowed *)
  d_node_conv : option (pv → pv);            (* _node_label_converter *)
  d_edge_conv : option (pv → pv);            (* _edge_label_converter *)
  d_scheme : list colour;                    (* _colour_scheme *)
  d_stylist : pv;                            (* _stylist *)
  d_background : colour;                     (* _background_colour *)
  d_direction : string;                      (* _direction *)
  d_label : pv; d_label_location : pv; d_label_colour : pv; d_label_url : pv;
  d_label_bg : pv; d_tooltip : pv; d_font : pv; d_font_size : pv;
  d_kwargs : sdict;
  d_gnode : option sdict;                    (* _global_node_style_overwrite *)
  d_gedge : option sdict;                    (* _global_edge_style_overwrite *)
  d_node_styles : dict name sdict;           (* _node_style_overwrites *)
  d_edge_styles : dict edge_id sdict;        (* _edge_style_overwrites *)
  d_node_colours : dict name pv;             (* _node_colour_overwrites *)
  d_edge_colours : dict edge_id ovr }.       (* _edge_colour_overwrites *)
#[global] Instance eta_display : Settable _ := settable! MkDisplay
  <d_overwrite; d_node_conv; d_edge_conv; d_scheme; d_stylist; d_background; d_direction;
   d_label; d_label_location; d_label_colour; d_label_url; d_label_bg; d_tooltip; d_font;
   d_font_size; d_kwargs; d_gnode; d_gedge; d_node_styles; d_edge_styles; d_node_colours;
   d_edge_colours>.

(** Graph instances.  [g_disp = None]: the instance was made by [copy] and
    lacks all the attributes in [display]
    (/repo/abstract/_BasicGraph.py:34-53). *)
Record graph := MkGraph {
  g_nodes : dict name nref; g_strict : bool; g_ordering : bool; g_counter : Z;
  g_disp : option display }.
#[global] Instance eta_graph : Settable _ := settable! MkGraph
  <g_nodes; g_strict; g_ordering; g_counter; g_disp>.

(** Calls of [warnings.warn] (/repo/abstract/_BasicGraph.py:283,697). *)
Inductive warning := WNode (n : name) | WEdge (i : edge_id).

(** All objects a program has made, and the warnings emitted so far
    (/repo/abstract/_BasicGraph.py:283, 697).  Python semantics otherwise. *)
Record heap := MkHeap {
  h_nodes : list node; h_edges : list edge; h_graphs : list graph;
  h_ns : list nstyle; h_es : list estyle; h_warns : list warning }.
#[global] Instance eta_heap : Settable _ := settable! MkHeap
  <h_nodes; h_edges; h_graphs; h_ns; h_es; h_warns>.

(** Before the first call: no objects.  Models no lines of /repo. *)
Definition empty_heap : heap := MkHeap [] [] [] [] [] [].

(** Heap-changing computations.  The heap after an exception is part of the
    result: Python does not roll back.  No lines of its own. *)
Definition M (A : Type) := heap → heap * res A.
(** Python semantics, no lines of its own: [return a]. *)
Definition sret {A} (a : A) : M A := λ h, (h, Ok a).
(** Python semantics, no lines of its own: [raise x]; the heap stays as it is. *)
Definition sraise {A} (x : exn) : M A := λ h, (h, Err x).
(** Python semantics, no lines of its own: statements in sequence; an exception skips the
    rest and keeps the changes made before it. *)
Definition sbind {A B} (m : M A) (k : A → M B) : M B := λ h,
  match m h with
  | (h', Ok a) => k a h'
  | (h', Err x) => (h', Err x)
  end.
(** A read-only computation (a property or query of the classes).  No lines of its own. *)
Definition sread {A} (f : heap → res A) : M A := λ h, (h, f h).
Notation "'let*' x ':=' m 'in' k" := (sbind m (λ x, k))
  (at level 200, x pattern, m at level 100, k at level 200, only parsing).
Notation "'do*' m 'in' k" := (sbind m (λ _, k))
  (at level 200, m at level 100, k at level 200, only parsing).

(** [for x in l: f x].  Python semantics; e.g. Node.py:461-462, _BasicGraph.py:96-97. *)
Fixpoint siter {A} (f : A → M unit) (l : list A) : M unit :=
  match l with
  | [] => sret tt
  | x :: l' => do* f x in siter f l'
  end.
(** A loop with local variables [b].  Python semantics; e.g. stylize_edges_based_on_nodes.py:5-19. *)
Fixpoint sfold {A B} (f : B → A → M B) (b : B) (l : list A) : M B :=
  match l with
  | [] => sret b
  | x :: l' => let* b' := f b x in sfold f b' l'
  end.

(** Dereferencing.  Python semantics, no lines of its own; a reference that denotes no object is outside the model. *)
Definition get_n (h : heap) (r : nref) : res node :=
  match h_nodes h !! r with Some N => Ok N | None => Err Unmodelled end.
(** Dereferencing an edge; see [get_n].  No lines of its own. *)
Definition get_e (h : heap) (e : eref) : res edge :=
  match h_edges h !! e with Some E => Ok E | None => Err Unmodelled end.
(** Dereferencing a graph; see [get_n].  No lines of its own. *)
Definition get_g (h : heap) (g : gref) : res graph :=
  match h_graphs h !! g with Some G => Ok G | None => Err Unmodelled end.

(** Attribute assignment on a node, e.g. Node.py:74-76, 232, _GraphObj.py:96. *)
Definition upd_n (r : nref) (f : node → node) : M unit := λ h,
  match h_nodes h !! r with
  | Some N => (h <| h_nodes := <[r := f N]> (h_nodes h) |>, Ok tt)
  | None => (h, Err Unmodelled)
  end.
(** Attribute assignment on an edge, e.g. Edge.py:196-198, _BasicGraph.py:733-734. *)
Definition upd_e (e : eref) (f : edge → edge) : M unit := λ h,
  match h_edges h !! e with
  | Some E => (h <| h_edges := <[e := f E]> (h_edges h) |>, Ok tt)
  | None => (h, Err Unmodelled)
  end.
(** Attribute assignment on a graph, e.g. _BasicGraph.py:260, 301,
    _GraphWithoutDisplay.py:432. *)
Definition upd_g (g : gref) (f : graph → graph) : M unit := λ h,
  match h_graphs h !! g with
  | Some G => (h <| h_graphs := <[g := f G]> (h_graphs h) |>, Ok tt)
  | None => (h, Err Unmodelled)
  end.

(** Allocation of a Node, e.g. _BasicGraph.py:297. *)
Definition new_n (N : node) : M nref := λ h,
  (h <| h_nodes := h_nodes h ++ [N] |>, Ok (length (h_nodes h))).
(** Allocation of an Edge, e.g. _BasicGraph.py:691. *)
Definition new_e (E : edge) : M eref := λ h,
  (h <| h_edges := h_edges h ++ [E] |>, Ok (length (h_edges h))).
(** Allocation of a graph, e.g. _BasicGraph.py:114, 135, 169. *)
Definition new_g (G : graph) : M gref := λ h,
  (h <| h_graphs := h_graphs h ++ [G] |>, Ok (length (h_graphs h))).
(** Allocation of a NodeStyle, e.g. Node.py:74. *)
Definition new_ns (sty : nstyle) : M sref := λ h,
  (h <| h_ns := h_ns h ++ [sty] |>, Ok (length (h_ns h))).
(** Allocation of an EdgeStyle, e.g. Edge.py:69. *)
Definition new_es (sty : estyle) : M sref := λ h,
  (h <| h_es := h_es h ++ [sty] |>, Ok (length (h_es h))).

(** [warnings.warn], _BasicGraph.py:283, 697; simplification: the filter never turns it into an error. *)
Definition warn (w : warning) : M unit := λ h,
  (h <| h_warns := h_warns h ++ [w] |>, Ok tt).
