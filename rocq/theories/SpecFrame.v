(** What it means for a graph to be left alone, and the graph a call works on
    (properties C23, C36, C53). *)
From Verif Require Export SpecOps.

(** Graph [g] is the same in [h'] as in [h]: the graph object, its nodes and its
    edges (all their attributes), no node or edge more or less.  *)
Record unchanged (g : gref) (h h' : heap) : Prop := {
  un_graph : h_graphs h' !! g = h_graphs h !! g;
  un_nodes : ∀ r N, n_graph N = Some g → h_nodes h' !! r = Some N ↔ h_nodes h !! r = Some N;
  un_edges : ∀ e E, e_graph E = Some g → h_edges h' !! e = Some E ↔ h_edges h !! e = Some E }.
(** The style objects that existed are the same. *)
Definition styles_kept (h h' : heap) : Prop :=
  (∀ s S, h_ns h !! s = Some S → h_ns h' !! s = Some S) ∧ (∀ s S, h_es h !! s = Some S → h_es h' !! s = Some S).

(** Style objects that no node (edge) outside graph [g] uses. *)
Definition own_nstyle (h : heap) (g : gref) (s : sref) : Prop :=
  s < length (h_ns h) ∧ ∀ r N, h_nodes h !! r = Some N → n_style N = Some s → n_graph N = Some g.
Definition own_estyle (h : heap) (g : gref) (s : sref) : Prop :=
  s < length (h_es h) ∧ ∀ e E, h_edges h !! e = Some E → e_style E = Some s → e_graph E = Some g.
(** These style objects are the same. *)
Definition own_styles_kept (g : gref) (h h' : heap) : Prop :=
  (∀ s, own_nstyle h g s → h_ns h' !! s = h_ns h !! s) ∧ (∀ s, own_estyle h g s → h_es h' !! s = h_es h !! s).

(** The graph a call works on, if any; calls that make a new graph work on none. *)
Definition target (h : heap) (c : call) : option gref :=
  match c with
  | CAddNode g _ _ | CConnect g _ _ _ | CRemoveNode g _ | CNodeCtor g _ _ _ | CEdgeCtor g _ _ _
  | CAppend g _ | CAppendAll g _ | CStylize g _ | CRender _ g _ _ _ | CAdd _ _ _ g _ | CBackground g _ => Some g
  | CConnectTo r _ _ | CConnectFrom r _ _ | CRemoveEdges r
  | CNodeStyle r _ | CNodeValue r _ | CNodeLabel r _ | CNodeFrozen r _ | CNodeParam r _ _ =>
      match h_nodes h !! r with Some N => n_graph N | None => None end
  | CDisconnect e | CRemoveSelf e
  | CEdgeStyle e _ | CEdgeValue e _ | CEdgeLabel e _ | CEdgeFrozen e _ | CEdgeParam e _ _ =>
      match h_edges h !! e with Some E => e_graph E | None => None end
  | _ => None
  end.

(** Calls that write on existing style objects. *)
Definition writes_styles (c : call) : bool :=
  match c with CStylize _ _ | CRender _ _ _ _ _ | CNStyleSet _ _ | CEStyleSet _ _ => true | _ => false end.
(** The call is the assignment of attributes of one given style object that only [g] uses. *)
Definition restyles_own (h : heap) (g : gref) (c : call) : Prop :=
  match c with CNStyleSet s _ => own_nstyle h g s | CEStyleSet s _ => own_estyle h g s | _ => False end.

(** [aside g h h']: some allowed calls, none of them on graph [g], lead from [h] to [h']. *)
Inductive aside (g : gref) : heap → heap → Prop :=
| aside_nil h : aside g h h
| aside_cons h h' c : aside g h h' → allowed h' c → target h' c ≠ Some g → aside g h (after c h').

(** Every object of [h] is in [h'], unchanged: at most new objects were made. *)
Record extends (h h' : heap) : Prop := {
  ex_nodes : ∀ r N, h_nodes h !! r = Some N → h_nodes h' !! r = Some N;
  ex_edges : ∀ e E, h_edges h !! e = Some E → h_edges h' !! e = Some E;
  ex_graphs : ∀ g G, h_graphs h !! g = Some G → h_graphs h' !! g = Some G;
  ex_styles : styles_kept h h' }.

(** Calls that return a new graph (g1 + g2 apart). *)
Definition makes_graph (c : call) : bool :=
  match c with
  | CNew _ _ _ | CCopy _ | CFilter _ _ _ _ | CFromLists _ _ _ _ _ | CFromObject _ _ _ _ _ _ _ _ _ _
  | CFromText _ _ _ _ | CRandom _ _ _ _ _ _ _ _ | CGraphOf _ _ _ _ | CFromDict _ _ => true
  | _ => false
  end.
