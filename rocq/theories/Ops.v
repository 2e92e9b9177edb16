(** The calls a client program can make, and the heaps that such programs reach.
    An exception ends the call but not the program, so the heap it leaves behind
    counts as reached. *)
From Verif Require Export ModelBuild ModelDot ModelObj.

(** One constructor per public call that changes state:
    /repo/abstract/_BasicGraph.py, _GraphWithoutDisplay.py, Graph.py, Node.py,
    Edge.py, _GraphObj.py (the lines are cited at the function each constructor runs,
    see [after]).  Not included: assigning [raw_id] (_GraphObj.py:71-73, see C63),
    [reset_colours] of a style (NodeStyle.py:54-57, EdgeStyle.py:49-50), and writing
    private attributes.  [render] with a path, [get_svg] and the display in notebooks
    leave the same heap as [render] (C65, C74).  [CNodeCtor] and [CEdgeCtor] are [Node(...)] and
    [Edge(...)] called directly. *)
Inductive call :=
| CNew (strict ordering : bool) (d : display)
| CAddNode (g : gref) (x : narg) (a : nargs)
| CConnect (g : gref) (x y : narg) (a : eargs)
| CConnectTo (r : nref) (x : narg) (a : eargs)
| CConnectFrom (r : nref) (x : narg) (a : eargs)
| CDisconnect (e : eref)
| CRemoveSelf (e : eref)
| CRemoveEdges (r : nref)
| CRemoveNode (g : gref) (x : narg)
| CNodeStyle (r : nref) (a : sarg) | CNodeValue (r : nref) (v : pv) | CNodeLabel (r : nref) (v : pv)
| CNodeFrozen (r : nref) (b : bool) | CNodeParam (r : nref) (k : string) (v : pv)
| CEdgeStyle (e : eref) (a : sarg) | CEdgeValue (e : eref) (v : pv) | CEdgeLabel (e : eref) (v : pv)
| CEdgeFrozen (e : eref) (b : bool) | CEdgeParam (e : eref) (k : string) (v : pv)
| CNodeCtor (g : gref) (n : name) (a : nargs) (index : Z)
| CEdgeCtor (g : gref) (s t : nref) (a : eargs)
| CCopy (g : gref)
| CFilter (g : gref) (xs : list narg) (direction filter_type : string)
| CFromLists (d : display) (start end_ : list string) (labels : list pv) (strict : bool)
| CFromObject (children parents : nat → list nat) (hash : nat → name) (ostr : nat → string)
    (fuel : nat) (d : display) (obj : nat) (strict : bool) (max_depth max_height : option Z)
| CFromText (d : display) (root : string) (lines : list string) (indent : option string)
| CRandom (d : display) (num_nodes : nat) (strict cycle : bool) (start_index : Z) (p : Q)
    (ordering : bool) (draws : nat → Q)
| CAppend (g : gref) (o : gobj)
| CAppendAll (g : gref) (os : list gobj)
| CGraphOf (strict ordering : bool) (d : display) (o : gobj)
| CFromDict (d : display) (r : grepr)
| CAdd (d : display) (f : pv → pv → res pv) (order : list name → list name) (g1 g2 : gref)
| CStylize (g : gref) (shuffle : list nref → list nref)
| CRender (env : penv) (g : gref) (direction : string) (pad : pv) (shuffle : list nref → list nref)
| CBackground (g : gref) (v : pv)
| CNStyleNew (d : sdict) | CNStyleDerive (invert : bool) (s : sref) | CNStyleSet (s : sref) (d : sdict)
| CEStyleNew (d : sdict) | CEStyleDerive (invert : bool) (s : sref) | CEStyleSet (s : sref) (d : sdict).

(** The heap after the call, whether it returns or raises: the functions cited at
    each model definition, dispatched; no lines of its own. *)
Definition after (c : call) (h : heap) : heap :=
  match c with
  | CNew strict ordering d => (new_graph strict ordering d h).1
  | CAddNode g x a => (add_node g x a h).1
  | CConnect g x y a => (connect g x y a h).1
  | CConnectTo r x a => (connect_to r x a h).1
  | CConnectFrom r x a => (connect_from r x a h).1
  | CDisconnect e => (disconnect e h).1
  | CRemoveSelf e => (remove_self e h).1
  | CRemoveEdges r => (remove_edges r h).1
  | CRemoveNode g x => (remove_node g x h).1
  | CNodeStyle r a => (node_set_style r a h).1
  | CNodeValue r v => (node_set_value r v h).1
  | CNodeLabel r v => (node_set_label r v h).1
  | CNodeFrozen r b => (node_set_frozen r b h).1
  | CNodeParam r k v => (node_set_param r k v h).1
  | CEdgeStyle e a => (edge_set_style e a h).1
  | CEdgeValue e v => (edge_set_value e v h).1
  | CEdgeLabel e v => (edge_set_label e v h).1
  | CEdgeFrozen e b => (edge_set_frozen e b h).1
  | CEdgeParam e k v => (edge_set_param e k v h).1
  | CNodeCtor g n a i => (node_ctor g n a i h).1
  | CEdgeCtor g s t a => (edge_ctor g s t a h).1
  | CCopy g => (copy g h).1
  | CFilter g xs d ft => (filter_graph g xs d ft h).1
  | CFromLists d s t l strict => (from_lists d s t l strict h).1
  | CFromObject ch pa hash ostr fuel d obj strict md mh =>
      (from_object ch pa hash ostr fuel d obj strict md mh h).1
  | CFromText d root lines indent => (from_indented_text d root lines indent h).1
  | CRandom d n strict cycle si p ord draws => (random_graph d n strict cycle si p ord draws h).1
  | CAppend g o => (graph_append g o h).1
  | CAppendAll g os => (append_all g os h).1
  | CGraphOf strict ordering d o => (graph_of strict ordering d o h).1
  | CFromDict d r => (from_dict d r h).1
  | CAdd d f order g1 g2 => (add_graphs d f order g1 g2 h).1
  | CStylize g sh => (stylize g sh h).1
  | CRender env g dir pad sh => (render env g dir pad sh h).1
  | CBackground g v => (set_background g v h).1
  | CNStyleNew d => (make_nstyle d h).1
  | CNStyleDerive b s => (derive_nstyle b s h).1
  | CNStyleSet s d => (set_nstyle s d h).1
  | CEStyleNew d => (make_estyle d h).1
  | CEStyleDerive b s => (derive_estyle b s h).1
  | CEStyleSet s d => (set_estyle s d h).1
  end.

(** A style object passed to a call was made before the call.  A fact about
    Python, no lines of /repo. *)
Definition style_exists (n : nat) (a : sarg) : Prop := match a with SObj s => s < n | _ => True end.
(** The same for the style objects inside a [__graph__] dictionary,
    _GraphWithoutDisplay.py:526-545. *)
Definition repr_exists (n m : nat) (d : grepr) : Prop :=
  match r_nodes d with inl nd => ∀ k a, (k, a) ∈ nd → style_exists n (a_style a) | inr _ => True end ∧
  ∀ p c a, E3 p c a ∈ r_edges d → style_exists m (c_style a).
(** The same for an argument of append or Graph(obj), _GraphWithoutDisplay.py:407-429. *)
Definition obj_exists (n m : nat) (o : gobj) : Prop :=
  match o with ODict d => repr_exists n m d | _ => True end.

(** What a program must respect for the library to keep its bookkeeping right (a
    restriction on client programs, no lines of its own):
    - style objects exist (Python cannot pass an object that was never made);
    - a node object that was removed from its graph is not passed to add_node
      (re-adding it is property C52);
    - [Node(...)] called directly uses a name that the graph does not have yet,
      and [Edge(...)] called directly joins two nodes of its graph under an id
      that is not in use;
    - [random.Random(42).shuffle] permutes the list. *)
Definition allowed (h : heap) (c : call) : Prop :=
  match c with
  | CAddNode g x a =>
      style_exists (length (h_ns h)) (a_style a) ∧
      (∀ r N, x = ANode r → h_nodes h !! r = Some N → n_graph N ≠ None)
  | CConnect _ _ _ a | CConnectTo _ _ a | CConnectFrom _ _ a => style_exists (length (h_es h)) (c_style a)
  | CNodeStyle _ a => style_exists (length (h_ns h)) a
  | CEdgeStyle _ a => style_exists (length (h_es h)) a
  | CNodeCtor g n a _ =>
      style_exists (length (h_ns h)) (a_style a) ∧
      ∃ G, h_graphs h !! g = Some G ∧ n ∉ (g_nodes G).*1
  | CEdgeCtor g s t a =>
      style_exists (length (h_es h)) (c_style a) ∧
      ∃ Ns Nt, h_nodes h !! s = Some Ns ∧ h_nodes h !! t = Some Nt ∧
        n_graph Ns = Some g ∧ n_graph Nt = Some g ∧
        (n_id Ns, n_id Nt, RId (c_id a)) ∉ (n_out Ns).*1
  | CAppend _ o | CGraphOf _ _ _ o => obj_exists (length (h_ns h)) (length (h_es h)) o
  | CAppendAll _ os => ∀ o, o ∈ os → obj_exists (length (h_ns h)) (length (h_es h)) o
  | CFromDict _ r => repr_exists (length (h_ns h)) (length (h_es h)) r
  | CStylize _ shuffle | CRender _ _ _ _ shuffle => ∀ l, shuffle l ≡ₚ l
  | _ => True
  end.

(** The heaps that client programs reach: any sequence of allowed calls, an
    exception ending only its own call.  Models client programs, no lines of /repo. *)
Inductive reachable : heap → Prop :=
| reach_start : reachable empty_heap
| reach_call h c : reachable h → allowed h c → reachable (after c h).

(** Running a whole program.  Models client programs, no lines of /repo. *)
Definition run (cs : list call) (h : heap) : heap := fold_left (λ h c, after c h) cs h.
