(** Property theorems; the proofs are in ProofC5.v. *)
From Verif Require Import ProofC5.
Local Open Scope string_scope.
Local Open Scope list_scope.

(** C39.  A frozen node keeps its value and stays frozen as long as it is not
    unfrozen itself, whatever else happens. *)
Theorem C39_node_history : ∀ h h' r N, reachable h → h_nodes h !! r = Some N → n_frozen N = true →
  history (λ c, c ≠ CNodeFrozen r false) h h' →
  ∃ N', h_nodes h' !! r = Some N' ∧ n_frozen N' = true ∧ n_value N' = n_value N.
Proof. exact C39_node_history_proof. Qed.
Print Assumptions C39_node_history.

(** C39.  The same for edges. *)
Theorem C39_edge_history : ∀ h h' e E, reachable h → h_edges h !! e = Some E → e_frozen E = true →
  history (λ c, c ≠ CEdgeFrozen e false) h h' →
  ∃ E', h_edges h' !! e = Some E' ∧ e_frozen E' = true ∧ e_value E' = e_value E.
Proof. exact C39_edge_history_proof. Qed.
Print Assumptions C39_edge_history.

(** C39.  Assigning the value of a frozen object raises RuntimeError and changes
    nothing; add_node and connect that pass a value for it raise. *)
Theorem C39_raise : ∀ h g, reachable h →
  (∀ r N v, h_nodes h !! r = Some N → n_frozen N = true → node_set_value r v h = (h, Err RuntimeError)) ∧
  (∀ e E v, h_edges h !! e = Some E → e_frozen E = true → edge_set_value e v h = (h, Err RuntimeError)) ∧
  (∀ s r N a, named h g (NStr s) r → h_nodes h !! r = Some N → n_frozen N = true → a_value a ≠ PNone →
     ∃ x, (add_node g (AName (NStr s)) a h).2 = Err x) ∧
  (∀ x y s t e E a, denotes h g x s → denotes h g y t → joins h g e s t → h_edges h !! e = Some E →
     e_raw E = RId (c_id a) → e_frozen E = true → c_value a ≠ PNone → ∃ z, (connect g x y a h).2 = Err z).
Proof. exact C39_raise_proof. Qed.
Print Assumptions C39_raise.

(** Freeze b with value 5; then unfreeze another node, try to overwrite the value of
    b, copy the graph: b still has the value 5. *)
Example C39_node_history_ex : let h := run frozen_calls sample in let h' := run thaw_calls h in
  reachable h ∧ history (λ c, c ≠ CNodeFrozen 1 false) h h' ∧
  (∃ N, h_nodes h !! 1 = Some N ∧ n_frozen N = true ∧ n_value N = PInt 5) ∧
  (∃ N', h_nodes h' !! 1 = Some N' ∧ n_value N' = PInt 5 ∧ n_graph N' = None).
Proof. exact C39_node_history_ex_proof. Qed.
Print Assumptions C39_node_history_ex.

(** C40.  False: on a frozen node, add_node(name, label, value) raises after having
    changed the label. *)
Theorem C40_atomic_refuted : ∃ h g x a h', reachable h ∧ add_node g x a h = (h', Err RuntimeError) ∧ h_nodes h' ≠ h_nodes h.
Proof. exact C40_atomic_refuted_proof. Qed.
Print Assumptions C40_atomic_refuted.

(** C40.  False: add_node with a fresh name and an invalid style raises after having
    used up an index. *)
Theorem C40_index_refuted : ∃ h g x a h', reachable h ∧ add_node g x a h = (h', Err TypeError) ∧ h_graphs h' ≠ h_graphs h.
Proof. exact C40_index_refuted_proof. Qed.
Print Assumptions C40_index_refuted.

(** C40.  False for connect too. *)
Theorem C40_connect_refuted : ∃ h g x y a h', reachable h ∧ connect g x y a h = (h', Err RuntimeError) ∧ h_edges h' ≠ h_edges h.
Proof. exact C40_connect_refuted_proof. Qed.
Print Assumptions C40_connect_refuted.

(** C40, exact.  What a raising add_node may leave behind: nothing but warnings; or,
    when a value was passed for a frozen node, the style and label; or, when the
    style of a fresh name was rejected, an incremented index counter. *)
Theorem C40_add_node_exact_partial : ∀ h g x a h' ex, reachable h → allowed h (CAddNode g x a) → add_node g x a h = (h', Err ex) →
  (∃ w, h' = h <| h_warns := h_warns h ++ w |>) ∨
  (∃ s r N st l w, x = AName (NStr s) ∧ named h g (NStr s) r ∧ h_nodes h !! r = Some N ∧
     n_frozen N = true ∧ a_value a ≠ PNone ∧ ex = RuntimeError ∧
     optional_style nstyle_ctor h (length (h_ns h)) (n_style N) (n_graph N) (a_style a) = Ok (st, l) ∧
     h' = put_node h r (N <| n_style := st |> <| n_label := keep_or (a_label a) (n_label N) |>) l w) ∨
  (∃ s G, x = AName (NStr s) ∧ h_graphs h !! g = Some G ∧ NStr s ∉ (g_nodes G).*1 ∧
     restyled nstyle_ctor (length (h_ns h)) None (a_style a) = Err ex ∧
     h' = h <| h_graphs := <[g := G <| g_counter := (g_counter G + 1)%Z |>]> (h_graphs h) |>).
Proof. exact C40_add_node_exact_partial_proof. Qed.
Print Assumptions C40_add_node_exact_partial.

(** C40, exact, for connect. *)
Theorem C40_connect_exact_partial : ∀ h g x y a h' ex, reachable h → connect g x y a h = (h', Err ex) →
  (∃ w, h' = h <| h_warns := h_warns h ++ w |>) ∨
  (∃ s t e E st l w, denotes h g x s ∧ denotes h g y t ∧ joins h g e s t ∧ h_edges h !! e = Some E ∧ e_raw E = RId (c_id a) ∧
     e_frozen E = true ∧ c_value a ≠ PNone ∧ ex = RuntimeError ∧
     optional_style estyle_ctor h (length (h_es h)) (e_style E) (e_graph E) (c_style a) = Ok (st, l) ∧
     h' = put_edge h e (E <| e_style := st |> <| e_label := keep_or (c_label a) (e_label E) |>) l w).
Proof. exact C40_connect_exact_partial_proof. Qed.
Print Assumptions C40_connect_exact_partial.

(** C40.  Hence raising calls that pass no style and not both a label and a value
    leave every object as it was. *)
Theorem C40_plain_partial : ∀ h, reachable h →
  (∀ g x a h' ex, allowed h (CAddNode g x a) → a_style a = SNone → a_label a = PNone ∨ a_value a = PNone →
     add_node g x a h = (h', Err ex) → ∃ w, h' = h <| h_warns := h_warns h ++ w |>) ∧
  (∀ g x y a h' ex, c_style a = SNone → c_label a = PNone ∨ c_value a = PNone →
     connect g x y a h = (h', Err ex) → ∃ w, h' = h <| h_warns := h_warns h ++ w |>).
Proof. exact C40_plain_partial_proof. Qed.
Print Assumptions C40_plain_partial.

(** A raising add_node that passes only a value for the frozen node b. *)
Example C40_plain_ex : let h := run [CNodeFrozen 1 true] sample in let a := nargs0 <| a_value := PInt 1 |> in
  reachable h ∧ allowed h (CAddNode 0 (an "b") a) ∧
  (add_node 0 (an "b") a h).2 = Err RuntimeError ∧ h_nodes (add_node 0 (an "b") a h).1 = h_nodes h.
Proof. exact C40_plain_ex_proof. Qed.
Print Assumptions C40_plain_ex.

(** C41.  On a graph that does not allow overwriting, a style once given to a node
    stays, whatever happens. *)
Theorem C41_node_history : ∀ h h' g r N s G, reachable h → h_nodes h !! r = Some N → n_graph N = Some g →
  h_graphs h !! g = Some G → d_overwrite <$> g_disp G ≠ Some true → n_style N = Some s →
  history (λ _, True) h h' → ∃ N', h_nodes h' !! r = Some N' ∧ n_style N' = Some s.
Proof. exact C41_node_history_proof. Qed.
Print Assumptions C41_node_history.

(** C41.  The same for edges. *)
Theorem C41_edge_history : ∀ h h' g e E s G, reachable h → h_edges h !! e = Some E → e_graph E = Some g →
  h_graphs h !! g = Some G → d_overwrite <$> g_disp G ≠ Some true → e_style E = Some s →
  history (λ _, True) h h' → ∃ E', h_edges h' !! e = Some E' ∧ e_style E' = Some s.
Proof. exact C41_edge_history_proof. Qed.
Print Assumptions C41_edge_history.

(** C41.  Such an assignment raises RuntimeError and changes nothing but warnings:
    the setters, add_node and connect. *)
Theorem C41_raise : ∀ h g G d, reachable h → h_graphs h !! g = Some G → g_disp G = Some d → d_overwrite d = false →
  (∀ r N s a, h_nodes h !! r = Some N → n_graph N = Some g → n_style N = Some s →
     node_set_style r a h = (h, Err RuntimeError)) ∧
  (∀ e E s a, h_edges h !! e = Some E → e_graph E = Some g → e_style E = Some s →
     edge_set_style e a h = (h, Err RuntimeError)) ∧
  (∀ k r N s a, named h g (NStr k) r → h_nodes h !! r = Some N → n_style N = Some s → a_style a ≠ SNone →
     lenient (a_mode a) = true → ∃ w, add_node g (AName (NStr k)) a h = (h <| h_warns := h_warns h ++ w |>, Err RuntimeError)) ∧
  (∀ x y p q e E s a, denotes h g x p → denotes h g y q → joins h g e p q → h_edges h !! e = Some E →
     e_raw E = RId (c_id a) → e_style E = Some s → c_style a ≠ SNone →
     lenient (c_mode a) = true → ∃ w, connect g x y a h = (h <| h_warns := h_warns h ++ w |>, Err RuntimeError)).
Proof. exact C41_raise_proof. Qed.
Print Assumptions C41_raise.

(** C41.  With style_overwrite_allowed=True, or when there was no style, an accepted
    assignment takes effect: the given style object, or a new one built from the
    given dict. *)
Theorem C41_replace : ∀ h g G d, reachable h → h_graphs h !! g = Some G → g_disp G = Some d →
  (∀ r N s, h_nodes h !! r = Some N → n_graph N = Some g → d_overwrite d = true ∨ n_style N = None →
     node_set_style r (SObj s) h = (put_node h r (N <| n_style := Some s |>) [] [], Ok tt) ∧
     (∀ dc sty, nstyle_ctor dc = Ok sty →
        node_set_style r (SDict dc) h = (put_node h r (N <| n_style := Some (length (h_ns h)) |>) [sty] [], Ok tt))) ∧
  (∀ e E s, h_edges h !! e = Some E → e_graph E = Some g → d_overwrite d = true ∨ e_style E = None →
     edge_set_style e (SObj s) h = (put_edge h e (E <| e_style := Some s |>) [] [], Ok tt) ∧
     (∀ dc sty, estyle_ctor dc = Ok sty →
        edge_set_style e (SDict dc) h = (put_edge h e (E <| e_style := Some (length (h_es h)) |>) [sty] [], Ok tt))).
Proof. exact C41_replace_proof. Qed.
Print Assumptions C41_replace.

(** Node a of the sample gets a style; the second assignment is refused. *)
Example C41_node_history_ex : let h := run [CNodeStyle 0 (SDict [])] sample in
  reachable h ∧ (∃ N G d, h_nodes h !! 0 = Some N ∧ n_graph N = Some 0 ∧ n_style N = Some 0 ∧
    h_graphs h !! 0 = Some G ∧ g_disp G = Some d ∧ d_overwrite d = false) ∧
  node_set_style 0 (SDict []) h = (h, Err RuntimeError).
Proof. exact C41_node_history_ex_proof. Qed.
Print Assumptions C41_node_history_ex.

(** C51.  False: graph 1 of the sample was created with strict=True; a second edge
    with another id between a and z is accepted. *)
Theorem C51_strict_refuted : ∃ h g G e1 e2 x y, reachable h ∧ h_graphs h !! g = Some G ∧ g_strict G = true ∧
  joins h g e1 x y ∧ joins h g e2 x y ∧ e1 ≠ e2.
Proof. exact C51_strict_refuted_proof. Qed.
Print Assumptions C51_strict_refuted.

(** C51.  The flag has no effect on connect at all: with any extra id not yet used
    between the two nodes, connect makes one more edge whatever the flag is.  What
    remains true is C06: no two edges with the same start, end and id. *)
Theorem C51_flag_ignored_partial : ∀ h g x y s t u, reachable h → denotes h g x s → denotes h g y t →
  (∀ e E, h_edges h !! e = Some E → joins h g e s t → e_raw E ≠ RId u) →
  ∃ h', connect g x y (eargs0 <| c_id := u |>) h = (h', Ok (length (h_edges h))) ∧ joins h' g (length (h_edges h)) s t ∧
    (∀ e, joins h g e s t → joins h' g e s t).
Proof. exact C51_flag_ignored_partial_proof. Qed.
Print Assumptions C51_flag_ignored_partial.

(** C52.  False: the node object is filed again, but it does not report the graph,
    and its queries fail. *)
Theorem C52_readd_refuted : ∃ h g r h', reachable h ∧ in_graph h g r ∧ h' = (remove_node g (ANode r) h).1 ∧
  ∃ h'', add_node g (ANode r) nargs0 h' = (h'', Ok (Some r)) ∧ in_graph h'' g r ∧
    node_graph h'' r = Err AttributeError ∧ ¬ consistent h''.
Proof. exact C52_readd_refuted_proof. Qed.
Print Assumptions C52_readd_refuted.

(** C52, exact.  Adding a removed node object to a graph without its name: it is filed
    last, nothing else changes, and it goes on reporting no graph, so that every query
    that goes through node.graph fails. *)
Theorem C52_readd_exact_partial : ∀ h g G r N a, reachable h → h_graphs h !! g = Some G → h_nodes h !! r = Some N →
  n_graph N = None → n_id N ∉ (g_nodes G).*1 →
  let h' := h <| h_graphs := <[g := G <| g_nodes := g_nodes G ++ [(n_id N, r)] |>]> (h_graphs h) |> in
  add_node g (ANode r) a h = (h', Ok (Some r)) ∧
  in_graph h' g r ∧ node_graph h' r = Err AttributeError ∧ node_descendants h' r = Err AttributeError ∧
  node_children h' r = Err AttributeError ∧ node_parents h' r = Err AttributeError ∧
  node_is_in_loop h' r = Err AttributeError ∧ (∀ x b, connect_to r x b h' = (h', Err AttributeError)).
Proof. exact C52_readd_exact_partial_proof. Qed.
Print Assumptions C52_readd_exact_partial.

(** C52.  add_node of a node object that is already in the graph changes nothing and
    always returns None. *)
Theorem C52_returns_none_partial : ∀ h g r a, reachable h → in_graph h g r → add_node g (ANode r) a h = (h, Ok None).
Proof. exact C52_returns_none_partial_proof. Qed.
Print Assumptions C52_returns_none_partial.

(** C52.  False: add_node(node) does not return the node. *)
Theorem C52_returns_none_refuted : ∃ h g r, reachable h ∧ in_graph h g r ∧ (add_node g (ANode r) nargs0 h).2 = Ok None.
Proof. exact C52_returns_none_refuted_proof. Qed.
Print Assumptions C52_returns_none_refuted.

(** C39, instance for edges: edge 0 with value 5 is frozen, then written to and
    removed; another edge is unfrozen. *)
Example C39_edge_history_ex : let h := run [CEdgeValue 0 (PInt 5); CEdgeFrozen 0 true] sample in
  let h' := run [CEdgeFrozen 1 false; CEdgeValue 0 (PInt 6); CConnect 0 (an "a") (an "b") (eargs0 <| c_value := PInt 7 |>); CDisconnect 0] h in
  reachable h ∧ history (λ c, c ≠ CEdgeFrozen 0 false) h h' ∧
  (∃ E, h_edges h !! 0 = Some E ∧ e_frozen E = true ∧ e_value E = PInt 5) ∧
  (∃ E', h_edges h' !! 0 = Some E' ∧ e_value E' = PInt 5 ∧ e_graph E' = None).
Proof. exact C39_edge_history_ex_proof. Qed.
Print Assumptions C39_edge_history_ex.

(** C39, instance for the raising calls: node b and edge 0 are frozen. *)
Example C39_raise_ex : let h := run [CNodeFrozen 1 true; CEdgeFrozen 0 true] sample in
  reachable h ∧ named h 0 (NStr "b") 1 ∧ n_frozen <$> h_nodes h !! 1 = Some true ∧ joins h 0 0 0 1 ∧
  e_frozen <$> h_edges h !! 0 = Some true ∧ e_raw <$> h_edges h !! 0 = Some (RId None) ∧
  (add_node 0 (an "b") (nargs0 <| a_value := PInt 1 |>) h).2 = Err RuntimeError ∧
  (connect 0 (an "a") (an "b") (eargs0 <| c_value := PInt 1 |>) h).2 = Err RuntimeError.
Proof. exact C39_raise_ex_proof. Qed.
Print Assumptions C39_raise_ex.

(** C40, instance of the exact description: the label of the frozen node b is changed,
    then the call raises; a fresh name with an unacceptable style uses up an index. *)
Example C40_add_node_exact_ex : let h := run [CNodeFrozen 1 true] sample in
  let a := nargs0 <| a_label := PStr "L" |> <| a_value := PInt 1 |> in let b := nargs0 <| a_style := SOther |> in
  reachable h ∧ allowed h (CAddNode 0 (an "b") a) ∧ allowed h (CAddNode 0 (an "new") b) ∧
  (∃ h', add_node 0 (an "b") a h = (h', Err RuntimeError) ∧ n_label <$> h_nodes h' !! 1 = Some (PStr "L")) ∧
  (∃ h', add_node 0 (an "new") b h = (h', Err TypeError) ∧ g_counter <$> h_graphs h !! 0 = Some 4%Z ∧ g_counter <$> h_graphs h' !! 0 = Some 5%Z).
Proof. exact C40_add_node_exact_ex_proof. Qed.
Print Assumptions C40_add_node_exact_ex.

(** C40, instance for connect: the label of the frozen edge 0. *)
Example C40_connect_exact_ex : let h := run [CEdgeFrozen 0 true] sample in
  let a := eargs0 <| c_label := PStr "L" |> <| c_value := PInt 1 |> in
  reachable h ∧ ∃ h', connect 0 (an "a") (an "b") a h = (h', Err RuntimeError) ∧ e_label <$> h_edges h' !! 0 = Some (PStr "L").
Proof. exact C40_connect_exact_ex_proof. Qed.
Print Assumptions C40_connect_exact_ex.

(** C41, instance for edges, and for the raising calls. *)
Example C41_raise_ex : let h := run [CNodeStyle 0 (SDict []); CEdgeStyle 0 (SDict [])] sample in
  reachable h ∧ (∃ N G d, h_nodes h !! 0 = Some N ∧ n_graph N = Some 0 ∧ n_style N = Some 0 ∧
    h_graphs h !! 0 = Some G ∧ g_disp G = Some d ∧ d_overwrite d = false) ∧
  (∃ E, h_edges h !! 0 = Some E ∧ e_graph E = Some 0 ∧ e_style E = Some 0) ∧ joins h 0 0 0 1 ∧
  (add_node 0 (an "a") (nargs0 <| a_style := SDict [] |>) h).2 = Err RuntimeError ∧
  (connect 0 (an "a") (an "b") (eargs0 <| c_style := SObj 0 |>) h).2 = Err RuntimeError.
Proof. exact C41_raise_ex_proof. Qed.
Print Assumptions C41_raise_ex.

(** C41, instance for replacing: a graph that allows overwriting; a red style is
    replaced by a blue one. *)
Example C41_replace_ex : let h := run [CNew false true (disp0 <| d_overwrite := true |>); CAddNode 0 (an "a") nargs0;
    CNodeStyle 0 (SDict [("colour", PStr "red")])] empty_heap in
  reachable h ∧ (∃ N G d, h_nodes h !! 0 = Some N ∧ n_graph N = Some 0 ∧ n_style N = Some 0 ∧
    h_graphs h !! 0 = Some G ∧ g_disp G = Some d ∧ d_overwrite d = true) ∧
  ∃ h', node_set_style 0 (SDict [("colour", PStr "blue")]) h = (h', Ok tt) ∧ n_style <$> h_nodes h' !! 0 = Some (Some 1) ∧
    ns_colour <$> h_ns h' !! 1 = Some (CName "blue").
Proof. exact C41_replace_ex_proof. Qed.
Print Assumptions C41_replace_ex.

(** C51, instance: graph 1 of the sample is strict and gets a parallel edge. *)
Example C51_flag_ignored_ex : reachable sample ∧ denotes sample 1 (an "a") 4 ∧ denotes sample 1 (an "z") 5 ∧
  (∀ e E, h_edges sample !! e = Some E → joins sample 1 e 4 5 → e_raw E ≠ RId (Some (nm "y"))) ∧
  g_strict <$> h_graphs sample !! 1 = Some true ∧ joins sample 1 6 4 5.
Proof. exact C51_flag_ignored_ex_proof. Qed.
Print Assumptions C51_flag_ignored_ex.

(** C52, instance: node b after its removal. *)
Example C52_readd_exact_ex : let h := run [CRemoveNode 0 (an "b")] sample in
  reachable h ∧ (∃ G N, h_graphs h !! 0 = Some G ∧ h_nodes h !! 1 = Some N ∧ n_graph N = None ∧ n_id N ∉ (g_nodes G).*1) ∧
  (add_node 0 (ANode 1) nargs0 h).2 = Ok (Some 1).
Proof. exact C52_readd_exact_ex_proof. Qed.
Print Assumptions C52_readd_exact_ex.

(** C52, instance: a node of the sample. *)
Example C52_returns_none_ex : reachable sample ∧ in_graph sample 0 1 ∧ (add_node 0 (ANode 1) nargs0 sample).2 = Ok None.
Proof. exact C52_returns_none_ex_proof. Qed.
Print Assumptions C52_returns_none_ex.
