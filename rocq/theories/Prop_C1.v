(** Property theorems; the proofs are in ProofC1.v. *)
From Verif Require Import ProofC1.
Local Open Scope string_scope.
Local Open Scope list_scope.

(** C01.  After any history of calls (failing ones included) the heap is
    consistent: see [consistent] in Spec.v. *)
Theorem C01_consistent : ∀ h, reachable h → consistent h.
Proof. exact C01_consistent_proof. Qed.
Print Assumptions C01_consistent.

(** C01, instance: a reachable heap with edges in it. *)
Example C01_consistent_ex : reachable sample ∧
  (∃ N, h_nodes sample !! 2 = Some N ∧ length (n_out N) = 2 ∧ length (n_in N) = 2).
Proof. exact C01_consistent_ex_proof. Qed.
Print Assumptions C01_consistent_ex.

(** C02.  add_node with a fresh str name: one node object is appended, it is
    filed last in the graph, the index counter is incremented; nothing else
    changes.  If the style argument is rejected, only the counter changes. *)
Theorem C02_add_node_fresh : ∀ h g G s a, reachable h →
  h_graphs h !! g = Some G → NStr s ∉ (g_nodes G).*1 →
  let G1 := G <| g_counter := (g_counter G + 1)%Z |> in
  let r := length (h_nodes h) in
  add_node g (AName (NStr s)) a h =
  match restyled nstyle_ctor (length (h_ns h)) None (a_style a) with
  | Ok (st, l) =>
    (h <| h_nodes := h_nodes h ++ [MkNode (Some g) (NStr s) (a_value a) (a_label a) (a_tooltip a) st false
                                     (a_params a) [] [] (g_counter G)] |>
       <| h_graphs := <[g := G1 <| g_nodes := g_nodes G ++ [(NStr s, r)] |>]> (h_graphs h) |>
       <| h_ns := h_ns h ++ l |>, Ok (Some r))
  | Err x => (h <| h_graphs := <[g := G1]> (h_graphs h) |>, Err x)
  end.
Proof. exact C02_add_node_fresh_proof. Qed.
Print Assumptions C02_add_node_fresh.

(** C02, instance. *)
Example C02_add_node_fresh_ex : reachable sample ∧
  (∃ G, h_graphs sample !! 0 = Some G ∧ NStr "new" ∉ (g_nodes G).*1) ∧
  (add_node 0 (an "new") nargs0 sample).2 = Ok (Some 6).
Proof. exact C02_add_node_fresh_ex_proof. Qed.
Print Assumptions C02_add_node_fresh_ex.

(** C03.  add_node with the name of an existing node. *)
Theorem C03_add_node_existing : ∀ h g s a r N, reachable h →
  named h g (NStr s) r → h_nodes h !! r = Some N →
  add_node g (AName (NStr s)) a h =
  if lenient (a_mode a) then node_updated h r N a (warning_of (a_mode a) (WNode (NStr s)))
  else (h, Err KeyError).
Proof. exact C03_add_node_existing_proof. Qed.
Print Assumptions C03_add_node_existing.

(** C03.  Hence no call of add_node with an existing name touches an edge, a graph
    object or another node, and the node keeps its name, graph, edges, index. *)
Theorem C03_add_node_existing_frame : ∀ h g s a r N, reachable h →
  named h g (NStr s) r → h_nodes h !! r = Some N →
  let h' := (add_node g (AName (NStr s)) a h).1 in
  h_edges h' = h_edges h ∧ h_graphs h' = h_graphs h ∧
  ∃ N', h_nodes h' = <[r := N']> (h_nodes h) ∧
    n_id N' = n_id N ∧ n_graph N' = n_graph N ∧ n_out N' = n_out N ∧ n_in N' = n_in N ∧
    n_index N' = n_index N ∧ n_frozen N' = n_frozen N ∧ n_params N' = n_params N ∧ n_tooltip N' = n_tooltip N.
Proof. exact C03_add_node_existing_frame_proof. Qed.
Print Assumptions C03_add_node_existing_frame.

(** C03, instance: a label update with a warning, and a refused call. *)
Example C03_add_node_existing_ex : reachable sample ∧ named sample 0 (NStr "b") 1 ∧
  (∃ h', add_node 0 (an "b") (nargs0 <| a_label := PStr "B" |>) sample = (h', Ok (Some 1)) ∧
     h_warns h' = [WNode (NStr "b")] ∧ n_label <$> h_nodes h' !! 1 = Some (PStr "B")) ∧
  add_node 0 (an "b") (nargs0 <| a_mode := "error" |>) sample = (sample, Err KeyError).
Proof. exact C03_add_node_existing_ex_proof. Qed.
Print Assumptions C03_add_node_existing_ex.

(** C05.  connect when no edge with this start, end and id exists: one edge object
    is appended to the heap; it is filed last among the outward edges of its
    start and the inward edges of its end.  Nothing else changes.  If the style
    argument is rejected nothing changes at all. *)
Theorem C05_connect_new : ∀ h g x y a s t Ns Nt, reachable h →
  denotes h g x s → denotes h g y t → h_nodes h !! s = Some Ns → h_nodes h !! t = Some Nt →
  (∀ e E, h_edges h !! e = Some E → e_raw E = RId (c_id a) → ¬ joins h g e s t) →
  let i := (n_id Ns, n_id Nt, RId (c_id a)) in
  let e := length (h_edges h) in
  connect g x y a h =
  match restyled estyle_ctor (length (h_es h)) None (c_style a) with
  | Ok (st, l) =>
    (h <| h_nodes := imap (with_new_edge s t i e) (h_nodes h) |>
       <| h_edges := h_edges h ++ [MkEdge (Some g) (RId (c_id a)) (c_value a) (c_label a) (c_tooltip a) st false
                                     (c_params a) (Some s) (Some t)] |>
       <| h_es := h_es h ++ l |>, Ok e)
  | Err x => (h, Err x)
  end.
Proof. exact C05_connect_new_proof. Qed.
Print Assumptions C05_connect_new.

(** C05.  The new edge joins the two nodes, all other edges join what they joined. *)
Theorem C05_connect_new_joins : ∀ h g x y a s t Ns Nt h' e, reachable h →
  denotes h g x s → denotes h g y t → h_nodes h !! s = Some Ns → h_nodes h !! t = Some Nt →
  (∀ e E, h_edges h !! e = Some E → e_raw E = RId (c_id a) → ¬ joins h g e s t) →
  connect g x y a h = (h', Ok e) →
  ∀ g' e' u v, joins h' g' e' u v ↔ joins h g' e' u v ∨ (g' = g ∧ e' = e ∧ u = s ∧ v = t).
Proof. exact C05_connect_new_joins_proof. Qed.
Print Assumptions C05_connect_new_joins.

(** C05, instance: a second self-loop, under another id. *)
Example C05_connect_new_ex : reachable sample ∧ denotes sample 0 (an "c") 2 ∧
  (∀ e E, h_edges sample !! e = Some E → e_raw E = RId (Some (nm "y")) → ¬ joins sample 0 e 2 2) ∧
  (connect 0 (an "c") (an "c") (eargs0 <| c_id := Some (nm "y") |>) sample).2 = Ok 7.
Proof. exact C05_connect_new_ex_proof. Qed.
Print Assumptions C05_connect_new_ex.

(** C06.  connect when the edge exists already. *)
Theorem C06_connect_existing : ∀ h g x y a s t Ns Nt e E, reachable h →
  denotes h g x s → denotes h g y t → h_nodes h !! s = Some Ns → h_nodes h !! t = Some Nt →
  joins h g e s t → h_edges h !! e = Some E → e_raw E = RId (c_id a) →
  connect g x y a h =
  if lenient (c_mode a)
  then edge_updated h e E a (warning_of (c_mode a) (WEdge (n_id Ns, n_id Nt, RId (c_id a))))
  else (h, Err ValueError).
Proof. exact C06_connect_existing_proof. Qed.
Print Assumptions C06_connect_existing.

(** C06.  Hence connect on an existing edge touches no node, no graph object and no
    other edge. *)
Theorem C06_connect_existing_frame : ∀ h g x y a s t Ns Nt e E, reachable h →
  denotes h g x s → denotes h g y t → h_nodes h !! s = Some Ns → h_nodes h !! t = Some Nt →
  joins h g e s t → h_edges h !! e = Some E → e_raw E = RId (c_id a) →
  let h' := (connect g x y a h).1 in
  h_nodes h' = h_nodes h ∧ h_graphs h' = h_graphs h ∧
  ∃ E', h_edges h' = <[e := E']> (h_edges h) ∧
    e_raw E' = e_raw E ∧ e_graph E' = e_graph E ∧ e_start E' = e_start E ∧ e_end E' = e_end E ∧
    e_frozen E' = e_frozen E ∧ e_params E' = e_params E ∧ e_tooltip E' = e_tooltip E.
Proof. exact C06_connect_existing_frame_proof. Qed.
Print Assumptions C06_connect_existing_frame.

(** C06.  In a reachable heap two different edges of a graph never have the same
    start, end and id. *)
Theorem C06_ids_unique : ∀ h g e1 e2 E1 E2 s t, reachable h →
  h_edges h !! e1 = Some E1 → h_edges h !! e2 = Some E2 → joins h g e1 s t → joins h g e2 s t →
  e_raw E1 = e_raw E2 → e1 = e2.
Proof. exact C06_ids_unique_proof. Qed.
Print Assumptions C06_ids_unique.

(** C06, instance: edge 0 of the sample joins a and b; edge 3 too, under id x. *)
Example C06_connect_existing_ex : reachable sample ∧ joins sample 0 0 0 1 ∧ joins sample 0 3 0 1 ∧
  (∃ h', connect 0 (an "a") (an "b") (eargs0 <| c_value := PInt 3 |>) sample = (h', Ok 0) ∧
     e_value <$> h_edges h' !! 0 = Some (PInt 3) ∧ length (h_warns h') = 1) ∧
  connect 0 (an "a") (an "b") (eargs0 <| c_mode := "error" |>) sample = (sample, Err ValueError).
Proof. exact C06_connect_existing_ex_proof. Qed.
Print Assumptions C06_connect_existing_ex.

(** C07.  Adding a new edge and removing it again, by disconnect or remove_self,
    restores all nodes and graphs; what stays behind is the dead edge object
    and the style object made for it. *)
Theorem C07_connect_disconnect : ∀ h g x y a s t h1 e (remove : eref → M unit), reachable h →
  allowed h (CConnect g x y a) → denotes h g x s → denotes h g y t →
  (∀ e E, h_edges h !! e = Some E → e_raw E = RId (c_id a) → ¬ joins h g e s t) →
  connect g x y a h = (h1, Ok e) → remove = disconnect ∨ remove = remove_self →
  ∃ h2 E l, remove e h1 = (h2, Ok tt) ∧
    h_nodes h2 = h_nodes h ∧ h_graphs h2 = h_graphs h ∧ h_ns h2 = h_ns h ∧ h_warns h2 = h_warns h ∧
    h_edges h2 = h_edges h ++ [E] ∧ e_graph E = None ∧ h_es h2 = h_es h ++ l.
Proof. exact C07_connect_disconnect_proof. Qed.
Print Assumptions C07_connect_disconnect.

(** C07, instance: a self-loop is added and removed. *)
Example C07_connect_disconnect_ex : reachable sample ∧
  allowed sample (CConnect 0 (an "b") (an "b") eargs0) ∧ denotes sample 0 (an "b") 1 ∧
  (∀ e E, h_edges sample !! e = Some E → e_raw E = RId None → ¬ joins sample 0 e 1 1) ∧
  (∃ h1, connect 0 (an "b") (an "b") eargs0 sample = (h1, Ok 7) ∧ h_nodes h1 ≠ h_nodes sample).
Proof. exact C07_connect_disconnect_ex_proof. Qed.
Print Assumptions C07_connect_disconnect_ex.

(** C08.  remove_node: with [es] the edges that start or end in the node, the
    entries of [es] disappear from all edge dictionaries (the others keep their
    order), the edges [es] lose graph, start and end, the node loses its graph
    and is taken out of the graph; nothing else changes. *)
Theorem C08_remove_node : ∀ h g x r N G, reachable h → denotes h g x r →
  h_nodes h !! r = Some N → h_graphs h !! g = Some G →
  ∃ h' es, remove_node g x h = (h', Ok tt) ∧
    (∀ e, e ∈ es ↔ ∃ y, joins h g e r y ∨ joins h g e y r) ∧
    h_nodes h' = <[r := N <| n_graph := None |> <| n_out := [] |> <| n_in := [] |>]> (without_edges es <$> h_nodes h) ∧
    h_edges h' = imap (λ e E, if decide (e ∈ es) then E <| e_start := None |> <| e_end := None |> <| e_graph := None |> else E) (h_edges h) ∧
    h_graphs h' = <[g := G <| g_nodes := filter (λ kv, kv.2 ≠ r) (g_nodes G : list (name * nref)) |>]> (h_graphs h) ∧
    h_ns h' = h_ns h ∧ h_es h' = h_es h ∧ h_warns h' = h_warns h.
Proof. exact C08_remove_node_proof. Qed.
Print Assumptions C08_remove_node.

(** C08.  Hence an edge of any graph survives remove_node iff it did not touch the
    node, and survives with the same ends. *)
Theorem C08_surviving_edges : ∀ h g x r h', reachable h → denotes h g x r →
  remove_node g x h = (h', Ok tt) →
  ∀ g' e u v, joins h' g' e u v ↔ joins h g' e u v ∧ u ≠ r ∧ v ≠ r.
Proof. exact C08_surviving_edges_proof. Qed.
Print Assumptions C08_surviving_edges.

(** C08, instance: removing c, which has a self-loop and lies on a cycle. *)
Example C08_remove_node_ex : reachable sample ∧ denotes sample 0 (an "c") 2 ∧
  (∃ h', remove_node 0 (an "c") sample = (h', Ok tt) ∧
    ((λ N, (length (n_out N), length (n_in N))) <$> h_nodes h') = [(2, 0); (0, 2); (0, 0); (0, 0); (1, 0); (0, 1)]).
Proof. exact C08_remove_node_ex_proof. Qed.
Print Assumptions C08_remove_node_ex.

(** C09.  Removing a live edge: its entries disappear, the edge loses its graph;
    nothing else changes. *)
Theorem C09_remove_live : ∀ h e E g, reachable h → h_edges h !! e = Some E → e_graph E = Some g →
  disconnect e h = (h <| h_nodes := without_edges [e] <$> h_nodes h |>
    <| h_edges := <[e := E <| e_raw := RDead |> <| e_graph := None |>]> (h_edges h) |>, Ok tt) ∧
  remove_self e h = (h <| h_nodes := without_edges [e] <$> h_nodes h |>
    <| h_edges := <[e := E <| e_start := None |> <| e_end := None |> <| e_graph := None |>]> (h_edges h) |>, Ok tt).
Proof. exact C09_remove_live_proof. Qed.
Print Assumptions C09_remove_live.

(** C09.  In particular exactly this edge is gone. *)
Theorem C09_remove_live_joins : ∀ h e E g (remove : eref → M unit), reachable h →
  h_edges h !! e = Some E → e_graph E = Some g → remove = disconnect ∨ remove = remove_self →
  ∃ h', remove e h = (h', Ok tt) ∧
  ∀ g' e' u v, joins h' g' e' u v ↔ joins h g' e' u v ∧ e' ≠ e.
Proof. exact C09_remove_live_joins_proof. Qed.
Print Assumptions C09_remove_live_joins.

(** C09.  Removing a dead edge again raises and changes nothing. *)
Theorem C09_remove_dead : ∀ h e E, reachable h → h_edges h !! e = Some E → e_graph E = None →
  (∃ x, disconnect e h = (h, Err x) ∧ (x = ValueError ∨ x = KeyError)) ∧
  (∃ x, remove_self e h = (h, Err x) ∧ (x = ValueError ∨ x = KeyError)).
Proof. exact C09_remove_dead_proof. Qed.
Print Assumptions C09_remove_dead.

(** C09, instance: edge 4 is a live self-loop, edge 5 was disconnected. *)
Example C09_remove_ex : reachable sample ∧
  e_graph <$> h_edges sample !! 4 = Some (Some 0) ∧ e_graph <$> h_edges sample !! 5 = Some None ∧
  (disconnect 4 sample).2 = Ok tt ∧ (disconnect 5 sample).2 = Err KeyError ∧
  (remove_self 4 (remove_self 4 sample).1).2 = Err ValueError.
Proof. exact C09_remove_ex_proof. Qed.
Print Assumptions C09_remove_ex.

(** C10.  The id of an edge between two nodes of a graph is either in both
    dictionaries or in none, so neither of the two branches of connect that
    report an inconsistency is ever taken. *)
Theorem C10_no_weird_branch : ∀ h g s t Ns Nt u, reachable h →
  h_nodes h !! s = Some Ns → h_nodes h !! t = Some Nt → n_graph Ns = Some g → n_graph Nt = Some g →
  (n_id Ns, n_id Nt, u) ∈ (n_out Ns).*1 ↔ (n_id Ns, n_id Nt, u) ∈ (n_in Nt).*1.
Proof. exact C10_no_weird_branch_proof. Qed.
Print Assumptions C10_no_weird_branch.

(** C10.  A lenient connect without style succeeds between any two nodes, unless it
    is asked to change the value of a frozen edge. *)
Theorem C10_connect_succeeds : ∀ h g x y a s t, reachable h →
  denotes h g x s → denotes h g y t → c_style a = SNone → lenient (c_mode a) = true →
  (∀ e E, h_edges h !! e = Some E → joins h g e s t → e_raw E = RId (c_id a) → e_frozen E = false ∨ c_value a = PNone) →
  ∃ h' e, connect g x y a h = (h', Ok e) ∧ joins h' g e s t.
Proof. exact C10_connect_succeeds_proof. Qed.
Print Assumptions C10_connect_succeeds.

(** C10, instance: both cases of the biconditional occur in the sample. *)
Example C10_connect_succeeds_ex : reachable sample ∧
  (∃ Ns Nt, h_nodes sample !! 0 = Some Ns ∧ h_nodes sample !! 1 = Some Nt ∧
    (n_id Ns, n_id Nt, RId None) ∈ (n_out Ns).*1 ∧ (n_id Nt, n_id Ns, RId None) ∉ (n_out Nt).*1) ∧
  denotes sample 0 (an "a") 0.
Proof. exact C10_connect_succeeds_ex_proof. Qed.
Print Assumptions C10_connect_succeeds_ex.

(** C11.  Calls that name a node which is not in the graph raise KeyError and change
    nothing.  The queries are functions of the heap, so they cannot change it. *)
Theorem C11_unknown_node : ∀ h g x, reachable h → unknown h g x →
  get_node h g x = Err KeyError ∧ remove_node g x h = (h, Err KeyError) ∧
  get_parents h g x = Err KeyError ∧ get_children h g x = Err KeyError ∧
  get_ancestors h g x = Err KeyError ∧ get_descendants h g x = Err KeyError ∧
  get_ancestors_dist h g x = Err KeyError ∧ get_descendants_dist h g x = Err KeyError ∧
  (∀ y s a, denotes h g y s → connect g x y a h = (h, Err KeyError) ∧ connect g y x a h = (h, Err KeyError)) ∧
  (∀ a, connect g x x a h = (h, Err KeyError)).
Proof. exact C11_unknown_node_proof. Qed.
Print Assumptions C11_unknown_node.

(** C11, instance: a name, and a node object of another graph. *)
Example C11_unknown_node_ex : reachable sample ∧ unknown sample 0 (an "z") ∧ unknown sample 0 (ANode 5) ∧ denotes sample 0 (an "a") 0.
Proof. exact C11_unknown_node_ex_proof. Qed.
Print Assumptions C11_unknown_node_ex.
