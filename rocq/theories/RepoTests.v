(** The unit tests of the project (abstract/test), run on the model.  These are
    checks of the model, not theorems.  test_add_child (test_node.py:28-34) is
    missing: it files a Node as an edge, which the types of the model exclude. *)
From Verif Require Import Samples ModelQuery.
Local Open Scope string_scope.
Local Open Scope list_scope.

(** The fixtures of test_edge.py:8-29: a graph, nodes 0 and 1, edge 0. *)
Definition edge_calls : list call :=
  [CNew false true disp0; CNodeCtor 0 (nm "StartNode") nargs0 0; CNodeCtor 0 (nm "EndNode") nargs0 0;
   CEdgeCtor 0 0 1 (eargs0 <| c_id := Some (nm "edge1") |>)].
Definition edge_heap : heap := run edge_calls empty_heap.
(** test_edge.py:32-36 *)
Example test_edge_initialization :
  edge_start edge_heap 0 = Ok 0 ∧ edge_end edge_heap 0 = Ok 1 ∧ (e_raw <$> h_edges edge_heap !! 0) = Some (RId (Some (nm "edge1"))).
Proof. by vm_compute. Qed.
(** test_edge.py:39-43.  The style object is made by the assignment. *)
Example test_edge_style :
  let h := after (CEdgeStyle 0 (SDict [])) edge_heap in
  (edge_set_style 0 (SDict []) edge_heap).2 = Ok tt ∧ (e_style <$> h_edges h !! 0) = Some (Some 0) ∧ is_Some (h_es h !! 0).
Proof. vm_compute. eauto. Qed.
(** test_edge.py:46-55 *)
Example test_remove_edge :
  let h := after (CRemoveSelf 0) edge_heap in
  (remove_self 0 edge_heap).2 = Ok tt ∧ (e_start <$> h_edges h !! 0) = Some None ∧ (e_end <$> h_edges h !! 0) = Some None ∧
  (e_graph <$> h_edges h !! 0) = Some None ∧ (n_out <$> h_nodes h !! 0) = Some [] ∧ (n_in <$> h_nodes h !! 1) = Some [].
Proof. by vm_compute. Qed.

(** test_graph.py:17-21 *)
Definition node_heap : heap := run [CNew false true disp0; CNodeCtor 0 (nm "TestNode") nargs0 0] empty_heap.
Example test_add_node :
  let h := after (CAddNode 0 (ANode 0) nargs0) node_heap in
  (∃ r, (add_node 0 (ANode 0) nargs0 node_heap).2 = Ok r) ∧ ∃ l, nodes h 0 = Ok l ∧ node_in h 0 l = true.
Proof. vm_compute. eauto. Qed.
(** test_graph.py:24-30 *)
Example test_remove_node :
  let h1 := after (CAddNode 0 (ANode 0) nargs0) node_heap in
  let h := after (CRemoveNode 0 (ANode 0)) h1 in
  (remove_node 0 (ANode 0) h1).2 = Ok tt ∧ ∃ l, nodes h 0 = Ok l ∧ node_in h 0 l = false.
Proof. vm_compute. eauto. Qed.

(** test_graph.py:32-43: nodes 0 Paris, 1 France, 2 Europe, 3 London, 4 England;
    edges 0 capital_of_france, 1 france_in_europe, 2 capital_of_england,
    3 england_in_europe. *)
Definition complex_calls : list call :=
  [CNew false true disp0; CNodeCtor 0 (nm "Paris") nargs0 0; CNodeCtor 0 (nm "France") nargs0 0; CNodeCtor 0 (nm "Europe") nargs0 0;
   CNodeCtor 0 (nm "London") nargs0 0; CNodeCtor 0 (nm "England") nargs0 0;
   CConnectTo 0 (ANode 1) eargs0; CConnectTo 1 (ANode 2) eargs0; CConnectTo 3 (ANode 4) eargs0; CConnectTo 4 (ANode 2) eargs0].
Definition complex_heap : heap := run complex_calls empty_heap.
Lemma complex_reachable : reachable complex_heap.
Proof. unfold complex_heap, complex_calls. reach_ctor. Qed.
(** test_graph.py:45-80 *)
Example test_complex_graph :
  let h := complex_heap in
  let id e := get_edge_id h e in
  let entry d e := match id e with Ok i => d = Some [(i, e)] | Err _ => False end in
  entry (n_out <$> h_nodes h !! 0) 0 ∧ entry (n_out <$> h_nodes h !! 1) 1 ∧ entry (n_out <$> h_nodes h !! 3) 2 ∧
  id 1 = Ok (nm "France", nm "Europe", RId None) ∧
  entry (n_in <$> h_nodes h !! 1) 0 ∧ entry (n_in <$> h_nodes h !! 4) 2 ∧
  node_children h 0 = Ok [1] ∧ node_children h 1 = Ok [2] ∧ node_children h 4 = Ok [2] ∧ node_children h 3 = Ok [4] ∧
  node_parents h 0 = Ok [] ∧ node_parents h 1 = Ok [0] ∧ node_parents h 2 = Ok [1; 4] ∧ node_parents h 4 = Ok [3] ∧
  node_ancestors h 0 = Ok [] ∧ node_ancestors h 1 = Ok [0] ∧ node_ancestors h 2 = Ok [1; 0; 4; 3] ∧ node_ancestors h 3 = Ok [] ∧
  node_descendants h 0 = Ok [1; 2] ∧ node_descendants h 1 = Ok [2] ∧ node_descendants h 2 = Ok [] ∧ node_descendants h 3 = Ok [4; 2] ∧
  num_descendants h 0 = Ok 2 ∧ num_descendants h 1 = Ok 1 ∧ num_descendants h 2 = Ok 0 ∧ num_descendants h 3 = Ok 2 ∧
  node_co_parents h 4 = Ok [1] ∧ node_co_parents h 1 = Ok [4].
Proof. vm_compute. repeat split. Qed.

(** test_node.py:7-25 *)
Definition two_heap : heap := run
  [CNew false true disp0; CNodeCtor 0 (nm "TestNode") (nargs0 <| a_value := PInt 42 |> <| a_label := PStr "Test Node" |>) 0;
   CNodeCtor 0 (nm "ChildNode") (nargs0 <| a_value := PInt 42 |> <| a_label := PStr "Child Node" |>) 0;
   CEdgeCtor 0 0 1 (eargs0 <| c_id := Some (nm "edge1") |>)] empty_heap.
Example test_node_initialization :
  ∃ N, h_nodes two_heap !! 0 = Some N ∧ n_id N = nm "TestNode" ∧ n_value N = PInt 42 ∧ n_label N = PStr "Test Node" ∧ n_style N = None.
Proof. vm_compute. eauto 10. Qed.
Example test_node_style :
  let h := after (CNodeStyle 0 (SDict [])) two_heap in
  (node_set_style 0 (SDict []) two_heap).2 = Ok tt ∧ (n_style <$> h_nodes h !! 0) = Some (Some 0) ∧ is_Some (h_ns h !! 0).
Proof. vm_compute. eauto. Qed.
