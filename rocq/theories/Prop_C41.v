(** Property theorems; the proofs are in ProofC41.v. *)
From Verif Require Import ProofC41.
Local Open Scope string_scope.
Local Open Scope list_scope.

(** C82.  The value and the label of a node of a graph change only through an assignment to
    them, which gives the value assigned, through add_node naming the node, which gives the
    value passed, and through append on the graph.  Whatever else is called, and whether it
    returns or raises, they stay. *)
Theorem C82_node : ∀ h c g k r N, reachable h → allowed h c → named h g k r → h_nodes h !! r = Some N →
  ∃ N', h_nodes (after c h) !! r = Some N' ∧
    (n_value N' = n_value N ∨ c = CNodeValue r (n_value N') ∨ (∃ a, c = CAddNode g (AName k) a ∧ a_value a = n_value N') ∨
     (∃ o, c = CAppend g o) ∨ (∃ os, c = CAppendAll g os)) ∧
    (n_label N' = n_label N ∨ c = CNodeLabel r (n_label N') ∨ (∃ a, c = CAddNode g (AName k) a ∧ a_label a = n_label N') ∨
     (∃ o, c = CAppend g o) ∨ (∃ os, c = CAppendAll g os)).
Proof. exact C82_node_proof. Qed.
Print Assumptions C82_node.

(** C82.  The same for an edge; the calls that may name it are connect, connect_to and
    connect_from, given its two ends. *)
Theorem C82_edge : ∀ h c g e s t E, reachable h → allowed h c → joins h g e s t → h_edges h !! e = Some E →
  ∃ E', h_edges (after c h) !! e = Some E' ∧
    (e_value E' = e_value E ∨ c = CEdgeValue e (e_value E') ∨
     (∃ x y a, c = CConnect g x y a ∧ denotes h g x s ∧ denotes h g y t ∧ c_value a = e_value E') ∨
     (∃ y a, c = CConnectTo s y a ∧ denotes h g y t ∧ c_value a = e_value E') ∨
     (∃ x a, c = CConnectFrom t x a ∧ denotes h g x s ∧ c_value a = e_value E') ∨
     (∃ o, c = CAppend g o) ∨ (∃ os, c = CAppendAll g os)) ∧
    (e_label E' = e_label E ∨ c = CEdgeLabel e (e_label E') ∨
     (∃ x y a, c = CConnect g x y a ∧ denotes h g x s ∧ denotes h g y t ∧ c_label a = e_label E') ∨
     (∃ y a, c = CConnectTo s y a ∧ denotes h g y t ∧ c_label a = e_label E') ∨
     (∃ x a, c = CConnectFrom t x a ∧ denotes h g x s ∧ c_label a = e_label E') ∨
     (∃ o, c = CAppend g o) ∨ (∃ os, c = CAppendAll g os)).
Proof. exact C82_edge_proof. Qed.
Print Assumptions C82_edge.

(** C82.  So what was assigned is what is read, until the next such call, as long as the node
    (the edge) is in the graph: for calls of any kind, an assignment gives exactly the value
    unless the object is frozen, and a history without assigning calls keeps it. *)
Theorem C82_set_get : ∀ h h' g v, reachable h →
  (∀ k r N N', named h g k r → h_nodes h !! r = Some N →
     history (λ c, (∀ v, c ≠ CNodeValue r v) ∧ (∀ a, c ≠ CAddNode g (AName k) a) ∧ (∀ o, c ≠ CAppend g o) ∧ (∀ os, c ≠ CAppendAll g os))
       (after (CNodeValue r v) h) h' → named h' g k r → h_nodes h' !! r = Some N' →
     n_value N' = if n_frozen N then n_value N else v) ∧
  (∀ e s t E E', joins h g e s t → h_edges h !! e = Some E →
     history (λ c, (∀ v, c ≠ CEdgeValue e v) ∧ (∀ x y a, c ≠ CConnect g x y a) ∧ (∀ y a, c ≠ CConnectTo s y a) ∧
                   (∀ x a, c ≠ CConnectFrom t x a) ∧ (∀ o, c ≠ CAppend g o) ∧ (∀ os, c ≠ CAppendAll g os))
       (after (CEdgeValue e v) h) h' → joins h' g e s t → h_edges h' !! e = Some E' →
     e_value E' = if e_frozen E then e_value E else v).
Proof. exact C82_set_get_proof. Qed.
Print Assumptions C82_set_get.

(** C82.  Example: node a of the sample gets the value 7, keeps it while other nodes and edges
    are changed, a call fails and the graph is styled; frozen, it keeps it when assigned. *)
Example C82_ex : let h := after (CNodeValue 0 (PInt 7)) sample in
  let h' := run [CAddNode 0 (an "new") (nargs0 <| a_value := PInt 1 |>); CRemoveNode 0 (an "zz"); CRemoveNode 0 (an "c"); CNodeLabel 0 (PStr "l"); CStylize 0 id] h in
  reachable sample ∧ named sample 0 (NStr "a") 0 ∧
  history (λ c, (∀ v, c ≠ CNodeValue 0 v) ∧ (∀ a, c ≠ CAddNode 0 (AName (NStr "a")) a) ∧ (∀ o, c ≠ CAppend 0 o) ∧ (∀ os, c ≠ CAppendAll 0 os)) h h' ∧
  named h' 0 (NStr "a") 0 ∧ n_value <$> h_nodes h' !! 0 = Some (PInt 7) ∧ n_label <$> h_nodes h' !! 0 = Some (PStr "l") ∧
  n_value <$> h_nodes sample !! 0 ≠ Some (PInt 7) ∧
  n_value <$> h_nodes (run [CNodeFrozen 0 true; CNodeValue 0 (PInt 8)] h') !! 0 = Some (PInt 7).
Proof. exact C82_ex_proof. Qed.
Print Assumptions C82_ex.
