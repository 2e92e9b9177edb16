(** Property theorems; the proofs are in ProofC32.v. *)
From Verif Require Import ProofC32.
Local Open Scope string_scope.
Local Open Scope list_scope.

(** C77.  What is read under a key of a node stays the same, whatever calls are made, until
    that key of that node is assigned. *)
Theorem C77_node_history : ∀ h h' r N k, reachable h → h_nodes h !! r = Some N →
  history (λ c, ∀ v, c ≠ CNodeParam r k v) h h' → node_get_param h' r k = node_get_param h r k.
Proof. exact C77_node_history_proof. Qed.
Print Assumptions C77_node_history.

(** C77.  The same for edges. *)
Theorem C77_edge_history : ∀ h h' e E k, reachable h → h_edges h !! e = Some E →
  history (λ c, ∀ v, c ≠ CEdgeParam e k v) h h' → edge_get_param h' e k = edge_get_param h e k.
Proof. exact C77_edge_history_proof. Qed.
Print Assumptions C77_edge_history.

(** C77.  A value assigned under a key is what is read under it, right after and at any
    later time before the next assignment; assigning never fails. *)
Theorem C77_set_get : ∀ h h' k v, reachable h →
  (∀ r N, h_nodes h !! r = Some N → (node_set_param r k v h).2 = Ok tt ∧
     (history (λ c, ∀ v, c ≠ CNodeParam r k v) (after (CNodeParam r k v) h) h' → node_get_param h' r k = Ok v)) ∧
  (∀ e E, h_edges h !! e = Some E → (edge_set_param e k v h).2 = Ok tt ∧
     (history (λ c, ∀ v, c ≠ CEdgeParam e k v) (after (CEdgeParam e k v) h) h' → edge_get_param h' e k = Ok v)).
Proof. exact C77_set_get_proof. Qed.
Print Assumptions C77_set_get.

(** C77.  Example: a parameter of node a survives other assignments, a removal of the node and
    styling; a key that was never assigned raises KeyError all along. *)
Example C77_ex : let h := after (CNodeParam 0 "size" (PInt 7)) sample in
  let h' := run [CNodeParam 0 "other" (PInt 1); CNodeParam 1 "size" (PInt 2); CRemoveNode 0 (an "a"); CStylize 0 id] h in
  reachable sample ∧ history (λ c, ∀ v, c ≠ CNodeParam 0 "size" v) h h' ∧ is_Some (h_nodes sample !! 0) ∧
  node_get_param h' 0 "size" = Ok (PInt 7) ∧ node_get_param h' 0 "other" = Ok (PInt 1) ∧
  node_get_param sample 0 "size" = Err KeyError.
Proof. exact C77_ex_proof. Qed.
Print Assumptions C77_ex.

(** C78.  A node object keeps its name, its index and its tooltip for ever; it belongs to the
    graph it was made in or, once removed, to none, and then never to any graph again. *)
Theorem C78_node : ∀ P h h' r N, reachable h → history P h h' → h_nodes h !! r = Some N →
  ∃ N', h_nodes h' !! r = Some N' ∧ n_id N' = n_id N ∧ n_index N' = n_index N ∧ n_tooltip N' = n_tooltip N ∧
    (n_graph N' = n_graph N ∨ n_graph N' = None).
Proof. exact C78_node_proof. Qed.
Print Assumptions C78_node.

(** C78.  An edge object keeps its start, its end, its extra id and its graph as long as it is
    in a graph; once it is out, it never gets into any graph again. *)
Theorem C78_edge : ∀ P h h' e E, reachable h → history P h h' → h_edges h !! e = Some E →
  ∃ E', h_edges h' !! e = Some E' ∧ e_tooltip E' = e_tooltip E ∧
    (e_graph E' = None ∨
     e_graph E' = e_graph E ∧ e_start E' = e_start E ∧ e_end E' = e_end E ∧ e_raw E' = e_raw E).
Proof. exact C78_edge_proof. Qed.
Print Assumptions C78_edge.

(** C78.  So a name denotes the same node object, and an edge joins the same nodes under the
    same id, until they are removed; *)
Theorem C78_lookup : ∀ P h h' g, reachable h → history P h h' →
  (∀ k r, named h g k r → named h' g k r ∨ ∃ N, h_nodes h' !! r = Some N ∧ n_graph N = None) ∧
  (∀ e s t i, joins h g e s t → has_id h g e i →
     joins h' g e s t ∧ has_id h' g e i ∨ ∃ E, h_edges h' !! e = Some E ∧ e_graph E = None).
Proof. exact C78_lookup_proof. Qed.
Print Assumptions C78_lookup.

(** C78.  and afterwards the removed objects never come back: no name denotes the removed node
    in any graph, no edge has it as an end, and the removed edge joins nothing. *)
Theorem C78_gone : ∀ P h h' , reachable h → history P h h' →
  (∀ r N, h_nodes h !! r = Some N → n_graph N = None →
     (∀ g k, ¬ named h' g k r) ∧ (∀ g e x, ¬ joins h' g e r x ∧ ¬ joins h' g e x r)) ∧
  (∀ e E, h_edges h !! e = Some E → e_graph E = None → ∀ g s t, ¬ joins h' g e s t).
Proof. exact C78_gone_proof. Qed.
Print Assumptions C78_gone.

(** C78.  Example: node b of the sample is removed and a new node of the same name is added;
    the name then denotes the new object. *)
Example C78_ex : let h := after (CRemoveNode 0 (an "b")) sample in
  let h' := after (CAddNode 0 (an "b") nargs0) h in
  reachable sample ∧ history (λ _, True) sample h' ∧ named sample 0 (NStr "b") 1 ∧
  (∃ N, h_nodes h !! 1 = Some N ∧ n_graph N = None) ∧ (∃ r, named h' 0 (NStr "b") r ∧ r ≠ 1).
Proof. exact C78_ex_proof. Qed.
Print Assumptions C78_ex.
