(** Property theorems; the proofs are in ProofC40.v. *)
From Verif Require Import ProofC40.
Local Open Scope string_scope.
Local Open Scope list_scope.

(** C81.  A node leaves its graph only through remove_node of that node: any other call,
    whether it returns or raises, leaves it where it is. *)
Theorem C81_node_lost : ∀ h c g k r, reachable h → allowed h c → named h g k r →
  named (after c h) g k r ∨ ∃ x, c = CRemoveNode g x ∧ denotes h g x r.
Proof. exact C81_node_lost_proof. Qed.
Print Assumptions C81_node_lost.

(** C81.  An edge leaves its graph only through disconnect or remove_self of that edge,
    remove_edges of one of its ends, or remove_node of one of its ends. *)
Theorem C81_edge_lost : ∀ h c g e s t, reachable h → allowed h c → joins h g e s t →
  joins (after c h) g e s t ∨ c = CDisconnect e ∨ c = CRemoveSelf e ∨ c = CRemoveEdges s ∨ c = CRemoveEdges t ∨
  ∃ x, c = CRemoveNode g x ∧ (denotes h g x s ∨ denotes h g x t).
Proof. exact C81_edge_lost_proof. Qed.
Print Assumptions C81_edge_lost.

(** C81.  A node comes into an existing graph only through add_node, Node or append on that
    graph; add_node and Node bring only a node of the name given. *)
Theorem C81_node_made : ∀ h c g k r, reachable h → allowed h c → is_Some (h_graphs h !! g) → named (after c h) g k r →
  named h g k r ∨ (∃ a, c = CAddNode g (AName k) a) ∨ (∃ a i, c = CNodeCtor g k a i) ∨
  (∃ o, c = CAppend g o) ∨ (∃ os, c = CAppendAll g os).
Proof. exact C81_node_made_proof. Qed.
Print Assumptions C81_node_made.

(** C81.  An edge comes into an existing graph only through connect, connect_to, connect_from
    or Edge, given the two nodes it then joins, or through append on that graph. *)
Theorem C81_edge_made : ∀ h c g e s t, reachable h → allowed h c → is_Some (h_graphs h !! g) → joins (after c h) g e s t →
  joins h g e s t ∨
  (∃ x y a, c = CConnect g x y a ∧ denotes h g x s ∧ denotes h g y t) ∨
  (∃ y a, c = CConnectTo s y a ∧ denotes h g y t) ∨ (∃ x a, c = CConnectFrom t x a ∧ denotes h g x s) ∨
  (∃ a, c = CEdgeCtor g s t a) ∨ (∃ o, c = CAppend g o) ∨ (∃ os, c = CAppendAll g os).
Proof. exact C81_edge_made_proof. Qed.
Print Assumptions C81_edge_made.

(** C81.  So along any sequence of calls, failing ones included, without remove_node on the
    graph every node of it stays, and without remove_node, disconnect, remove_self and
    remove_edges every edge. *)
Theorem C81_history : ∀ h h' g, reachable h →
  (history (λ c, ∀ x, c ≠ CRemoveNode g x) h h' → ∀ k r, named h g k r → named h' g k r) ∧
  (history (λ c, (∀ x, c ≠ CRemoveNode g x) ∧ (∀ e, c ≠ CDisconnect e ∧ c ≠ CRemoveSelf e) ∧ (∀ r, c ≠ CRemoveEdges r)) h h' →
     ∀ e s t, joins h g e s t → joins h' g e s t).
Proof. exact C81_history_proof. Qed.
Print Assumptions C81_history.

(** C81.  Example: in the sample, remove_node of b takes node 1 and its edge 0 away, a failing
    remove_node of z takes nothing, connect brings edge 7. *)
Example C81_ex : reachable sample ∧ allowed sample (CRemoveNode 0 (an "b")) ∧ named sample 0 (NStr "b") 1 ∧ joins sample 0 0 0 1 ∧
  ¬ named (after (CRemoveNode 0 (an "b")) sample) 0 (NStr "b") 1 ∧ ¬ joins (after (CRemoveNode 0 (an "b")) sample) 0 0 0 1 ∧
  (remove_node 0 (an "z") sample).2 = Err KeyError ∧ named (after (CRemoveNode 0 (an "z")) sample) 0 (NStr "b") 1 ∧
  (let h := after (CConnect 1 (an "a") (an "z") (eargs0 <| c_id := Some (nm "new") |>)) sample in joins h 1 7 4 5 ∧ ¬ joins sample 1 7 4 5).
Proof. exact C81_ex_proof. Qed.
Print Assumptions C81_ex.
