(** Property theorems; the proofs are in ProofC20.v. *)
From Verif Require Import ProofC20.
Local Open Scope list_scope.

(** C05.  node.connect_to(x) does what graph.connect(node, x) does, and the edge it
    returns goes from the node to x; node.connect_from(x) does what
    graph.connect(x, node) does, and the edge it returns goes from x to the node. *)
Theorem C05_from_node : ∀ h g r x t a, reachable h → in_graph h g r → denotes h g x t →
  connect_to r x a h = connect g (ANode r) x a h ∧ connect_from r x a h = connect g x (ANode r) a h ∧
  (∀ h' e, connect_to r x a h = (h', Ok e) → joins h' g e r t) ∧ (∀ h' e, connect_from r x a h = (h', Ok e) → joins h' g e t r).
Proof. exact C05_from_node_proof. Qed.
Print Assumptions C05_from_node.

(** C05, instance: both calls on node b of the sample, with node c, succeed. *)
Example C05_from_node_ex : reachable sample ∧ in_graph sample 0 1 ∧ denotes sample 0 (an "c") 2 ∧
  (∃ h' e, connect_to 1 (an "c") (eargs0 <| c_id := Some (nm "y") |>) sample = (h', Ok e)) ∧ ∃ h' e, connect_from 1 (an "c") (eargs0 <| c_id := Some (nm "y") |>) sample = (h', Ok e).
Proof. exact C05_from_node_ex_proof. Qed.
Print Assumptions C05_from_node_ex.
