(** Property theorems; the proofs are in ProofC45.v. *)
From Verif Require Import ProofC45.
Local Open Scope string_scope.

(** C85, partial.  Missing: names such as 1 and '1', and parallel edges, see below.  The text
    of a node of a graph is Node: and its name, that of an edge is Edge: and the texts of
    its ends with a dash between. *)
Theorem C85_text_partial : ∀ h g, reachable h →
  (∀ k r, named h g k r → node_str h r = Ok ("Node:" +:+ match k with NStr s => s | NInt z => pretty z end)) ∧
  (∀ e s t, joins h g e s t → ∃ a b, node_str h s = Ok a ∧ node_str h t = Ok b ∧ edge_str h e = Ok ("Edge:" +:+ a +:+ "-" +:+ b)).
Proof. exact C85_text_partial_proof. Qed.
Print Assumptions C85_text_partial.

(** C85, partial.  Two nodes of a graph whose names are both strings or both integers have
    different texts. *)
Theorem C85_nodes_partial : ∀ h g k1 k2 r1 r2, reachable h → named h g k1 r1 → named h g k2 r2 →
  match k1, k2 with NStr _, NStr _ | NInt _, NInt _ => True | _, _ => False end →
  node_str h r1 = node_str h r2 → r1 = r2.
Proof. exact C85_nodes_partial_proof. Qed.
Print Assumptions C85_nodes_partial.

(** C85, partial.  Two edges with the same text have ends with the same texts, as long as no
    dash occurs in the names of their starts. *)
Theorem C85_edges_partial : ∀ h g e1 e2 s1 t1 s2 t2 a1 a2, reachable h → joins h g e1 s1 t1 → joins h g e2 s2 t2 →
  node_str h s1 = Ok a1 → node_str h s2 = Ok a2 → ¬ occurs "-" a1 → ¬ occurs "-" a2 →
  edge_str h e1 = edge_str h e2 → node_str h s1 = node_str h s2 ∧ node_str h t1 = node_str h t2.
Proof. exact C85_edges_partial_proof. Qed.
Print Assumptions C85_edges_partial.

(** C85 is false: the nodes '1' and 1 of a graph have the same text, and so have two
    parallel edges. *)
Theorem C85_apart_refuted : ∃ h g r1 r2 e1 e2, reachable h ∧ in_graph h g r1 ∧ in_graph h g r2 ∧ r1 ≠ r2 ∧ node_str h r1 = node_str h r2 ∧
  joins h g e1 r1 1 ∧ joins h g e2 r1 1 ∧ e1 ≠ e2 ∧ edge_str h e1 = edge_str h e2 ∧ edge_str h e1 = Ok "Edge:Node:1-Node:b".
Proof. exact C85_apart_refuted_proof. Qed.
Print Assumptions C85_apart_refuted.

(** C85, partial.  Of an edge that was removed: after disconnect it has the text it had before,
    after remove_self str raises ValueError. *)
Theorem C85_removed_partial : ∀ h g e s t, reachable h → joins h g e s t →
  edge_str (after (CDisconnect e) h) e = edge_str h e ∧ edge_str (after (CRemoveSelf e) h) e = Err ValueError.
Proof. exact C85_removed_partial_proof. Qed.
Print Assumptions C85_removed_partial.

(** C85 is not vacuous: the texts of the sample. *)
Example C85_ex : ∃ s t, reachable sample ∧ joins sample 0 0 s t ∧ node_str sample s = Ok "Node:a" ∧ node_str sample t = Ok "Node:b" ∧
  edge_str sample 0 = Ok "Edge:Node:a-Node:b" ∧ edge_str (after (CRemoveSelf 0) sample) 0 = Err ValueError.
Proof. exact C85_ex_proof. Qed.
Print Assumptions C85_ex.
