(** Property theorems; the proofs are in ProofC2.v. *)
From Verif Require Import ProofC2.
Local Open Scope string_scope.
Local Open Scope list_scope.

(** C12.  graph.edges lists every edge of the graph once. *)
Theorem C12_edges : ∀ h g G, reachable h → h_graphs h !! g = Some G →
  ∃ es, graph_edges h g = Ok es ∧ NoDup es ∧ ∀ e, e ∈ es ↔ ∃ x y, joins h g e x y.
Proof. exact C12_edges_proof. Qed.
Print Assumptions C12_edges.

(** C12.  graph.edges_dict has one entry per edge, under its id. *)
Theorem C12_edges_dict : ∀ h g G, reachable h → h_graphs h !! g = Some G →
  ∃ d es, edges_dict h g = Ok d ∧ graph_edges h g = Ok es ∧ NoDup d.*1 ∧ d.*2 ≡ₚ es ∧
    ∀ k e, (k, e) ∈ d ↔ has_id h g e k.
Proof. exact C12_edges_dict_proof. Qed.
Print Assumptions C12_edges_dict.

(** The sample graph has a self-loop, two parallel edges and a cycle. *)
Example C12_edges_ex : reachable sample ∧ graph_edges sample 0 = Ok [0; 3; 1; 2; 4] ∧
  edges_dict sample 0 = Ok [((nm "a", nm "b", RId None), 0); ((nm "a", nm "b", RId (Some (nm "x"))), 3);
    ((nm "b", nm "c", RId None), 1); ((nm "c", nm "b", RId None), 2); ((nm "c", nm "c", RId None), 4)].
Proof. exact C12_edges_ex_proof. Qed.
Print Assumptions C12_edges_ex.

(** C13.  Occurrences of b among the children of a = occurrences of a among the
    parents of b = number of edges from a to b; for the methods of the graph and
    of the nodes. *)
Theorem C13_dual : ∀ h g x y a b, reachable h → denotes h g x a → denotes h g y b →
  ∃ es cs ps, NoDup es ∧ (∀ e, e ∈ es ↔ joins h g e a b) ∧
    get_children h g x = Ok cs ∧ node_children h a = Ok cs ∧
    get_parents h g y = Ok ps ∧ node_parents h b = Ok ps ∧
    length (filter (λ z, z = b) cs) = length es ∧ length (filter (λ z, z = a) ps) = length es.
Proof. exact C13_dual_proof. Qed.
Print Assumptions C13_dual.

(** C13.  The counts and the has_ predicates agree with the lists. *)
Theorem C13_counts : ∀ h g x a, reachable h → denotes h g x a →
  ∃ cs ps, get_children h g x = Ok cs ∧ get_parents h g x = Ok ps ∧
    num_children h g x = Ok (length cs) ∧ num_parents h g x = Ok (length ps) ∧
    (∃ b, has_children h g x = Ok b ∧ node_has_children h a = Ok b ∧ (b = true ↔ ∃ t, adj h g a t)) ∧
    (∃ b, has_parents h g x = Ok b ∧ node_has_parents h a = Ok b ∧ (b = true ↔ ∃ s, adj h g s a)).
Proof. exact C13_counts_proof. Qed.
Print Assumptions C13_counts.

(** C13.  The sums over all nodes are the number of edges. *)
Theorem C13_sums : ∀ h g G, reachable h → h_graphs h !! g = Some G →
  ∃ cs ps es, graph_edges h g = Ok es ∧
    rmap (λ kr, num_children h g (ANode kr.2)) (g_nodes G) = Ok cs ∧
    rmap (λ kr, num_parents h g (ANode kr.2)) (g_nodes G) = Ok ps ∧
    sum_list cs = length es ∧ sum_list ps = length es.
Proof. exact C13_sums_proof. Qed.
Print Assumptions C13_sums.

(** In the sample, node b is a child of a twice. *)
Example C13_dual_ex : reachable sample ∧ denotes sample 0 (an "a") 0 ∧ denotes sample 0 (ANode 1) 1 ∧
  get_children sample 0 (an "a") = Ok [1; 1] ∧ get_parents sample 0 (ANode 1) = Ok [0; 2; 0].
Proof. exact C13_dual_ex_proof. Qed.
Print Assumptions C13_dual_ex.
