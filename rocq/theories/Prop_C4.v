(** Property theorems; the proofs are in ProofC4.v. *)
From Verif Require Import ProofC4.
Local Open Scope string_scope.
Local Open Scope list_scope.

(** C04.  Names are pairwise distinct in every reachable graph. *)
Theorem C04_names : ∀ h g G, reachable h → h_graphs h !! g = Some G → NoDup (g_nodes G).*1.
Proof. exact C04_names_proof. Qed.
Print Assumptions C04_names.

(** C04.  In histories without the direct constructor Node(graph, ...): along
    graph.nodes, each node precedes every later one because its index is smaller,
    and sorted(graph.nodes) == graph.nodes. *)
Theorem C04_increasing : ∀ h g G, history by_add empty_heap h → h_graphs h !! g = Some G →
  ∃ l, nodes h g = Ok l ∧ NoDup l ∧ (∀ r, r ∈ l ↔ in_graph h g r) ∧ node_sorted h l = Ok l ∧
    (∀ i j x y X Y, i < j → l !! i = Some x → l !! j = Some y → h_nodes h !! x = Some X → h_nodes h !! y = Some Y →
      (n_index X < n_index Y)%Z).
Proof. exact C04_increasing_proof. Qed.
Print Assumptions C04_increasing.

(** C04.  An index is never reused: between two moments of such a history, equal
    index in the same graph means the same node object, and a node never changes
    its index. *)
Theorem C04_not_reused : ∀ h h' g r r' N N', history by_add empty_heap h → history by_add h h' →
  in_graph h g r → in_graph h' g r' → h_nodes h !! r = Some N → h_nodes h' !! r' = Some N' →
  n_index N = n_index N' ↔ r = r'.
Proof. exact C04_not_reused_proof. Qed.
Print Assumptions C04_not_reused.

(** The second b has index 3. *)
Example C04_increasing_ex : history by_add empty_heap removal ∧ nodes removal 0 = Ok [0; 2; 3] ∧
  (n_index <$> h_nodes removal) = [0; 1; 2; 3]%Z ∧ (n_id <$> h_nodes removal) = [nm "a"; nm "b"; nm "c"; nm "b"].
Proof. exact C04_increasing_ex_proof. Qed.
Print Assumptions C04_increasing_ex.

(** C38.  Nodes with str names: the comparisons agree with the order of (index,
    name) pairs; exactly one of <, ==, > holds; <= and >= are < or == and > or ==;
    > is the converse of <; != is the negation of ==. *)
Theorem C38_comparison : ∀ h x y X Y a b, h_nodes h !! x = Some X → h_nodes h !! y = Some Y →
  n_id X = NStr a → n_id Y = NStr b → ∃ lt eq gt,
    node_lt h x y = Ok lt ∧ node_eq h x y = Ok eq ∧ node_gt h x y = Ok gt ∧
    node_le h x y = Ok (lt || eq) ∧ node_ge h x y = Ok (gt || eq) ∧ node_ne h x y = Ok (negb eq) ∧ node_lt h y x = Ok gt ∧
    (lt, eq, gt) ∈ [(true, false, false); (false, true, false); (false, false, true)] ∧
    (lt = true ↔ precedes h x y) ∧ (gt = true ↔ precedes h y x) ∧ (eq = true ↔ (n_index X, a) = (n_index Y, b)).
Proof. exact C38_comparison_proof. Qed.
Print Assumptions C38_comparison.

(** C38.  < is transitive; == is an equivalence compatible with <. *)
Theorem C38_laws : ∀ h x y z X Y Z a b c, h_nodes h !! x = Some X → h_nodes h !! y = Some Y → h_nodes h !! z = Some Z →
  n_id X = NStr a → n_id Y = NStr b → n_id Z = NStr c →
  (node_lt h x y = Ok true → node_lt h y z = Ok true → node_lt h x z = Ok true) ∧
  (node_eq h x y = Ok true → node_eq h y z = Ok true → node_eq h x z = Ok true) ∧
  (node_eq h x y = Ok true → node_lt h y z = Ok true → node_lt h x z = Ok true) ∧
  (node_lt h x y = Ok true → node_eq h y z = Ok true → node_lt h x z = Ok true) ∧
  node_eq h x x = Ok true ∧ (node_eq h x y = Ok true → node_eq h y x = Ok true).
Proof. exact C38_laws_proof. Qed.
Print Assumptions C38_laws.

(** C38.  Equal nodes have equal hashes (the hash is a function of the name). *)
Theorem C38_hash : ∀ h x y, node_eq h x y = Ok true → ∃ k, node_hash_key h x = Ok k ∧ node_hash_key h y = Ok k.
Proof. exact C38_hash_proof. Qed.
Print Assumptions C38_hash.

(** C38.  For edges the law fails: two edges without extra id between different
    nodes are neither equal nor different. *)
Theorem C38_edge_ne_refuted : ∃ h e1 e2, reachable h ∧ edge_eq h e1 e2 = Ok false ∧ edge_ne h e1 e2 = Ok false.
Proof. exact C38_edge_ne_refuted_proof. Qed.
Print Assumptions C38_edge_ne_refuted.

(** C38.  What the two operators do on two edges of one reachable graph: == compares
    (start, end, id), != only the id; they disagree exactly when the ids are equal
    and the ends are not. *)
Theorem C38_edges_partial : ∀ h g e1 e2 x1 y1 x2 y2 E1 E2, reachable h → joins h g e1 x1 y1 → joins h g e2 x2 y2 →
  h_edges h !! e1 = Some E1 → h_edges h !! e2 = Some E2 →
  edge_eq h e1 e2 = Ok (bool_decide (e1 = e2)) ∧
  edge_ne h e1 e2 = Ok (negb (bool_decide (e_raw E1 = e_raw E2))) ∧
  (e1 = e2 ↔ x1 = x2 ∧ y1 = y2 ∧ e_raw E1 = e_raw E2).
Proof. exact C38_edges_partial_proof. Qed.
Print Assumptions C38_edges_partial.

(** Nodes 0 and 2 of the removal example compare by index; its two nodes called b
    are different but have the same hash. *)
Example C38_comparison_ex : node_lt removal 0 2 = Ok true ∧ node_ge removal 0 2 = Ok false ∧ node_eq removal 1 3 = Ok false ∧
  node_ne removal 1 3 = Ok true ∧ node_hash_key removal 1 = node_hash_key removal 3 ∧ precedes removal 1 3 ∧ ¬ precedes removal 3 1.
Proof. exact C38_comparison_ex_proof. Qed.
Print Assumptions C38_comparison_ex.

(** C54.  For two nodes of a reachable graph whose nodes can be compared with each
    other: if n is a child of p the rank is the number of entries of p.children that
    precede n, which is below the number of children; otherwise ValueError. *)
Theorem C54_rank : ∀ h g n p, reachable h → comparable h g → in_graph h g n → in_graph h g p →
  ∃ cs, node_children h p = Ok cs ∧ (∀ x, x ∈ cs ↔ adj h g p x) ∧
    (adj h g p n → get_child_rank h n p = Ok (length (filter (λ x, precedes h x n) cs)) ∧
                   length (filter (λ x, precedes h x n) cs) < length cs) ∧
    (¬ adj h g p n → get_child_rank h n p = Err ValueError).
Proof. exact C54_rank_proof. Qed.
Print Assumptions C54_rank.

(** C54.  Different children have different ranks, in their order. *)
Theorem C54_distinct : ∀ h g n n' p, reachable h → comparable h g → adj h g p n → adj h g p n' → n ≠ n' →
  ∃ i j, get_child_rank h n p = Ok i ∧ get_child_rank h n' p = Ok j ∧ i ≠ j ∧ (i < j ↔ precedes h n n').
Proof. exact C54_distinct_proof. Qed.
Print Assumptions C54_distinct.

(** C54.  Nodes with str names can always be compared; so can, in histories without
    the direct constructor Node(graph, ...), all nodes of one graph. *)
Theorem C54_comparable : ∀ h g,
  (∀ x X, in_graph h g x → h_nodes h !! x = Some X → ∃ s, n_id X = NStr s) ∨ history by_add empty_heap h → comparable h g.
Proof. exact C54_comparable_proof. Qed.
Print Assumptions C54_comparable.

(** Without that, the call may fail: two children, both with index 0, named 'x' and 1. *)
Example C54_incomparable_ex : ∃ h n p, reachable h ∧ adj h 0 p n ∧ get_child_rank h n p = Err TypeError.
Proof. exact C54_incomparable_ex_proof. Qed.
Print Assumptions C54_incomparable_ex.

(** p has the children c, a and b, a by two edges; the ranks follow the indices. *)
Example C54_rank_ex : ∃ h, history by_add empty_heap h ∧ node_children h 0 = Ok [3; 1; 1; 2] ∧
  get_child_rank h 1 0 = Ok 0 ∧ get_child_rank h 2 0 = Ok 2 ∧ get_child_rank h 3 0 = Ok 3 ∧ get_child_rank h 0 3 = Err ValueError.
Proof. exact C54_rank_ex_proof. Qed.
Print Assumptions C54_rank_ex.

(** C04, instance of the theorem on reuse: node 1 (the first b) before the removal,
    node 3 (the second b) after it. *)
Example C04_not_reused_ex : let h := run (graph_calls ["a"; "b"; "c"] [("a", "b")]) empty_heap in
  history by_add empty_heap h ∧ history by_add h removal ∧ in_graph h 0 1 ∧ in_graph removal 0 3 ∧
  n_index <$> h_nodes h !! 1 = Some 1%Z ∧ n_index <$> h_nodes removal !! 3 = Some 3%Z.
Proof. exact C04_not_reused_ex_proof. Qed.
Print Assumptions C04_not_reused_ex.

(** C38, instance of the laws: three nodes in a row; and nodes a of the two graphs of
    the sample, which are equal though different objects, with the same hash. *)
Example C38_laws_ex : node_lt removal 0 2 = Ok true ∧ node_lt removal 2 3 = Ok true ∧ node_lt removal 0 3 = Ok true ∧
  node_eq sample 0 4 = Ok true ∧ node_lt sample 4 1 = Ok true ∧ node_lt sample 0 1 = Ok true ∧
  node_hash_key sample 0 = node_hash_key sample 4.
Proof. exact C38_laws_ex_proof. Qed.
Print Assumptions C38_laws_ex.

(** C38, instance for edges: a -> b and b -> c have no extra id; a -> b with id x has one. *)
Example C38_edges_ex : reachable sample ∧ joins sample 0 0 0 1 ∧ joins sample 0 1 1 2 ∧ joins sample 0 3 0 1 ∧
  edge_eq sample 0 1 = Ok false ∧ edge_ne sample 0 1 = Ok false ∧ edge_eq sample 0 3 = Ok false ∧ edge_ne sample 0 3 = Ok true.
Proof. exact C38_edges_ex_proof. Qed.
Print Assumptions C38_edges_ex.

(** C54, instance: two children of p that have different ranks. *)
Example C54_distinct_ex : let h := run (graph_calls ["p"; "a"; "b"] [("p", "b"); ("p", "a")]) empty_heap in
  reachable h ∧ comparable h 0 ∧ adj h 0 0 1 ∧ adj h 0 0 2 ∧ get_child_rank h 1 0 = Ok 0 ∧ get_child_rank h 2 0 = Ok 1.
Proof. exact C54_distinct_ex_proof. Qed.
Print Assumptions C54_distinct_ex.
