(** Property theorems; the proofs are in ProofC11.v. *)
From Verif Require Import ProofC11.
Local Open Scope list_scope.
Local Open Scope string_scope.
Local Open Scope string_scope.

(** C32.  Whenever append succeeds, the graph has grown by exactly the missing
    nodes, in the given order, and exactly the edges whose id was missing, in the
    given order; what was there is untouched and still comes first.  Partial
    because append of a Graph with an edge does not succeed, see
    [C32_append_graph_refuted]. *)
Theorem C32_append_partial : ∀ h g o h' (present : list edge_id), reachable h →
  obj_exists (length (h_ns h)) (length (h_es h)) o → g < length (h_graphs h) →
  (∀ i, i ∈ present ↔ ∃ e, has_id h g e i) →
  graph_append g o h = (h', Ok tt) →
  grown h g h' (filter (λ k, k ∉ names_of h g) (distinct (obj_names h o))) (filter (λ i, i ∉ present) (distinct (obj_ids h o))).
Proof. exact C32_append_partial_proof. Qed.
Print Assumptions C32_append_partial.

(** C32, Graph(obj=o): whenever it succeeds, the new graph has exactly the names
    and edge ids of [o], in the order of [o]. *)
Theorem C32_graph_of_partial : ∀ h strict ordering D o h' g, reachable h →
  obj_exists (length (h_ns h)) (length (h_es h)) o → (∀ g0, o = OGraph g0 → g0 < length (h_graphs h)) →
  graph_of strict ordering D o h = (h', Ok g) →
  g = length (h_graphs h) ∧ shaped h' g (distinct (obj_names h o)) (distinct (obj_ids h o)).
Proof. exact C32_graph_of_partial_proof. Qed.
Print Assumptions C32_graph_of_partial.

(** C32: append of a representation with string names, known ends, without styles,
    to a graph without frozen objects does succeed. *)
Theorem C32_append_succeeds_partial : ∀ h g G D d, reachable h → h_graphs h !! g = Some G → g_disp G = Some D →
  repr_exists (length (h_ns h)) (length (h_es h)) d → unfrozen h g → acceptable h g d →
  ∃ h', graph_append g (ODict d) h = (h', Ok tt).
Proof. exact C32_append_succeeds_partial_proof. Qed.
Print Assumptions C32_append_succeeds_partial.

(** C32: appending a Graph with at least one edge raises TypeError, and nothing
    changes. *)
Theorem C32_append_graph_fails_partial : ∀ h g g2 e x y, reachable h → joins h g2 e x y →
  graph_append g (OGraph g2) h = (h, Err TypeError).
Proof. exact C32_append_graph_fails_partial_proof. Qed.
Print Assumptions C32_append_graph_fails_partial.

(** C32 refuted: a reachable heap and two graphs such that appending the second to
    the first raises. *)
Theorem C32_append_graph_refuted : ∃ h g1 g2, reachable h ∧ g1 < length (h_graphs h) ∧ g2 < length (h_graphs h) ∧
  (graph_append g1 (OGraph g2) h).2 = Err TypeError.
Proof. exact C32_append_graph_refuted_proof. Qed.
Print Assumptions C32_append_graph_refuted.

(** A concrete append: the first graph has the nodes a and c and an edge between
    them; the representation has b, c and three different edges. *)
Example C32_append_ex : reachable two_graphs ∧ obj_exists (length (h_ns two_graphs)) (length (h_es two_graphs)) (ODict some_repr) ∧
  acceptable two_graphs 0 some_repr ∧ unfrozen two_graphs 0 ∧
  (∀ i, i ∈ [(NStr "a", NStr "c", RId None)] ↔ ∃ e, has_id two_graphs 0 e i) ∧
  ∃ h', graph_append 0 (ODict some_repr) two_graphs = (h', Ok tt) ∧
  grown two_graphs 0 h' [NStr "b"] [(NStr "c", NStr "b", RId (Some (NStr "i"))); (NStr "b", NStr "b", RId None)].
Proof. exact C32_append_ex_proof. Qed.
Print Assumptions C32_append_ex.

(** C33, partial: whenever Graph(obj=g) succeeds, each node has the value and the
    very style object of the node of that name in g; but its label is always the
    bound method display_label_or_value of that node, and not a label. *)
Theorem C33_contents_partial : ∀ h strict ordering D g2 h' g, reachable h → g2 < length (h_graphs h) →
  graph_of strict ordering D (OGraph g2) h = (h', Ok g) →
  ∀ k r N, named h g2 k r → h_nodes h !! r = Some N →
  ∃ r' N', named h' g k r' ∧ h_nodes h' !! r' = Some N' ∧
    n_value N' = n_value N ∧ n_style N' = n_style N ∧ n_label N' = PMeth r.
Proof. exact C33_contents_partial_proof. Qed.
Print Assumptions C33_contents_partial.

(** C33 refuted: a node labelled A, whose namesake in Graph(obj=g) displays
    another text, whatever the functions of the environment print. *)
Theorem C33_labels_refuted : ∃ h g r g' h' r' t, reachable h ∧ graph_of false true disp0 (OGraph g) h = (h', Ok g') ∧
  named h g (NStr "a") r ∧ named h' g' (NStr "a") r' ∧ t ≠ "A" ∧
  ∀ env, node_display_label env h r = Ok (PStr "A") ∧ node_display_label env h' r' = Ok (PStr t).
Proof. exact C33_labels_refuted_proof. Qed.
Print Assumptions C33_labels_refuted.

(** A case where Graph(obj=g) succeeds. *)
Example C33_contents_ex : reachable edge_free ∧ 0 < length (h_graphs edge_free) ∧
  (∃ h' g', graph_of false true disp0 (OGraph 0) edge_free = (h', Ok g')) ∧ named edge_free 0 (NStr "a") 0.
Proof. exact C33_contents_ex_proof. Qed.
Print Assumptions C33_contents_ex.

(** C34, partial: whenever g1 + g2 succeeds, and whatever the iteration order of the
    set of names, the new graph has exactly the names of g1 and g2, each once, and
    exactly their edges.  Partial because it does not succeed when there is an edge,
    see [C34_fails_partial]. *)
Theorem C34_union_partial : ∀ h dflt f order g1 g2 h' g, reachable h → (∀ l, order l ≡ₚ l) →
  add_graphs dflt f order g1 g2 h = (h', Ok g) →
  g = length (h_graphs h) ∧ names_of h' g ≡ₚ distinct (names_of h g1 ++ names_of h g2)%list ∧
  shaped h' g (names_of h' g) (distinct (ids_of h g1 ++ ids_of h g2)%list).
Proof. exact C34_union_partial_proof. Qed.
Print Assumptions C34_union_partial.

(** C34: with an edge in either graph, g1 + g2 raises AttributeError (or, if the
    other graph is a copy without display attributes, the same), and nothing
    changes. *)
Theorem C34_fails_partial : ∀ h dflt f order g1 g2 e x y, reachable h → g1 < length (h_graphs h) → g2 < length (h_graphs h) →
  joins h g1 e x y ∨ joins h g2 e x y →
  add_graphs dflt f order g1 g2 h = (h, Err AttributeError).
Proof. exact C34_fails_partial_proof. Qed.
Print Assumptions C34_fails_partial.

(** C34 refuted: two graphs whose sum is an exception. *)
Theorem C34_union_refuted : ∃ h g1 g2, reachable h ∧ g1 < length (h_graphs h) ∧ g2 < length (h_graphs h) ∧
  (add_graphs disp0 default_add id g1 g2 h).2 = Err AttributeError.
Proof. exact C34_union_refuted_proof. Qed.
Print Assumptions C34_union_refuted.

(** The sum of two graphs without edges, with a set order that is not the order of
    insertion. *)
Example C34_union_ex : reachable edge_free ∧ (∀ l : list name, reverse l ≡ₚ l) ∧
  ∃ h', add_graphs disp0 default_add reverse 0 1 edge_free = (h', Ok 2) ∧ names_of h' 2 = [NStr "c"; NStr "b"; NStr "a"].
Proof. exact C34_union_ex_proof. Qed.
Print Assumptions C34_union_ex.

(** C35, partial: whenever g1 + g2 succeeds, a node of only one of the graphs keeps
    its value; a node of both gets the sum of the second value with itself (and not
    with the first value). *)
Theorem C35_values_partial : ∀ h dflt f order g1 g2 h' g, reachable h → (∀ l, order l ≡ₚ l) →
  add_graphs dflt f order g1 g2 h = (h', Ok g) →
  ∀ k r N, named h' g k r → h_nodes h' !! r = Some N →
  (∀ r1 N1, named h g1 k r1 → h_nodes h !! r1 = Some N1 → (∀ r2, ¬ named h g2 k r2) → n_value N = n_value N1) ∧
  (∀ r2 N2, named h g2 k r2 → h_nodes h !! r2 = Some N2 → (∀ r1, ¬ named h g1 k r1) → n_value N = n_value N2) ∧
  (∀ r1 r2 N2, named h g1 k r1 → named h g2 k r2 → h_nodes h !! r2 = Some N2 → f (n_value N2) (n_value N2) = Ok (n_value N)).
Proof. exact C35_values_partial_proof. Qed.
Print Assumptions C35_values_partial.

(** C35 refuted: the value of a is 1 in the first graph and 10 in the second, and 20
    in the sum. *)
Theorem C35_values_refuted : ∃ h g1 g2 h' g r1 N1 r2 N2 r N, reachable h ∧ add_graphs disp0 default_add id g1 g2 h = (h', Ok g) ∧
  named h g1 (NStr "a") r1 ∧ h_nodes h !! r1 = Some N1 ∧ named h g2 (NStr "a") r2 ∧ h_nodes h !! r2 = Some N2 ∧
  named h' g (NStr "a") r ∧ h_nodes h' !! r = Some N ∧ default_add (n_value N1) (n_value N2) ≠ Ok (n_value N).
Proof. exact C35_values_refuted_proof. Qed.
Print Assumptions C35_values_refuted.

(** The values of the three nodes in the sum of the two graphs. *)
Example C35_values_ex : reachable edge_free ∧ ∃ h', add_graphs disp0 default_add id 0 1 edge_free = (h', Ok 2) ∧
  names_of h' 2 = [NStr "a"; NStr "b"; NStr "c"] ∧ n_value <$> drop 4 (h_nodes h') = [PInt 20; PInt 5; PInt 7].
Proof. exact C35_values_ex_proof. Qed.
Print Assumptions C35_values_ex.

(** C28, partial: if __hash__ of the object gives an integer, as hash does,
    from_object raises UnboundLocalError; all it did is making an empty graph. *)
Theorem C28_from_object_partial : ∀ (Obj : Type) (dec : EqDecision Obj) (children parents : Obj → list Obj) (hash : Obj → name)
  (ostr : Obj → string) (h : heap) (fuel : nat) (d : display) (obj : Obj) (strict : bool) (depth height : option Z) (z : Z), hash obj = NInt z →
  (from_object children parents hash ostr fuel d obj strict depth height h).2 = Err UnboundLocalError ∧
  h_nodes (from_object children parents hash ostr fuel d obj strict depth height h).1 = h_nodes h ∧
  h_edges (from_object children parents hash ostr fuel d obj strict depth height h).1 = h_edges h ∧
  h_graphs (from_object children parents hash ostr fuel d obj strict depth height h).1 = (h_graphs h ++ [MkGraph [] strict true 0 (Some d)])%list.
Proof. exact C28_from_object_partial_proof. Qed.
Print Assumptions C28_from_object_partial.

(** C28 refuted: an object without relatives, with hash 5. *)
Theorem C28_from_object_refuted : ∃ (children parents : nat → list nat) hash ostr h obj, reachable h ∧
  (from_object children parents hash ostr 10 disp0 obj false None None h).2 = Err UnboundLocalError.
Proof. exact C28_from_object_refuted_proof. Qed.
Print Assumptions C28_from_object_refuted.

(** C28, instance: an object with two children, hashed by number. *)
Example C28_from_object_ex : (λ n : nat, NInt (Z.of_nat n)) 7 = NInt 7 ∧
  (from_object (λ n, if decide (n = 7) then [8; 9] else []) (λ _, []) (λ n, NInt (Z.of_nat n)) (λ _, "o"%string) 10 disp0 7 true None None sample).2 = Err UnboundLocalError.
Proof. exact C28_from_object_ex_proof. Qed.
Print Assumptions C28_from_object_ex.

(** C32 and C34, instance: graph 1 of the sample has an edge. *)
Example C34_fails_ex : reachable sample ∧ 0 < length (h_graphs sample) ∧ 1 < length (h_graphs sample) ∧ joins sample 1 6 4 5 ∧
  (add_graphs disp0 default_add id 0 1 sample).2 = Err AttributeError ∧ (graph_append 0 (OGraph 1) sample).2 = Err TypeError.
Proof. exact C34_fails_ex_proof. Qed.
Print Assumptions C34_fails_ex.

(** C32, instance for Graph(obj): the two nodes of the first graph of the example, and a
    dictionary with two nodes and an edge. *)
Example C32_graph_of_ex : reachable edge_free ∧ 0 < length (h_graphs edge_free) ∧
  (∃ h', graph_of true false disp0 (OGraph 0) edge_free = (h', Ok 2) ∧ names_of h' 2 = names_of edge_free 0) ∧
  ∃ h', graph_of true false disp0 (ODict edge_repr) edge_free = (h', Ok 2) ∧ names_of h' 2 = [NStr "b"; NStr "c"] ∧
    ids_of h' 2 = [(NStr "b", NStr "c", RId None)].
Proof. exact C32_graph_of_ex_proof. Qed.
Print Assumptions C32_graph_of_ex.
