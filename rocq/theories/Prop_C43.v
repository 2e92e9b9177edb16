(** Property theorems; the proofs are in ProofC43.v. *)
From Verif Require Import ProofC43.
Local Open Scope string_scope.
Local Open Scope list_scope.

(** C83.  connect adds to the descendants of a node exactly this: a node that is the start
    of the edge or an ancestor of it gains the end of the edge and its descendants.  All
    other lists of descendants stay the same. *)
Theorem C83_connect : ∀ h g x y a s t h' e z, reachable h → allowed h (CConnect g x y a) →
  denotes h g x s → denotes h g y t → connect g x y a h = (h', Ok e) → in_graph h g z →
  ∃ A B D D', get_ancestors h g x = Ok A ∧ get_descendants h g y = Ok B ∧
    get_descendants h g (ANode z) = Ok D ∧ get_descendants h' g (ANode z) = Ok D' ∧
    ∀ w, w ∈ D' ↔ w ∈ D ∨ (z = s ∨ z ∈ A) ∧ (w = t ∨ w ∈ B) ∧ w ≠ z.
Proof. exact C83_connect_proof. Qed.
Print Assumptions C83_connect.

(** C83.  The same seen from below: ancestors. *)
Theorem C83_connect_up : ∀ h g x y a s t h' e z, reachable h → allowed h (CConnect g x y a) →
  denotes h g x s → denotes h g y t → connect g x y a h = (h', Ok e) → in_graph h g z →
  ∃ A B U U', get_ancestors h g x = Ok A ∧ get_descendants h g y = Ok B ∧
    get_ancestors h g (ANode z) = Ok U ∧ get_ancestors h' g (ANode z) = Ok U' ∧
    ∀ w, w ∈ U' ↔ w ∈ U ∨ (w = s ∨ w ∈ A) ∧ (z = t ∨ z ∈ B).
Proof. exact C83_connect_up_proof. Qed.
Print Assumptions C83_connect_up.

(** C83.  The loops that connect closes: on a loop afterwards are the nodes that were on one
    and those that lie on the way from the end of the new edge back to its start.  So a
    graph without loops stays without iff the start is neither the end nor a descendant of
    the end. *)
Theorem C83_connect_loops : ∀ h g x y a s t h' e, reachable h → allowed h (CConnect g x y a) →
  denotes h g x s → denotes h g y t → connect g x y a h = (h', Ok e) →
  ∃ A B L L', get_ancestors h g x = Ok A ∧ get_descendants h g y = Ok B ∧ loop_nodes h g = Ok L ∧ loop_nodes h' g = Ok L' ∧
    (∀ w, w ∈ L' ↔ w ∈ L ∨ (w = s ∨ w ∈ A) ∧ (w = t ∨ w ∈ B)) ∧
    (L' = [] ↔ L = [] ∧ s ≠ t ∧ s ∉ B).
Proof. exact C83_connect_loops_proof. Qed.
Print Assumptions C83_connect_loops.

(** C83.  Removing an edge that another path bypasses (its end is still a descendant of its
    start afterwards) changes no list of ancestors or descendants; in general it adds
    nothing to them. *)
Theorem C83_disconnect : ∀ h g e s t z (c : call), reachable h → joins h g e s t → c = CDisconnect e ∨ c = CRemoveSelf e → in_graph h g z →
  ∃ Ds U U' D D', get_descendants (after c h) g (ANode s) = Ok Ds ∧
    get_ancestors h g (ANode z) = Ok U ∧ get_ancestors (after c h) g (ANode z) = Ok U' ∧
    get_descendants h g (ANode z) = Ok D ∧ get_descendants (after c h) g (ANode z) = Ok D' ∧
    (∀ w, w ∈ U' → w ∈ U) ∧ (∀ w, w ∈ D' → w ∈ D) ∧
    (t ∈ Ds → (∀ w, w ∈ U' ↔ w ∈ U) ∧ (∀ w, w ∈ D' ↔ w ∈ D)).
Proof. exact C83_disconnect_proof. Qed.
Print Assumptions C83_disconnect.

(** C83.  After remove_node a node reaches another iff it did so before along nodes other
    than the one removed. *)
Theorem C83_remove_node : ∀ h g x r h' z, reachable h → allowed h (CRemoveNode g x) → denotes h g x r →
  remove_node g x h = (h', Ok tt) → in_graph h g z → z ≠ r →
  ∃ U D, get_ancestors h' g (ANode z) = Ok U ∧ get_descendants h' g (ANode z) = Ok D ∧
    (∀ w, w ∈ U ↔ tc (λ u v, adj h g u v ∧ u ≠ r ∧ v ≠ r) w z) ∧
    (∀ w, w ∈ D ↔ tc (λ u v, adj h g u v ∧ u ≠ r ∧ v ≠ r) z w ∧ w ≠ z).
Proof. exact C83_remove_node_proof. Qed.
Print Assumptions C83_remove_node.

(** C83.  Along any sequence of calls without removals, failing calls included, ancestors and
    descendants stay ancestors and descendants and loops stay loops. *)
Theorem C83_grow : ∀ h h' g z, reachable h →
  history (λ c, (∀ x, c ≠ CRemoveNode g x) ∧ (∀ e, c ≠ CDisconnect e ∧ c ≠ CRemoveSelf e) ∧ (∀ r, c ≠ CRemoveEdges r)) h h' →
  in_graph h g z →
  ∃ U U' D D' b b', get_ancestors h g (ANode z) = Ok U ∧ get_ancestors h' g (ANode z) = Ok U' ∧
    get_descendants h g (ANode z) = Ok D ∧ get_descendants h' g (ANode z) = Ok D' ∧
    is_node_in_loop h g (ANode z) = Ok b ∧ is_node_in_loop h' g (ANode z) = Ok b' ∧
    U ⊆ U' ∧ D ⊆ D' ∧ (b = true → b' = true).
Proof. exact C83_grow_proof. Qed.
Print Assumptions C83_grow.

(** C83 is not vacuous: the graph a -> b -> c, a -> c with d aside.  Connecting c to a closes
    a loop through all three; connecting d to b gives d two descendants; the edge a -> c is
    bypassed, so removing it changes no descendants. *)
Example C83_ex : reachable chain3 ∧ denotes chain3 0 (an "c") 2 ∧ denotes chain3 0 (an "a") 0 ∧ joins chain3 0 2 0 2 ∧
  allowed chain3 (CConnect 0 (an "c") (an "a") eargs0) ∧
  loop_nodes chain3 0 = Ok [] ∧ loop_nodes (connect 0 (an "c") (an "a") eargs0 chain3).1 0 = Ok [0; 1; 2] ∧
  get_descendants chain3 0 (an "d") = Ok [] ∧ get_descendants (connect 0 (an "d") (an "b") eargs0 chain3).1 0 (an "d") = Ok [1; 2] ∧
  get_descendants chain3 0 (an "a") = Ok [1; 2] ∧ get_descendants (disconnect 2 chain3).1 0 (an "a") = Ok [1; 2] ∧
  get_ancestors chain3 0 (an "c") = Ok [1; 0] ∧ get_ancestors (remove_node 0 (an "b") chain3).1 0 (an "c") = Ok [0].
Proof. exact C83_ex_proof. Qed.
Print Assumptions C83_ex.
