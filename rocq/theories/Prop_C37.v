(** Property theorems; the proofs are in ProofC37.v. *)
From Verif Require Import ProofC37.
Local Open Scope string_scope.
Local Open Scope list_scope.

(** C21, partial.  Missing: nodes with several relatives on the way, and loops above the
    node.  If every node below has at most one child, the dict of descendants has exactly
    the other nodes below, each under its distance; if every node above has at most one
    parent and lies on no loop (in a forest, say), the dict of ancestors has exactly the
    nodes above, each under its distance. *)
Theorem C21_chain_partial : ∀ h g x r, reachable h → denotes h g x r →
  ((∀ y c c', path0 h g r y → adj h g y c → adj h g y c' → c = c') →
   ∃ D, get_descendants_dist h g x = Ok D ∧
     ∀ k y, (∃ l, (k, l) ∈ D ∧ y ∈ l) ↔ y ≠ r ∧ distance h g k r y) ∧
  ((∀ y, path0 h g y r → ¬ on_cycle h g y ∧ ∀ p p', adj h g p y → adj h g p' y → p = p') →
   ∃ D, get_ancestors_dist h g x = Ok D ∧
     ∀ k y, (∃ l, (k, l) ∈ D ∧ y ∈ l) ↔ distance h g k y r).
Proof. exact C21_chain_partial_proof. Qed.
Print Assumptions C21_chain_partial.

(** C21 is false with a loop above the node, even if every node has one parent: with
    edges a->b, b->a, a->c the dict of ancestors of c has a at distance 1 and at 3. *)
Theorem C21_distance_loop_refuted : ∃ h g r y D, reachable h ∧ in_graph h g r ∧
  (∀ z p p', adj h g p z → adj h g p' z → p = p') ∧
  get_ancestors_dist h g (ANode r) = Ok D ∧ distance h g 1 y r ∧ (1, [y]) ∈ D ∧ (3, [y]) ∈ D.
Proof. exact C21_distance_loop_refuted_proof. Qed.
Print Assumptions C21_distance_loop_refuted.

(** The tree a -> b -> d, a -> c -> e: the ancestors of d and the descendants of b. *)
Example C21_chain_ex : reachable vee ∧ denotes vee 0 (an "d") 3 ∧ denotes vee 0 (an "b") 1 ∧
  (∀ y c c', path0 vee 0 1 y → adj vee 0 y c → adj vee 0 y c' → c = c') ∧
  (∀ y, path0 vee 0 y 3 → ¬ on_cycle vee 0 y ∧ ∀ p p', adj vee 0 p y → adj vee 0 p' y → p = p') ∧
  get_descendants_dist vee 0 (an "b") = Ok [(1, [3])] ∧ get_ancestors_dist vee 0 (an "d") = Ok [(1, [1]); (2, [0])].
Proof. exact C21_chain_ex_proof. Qed.
Print Assumptions C21_chain_ex.

(** C49, partial.  Missing: objects that are reached in several ways.  If no object below
    [o] except [o] itself is the child of two objects below, the limit is exact: listed
    are exactly the other objects at most [d] steps away. *)
Theorem C49_forest_partial : ∀ (Obj : Type) (dec_eq : EqDecision Obj) (next : Obj → list Obj) (o : Obj) d fuel,
  (∀ x y z, rtc (λ x y, y ∈ next x) o x → rtc (λ x y, y ∈ next x) o y → z ∈ next x → z ∈ next y → z ≠ o → x = y) →
  (0 <= d)%Z → Z.to_nat d < fuel →
  ∃ L, obj_relatives fuel next (Some d) o = Ok L ∧ NoDup L ∧
    ∀ x, x ∈ L ↔ x ≠ o ∧ ∃ k, 1 ≤ k ≤ Z.to_nat d ∧ nsteps (λ x y, y ∈ next x) k o x.
Proof. exact C49_forest_partial_proof. Qed.
Print Assumptions C49_forest_partial.

(** Two steps from the root of a tree with a loop back to it. *)
Example C49_forest_ex : (∀ x y z, rtc (λ x y, y ∈ next_tree x) 0 x → rtc (λ x y, y ∈ next_tree x) 0 y →
    z ∈ next_tree x → z ∈ next_tree y → z ≠ 0 → x = y) ∧
  obj_relatives 9 next_tree (Some 2%Z) 0 = Ok [1; 3; 4; 2].
Proof. exact C49_forest_ex_proof. Qed.
Print Assumptions C49_forest_ex.
