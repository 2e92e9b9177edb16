(** Property theorems; the proofs are in ProofC26.v. *)
From Verif Require Import ProofC26.
Local Open Scope list_scope.

(** C28, partial.  Missing: integer hashes (what hash returns), objects with more
    than one parent and cycles; see the refuted statements.  What holds: if the hash of
    every object is a string, different for different objects, __children__ and
    __parents__ are converse to each other, no object has two parents or is its own
    descendant, and finitely many objects are related to [obj], then from_object
    returns a graph whose nodes are exactly the object, its descendants and its ancestors,
    labelled with their strings, with exactly one edge for each parent and child among them. *)
Theorem C28_forest_partial : ∀ (Obj : Type) (dec : EqDecision Obj) (children parents : Obj → list Obj) (hs ostr : Obj → string)
  (U : list Obj) (obj : Obj) (h : heap) (d : display) (strict : bool) (fuel : nat), reachable h →
  (∀ x y, hs x = hs y → x = y) →
  (∀ x y, y ∈ children x ↔ x ∈ parents y) →
  (∀ x y z, x ∈ parents z → y ∈ parents z → x = y) →
  (∀ x, ¬ tc (λ x y, y ∈ children x) x x) →
  obj ∈ U → (∀ x y, x ∈ U → y ∈ children x ∨ y ∈ parents x → y ∈ U) → length U ≤ fuel →
  let g := length (h_graphs h) in
  ∃ h' os ps, from_object children parents (λ o, NStr (hs o)) ostr fuel d obj strict None None h = (h', Ok g) ∧
    shows h' g ((λ o, plain_node (hs o) (PStr (ostr o))) <$> os) ((λ xy, plain_edge (NStr (hs xy.1)) (NStr (hs xy.2)) None PNone) <$> ps) ∧
    flags h' g = Some (strict, true, Some d) ∧ NoDup os ∧ NoDup ps ∧
    (∀ x, x ∈ os ↔ x = obj ∨ tc (λ x y, y ∈ children x) obj x ∨ tc (λ x y, y ∈ children x) x obj) ∧
    (∀ x y, (x, y) ∈ ps ↔ y ∈ children x ∧ x ∈ os ∧ y ∈ os).
Proof. exact C28_forest_partial_proof. Qed.
Print Assumptions C28_forest_partial.

(** C28 refuted for string hashes: 0 has the children 1 and 2, and 2 has the child 1.
    The descendants of 0 are 1 and 2, and the edge from 2 to 1 is made before the
    node of 2. *)
Theorem C28_two_parents_refuted : ∃ (children parents : nat → list nat) (hs ostr : nat → string) h obj, reachable h ∧
  (∀ x y, hs x = hs y → x = y) ∧ (∀ x y, y ∈ children x ↔ x ∈ parents y) ∧ (∀ x y, y ∈ children x → y ≤ 2) ∧ (∀ x, ¬ tc (λ x y, y ∈ children x) x x) ∧
  ∀ fuel, 3 ≤ fuel → (from_object children parents (λ o, NStr (hs o)) ostr fuel disp0 obj false None None h).2 = Err KeyError.
Proof. exact C28_two_parents_refuted_proof. Qed.
Print Assumptions C28_two_parents_refuted.

(** C28, instance: 0 has the children 1 and 2 and the parent 3, which has another
    child 4; the hypotheses hold, and the graph of 0 has the nodes 0 to 3. *)
Example C28_forest_ex : reachable sample ∧ (∀ x y, y ∈ forest_down x ↔ x ∈ forest_up y) ∧
  (∀ x y z, x ∈ forest_up z → y ∈ forest_up z → x = y) ∧ (∀ x, ¬ tc (λ x y, y ∈ forest_down x) x x) ∧
  0 ∈ [0; 1; 2; 3; 4] ∧ (∀ x y, x ∈ [0; 1; 2; 3; 4] → y ∈ forest_down x ∨ y ∈ forest_up x → y ∈ [0; 1; 2; 3; 4]) ∧
  ∃ h', from_object forest_down forest_up (λ n, NStr (pretty (Z.of_nat n))) (λ n, pretty (Z.of_nat n)) 5 disp0 0 true None None sample = (h', Ok 2) ∧
    names_of h' 2 = [NStr "0"; NStr "1"; NStr "2"; NStr "3"] ∧
    ids_of h' 2 = [(NStr "0", NStr "1", RId None); (NStr "0", NStr "2", RId None); (NStr "3", NStr "0", RId None)].
Proof. exact C28_forest_ex_proof. Qed.
Print Assumptions C28_forest_ex.
