(** Property theorems; the proofs are in ProofC2c.v. *)
From Verif Require Import ProofC2c.
Local Open Scope string_scope.
Local Open Scope list_scope.

(** C19.  siblings: exactly the other nodes with a common parent, listed once; the
    two implementations give the same list. *)
Theorem C19_siblings : ∀ h g x r, reachable h → denotes h g x r →
  ∃ L, get_siblings h g x = Ok L ∧ node_siblings h r = Ok L ∧
    num_siblings h g x = Ok (length L) ∧ has_siblings h g x = Ok (bool_decide (L ≠ [])) ∧ NoDup L ∧
    ∀ y, y ∈ L ↔ y ≠ r ∧ ∃ p, adj h g p r ∧ adj h g p y.
Proof. exact C19_siblings_proof. Qed.
Print Assumptions C19_siblings.

(** C19.  co-parents (spouses): exactly the other nodes with a common child. *)
Theorem C19_co_parents : ∀ h g x r, reachable h → denotes h g x r →
  ∃ L, get_spouses h g x = Ok L ∧ node_co_parents h r = Ok L ∧
    num_spouses h g x = Ok (length L) ∧ has_spouses h g x = Ok (bool_decide (L ≠ [])) ∧ NoDup L ∧
    ∀ y, y ∈ L ↔ y ≠ r ∧ ∃ c, adj h g r c ∧ adj h g y c.
Proof. exact C19_co_parents_proof. Qed.
Print Assumptions C19_co_parents.

(** In the sample, b and c are siblings (parent c), a and c are co-parents of b. *)
Example C19_siblings_ex : reachable sample ∧ denotes sample 0 (an "c") 2 ∧
  get_siblings sample 0 (an "c") = Ok [1] ∧ get_spouses sample 0 (an "c") = Ok [0; 1].
Proof. exact C19_siblings_ex_proof. Qed.
Print Assumptions C19_siblings_ex.

(** C21, partial.  Missing: an entry need not be at the shortest distance, and a
    relative may be missing from the dict.  What holds: every entry [y] under [k] is
    a relative at the end of a walk of exactly [k] edges. *)
Theorem C21_distance_partial : ∀ h g x r, reachable h → denotes h g x r →
  (∃ D, get_descendants_dist h g x = Ok D ∧
     ∀ k l y, (k, l) ∈ D → y ∈ l → 1 ≤ k ∧ walk h g k r y ∧ y ≠ r) ∧
  (∃ D, get_ancestors_dist h g x = Ok D ∧
     ∀ k l y, (k, l) ∈ D → y ∈ l → 1 ≤ k ∧ walk h g k y r).
Proof. exact C21_distance_partial_proof. Qed.
Print Assumptions C21_distance_partial.

(** C21 is false: with edges a->b, b->c, a->c the child c of a is reported at
    distance 2 and not at 1. *)
Theorem C21_distance_refuted : ∃ h g r y D, reachable h ∧ in_graph h g r ∧
  get_descendants_dist h g (ANode r) = Ok D ∧ distance h g 1 r y ∧ (2, [y]) ∈ D ∧ (∀ l, (1, l) ∈ D → y ∉ l).
Proof. exact C21_distance_refuted_proof. Qed.
Print Assumptions C21_distance_refuted.

(** C21 is false on a tree too: with edges a->b, a->c, b->d, c->e the grandchild d
    of a is not in the dict at all. *)
Theorem C21_distance_tree_refuted : ∃ h g r y D, reachable h ∧ in_graph h g r ∧
  get_descendants_dist h g (ANode r) = Ok D ∧ walk h g 2 r y ∧ ∀ k l, (k, l) ∈ D → y ∉ l.
Proof. exact C21_distance_tree_refuted_proof. Qed.
Print Assumptions C21_distance_tree_refuted.

(** The dicts of the sample. *)
Example C21_distance_ex : reachable sample ∧ denotes sample 0 (an "a") 0 ∧
  get_descendants_dist sample 0 (an "a") = Ok [(1, [1]); (2, [2])].
Proof. exact C21_distance_ex_proof. Qed.
Print Assumptions C21_distance_ex.

(** C48.  get_descendants (with [next] = __children__) and get_ancestors (with
    [next] = __parents__) on objects: with a finite set [U] of objects closed under
    [next], every recursion depth from the size of [U] on gives a result, and it
    lists exactly the other objects that can be reached. *)
Theorem C48_objects : ∀ (Obj : Type) (dec_eq : EqDecision Obj) (next : Obj → list Obj) (U : list Obj) (o : Obj) fuel,
  o ∈ U → (∀ x y, x ∈ U → y ∈ next x → y ∈ U) → length U ≤ fuel →
  ∃ L D, obj_relatives fuel next None o = Ok L ∧ obj_relatives_dist fuel next None o = Ok D ∧ NoDup L ∧
    (∀ x, x ∈ L ↔ tc (λ x y, y ∈ next x) o x ∧ x ≠ o) ∧
    (∀ k l x, (k, l) ∈ D → x ∈ l → 1 ≤ k ∧ nsteps (λ x y, y ∈ next x) k o x ∧ x ≠ o).
Proof. exact C48_objects_proof. Qed.
Print Assumptions C48_objects.

(** A cyclic object graph. *)
Example C48_objects_ex : (0 ∈ [0; 1; 2; 3] ∧ ∀ x y, x ∈ [0; 1; 2; 3] → y ∈ next_ex x → y ∈ [0; 1; 2; 3]) ∧
  obj_relatives 4 next_ex None 0 = Ok [1; 2; 3].
Proof. exact C48_objects_ex_proof. Qed.
Print Assumptions C48_objects_ex.

(** C49, partial.  Missing: completeness, an object within reach may be left out.
    What holds: every listed object is another object at most [d] steps away, listed
    once; with [d] at least 1 all children are listed; the distance entries are
    within [d] too. *)
Theorem C49_max_depth_partial : ∀ (Obj : Type) (dec_eq : EqDecision Obj) (next : Obj → list Obj) (o : Obj) d fuel,
  (0 <= d)%Z → Z.to_nat d < fuel →
  ∃ L D, obj_relatives fuel next (Some d) o = Ok L ∧ obj_relatives_dist fuel next (Some d) o = Ok D ∧ NoDup L ∧
    (∀ x, x ∈ L → x ≠ o ∧ ∃ k, 1 ≤ k ≤ Z.to_nat d ∧ nsteps (λ x y, y ∈ next x) k o x) ∧
    (∀ x, 1 ≤ Z.to_nat d → x ∈ next o → x ≠ o → x ∈ L) ∧
    (∀ k l x, (k, l) ∈ D → x ∈ l → 1 ≤ k ≤ Z.to_nat d ∧ nsteps (λ x y, y ∈ next x) k o x ∧ x ∈ L).
Proof. exact C49_max_depth_partial_proof. Qed.
Print Assumptions C49_max_depth_partial.

(** C49.  A limit of at least the number of objects is no limit; a limit of 0 or
    less gives nothing. *)
Theorem C49_extreme_limits : ∀ (Obj : Type) (dec_eq : EqDecision Obj) (next : Obj → list Obj) (U : list Obj) (o : Obj) d fuel,
  (o ∈ U → (∀ x y, x ∈ U → y ∈ next x → y ∈ U) → (Z.of_nat (length U) <= d)%Z →
    obj_relatives fuel next (Some d) o = obj_relatives fuel next None o) ∧
  ((d <= 0)%Z → obj_relatives (S fuel) next (Some d) o = Ok []).
Proof. exact C49_extreme_limits_proof. Qed.
Print Assumptions C49_extreme_limits.

(** C49 is false: in 0 -> 1 -> 2 -> 3 -> 4 with the shortcut 0 -> 2, the object 4 is
    3 steps away and is not returned with max_depth=3. *)
Theorem C49_max_depth_refuted : ∃ (next : nat → list nat) (U : list nat) (o x : nat) d L,
  o ∈ U ∧ (∀ x y, x ∈ U → y ∈ next x → y ∈ U) ∧
  (∀ fuel, length U ≤ fuel → obj_relatives fuel next (Some (Z.of_nat d)) o = Ok L) ∧
  x ≠ o ∧ nsteps (λ x y, y ∈ next x) d o x ∧ x ∉ L.
Proof. exact C49_max_depth_refuted_proof. Qed.
Print Assumptions C49_max_depth_refuted.

(** A limit that cuts: 2 steps from 0. *)
Example C49_max_depth_ex : (0 <= 2)%Z ∧ Z.to_nat 2 < 9 ∧ obj_relatives 9 next_short (Some 2%Z) 0 = Ok [1; 2; 3].
Proof. exact C49_max_depth_ex_proof. Qed.
Print Assumptions C49_max_depth_ex.

(** C50, partial.  Missing: nodes.  What holds: names are decided; an object that is
    neither gives False. *)
Theorem C50_contains_partial : ∀ h g G, reachable h → h_graphs h !! g = Some G →
  (∀ n, ∃ b, contains h g (AName n) = Ok b ∧ (b = true ↔ ∃ r, named h g n r)) ∧
  contains h g AOther = Ok false.
Proof. exact C50_contains_partial_proof. Qed.
Print Assumptions C50_contains_partial.

(** C50 for nodes: [node in graph] is never True; it raises TypeError iff the
    graph has a node of that name, in particular for its own nodes. *)
Theorem C50_contains_nodes : ∀ h g G r N, reachable h → h_graphs h !! g = Some G → h_nodes h !! r = Some N →
  contains h g (ANode r) ≠ Ok true ∧
  (contains h g (ANode r) = Err TypeError ↔ ∃ r', named h g (n_id N) r') ∧
  (in_graph h g r → contains h g (ANode r) = Err TypeError).
Proof. exact C50_contains_nodes_proof. Qed.
Print Assumptions C50_contains_nodes.

(** C50 is false of nodes. *)
Theorem C50_contains_refuted : ∃ h g r, reachable h ∧ in_graph h g r ∧ contains h g (ANode r) = Err TypeError.
Proof. exact C50_contains_refuted_proof. Qed.
Print Assumptions C50_contains_refuted.

(** Name a, and node a of the sample. *)
Example C50_contains_ex : reachable sample ∧ in_graph sample 0 0 ∧ contains sample 0 (an "a") = Ok true ∧
  contains sample 0 (an "z") = Ok false ∧ contains sample 0 (ANode 0) = Err TypeError.
Proof. exact C50_contains_ex_proof. Qed.
Print Assumptions C50_contains_ex.

(** C49, instance for the extreme limits. *)
Example C49_extreme_limits_ex : 0 ∈ [0; 1; 2; 3] ∧ (∀ x y, x ∈ [0; 1; 2; 3] → y ∈ next_ex x → y ∈ [0; 1; 2; 3]) ∧
  obj_relatives 9 next_ex (Some 4%Z) 0 = Ok [1; 2; 3] ∧ obj_relatives 9 next_ex (Some 0%Z) 0 = Ok [].
Proof. exact C49_extreme_limits_ex_proof. Qed.
Print Assumptions C49_extreme_limits_ex.
