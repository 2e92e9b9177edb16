(** Property theorems; the proofs are in ProofC8.v. *)
From Verif Require Import ProofC8.
Local Open Scope string_scope.
Local Open Scope list_scope.

(** C26, what filter really does: whatever the direction, the relatives in both
    directions are taken; 'include' keeps exactly them, every other filter type
    exactly the rest.  The result is a new graph: the image of the kept part, with
    all the edges between kept nodes; everything that existed is left as it was.
    Partial: the property claims that the direction is observed, and that there is
    no condition on styles (see C24). *)
Theorem C26_exact_partial : ∀ h g G xs direction filter_type, reachable h → h_graphs h !! g = Some G →
  unstyled h g → no_methods h g → (∀ x, x ∈ xs → ∃ r, denotes h g x r) →
  ∃ h' g' nu ep kept, filter_graph g xs direction filter_type h = (h', Ok g') ∧
    extends h h' ∧ h_graphs h !! g' = None ∧ part_of h g h' g' nu ep kept ∧
    ∀ k, k ∈ kept ↔ k ∈ dkeys (g_nodes G) ∧
      (if decide (filter_type = "include") then relative_name h g xs k else ¬ relative_name h g xs k).
Proof. exact C26_exact_partial_proof. Qed.
Print Assumptions C26_exact_partial.

(** C26 for the default direction: exactly as claimed, if no node has a style. *)
Theorem C26_both_partial : ∀ h g G xs, reachable h → h_graphs h !! g = Some G →
  unstyled h g → no_methods h g → (∀ x, x ∈ xs → ∃ r, denotes h g x r) →
  ∃ h' g' nu ep kept, filter_graph g xs "to_and_from" "include" h = (h', Ok g') ∧
    extends h h' ∧ h_graphs h !! g' = None ∧ part_of h g h' g' nu ep kept ∧
    ∀ k, k ∈ kept ↔ ∃ x r r', x ∈ xs ∧ denotes h g x r ∧ named h g k r' ∧ (r' = r ∨ path h g r r' ∨ path h g r' r).
Proof. exact C26_both_partial_proof. Qed.
Print Assumptions C26_both_partial.

(** A name that is not in the graph makes filter fail, and nothing changes. *)
Theorem C26_unknown_partial : ∀ h g xs ys x direction filter_type, reachable h →
  (∀ x, x ∈ xs → ∃ r, denotes h g x r) → unknown h g x →
  filter_graph g (xs ++ x :: ys) direction filter_type h = (h, Err KeyError).
Proof. exact C26_unknown_partial_proof. Qed.
Print Assumptions C26_unknown_partial.

(** C26 is false: with direction 'to', a descendant that is no ancestor is kept. *)
Theorem C26_refuted : ∃ h g h' g' r, reachable h ∧ filter_graph g [an "a"] "to" "include" h = (h', Ok g') ∧
  denotes h g (an "a") 0 ∧ named h g (nm "b") 1 ∧ ¬ path h g 1 0 ∧ named h' g' (nm "b") r.
Proof. exact C26_refuted_proof. Qed.
Print Assumptions C26_refuted.

(** The sample graph 0, filtered by c: all but the isolated d is kept. *)
Example C26_filter_ex : reachable sample ∧ unstyled sample 0 ∧ no_methods sample 0 ∧
  (∃ r, denotes sample 0 (an "c") r) ∧ (∃ h', filter_graph 0 [an "c"] "to_and_from" "include" sample = (h', Ok 2) ∧
  dkeys <$> (g_nodes <$> h_graphs h' !! 2) = Some [nm "a"; nm "b"; nm "c"]) ∧
  (∃ h', filter_graph 0 [an "c"] "to_and_from" "exclude" sample = (h', Ok 2) ∧
  dkeys <$> (g_nodes <$> h_graphs h' !! 2) = Some [nm "d"]).
Proof. exact C26_filter_ex_proof. Qed.
Print Assumptions C26_filter_ex.

(** C26, instance for unknown names: b is known, z is not. *)
Example C26_unknown_ex : reachable sample ∧ (∃ r, denotes sample 0 (an "b") r) ∧ unknown sample 0 (an "z") ∧
  (filter_graph 0 [an "b"; an "z"] "to" "include" sample).2 = Err KeyError.
Proof. exact C26_unknown_ex_proof. Qed.
Print Assumptions C26_unknown_ex.
