(** Property theorems; the proofs are in ProofC50.v. *)
From Verif Require Import ProofC50.
Local Open Scope string_scope.
Local Open Scope list_scope.

(** C89.  The nodes that filter with 'include' and 'exclude' keep are complementary: every name
    of the graph is in exactly one of the two results, no other name is. *)
Theorem C89_partition : ∀ h g G (ks : list name) d1 d2, reachable h → h_graphs h !! g = Some G → unstyled h g → no_methods h g → (∀ k, k ∈ ks → has_name h g k) →
  ∃ h1 g1 h2 g2, filter_graph g (AName <$> ks) d1 "include" h = (h1, Ok g1) ∧ filter_graph g (AName <$> ks) d2 "exclude" h = (h2, Ok g2) ∧
    (∀ k, has_name h1 g1 k ↔ related h g ks k) ∧
    (∀ k, has_name h g k ↔ has_name h1 g1 k ∨ has_name h2 g2 k) ∧ (∀ k, ¬ (has_name h1 g1 k ∧ has_name h2 g2 k)).
Proof. exact C89_partition_proof. Qed.
Print Assumptions C89_partition.

(** C89.  In the graph that filter gives for 'include', the nodes asked for have the same
    ancestors and descendants as before. *)
Theorem C89_relatives : ∀ h g G (ks : list name) d, reachable h → h_graphs h !! g = Some G → unstyled h g → no_methods h g → (∀ k, k ∈ ks → has_name h g k) →
  ∃ h1 g1, filter_graph g (AName <$> ks) d "include" h = (h1, Ok g1) ∧
    ∀ k k', k ∈ ks → (leads h1 g1 k k' ↔ leads h g k k') ∧ (leads h1 g1 k' k ↔ leads h g k' k).
Proof. exact C89_relatives_proof. Qed.
Print Assumptions C89_relatives.

(** C89.  Filtering the result again, with the same nodes and 'include', keeps all of it. *)
Theorem C89_again : ∀ h g G (ks : list name) d d', reachable h → h_graphs h !! g = Some G → unstyled h g → no_methods h g → (∀ k, k ∈ ks → has_name h g k) →
  ∃ h1 g1 h2 g2 nu ep kept, filter_graph g (AName <$> ks) d "include" h = (h1, Ok g1) ∧ filter_graph g1 (AName <$> ks) d' "include" h1 = (h2, Ok g2) ∧
    part_of h1 g1 h2 g2 nu ep kept ∧ ∀ k, k ∈ kept ↔ has_name h1 g1 k.
Proof. exact C89_again_proof. Qed.
Print Assumptions C89_again.

(** C89.  More nodes asked for keep more. *)
Theorem C89_monotone : ∀ h g G (ks ks' : list name) d d', reachable h → h_graphs h !! g = Some G → unstyled h g → no_methods h g →
  ks ⊆ ks' → (∀ k, k ∈ ks' → has_name h g k) →
  ∃ h1 g1 h2 g2, filter_graph g (AName <$> ks) d "include" h = (h1, Ok g1) ∧ filter_graph g (AName <$> ks') d' "include" h = (h2, Ok g2) ∧
    ∀ k, has_name h1 g1 k → has_name h2 g2 k.
Proof. exact C89_monotone_proof. Qed.
Print Assumptions C89_monotone.

(** C89.  Without nodes asked for, 'include' gives an empty graph and 'exclude' a copy. *)
Theorem C89_nothing : ∀ h g G d1 d2, reachable h → h_graphs h !! g = Some G → unstyled h g → no_methods h g →
  ∃ h1 g1 h2 g2, filter_graph g [] d1 "include" h = (h1, Ok g1) ∧ filter_graph g [] d2 "exclude" h = (h2, Ok g2) ∧
    (∀ k, ¬ has_name h1 g1 k) ∧ (∀ k, has_name h2 g2 k ↔ has_name h g k).
Proof. exact C89_nothing_proof. Qed.
Print Assumptions C89_nothing.

(** The graph a -> b -> c, d meets the hypotheses; b and c are kept with a, d is not. *)
Example C89_ex : reachable sample ∧ unstyled sample 0 ∧ no_methods sample 0 ∧ (∀ k, k ∈ [nm "b"] → has_name sample 0 k) ∧
  (∃ h', filter_graph 0 [an "b"] "to" "include" sample = (h', Ok 2) ∧ dkeys <$> (g_nodes <$> h_graphs h' !! 2) = Some [nm "a"; nm "b"; nm "c"] ∧
    leads sample 0 (nm "a") (nm "b") ∧ leads h' 2 (nm "a") (nm "b")).
Proof. exact C89_ex_proof. Qed.
Print Assumptions C89_ex.
