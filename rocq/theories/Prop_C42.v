(** Property theorems; the proofs are in ProofC42.v. *)
From Verif Require Import ProofC42.
Local Open Scope string_scope.
Local Open Scope list_scope.

(** C18.  Exactly which nodes are roots, also when there are loops: those that reach every
    other node that reaches them and come before each of these in the list of nodes.  In
    other words, of every set of nodes that reach each other and are reached by no other
    node, the one that was added first. *)
Theorem C18_exact : ∀ h g G, reachable h → h_graphs h !! g = Some G →
  ∃ rs, roots h g = Ok rs ∧ rs `sublist_of` (g_nodes G).*2 ∧
    ∀ r, r ∈ rs ↔ in_graph h g r ∧ ∀ y, path h g y r → y ≠ r →
      path h g r y ∧ ∃ i j, (g_nodes G).*2 !! i = Some r ∧ (g_nodes G).*2 !! j = Some y ∧ i < j.
Proof. exact C18_exact_proof. Qed.
Print Assumptions C18_exact.

(** C18 is not vacuous: with edges a->b, b->a, a->c the nodes a and b reach each other and
    nothing else reaches them; a, which was added first, is the only root. *)
Example C18_exact_ex : ∃ h g a b c, reachable h ∧ in_graph h g c ∧ path h g a b ∧ path h g b a ∧ path h g b c ∧ roots h g = Ok [a].
Proof. exact C18_exact_ex_proof. Qed.
Print Assumptions C18_exact_ex.
