(** Property theorems; the proofs are in ProofC7.v. *)
From Verif Require Import ProofC7.
Local Open Scope string_scope.
Local Open Scope list_scope.

(** C23.  Copying a graph without node styles succeeds: the result is a new graph,
    corresponding node by node and edge by edge to the original, and no object
    that existed before was changed. *)
Theorem C23_copy : ∀ h g G, reachable h → h_graphs h !! g = Some G → unstyled h g → no_methods h g →
  ∃ h' g' nu ep, copy g h = (h', Ok g') ∧ h_graphs h !! g' = None ∧ extends h h' ∧ copy_of h g h' g' nu ep.
Proof. exact C23_copy_proof. Qed.
Print Assumptions C23_copy.

(** C23.  Afterwards the two graphs are independent: calls that are not on the
    original leave the original as it is, and calls that are not on the copy leave
    the copy as it is. *)
Theorem C23_independent : ∀ h g h' g', reachable h → is_Some (h_graphs h !! g) → copy g h = (h', Ok g') →
  g ≠ g' ∧ (∀ h'', aside g h' h'' → unchanged g h h'') ∧ (∀ h'', aside g' h' h'' → unchanged g' h' h'').
Proof. exact C23_independent_proof. Qed.
Print Assumptions C23_independent.

(** The sample graph: a copy of graph 0, then calls on both. *)
Example C23_copy_ex : reachable sample ∧ is_Some (h_graphs sample !! 0) ∧ unstyled sample 0 ∧ no_methods sample 0 ∧
  ∃ h', copy 0 sample = (h', Ok 2) ∧
  aside 0 h' (run [CRemoveNode 2 (an "b"); CAddNode 2 (an "new") nargs0; CAddNode 1 (an "q") nargs0] h').
Proof. exact C23_copy_ex_proof. Qed.
Print Assumptions C23_copy_ex.

(** C24, when copying succeeds: exactly if no node has a style; otherwise it raises
    KeyError and changes nothing.  Partial: the property claims success always. *)
Theorem C24_exact_partial : ∀ h g G, reachable h → h_graphs h !! g = Some G → no_methods h g →
  (unstyled h g → ∃ h' g', copy g h = (h', Ok g')) ∧ (¬ unstyled h g → copy g h = (h, Err KeyError)).
Proof. exact C24_exact_partial_proof. Qed.
Print Assumptions C24_exact_partial.

(** C24 is false: rendering a graph succeeds and copying it then fails. *)
Theorem C24_refuted : ∃ h g s, reachable h ∧ is_Some (h_graphs h !! g) ∧
  (render env0 g "TB" (PInt 0) id h).2 = Ok s ∧
  (let h1 := after (CRender env0 g "TB" (PInt 0) id) h in reachable h1 ∧ copy g h1 = (h1, Err KeyError)).
Proof. exact C24_refuted_proof. Qed.
Print Assumptions C24_refuted.

(** C25, the part that holds: a copy has the same structure, so that everything the
    library derives from edges (children, ancestors, loops, distances: C12-C22) is
    the same up to the correspondence.  Partial: the property also claims it for
    display. *)
Theorem C25_structure_partial : ∀ h g h' g', reachable h → is_Some (h_graphs h !! g) → copy g h = (h', Ok g') →
  ∃ nu ep, copy_of h g h' g' nu ep ∧
    (∀ e x y, joins h g e x y → joins h' g' (ep e) (nu x) (nu y)) ∧
    (∀ x y, in_graph h g x → in_graph h g y →
      (adj h g x y ↔ adj h' g' (nu x) (nu y)) ∧ (path h g x y ↔ path h' g' (nu x) (nu y)) ∧
      (∀ n, distance h g n x y ↔ distance h' g' n (nu x) (nu y))).
Proof. exact C25_structure_partial_proof. Qed.
Print Assumptions C25_structure_partial.

(** C25, what fails on every copy: stylize, render and __graph__ (hence also
    appending it to another graph, and +) raise AttributeError.  Partial: the
    property claims that these work as on the original. *)
Theorem C25_display_partial : ∀ h g h' g', reachable h → copy g h = (h', Ok g') →
  (∀ shuffle, stylize g' shuffle h' = (h', Err AttributeError)) ∧
  (∀ env dir pad shuffle, render env g' dir pad shuffle h' = (h', Err AttributeError)) ∧
  graph_repr h' g' = Err AttributeError ∧
  (∀ g1, graph_append g1 (OGraph g') h' = (h', Err TypeError)) ∧
  (∀ d f order g2, add_graphs d f order g' g2 h' = (h', Err AttributeError)).
Proof. exact C25_display_partial_proof. Qed.
Print Assumptions C25_display_partial.

(** C25 is false: rendering works on the graph, not on its copy. *)
Theorem C25_refuted : ∃ h g s h' g', reachable h ∧ (render env0 g "TB" (PInt 0) id h).2 = Ok s ∧
  copy g h = (h', Ok g') ∧ (render env0 g' "TB" (PInt 0) id h').2 = Err AttributeError.
Proof. exact C25_refuted_proof. Qed.
Print Assumptions C25_refuted.

(** C25 is false for updates too: giving an edge that has a style another one. *)
Theorem C25_update_refuted : ∃ h g e h' g', reachable h ∧
  (connect g (an "a") (an "b") (line_width 2) h).2 = Ok e ∧
  copy g h = (h', Ok g') ∧ (connect g' (an "a") (an "b") (line_width 2) h').2 = Err AttributeError.
Proof. exact C25_update_refuted_proof. Qed.
Print Assumptions C25_update_refuted.
