(** Property theorems; the proofs are in ProofC33.v. *)
From Verif Require Import ProofC33.
Local Open Scope string_scope.
Local Open Scope list_scope.

(** C79.  Assigning attributes of a style object changes this object only; nodes that do not
    use it keep their styles and are drawn as before, and so are all edges. *)
Theorem C79_others : ∀ h s d h1 x, set_nstyle s d h = (h1, x) → only_nstyle s h h1 ∧
  (∀ r t, ¬ uses h r s → style_of h1 r t ↔ style_of h r t) ∧
  (∀ env r, ¬ uses h r s → node_graphviz env h1 r = node_graphviz env h r) ∧
  (∀ env e, edge_graphviz env h1 e = edge_graphviz env h e).
Proof. exact C79_others_proof. Qed.
Print Assumptions C79_others.

(** C79.  The same for edge styles. *)
Theorem C79_edge_others : ∀ h s d h1 x, set_estyle s d h = (h1, x) → only_estyle s h h1 ∧
  (∀ e t, ¬ edge_uses h e s → edge_style_of h1 e t ↔ edge_style_of h e t) ∧
  (∀ env e, ¬ edge_uses h e s → edge_graphviz env h1 e = edge_graphviz env h e) ∧
  (∀ env r, node_graphviz env h1 r = node_graphviz env h r).
Proof. exact C79_edge_others_proof. Qed.
Print Assumptions C79_edge_others.

(** C79.  Assigning one attribute of a node style object always works, sets this attribute and
    no other one, and all nodes that use the object have the new attributes at once. *)
Theorem C79_assign : ∀ h s t k v w, reachable h → h_ns h !! s = Some t → k ∈ node_attr_names → stores k v w →
  ∃ h1 t1, set_nstyle s [(k, v)] h = (h1, Ok tt) ∧ h_ns h1 !! s = Some t1 ∧
    node_attrs t1 = dset (node_attrs t) k w ∧ (∀ r, uses h r s → style_of h1 r t1).
Proof. exact C79_assign_proof. Qed.
Print Assumptions C79_assign.

(** C79.  The same for edge style objects. *)
Theorem C79_edge_assign : ∀ h s t k v w, reachable h → h_es h !! s = Some t → k ∈ edge_attr_names → stores k v w →
  ∃ h1 t1, set_estyle s [(k, v)] h = (h1, Ok tt) ∧ h_es h1 !! s = Some t1 ∧
    edge_attrs t1 = dset (edge_attrs t) k w ∧ (∀ e, edge_uses h e s → edge_style_of h1 e t1).
Proof. exact C79_edge_assign_proof. Qed.
Print Assumptions C79_edge_assign.

(** C79.  But assigning the main colour of a node style changes the statement of no node and of
    no edge in the DOT text: the colours that are drawn are always set already. *)
Theorem C79_colour : ∀ h s t v w, reachable h → h_ns h !! s = Some t → stores "colour" v w →
  ∃ h1, set_nstyle s [("colour", v)] h = (h1, Ok tt) ∧
    (∀ env r, node_graphviz env h1 r = node_graphviz env h r) ∧ (∀ env e, edge_graphviz env h1 e = edge_graphviz env h e).
Proof. exact C79_colour_proof. Qed.
Print Assumptions C79_colour.

(** C79.  New style objects, made or derived from others, are used by no node or edge, and
    nothing else changes. *)
Theorem C79_new : ∀ h s h1, reachable h →
  ((∃ d, make_nstyle d h = (h1, Ok s)) ∨ (∃ b s0, derive_nstyle b s0 h = (h1, Ok s))) →
  (∃ t, h1 = h <| h_ns := h_ns h ++ [t] |>) ∧ s = length (h_ns h) ∧ (∀ r, ¬ uses h1 r s).
Proof. exact C79_new_proof. Qed.
Print Assumptions C79_new.

(** C79.  The same for edge styles. *)
Theorem C79_edge_new : ∀ h s h1, reachable h →
  ((∃ d, make_estyle d h = (h1, Ok s)) ∨ (∃ b s0, derive_estyle b s0 h = (h1, Ok s))) →
  (∃ t, h1 = h <| h_es := h_es h ++ [t] |>) ∧ s = length (h_es h) ∧ (∀ e, ¬ edge_uses h1 e s).
Proof. exact C79_edge_new_proof. Qed.
Print Assumptions C79_edge_new.

(** C79.  Example: a and b share a style object, c has a copy of it; the shape assigned to the
    shared object shows on a and b, not on c. *)
Example C79_ex : reachable shared ∧ uses shared 0 0 ∧ uses shared 1 0 ∧ ¬ uses shared 2 0 ∧ stores "shape" (PStr "circle") (PStr "circle") ∧
  (let h1 := (set_nstyle 0 [("shape", PStr "circle")] shared).1 in
   (∃ t, style_of h1 0 t ∧ ns_shape t = PStr "circle") ∧ (∃ t, style_of h1 1 t ∧ ns_shape t = PStr "circle") ∧
   (∃ t, style_of h1 2 t ∧ ns_shape t = PStr "box")).
Proof. exact C79_ex_proof. Qed.
Print Assumptions C79_ex.

(** C79.  Not every attribute shows: node a is drawn the same after the colour of its style is
    set to blue, although the style gives blue as its colour. *)
Theorem C79_colour_refuted : ∃ h s r t, reachable h ∧ uses h r s ∧ h_ns h !! s = Some t ∧ ns_colour t = CName "red" ∧
  ∃ h1 t1, set_nstyle s [("colour", PStr "blue")] h = (h1, Ok tt) ∧ style_of h1 r t1 ∧ ns_colour t1 = CName "blue" ∧
  ∀ env, node_graphviz env h1 r = node_graphviz env h r.
Proof. exact C79_colour_refuted_proof. Qed.
Print Assumptions C79_colour_refuted.

(** C66.  The background colour can be changed at any time: it is what the header then shows,
    and nothing else changes. *)
Theorem C66_background : ∀ h g G D v c, h_graphs h !! g = Some G → g_disp G = Some D → stores "colour" v (PCol c) →
  set_background g v h = (h <| h_graphs := <[g := G <| g_disp := Some (D <| d_background := c |>) |>]> (h_graphs h) |>, Ok tt).
Proof. exact C66_background_proof. Qed.
Print Assumptions C66_background.

(** C66.  Example. *)
Example C66_background_ex : ∃ G D, h_graphs sample !! 0 = Some G ∧ g_disp G = Some D ∧ stores "colour" (PStr "pink") (PCol (CName "pink")) ∧
  d_background D ≠ CName "pink" ∧ ∃ G' D', h_graphs (set_background 0 (PStr "pink") sample).1 !! 0 = Some G' ∧ g_disp G' = Some D' ∧ d_background D' = CName "pink".
Proof. exact C66_background_ex_proof. Qed.
Print Assumptions C66_background_ex.
