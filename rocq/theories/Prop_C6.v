(** Property theorems; the proofs are in ProofC6.v. *)
From Verif Require Import ProofC6.
Local Open Scope string_scope.
Local Open Scope list_scope.

(** C53.  Any call that works on another graph leaves graph g as it was: the graph
    object, its nodes and edges with all their attributes, and the style objects
    that only g uses, unless these are assigned to themselves. *)
Theorem C53_frame : ∀ h c g, reachable h → allowed h c → is_Some (h_graphs h !! g) → target h c ≠ Some g →
  unchanged g h (after c h) ∧ (¬ restyles_own h g c → own_styles_kept g h (after c h)).
Proof. exact C53_frame_proof. Qed.
Print Assumptions C53_frame.

(** C53.  Apart from stylize, render and assignments to style objects no call writes on an
    existing style object. *)
Theorem C53_styles : ∀ h c, reachable h → allowed h c →
  writes_styles c = false → styles_kept h (after c h).
Proof. exact C53_styles_proof. Qed.
Print Assumptions C53_styles.

(** C53.  So does any sequence of such calls. *)
Theorem C53_sequence : ∀ h h' g, reachable h → is_Some (h_graphs h !! g) → aside g h h' → unchanged g h h'.
Proof. exact C53_sequence_proof. Qed.
Print Assumptions C53_sequence.

(** C53.  A call that makes a new graph (constructor, copy, filter, from_lists,
    from_object, from_indented_text, random, from_dict, Graph(obj)) changes no
    existing object at all. *)
Theorem C53_builders : ∀ h c, reachable h → allowed h c → makes_graph c = true → extends h (after c h).
Proof. exact C53_builders_proof. Qed.
Print Assumptions C53_builders.

(** Connecting in graph 1, with a node object of graph 0 as the start: graph 1 gets
    an edge, graph 0 none. *)
Example C53_frame_ex :
  let c := CConnect 1 (ANode 0) (an "z") (eargs0 <| c_id := Some (nm "new") |>) in
  reachable sample ∧ allowed sample c ∧ is_Some (h_graphs sample !! 0) ∧ target sample c ≠ Some 0 ∧
  h_edges (after c sample) !! 7 = Some (new_edge 1 4 5 (eargs0 <| c_id := Some (nm "new") |>) None).
Proof. exact C53_frame_ex_proof. Qed.
Print Assumptions C53_frame_ex.

(** C36, what g1 + g2 may change, whether it succeeds or fails: nothing but the
    per-node and per-edge style overwrites kept in the graph object of g1, which
    receive those of g2.  Partial: the property claims that not even these change. *)
Theorem C36_operands_partial : ∀ h dflt f order g1 g2 G1 G2, reachable h →
  h_graphs h !! g1 = Some G1 → h_graphs h !! g2 = Some G2 →
  ∃ h1, extends h1 (after (CAdd dflt f order g1 g2) h) ∧
    (h1 = h ∨ ∃ D1 D2, g_disp G1 = Some D1 ∧ g_disp G2 = Some D2 ∧
      h1 = h <| h_graphs := <[g1 := G1 <| g_disp := Some (D1
        <| d_node_styles := dupdate (d_node_styles D1) (d_node_styles D2) |>
        <| d_edge_styles := dupdate (d_edge_styles D1) (d_edge_styles D2) |>) |>]> (h_graphs h) |>).
Proof. exact C36_operands_partial_proof. Qed.
Print Assumptions C36_operands_partial.

(** C36.  If g2 has no per-node or per-edge style overwrites, g1 + g2 leaves every
    existing object unchanged. *)
Theorem C36_plain_partial : ∀ h dflt f order g1 g2 G1 G2 D2, reachable h →
  h_graphs h !! g1 = Some G1 → h_graphs h !! g2 = Some G2 →
  g_disp G2 = Some D2 → d_node_styles D2 = [] → d_edge_styles D2 = [] →
  extends h (after (CAdd dflt f order g1 g2) h).
Proof. exact C36_plain_partial_proof. Qed.
Print Assumptions C36_plain_partial.

(** C36 is false: after g1 + g2, which succeeds, the same node of g1 is drawn with
    another shape, because g1 has taken over the style overwrites of g2. *)
Theorem C36_refuted : ∃ h c g, reachable h ∧ allowed h c ∧ c = CAdd disp0 default_add id 0 1 ∧
  (add_graphs disp0 default_add id 0 1 h).2 = Ok g ∧
  (render env0 0 "TB" (PInt 0) id h).2 ≠ (render env0 0 "TB" (PInt 0) id (after c h)).2 ∧
  (d_node_styles <$> (h_graphs h !! 0 ≫= g_disp)) = Some [] ∧
  (d_node_styles <$> (h_graphs (after c h) !! 0 ≫= g_disp)) = Some [(nm "a", [("shape", PStr "triangle")])].
Proof. exact C36_refuted_proof. Qed.
Print Assumptions C36_refuted.

(** C53, instance for sequences: three calls on graph 1, the second of which fails. *)
Example C53_sequence_ex : reachable sample ∧ is_Some (h_graphs sample !! 0) ∧
  (let cs := [CRemoveNode 1 (an "z"); CRemoveNode 1 (an "z"); CAddNode 1 (an "b") (nargs0 <| a_value := PInt 3 |>)] in
   aside 0 sample (run cs sample) ∧ h_nodes (run cs sample) ≠ h_nodes sample).
Proof. exact C53_sequence_ex_proof. Qed.
Print Assumptions C53_sequence_ex.

(** C53, instance for styles: assigning a second style object leaves the first as it is. *)
Example C53_styles_ex : let h := run [CNodeStyle 0 (SDict [("colour", PStr "red")])] sample in
  let c := CNodeStyle 1 (SDict [("colour", PStr "blue")]) in
  reachable h ∧ allowed h c ∧ length (h_ns h) = 1 ∧ length (h_ns (after c h)) = 2.
Proof. exact C53_styles_ex_proof. Qed.
Print Assumptions C53_styles_ex.

(** C53, instance for builders: a graph is made from lists. *)
Example C53_builders_ex : let c := CFromLists disp0 ["a"] ["b"] [PNone] false in
  reachable sample ∧ allowed sample c ∧ makes_graph c = true ∧ length (h_graphs (after c sample)) = 3 ∧
  length (h_nodes (after c sample)) = 8.
Proof. exact C53_builders_ex_proof. Qed.
Print Assumptions C53_builders_ex.

(** C36, instance without overwrites: graph 1 has an edge, so that the sum fails, and
    nothing changes; and two graphs without edges, whose sum is a third one. *)
Example C36_plain_ex : let h := run [CNew false true disp0; CNew false true disp0; CAddNode 0 (an "a") nargs0; CAddNode 1 (an "b") nargs0] empty_heap in
  reachable h ∧ (∃ G1 G2 D2, h_graphs h !! 0 = Some G1 ∧ h_graphs h !! 1 = Some G2 ∧ g_disp G2 = Some D2 ∧
    d_node_styles D2 = [] ∧ d_edge_styles D2 = []) ∧
  (add_graphs disp0 default_add id 0 1 h).2 = Ok 2 ∧ (add_graphs disp0 default_add id 0 1 sample).2 = Err AttributeError.
Proof. exact C36_plain_ex_proof. Qed.
Print Assumptions C36_plain_ex.
