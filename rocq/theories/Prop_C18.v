(** Property theorems; the proofs are in ProofC18.v. *)
From Verif Require Import ProofC18.
Local Open Scope list_scope.

(** C67.  A node without style that has a parent not on a cycle and is on no cycle
    itself gets the style that its ancestors hand down, all starting from the styles
    of the nearest ancestors that are roots (or have all parents on cycles).  Missing:
    that this agrees with the styles of the parents (C67_styled_parent_refuted,
    C67_mixed_refuted). *)
Theorem C67_handed_down_partial : ∀ h g G D sh h' r, reachable h → h_graphs h !! g = Some G → g_disp G = Some D → default_styling D → comparable h g →
  stylize g sh h = (h', Ok tt) → in_graph h g r → ¬ node_styled h r → ¬ rootlike h g r → ¬ on_cycle h g r → ∃ s, style_of h' r s ∧ hands_down h' g (1 # 20) r s.
Proof. exact C67_handed_down_partial_proof. Qed.
Print Assumptions C67_handed_down_partial.

(** C67.  If it has one parent edge, from p, and p had no style before either, or is a
    root, or has only parents on cycles: the colour of p with its hue turned by a
    twentieth of the diverging number for its rank among the children of p, then
    saturated; fill, border and text colours derived from it; everything else as in the
    style of p. *)
Theorem C67_single_partial : ∀ h g G D sh h' r p, reachable h → h_graphs h !! g = Some G → g_disp G = Some D → default_styling D → comparable h g →
  stylize g sh h = (h', Ok tt) → in_graph h g r → ¬ node_styled h r → ¬ rootlike h g r → ¬ on_cycle h g r → node_parents h r = Ok [p] → ¬ node_styled h p ∨ rootlike h g p →
  ∃ sp cs i q, style_of h' p sp ∧ node_children h p = Ok cs ∧ get_child_rank h r p = Ok i ∧ (q == (1 # 20) * diverging (length cs) i)%Q ∧
    style_of h' r (tinted (CSat (CHue (ns_colour sp) q)) sp).
Proof. exact C67_single_partial_proof. Qed.
Print Assumptions C67_single_partial.

(** C67.  If it has several parent edges, all from roots or nodes with only parents on
    cycles: the mixture of the colours of the parents, in the order of node.parents, a
    twentieth paler; everything else as in the style of the first parent. *)
Theorem C67_several_partial : ∀ h g G D sh h' r ps, reachable h → h_graphs h !! g = Some G → g_disp G = Some D → default_styling D → comparable h g →
  stylize g sh h = (h', Ok tt) → in_graph h g r → ¬ node_styled h r → ¬ rootlike h g r → ¬ on_cycle h g r → node_parents h r = Ok ps → length ps ≠ 1 → (∀ p, p ∈ ps → rootlike h g p) →
  ∃ sty stys, Forall2 (style_of h') ps (sty :: stys) ∧ style_of h' r (tinted (CPale (mix (map ns_colour (sty :: stys))) (1 # 20)) sty).
Proof. exact C67_several_partial_proof. Qed.
Print Assumptions C67_several_partial.

(** C67 refuted: in a -> b -> c with a green b, node c gets its colour from the red of
    the root a, not from b. *)
Theorem C67_styled_parent_refuted : ∃ h G D h' sp s q q', reachable h ∧ h_graphs h !! 0 = Some G ∧ g_disp G = Some D ∧ default_styling D ∧ comparable h 0 ∧
  stylize 0 id h = (h', Ok tt) ∧ node_parents h 2 = Ok [1] ∧ style_of h' 1 sp ∧ style_of h' 2 s ∧ ns_colour sp = CName "green" ∧
  ns_colour s = CSat (CHue (CSat (CHue (CName "red") q)) q').
Proof. exact C67_styled_parent_refuted_proof. Qed.
Print Assumptions C67_styled_parent_refuted.

(** C67 refuted: in the diamond a -> b -> d, a -> c -> d the nodes b and c get different
    hues, but d gets the mixture of two equal colours that neither of them has. *)
Theorem C67_mixed_refuted : ∃ h G D h' s1 s2 s c, reachable h ∧ h_graphs h !! 0 = Some G ∧ g_disp G = Some D ∧ default_styling D ∧ comparable h 0 ∧ (∀ r, ¬ node_styled h r) ∧
  stylize 0 id h = (h', Ok tt) ∧ node_parents h 3 = Ok [1; 2] ∧ style_of h' 1 s1 ∧ style_of h' 2 s2 ∧ style_of h' 3 s ∧
  ns_colour s1 = CSat (CHue (CName "red") (-1 # 20)) ∧ ns_colour s2 = CSat (CHue (CName "red") (1 # 20)) ∧
  ns_colour s = CPale (CMixCons c (CMixCons c CMixNil)) (1 # 20) ∧ ∃ q, (q == 0)%Q ∧ c = CSat (CHue (CName "red") q).
Proof. exact C67_mixed_refuted_proof. Qed.
Print Assumptions C67_mixed_refuted.

(** In the diamond the hypotheses of C67_single_partial hold of b, with parent a. *)
Example C67_single_ex : ∃ h G D h', reachable h ∧ h_graphs h !! 0 = Some G ∧ g_disp G = Some D ∧ default_styling D ∧ comparable h 0 ∧ stylize 0 id h = (h', Ok tt) ∧
  in_graph h 0 1 ∧ ¬ node_styled h 1 ∧ ¬ rootlike h 0 1 ∧ ¬ on_cycle h 0 1 ∧ node_parents h 1 = Ok [0] ∧ ¬ node_styled h 0.
Proof. exact C67_single_ex_proof. Qed.
Print Assumptions C67_single_ex.

(** In the graph x -> z, y -> z the hypotheses of C67_several_partial hold of z. *)
Example C67_several_ex : ∃ h G D h', reachable h ∧ h_graphs h !! 0 = Some G ∧ g_disp G = Some D ∧ default_styling D ∧ comparable h 0 ∧ stylize 0 id h = (h', Ok tt) ∧
  in_graph h 0 2 ∧ ¬ node_styled h 2 ∧ ¬ rootlike h 0 2 ∧ ¬ on_cycle h 0 2 ∧ node_parents h 2 = Ok [0; 1] ∧ rootlike h 0 0 ∧ rootlike h 0 1 ∧
  style_of h' 2 (standard_node (CPale (CMixCons (CName "red") (CMixCons (CName "blue") CMixNil)) (1 # 20))).
Proof. exact C67_several_ex_proof. Qed.
Print Assumptions C67_several_ex.
