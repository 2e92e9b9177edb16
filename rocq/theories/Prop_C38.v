(** Property theorems; the proofs are in ProofC38.v. *)
From Verif Require Import ProofC38.
Local Open Scope list_scope.

(** C80.  Without a template for nodes, whatever the ratios, a node that had no style, is
    no root, has a parent on no cycle and is on no cycle itself gets the style that its
    ancestors hand down with these ratios.  Missing: that this agrees with the styles of
    the parents (C67_styled_parent_refuted, C67_mixed_refuted). *)
Theorem C80_ratios_partial : ∀ h g G D tmpl pale div dark h' r, reachable h → h_graphs h !! g = Some G → g_disp G = Some D → comparable h g → fine_edge tmpl →
  pensieve_main None tmpl pale div dark g h = (h', Ok tt) → in_graph h g r → ¬ node_styled h r → ¬ rootlike h g r → ¬ on_cycle h g r →
  ∃ s, style_of h' r s ∧ hands_down_by h' g pale div r s.
Proof. exact C80_ratios_partial_proof. Qed.
Print Assumptions C80_ratios_partial.

(** The diamond a -> b, a -> c, b -> d, c -> d with ratios 1/5, 1/10, 1/2: the hue of b is
    turned by a tenth, d is the mixture paled by a fifth. *)
Example C80_ratios_ex : ∃ h G D h', reachable h ∧ h_graphs h !! 0 = Some G ∧ g_disp G = Some D ∧ comparable h 0 ∧
  pensieve_main None None (1 # 5) (1 # 10) (1 # 2) 0 h = (h', Ok tt) ∧ in_graph h 0 1 ∧ ¬ node_styled h 1 ∧ ¬ rootlike h 0 1 ∧ ¬ on_cycle h 0 1 ∧
  ∃ s0 q q1 q2, style_of h' 0 s0 ∧ style_of h' 1 (tinted (CSat (CHue (ns_colour s0) q)) s0) ∧ (q == - (1 # 10))%Q ∧
    style_of h' 3 (tinted (CPale (mix [CSat (CHue (ns_colour s0) q1); CSat (CHue (ns_colour s0) q2)]) (1 # 5)) s0) ∧ (q1 == 0)%Q ∧ (q2 == 0)%Q.
Proof. exact C80_ratios_ex_proof. Qed.
Print Assumptions C80_ratios_ex.
