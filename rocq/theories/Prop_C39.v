(** Property theorems; the proofs are in ProofC39.v. *)
From Verif Require Import ProofC39.
Local Open Scope string_scope.
Local Open Scope list_scope.

(** C71.  stylize with a style for all nodes or one for all edges that fit the graph
    succeeds.  (That a second call fails unless overwriting is allowed is
    C71_raises_partial.)  Missing: graphs with an empty colour scheme or with nodes that
    cannot be compared. *)
Theorem C71_succeeds_partial : ∀ h g G D sh, reachable h → h_graphs h !! g = Some G → g_disp G = Some D → global_styles D → d_scheme D ≠ [] → comparable h g →
  global_fit h g D → ∃ h', stylize g sh h = (h', Ok tt).
Proof. exact C71_succeeds_partial_proof. Qed.
Print Assumptions C71_succeeds_partial.

(** The cycle a -> b -> a with an automatic shape and the colour blue for all nodes and the
    line width 7 for all edges: everything fits. *)
Example C71_succeeds_ex : ∃ h G D, reachable h ∧ h_graphs h !! 0 = Some G ∧ g_disp G = Some D ∧ global_styles D ∧ d_scheme D ≠ [] ∧ comparable h 0 ∧ global_fit h 0 D ∧
  d_gnode D = Some [("shape", PStr "Auto"); ("colour", PStr "blue")]%string ∧ d_gedge D = Some [("line_width", PInt 7)]%string ∧ on_cycle h 0 0.
Proof. exact C71_succeeds_ex_proof. Qed.
Print Assumptions C71_succeeds_ex.
