(** Property theorems; the proofs are in ProofC22.v. *)
From Verif Require Import ProofC22.
Local Open Scope list_scope.

(** C70.  With the stylist 'random', a non-empty scheme and values of the unstyled edges
    that are None or numbers, stylize succeeds if no node has a style or overwriting is
    allowed. *)
Theorem C70_succeeds_partial : ∀ h g G D sh, reachable h → h_graphs h !! g = Some G → g_disp G = Some D → random_styling D → (∀ l, sh l ≡ₚ l) → d_scheme D ≠ [] →
  d_overwrite D = true ∨ (∀ r, in_graph h g r → ¬ node_styled h r) →
  (∀ e x y E, joins h g e x y → h_edges h !! e = Some E → e_style E = None → numeric (e_value E)) → ∃ h', stylize g sh h = (h', Ok tt).
Proof. exact C70_succeeds_partial_proof. Qed.
Print Assumptions C70_succeeds_partial.

(** C70.  When it succeeds, the i-th node in the shuffled order has the default style
    with the i-th colour of the scheme, in turn; every edge that had no style has the
    default style with the colour of its start a tenth darker (for the arrow size see
    C70_arrow_partial); the styles of the other edges are unchanged. *)
Theorem C70_effect_partial : ∀ h g G D sh h' ns, reachable h → h_graphs h !! g = Some G → g_disp G = Some D → random_styling D → (∀ l, sh l ≡ₚ l) → d_scheme D ≠ [] →
  stylize g sh h = (h', Ok tt) → nodes h g = Ok ns →
  (∀ i r, sh ns !! i = Some r → ∃ c, distinct (d_scheme D) !! (i mod length (distinct (d_scheme D))) = Some c ∧ style_of h' r (standard_node c)) ∧
  (∀ e x y, joins h g e x y → ¬ edge_styled h e → ∃ s a, style_of h' x s ∧ edge_style_of h' e (standard_edge (CDarken (ns_colour s) (1 # 10)%Q) a)) ∧
  (∀ e s, edge_style_of h e s → edge_style_of h' e s).
Proof. exact C70_effect_partial_proof. Qed.
Print Assumptions C70_effect_partial.

(** C70.  If some node has a style already, and overwriting is not allowed, it raises
    RuntimeError. *)
Theorem C70_raises_partial : ∀ h g G D sh, reachable h → h_graphs h !! g = Some G → g_disp G = Some D → random_styling D → (∀ l, sh l ≡ₚ l) → d_scheme D ≠ [] →
  d_overwrite D = false → (∃ r, in_graph h g r ∧ node_styled h r) → ∃ h', stylize g sh h = (h', Err RuntimeError).
Proof. exact C70_raises_partial_proof. Qed.
Print Assumptions C70_raises_partial.

(** C70 refuted: a -> b with the stylist 'random' and no styles.  The first stylize
    succeeds, the second raises RuntimeError. *)
Theorem C70_again_refuted : ∃ h G D h1 h2, reachable h ∧ h_graphs h !! 0 = Some G ∧ g_disp G = Some D ∧ random_styling D ∧ d_overwrite D = false ∧
  (∀ r, in_graph h 0 r → ¬ node_styled h r) ∧ stylize 0 id h = (h1, Ok tt) ∧ reachable h1 ∧ stylize 0 id h1 = (h2, Err RuntimeError).
Proof. exact C70_again_refuted_proof. Qed.
Print Assumptions C70_again_refuted.

(** C70, an instance: a -> b -> c with the scheme red, blue, the order reversed.  c is
    red, b is blue, a is red again; the edge from a is a tenth darker than red. *)
Example C70_ex : ∃ h G D h' s, reachable h ∧ h_graphs h !! 0 = Some G ∧ g_disp G = Some D ∧ random_styling D ∧ d_scheme D = [CName "red"; CName "blue"] ∧ (∀ r, in_graph h 0 r → ¬ node_styled h r) ∧
  nodes h 0 = Ok [0; 1; 2] ∧ (∀ l : list nat, reverse l ≡ₚ l) ∧ stylize 0 reverse h = (h', Ok tt) ∧ style_of h' 2 (standard_node (CName "red")) ∧ style_of h' 1 (standard_node (CName "blue")) ∧
  style_of h' 0 (standard_node (CName "red")) ∧ joins h' 0 0 0 1 ∧ edge_style_of h' 0 s ∧ es_colour s = CDarken (CName "red") (1 # 10).
Proof. exact C70_ex_proof. Qed.
Print Assumptions C70_ex.
