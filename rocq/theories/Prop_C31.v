(** Property theorems; the proofs are in ProofC31.v. *)
From Verif Require Import ProofC31.
Local Open Scope list_scope.

(** C69.  With overwriting allowed and only edge styles and edge colours given, a
    successful call of stylize does what the default stylist does; then each edge for
    which a style is given has a new style made of the given attributes; then each edge
    for which a colour is given is drawn in that colour, line and text, with its other
    attributes kept, except that the label style becomes the default one; the other
    edges and all nodes look as without the overwrites. *)
Theorem C69_edges_partial : ∀ h g G D sh h', reachable h → h_graphs h !! g = Some G → g_disp G = Some D → edge_overwrites_only D →
  NoDup (d_edge_styles D).*1 → NoDup (d_edge_colours D).*1 → (∀ i d, (i, d) ∈ d_edge_styles D → NoDup d.*1) →
  stylize g sh h = (h', Ok tt) → ∃ h1, stylize_with_pensieve g (d_scheme D) h = (h1, Ok tt) ∧
  (∀ r s, style_of h' r s ↔ style_of h1 r s) ∧
  (∀ e i s1, has_id h g e i → edge_style_of h1 e s1 → ∃ s2,
    match dget (d_edge_styles D) i with None => s2 = s1 | Some d => emade_of d s2 end ∧
    match dget (d_edge_colours D) i with
    | None => edge_style_of h' e s2
    | Some o => ∃ v c, o = OvColour v ∧ to_colour v = Ok c ∧ edge_style_of h' e (etinted c s2)
    end) ∧
  (∀ e s, (∀ i, ¬ has_id h g e i) → edge_style_of h1 e s → edge_style_of h' e s).
Proof. exact C69_edges_partial_proof. Qed.
Print Assumptions C69_edges_partial.

(** A graph with two edges, overwriting allowed: one edge gets a style and a colour, the
    other one a colour. *)
Example C69_edges_ex : ∃ h G D h', reachable h ∧ h_graphs h !! 0 = Some G ∧ g_disp G = Some D ∧ edge_overwrites_only D ∧
  NoDup (d_edge_styles D).*1 ∧ NoDup (d_edge_colours D).*1 ∧ (∀ i d, (i, d) ∈ d_edge_styles D → NoDup d.*1) ∧
  stylize 0 id h = (h', Ok tt) ∧
  edge_style_of h' 0 (MkEStyle (CName "green") (Some (CName "green")) (Some true) (PInt 1) (PStr "helvetica") (PInt 8) (PInt 2) (PStr "below") (PInt 1) []) ∧
  ∃ s, edge_style_of h' 1 s ∧ es_colour s = CName "blue" ∧ es_arrow s = PFlt (1 # 2).
Proof. exact C69_edges_ex_proof. Qed.
Print Assumptions C69_edges_ex.
