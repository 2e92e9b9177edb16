(** Property theorems; the proofs are in ProofC34.v. *)
From Verif Require Import ProofC34.
Local Open Scope string_scope.
Local Open Scope list_scope.

(** C69.  If the default stylist succeeds, so does stylize with overwrites that fit the graph:
    they are for nodes and edges that are there, with attributes that exist and colours that
    are strings or Colours, and, except for node_styles alone, overwriting is allowed. *)
Theorem C69_succeeds_partial : ∀ h g G D sh h1, reachable h → h_graphs h !! g = Some G → g_disp G = Some D → pensieve_only D →
  stylize_with_pensieve g (d_scheme D) h = (h1, Ok tt) → overwrites_fit h1 g D → no_copied_styles h1 → ∃ h', stylize g sh h = (h', Ok tt).
Proof. exact C69_succeeds_partial_proof. Qed.
Print Assumptions C69_succeeds_partial.

(** C68.  If the default stylist succeeds, so does stylize with styles for nodes of the graph
    that the stylist leaves with a style: any attribute that does not start with an underscore
    and is not a method may be given, colours as strings or Colours. *)
Theorem C68_succeeds_partial : ∀ h g G D sh h1, reachable h → h_graphs h !! g = Some G → g_disp G = Some D → node_styles_only D →
  stylize_with_pensieve g (d_scheme D) h = (h1, Ok tt) →
  (∀ n d, (n, d) ∈ d_node_styles D → (∃ r, named h g n r ∧ node_styled h1 r) ∧ ∀ k v, (k, v) ∈ d → style_entry k v) → ∃ h', stylize g sh h = (h', Ok tt).
Proof. exact C68_succeeds_partial_proof. Qed.
Print Assumptions C68_succeeds_partial.

(** C55.  With the default stylist and no overwrites, render styles the graph as stylize does,
    draws the result, and rendering again gives the same text and changes nothing. *)
Theorem C55_render_partial : ∀ env h g G D dir pad sh h' s, reachable h → h_graphs h !! g = Some G → g_disp G = Some D → default_styling D →
  render env g dir pad sh h = (h', Ok s) →
  stylize g sh h = (h', Ok tt) ∧ graphviz_str env h' g dir PNone PNone pad = Ok s ∧ ∀ sh', render env g dir pad sh' h' = (h', Ok s).
Proof. exact C55_render_partial_proof. Qed.
Print Assumptions C55_render_partial.

(** C69.  Example: a -> b with all four kinds of overwrites meets the conditions. *)
Example C69_succeeds_ex : ∃ h G D h1, reachable h ∧ h_graphs h !! 0 = Some G ∧ g_disp G = Some D ∧ pensieve_only D ∧
  stylize_with_pensieve 0 (d_scheme D) h = (h1, Ok tt) ∧ overwrites_fit h1 0 D ∧ no_copied_styles h1 ∧
  d_node_styles D ≠ [] ∧ d_edge_styles D ≠ [] ∧ d_node_colours D ≠ [] ∧ d_edge_colours D ≠ [].
Proof. exact C69_succeeds_ex_proof. Qed.
Print Assumptions C69_succeeds_ex.

(** C55.  Example: rendering the second sample graph. *)
Example C55_render_ex : ∃ G D h' s, reachable sample ∧ h_graphs sample !! 1 = Some G ∧ g_disp G = Some D ∧ default_styling D ∧
  render env0 1 "" PNone (λ l, l) sample = (h', Ok s) ∧ length (h_ns h') = 2.
Proof. exact C55_render_ex_proof. Qed.
Print Assumptions C55_render_ex.
