(** Property theorems; the proofs are in ProofC19.v. *)
From Verif Require Import ProofC19.
Local Open Scope list_scope.

(** C68.  With overwrites only for single nodes (node_styles), a successful call of
    stylize does what the default stylist does, and then changes nothing but style
    objects: each of them by exactly the entries given for the nodes that have it. *)
Theorem C68_exact_partial : ∀ h g G D sh h', h_graphs h !! g = Some G → g_disp G = Some D → node_styles_only D → stylize g sh h = (h', Ok tt) →
  ∃ h1, stylize_with_pensieve g (d_scheme D) h = (h1, Ok tt) ∧ h' = h1 <| h_ns := h_ns h' |> ∧ length (h_ns h') = length (h_ns h1) ∧
  ∀ k s, h_ns h1 !! k = Some s → ∃ s', h_ns h' !! k = Some s' ∧ ns_complement (entries_for h1 g (d_node_styles D) k) s = Ok s'.
Proof. exact C68_exact_partial_proof. Qed.
Print Assumptions C68_exact_partial.

(** C68.  If no two nodes share a style object, then afterwards each node with an
    overwrite has the style that the stylist gave it, or that it had, with the entries
    of its overwrite; and every other node and every edge has the same style as without
    overwrites.  Missing: shared style objects (C68_shared_refuted), and that the entry
    'colour' shows (C68_colour_refuted). *)
Theorem C68_shows_partial : ∀ h g G D sh h', reachable h → h_graphs h !! g = Some G → g_disp G = Some D → node_styles_only D → NoDup (d_node_styles D).*1 → unshared h →
  stylize g sh h = (h', Ok tt) → ∃ h1, stylize_with_pensieve g (d_scheme D) h = (h1, Ok tt) ∧
  (∀ n d r, (n, d) ∈ d_node_styles D → named h g n r → ∃ s s', style_of h1 r s ∧ style_of h' r s' ∧ applied d s s') ∧
  (∀ r s, (∀ n d, (n, d) ∈ d_node_styles D → ¬ named h g n r) → style_of h1 r s → style_of h' r s) ∧
  (∀ e s, edge_style_of h1 e s → edge_style_of h' e s).
Proof. exact C68_shows_partial_proof. Qed.
Print Assumptions C68_shows_partial.

(** C68.  Overwrites that have only the entry 'colour' never show in the DOT text of any
    node. *)
Theorem C68_colour_partial : ∀ h g G D sh h', reachable h → h_graphs h !! g = Some G → g_disp G = Some D → node_styles_only D →
  (∀ n d k v, (n, d) ∈ d_node_styles D → (k, v) ∈ d → k = "colour"%string) → stylize g sh h = (h', Ok tt) →
  ∃ h1, stylize_with_pensieve g (d_scheme D) h = (h1, Ok tt) ∧ ∀ env r, node_graphviz env h' r = node_graphviz env h1 r.
Proof. exact C68_colour_partial_proof. Qed.
Print Assumptions C68_colour_partial.

(** C68 refuted: a -> b, appended with node_styles making a green.  The colour of the
    style of a is green afterwards, but its DOT text is as before, in every environment. *)
Theorem C68_colour_refuted : ∃ h G D h1 h' s, reachable h ∧ h_graphs h !! 0 = Some G ∧ g_disp G = Some D ∧ node_styles_only D ∧
  d_node_styles D = [(nm "a", [("colour"%string, PStr "green")])] ∧ stylize_with_pensieve 0 (d_scheme D) h = (h1, Ok tt) ∧ stylize 0 id h = (h', Ok tt) ∧ named h 0 (nm "a") 0 ∧
  style_of h' 0 s ∧ ns_colour s = CName "green" ∧ ns_fill s = Some (CLighten (CName "red") (1 # 2)) ∧ ∀ env, node_graphviz env h' 0 = node_graphviz env h1 0.
Proof. exact C68_colour_refuted_proof. Qed.
Print Assumptions C68_colour_refuted.

(** C68 refuted: a and b were given the same NodeStyle object; the shape for a alone
    changes b, too. *)
Theorem C68_shared_refuted : ∃ h G D h1 h' s1 s', reachable h ∧ h_graphs h !! 0 = Some G ∧ g_disp G = Some D ∧ node_styles_only D ∧
  d_node_styles D = [(nm "a", [("shape"%string, PStr "circle")])] ∧ stylize_with_pensieve 0 (d_scheme D) h = (h1, Ok tt) ∧ stylize 0 id h = (h', Ok tt) ∧ named h 0 (nm "b") 1 ∧
  style_of h1 1 s1 ∧ style_of h' 1 s' ∧ ns_shape s1 = PStr "box" ∧ ns_shape s' = PStr "circle".
Proof. exact C68_shared_refuted_proof. Qed.
Print Assumptions C68_shared_refuted.

(** Node a of a -> b becomes a circle with a white border: the hypotheses of
    C68_shows_partial hold. *)
Example C68_shows_ex : ∃ h G D h' s, reachable h ∧ h_graphs h !! 0 = Some G ∧ g_disp G = Some D ∧ node_styles_only D ∧ NoDup (d_node_styles D).*1 ∧ unshared h ∧
  d_node_styles D = [(nm "a", [("shape"%string, PStr "circle"); ("border_colour"%string, PStr "white")])] ∧ stylize 0 id h = (h', Ok tt) ∧ named h 0 (nm "a") 0 ∧
  style_of h' 0 s ∧ ns_shape s = PStr "circle" ∧ ns_border s = Some (CName "white").
Proof. exact C68_shows_ex_proof. Qed.
Print Assumptions C68_shows_ex.
