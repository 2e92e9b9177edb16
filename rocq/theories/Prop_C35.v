(** Property theorems; the proofs are in ProofC35.v. *)
From Verif Require Import ProofC35.
Local Open Scope string_scope.
Local Open Scope list_scope.

(** C08.  node.remove_edges: with [es] the edges that start or end in the node, the
    entries of [es] disappear from all edge dictionaries (the others keep their order) and
    the edges [es] lose graph, start and end; the node keeps its graph and its place in
    it, and nothing else changes. *)
Theorem C08_remove_edges : ∀ h r N g, reachable h → h_nodes h !! r = Some N → n_graph N = Some g →
  ∃ h' es, remove_edges r h = (h', Ok tt) ∧
    (∀ e, e ∈ es ↔ ∃ y, joins h g e r y ∨ joins h g e y r) ∧
    h_nodes h' = without_edges es <$> h_nodes h ∧
    h_edges h' = imap (λ e E, if decide (e ∈ es) then E <| e_start := None |> <| e_end := None |> <| e_graph := None |> else E) (h_edges h) ∧
    h_graphs h' = h_graphs h ∧ h_ns h' = h_ns h ∧ h_es h' = h_es h ∧ h_warns h' = h_warns h.
Proof. exact C08_remove_edges_proof. Qed.
Print Assumptions C08_remove_edges.

(** C08, instance: c has a self-loop and lies on a cycle; it stays in the graph without edges. *)
Example C08_remove_edges_ex : reachable sample ∧ ∃ N, h_nodes sample !! 2 = Some N ∧ n_graph N = Some 0 ∧ length (n_out N) = 2 ∧
  ∃ h', remove_edges 2 sample = (h', Ok tt) ∧ ((λ N, (length (n_out N), length (n_in N))) <$> h_nodes h') = [(2, 0); (0, 2); (0, 0); (0, 0); (1, 0); (0, 1)] ∧
    h_graphs h' = h_graphs sample.
Proof. exact C08_remove_edges_ex_proof. Qed.
Print Assumptions C08_remove_edges_ex.

(** C39.  freeze and unfreeze change only the flag, and exactly while it is set does
    assigning the value raise. *)
Theorem C39_freeze : ∀ h, 
  (∀ r N, h_nodes h !! r = Some N → ∀ b, ∃ h', node_set_frozen r b h = (h', Ok tt) ∧
     h' = h <| h_nodes := <[r := N <| n_frozen := b |>]> (h_nodes h) |> ∧
     ∀ v, node_set_value r v h' = if b then (h', Err RuntimeError)
       else (h' <| h_nodes := <[r := N <| n_frozen := false |> <| n_value := v |>]> (h_nodes h) |>, Ok tt)) ∧
  (∀ e E, h_edges h !! e = Some E → ∀ b, ∃ h', edge_set_frozen e b h = (h', Ok tt) ∧
     h' = h <| h_edges := <[e := E <| e_frozen := b |>]> (h_edges h) |> ∧
     ∀ v, edge_set_value e v h' = if b then (h', Err RuntimeError)
       else (h' <| h_edges := <[e := E <| e_frozen := false |> <| e_value := v |>]> (h_edges h) |>, Ok tt)).
Proof. exact C39_freeze_proof. Qed.
Print Assumptions C39_freeze.

(** C39, instance: b is frozen, its value cannot be set; unfrozen, it can. *)
Example C39_freeze_ex : (∃ N, h_nodes sample !! 1 = Some N) ∧
  (node_set_value 1 (PInt 5) (node_set_frozen 1 true sample).1).2 = Err RuntimeError ∧
  (n_value <$> h_nodes (node_set_value 1 (PInt 5) (node_set_frozen 1 false (node_set_frozen 1 true sample).1).1).1 !! 1) = Some (PInt 5).
Proof. exact C39_freeze_ex_proof. Qed.
Print Assumptions C39_freeze_ex.

(** C11.  get_node_name returns a name that is in the graph unchanged and raises
    KeyError for any other; unlike get_node it gives the name of any node object, of
    this graph or not. *)
Theorem C11_get_node_name : ∀ h g G, reachable h → h_graphs h !! g = Some G →
  (∀ n r, named h g n r → get_node_name h g (AName n) = Ok n) ∧
  (∀ n, (∀ r, ¬ named h g n r) → get_node_name h g (AName n) = Err KeyError) ∧
  (∀ r N, h_nodes h !! r = Some N → get_node_name h g (ANode r) = Ok (n_id N)) ∧
  get_node_name h g AOther = Err TypeError.
Proof. exact C11_get_node_name_proof. Qed.
Print Assumptions C11_get_node_name.

(** C11, instance: a name of the graph, an unknown name, a node of the other graph. *)
Example C11_get_node_name_ex : reachable sample ∧ (∃ G, h_graphs sample !! 0 = Some G) ∧ get_node_name sample 0 (an "a") = Ok (nm "a") ∧
  get_node_name sample 0 (an "z") = Err KeyError ∧ get_node_name sample 0 (ANode 5) = Ok (nm "z") ∧ get_node sample 0 (ANode 5) = Err KeyError.
Proof. exact C11_get_node_name_ex_proof. Qed.
Print Assumptions C11_get_node_name_ex.

(** C76.  append with a list of dictionaries, all of whose node names and edge ids are
    new and different, has the effect of appending them one after the other. *)
Theorem C76_list : ∀ h g G D ds ns es, reachable h → h_graphs h !! g = Some G → g_disp G = Some D →
  shows h g ns es → (∀ d, d ∈ ds → acceptable h g d) → NoDup ((v_name <$> ns) ++ (ds ≫= given_names)) → NoDup ((w_key <$> es) ++ (ds ≫= given_ids)) →
  ∃ h', append_all g (ODict <$> ds) h = (h', Ok tt) ∧ shows h' g (ns ++ (ds ≫= given_nodes)) (es ++ (ds ≫= given_edges)) ∧ h_warns h' = h_warns h ∧
    flags h' g = Some (fold_left (λ b d, or_keep (r_strict d) b) ds (g_strict G), fold_left (λ b d, or_keep (r_ordering d) b) ds (g_ordering G),
      Some (fold_left (λ D d, display_given d D) ds D)).
Proof. exact C76_list_proof. Qed.
Print Assumptions C76_list.

(** C76.  append with a list stops at the first item that raises; what was appended
    before stays. *)
Theorem C76_list_stops : ∀ g os o os' h h1 h2 x, append_all g os h = (h1, Ok tt) → graph_append g o h1 = (h2, Err x) →
  append_all g (os ++ o :: os') h = (h2, Err x).
Proof. exact C76_list_stops_proof. Qed.
Print Assumptions C76_list_stops.

(** C76, instance: two dictionaries, then something that is not a dictionary. *)
Example C76_list_ex : let ds := [part "x" (PInt 1) "a"; part "y" (PInt 2) "b"] in
  reachable sample ∧ (∀ d, d ∈ ds → acceptable sample 0 d) ∧
  ∃ h1 G, append_all 0 (ODict <$> ds) sample = (h1, Ok tt) ∧ append_all 0 ((ODict <$> ds) ++ [OBad; ODict (part "u" (PInt 3) "a")]) sample = (h1, Err TypeError) ∧
  h_graphs h1 !! 0 = Some G ∧ dkeys (g_nodes G) = NStr <$> ["a"; "b"; "c"; "d"; "x"; "y"].
Proof. exact C76_list_ex_proof. Qed.
Print Assumptions C76_list_ex.

(** C66.  The header in full: as C66_header_partial, the attribute line being the label,
    its location, font, colour and link, the tooltip and the extra keyword arguments,
    the latter taking precedence; it raises exactly if the label is not a text or the
    location is unusable. *)
Theorem C66_attributes : ∀ env h g G D dir height width pad, h_graphs h !! g = Some G → g_disp G = Some D → NoDup ((d_kwargs D).*1) →
  (label_fine D → ∃ base attrs, usual_attributes env h D base ∧ extended env h (d_kwargs D) base attrs ∧
     graphviz_header env h g dir height width pad = Ok (header_text (g_strict G) (negb (g_ordering G)) (attribute_line attrs)
       (pe_hexadecimal env (d_background D)) (pad_text env h pad) (used_direction D dir) (size_lines env h height width))) ∧
  (¬ label_fine D → ∃ x, graphviz_header env h g dir height width pad = Err x).
Proof. exact C66_attributes_proof. Qed.
Print Assumptions C66_attributes.

(** C66.  The exact header of a graph made by Graph() without options. *)
Theorem C66_default_header : ∀ env h scheme, ∃ h' g, new_graph false true (display0 scheme) h = (h', Ok g) ∧
  graphviz_header env h' g "" PNone PNone DEFAULT_PAD = Ok (default_header (pe_hexadecimal env (CName "#FAFAFA")) (pv_str env h' DEFAULT_PAD)).
Proof. exact C66_default_header_proof. Qed.
Print Assumptions C66_default_header.

(** C66, instance: a label with a background at the top, an option that replaces an
    attribute and one that is added. *)
Example C66_attributes_ex : let h := run [CNew true true fancy] empty_heap in reachable h ∧ ∃ G, h_graphs h !! 0 = Some G ∧ g_disp G = Some fancy ∧ label_fine fancy ∧
  NoDup ((d_kwargs fancy).*1) ∧ ∃ s, graphviz_header env0 h 0 "" PNone PNone PNone = Ok s ∧
    mentions ("fontsize = 12, fontname = " +:+ in_quotes "helvetica") s ∧ mentions ("layout = " +:+ in_quotes "dot") s ∧ mentions ("L </td></tr></table>" +:+ NL +:+ ">") s.
Proof. exact C66_attributes_ex_proof. Qed.
Print Assumptions C66_attributes_ex.
