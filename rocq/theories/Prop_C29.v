(** Property theorems; the proofs are in ProofC29.v. *)
From Verif Require Import ProofC29.
Local Open Scope string_scope.
Local Open Scope list_scope.

(** C76: append with a dictionary whose node names and edge ids are new succeeds,
    and the graph then has the nodes and edges it had, unchanged and first, followed by
    the nodes and edges given, with the attributes given and in the order given; the
    strict and ordering flags and the display options given replace the present
    ones, the others stay; no warning is given. *)
Theorem C76_append : ∀ h g G D d ns es, reachable h → h_graphs h !! g = Some G → g_disp G = Some D →
  shows h g ns es → acceptable h g d → NoDup ((v_name <$> ns) ++ given_names d) → NoDup ((w_key <$> es) ++ given_ids d) →
  ∃ h', graph_append g (ODict d) h = (h', Ok tt) ∧ shows h' g (ns ++ given_nodes d) (es ++ given_edges d) ∧ h_warns h' = h_warns h ∧
    flags h' g = Some (or_keep (r_strict d) (g_strict G), or_keep (r_ordering d) (g_ordering G), Some (display_given d D)).
Proof. exact C76_append_proof. Qed.
Print Assumptions C76_append.

(** C76: Graph(obj=dictionary) makes a new graph with exactly the nodes and
    edges given, with their attributes, the flags of the dictionary or else the arguments,
    and the display options of the dictionary or else the arguments; overwriting is
    allowed if the dictionary says so. *)
Theorem C76_graph_of : ∀ h strict ordering D d, reachable h →
  acceptable h (length (h_graphs h)) d → NoDup (given_names d) → NoDup (given_ids d) →
  ∃ h', graph_of strict ordering D (ODict d) h = (h', Ok (length (h_graphs h))) ∧
    shows h' (length (h_graphs h)) (given_nodes d) (given_edges d) ∧ h_warns h' = h_warns h ∧
    flags h' (length (h_graphs h)) = Some (or_keep (r_strict d) strict, or_keep (r_ordering d) ordering,
      Some (display_given d (D <| d_overwrite := or_keep (r_overwrite d) (d_overwrite D) |>))).
Proof. exact C76_graph_of_proof. Qed.
Print Assumptions C76_graph_of.

(** C76: from_dict makes a new graph with exactly the nodes and edges given. *)
Theorem C76_from_dict : ∀ h D d, reachable h →
  acceptable h (length (h_graphs h)) d → NoDup (given_names d) → NoDup (given_ids d) →
  ∃ h', from_dict D d h = (h', Ok (length (h_graphs h))) ∧
    shows h' (length (h_graphs h)) (given_nodes d) (given_edges d) ∧ h_warns h' = h_warns h ∧
    flags h' (length (h_graphs h)) = Some (or_keep (r_strict d) false, or_keep (r_ordering d) true, Some (display_given d D)).
Proof. exact C76_from_dict_proof. Qed.
Print Assumptions C76_from_dict.

(** A graph made from a dictionary, to which a second dictionary is appended. *)
Example C76_ex : acceptable empty_heap 0 repr1 ∧ ∃ h1, graph_of true true disp0 (ODict repr1) empty_heap = (h1, Ok 0) ∧ reachable h1 ∧
  shows h1 0 [MkNView (NStr "a") PNone (PInt 1) PNone false [] None; plain_node "b" (PStr "B")]
    [plain_edge (NStr "a") (NStr "b") None (PStr "x")] ∧
  acceptable h1 0 repr2 ∧ ∃ h2, graph_append 0 (ODict repr2) h1 = (h2, Ok tt) ∧
  shows h2 0 [MkNView (NStr "a") PNone (PInt 1) PNone false [] None; plain_node "b" (PStr "B"); plain_node "c" PNone]
    [plain_edge (NStr "a") (NStr "b") None (PStr "x"); plain_edge (NStr "a") (NStr "c") None PNone; plain_edge (NStr "a") (NStr "b") (Some (NStr "i")) PNone] ∧
  flags h2 0 = Some (true, false, Some (disp0 <| d_overwrite := true |> <| d_label := PStr (String "010" "t") |>
    <| d_node_colours := [(NStr "c", PStr "blue")] |>
    <| d_edge_colours := [((NStr "a", NStr "b", RId (Some (NStr "i"))), OvColour (PStr "red"))] |>)).
Proof. exact C76_ex_proof. Qed.
Print Assumptions C76_ex.
