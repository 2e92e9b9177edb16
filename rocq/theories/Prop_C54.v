(** Property theorems; the proofs are in ProofC54.v. *)
From Verif Require Import ProofC54.
Local Open Scope string_scope.
Local Open Scope list_scope.

(** C22.  The text that stands for a node in the trees: its label, or its name if the label is
    None, 0 or empty, with a backslash before each double quote. *)
Theorem C22_label : ∀ env h r N, h_nodes h !! r = Some N →
  ∃ t, node_label env h r = Ok t ∧ escaped (label_text env h N) t.
Proof. exact C22_label_proof. Qed.
Print Assumptions C22_label.

(** C22.  Example: an empty label, and one with quotes. *)
Example C22_label_ex : ∃ h N0 N1, reachable h ∧ h_nodes h !! 0 = Some N0 ∧ h_nodes h !! 1 = Some N1 ∧
  label_text env0 h N0 = "a" ∧ node_label env0 h 0 = Ok "a" ∧ node_label env0 h 1 = Ok ("x\" +:+ Qt).
Proof. exact C22_label_ex_proof. Qed.
Print Assumptions C22_label_ex.

(** C38.  Nodes whose names are both str or both int, or whose indices differ: the comparisons
    agree with the order of (index, name) pairs as in C38_comparison; ints are ordered by size. *)
Theorem C38_kinds : ∀ h x y X Y, h_nodes h !! x = Some X → h_nodes h !! y = Some Y →
  (n_index X = n_index Y → same_kind (n_id X) (n_id Y)) → ∃ lt eq gt,
    node_lt h x y = Ok lt ∧ node_eq h x y = Ok eq ∧ node_gt h x y = Ok gt ∧
    node_le h x y = Ok (lt || eq) ∧ node_ge h x y = Ok (gt || eq) ∧ node_ne h x y = Ok (negb eq) ∧ node_lt h y x = Ok gt ∧
    (lt, eq, gt) ∈ [(true, false, false); (false, true, false); (false, false, true)] ∧
    (lt = true ↔ precedes h x y) ∧ (gt = true ↔ precedes h y x) ∧ (eq = true ↔ (n_index X, n_id X) = (n_index Y, n_id Y)).
Proof. exact C38_kinds_proof. Qed.
Print Assumptions C38_kinds.

(** C38.  A node with a str name and one with an int name and the same index cannot be ordered:
    <, >, <= and >= raise TypeError; they are not equal. *)
Theorem C38_mixed : ∀ h x y X Y, h_nodes h !! x = Some X → h_nodes h !! y = Some Y → n_index X = n_index Y →
  ¬ same_kind (n_id X) (n_id Y) →
  node_lt h x y = Err TypeError ∧ node_gt h x y = Err TypeError ∧ node_le h x y = Err TypeError ∧ node_ge h x y = Err TypeError ∧
  node_eq h x y = Ok false ∧ node_ne h x y = Ok true.
Proof. exact C38_mixed_proof. Qed.
Print Assumptions C38_mixed.

(** C38.  Example: the nodes 9 and 10 with the same index, and a node with a str name and that
    index (made by calling Node directly). *)
Example C38_kinds_ex : ∃ h X Y Z, reachable h ∧ h_nodes h !! 0 = Some X ∧ h_nodes h !! 1 = Some Y ∧ h_nodes h !! 2 = Some Z ∧
  (n_id X, n_index X) = (NInt 9, 7%Z) ∧ (n_id Y, n_index Y) = (NInt 10, 7%Z) ∧ (n_id Z, n_index Z) = (nm "a", 7%Z) ∧
  node_lt h 0 1 = Ok true ∧ node_ge h 0 1 = Ok false ∧ node_lt h 0 2 = Err TypeError ∧ node_eq h 0 2 = Ok false.
Proof. exact C38_kinds_ex_proof. Qed.
Print Assumptions C38_kinds_ex.

(** C46.  With a label converter, the label attribute of a node statement holds what the
    converter makes of the text that Node.label gives: the label or name with a backslash
    before each double quote. *)
Theorem C46_converted : ∀ env h g G D f r N, reachable h → h_graphs h !! g = Some G → g_disp G = Some D → d_node_conv D = Some f →
  h_nodes h !! r = Some N → n_graph N = Some g →
  ∃ t rest, escaped (label_text env h N) t ∧
    node_graphviz env h r = Ok (Qt +:+ name_str (n_id N) +:+ Qt +:+ " [label=" +:+ Qt +:+ pv_str env h (f (PStr t)) +:+ Qt +:+ rest).
Proof. exact C46_converted_proof. Qed.
Print Assumptions C46_converted.

(** C46.  Example: a converter that puts a text in front. *)
Example C46_converted_ex : ∃ h, reachable h ∧ (∃ G D f, h_graphs h !! 0 = Some G ∧ g_disp G = Some D ∧ d_node_conv D = Some f) ∧
  node_graphviz env0 h 0 = Ok (Qt +:+ "a" +:+ Qt +:+ " [label=" +:+ Qt +:+ "*A" +:+ Qt +:+ "]").
Proof. exact C46_converted_ex_proof. Qed.
Print Assumptions C46_converted_ex.

(** C58.  With a label converter for edges, the label attribute of an edge statement holds what
    the converter makes of the label; there is none if that is None.  An edge without label
    shows its value, which is not converted. *)
Theorem C58_converted_partial : ∀ env h g G D f e x y E X Y, reachable h → h_graphs h !! g = Some G → g_disp G = Some D → d_edge_conv D = Some f →
  joins h g e x y → h_edges h !! e = Some E → h_nodes h !! x = Some X → h_nodes h !! y = Some Y →
  let v := match e_label E with PNone => e_value E | l => f l end in v ≠ PNone →
  ∃ rest, edge_graphviz env h e = Ok (Qt +:+ name_str (n_id X) +:+ Qt +:+ " -> " +:+ Qt +:+ name_str (n_id Y) +:+ Qt +:+
    "[label=" +:+ Qt +:+ pv_str env h v +:+ Qt +:+ rest).
Proof. exact C58_converted_partial_proof. Qed.
Print Assumptions C58_converted_partial.

(** C58.  Example: a converted label, and a value that is not converted. *)
Example C58_converted_ex : ∃ h, reachable h ∧ joins h 0 0 0 0 ∧ joins h 0 1 0 0 ∧ (∃ G D f, h_graphs h !! 0 = Some G ∧ g_disp G = Some D ∧ d_edge_conv D = Some f) ∧
  edge_graphviz env0 h 0 = Ok (Qt +:+ "a" +:+ Qt +:+ " -> " +:+ Qt +:+ "a" +:+ Qt +:+ "[label=" +:+ Qt +:+ "*A" +:+ Qt +:+ "]") ∧
  edge_graphviz env0 h 1 = Ok (Qt +:+ "a" +:+ Qt +:+ " -> " +:+ Qt +:+ "a" +:+ Qt +:+ "[label=" +:+ Qt +:+ "B" +:+ Qt +:+ "]").
Proof. exact C58_converted_ex_proof. Qed.
Print Assumptions C58_converted_ex.

(** C77.  The keyword arguments that a new node or edge is made with are its first parameters:
    they are read back under their keys, and other keys raise KeyError. *)
Theorem C77_new : ∀ h g k h', reachable h →
  (∀ G s a r, h_graphs h !! g = Some G → NStr s ∉ (g_nodes G).*1 → add_node g (AName (NStr s)) a h = (h', Ok (Some r)) → NoDup (a_params a).*1 →
     (∀ v, (k, v) ∈ a_params a → node_get_param h' r k = Ok v) ∧ (k ∉ (a_params a).*1 → node_get_param h' r k = Err KeyError)) ∧
  (∀ x y a s t e, denotes h g x s → denotes h g y t → (∀ e E, h_edges h !! e = Some E → e_raw E = RId (c_id a) → ¬ joins h g e s t) →
     connect g x y a h = (h', Ok e) → NoDup (c_params a).*1 →
     (∀ v, (k, v) ∈ c_params a → edge_get_param h' e k = Ok v) ∧ (k ∉ (c_params a).*1 → edge_get_param h' e k = Err KeyError)).
Proof. exact C77_new_proof. Qed.
Print Assumptions C77_new.

(** C77.  Example: a node and an edge with a parameter. *)
Example C77_new_ex : ∃ h, reachable h ∧
  (let a := nargs0 <| a_params := [("size", PInt 7)] |> in let h' := (add_node 0 (an "z") a h).1 in
   (add_node 0 (an "z") a h).2 = Ok (Some 2) ∧ node_get_param h' 2 "size" = Ok (PInt 7) ∧ node_get_param h' 2 "x" = Err KeyError) ∧
  (let a := eargs0 <| c_params := [("size", PInt 7)] |> in let h' := (connect 0 (an "b") (an "a") a h).1 in
   (connect 0 (an "b") (an "a") a h).2 = Ok 1 ∧ edge_get_param h' 1 "size" = Ok (PInt 7) ∧ edge_get_param h' 1 "x" = Err KeyError).
Proof. exact C77_new_ex_proof. Qed.
Print Assumptions C77_new_ex.

(** C79.  NodeStyle and EdgeStyle called with a keyword argument that they do not know raise
    TypeError and make no object. *)
Theorem C79_keywords : ∀ h (d : sdict),
  ((∃ k, k ∈ d.*1 ∧ k ∉ node_keywords) → make_nstyle d h = (h, Err TypeError)) ∧
  ((∃ k, k ∈ d.*1 ∧ k ∉ edge_keywords) → make_estyle d h = (h, Err TypeError)).
Proof. exact C79_keywords_proof. Qed.
Print Assumptions C79_keywords.

(** C79.  Example: a misspelt keyword. *)
Example C79_keywords_ex : (∃ k, k ∈ ([("colour", PStr "red"); ("color", PStr "red")] : sdict).*1 ∧ k ∉ node_keywords) ∧
  (make_nstyle [("colour", PStr "red")] empty_heap).2 = Ok 0 ∧
  (make_nstyle [("colour", PStr "red"); ("color", PStr "red")] empty_heap).2 = Err TypeError ∧
  (make_estyle [("arrow_size", PInt 2); ("shape", PStr "box")] empty_heap).2 = Err TypeError.
Proof. exact C79_keywords_ex_proof. Qed.
Print Assumptions C79_keywords_ex.

(** C79.  style.copy() of a node style object always works and makes an object that looks the
    same and keeps in mind which colours are derived; style.invert_colours() always works and makes one
    with the inverted colours. *)
Theorem C79_derived : ∀ h s t, reachable h → h_ns h !! s = Some t →
  (∃ t1, derive_nstyle false s h = (h <| h_ns := h_ns h ++ [t1] |>, Ok (length (h_ns h))) ∧ node_look t1 = node_look t ∧ derived t1 = derived t) ∧
  (∃ t1, derive_nstyle true s h = (h <| h_ns := h_ns h ++ [t1] |>, Ok (length (h_ns h))) ∧ inverted t t1 ∧ derived t1 = derived t).
Proof. exact C79_derived_proof. Qed.
Print Assumptions C79_derived.

(** C79.  The same for edge style objects, unless they come from copying a graph: then both raise
    AttributeError.  The label style is not kept. *)
Theorem C79_edge_derived : ∀ h s t, reachable h → h_es h !! s = Some t →
  match es_text_based t with
  | Some b => (∃ t1, derive_estyle false s h = (h <| h_es := h_es h ++ [t1] |>, Ok (length (h_es h))) ∧
      edge_look t1 = edge_look t ∧ es_text_based t1 = Some b ∧ es_label_style t1 = PStr "below") ∧
    (∃ t1, derive_estyle true s h = (h <| h_es := h_es h ++ [t1] |>, Ok (length (h_es h))) ∧ edge_inverted b t t1)
  | None => derive_estyle false s h = (h, Err AttributeError) ∧ derive_estyle true s h = (h, Err AttributeError)
  end.
Proof. exact C79_edge_derived_proof. Qed.
Print Assumptions C79_edge_derived.

(** C79.  Example: the copy and the inverse of a red style, and of an edge style. *)
Example C79_derived_ex : ∃ h t t1 t2, reachable h ∧ h_ns h !! 0 = Some t ∧ ns_colour t = CName "red" ∧
  h_ns (derive_nstyle false 0 h).1 !! 1 = Some t1 ∧ ns_colour t1 = CName "red" ∧
  h_ns (derive_nstyle true 0 h).1 !! 1 = Some t2 ∧ ns_colour t2 = CInvert (CName "red") ∧
  (∃ e, h_es h !! 0 = Some e ∧ es_text_based e = Some true ∧ (derive_estyle true 0 h).2 = Ok 1).
Proof. exact C79_derived_ex_proof. Qed.
Print Assumptions C79_derived_ex.
