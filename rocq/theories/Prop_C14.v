(** Property theorems; the proofs are in ProofC14.v. *)
From Verif Require Import ProofC14.
Local Open Scope string_scope.
Local Open Scope list_scope.

(** C46: without a label converter, the label attribute of a node statement reads
    back as the label (or name), if no backslash stands in it before a quote, a line
    end or at the end.  Missing: the other texts, for which it is false. *)
Theorem C46_label_partial : ∀ env h g G D r N, reachable h → h_graphs h !! g = Some G → g_disp G = Some D → d_node_conv D = None →
  h_nodes h !! r = Some N → n_graph N = Some g → safe (label_text env h N) →
  ∃ s rest, node_graphviz env h r = Ok (Qt +:+ name_str (n_id N) +:+ Qt +:+ " [label=" +:+ s) ∧ read_quoted s = Some (label_text env h N, rest).
Proof. exact C46_label_partial_proof. Qed.
Print Assumptions C46_label_partial.

(** A label with quotes and backslashes reads back. *)
Example C46_label_ex : ∃ h N, h = run [CNew false true disp0; CAddNode 0 (an "a") (nargs0 <| a_label := PStr ("say " +:+ Qt +:+ "hi" +:+ Qt +:+ " to \n \\") |>)] empty_heap ∧
  reachable h ∧ h_nodes h !! 0 = Some N ∧ label_text env0 h N = "say " +:+ Qt +:+ "hi" +:+ Qt +:+ " to \n \\" ∧ safe (label_text env0 h N) ∧
  node_graphviz env0 h 0 = Ok (Qt +:+ "a" +:+ Qt +:+ " [label=" +:+ Qt +:+ "say \" +:+ Qt +:+ "hi\" +:+ Qt +:+ " to \n \\" +:+ Qt +:+ "]").
Proof. exact C46_label_ex_proof. Qed.
Print Assumptions C46_label_ex.

(** C46 refuted: a label that ends in a backslash swallows the closing quote. *)
Theorem C46_label_refuted : ∃ h N s, reachable h ∧ h_nodes h !! 0 = Some N ∧ label_text env0 h N = "x\" ∧
  node_graphviz env0 h 0 = Ok (Qt +:+ name_str (n_id N) +:+ Qt +:+ " [label=" +:+ s) ∧ read_quoted s = None.
Proof. exact C46_label_refuted_proof. Qed.
Print Assumptions C46_label_refuted.

(** C47: get_graphviz_str succeeds if the graph has display options and its label, if
    any, is text with a location; it consists of a header, one statement for each
    node in the order of the nodes, and one for each edge in the order of the edges,
    naming start and end.  Names without quotes and backslashes are read as they are. *)
Theorem C47_statements : ∀ env h g G D dir height width pad, reachable h → h_graphs h !! g = Some G → g_disp G = Some D → title_ok D →
  ∃ ns es header nstrs estrs, graphviz_str env h g dir height width pad = Ok (dot_text header nstrs estrs) ∧ starts_strict (g_strict G) header ∧
  nodes h g = Ok ns ∧ NoDup ns ∧ (∀ r, r ∈ ns ↔ in_graph h g r) ∧ graph_edges h g = Ok es ∧ NoDup es ∧ (∀ e, e ∈ es ↔ ∃ x y, joins h g e x y) ∧
  Forall2 (λ r s, ∃ N, h_nodes h !! r = Some N ∧ node_written s (name_str (n_id N)) ∧ (plain (name_str (n_id N)) → node_read s (name_str (n_id N)))) ns nstrs ∧
  Forall2 (λ e s, ∃ x y X Y, joins h g e x y ∧ h_nodes h !! x = Some X ∧ h_nodes h !! y = Some Y ∧ edge_written s (name_str (n_id X)) (name_str (n_id Y)) ∧
    (plain (name_str (n_id X)) → plain (name_str (n_id Y)) → edge_read s (name_str (n_id X)) (name_str (n_id Y)))) es estrs.
Proof. exact C47_statements_proof. Qed.
Print Assumptions C47_statements.

(** The text of a graph of three nodes and two edges. *)
Example C47_statements_ex : ∃ h G D header, reachable h ∧ h_graphs h !! 0 = Some G ∧ g_disp G = Some D ∧ title_ok D ∧
  graphviz_str env0 h 0 "" PNone PNone PNone = Ok (dot_text header
    [Qt +:+ "a" +:+ Qt +:+ " [label=" +:+ Qt +:+ "a" +:+ Qt +:+ "]"; Qt +:+ "b" +:+ Qt +:+ " [label=" +:+ Qt +:+ "B" +:+ Qt +:+ "]"; Qt +:+ "c" +:+ Qt +:+ " [label=" +:+ Qt +:+ "c" +:+ Qt +:+ "]"]
    [Qt +:+ "a" +:+ Qt +:+ " -> " +:+ Qt +:+ "b" +:+ Qt +:+ "[label=" +:+ Qt +:+ "ab" +:+ Qt +:+ "]"; Qt +:+ "b" +:+ Qt +:+ " -> " +:+ Qt +:+ "c" +:+ Qt]).
Proof. exact C47_statements_ex_proof. Qed.
Print Assumptions C47_statements_ex.

(** C58: a node name without quotes and backslashes reads back from the node
    statement; an edge label (or value) without them reads back from the edge
    statement, if there is no label converter.  Missing: the other texts, and that
    different nodes have different identifiers; both are false. *)
Theorem C58_plain_partial : ∀ env h g G D, reachable h → h_graphs h !! g = Some G → g_disp G = Some D →
  (∀ r N, h_nodes h !! r = Some N → n_graph N = Some g → plain (name_str (n_id N)) →
    ∃ s rest, node_graphviz env h r = Ok s ∧ read_quoted s = Some (name_str (n_id N), rest)) ∧
  (∀ e x y E X Y, joins h g e x y → h_edges h !! e = Some E → h_nodes h !! x = Some X → h_nodes h !! y = Some Y →
    plain (name_str (n_id X)) → plain (name_str (n_id Y)) → ∃ s mid rest, edge_graphviz env h e = Ok s ∧
    read_quoted s = Some (name_str (n_id X), " -> " +:+ mid) ∧ read_quoted mid = Some (name_str (n_id Y), rest) ∧
    (d_edge_conv D = None → edge_text E ≠ PNone → plain (pv_str env h (edge_text E)) →
      ∃ attr rest', rest = "[label=" +:+ attr ∧ read_quoted attr = Some (pv_str env h (edge_text E), rest'))).
Proof. exact C58_plain_partial_proof. Qed.
Print Assumptions C58_plain_partial.

(** The sample above: node b reads back, and so does the label of its edge. *)
Example C58_plain_ex : ∃ N E s t, reachable dot_sample ∧ h_nodes dot_sample !! 1 = Some N ∧ n_graph N = Some 0 ∧ plain (name_str (n_id N)) ∧ joins dot_sample 0 0 0 1 ∧
  h_edges dot_sample !! 0 = Some E ∧ edge_text E = PStr "ab" ∧ node_graphviz env0 dot_sample 1 = Ok s ∧ read_quoted s = Some ("b", t).
Proof. exact C58_plain_ex_proof. Qed.
Print Assumptions C58_plain_ex.

(** C58 refuted: the name of a node with a quote in it is cut short there, so that the
    statement is not that of the node. *)
Theorem C58_quote_refuted : ∃ h N s rest, reachable h ∧ h_nodes h !! 0 = Some N ∧ n_id N = NStr ("a" +:+ Qt +:+ "b") ∧
  node_graphviz env0 h 0 = Ok s ∧ read_quoted s = Some ("a", rest).
Proof. exact C58_quote_refuted_proof. Qed.
Print Assumptions C58_quote_refuted.

(** C58 refuted: the label of an edge with a quote in it is cut short there. *)
Theorem C58_edge_label_refuted : ∃ h E pre attr rest, reachable h ∧ h_edges h !! 0 = Some E ∧ e_label E = PStr ("x" +:+ Qt +:+ "y") ∧
  edge_graphviz env0 h 0 = Ok (pre +:+ "[label=" +:+ attr) ∧ read_quoted attr = Some ("x", rest).
Proof. exact C58_edge_label_refuted_proof. Qed.
Print Assumptions C58_edge_label_refuted.

(** C58 refuted: the nodes 1 and '1' of a graph have the same statement. *)
Theorem C58_distinct_refuted : ∃ h s, reachable h ∧ in_graph h 0 0 ∧ in_graph h 0 1 ∧
  node_graphviz env0 h 0 = Ok s ∧ node_graphviz env0 h 1 = Ok s.
Proof. exact C58_distinct_refuted_proof. Qed.
Print Assumptions C58_distinct_refuted.
