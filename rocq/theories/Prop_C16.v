(** Property theorems; the proofs are in ProofC16.v. *)
From Verif Require Import ProofC16.
Local Open Scope string_scope.
Local Open Scope list_scope.

(** C61.  The hash of a node object never changes, whatever calls are made. *)
Theorem C61_node : ∀ P h h' r N, reachable h → history P h h' → h_nodes h !! r = Some N →
  node_hash_key h r = Ok (n_id N) ∧ node_hash_key h' r = Ok (n_id N).
Proof. exact C61_node_proof. Qed.
Print Assumptions C61_node.

(** C61.  An edge of a graph hashes by the graph and its id, and the hash stays the same
    as long as the edge is in the graph. *)
Theorem C61_edge : ∀ P h h' g e i, reachable h → history P h h' → has_id h g e i →
  edge_hash_key h e = Ok (Some g, i) ∧
  (∀ E', h_edges h' !! e = Some E' → e_graph E' ≠ None → edge_hash_key h' e = Ok (Some g, i)).
Proof. exact C61_edge_proof. Qed.
Print Assumptions C61_edge.

(** C61.  Different edges of a graph, and edges of different graphs, have different keys. *)
Theorem C61_distinct : ∀ h g1 g2 e1 e2 i1 i2, reachable h → has_id h g1 e1 i1 → has_id h g2 e2 i2 →
  edge_hash_key h e1 = edge_hash_key h e2 ↔ e1 = e2.
Proof. exact C61_distinct_proof. Qed.
Print Assumptions C61_distinct.

(** C61.  The law ends with the membership: an edge that was removed cannot be hashed (it
    raises), so it cannot be looked up in a set or dict that holds it. *)
Theorem C61_removed_refuted : ∃ h g e i, reachable h ∧ has_id h g e i ∧
  (remove_self e h).2 = Ok tt ∧ edge_hash_key (after (CRemoveSelf e) h) e = Err ValueError.
Proof. exact C61_removed_refuted_proof. Qed.
Print Assumptions C61_removed_refuted.

(** C61.  Disconnecting instead of removing changes the hash without an exception. *)
Theorem C61_disconnected_refuted : ∃ h g e i k, reachable h ∧ has_id h g e i ∧
  (disconnect e h).2 = Ok tt ∧ edge_hash_key (after (CDisconnect e) h) e = Ok k ∧ k ≠ (Some g, i).
Proof. exact C61_disconnected_refuted_proof. Qed.
Print Assumptions C61_disconnected_refuted.

(** Edge 3 of the sample (the one with the extra id x) keeps its key when edge 0 between
    the same nodes is removed. *)
Example C61_edge_ex : history (λ _, True) sample (run [CRemoveSelf 0] sample) ∧
  has_id sample 0 3 (nm "a", nm "b", RId (Some (nm "x"))) ∧
  edge_hash_key (run [CRemoveSelf 0] sample) 3 = Ok (Some 0, (nm "a", nm "b", RId (Some (nm "x")))).
Proof. exact C61_edge_ex_proof. Qed.
Print Assumptions C61_edge_ex.

(** C62.  graph.node_styles lists, in node order and under their names, exactly the nodes
    that have a style, each with it. *)
Theorem C62_nodes : ∀ h g G, reachable h → h_graphs h !! g = Some G →
  ∃ d, node_styles h g = Ok d ∧ NoDup d.*1 ∧ d.*1 `sublist_of` (g_nodes G).*1 ∧
    ∀ k s, (k, s) ∈ d ↔ ∃ r N, named h g k r ∧ h_nodes h !! r = Some N ∧ n_style N = Some s.
Proof. exact C62_nodes_proof. Qed.
Print Assumptions C62_nodes.

(** C62.  graph.edge_styles lists under their ids exactly the edges that have a style. *)
Theorem C62_edges : ∀ h g G, reachable h → h_graphs h !! g = Some G →
  ∃ d, edge_styles h g = Ok d ∧ NoDup d.*1 ∧
    ∀ i s, (i, s) ∈ d ↔ ∃ e E, has_id h g e i ∧ h_edges h !! e = Some E ∧ e_style E = Some s.
Proof. exact C62_edges_proof. Qed.
Print Assumptions C62_edges.

(** One of the two nodes and the only edge have a style. *)
Example C62_ex : reachable styled_sample ∧ node_styles styled_sample 1 = Ok [(nm "z", 0)] ∧
  edge_styles styled_sample 1 = Ok [((nm "a", nm "z", RId None), 0)] ∧ node_styles styled_sample 0 = Ok [].
Proof. exact C62_ex_proof. Qed.
Print Assumptions C62_ex.

(** C64.  stylize() changes nothing but styles, and only in its own graph - whether it
    returns or raises. *)
Theorem C64_stylize : ∀ h g shuffle, reachable h → allowed h (CStylize g shuffle) → styles_only g h (after (CStylize g shuffle) h).
Proof. exact C64_stylize_proof. Qed.
Print Assumptions C64_stylize.

(** C64.  So does render(). *)
Theorem C64_render : ∀ env h g dir pad shuffle, reachable h → allowed h (CRender env g dir pad shuffle) →
  styles_only g h (after (CRender env g dir pad shuffle) h).
Proof. exact C64_render_proof. Qed.
Print Assumptions C64_render.

(** Styling graph 1 of the sample. *)
Example C64_ex : reachable sample ∧ (stylize 1 (λ l, l) sample).2 = Ok tt ∧ ¬ node_styled sample 5 ∧ node_styled (after (CStylize 1 (λ l, l)) sample) 5.
Proof. exact C64_ex_proof. Qed.
Print Assumptions C64_ex.
