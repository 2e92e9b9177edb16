(** Property theorems; the proofs are in ProofC57.v. *)
From Verif Require Import ProofC57.
Local Open Scope string_scope.
Local Open Scope list_scope.

(** Instance of C31_acyclic and C31_extremes: three nodes, no cycles allowed, all draws
    1/2.  With probability 1 there are three edge objects more than before, with
    probability 0 there is none. *)
Example C31_extremes_ex : reachable sample ∧ (∀ k : nat, 0 <= (λ _ : nat, 1 # 2) k < 1)%Q ∧
  (∃ h1, random_graph disp0 3 false false 1 1 true (λ _, 1 # 2)%Q sample = (h1, Ok 2) ∧ length (h_edges h1) = length (h_edges sample) + 3) ∧
  (∃ h0, random_graph disp0 3 false false 1 0 true (λ _, 1 # 2)%Q sample = (h0, Ok 2) ∧ h_edges h0 = h_edges sample).
Proof. exact C31_extremes_ex_proof. Qed.
Print Assumptions C31_extremes_ex.

(** Instance of C63_node_partial: the node b of the sample, with a name that no node has and
    with the name of another node. *)
Example C63_node_ex : ∃ N, reachable sample ∧ h_nodes sample !! 1 = Some N ∧ n_graph N = Some 0 ∧ nm "new" ≠ n_id N ∧ nm "a" ≠ n_id N ∧
  get_node sample 0 (AName (nm "new")) = Err KeyError ∧ get_node sample 0 (AName (nm "a")) = Ok 0.
Proof. exact C63_node_ex_proof. Qed.
Print Assumptions C63_node_ex.

(** Instance of C63_edge_partial: the first edge from a to b of the sample, with an id that
    no edge has. *)
Example C63_edge_ex : ∃ i E, reachable sample ∧ has_id sample 0 0 i ∧ h_edges sample !! 0 = Some E ∧ i.1 = (nm "a", nm "b") ∧
  ∀ e', ¬ has_id sample 0 e' (i.1, RId (Some (nm "fresh"))).
Proof. exact C63_edge_ex_proof. Qed.
Print Assumptions C63_edge_ex.

(** Instance of C42_fails_partial: in a -> b, b -> c, c -> b the edge from b to c starts in a
    node without style that is on a cycle and has the parent a, which is on none. *)
Example C42_fails_ex : ∃ h G D, reachable h ∧ h_graphs h !! 0 = Some G ∧ g_disp G = Some D ∧ default_styling D ∧ d_scheme D ≠ [] ∧ comparable h 0 ∧
  (∀ e E c, h_edges h !! e = Some E → e_value E ≠ PCol c) ∧
  ∃ e x y E, joins h 0 e x y ∧ h_edges h !! e = Some E ∧ e_style E = None ∧ ¬ ((node_styled h x ∨ rootlike h 0 x ∨ ¬ on_cycle h 0 x) ∧ numeric (e_value E)).
Proof. exact C42_fails_ex_proof. Qed.
Print Assumptions C42_fails_ex.

(** Instance of C56_coloured_partial: a node style of a given colour and an edge style, made
    by calls. *)
Example C56_coloured_ex : ∃ h, reachable h ∧ length (h_ns h) = 1 ∧ length (h_es h) = 1.
Proof. exact C56_coloured_ex_proof. Qed.
Print Assumptions C56_coloured_ex.

(** C70.  The arrow sizes when it succeeds: the i-th edge (in the order of graph.edges) of
    those that had no style has arrow size one half times the product of the values of
    this edge and of the edges before it that had no style (None counts as one), and the
    colour of its start a tenth darker. *)
Theorem C70_arrow_partial : ∀ h g G D sh h' es, reachable h → h_graphs h !! g = Some G → g_disp G = Some D → random_styling D → (∀ l, sh l ≡ₚ l) → d_scheme D ≠ [] →
  stylize g sh h = (h', Ok tt) → graph_edges h' g = Ok es → ∀ i e, unstyled_edges h es !! i = Some e → ∃ x y s a,
    joins h g e x y ∧ style_of h' x s ∧ edge_style_of h' e (standard_edge (CDarken (ns_colour s) (1 # 10)%Q) a) ∧
    (a == (1 # 2) * product (factor <$> take (Datatypes.S i) (values_of h (unstyled_edges h es))))%Q.
Proof. exact C70_arrow_partial_proof. Qed.
Print Assumptions C70_arrow_partial.

(** C70, instance: a -> b with value 2, a -> c with value 3, b -> c without, stylist
    'random' with the order unchanged: the sizes are 1, 3 and 3. *)
Example C70_arrow_ex : ∃ h G D h' es, reachable h ∧ h_graphs h !! 0 = Some G ∧ g_disp G = Some D ∧ random_styling D ∧ (∀ l : list nref, id l ≡ₚ l) ∧ d_scheme D ≠ [] ∧
  stylize 0 id h = (h', Ok tt) ∧ graph_edges h' 0 = Ok es ∧ unstyled_edges h es = es ∧ length es = 3 ∧ es_arrow <$> h_es h' = [PFlt (2 # 2)%Q; PFlt (6 # 2)%Q; PFlt (6 # 2)%Q].
Proof. exact C70_arrow_ex_proof. Qed.
Print Assumptions C70_arrow_ex.
