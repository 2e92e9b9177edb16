(** Property theorems; the proofs are in ProofC9.v. *)
From Verif Require Import ProofC9.
Local Open Scope string_scope.
Local Open Scope list_scope.

(** C27.  from_lists succeeds on any lists of node names: it makes a new graph whose
    nodes are the distinct names, in the order in which they first appear reading
    the rows from left to right and from top to bottom, all of them plain; it has
    exactly one edge for each row, in order, with the row number as id and the
    given label; rows beyond the shortest list are ignored; nothing is warned. *)
Theorem C27_from_lists : ∀ h d start end_ labels strict, reachable h →
  ∃ h', from_lists d start end_ labels strict h = (h', Ok (length (h_graphs h))) ∧
    shows h' (length (h_graphs h)) ((λ s, plain_node s PNone) <$> distinct (row_names start end_ labels)) (row_edges 0 start end_ labels) ∧
    h_warns h' = h_warns h ∧ flags h' (length (h_graphs h)) = Some (strict, true, Some d) ∧ extends h h'.
Proof. exact C27_from_lists_proof. Qed.
Print Assumptions C27_from_lists.

(** Three rows, with a name and a pair that occur twice. *)
Example C27_from_lists_ex : reachable sample ∧
  row_names ["b"; "a"; "b"; "x"] ["a"; "c"; "a"] [PStr "u"; PNone; PInt 3; PNone] = ["b"; "a"; "a"; "c"; "b"; "a"] ∧
  distinct ["b"; "a"; "a"; "c"; "b"; "a"] = ["b"; "a"; "c"] ∧
  row_edges 0 ["b"; "a"; "b"; "x"] ["a"; "c"; "a"] [PStr "u"; PNone; PInt 3; PNone] =
    [plain_edge (nm "b") (nm "a") (Some (NInt 0)) (PStr "u"); plain_edge (nm "a") (nm "c") (Some (NInt 1)) PNone;
     plain_edge (nm "b") (nm "a") (Some (NInt 2)) (PInt 3)].
Proof. exact C27_from_lists_ex_proof. Qed.
Print Assumptions C27_from_lists_ex.

(** C31.  Graph.random, for every outcome of the draws: the nodes are named by
    [num_nodes] consecutive integers, in order, and the edges are those of the
    pairs (first node, second node), taken row by row, whose draw is below the
    probability and that are permitted: all pairs with [cycle], otherwise those
    from a smaller to a larger number. *)
Theorem C31_random : ∀ h d n strict cycle start p ord draws, reachable h → (∀ k, 0 <= draws k < 1)%Q →
  ∃ h', random_graph d n strict cycle start p ord draws h = (h', Ok (length (h_graphs h))) ∧
    shows h' (length (h_graphs h)) ((λ i, plain_node (pretty i) PNone) <$> numbers n start)
      (drawn_edges cycle p draws 0 (list_prod (numbers n start) (numbers n start))) ∧
    h_warns h' = h_warns h ∧ flags h' (length (h_graphs h)) = Some (strict, ord, Some d) ∧ extends h h'.
Proof. exact C31_random_proof. Qed.
Print Assumptions C31_random.

(** C31.  Hence, without [cycle], the graph has no directed cycle. *)
Theorem C31_acyclic : ∀ h d n strict start p ord draws h' g, reachable h → (∀ k, 0 <= draws k < 1)%Q →
  random_graph d n strict false start p ord draws h = (h', Ok g) → acyclic h' g.
Proof. exact C31_acyclic_proof. Qed.
Print Assumptions C31_acyclic.

(** C31.  With a probability of at most 0 there is no edge; with one of at least 1
    there is an edge between every permitted pair of nodes. *)
Theorem C31_extremes : ∀ h d n strict cycle start p ord draws h' g, reachable h → (∀ k, 0 <= draws k < 1)%Q →
  random_graph d n strict cycle start p ord draws h = (h', Ok g) →
  ((p <= 0)%Q → ∀ e x y, ¬ joins h' g e x y) ∧
  ((1 <= p)%Q → ∀ a b, a ∈ numbers n start → b ∈ numbers n start → cycle = true ∨ (a < b)%Z →
     ∃ e x y, named h' g (NStr (pretty a)) x ∧ named h' g (NStr (pretty b)) y ∧ joins h' g e x y).
Proof. exact C31_extremes_proof. Qed.
Print Assumptions C31_extremes.

(** Three nodes and alternating draws: one edge. *)
Example C31_random_ex : reachable sample ∧ (∀ k, 0 <= (if Nat.even k then 1#4 else 3#4) < 1)%Q ∧
  numbers 3 1 = [1; 2; 3]%Z ∧
  drawn_edges false (1#2) (λ k, if Nat.even k then 1#4 else 3#4)%Q 0 (list_prod [1; 2; 3]%Z [1; 2; 3]%Z) =
    [plain_edge (nm "1") (nm "3") None PNone].
Proof. exact C31_random_ex_proof. Qed.
Print Assumptions C31_random_ex.
