(** Property theorems; the proofs are in ProofC46.v. *)
From Verif Require Import ProofC46.
Local Open Scope string_scope.
Local Open Scope list_scope.

(** C86.  Every call other than add_node with a name, connect, connect_to, connect_from,
    the constructors of whole graphs, append and add issues no warning, whether it succeeds
    or raises. *)
Theorem C86_quiet : ∀ h c, may_repeat c = false → h_warns (after c h) = h_warns h.
Proof. exact C86_quiet_proof. Qed.
Print Assumptions C86_quiet.

(** C86.  No call takes back a warning: those issued before stay, in their order, and new
    ones come after them. *)
Theorem C86_kept : ∀ h c, h_warns h `prefix_of` h_warns (after c h).
Proof. exact C86_kept_proof. Qed.
Print Assumptions C86_kept.

(** C86.  add_node with a name warns exactly once, about that name, when the graph has a
    node of that name and the mode is 'warn', and not at all otherwise; this holds also when
    it raises afterwards. *)
Theorem C86_add_node : ∀ h g s a, reachable h →
  ((∃ r, named h g (NStr s) r) → a_mode a = "warn" → h_warns (add_node g (AName (NStr s)) a h).1 = h_warns h ++ [WNode (NStr s)]) ∧
  ((¬ ∃ r, named h g (NStr s) r) ∨ a_mode a ≠ "warn" → h_warns (add_node g (AName (NStr s)) a h).1 = h_warns h).
Proof. exact C86_add_node_proof. Qed.
Print Assumptions C86_add_node.

(** C86.  connect warns exactly once, about the edge it names, when that edge exists and the
    mode is 'warn', and not at all otherwise; this holds also when it raises. *)
Theorem C86_connect : ∀ h g x y a, reachable h →
  (∀ s t Ns Nt e E, denotes h g x s → denotes h g y t → h_nodes h !! s = Some Ns → h_nodes h !! t = Some Nt →
     joins h g e s t → h_edges h !! e = Some E → e_raw E = RId (c_id a) → c_mode a = "warn" →
     h_warns (connect g x y a h).1 = h_warns h ++ [WEdge (n_id Ns, n_id Nt, RId (c_id a))]) ∧
  (c_mode a ≠ "warn" ∨ (¬ ∃ s t e E, denotes h g x s ∧ denotes h g y t ∧ joins h g e s t ∧ h_edges h !! e = Some E ∧ e_raw E = RId (c_id a)) →
     h_warns (connect g x y a h).1 = h_warns h).
Proof. exact C86_connect_proof. Qed.
Print Assumptions C86_connect.

(** C86.  Appending a dictionary warns only about the nodes it lists, unless their entries
    ask for another mode, and about edges with the ids it lists, likewise. *)
Theorem C86_append : ∀ h g d, ∃ ws,
  h_warns (graph_append g (ODict d) h).1 = h_warns h ++ ws ∧ Forall (given_warning d) ws.
Proof. exact C86_append_proof. Qed.
Print Assumptions C86_append.

(** The hypotheses occur: in the sample, add_node of an existing name warns, connect of the
    existing edge warns, and styling, copying and
    removing do not. *)
Example C86_ex : reachable sample ∧
  (∃ r, named sample 0 (NStr "a") r) ∧
  h_warns (add_node 0 (an "a") nargs0 sample).1 = h_warns sample ++ [WNode (NStr "a")] ∧
  h_warns (add_node 0 (an "a") (nargs0 <| a_mode := "ignore" |>) sample).1 = h_warns sample ∧
  h_warns (connect 0 (an "a") (an "b") eargs0 sample).1 = h_warns sample ++ [WEdge (nm "a", nm "b", RId None)] ∧
  may_repeat (CRemoveNode 0 (an "a")) = false ∧ may_repeat (CCopy 0) = false ∧ may_repeat (CStylize 0 id) = false.
Proof. exact C86_ex_proof. Qed.
Print Assumptions C86_ex.
