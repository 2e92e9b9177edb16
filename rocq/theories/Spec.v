(** Specification vocabulary: what it means for a node to belong to a graph and
    for an edge to join two nodes, read off the objects themselves, and directed
    paths.  Nothing here uses a function of the model. *)
From Verif Require Export Heap.

(** Node [r] is in [graph.nodes] of graph [g]. *)
Definition in_graph (h : heap) (g : gref) (r : nref) : Prop :=
  ∃ G k, h_graphs h !! g = Some G ∧ (k, r) ∈ g_nodes G.

(** Node [r] is filed under the name [k] in graph [g]. *)
Definition named (h : heap) (g : gref) (k : name) (r : nref) : Prop :=
  ∃ G, h_graphs h !! g = Some G ∧ (k, r) ∈ g_nodes G.

(** Edge object [e] belongs to graph [g] and goes from [x] to [y]. *)
Definition joins (h : heap) (g : gref) (e : eref) (x y : nref) : Prop :=
  ∃ E, h_edges h !! e = Some E ∧ e_graph E = Some g ∧ e_start E = Some x ∧ e_end E = Some y.

(** The id of the edge [e] of [g]: start name, end name, extra id. *)
Definition has_id (h : heap) (g : gref) (e : eref) (i : edge_id) : Prop :=
  ∃ x y E Nx Ny, joins h g e x y ∧ h_edges h !! e = Some E ∧
    h_nodes h !! x = Some Nx ∧ h_nodes h !! y = Some Ny ∧ i = (n_id Nx, n_id Ny, e_raw E).

(** There is an edge from [x] to [y] in [g]. *)
Definition adj (h : heap) (g : gref) (x y : nref) : Prop := ∃ e, joins h g e x y.

(** A directed path with at least one edge; with any number of edges; with
    exactly [n] edges. *)
Definition path (h : heap) (g : gref) : nref → nref → Prop := tc (adj h g).
Definition path0 (h : heap) (g : gref) : nref → nref → Prop := rtc (adj h g).
Definition walk (h : heap) (g : gref) (n : nat) : nref → nref → Prop := nsteps (adj h g) n.

(** The shortest path with at least one edge has [n] edges. *)
Definition distance (h : heap) (g : gref) (n : nat) (x y : nref) : Prop :=
  1 ≤ n ∧ walk h g n x y ∧ ∀ m, 1 ≤ m → walk h g m x y → n ≤ m.

(** Node [x] lies on a directed cycle. *)
Definition on_cycle (h : heap) (g : gref) (x : nref) : Prop := path h g x x.
Definition acyclic (h : heap) (g : gref) : Prop := ∀ x, ¬ on_cycle h g x.

(** The consistency of a heap (property C01). *)
Record consistent (h : heap) : Prop := {
  (** graph.nodes: one node per name, filed under its own name, and it reports
      the graph *)
  con_names : ∀ g G, h_graphs h !! g = Some G → NoDup (g_nodes G).*1;
  con_member : ∀ g k r, named h g k r →
    ∃ N, h_nodes h !! r = Some N ∧ n_id N = k ∧ n_graph N = Some g;
  con_graph : ∀ r N g, h_nodes h !! r = Some N → n_graph N = Some g → named h g (n_id N) r;
  (** an edge entry under [k] in the outward dict of [r] *)
  con_out : ∀ r N k e, h_nodes h !! r = Some N → (k, e) ∈ n_out N →
    ∃ g t Nt E, h_edges h !! e = Some E ∧ h_nodes h !! t = Some Nt ∧
      joins h g e r t ∧ n_graph N = Some g ∧ n_graph Nt = Some g ∧
      k = (n_id N, n_id Nt, e_raw E) ∧ (k, e) ∈ n_in Nt;
  con_in : ∀ r N k e, h_nodes h !! r = Some N → (k, e) ∈ n_in N →
    ∃ g s Ns E, h_edges h !! e = Some E ∧ h_nodes h !! s = Some Ns ∧
      joins h g e s r ∧ n_graph N = Some g ∧ n_graph Ns = Some g ∧
      k = (n_id Ns, n_id N, e_raw E) ∧ (k, e) ∈ n_out Ns;
  (** ids are unique in each dict *)
  con_keys : ∀ r N, h_nodes h !! r = Some N → NoDup (n_out N).*1 ∧ NoDup (n_in N).*1;
  (** every edge object that reports a graph is listed at both its ends *)
  con_edge : ∀ e E g, h_edges h !! e = Some E → e_graph E = Some g →
    ∃ s t Ns Nt, e_start E = Some s ∧ e_end E = Some t ∧
      h_nodes h !! s = Some Ns ∧ h_nodes h !! t = Some Nt ∧
      ((n_id Ns, n_id Nt, e_raw E), e) ∈ n_out Ns ∧ ((n_id Ns, n_id Nt, e_raw E), e) ∈ n_in Nt
}.
