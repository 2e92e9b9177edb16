(** What is in a graph, without references: the list of its nodes and the list of
    its edges, each with all that was given for it. *)
From Verif Require Export SpecOps.

Record nview := MkNView {
  v_name : name; v_label : pv; v_value : pv; v_tooltip : pv; v_frozen : bool; v_params : sdict; v_style : option nstyle }.
Record eview := MkEView {
  w_from : name; w_to : name; w_id : option name;
  w_label : pv; w_value : pv; w_tooltip : pv; w_frozen : bool; w_params : sdict; w_style : option estyle }.
Definition w_key (w : eview) : edge_id := (w_from w, w_to w, RId (w_id w)).

(** Edge object [e] looks like [w]. *)
Definition edge_shows (h : heap) (g : gref) (e : eref) (w : eview) : Prop :=
  ∃ E s t, h_edges h !! e = Some E ∧ joins h g e s t ∧ named h g (w_from w) s ∧ named h g (w_to w) t ∧
    e_raw E = RId (w_id w) ∧ e_label E = w_label w ∧ e_value E = w_value w ∧ e_tooltip E = w_tooltip w ∧
    e_frozen E = w_frozen w ∧ e_params E = w_params w ∧ (e_style E ≫= λ s, h_es h !! s) = w_style w.
(** Node object [r] looks like [v], and has those of the edges [es] that start
    (end) in it as outward (inward) edges, in this order. *)
Definition node_shows (h : heap) (g : gref) (es : list eview) (r : nref) (v : nview) : Prop :=
  ∃ N, h_nodes h !! r = Some N ∧ n_graph N = Some g ∧ n_id N = v_name v ∧ n_label N = v_label v ∧ n_value N = v_value v ∧
    n_tooltip N = v_tooltip v ∧ n_frozen N = v_frozen v ∧ n_params N = v_params v ∧ (n_style N ≫= λ s, h_ns h !! s) = v_style v ∧
    Forall2 (λ ke w, ke.1 = w_key w ∧ edge_shows h g ke.2 w) (n_out N) (filter (λ w, w_from w = v_name v) es) ∧
    Forall2 (λ ke w, ke.1 = w_key w ∧ edge_shows h g ke.2 w) (n_in N) (filter (λ w, w_to w = v_name v) es).
(** The graph has exactly the nodes [ns], in this order, and exactly the edges
    [es], in this order at each node. *)
Definition shows (h : heap) (g : gref) (ns : list nview) (es : list eview) : Prop :=
  ∃ G, h_graphs h !! g = Some G ∧ Forall2 (λ kr v, kr.1 = v_name v ∧ node_shows h g es kr.2 v) (g_nodes G) ns ∧
    ∀ w, w ∈ es → w_from w ∈ v_name <$> ns ∧ w_to w ∈ v_name <$> ns.
(** The flags and display options of a graph. *)
Definition flags (h : heap) (g : gref) : option (bool * bool * option display) :=
  (λ G, (g_strict G, g_ordering G, g_disp G)) <$> h_graphs h !! g.

(** A node (edge) just made, without style. *)
Definition plain_node (s : string) (label : pv) : nview := MkNView (NStr s) label PNone PNone false [] None.
Definition plain_edge (a b : name) (id : option name) (label : pv) : eview := MkEView a b id label PNone PNone false [] None.

(** The elements of a list without repetitions, in the order in which they first
    appear. *)
Fixpoint distinct {A} `{EqDecision A} (l : list A) : list A :=
  match l with
  | [] => []
  | x :: l => x :: filter (λ y, y ≠ x) (distinct l)
  end.

(** * from_lists: the rows *)
Fixpoint row_names (start end_ : list string) (labels : list pv) : list string :=
  match start, end_, labels with
  | s :: start, t :: end_, _ :: labels => s :: t :: row_names start end_ labels
  | _, _, _ => []
  end.
Fixpoint row_edges (i : Z) (start end_ : list string) (labels : list pv) : list eview :=
  match start, end_, labels with
  | s :: start, t :: end_, l :: labels =>
      plain_edge (NStr s) (NStr t) (Some (NInt i)) l :: row_edges (i + 1) start end_ labels
  | _, _, _ => []
  end.

(** * Graph.random: the names, and the edges for the k-th, (k+1)-th, ... draw *)
Definition numbers (n : nat) (start : Z) : list Z := (λ i, start + Z.of_nat i)%Z <$> seq 0 n.
Fixpoint drawn_edges (cycle : bool) (p : Q) (draws : nat → Q) (k : nat) (pairs : list (Z * Z)) : list eview :=
  match pairs with
  | [] => []
  | (a, b) :: pairs =>
      (if Qlt_le_dec (draws k) p then
         if cycle || (a <? b)%Z then [plain_edge (NStr (pretty a)) (NStr (pretty b)) None PNone] else []
       else []) ++ drawn_edges cycle p draws (Datatypes.S k) pairs
  end.

(** * from_indented_text: the nodes and edges for the lines *)
Definition line_name (i : nat) : name := NStr (pretty (Z.of_nat i)).
Definition line_node (i : nat) : nview := plain_node (pretty (Z.of_nat i)) (PStr ("line " ++ pretty (Z.of_nat i))).
Definition line_edge (i : nat) (parent : option nat) : eview :=
  plain_edge (match parent with Some j => line_name j | None => NStr "root" end) (line_name i) None PNone.

(** * Growing a graph in place *)
(** The outward (inward) edges of an object, none if it does not exist yet. *)
Definition out_of (h : heap) (r : nref) : dict edge_id eref := match h_nodes h !! r with Some N => n_out N | None => [] end.
Definition in_of (h : heap) (r : nref) : dict edge_id eref := match h_nodes h !! r with Some N => n_in N | None => [] end.
(** From heap [h] to heap [h'], graph [g] got new nodes with the names [ks], after
    the ones it had, which are still the same objects, and new edges with the ids
    [ids], after the edges that each node had, which are still the same objects. *)
Record grown (h : heap) (g : gref) (h' : heap) (ks : list name) (ids : list edge_id) : Prop := {
  gr_nodes : ∃ G G' new, h_graphs h !! g = Some G ∧ h_graphs h' !! g = Some G' ∧
    g_nodes G' = g_nodes G ++ new ∧ new.*1 = ks ∧ ∀ k r, (k, r) ∈ new → h_nodes h !! r = None;
  gr_out : ∀ k r, named h' g k r → ∃ new, out_of h' r = out_of h r ++ new ∧ new.*1 = filter (λ i, i.1.1 = k) ids;
  gr_in : ∀ k r, named h' g k r → ∃ new, in_of h' r = in_of h r ++ new ∧ new.*1 = filter (λ i, i.1.2 = k) ids;
  gr_ends : ∀ i, i ∈ ids → (∃ r, named h' g i.1.1 r) ∧ (∃ r, named h' g i.1.2 r);
  gr_more : length (h_nodes h) ≤ length (h_nodes h') }.
(** What is in a representation: the node names and edge ids given, in order. *)
Definition given_names (d : grepr) : list name := match r_nodes d with inl nd => nd.*1 | inr ns => ns end.
Definition spec_id (s : espec) : list edge_id :=
  match s with E2 p c => [(p, c, RId None)] | E3 p c a => [(p, c, RId (c_id a))] | _ => [] end.
Definition given_ids (d : grepr) : list edge_id := r_edges d ≫= spec_id.
(** The names of the nodes of a graph; the ids of its edges, node by node. *)
Definition names_of (h : heap) (g : gref) : list name := match h_graphs h !! g with Some G => (g_nodes G).*1 | None => [] end.
Definition ids_of (h : heap) (g : gref) : list edge_id :=
  match h_graphs h !! g with Some G => g_nodes G ≫= λ kr, (out_of h kr.2).*1 | None => [] end.
(** The same for whatever may be given to append. *)
Definition obj_names (h : heap) (o : gobj) : list name :=
  match o with OGraph g => names_of h g | ODict d => given_names d | OBad => [] end.
Definition obj_ids (h : heap) (o : gobj) : list edge_id :=
  match o with OGraph g => ids_of h g | ODict d => given_ids d | OBad => [] end.
(** The graph has exactly the names [ks], in this order, and edges with exactly
    the ids [ids], in this order at each node. *)
Definition shaped (h : heap) (g : gref) (ks : list name) (ids : list edge_id) : Prop :=
  names_of h g = ks ∧ (∀ i, i ∈ ids → i.1.1 ∈ ks ∧ i.1.2 ∈ ks) ∧
  ∀ k r, named h g k r → (out_of h r).*1 = filter (λ i, i.1.1 = k) ids ∧ (in_of h r).*1 = filter (λ i, i.1.2 = k) ids.
(** No node and no edge of the graph is frozen. *)
Definition unfrozen (h : heap) (g : gref) : Prop :=
  (∀ r N, h_nodes h !! r = Some N → n_graph N = Some g → n_frozen N = false) ∧
  (∀ e E, h_edges h !! e = Some E → e_graph E = Some g → e_frozen E = false).
(** A representation that append accepts: string names, a string label (if any),
    no styles, ends of edges known, styles and colours only for given edges. *)
Record acceptable (h : heap) (g : gref) (d : grepr) : Prop := {
  ac_label : ∀ v, r_label d = Some v → ∃ s, v = PStr s;
  ac_names : ∀ k, k ∈ given_names d → ∃ s, k = NStr s;
  ac_nodes : ∀ nd k a, r_nodes d = inl nd → (k, a) ∈ nd → lenient (a_mode a) = true ∧ a_style a = SNone;
  ac_edges : ∀ s, s ∈ r_edges d → ∃ p c, p ∈ names_of h g ++ given_names d ∧ c ∈ names_of h g ++ given_names d ∧
    (s = E2 p c ∨ ∃ a, s = E3 p c a ∧ lenient (c_mode a) = true ∧ c_style a = SNone);
  ac_styles : ∀ l k v, r_edge_styles d = Some l → (k, v) ∈ l → ∃ p c i, k = K2 p c ∧ (p, c, i) ∈ given_ids d;
  ac_colours : ∀ l k v, r_edge_colours d = Some l → (k, v) ∈ l → ∃ p c i, k = K2 p c ∧ (p, c, i) ∈ given_ids d }.
