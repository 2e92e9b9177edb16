(** What a copy of a graph is (properties C23-C25). *)
From Verif Require Export SpecFrame.

(** No node of [g] has a style. *)
Definition unstyled (h : heap) (g : gref) : Prop :=
  ∀ r N, h_nodes h !! r = Some N → n_graph N = Some g → n_style N = None.
(** No node or edge of [g] stores a bound method as label, value, tooltip or
    parameter (Graph(obj=g) and g1 + g2 make such labels); how these are copied is
    not modelled. *)
Definition no_methods (h : heap) (g : gref) : Prop :=
  (∀ r N m, h_nodes h !! r = Some N → n_graph N = Some g →
    n_label N ≠ PMeth m ∧ n_value N ≠ PMeth m ∧ n_tooltip N ≠ PMeth m ∧ PMeth m ∉ (n_params N).*2) ∧
  (∀ e E m, h_edges h !! e = Some E → e_graph E = Some g →
    e_label E ≠ PMeth m ∧ e_value E ≠ PMeth m ∧ e_tooltip E ≠ PMeth m ∧ PMeth m ∉ (e_params E).*2).

(** Edge [E'] of graph [g'] in [h'] is the image of edge [E] in [h]. *)
Definition edge_image (h : heap) (E : edge) (h' : heap) (g' : gref) (nu : nref → nref) (E' : edge) : Prop :=
  e_graph E' = Some g' ∧ e_raw E' = e_raw E ∧ e_value E' = e_value E ∧
  e_label E' = e_label E ∧ e_tooltip E' = e_tooltip E ∧ e_frozen E' = e_frozen E ∧ e_params E' = e_params E ∧
  e_start E' = nu <$> e_start E ∧ e_end E' = nu <$> e_end E ∧
  (* the style is a new object with the same attributes, except for the flag
     telling whether the text colour is derived, and the extra attributes *)
  (e_style E = None → e_style E' = None) ∧
  (∀ s sty, e_style E = Some s → h_es h !! s = Some sty →
    ∃ s' sty', e_style E' = Some s' ∧ h_es h !! s' = None ∧ h_es h' !! s' = Some sty' ∧
      es_colour sty' = es_colour sty ∧ es_text sty' = es_text sty ∧ es_opacity sty' = es_opacity sty ∧
      es_font sty' = es_font sty ∧ es_text_size sty' = es_text_size sty ∧ es_arrow sty' = es_arrow sty ∧
      es_label_style sty' = es_label_style sty ∧ es_line_width sty' = es_line_width sty).

(** Graph [g'] of [h'] is the image of graph [g] of [h]: node [r] corresponds to
    [nu r] and edge [e] to [ep e], both new objects. *)
Record copy_of (h : heap) (g : gref) (h' : heap) (g' : gref) (nu : nref → nref) (ep : eref → eref) : Prop := {
  (* the names, in the same order, and the flags; the display attributes are not there *)
  cp_graph : ∀ G, h_graphs h !! g = Some G →
    h_graphs h' !! g' = Some (MkGraph ((λ kr, (kr.1, nu kr.2)) <$> g_nodes G) (g_strict G) (g_ordering G) (g_counter G) None);
  cp_nodes : ∀ r N, h_nodes h !! r = Some N → n_graph N = Some g →
    h_nodes h !! nu r = None ∧
    h_nodes h' !! nu r = Some (MkNode (Some g') (n_id N) (n_value N) (n_label N) (n_tooltip N) (n_style N) (n_frozen N)
      (n_params N) ((λ ke, (ke.1, ep ke.2)) <$> n_out N) ((λ ke, (ke.1, ep ke.2)) <$> n_in N) (n_index N));
  cp_edges : ∀ e E, h_edges h !! e = Some E → e_graph E = Some g →
    h_edges h !! ep e = None ∧ ∃ E', h_edges h' !! ep e = Some E' ∧ edge_image h E h' g' nu E';
  (* nothing else is in the new graph *)
  cp_nodes_onto : ∀ r' N', h_nodes h' !! r' = Some N' → n_graph N' = Some g' →
    ∃ r N, h_nodes h !! r = Some N ∧ n_graph N = Some g ∧ r' = nu r;
  cp_edges_onto : ∀ e' E', h_edges h' !! e' = Some E' → e_graph E' = Some g' →
    ∃ e E, h_edges h !! e = Some E ∧ e_graph E = Some g ∧ e' = ep e;
  (* one image for each *)
  cp_nodes_inj : ∀ r1 r2, in_graph h g r1 → in_graph h g r2 → nu r1 = nu r2 → r1 = r2;
  cp_edges_inj : ∀ e1 e2 E1 E2, h_edges h !! e1 = Some E1 → e_graph E1 = Some g → h_edges h !! e2 = Some E2 →
    e_graph E2 = Some g → ep e1 = ep e2 → e1 = e2 }.

(** Graph [g'] of [h'] is the image of the part of graph [g] of [h] that has the
    node names [kept] and the edges between those nodes. *)
Record part_of (h : heap) (g : gref) (h' : heap) (g' : gref) (nu : nref → nref) (ep : eref → eref) (kept : list name) : Prop := {
  pt_graph : ∀ G, h_graphs h !! g = Some G →
    h_graphs h' !! g' = Some (MkGraph ((λ kr, (kr.1, nu kr.2)) <$> filter (λ kr, kr.1 ∈ kept) (g_nodes G : list (name * nref)))
      (g_strict G) (g_ordering G) (g_counter G) None);
  pt_nodes : ∀ r N, h_nodes h !! r = Some N → n_graph N = Some g → n_id N ∈ kept →
    h_nodes h !! nu r = None ∧
    h_nodes h' !! nu r = Some (MkNode (Some g') (n_id N) (n_value N) (n_label N) (n_tooltip N) (n_style N) (n_frozen N) (n_params N)
      ((λ ke, (ke.1, ep ke.2)) <$> filter (λ ke, ke.1.1.1 ∈ kept ∧ ke.1.1.2 ∈ kept) (n_out N : list (edge_id * eref)))
      ((λ ke, (ke.1, ep ke.2)) <$> filter (λ ke, ke.1.1.1 ∈ kept ∧ ke.1.1.2 ∈ kept) (n_in N : list (edge_id * eref))) (n_index N));
  pt_edges : ∀ e E s t Ns Nt, h_edges h !! e = Some E → joins h g e s t →
    h_nodes h !! s = Some Ns → h_nodes h !! t = Some Nt → n_id Ns ∈ kept → n_id Nt ∈ kept →
    h_edges h !! ep e = None ∧ ∃ E', h_edges h' !! ep e = Some E' ∧ edge_image h E h' g' nu E';
  (* nothing else is in the new graph *)
  pt_nodes_onto : ∀ r' N', h_nodes h' !! r' = Some N' → n_graph N' = Some g' →
    ∃ r N, h_nodes h !! r = Some N ∧ n_graph N = Some g ∧ n_id N ∈ kept ∧ r' = nu r;
  pt_edges_onto : ∀ e' s' t', joins h' g' e' s' t' →
    ∃ e s t Ns Nt, joins h g e s t ∧ h_nodes h !! s = Some Ns ∧ h_nodes h !! t = Some Nt ∧ n_id Ns ∈ kept ∧ n_id Nt ∈ kept ∧
      e' = ep e ∧ s' = nu s ∧ t' = nu t;
  (* one image for each *)
  pt_nodes_inj : ∀ r1 r2, in_graph h g r1 → in_graph h g r2 → nu r1 = nu r2 → r1 = r2;
  pt_edges_inj : ∀ e1 e2 E1 E2, h_edges h !! e1 = Some E1 → e_graph E1 = Some g → h_edges h !! e2 = Some E2 →
    e_graph E2 = Some g → ep e1 = ep e2 → e1 = e2 }.
