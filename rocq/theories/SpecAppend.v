(** What a representation (a dictionary given to append) describes. *)
From Verif Require Export SpecBuild.

(** The nodes and edges given, with their attributes. *)
Definition given_nodes (d : grepr) : list nview :=
  match r_nodes d with
  | inl nd => (λ kv : name * nargs, MkNView kv.1 (a_label kv.2) (a_value kv.2) (a_tooltip kv.2) false (a_params kv.2) None) <$> nd
  | inr ns => (λ n, MkNView n PNone PNone PNone false [] None) <$> ns
  end.
Definition spec_edge (s : espec) : list eview :=
  match s with
  | E2 p c => [plain_edge p c None PNone]
  | E3 p c a => [MkEView p c (c_id a) (c_label a) (c_value a) (c_tooltip a) false (c_params a) None]
  | _ => []
  end.
Definition given_edges (d : grepr) : list eview := r_edges d ≫= spec_edge.

(** What is given, else what was there; the first of two spellings of an option that is given. *)
Definition either {A} (o1 o2 : option A) : option A := match o1 with Some _ => o1 | None => o2 end.
Definition or_keep {A} (o : option A) (x : A) : A := match o with Some y => y | None => x end.
Definition set_if {A} (o : option A) (f : A → display → display) (D : display) : display := match o with Some v => f v D | None => D end.
(** The last given edge between two names. *)
Definition last_id (d : grepr) (p c : name) : option edge_id := last (filter (λ i, i.1.1 = p ∧ i.1.2 = c) (given_ids d)).
Definition for_edge {A} (d : grepr) (o : A → ovr) (l : dict edge_id ovr) (kv : ekey * A) : dict edge_id ovr :=
  match kv.1 with
  | K2 p c => match last_id d p c with Some i => dset l i (o kv.2) | None => l end
  | K3 _ => l
  end.
(** The display options after append: those given replace the present ones (the label
    gets a line end in front), styles and colours of nodes are filed by name, those of
    edges, given by the names of the ends, by the id of the last such edge. *)
Definition display_given (d : grepr) (D : display) : display :=
  set_if (r_edge_colours d) (λ l D, D <| d_edge_colours := fold_left (for_edge d OvColour) l (d_edge_colours D) |>)
  (set_if (r_node_colours d) (λ l D, D <| d_node_colours := fold_left (λ m kv, dset m kv.1 kv.2) l (d_node_colours D) |>)
  (set_if (r_edge_styles d) (λ l D, D <| d_edge_colours := fold_left (for_edge d OvStyle) l (d_edge_colours D) |>)
  (set_if (r_node_styles d) (λ l D, D <| d_node_styles := fold_left (λ m kv, dset m kv.1 kv.2) l (d_node_styles D) |>)
  (set_if (r_direction d) (λ v D, D <| d_direction := v |>)
  (set_if (either (r_gedge d) (r_gedge2 d)) (λ v D, D <| d_gedge := v |>)
  (set_if (either (r_gnode d) (r_gnode2 d)) (λ v D, D <| d_gnode := v |>)
  (set_if (r_label_url d) (λ v D, D <| d_label_url := v |>)
  (set_if (r_tooltip d) (λ v D, D <| d_tooltip := v |>)
  (set_if (r_label d) (λ v D, D <| d_label := match v with PStr s => PStr (String "010" s) | v => v end |>) D))))))))).
