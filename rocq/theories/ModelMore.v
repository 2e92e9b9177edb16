(** Further accessors of the graph objects, saving a drawing, and the stylists called
    directly with template styles.  Models parts of /repo/abstract/_GraphObj.py, Node.py,
    Edge.py, _GraphWithoutDisplay.py, Graph.py and styling/*.py. *)
From Verif Require Export ModelDot.
Local Open Scope string_scope.
Local Open Scope list_scope.

(** GraphWithoutDisplay.node_styles, _GraphWithoutDisplay.py:206-214, with
    GraphObj.has_style, _GraphObj.py:154-155. *)
Definition node_styles (h : heap) (g : gref) : res (dict name sref) :=
  let! G := get_g h g in
  rfold (λ d kv, let! N := get_n h kv.2 in
                 Ok (match n_style N with Some s => dset d kv.1 s | None => d end)) [] (g_nodes G).
(** One edge of the comprehension, _GraphWithoutDisplay.py:224. *)
Definition add_edge_style (h : heap) (d : dict edge_id sref) (e : eref) : res (dict edge_id sref) :=
  let! E := get_e h e in
  match e_style E with
  | Some s => let! i := get_edge_id h e in Ok (dset d i s)
  | None => Ok d
  end.
(** GraphWithoutDisplay.edge_styles, _GraphWithoutDisplay.py:216-224. *)
Definition edge_styles (h : heap) (g : gref) : res (dict edge_id sref) :=
  let! ns := nodes h g in
  rfold (λ d r, let! es := outward_edges h r in rfold (add_edge_style h) d es) [] ns.

(** GraphObj.__hash__ on an edge, _GraphObj.py:75-76 with Edge.id, Edge.py:110-126: a
    function (SHA-256 of the printed pair) of the graph and the id.  Simplification: the
    default hash of a graph object stands for the object. *)
Definition edge_hash_key (h : heap) (e : eref) : res (option gref * edge_id) :=
  let! E := get_e h e in let! i := get_edge_id h e in Ok (e_graph E, i).

(** Node.outward_edge_ids, Node.py:158-161. *)
Definition outward_edge_ids (h : heap) (r : nref) : res (list edge_id) :=
  let! N := get_n h r in Ok (dkeys (n_out N)).
(** Node.inward_edge_ids, Node.py:163-166. *)
Definition inward_edge_ids (h : heap) (r : nref) : res (list edge_id) :=
  let! N := get_n h r in Ok (dkeys (n_in N)).
(** Node.get_outward_edge, Node.py:168-178. *)
Definition get_outward_edge (h : heap) (r : nref) (i : edge_id) : res eref :=
  let! N := get_n h r in dgetR (n_out N) i.
(** Node.get_inward_edge, Node.py:180-190. *)
Definition get_inward_edge (h : heap) (r : nref) (i : edge_id) : res eref :=
  let! N := get_n h r in dgetR (n_in N) i.
(** Node.num_outward_edges, Node.py:464-467. *)
Definition num_outward_edges (h : heap) (r : nref) : res nat :=
  let! N := get_n h r in Ok (length (n_out N)).

(** [node.raw_id = n], _GraphObj.py:71-73. *)
Definition node_set_raw_id (r : nref) (n : name) : M unit := upd_n r (λ N, N <| n_id := n |>).
(** [edge.raw_id = u], _GraphObj.py:71-73. *)
Definition edge_set_raw_id (e : eref) (u : option name) : M unit := upd_e e (λ E, E <| e_raw := RId u |>).

(** GraphWithoutDisplay.render, _GraphWithoutDisplay.py:695-735, with
    get_graphviz_source, lines 770-799.  [save] tells whether a path was given; the first
    result is the text that is then handed to graphviz for saving, the second the one
    that is returned. *)
Definition render_save (env : penv) (g : gref) (save : bool) (direction : string) (height width pad : pv)
    (shuffle : list nref → list nref) : M (option string * string) :=
  do* stylize g shuffle in
  if save then
    let* s := sread (λ h, graphviz_str env h g direction height width pad) in
    let* t := sread (λ h, graphviz_str env h g direction PNone PNone pad) in
    sret (Some s, t)
  else
    let* t := sread (λ h, graphviz_str env h g direction PNone PNone pad) in
    sret (None, t).

(** The templates: [style.copy()], [reset_colours()], [colour = ...], or a new style;
    stylize_with_pensieve.py:24-29, stylize_randomly.py:27-32. *)
Definition templated (main : option nstyle) (c : colour) : res nstyle :=
  match main with
  | None => nstyle_ctor [("colour", PCol c)]
  | Some m => let! cp := ns_copy m in Ok (ns_put_colour c (ns_reset cp))
  end.
(** inherit_style, inherit_style.py:18-66, for any [main_style].  Simplification: mixing
    no colours at all (lines 52-62 with a template and only parents on a cycle with the
    node) is outside the model. *)
Fixpoint inherit_style_main (fuel : nat) (main : option nstyle) (h : heap) (pale div : Q) (r : nref) : res nstyle :=
  match fuel with
  | 0 => Err OutOfFuel
  | Datatypes.S fuel =>
      let! root := is_root_or_parents_are_in_loop h r in
      if (root : bool) then
        match main with None => let! sty := node_style h r in ns_copy sty | Some m => ns_copy m end
      else
        let! ps := node_parents h r in
        match ps with
        | [p] =>
            let! cs := node_children h p in
            let! rank := get_child_rank h r p in
            let! sty := match main with None => inherit_style_main fuel main h pale div p | Some m => Ok m end in
            let! c := match cs with
                      | [] => Ok (ns_colour sty)
                      | _ => let! d := get_diverging_number rank (length cs) false in
                             Ok (CHue (ns_colour sty) (div * d)%Q)
                      end in
            recolour sty (CSat c)
        | _ =>
            let! ps' := rfilter (λ p, let! b := node_in_loop_with h r (ANode p) in Ok (negb b)) ps in
            let! stys := rmap (λ p, inherit_style_main fuel main h pale 0%Q p) ps' in
            match stys with
            | [] => match main with None => Err IndexError | Some _ => Err Unmodelled end
            | sty :: _ =>
                recolour (match main with None => sty | Some m => m end) (CPale (mix (map ns_colour stys)) pale)
            end
        end
  end.
(** Lines 20-30 of stylize_with_pensieve.py, with a template. *)
Definition style_root_main (main : option nstyle) (used : dict colour nat) (r : nref) : M (dict colour nat) :=
  let* N := sread (λ h, get_n h r) in
  match n_style N with
  | Some _ => sret used
  | None =>
      let* b := sread (λ h, is_root_or_parents_are_in_loop h r) in
      if (b : bool) then
        let* (used, c) := sread (λ _, get_least_used_colour used) in
        let* sty := sread (λ _, templated main c) in
        do* assign_nstyle r sty in
        sret used
      else sret used
  end.
(** Lines 33-38 of stylize_with_pensieve.py, with a template and ratios. *)
Definition style_branch_main (main : option nstyle) (pale div : Q) (r : nref) : M unit :=
  let* b := sread (λ h, is_root_or_parents_are_in_loop h r) in
  if (b : bool) then sret tt
  else
    let* l := sread (λ h, node_is_in_loop h r) in
    if (l : bool) then sret tt
    else
      let* N := sread (λ h, get_n h r) in
      match n_style N with
      | Some _ => sret tt
      | None =>
          let* sty := sread (λ h, inherit_style_main (inherit_fuel h) main h pale div r) in
          assign_nstyle r sty
      end.
(** Loop body of stylize_edges_based_on_nodes.py:5-18, for any darkness. *)
Definition style_edge_main (dark : Q) (carry : option estyle) (e : eref) : M (option estyle) :=
  let* E := sread (λ h, get_e h e) in
  match e_style E with
  | Some _ => sret carry
  | None =>
      let* s := sread (λ h, edge_start h e) in
      let* nsty := sread (λ h, node_style h s) in
      let c := CDarken (ns_colour nsty) dark in
      let* sty := sread (λ _, match carry with
                              | None => estyle_ctor [("colour", PCol c)]
                              | Some sty => let! cp := es_copy sty in Ok (es_put_colour c (es_reset cp))
                              end) in
      let* sty := sread (λ _, match e_value E with
                              | PNone => Ok sty
                              | v => let! a := py_mul (es_arrow sty) v in Ok (sty <| es_arrow := a |>)
                              end) in
      let* k := new_es sty in
      do* edge_set_style e (SObj k) in
      sret (Some sty)
  end.
(** stylize_edges_based_on_nodes with a template, stylize_edges_based_on_nodes.py:4-19. *)
Definition stylize_edges_main (tmpl : option estyle) (dark : Q) (g : gref) : M unit :=
  let* es := sread (λ h, graph_edges h g) in
  do* sfold (style_edge_main dark) tmpl es in
  sret tt.
(** stylize_with_pensieve called with all its arguments, stylize_with_pensieve.py:10-41. *)
Definition pensieve_main (main : option nstyle) (tmpl : option estyle) (pale div dark : Q) (g : gref) : M unit :=
  let* D := sread (λ h, get_display h g) in
  let* ns := sread (λ h, nodes h g) in
  do* sfold (style_root_main main) (colours_used0 (d_scheme D)) ns in
  do* siter (style_branch_main main pale div) ns in
  stylize_edges_main tmpl dark g.
(** stylize_randomly called with all its arguments, stylize_randomly.py:11-36 ([shuffle]
    depends on the seed; the pale and divergence ratios are not used). *)
Definition random_main (main : option nstyle) (tmpl : option estyle) (dark : Q) (g : gref)
    (shuffle : list nref → list nref) : M unit :=
  let* D := sread (λ h, get_display h g) in
  let* ns := sread (λ h, nodes h g) in
  do* sfold (λ used r,
        let* (used, c) := sread (λ _, get_least_used_colour used) in
        let* sty := sread (λ _, templated main c) in
        do* assign_nstyle r sty in
        sret used) (colours_used0 (d_scheme D)) (shuffle ns) in
  stylize_edges_main tmpl dark g.
