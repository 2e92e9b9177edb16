(** Copying, filtering, and building graphs from other data.
    Models the rest of /repo/abstract/_BasicGraph.py and the data half of
    /repo/abstract/_GraphWithoutDisplay.py. *)
From Verif Require Export ModelQuery ModelTraverse ModelParse.
Local Open Scope string_scope.
Local Open Scope list_scope.

(** Position of an element (the length if absent): numbers the objects that
    deepcopy (_BasicGraph.py:62) makes. *)
Fixpoint pos {A} `{EqDecision A} (x : A) (l : list A) : nat :=
  match l with
  | [] => 0
  | y :: l' => if decide (x = y) then 0 else Datatypes.S (pos x l')
  end.

(** * copy *)

(** A stored bound method, as put there by _GraphWithoutDisplay.py:530. *)
Definition is_meth (v : pv) : bool := match v with PMeth _ => true | _ => false end.
(** One of the copied attributes of a node (_GraphObj.py:26-35) is a bound method. *)
Definition node_has_meth (N : node) : bool :=
  is_meth (n_label N) || is_meth (n_value N) || is_meth (n_tooltip N) || existsb is_meth (dvals (n_params N)).
(** One of the copied attributes of an edge (_GraphObj.py:26-35) is a bound method. *)
Definition edge_has_meth (E : edge) : bool :=
  is_meth (e_label E) || is_meth (e_value E) || is_meth (e_tooltip E) || existsb is_meth (dvals (e_params E)).

(** [x is not None].  Python semantics; e.g. _GraphObj.py:154-155. *)
Definition is_some {A} (o : option A) : bool := match o with Some _ => true | None => false end.

(** Node.__getstate__/__setstate__ (Node.py:87-104, _GraphObj.py:25-45) under
    deepcopy: new style and edge references, no graph. *)
Definition copy_node (smap : sref → sref) (emap : eref → eref) (N : node) : node :=
  N <| n_graph := None |> <| n_style := smap <$> n_style N |>
    <| n_out := (λ kv, (kv.1, emap kv.2)) <$> n_out N |>
    <| n_in := (λ kv, (kv.1, emap kv.2)) <$> n_in N |>.
(** Edge.__getstate__/__setstate__ (Edge.py:93-108): no graph, start or end. *)
Definition copy_edge (smap : sref → sref) (E : edge) : edge :=
  E <| e_graph := None |> <| e_start := None |> <| e_end := None |> <| e_style := smap <$> e_style E |>.

(** Node.update_edges, Node.py:132-143, on a freshly restored node. *)
Definition update_edges (r : nref) : M unit :=
  let* N := sread (λ h, get_n h r) in
  do* siter (λ kv, upd_e kv.2 (λ E, E <| e_start := Some r |> <| e_graph := n_graph N |>)) (n_out N) in
  siter (λ kv, upd_e kv.2 (λ E, E <| e_end := Some r |> <| e_graph := n_graph N |>)) (n_in N).

(** BasicGraph.copy = deepcopy, _BasicGraph.py:37-62, with
    GraphWithoutDisplay.__setstate__/update_nodes,
    _GraphWithoutDisplay.py:111-140.  deepcopy copies every object once (memo
    by identity): the nodes of the graph, the edges in their dicts, the styles.
    Simplification: a stored bound method is outside the model. *)
Definition copy (g : gref) : M gref :=
  let* G := sread (λ h, get_g h g) in
  let rs := nub (dvals (g_nodes G)) in
  let* Ns := sread (λ h, rmap (get_n h) rs) in
  let es := nub (concat (map (λ N, dvals (n_out N) ++ dvals (n_in N)) Ns)) in
  let* Es := sread (λ h, rmap (get_e h) es) in
  let nss := nub (omap n_style Ns) in
  let ess := nub (omap e_style Es) in
  if existsb node_has_meth Ns || existsb edge_has_meth Es then sraise Unmodelled else
  (* restoring a NodeStyle *)
  let* NSs := sread (λ h, rmap (λ s, match h_ns h !! s with
                                     | Some sty => let! _ := ns_deepcopy_ok in Ok sty
                                     | None => Err Unmodelled end) nss) in
  let* ESs := sread (λ h, rmap (λ s, match h_es h !! s with
                                     | Some sty => Ok (es_deepcopy sty)
                                     | None => Err Unmodelled end) ess) in
  let* n0 := sread (λ h, Ok (length (h_nodes h))) in
  let* e0 := sread (λ h, Ok (length (h_edges h))) in
  let* ns0 := sread (λ h, Ok (length (h_ns h))) in
  let* es0 := sread (λ h, Ok (length (h_es h))) in
  let nmap r := n0 + pos r rs in
  let emap e := e0 + pos e es in
  let nsmap s := ns0 + pos s nss in
  let esmap s := es0 + pos s ess in
  do* siter (λ sty, do* new_ns sty in sret tt) NSs in
  do* siter (λ sty, do* new_es sty in sret tt) ESs in
  do* siter (λ E, do* new_e (copy_edge esmap E) in sret tt) Es in
  do* siter (λ N, do* new_n (copy_node nsmap emap N) in sret tt) Ns in
  let nd := (λ kv, (kv.1, nmap kv.2)) <$> g_nodes G in
  let* g' := new_g (MkGraph nd (g_strict G) (g_ordering G) (g_counter G) None) in
  (* _BasicGraph.py:51-53, _GraphWithoutDisplay.py:139-140, 122-126 *)
  do* siter (λ r, do* upd_n r (λ N, N <| n_graph := Some g' |>) in update_edges r) (dvals nd) in
  sret g'.

(** * filter, _BasicGraph.py:64-98 *)

(** Node.name, Node.py:155-158. *)
Definition node_name (h : heap) (r : nref) : res name := let! N := get_n h r in Ok (n_id N).

(** _BasicGraph.py:78-88.  [direction == 'to' or 'to_and_from'] is a non-empty string,
    hence true, for every direction. *)
Definition filter_relatives (h : heap) (g : gref) (direction : string) (xs : list narg)
    : res (list name) :=
  rfold (λ acc x,
    let! r := get_node h g x in
    let! n := node_name h r in
    let acc := add_new acc n in
    let! acc := if eqb direction "to" || truthy (PStr "to_and_from") then
                  let! l := node_ancestors h r in let! ns := rmap (node_name h) l in
                  Ok (fold_left add_new ns acc)
                else Ok acc in
    if eqb direction "from" || truthy (PStr "to_and_from") then
      let! l := node_descendants h r in let! ns := rmap (node_name h) l in
      Ok (fold_left add_new ns acc)
    else Ok acc) [] xs.

(** BasicGraph.filter, _BasicGraph.py:64-98. *)
Definition filter_graph (g : gref) (xs : list narg) (direction filter_type : string) : M gref :=
  let* relatives := sread (λ h, filter_relatives h g direction xs) in
  let* G := sread (λ h, get_g h g) in
  let to_delete := if eqb filter_type "include"
                   then List.filter (λ n, negb (bool_decide (n ∈ relatives))) (dkeys (g_nodes G))
                   else relatives in
  let* g' := copy g in
  do* siter (λ n, remove_node g' (AName n)) to_delete in
  sret g'.

(** * from_lists, _BasicGraph.py:100-119 *)
Definition from_lists_row (g : gref) (row : nat * string * string * pv) : M unit :=
  let '(index, start, end_, label) := row in
  let* s := add_node g (AName (NStr start)) (nargs0 <| a_mode := "ignore" |>) in
  let* t := add_node g (AName (NStr end_)) (nargs0 <| a_mode := "ignore" |>) in
  match s, t with
  | Some s, Some t =>
      do* connect g (ANode s) (ANode t) (eargs0 <| c_id := Some (NInt (Z.of_nat index)) |> <| c_label := label |>) in
      sret tt
  | _, _ => sraise Unmodelled
  end.
(** [zip(range(len(start)), start, end, edge)], _BasicGraph.py:115. *)
Definition zip_rows (start end_ : list string) (edges : list pv) : list (nat * string * string * pv) :=
  zip (zip (zip (seq 0 (length start)) start) end_) edges.
(** BasicGraph.from_lists, _BasicGraph.py:100-119. *)
Definition from_lists (d : display) (start end_ : list string) (edges : list pv) (strict : bool) : M gref :=
  let* g := new_graph strict true d in
  do* siter (from_lists_row g) (zip_rows start end_ edges) in
  sret g.

(** * from_object, _BasicGraph.py:121-154 *)
Section from_object.
  Context {Obj : Type} `{EqDecision Obj}.
  (** [__children__], [__parents__], [__hash__] and [str] of the objects. *)
  Variables (children parents : Obj → list Obj) (hash : Obj → name) (ostr : Obj → string).

  (** BasicGraph.from_object, _BasicGraph.py:121-154.  [fuel] bounds the depth of the
      traversals (see [obj_dfs]). *)
  Definition from_object (fuel : nat) (d : display) (obj : Obj) (strict : bool)
      (max_depth max_height : option Z) : M gref :=
    let add o g := add_node g (AName (hash o)) (nargs0 <| a_label := PStr (ostr o) |>) in
    let* g := new_graph strict true d in
    do* add obj g in
    let* des := sread (λ _, obj_relatives fuel children max_depth obj) in
    let* anc := sread (λ _, obj_relatives fuel parents max_height obj) in
    do* siter (λ child, siter (λ parent,
          if bool_decide (parent ∈ obj :: des) then
            do* add child g in
            do* connect g (AName (hash parent)) (AName (hash child)) eargs0 in sret tt
          else sret tt) (parents child)) des in
    do* siter (λ parent, siter (λ child,
          if bool_decide (child ∈ obj :: anc) then
            do* add parent g in
            do* connect g (AName (hash parent)) (AName (hash child)) eargs0 in sret tt
          else sret tt) (children parent)) anc in
    sret g.
End from_object.

(** * from_indented_text, _BasicGraph.py:156-181 *)
Definition index_name (i : nat) : name := NStr (pretty (Z.of_nat i)).
(** Loop body of from_indented_text, _BasicGraph.py:174-179. *)
Definition indented_row (g : gref) (l : pline) : M unit :=
  let '(index, _, _, parent) := l in
  do* add_node g (AName (index_name index))
        (nargs0 <| a_label := PStr ("line " +:+ pretty (Z.of_nat index)) |>) in
  do* (match parent with
       | Some p => connect g (AName (index_name p)) (AName (index_name index)) eargs0
       | None => connect g (AName (NStr "root")) (AName (index_name index)) eargs0
       end) in
  sret tt.
(** BasicGraph.from_indented_text, _BasicGraph.py:156-181.  The graph is returned only if the parser raises nothing, so running the
    parser first is the same. *)
Definition from_indented_text (d : display) (root : string) (lines : list string) (indent : option string)
    : M gref :=
  let* g := new_graph true true d in
  do* add_node g (AName (NStr "root")) (nargs0 <| a_label := PStr root |>) in
  let* ls := sread (λ _, parse_indentations lines indent) in
  do* siter (indented_row g) ls in
  sret g.

(** * Graph.random, _GraphWithoutDisplay.py:562-600 *)

(** [range(num_nodes)] shifted by [start_index], _GraphWithoutDisplay.py:586 *)
Definition node_numbers (num_nodes : nat) (start_index : Z) : list Z :=
  map (λ i, Z.of_nat i + start_index)%Z (seq 0 num_nodes).
(** _GraphWithoutDisplay.py:585. *)
Definition clamp (p : Q) : Q :=
  (* min(1.0, max(0.0, p)) *)
  let m := if Qle_bool p 0 then 0%Q else p in if Qle_bool 1 m then 1%Q else m.
(** The comparison of _GraphWithoutDisplay.py:594. *)
Definition qltb (a b : Q) : bool := negb (Qle_bool b a).
(** GraphWithoutDisplay.random, _GraphWithoutDisplay.py:562-600.  The k-th call of [random.uniform(0, 1)] returns [draws k]. *)
Definition random_graph (d : display) (num_nodes : nat) (strict cycle : bool) (start_index : Z)
    (p : Q) (ordering : bool) (draws : nat → Q) : M gref :=
  let* g := new_graph strict ordering d in
  let p := clamp p in
  let ns := node_numbers num_nodes start_index in
  do* siter (λ n, do* add_node g (AName (NStr (pretty n))) nargs0 in sret tt) ns in
  do* sfold (λ k n1,
        sfold (λ k n2,
          do* (if qltb (draws k) p then
                 if (cycle || (n1 <? n2)%Z)
                 then do* connect g (AName (NStr (pretty n1))) (AName (NStr (pretty n2))) eargs0 in sret tt
                 else sret tt
               else sret tt) in
          sret (Datatypes.S k)) k ns) 0 ns in
  sret g.

(** * append, __graph__, Graph(obj), add *)

(** Keys of the 'edge_styles' / 'edge_colours' dictionaries, _GraphWithoutDisplay.py:488-500. *)
Inductive ekey := K2 (a b : name) | K3 (i : edge_id).
#[global] Instance ekey_eq_dec : EqDecision ekey.
Proof. solve_decision. Defined.

(** Entries of 'edges', _GraphWithoutDisplay.py:467-482: a pair, a triple, a shorter or a longer sequence. *)
Inductive espec := E2 (p c : name) | E3 (p c : name) (a : eargs) | EFew | EMany.

(** The dictionary returned by a [__graph__()] method (_GraphWithoutDisplay.py:431-502,
    547-560); [None] = key absent.
    'nodes' is a dict or a list of names.  Not modelled: absent 'nodes'/'edges',
    and the 'colour_scheme' and 'stylist' entries (only used by [__init__] when
    the argument is falsy). *)
Record grepr := MkRepr {
  r_strict : option bool; r_ordering : option bool; r_label : option pv; r_tooltip : option pv;
  r_label_url : option pv;
  r_gnode : option (option sdict); r_gnode2 : option (option sdict);
  r_gedge : option (option sdict); r_gedge2 : option (option sdict);
  r_direction : option string; r_overwrite : option bool;
  r_nodes : dict name nargs + list name;
  r_edges : list espec;
  r_node_styles : option (dict name sdict);
  r_edge_styles : option (dict ekey sdict);
  r_node_colours : option (dict name pv);
  r_edge_colours : option (dict ekey pv) }.

(** [self.<attribute> = ...] for a display attribute, _GraphWithoutDisplay.py:438-457, 486-500.  On a graph made by [copy]
    this would create the attribute; outside the model. *)
Definition upd_disp (g : gref) (f : display → display) : M unit :=
  let* G := sread (λ h, get_g h g) in
  match g_disp G with
  | Some d => upd_g g (λ G, G <| g_disp := Some (f d) |>)
  | None => sraise Unmodelled
  end.
(** [if key in dictionary: ...], _GraphWithoutDisplay.py:431-457, 484-500. *)
Definition when_some {A} (o : option A) (m : A → M unit) : M unit :=
  match o with Some a => m a | None => sret tt end.
(** [if key1 in dictionary ... elif key2 in dictionary], _GraphWithoutDisplay.py:446-454.
    *)
Definition or_else {A} (o1 o2 : option A) : option A := match o1 with Some _ => o1 | None => o2 end.

(** _GraphWithoutDisplay.py:466-482: the edges, and the local [edges_dict]. *)
Definition append_edge (g : gref) (ed : dict (name * name) edge_id) (s : espec)
    : M (dict (name * name) edge_id) :=
  match s with
  | E2 p c => let* e := connect g (AName p) (AName c) eargs0 in
              let* i := sread (λ h, get_edge_id h e) in sret (dset ed (p, c) i)
  | E3 p c a => let* e := connect g (AName p) (AName c) a in
                let* i := sread (λ h, get_edge_id h e) in sret (dset ed (p, c) i)
  | EFew | EMany => sraise ValueError
  end.
(** [edges_dict[key]] of _GraphWithoutDisplay.py:490, 499: the keys are (parent, child) pairs. *)
Definition edge_key (ed : dict (name * name) edge_id) (k : ekey) : res edge_id :=
  match k with K2 a b => dgetR ed (a, b) | K3 _ => Err KeyError end.

(** GraphWithoutDisplay.append with a dictionary, _GraphWithoutDisplay.py:431-502 *)
Definition append_repr (g : gref) (d : grepr) : M unit :=
  do* when_some (r_strict d) (λ b, upd_g g (λ G, G <| g_strict := b |>)) in
  do* when_some (r_ordering d) (λ b, upd_g g (λ G, G <| g_ordering := b |>)) in
  do* when_some (r_label d) (λ v,
        let* v := sread (λ _, py_add (PStr NL) v) in upd_disp g (λ x, x <| d_label := v |>)) in
  do* when_some (r_tooltip d) (λ v, upd_disp g (λ x, x <| d_tooltip := v |>)) in
  do* when_some (r_label_url d) (λ v, upd_disp g (λ x, x <| d_label_url := v |>)) in
  do* when_some (or_else (r_gnode d) (r_gnode2 d)) (λ v, upd_disp g (λ x, x <| d_gnode := v |>)) in
  do* when_some (or_else (r_gedge d) (r_gedge2 d)) (λ v, upd_disp g (λ x, x <| d_gedge := v |>)) in
  do* when_some (r_direction d) (λ v, upd_disp g (λ x, x <| d_direction := v |>)) in
  do* (match r_nodes d with
       | inl nd => siter (λ kv, do* add_node g (AName kv.1) kv.2 in sret tt) nd
       | inr ns => siter (λ n, do* add_node g (AName n) nargs0 in sret tt) ns
       end) in
  let* ed := sfold (append_edge g) [] (r_edges d) in
  do* when_some (r_node_styles d) (λ l,
        siter (λ kv, upd_disp g (λ x, x <| d_node_styles := dset (d_node_styles x) kv.1 kv.2 |>)) l) in
  do* when_some (r_edge_styles d) (λ l,
        siter (λ kv, let* i := sread (λ _, edge_key ed kv.1) in
                     upd_disp g (λ x, x <| d_edge_colours := dset (d_edge_colours x) i (OvStyle kv.2) |>)) l) in
  do* when_some (r_node_colours d) (λ l,
        siter (λ kv, upd_disp g (λ x, x <| d_node_colours := dset (d_node_colours x) kv.1 kv.2 |>)) l) in
  when_some (r_edge_colours d) (λ l,
        siter (λ kv, let* i := sread (λ _, edge_key ed kv.1) in
                     upd_disp g (λ x, x <| d_edge_colours := dset (d_edge_colours x) i (OvColour kv.2) |>)) l).

(** [edge.raw_label], _GraphWithoutDisplay.py:541: neither Edge nor GraphObj
    defines such an attribute. *)
Definition edge_raw_label (h : heap) (e : eref) : res pv :=
  let! E := get_e h e in Err AttributeError.

(** A style attribute passed on as argument, _GraphWithoutDisplay.py:532, 543. *)
Definition style_arg (s : option sref) : sarg := match s with Some s => SObj s | None => SNone end.
(** [edge.raw_id] passed on as argument, _GraphWithoutDisplay.py:540; the id of a
    disconnected edge is outside the model. *)
Definition raw_name (r : rawid) : res (option name) :=
  match r with RId u => Ok u | RDead => Err Unmodelled end.

(** The inner loop, _GraphWithoutDisplay.py:535-545 *)
Definition edge_repr (h : heap) (e : eref) : res espec :=
  let! i := get_edge_id h e in
  let! E := get_e h e in
  let! id := raw_name (e_raw E) in
  let! lbl := edge_raw_label h e in
  Ok (E3 i.1.1 i.1.2 (MkEArgs id lbl (e_value E) (style_arg (e_style E)) "warn" PNone [])).

(** GraphWithoutDisplay.__graph__, _GraphWithoutDisplay.py:519-560.  Line 530
    stores the method [display_label_or_value] itself, not its result. *)
Definition graph_repr (h : heap) (g : gref) : res grepr :=
  let! G := get_g h g in
  let! out := rfold (λ '(nd, el) r,
      let! N := get_n h r in
      let nd := dset nd (n_id N) (MkNArgs (PMeth r) (n_value N) (style_arg (n_style N)) "warn" PNone []) in
      let! es := outward_edges h r in
      let! l := rmap (edge_repr h) es in
      Ok (nd, el ++ l)) ([], []) (dvals (g_nodes G)) in
  match g_disp G with
  | None => Err AttributeError
  | Some d =>
      Ok (MkRepr (Some (g_strict G)) (Some (g_ordering G)) (Some (d_label d)) None (Some (d_label_url d))
            (Some (d_gnode d)) None (Some (d_gedge d)) None None None
            (inl out.1) out.2 (Some (d_node_styles d))
            (Some ((λ kv, (K3 kv.1, kv.2)) <$> d_edge_styles d)) (Some (d_node_colours d)) None)
  end.

(** Objects accepted by append and Graph(obj), _GraphWithoutDisplay.py:79-85,
    417-429: a Graph, a dictionary (or an
    object whose [__graph__()] returns one), or something else.  Lists are
    [append_all]. *)
Inductive gobj := OGraph (g : gref) | ODict (d : grepr) | OBad.

(** _GraphWithoutDisplay.py:423-429: an AttributeError raised inside
    [__graph__] is swallowed, and the Graph object is then not a dict. *)
Definition obj_dict (h : heap) (o : gobj) : res grepr :=
  match o with
  | OGraph g => match graph_repr h g with
                | Err AttributeError => Err TypeError
                | x => x
                end
  | ODict d => Ok d
  | OBad => Err TypeError
  end.
(** GraphWithoutDisplay.append, _GraphWithoutDisplay.py:407-502 *)
Definition graph_append (g : gref) (o : gobj) : M unit :=
  let* d := sread (λ h, obj_dict h o) in append_repr g d.
(** append with a list or tuple, _GraphWithoutDisplay.py:417-420 *)
Definition append_all (g : gref) (os : list gobj) : M unit := siter (graph_append g) os.

(** GraphWithoutDisplay.__init__ with [obj], _GraphWithoutDisplay.py:79-109 *)
Definition graph_of (strict ordering : bool) (d : display) (o : gobj) : M gref :=
  let d := match o with
           | ODict r => match r_overwrite r with Some b => d <| d_overwrite := b |> | None => d end
           | _ => d
           end in
  let* g := new_graph strict ordering d in
  do* graph_append g o in
  sret g.
(** from_dict, _GraphWithoutDisplay.py:504-517 *)
Definition from_dict (d : display) (r : grepr) : M gref :=
  let* g := new_graph false true d in
  do* graph_append g (ODict r) in
  sret g.

(** The default [add_values_function], _GraphWithoutDisplay.py:636-640 *)
Definition default_add (x y : pv) : res pv :=
  match x, y with
  | PNone, _ | _, PNone => Ok (py_or x y)
  | _, _ => py_add x y
  end.

(** [x or y] on style entries (None or a style object), _GraphWithoutDisplay.py:653, 676 *)
Definition sarg_or (x y : sarg) : sarg := match x with SNone => y | _ => x end.

(** _GraphWithoutDisplay.py:644-662 for one name; line 651 passes [node2] twice. *)
Definition add_node_entry (f : pv → pv → res pv) (nd1 nd2 : dict name nargs) (n : name) : res nargs :=
  match dget nd1 n, dget nd2 n with
  | Some a1, Some a2 =>
      let! v := f (a_value a2) (a_value a2) in
      Ok (MkNArgs (py_or (a_label a1) (a_label a2)) v (sarg_or (a_style a1) (a_style a2)) "warn" PNone [])
  | Some a1, None => Ok a1
  | None, Some a2 => Ok a2
  | None, None => Err KeyError
  end.

(** _GraphWithoutDisplay.py:664-681 *)
Definition add_edge_entry (f : pv → pv → res pv) (acc : dict (name * name * option name) eargs) (s : espec)
    : res (dict (name * name * option name) eargs) :=
  match s with
  | E3 p c a2 =>
      match dget acc (p, c, c_id a2) with
      | Some a1 =>
          let! v := f (c_value a1) (c_value a2) in
          Ok (dset acc (p, c, c_id a2)
               (MkEArgs (c_id a1) (py_or (c_label a1) (c_label a2)) v (sarg_or (c_style a1) (c_style a2))
                        "warn" PNone []))
      | None => Ok (dset acc (p, c, c_id a2) a2)
      end
  | _ => Err ValueError
  end.

(** [d['nodes']] of a dictionary made by __graph__ (always a dict),
    _GraphWithoutDisplay.py:643-646. *)
Definition repr_nodes (d : grepr) : dict name nargs := match r_nodes d with inl nd => nd | inr _ => [] end.
(** A dictionary entry that __graph__ always sets, _GraphWithoutDisplay.py:629-633. *)
Definition odict {A} (o : option (list A)) : list A := match o with Some l => l | None => [] end.

(** _GraphWithoutDisplay.py:642-690 on the two representations; [order] is the iteration order of
    the set of names. *)
Definition add_repr (f : pv → pv → res pv) (order : list name → list name) (d1 d2 : grepr) : res grepr :=
  let nd1 := repr_nodes d1 in
  let nd2 := repr_nodes d2 in
  let! nds := rmap (λ n, let! a := add_node_entry f nd1 nd2 n in Ok (n, a))
                   (order (nub (dkeys nd1 ++ dkeys nd2))) in
  let! eds := rfold (add_edge_entry f) [] (r_edges d1 ++ r_edges d2) in
  Ok (MkRepr (r_strict d1) (r_ordering d1) None None None None None None None None None
        (inl nds) (map (λ kv, E3 kv.1.1.1 kv.1.1.2 kv.2) eds)
        (Some (dupdate (odict (r_node_styles d1)) (odict (r_node_styles d2))))
        (Some (dupdate (odict (r_edge_styles d1)) (odict (r_edge_styles d2)))) None None).

(** GraphWithoutDisplay.add, _GraphWithoutDisplay.py:614-693 ([__add__], lines
    602-612, calls it with the default function).  Lines 629-633 update the
    dictionaries [self._node_style_overwrites] / [self._edge_style_overwrites]
    themselves, because [__graph__] returns them uncopied. *)
Definition add_graphs (dflt : display) (f : pv → pv → res pv) (order : list name → list name)
    (g1 g2 : gref) : M gref :=
  let* d1 := sread (λ h, graph_repr h g1) in
  let* d2 := sread (λ h, graph_repr h g2) in
  let* G2 := sread (λ h, get_g h g2) in
  do* when_some (g_disp G2) (λ x2, upd_disp g1 (λ x1,
        x1 <| d_node_styles := dupdate (d_node_styles x1) (d_node_styles x2) |>
           <| d_edge_styles := dupdate (d_edge_styles x1) (d_edge_styles x2) |>)) in
  let* d := sread (λ _, add_repr f order d1 d2) in
  graph_of false true dflt (ODict d).
