(** Nodes, edges and graphs: construction, mutation, lookup.
    Models /repo/abstract/_BasicGraph.py, Node.py, Edge.py, _GraphObj.py. *)
From Verif Require Export ModelStyle.
Local Open Scope string_scope.
Local Open Scope list_scope.

(** A [node] argument (_BasicGraph.py:226-231, 278-321): a str/int name, a Node object, or anything else. *)
Inductive narg := AName (n : name) | ANode (r : nref) | AOther.

(** A [style] argument (Node.py:73-80, Edge.py:68-75): None, a dict, a style object, or anything else. *)
Inductive sarg := SNone | SDict (d : sdict) | SObj (s : sref) | SOther.

(** BasicGraph.get_node, _BasicGraph.py:213-231 *)
Definition get_node (h : heap) (g : gref) (a : narg) : res nref :=
  let! G := get_g h g in
  match a with
  | AName n => dgetR (g_nodes G) n
  | ANode r => let! N := get_n h r in dgetR (g_nodes G) (n_id N)
  | AOther => Err TypeError
  end.

(** BasicGraph.get_node_name, _BasicGraph.py:233-251 *)
Definition get_node_name (h : heap) (g : gref) (a : narg) : res name :=
  let! G := get_g h g in
  match a with
  | AName n => let! r := dgetR (g_nodes G) n in let! N := get_n h r in Ok (n_id N)
  | ANode r => let! N := get_n h r in Ok (n_id N)
  | AOther => Err TypeError
  end.

(** GraphObj.graph, _GraphObj.py:59-61, followed by an attribute access:
    AttributeError when the graph is None. *)
Definition node_graph (h : heap) (r : nref) : res gref :=
  let! N := get_n h r in
  match n_graph N with Some g => Ok g | None => Err AttributeError end.

(** [self.graph._style_overwrite_allowed], Node.py:70, Edge.py:65 *)
Definition overwrite_allowed (h : heap) (og : option gref) : res bool :=
  match og with
  | None => Err AttributeError
  | Some g => let! G := get_g h g in
              match g_disp G with Some d => Ok (d_overwrite d) | None => Err AttributeError end
  end.

(** The part of the style setters after the overwrite check:
    Node.py:73-80 (the style to store, None = keep). *)
Definition resolve_nstyle (a : sarg) : M (option sref) :=
  match a with
  | SDict d => let* sty := sread (λ _, nstyle_ctor d) in let* s := new_ns sty in sret (Some s)
  | SObj s => sret (Some s)
  | SNone => sret None
  | SOther => sraise TypeError
  end.
(** Edge.py:68-75 *)
Definition resolve_estyle (a : sarg) : M (option sref) :=
  match a with
  | SDict d => let* sty := sread (λ _, estyle_ctor d) in let* s := new_es sty in sret (Some s)
  | SObj s => sret (Some s)
  | SNone => sret None
  | SOther => sraise TypeError
  end.

(** Node.style setter, Node.py:58-80 *)
Definition node_set_style (r : nref) (a : sarg) : M unit :=
  let* N := sread (λ h, get_n h r) in
  do* (match n_style N with
       | None => sret tt
       | Some _ => let* ok := sread (λ h, overwrite_allowed h (n_graph N)) in
                   if (ok : bool) then sret tt else sraise RuntimeError
       end) in
  let* s := resolve_nstyle a in
  match s with
  | Some s => upd_n r (λ N, N <| n_style := Some s |>)
  | None => sret tt
  end.

(** Edge.style setter, Edge.py:53-75 *)
Definition edge_set_style (e : eref) (a : sarg) : M unit :=
  let* E := sread (λ h, get_e h e) in
  do* (match e_style E with
       | None => sret tt
       | Some _ => let* ok := sread (λ h, overwrite_allowed h (e_graph E)) in
                   if (ok : bool) then sret tt else sraise RuntimeError
       end) in
  let* s := resolve_estyle a in
  match s with
  | Some s => upd_e e (λ E, E <| e_style := Some s |>)
  | None => sret tt
  end.

(** GraphObj.value setter, _GraphObj.py:92-96, on a node and on an edge *)
Definition node_set_value (r : nref) (v : pv) : M unit :=
  let* N := sread (λ h, get_n h r) in
  if n_frozen N then sraise RuntimeError else upd_n r (λ N, N <| n_value := v |>).
(** GraphObj.value setter on an edge, _GraphObj.py:92-96. *)
Definition edge_set_value (e : eref) (v : pv) : M unit :=
  let* E := sread (λ h, get_e h e) in
  if e_frozen E then sraise RuntimeError else upd_e e (λ E, E <| e_value := v |>).

(** label setters, Node.py:229-232 and _GraphObj.py:102-104 *)
Definition node_set_label (r : nref) (v : pv) : M unit := upd_n r (λ N, N <| n_label := v |>).
(** GraphObj.label setter on an edge, _GraphObj.py:102-104. *)
Definition edge_set_label (e : eref) (v : pv) : M unit := upd_e e (λ E, E <| e_label := v |>).

(** freeze / unfreeze, _GraphObj.py:82-86 *)
Definition node_set_frozen (r : nref) (b : bool) : M unit := upd_n r (λ N, N <| n_frozen := b |>).
(** freeze / unfreeze on an edge, _GraphObj.py:82-86. *)
Definition edge_set_frozen (e : eref) (b : bool) : M unit := upd_e e (λ E, E <| e_frozen := b |>).

(** GraphObj.set / __setitem__, _GraphObj.py:50-57 *)
Definition node_set_param (r : nref) (k : string) (v : pv) : M unit :=
  upd_n r (λ N, N <| n_params := dset (n_params N) k v |>).
(** GraphObj.set / __setitem__ on an edge, _GraphObj.py:50-57. *)
Definition edge_set_param (e : eref) (k : string) (v : pv) : M unit :=
  upd_e e (λ E, E <| e_params := dset (e_params E) k v |>).
(** GraphObj.get / __getitem__, _GraphObj.py:47-54 *)
Definition node_get_param (h : heap) (r : nref) (k : string) : res pv :=
  let! N := get_n h r in dgetR (n_params N) k.
(** GraphObj.get / __getitem__ on an edge, _GraphObj.py:47-54. *)
Definition edge_get_param (h : heap) (e : eref) (k : string) : res pv :=
  let! E := get_e h e in dgetR (e_params E) k.

(** Keyword arguments of add_node, _BasicGraph.py:263 ([tooltip] and [params]
    travel through the extra keyword arguments). *)
Record nargs := MkNArgs {
  a_label : pv; a_value : pv; a_style : sarg; a_mode : string;
  a_tooltip : pv; a_params : sdict }.
#[global] Instance eta_nargs : Settable _ := settable! MkNArgs
  <a_label; a_value; a_style; a_mode; a_tooltip; a_params>.
(** The default keyword arguments of add_node, _BasicGraph.py:263. *)
Definition nargs0 : nargs := MkNArgs PNone PNone SNone "warn" PNone [].

(** Node.__init__, Node.py:13-42, with GraphObj.__init__, _GraphObj.py:12-23.
    (The style setter runs on a fresh object without style, so its overwrite
    check does not apply.) *)
Definition node_ctor (g : gref) (n : name) (a : nargs) (index : Z) : M nref :=
  let* s := resolve_nstyle (a_style a) in
  let* r := new_n (MkNode (Some g) n (a_value a) (a_label a) (a_tooltip a) s false
                          (a_params a) [] [] index) in
  do* upd_g g (λ G, G <| g_nodes := dset (g_nodes G) n r |>) in
  sret r.

(** BasicGraph.generate_node_index, _BasicGraph.py:253-261 *)
Definition generate_node_index (g : gref) : M Z :=
  let* G := sread (λ h, get_g h g) in
  do* upd_g g (λ G, G <| g_counter := (g_counter G + 1)%Z |>) in
  sret (g_counter G).

(** [if style is not None: x.style = style], _BasicGraph.py:288-289, 702-703 *)
Definition when_style (a : sarg) (m : M unit) : M unit :=
  match a with SNone => sret tt | _ => m end.
(** [if label is not None: ...] / [if value is not None: ...], _BasicGraph.py:290-293,
    704-707. *)
Definition when_val (v : pv) (m : M unit) : M unit :=
  match v with PNone => sret tt | _ => m end.

(** BasicGraph.add_node, _BasicGraph.py:263-321 (GraphWithoutDisplay.add_node,
    _GraphWithoutDisplay.py:158-172, only forwards).  Returns the node, or
    [None] where the Python function falls off its end (line 309). *)
Definition add_node (g : gref) (x : narg) (a : nargs) : M (option nref) :=
  match x with
  | AName (NStr s) =>
      let n := NStr s in
      let* G := sread (λ h, get_g h g) in
      if dmem (g_nodes G) n then
        (* lines 279-294 *)
        do* (if eqb (a_mode a) "ignore" then sret tt
             else if eqb (a_mode a) "warn" then warn (WNode n)
             else sraise KeyError) in
        let* r := sread (λ h, get_node h g (AName n)) in
        do* when_style (a_style a) (node_set_style r (a_style a)) in
        do* when_val (a_label a) (node_set_label r (a_label a)) in
        do* when_val (a_value a) (node_set_value r (a_value a)) in
        sret (Some r)
      else
        (* lines 296-302; line 301 repeats the assignment made by Node.__init__ *)
        let* i := generate_node_index g in
        let* r := node_ctor g n a i in
        do* upd_g g (λ G, G <| g_nodes := dset (g_nodes G) n r |>) in
        sret (Some r)
  | ANode r =>
      (* lines 303-319 *)
      let* N := sread (λ h, get_n h r) in
      let* G := sread (λ h, get_g h g) in
      match dget (g_nodes G) (n_id N) with
      | Some r' =>
          if eqb (n_graph N) (Some g) && eqb r' r then sret None else sraise ValueError
      | None =>
          match n_graph N with
          | Some _ => sraise ValueError
          | None => do* upd_g g (λ G, G <| g_nodes := dset (g_nodes G) (n_id N) r |>) in
                    sret (Some r)
          end
      end
  | AName (NInt _) | AOther =>
      (* line 321 formats the unbound local variable [node] *)
      sraise UnboundLocalError
  end.

(** Edge.id, Edge.py:110-126 *)
Definition get_edge_id (h : heap) (e : eref) : res edge_id :=
  let! E := get_e h e in
  match e_start E, e_end E with
  | Some s, Some t => let! Ns := get_n h s in let! Nt := get_n h t in
                      Ok (n_id Ns, n_id Nt, e_raw E)
  | _, _ => Err ValueError
  end.
(** Edge.start / Edge.end, Edge.py:160-188 *)
Definition edge_start (h : heap) (e : eref) : res nref :=
  let! E := get_e h e in
  match e_start E with Some s => Ok s | None => Err ValueError end.
(** Edge.end, Edge.py:175-188. *)
Definition edge_end (h : heap) (e : eref) : res nref :=
  let! E := get_e h e in
  match e_end E with Some t => Ok t | None => Err ValueError end.

(** GraphObj.__eq__ on edges, _GraphObj.py:121-130, as used by list containment
    (identity first). *)
Definition edge_eq (h : heap) (e1 e2 : eref) : res bool :=
  if eqb e1 e2 then Ok true else
  let! E1 := get_e h e1 in let! E2 := get_e h e2 in
  if eqb (e_graph E1) (e_graph E2) then
    let! i1 := get_edge_id h e1 in let! i2 := get_edge_id h e2 in Ok (eqb i1 i2)
  else Err ValueError.
(** GraphObj.__ne__ on edges, _GraphObj.py:132-141: compares only the raw ids. *)
Definition edge_ne (h : heap) (e1 e2 : eref) : res bool :=
  let! E1 := get_e h e1 in let! E2 := get_e h e2 in
  if eqb (e_graph E1) (e_graph E2) then Ok (negb (eqb (e_raw E1) (e_raw E2)))
  else Err ValueError.

(** [edge in l], Node.py:434, 443, 452, 455, _BasicGraph.py:355 *)
Fixpoint edge_in (h : heap) (e : eref) (l : list eref) : res bool :=
  match l with
  | [] => Ok false
  | x :: l' => let! b := edge_eq h x e in if (b : bool) then Ok true else edge_in h e l'
  end.

(** The loop [for edge in es: if edge not in result: result.append(edge)],
    Node.py:432-457, _BasicGraph.py:354-356 *)
Fixpoint edge_collect (h : heap) (result es : list eref) : res (list eref) :=
  match es with
  | [] => Ok result
  | e :: es' => let! b := edge_in h e result in
                edge_collect h (if (b : bool) then result else result ++ [e]) es'
  end.

(** Node.outward_edges / inward_edges / edges, Node.py:429-457 *)
Definition outward_edges (h : heap) (r : nref) : res (list eref) :=
  let! N := get_n h r in edge_collect h [] (dvals (n_out N)).
(** Node.inward_edges, Node.py:438-445. *)
Definition inward_edges (h : heap) (r : nref) : res (list eref) :=
  let! N := get_n h r in edge_collect h [] (dvals (n_in N)).
(** Node.edges, Node.py:447-457. *)
Definition node_edges (h : heap) (r : nref) : res (list eref) :=
  let! N := get_n h r in
  let! l := edge_collect h [] (dvals (n_out N)) in
  edge_collect h l (dvals (n_in N)).

(** Node.append_outward_edge / append_inward_edge, Node.py:194-210 *)
Definition append_outward (r : nref) (e : eref) : M unit :=
  let* i := sread (λ h, get_edge_id h e) in upd_n r (λ N, N <| n_out := dset (n_out N) i e |>).
(** Node.append_inward_edge, Node.py:203-210. *)
Definition append_inward (r : nref) (e : eref) : M unit :=
  let* i := sread (λ h, get_edge_id h e) in upd_n r (λ N, N <| n_in := dset (n_in N) i e |>).

(** Node.remove_outward_edge / remove_inward_edge, Node.py:212-218 *)
Definition remove_outward (r : nref) (i : edge_id) : M unit :=
  let* N := sread (λ h, get_n h r) in
  if dmem (n_out N) i then upd_n r (λ N, N <| n_out := ddel (n_out N) i |>) else sraise KeyError.
(** Node.remove_inward_edge, Node.py:216-218. *)
Definition remove_inward (r : nref) (i : edge_id) : M unit :=
  let* N := sread (λ h, get_n h r) in
  if dmem (n_in N) i then upd_n r (λ N, N <| n_in := ddel (n_in N) i |>) else sraise KeyError.

(** Keyword arguments of connect, _BasicGraph.py:669. *)
Record eargs := MkEArgs {
  c_id : option name; c_label : pv; c_value : pv; c_style : sarg; c_mode : string;
  c_tooltip : pv; c_params : sdict }.
#[global] Instance eta_eargs : Settable _ := settable! MkEArgs
  <c_id; c_label; c_value; c_style; c_mode; c_tooltip; c_params>.
(** The default keyword arguments of connect, _BasicGraph.py:669. *)
Definition eargs0 : eargs := MkEArgs None PNone PNone SNone "warn" PNone [].

(** Edge.__init__, Edge.py:8-36, with GraphObj.__init__, _GraphObj.py:12-23 *)
Definition edge_ctor (g : gref) (s t : nref) (a : eargs) : M eref :=
  let* st := resolve_estyle (c_style a) in
  let* e := new_e (MkEdge (Some g) (RId (c_id a)) (c_value a) (c_label a) (c_tooltip a) st false
                          (c_params a) (Some s) (Some t)) in
  do* append_outward s e in
  do* append_inward t e in
  sret e.

(** BasicGraph.connect, _BasicGraph.py:669-721 (GraphWithoutDisplay.connect,
    _GraphWithoutDisplay.py:142-156, only forwards). *)
Definition connect (g : gref) (x y : narg) (a : eargs) : M eref :=
  let* s := sread (λ h, get_node h g x) in
  let* t := sread (λ h, get_node h g y) in
  let* Ns := sread (λ h, get_n h s) in
  let* Nt := sread (λ h, get_n h t) in
  let i : edge_id := (n_id Ns, n_id Nt, RId (c_id a)) in
  match dmem (n_out Ns) i, dmem (n_in Nt) i with
  | false, false => edge_ctor g s t a
  | true, true =>
      do* (if eqb (c_mode a) "ignore" then sret tt
           else if eqb (c_mode a) "warn" then warn (WEdge i)
           else sraise ValueError) in
      let* e := sread (λ _, dgetR (n_out Ns) i) in
      do* when_style (c_style a) (edge_set_style e (c_style a)) in
      do* when_val (c_label a) (edge_set_label e (c_label a)) in
      do* when_val (c_value a) (edge_set_value e (c_value a)) in
      sret e
  | _, _ =>
      (* lines 709-719: [edge_id in start.outward_edges] compares a tuple with
         Edge objects, which raises TypeError as soon as that list is not empty;
         otherwise the else branch raises ValueError. *)
      let* l := sread (λ h, outward_edges h s) in
      match l with [] => sraise ValueError | _ => sraise TypeError end
  end.

(** Node.connect_to / connect_from, Node.py:332-356 *)
Definition connect_to (r : nref) (x : narg) (a : eargs) : M eref :=
  let* g := sread (λ h, node_graph h r) in connect g (ANode r) x a.
(** Node.connect_from, Node.py:345-356. *)
Definition connect_from (r : nref) (x : narg) (a : eargs) : M eref :=
  let* g := sread (λ h, node_graph h r) in connect g x (ANode r) a.

(** BasicGraph.disconnect, _BasicGraph.py:723-734 *)
Definition disconnect (e : eref) : M unit :=
  let* s := sread (λ h, edge_start h e) in
  let* i := sread (λ h, get_edge_id h e) in
  do* remove_outward s i in
  let* t := sread (λ h, edge_end h e) in
  let* i := sread (λ h, get_edge_id h e) in
  do* remove_inward t i in
  upd_e e (λ E, E <| e_raw := RDead |> <| e_graph := None |>).

(** Edge.remove_self, Edge.py:190-198 *)
Definition remove_self (e : eref) : M unit :=
  let* E := sread (λ h, get_e h e) in
  match e_start E, e_end E with
  | Some s, Some t =>
      let* i := sread (λ h, get_edge_id h e) in
      do* remove_outward s i in
      let* i := sread (λ h, get_edge_id h e) in
      do* remove_inward t i in
      upd_e e (λ E, E <| e_start := None |> <| e_end := None |> <| e_graph := None |>)
  | _, _ => sraise ValueError
  end.

(** Node.remove_edges, Node.py:459-462 *)
Definition remove_edges (r : nref) : M unit :=
  let* es := sread (λ h, node_edges h r) in siter remove_self es.

(** BasicGraph.remove_node, _BasicGraph.py:323-333, with Node.remove_edges,
    Node.py:459-462 *)
Definition remove_node (g : gref) (x : narg) : M unit :=
  let* r := sread (λ h, get_node h g x) in
  let* es := sread (λ h, node_edges h r) in
  do* siter remove_self es in
  do* upd_n r (λ N, N <| n_graph := None |>) in
  let* N := sread (λ h, get_n h r) in
  let* G := sread (λ h, get_g h g) in
  if dmem (g_nodes G) (n_id N)
  then upd_g g (λ G, G <| g_nodes := ddel (g_nodes G) (n_id N) |>)
  else sraise KeyError.

(** Default attributes of Graph(...), _GraphWithoutDisplay.py:19-28.  The colours
    of the default scheme 'pensieve2' come from the external package. *)
Definition display0 (scheme : list colour) : display :=
  MkDisplay false None None scheme (PStr "pensieve") (CName "#FAFAFA") "LR"
    (PStr (String "010"%char "Powered by Abstract")) (PStr "bottom") (PStr "deepskyblue3")
    (PStr "https://github.com/idin/abstract") PNone PNone (PStr "helvetica") (PInt 10)
    [] None None [] [] [] [].

(** GraphWithoutDisplay.__init__ without [obj], _GraphWithoutDisplay.py:57-106,
    and BasicGraph.__init__, _BasicGraph.py:25-31 *)
Definition new_graph (strict ordering : bool) (d : display) : M gref :=
  new_g (MkGraph [] strict ordering 0 (Some d)).
