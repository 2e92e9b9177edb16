(** Automatic styling.  Models /repo/abstract/styling/*.py (functions) and
    GraphWithoutDisplay.stylize, /repo/abstract/_GraphWithoutDisplay.py:226-287. *)
From Verif Require Export ModelQuery.
Local Open Scope string_scope.
Local Open Scope list_scope.

(** [{colour: 0 for colour in colour_scheme.colours}],
    stylize_with_pensieve.py:17, stylize_randomly.py:19.  Simplification: two
    Colour objects are the same key iff they are the same term. *)
Definition colours_used0 (scheme : list colour) : dict colour nat :=
  fold_left (λ d c, dset d c 0) scheme [].

(** [min(d, key=d.get)], get_least_used_colour.py:2: the first key with the smallest count. *)
Fixpoint least_used (best : colour * nat) (d : dict colour nat) : colour * nat :=
  match d with
  | [] => best
  | (c, k) :: d' => least_used (if Nat.ltb k best.2 then (c, k) else best) d'
  end.
(** get_least_used_colour.py:1-4; [min] of an empty dict raises ValueError. *)
Definition get_least_used_colour (used : dict colour nat) : res (dict colour nat * colour) :=
  match used with
  | [] => Err ValueError
  | p :: used' => let '(c, k) := least_used p used' in Ok (dset used c (Datatypes.S k), c)
  end.

(** The even case of generate_diverging_numbers, inherit_style.py:9, for
    [n = 2 * m].  Rounding of floats is not modelled. *)
Definition diverging_half (m : nat) : list Q :=
  map (λ x, Z.of_nat x # Pos.of_nat m) (seq 1 m) ++ map (λ x, (- Z.of_nat x) # Pos.of_nat m) (seq 1 m).
(** generate_diverging_numbers, inherit_style.py:5-11; the recursive call on
    [n - 1] with [n] odd and not 1 takes the even case. *)
Definition generate_diverging_numbers (n : nat) : list Q :=
  if Nat.eqb n 1 then [0%Q]
  else if Nat.even n then diverging_half (Nat.div2 n)
  else 0%Q :: diverging_half (Nat.div2 n).

(** One step of [sorted], inherit_style.py:15 *)
Fixpoint qinsert (x : Q) (l : list Q) : list Q :=
  match l with
  | [] => [x]
  | y :: l' => if Qle_bool x y then x :: l else y :: qinsert x l'
  end.
(** [sorted], inherit_style.py:15. *)
Fixpoint qsorted (l : list Q) : list Q :=
  match l with [] => [] | x :: l' => qinsert x (qsorted l') end.
(** get_diverging_number, inherit_style.py:14-15; sorting in reverse gives the
    reversed list (equal numbers are not told apart).  Simplification: no negative
    index. *)
Definition get_diverging_number (i n : nat) (reverse : bool) : res Q :=
  let l := qsorted (generate_diverging_numbers n) in
  match (if reverse then rev l else l) !! i with Some q => Ok q | None => Err IndexError end.

(** is_root_or_parents_are_in_loop.py:1-7 *)
Definition is_root_or_parents_are_in_loop (h : heap) (r : nref) : res bool :=
  let! ps := node_parents h r in
  let! l := rfilter (λ p, let! b := node_is_in_loop h p in Ok (negb b)) ps in
  Ok (match l with [] => true | _ => false end).

(** [node.style] followed by an attribute access, inherit_style.py:25, stylize_edges_based_on_nodes.py:7,
    _GraphWithoutDisplay.py:251, 258, 283 *)
Definition node_style (h : heap) (r : nref) : res nstyle :=
  let! N := get_n h r in
  match n_style N with
  | None => Err AttributeError
  | Some s => match h_ns h !! s with Some sty => Ok sty | None => Err Unmodelled end
  end.

(** Lines 47-49 and 63-65 of inherit_style.py: [style.copy()], [reset_colours()], [colour = ...] *)
Definition recolour (sty : nstyle) (c : colour) : res nstyle :=
  let! cp := ns_copy sty in Ok (ns_put_colour c (ns_reset cp)).

(** [Colour.mix(colours=...)], inherit_style.py:62: an uninterpreted term for the list. *)
Fixpoint mix (cs : list colour) : colour :=
  match cs with [] => CMixNil | c :: cs' => CMixCons c (mix cs') end.

(** inherit_style, inherit_style.py:18-66, with [main_style=None] (the only way
    GraphWithoutDisplay.stylize reaches it).  [pale] and [div] are the two
    ratios. *)
Fixpoint inherit_style (fuel : nat) (h : heap) (pale div : Q) (r : nref) : res nstyle :=
  match fuel with
  | 0 => Err OutOfFuel
  | Datatypes.S fuel =>
      let! root := is_root_or_parents_are_in_loop h r in
      if (root : bool) then let! sty := node_style h r in ns_copy sty
      else
        let! ps := node_parents h r in
        match ps with
        | [p] =>
            let! cs := node_children h p in
            let! rank := get_child_rank h r p in
            let! sty := inherit_style fuel h pale div p in
            let! c := match cs with
                      | [] => Ok (ns_colour sty)
                      | _ => let! d := get_diverging_number rank (length cs) false in
                             Ok (CHue (ns_colour sty) (div * d)%Q)
                      end in
            recolour sty (CSat c)
        | _ =>
            let! ps' := rfilter (λ p, let! b := node_in_loop_with h r (ANode p) in Ok (negb b)) ps in
            let! stys := rmap (λ p, inherit_style fuel h pale 0%Q p) ps' in
            match stys with
            | [] => Err IndexError
            | sty :: _ => recolour sty (CPale (mix (map ns_colour stys)) pale)
            end
        end
  end.
(** Enough for the recursion of inherit_style.py:34, 53; Python has no such bound (C42
    shows that it is never used up). *)
Definition inherit_fuel (h : heap) : nat := Datatypes.S (length (h_nodes h)).

(** The default ratios, stylize_with_pensieve.py:11: 0.05, 0.05 and 0.1 *)
Definition pale_ratio : Q := 1 # 20.
(** stylize_with_pensieve.py:11. *)
Definition divergence_ratio : Q := 1 # 20.
(** stylize_with_pensieve.py:11, stylize_edges_based_on_nodes.py:4. *)
Definition edge_darkness_ratio : Q := 1 # 10.

(** [node.style = style] for a fresh style object, stylize_with_pensieve.py:30, 36,
    stylize_randomly.py:33, _GraphWithoutDisplay.py:261 *)
Definition assign_nstyle (r : nref) (sty : nstyle) : M unit :=
  let* s := new_ns sty in node_set_style r (SObj s).

(** Lines 20-30 of stylize_with_pensieve.py *)
Definition style_root (used : dict colour nat) (r : nref) : M (dict colour nat) :=
  let* N := sread (λ h, get_n h r) in
  match n_style N with
  | Some _ => sret used
  | None =>
      let* b := sread (λ h, is_root_or_parents_are_in_loop h r) in
      if (b : bool) then
        let* (used, c) := sread (λ _, get_least_used_colour used) in
        let* sty := sread (λ _, nstyle_ctor [("colour", PCol c)]) in
        do* assign_nstyle r sty in
        sret used
      else sret used
  end.
(** Lines 33-38 of stylize_with_pensieve.py *)
Definition style_branch (r : nref) : M unit :=
  let* b := sread (λ h, is_root_or_parents_are_in_loop h r) in
  if (b : bool) then sret tt
  else
    let* l := sread (λ h, node_is_in_loop h r) in
    if (l : bool) then sret tt
    else
      let* N := sread (λ h, get_n h r) in
      match n_style N with
      | Some _ => sret tt
      | None =>
          let* sty := sread (λ h, inherit_style (inherit_fuel h) h pale_ratio divergence_ratio r) in
          assign_nstyle r sty
      end.

(** [_arrow_size *= edge.value], stylize_edges_based_on_nodes.py:17.  Only a number as
    arrow size is modelled. *)
Definition py_mul (x v : pv) : res pv :=
  match x, v with
  | PFlt a, PFlt b => Ok (PFlt (a * b)%Q)
  | PFlt a, PInt z => Ok (PFlt (a * inject_Z z)%Q)
  | PInt y, PInt z => Ok (PInt (y * z)%Z)
  | PInt y, PFlt b => Ok (PFlt (inject_Z y * b)%Q)
  | PFlt _, PCol _ => Err Unmodelled
  | PFlt _, _ => Err TypeError
  | _, _ => Err Unmodelled
  end.
(** Loop body of stylize_edges_based_on_nodes.py:5-18; the local variable
    [edge_style] is [carry] (None at first, as called by the two stylists). *)
Definition style_edge (carry : option estyle) (e : eref) : M (option estyle) :=
  let* E := sread (λ h, get_e h e) in
  match e_style E with
  | Some _ => sret carry
  | None =>
      let* s := sread (λ h, edge_start h e) in
      let* nsty := sread (λ h, node_style h s) in
      let c := CDarken (ns_colour nsty) edge_darkness_ratio in
      let* sty := sread (λ _, match carry with
                              | None => estyle_ctor [("colour", PCol c)]
                              | Some sty => let! cp := es_copy sty in Ok (es_put_colour c (es_reset cp))
                              end) in
      let* sty := sread (λ _, match e_value E with
                              | PNone => Ok sty
                              | v => let! a := py_mul (es_arrow sty) v in Ok (sty <| es_arrow := a |>)
                              end) in
      let* k := new_es sty in
      do* edge_set_style e (SObj k) in
      sret (Some sty)
  end.
(** stylize_edges_based_on_nodes, stylize_edges_based_on_nodes.py:4-19. *)
Definition stylize_edges_based_on_nodes (g : gref) : M unit :=
  let* es := sread (λ h, graph_edges h g) in
  do* sfold style_edge None es in
  sret tt.

(** stylize_with_pensieve, stylize_with_pensieve.py:10-41 *)
Definition stylize_with_pensieve (g : gref) (scheme : list colour) : M unit :=
  let* ns := sread (λ h, nodes h g) in
  do* sfold style_root (colours_used0 scheme) ns in
  do* siter style_branch ns in
  stylize_edges_based_on_nodes g.

(** stylize_randomly, stylize_randomly.py:11-36; [shuffle] is what
    [random.Random(42).shuffle] does to the list. *)
Definition stylize_randomly (g : gref) (scheme : list colour) (shuffle : list nref → list nref) : M unit :=
  let* ns := sread (λ h, nodes h g) in
  do* sfold (λ used r,
        let* (used, c) := sread (λ _, get_least_used_colour used) in
        let* sty := sread (λ _, nstyle_ctor [("colour", PCol c)]) in
        do* assign_nstyle r sty in
        sret used) (colours_used0 scheme) (shuffle ns) in
  stylize_edges_based_on_nodes g.

(** [s.lower()] on one character, _GraphWithoutDisplay.py:231, 275 *)
Definition lower_char (c : ascii) : ascii :=
  let n := nat_of_ascii c in if Nat.leb 65 n && Nat.leb n 90 then ascii_of_nat (n + 32) else c.
(** [s.lower()], _GraphWithoutDisplay.py:231, 275, ASCII letters only. *)
Fixpoint lower (s : string) : string :=
  match s with "" => "" | String c s' => String (lower_char c) (lower s') end.

(** [max] of a non-empty list, _GraphWithoutDisplay.py:232, 276. *)
Fixpoint list_max (l : list nat) : nat := match l with [] => 0 | x :: l' => Nat.max x (list_max l') end.

(** Lines 229-236 = 273-280 of _GraphWithoutDisplay.py: the dictionary to use. *)
Definition smart_node_style (h : heap) (g : gref) (d : sdict) : res sdict :=
  match dget d "shape" with
  | None => Ok d
  | Some (PStr s) =>
      if String.prefix "auto" (lower s) then
        let! ns := nodes h g in
        let! lens := rmap (λ r, let! N := get_n h r in Ok (String.length (name_str (n_id N)))) ns in
        match lens with
        | [] => Err ValueError
        | _ => Ok (if Nat.ltb (list_max lens) 3 then dset d "shape" (PStr "circle") else d)
        end
      else Ok d
  | Some _ => Err AttributeError
  end.

(** Access to an attribute of the display part: AttributeError on a graph made by copy
    (_BasicGraph.py:34-53), e.g. _GraphWithoutDisplay.py:228. *)
Definition get_display (h : heap) (g : gref) : res display :=
  let! G := get_g h g in
  match g_disp G with Some d => Ok d | None => Err AttributeError end.

(** Mutating a NodeStyle in place, NodeStyle.py:46-50. *)
Definition upd_ns (s : sref) (f : nstyle → res nstyle) : M unit := λ h,
  match h_ns h !! s with
  | Some sty => match f sty with
                | Ok sty' => (h <| h_ns := <[s := sty']> (h_ns h) |>, Ok tt)
                | Err x => (h, Err x)
                end
  | None => (h, Err Unmodelled)
  end.
(** Mutating an EdgeStyle in place, EdgeStyle.py:41-45. *)
Definition upd_es (s : sref) (f : estyle → res estyle) : M unit := λ h,
  match h_es h !! s with
  | Some sty => match f sty with
                | Ok sty' => (h <| h_es := <[s := sty']> (h_es h) |>, Ok tt)
                | Err x => (h, Err x)
                end
  | None => (h, Err Unmodelled)
  end.
(** [style.complement(d)] on a NodeStyle object, NodeStyle.py:42-52: entry by entry, so what
    comes before an entry that raises stays assigned. *)
Definition complement_ns (s : sref) (d : sdict) : M unit :=
  do* sread (λ h, match h_ns h !! s with Some _ => Ok tt | None => Err Unmodelled end) in
  siter (λ kv, upd_ns s (λ sty, ns_complement1 sty kv)) d.
(** [style.complement(d)] on an EdgeStyle object, EdgeStyle.py:37-47, likewise. *)
Definition complement_es (s : sref) (d : sdict) : M unit :=
  do* sread (λ h, match h_es h !! s with Some _ => Ok tt | None => Err Unmodelled end) in
  siter (λ kv, upd_es s (λ sty, es_complement1 sty kv)) d.
(** [node.style.complement(d)], _GraphWithoutDisplay.py:251, 283 *)
Definition node_complement (r : nref) (d : sdict) : M unit :=
  let* N := sread (λ h, get_n h r) in
  match n_style N with None => sraise AttributeError | Some s => complement_ns s d end.
(** [edge.style.complement(d)], _GraphWithoutDisplay.py:287. *)
Definition edge_complement (e : eref) (d : sdict) : M unit :=
  let* E := sread (λ h, get_e h e) in
  match e_style E with None => sraise AttributeError | Some s => complement_es s d end.

(** _GraphWithoutDisplay.py:256-261 *)
Definition overwrite_node_colour (g : gref) (kv : name * pv) : M unit :=
  let* G := sread (λ h, get_g h g) in
  let* r := sread (λ _, dgetR (g_nodes G) kv.1) in
  let* sty := sread (λ h, node_style h r) in
  let* cp := sread (λ _, ns_copy sty) in
  let* cp := sread (λ _, ns_set_colour kv.2 (ns_reset cp)) in
  assign_nstyle r cp.
(** _GraphWithoutDisplay.py:263-270.  A style dictionary stored by line 491 is assigned as a colour;
    what follows if overwriting is allowed is outside the model. *)
Definition overwrite_edge_colour (g : gref) (kv : edge_id * ovr) : M unit :=
  let* d := sread (λ h, edges_dict h g) in
  let* e := sread (λ _, dgetR d kv.1) in
  let* E := sread (λ h, get_e h e) in
  match e_style E with
  | None => sraise AttributeError
  | Some s =>
      let* sty := sread (λ h, match h_es h !! s with Some x => Ok x | None => Err Unmodelled end) in
      let* cp := sread (λ _, es_copy sty) in
      match kv.2 with
      | OvColour v =>
          let* cp := sread (λ _, es_set_colour v (es_reset cp)) in
          let* k := new_es cp in edge_set_style e (SObj k)
      | OvStyle _ => do* edge_set_style e SNone in sraise Unmodelled
      end
  end.

(** [if overwrite is not None: ...], _GraphWithoutDisplay.py:228, 241, 272, 285. *)
Definition when_dict (o : option sdict) (m : sdict → M unit) : M unit :=
  match o with Some d => m d | None => sret tt end.

(** GraphWithoutDisplay.stylize, _GraphWithoutDisplay.py:226-287 *)
Definition stylize (g : gref) (shuffle : list nref → list nref) : M unit :=
  let* D := sread (λ h, get_display h g) in
  do* when_dict (d_gnode D) (λ d,
        let* d := sread (λ h, smart_node_style h g d) in
        let* ns := sread (λ h, nodes h g) in
        siter (λ r, node_set_style r (SDict d)) ns) in
  do* when_dict (d_gedge D) (λ d,
        let* es := sread (λ h, graph_edges h g) in
        siter (λ e, edge_set_style e (SDict d)) es) in
  do* (if eqb (d_stylist D) (PStr "pensieve") then stylize_with_pensieve g (d_scheme D)
       else if eqb (d_stylist D) (PStr "random") then stylize_randomly g (d_scheme D) shuffle
       else sret tt) in
  do* siter (λ kv,
        let* G := sread (λ h, get_g h g) in
        let* r := sread (λ _, dgetR (g_nodes G) kv.1) in
        node_complement r kv.2) (d_node_styles D) in
  do* siter (λ kv,
        let* d := sread (λ h, edges_dict h g) in
        let* e := sread (λ _, dgetR d kv.1) in
        edge_set_style e (SDict kv.2)) (d_edge_styles D) in
  do* siter (overwrite_node_colour g) (d_node_colours D) in
  do* siter (overwrite_edge_colour g) (d_edge_colours D) in
  do* when_dict (d_gnode D) (λ d,
        let* d := sread (λ h, smart_node_style h g d) in
        let* ns := sread (λ h, nodes h g) in
        siter (λ r, node_complement r d) ns) in
  when_dict (d_gedge D) (λ d,
        let* es := sread (λ h, graph_edges h g) in
        siter (λ e, edge_complement e d) es).
