(** Read-only queries.  Models /repo/abstract/_BasicGraph.py:183-667 and the
    corresponding properties of /repo/abstract/Node.py and Edge.py. *)
From Verif Require Export ModelCore.
Local Open Scope string_scope.
Local Open Scope list_scope.

(** BasicGraph.nodes, _BasicGraph.py:204-211 *)
Definition nodes (h : heap) (g : gref) : res (list nref) :=
  let! G := get_g h g in Ok (dvals (g_nodes G)).

(** BasicGraph.__contains__, _BasicGraph.py:184-193.  For a Node argument the
    dict lookup hashes it (Node.__hash__ is the hash of its name, Node.py:45) and,
    on a stored name with that hash, calls Node.__eq__ with a non-Node, which
    raises TypeError (Node.py:265).  Simplification: different names have
    different hashes; [AOther] stands for a hashable object that is neither. *)
Definition contains (h : heap) (g : gref) (a : narg) : res bool :=
  let! G := get_g h g in
  match a with
  | AName n => Ok (dmem (g_nodes G) n)
  | ANode r => let! N := get_n h r in
               if dmem (g_nodes G) (n_id N) then Err TypeError else Ok false
  | AOther => Ok false
  end.

(** Node.__eq__ between nodes, Node.py:263-267, as used by list containment
    (identity first). *)
Definition node_eqb (h : heap) (r1 r2 : nref) : bool :=
  eqb r1 r2 ||
  match h_nodes h !! r1, h_nodes h !! r2 with
  | Some N1, Some N2 => eqb (n_index N1, n_id N1) (n_index N2, n_id N2)
  | _, _ => false
  end.
(** [r in l], e.g. _BasicGraph.py:451, 518, 545, Node.py:291, 401 *)
Definition node_in (h : heap) (r : nref) (l : list nref) : bool := existsb (node_eqb h r) l.

(** [l.remove(r)] of a present element, _BasicGraph.py:454 *)
Fixpoint node_remove (h : heap) (r : nref) (l : list nref) : list nref :=
  match l with
  | [] => []
  | x :: l' => if node_eqb h r x then l' else x :: node_remove h r l'
  end.

(** BasicGraph.get_outward_edges / get_inward_edges / get_edges,
    _BasicGraph.py:359-395 *)
Definition get_outward_edges (h : heap) (g : gref) (a : narg) : res (list eref) :=
  let! r := get_node h g a in outward_edges h r.
(** BasicGraph.get_inward_edges, _BasicGraph.py:372-383. *)
Definition get_inward_edges (h : heap) (g : gref) (a : narg) : res (list eref) :=
  let! r := get_node h g a in inward_edges h r.
(** BasicGraph.get_edges, _BasicGraph.py:385-395. *)
Definition get_edges (h : heap) (g : gref) (a : narg) : res (list eref) :=
  let! o := get_outward_edges h g a in let! i := get_inward_edges h g a in Ok (o ++ i).

(** BasicGraph.get_parents / get_children and their counts,
    _BasicGraph.py:397-431, 457-491 *)
Definition get_parents (h : heap) (g : gref) (a : narg) : res (list nref) :=
  let! es := get_inward_edges h g a in rmap (edge_start h) es.
(** BasicGraph.num_parents, _BasicGraph.py:409-419. *)
Definition num_parents (h : heap) (g : gref) (a : narg) : res nat :=
  let! l := get_parents h g a in Ok (length l).
(** BasicGraph.has_parents, _BasicGraph.py:421-431. *)
Definition has_parents (h : heap) (g : gref) (a : narg) : res bool :=
  let! n := num_parents h g a in Ok (Nat.ltb 0 n).
(** BasicGraph.get_children, _BasicGraph.py:457-467. *)
Definition get_children (h : heap) (g : gref) (a : narg) : res (list nref) :=
  let! es := get_outward_edges h g a in rmap (edge_end h) es.
(** BasicGraph.num_children, _BasicGraph.py:469-479. *)
Definition num_children (h : heap) (g : gref) (a : narg) : res nat :=
  let! l := get_children h g a in Ok (length l).
(** BasicGraph.has_children, _BasicGraph.py:481-491. *)
Definition has_children (h : heap) (g : gref) (a : narg) : res bool :=
  let! n := num_children h g a in Ok (Nat.ltb 0 n).

(** Node.parents / children / has_parents / has_children, Node.py:358-361,
    383-385, 405-412.  [node_has_parents] is the truth value of the list that
    Node.has_parents returns. *)
Definition node_parents (h : heap) (r : nref) : res (list nref) :=
  let! g := node_graph h r in get_parents h g (ANode r).
(** Node.children, Node.py:405-408. *)
Definition node_children (h : heap) (r : nref) : res (list nref) :=
  let! g := node_graph h r in get_children h g (ANode r).
(** Node.has_parents, Node.py:383-385 (truth value of the returned list). *)
Definition node_has_parents (h : heap) (r : nref) : res bool :=
  let! l := node_parents h r in Ok (match l with [] => false | _ => true end).
(** Node.has_children, Node.py:410-412. *)
Definition node_has_children (h : heap) (r : nref) : res bool :=
  let! g := node_graph h r in has_children h g (ANode r).

(** BasicGraph.edges, _BasicGraph.py:345-357 *)
Definition graph_edges (h : heap) (g : gref) : res (list eref) :=
  let! ns := nodes h g in
  rfold (λ acc r, let! es := node_edges h r in edge_collect h acc es) [] ns.

(** BasicGraph.edges_dict, _BasicGraph.py:336-343 *)
Definition edges_dict (h : heap) (g : gref) : res (dict edge_id eref) :=
  let! ns := nodes h g in
  rfold (λ acc r, let! es := outward_edges h r in
                  rfold (λ acc e, let! i := get_edge_id h e in Ok (dset acc i e)) acc es) [] ns.

(** BasicGraph.absolute_roots / leaves, _BasicGraph.py:434-440, 494-500 *)
Definition absolute_roots (h : heap) (g : gref) : res (list nref) :=
  let! ns := nodes h g in
  rfilter (λ r, let! b := node_has_parents h r in Ok (negb b)) ns.
(** BasicGraph.leaves, _BasicGraph.py:493-500. *)
Definition leaves (h : heap) (g : gref) : res (list nref) :=
  let! ns := nodes h g in
  rfilter (λ r, let! b := node_has_children h r in Ok (negb b)) ns.

(** Result of the recursive traversals, _BasicGraph.py:502-529, 561-587: the list, the distance dict, and the
    shared list [nodes_travelled] after the call. *)
Definition dfs_out : Type := list nref * dict nat (list nref) * list nref.

(** [d[1]] of a distance dict, _BasicGraph.py:520, 580 (the key 1 is always present
    there). *)
Definition dget_list (d : dict nat (list nref)) (k : nat) : list nref :=
  match dget d k with Some l => l | None => [] end.

(** Lines 524-528 and 582-586 of _BasicGraph.py *)
Fixpoint merge_relatives (h : heap) (sub : list nref) (subd : dict nat (list nref))
    (acc : list nref) (accd : dict nat (list nref)) : list nref * dict nat (list nref) :=
  match sub with
  | [] => (acc, accd)
  | x :: sub' =>
      if node_in h x acc then merge_relatives h sub' subd acc accd
      else merge_relatives h sub' subd (acc ++ [x])
             (fold_left (λ d kv, dset d (Datatypes.S kv.1) kv.2) subd accd)
  end.

(** The loop of _get_ancestors, _BasicGraph.py:517-528 *)
Fixpoint anc_loop (rec : nref → list nref → res dfs_out) (h : heap) (ps : list nref)
    (anc : list nref) (ad : dict nat (list nref)) (trav : list nref) : res dfs_out :=
  match ps with
  | [] => Ok (anc, ad, trav)
  | p :: ps' =>
      let '(anc, ad) := if node_in h p anc then (anc, ad)
                        else (anc ++ [p], dset ad 1 (dget_list ad 1 ++ [p])) in
      if node_in h p trav then anc_loop rec h ps' anc ad trav
      else
        let! (pa, pd, trav) := rec p trav in
        let '(anc, ad) := merge_relatives h pa pd anc ad in
        anc_loop rec h ps' anc ad trav
  end.

(** BasicGraph._get_ancestors, _BasicGraph.py:502-529.  The Python list
    [nodes_travelled] is shared by the recursive calls: here it is threaded.
    Simplification: Python's recursion limit is not modelled. *)
Fixpoint get_anc (fuel : nat) (h : heap) (g : gref) (a : narg) (trav : list nref) : res dfs_out :=
  match fuel with
  | 0 => Err OutOfFuel
  | Datatypes.S fuel =>
      let! r := get_node h g a in
      let trav := trav ++ [r] in
      let! ps := get_parents h g (ANode r) in
      match ps with
      | [] => Ok ([], [], trav)
      | _ => anc_loop (λ p t, get_anc fuel h g (ANode p) t) h ps [] [(1, [])] trav
      end
  end.

(** The loop of _get_descendants, _BasicGraph.py:576-586 *)
Fixpoint desc_loop (rec : nref → list nref → res dfs_out) (h : heap) (cs : list nref)
    (des : list nref) (dd : dict nat (list nref)) (trav : list nref) : res dfs_out :=
  match cs with
  | [] => Ok (des, dd, trav)
  | c :: cs' =>
      if node_in h c trav then desc_loop rec h cs' des dd trav
      else
        let '(des, dd) := if node_in h c des then (des, dd)
                          else (des ++ [c], dset dd 1 (dget_list dd 1 ++ [c])) in
        let! (ca, cd, trav) := rec c trav in
        let '(des, dd) := merge_relatives h ca cd des dd in
        desc_loop rec h cs' des dd trav
  end.

(** BasicGraph._get_descendants, _BasicGraph.py:561-587 *)
Fixpoint get_desc (fuel : nat) (h : heap) (g : gref) (a : narg) (trav : list nref) : res dfs_out :=
  match fuel with
  | 0 => Err OutOfFuel
  | Datatypes.S fuel =>
      let! r := get_node h g a in
      let trav := trav ++ [r] in
      let! cs := get_children h g (ANode r) in
      match cs with
      | [] => Ok ([], [], trav)
      | _ => desc_loop (λ c t, get_desc fuel h g (ANode c) t) h cs [] [(1, [])] trav
      end
  end.

(** Enough fuel for the recursion of _BasicGraph.py:523, 581 in any graph with
    consistent edges; Python has no such bound (C05 and C06 show that it is never
    used up). *)
Definition graph_fuel (h : heap) (g : gref) : nat :=
  match h_graphs h !! g with Some G => Datatypes.S (length (g_nodes G)) | None => 1 end.

(** BasicGraph.get_ancestors / get_descendants, _BasicGraph.py:531-541, 589-599,
    with [distance=False] and [distance=True] *)
Definition get_ancestors (h : heap) (g : gref) (a : narg) : res (list nref) :=
  let! out := get_anc (graph_fuel h g) h g a [] in Ok out.1.1.
(** BasicGraph.get_ancestors with distance=True, _BasicGraph.py:531-541. *)
Definition get_ancestors_dist (h : heap) (g : gref) (a : narg) : res (dict nat (list nref)) :=
  let! out := get_anc (graph_fuel h g) h g a [] in Ok out.1.2.
(** BasicGraph.get_descendants with distance=False, _BasicGraph.py:589-599. *)
Definition get_descendants (h : heap) (g : gref) (a : narg) : res (list nref) :=
  let! out := get_desc (graph_fuel h g) h g a [] in Ok out.1.1.
(** BasicGraph.get_descendants with distance=True, _BasicGraph.py:589-599. *)
Definition get_descendants_dist (h : heap) (g : gref) (a : narg) : res (dict nat (list nref)) :=
  let! out := get_desc (graph_fuel h g) h g a [] in Ok out.1.2.

(** Node.ancestors / descendants / num_descendants, Node.py:414-427 *)
Definition node_ancestors (h : heap) (r : nref) : res (list nref) :=
  let! g := node_graph h r in get_ancestors h g (ANode r).
(** Node.descendants, Node.py:419-422. *)
Definition node_descendants (h : heap) (r : nref) : res (list nref) :=
  let! g := node_graph h r in get_descendants h g (ANode r).
(** Node.num_descendants, Node.py:424-427. *)
Definition num_descendants (h : heap) (r : nref) : res nat :=
  let! l := node_descendants h r in Ok (length l).

(** BasicGraph.is_node_in_loop / are_nodes_in_same_loop / loop_nodes,
    _BasicGraph.py:543-559; Node.is_in_loop / is_in_loop_with, Node.py:469-475;
    Edge.is_in_loop, Edge.py:200-202 *)
Definition is_node_in_loop (h : heap) (g : gref) (a : narg) : res bool :=
  let! r := get_node h g a in
  let! l := get_ancestors h g (ANode r) in Ok (node_in h r l).
(** BasicGraph.are_nodes_in_same_loop, _BasicGraph.py:547-552. *)
Definition are_nodes_in_same_loop (h : heap) (g : gref) (a b : narg) : res bool :=
  let! r1 := get_node h g a in
  let! r2 := get_node h g b in
  let! l2 := get_ancestors h g (ANode r2) in
  let! l1 := get_ancestors h g (ANode r1) in
  Ok (node_in h r1 l2 && node_in h r2 l1).
(** Node.is_in_loop, Node.py:469-471. *)
Definition node_is_in_loop (h : heap) (r : nref) : res bool :=
  let! g := node_graph h r in is_node_in_loop h g (ANode r).
(** Node.is_in_loop_with, Node.py:473-475. *)
Definition node_in_loop_with (h : heap) (r : nref) (a : narg) : res bool :=
  let! g := node_graph h r in are_nodes_in_same_loop h g (ANode r) a.
(** Edge.is_in_loop, Edge.py:200-202. *)
Definition edge_is_in_loop (h : heap) (e : eref) : res bool :=
  let! s := edge_start h e in let! t := edge_end h e in node_in_loop_with h s (ANode t).
(** BasicGraph.loop_nodes, _BasicGraph.py:554-559. *)
Definition loop_nodes (h : heap) (g : gref) : res (list nref) :=
  let! ns := nodes h g in rfilter (node_is_in_loop h) ns.

(** Body of BasicGraph.roots, _BasicGraph.py:449-455 *)
Definition roots_step (h : heap) (g : gref) (possible : list nref) (r : nref) : res (list nref) :=
  if node_in h r possible then
    let! ds := get_descendants h g (ANode r) in
    Ok (fold_left (λ p d, if node_in h d p then node_remove h d p else p) ds possible)
  else Ok possible.
(** BasicGraph.roots, _BasicGraph.py:442-455. *)
Definition roots (h : heap) (g : gref) : res (list nref) :=
  let! ns := nodes h g in rfold (roots_step h g) ns ns.

(** The loop [if x not in result and x != node: result.append(x)] of
    get_siblings / get_spouses, _BasicGraph.py:609-613, 637-641 *)
Definition add_relative (h : heap) (self : nref) (acc : list nref) (x : nref) : list nref :=
  if node_in h x acc then acc else if node_eqb h x self then acc else acc ++ [x].

(** BasicGraph.get_siblings, _BasicGraph.py:601-613. *)
Definition get_siblings (h : heap) (g : gref) (a : narg) : res (list nref) :=
  let! r := get_node h g a in
  let! ps := get_parents h g (ANode r) in
  rfold (λ acc p, let! cs := get_children h g (ANode p) in
                  Ok (fold_left (add_relative h r) cs acc)) [] ps.
(** BasicGraph.num_siblings, _BasicGraph.py:615-620. *)
Definition num_siblings (h : heap) (g : gref) (a : narg) : res nat :=
  let! l := get_siblings h g a in Ok (length l).
(** BasicGraph.has_siblings, _BasicGraph.py:622-627. *)
Definition has_siblings (h : heap) (g : gref) (a : narg) : res bool :=
  let! n := num_siblings h g a in Ok (Nat.ltb 0 n).

(** BasicGraph.get_spouses, _BasicGraph.py:629-655 *)
Definition get_spouses (h : heap) (g : gref) (a : narg) : res (list nref) :=
  let! r := get_node h g a in
  let! cs := get_children h g (ANode r) in
  rfold (λ acc c, let! ps := get_parents h g (ANode c) in
                  Ok (fold_left (add_relative h r) ps acc)) [] cs.
(** BasicGraph.num_spouses, _BasicGraph.py:643-648. *)
Definition num_spouses (h : heap) (g : gref) (a : narg) : res nat :=
  let! l := get_spouses h g a in Ok (length l).
(** BasicGraph.has_spouses, _BasicGraph.py:650-655. *)
Definition has_spouses (h : heap) (g : gref) (a : narg) : res bool :=
  let! n := num_spouses h g a in Ok (Nat.ltb 0 n).

(** Node.siblings / co_parents, Node.py:363-381: a dict keyed by id. *)
Definition add_relative_dict (h : heap) (self : nref) (acc : dict name nref) (x : nref)
    : res (dict name nref) :=
  let! X := get_n h x in
  if dmem acc (n_id X) then Ok acc
  else if node_eqb h x self then Ok acc else Ok (dset acc (n_id X) x).
(** Node.siblings, Node.py:363-371. *)
Definition node_siblings (h : heap) (r : nref) : res (list nref) :=
  let! ps := node_parents h r in
  let! d := rfold (λ acc p, let! cs := node_children h p in
                            rfold (add_relative_dict h r) acc cs) [] ps in
  Ok (dvals d).
(** Node.co_parents, Node.py:373-381. *)
Definition node_co_parents (h : heap) (r : nref) : res (list nref) :=
  let! cs := node_children h r in
  let! d := rfold (λ acc c, let! ps := node_parents h c in
                            rfold (add_relative_dict h r) acc ps) [] cs in
  Ok (dvals d).

(** Comparison of names and of (index, name) pairs, Node.py:247-261.  Comparing
    a str with an int raises TypeError. *)
Definition name_compare (a b : name) : res comparison :=
  match a, b with
  | NStr x, NStr y => Ok (String.compare x y)
  | NInt x, NInt y => Ok (Z.compare x y)
  | _, _ => Err TypeError
  end.
(** Comparison of the pairs (index, name), Node.py:247-261. *)
Definition node_compare (h : heap) (r1 r2 : nref) : res comparison :=
  let! N1 := get_n h r1 in let! N2 := get_n h r2 in
  match Z.compare (n_index N1) (n_index N2) with
  | Eq => name_compare (n_id N1) (n_id N2)
  | c => Ok c
  end.
(** Node.__lt__, Node.py:247-249. *)
Definition node_lt (h : heap) (r1 r2 : nref) : res bool :=
  let! c := node_compare h r1 r2 in Ok (match c with Lt => true | _ => false end).
(** Node.__gt__, Node.py:251-253. *)
Definition node_gt (h : heap) (r1 r2 : nref) : res bool :=
  let! c := node_compare h r1 r2 in Ok (match c with Gt => true | _ => false end).
(** Node.__le__, Node.py:255-257. *)
Definition node_le (h : heap) (r1 r2 : nref) : res bool :=
  let! c := node_compare h r1 r2 in Ok (match c with Gt => false | _ => true end).
(** Node.__ge__, Node.py:259-261. *)
Definition node_ge (h : heap) (r1 r2 : nref) : res bool :=
  let! c := node_compare h r1 r2 in Ok (match c with Lt => false | _ => true end).
(** Node.__eq__ / __ne__ with a Node argument, Node.py:263-273 *)
Definition node_eq (h : heap) (r1 r2 : nref) : res bool :=
  let! N1 := get_n h r1 in let! N2 := get_n h r2 in
  Ok (eqb (n_index N1, n_id N1) (n_index N2, n_id N2)).
(** Node.__ne__ with a Node argument, Node.py:269-273. *)
Definition node_ne (h : heap) (r1 r2 : nref) : res bool :=
  let! N1 := get_n h r1 in let! N2 := get_n h r2 in
  Ok (negb (eqb (n_index N1, n_id N1) (n_index N2, n_id N2))).
(** Node.__hash__, Node.py:45-46: a function of the name alone. *)
Definition node_hash_key (h : heap) (r : nref) : res name := let! N := get_n h r in Ok (n_id N).

(** One step of [sorted(siblings)], Node.py:403, by Node.__lt__: stable insertion sort.  Simplification: which
    pairs are compared is an implementation detail of the sort; the model raises
    TypeError if any pair it compares is incomparable. *)
Fixpoint node_insert (h : heap) (x : nref) (l : list nref) : res (list nref) :=
  match l with
  | [] => Ok [x]
  | y :: l' => let! b := node_lt h y x in
               if (b : bool) then let! r := node_insert h x l' in Ok (y :: r) else Ok (x :: l)
  end.
(** [sorted(siblings)], Node.py:403. *)
Fixpoint node_sorted (h : heap) (l : list nref) : res (list nref) :=
  match l with
  | [] => Ok []
  | x :: l' => let! s := node_sorted h l' in node_insert h x s
  end.
(** [l.index(x)], Node.py:403 *)
Fixpoint node_index_of (h : heap) (x : nref) (l : list nref) : res nat :=
  match l with
  | [] => Err ValueError
  | y :: l' => if node_eqb h x y then Ok 0
               else let! i := node_index_of h x l' in Ok (Datatypes.S i)
  end.
(** Node.get_child_rank, Node.py:387-403 *)
Definition get_child_rank (h : heap) (r p : nref) : res nat :=
  let! cs := node_children h p in
  if node_in h r cs then let! s := node_sorted h cs in node_index_of h r s
  else Err ValueError.

(** Printing of floats and colours is external (NodeStyle.py:207, EdgeStyle.py:154,
    _GraphWithoutDisplay.py:356). *)
Record penv := MkPEnv {
  pe_flt : Q → string; pe_col : colour → string;
  pe_hex : colour → pv → string; (* c.get_hexadecimal(opacity=o) *)
  pe_hexadecimal : colour → string (* c.hexadecimal *) }.

(** [str(name)], Node.py:226, 330, Edge.py:158 *)
Definition name_str (n : name) : string :=
  match n with NStr s => s | NInt z => pretty z end.
(** [str(x)]; the bound method prints as Python prints it, with Node.__repr__
    (Node.py:239-245). *)
Definition pv_str (env : penv) (h : heap) (v : pv) : string :=
  match v with
  | PNone => "None"
  | PInt z => pretty z
  | PFlt q => pe_flt env q
  | PStr s => s
  | PCol c => pe_col env c
  | PMeth r => "<bound method GraphObj.display_label_or_value of Node:" +:+
               match h_nodes h !! r with Some N => name_str (n_id N) | None => "" end +:+ ">"
  end.

(** [s.replace('x', 'y')] for the quote character, Node.py:227 *)
Definition quote : Ascii.ascii := "034"%char.
(** The backslash of Node.py:227. *)
Definition backslash : Ascii.ascii := "092"%char.
(** [result.replace] of Node.py:227. *)
Fixpoint escape (s : string) : string :=
  match s with
  | EmptyString => EmptyString
  | String c s' => if eqb c quote then String backslash (String quote (escape s'))
                   else String c (escape s')
  end.

(** Node.label, Node.py:220-227 *)
Definition node_label (env : penv) (h : heap) (r : nref) : res string :=
  let! N := get_n h r in
  Ok (escape (if truthy (n_label N) then pv_str env h (n_label N) else name_str (n_id N))).

(** Node.py:6-9; the box characters in UTF-8. *)
Definition CORNER : string := "└".
(** Node.py:7. *)
Definition TWO_WAY : string := "├".
(** Node.py:9. *)
Definition VERTICAL : string := "│".
(** The newline, e.g. Node.py:292, 295, _BasicGraph.py:667. *)
Definition NL : string := String "010"%char "".

(** The loop of Node.get_tree_str, Node.py:298-309; [n] is [num_children]. *)
Fixpoint tree_loop (rec : nref → string → list nref → res (string * list nref))
    (r : nref) (indent : string) (cs : list nref) (acc : string) (added : list nref)
    : res (string * list nref) :=
  match cs with
  | [] => Ok (acc, added)
  | c :: cs' =>
      let added := added ++ [r] in
      let last := match cs' with [] => true | _ => false end in
      let! (s, added) := rec c (indent +:+ if (last : bool) then "  " else VERTICAL +:+ " ") added in
      tree_loop rec r indent cs'
        (acc +:+ indent +:+ (if last then CORNER else TWO_WAY) +:+ " " +:+ s) added
  end.

(** Node.get_tree_str, Node.py:275-311.  [already_added] is shared by the
    recursive calls: threaded here. *)
Fixpoint tree_str (fuel : nat) (env : penv) (h : heap) (r : nref) (indent : string)
    (added : list nref) : res (string * list nref) :=
  match fuel with
  | 0 => Err OutOfFuel
  | Datatypes.S fuel =>
      let! lbl := node_label env h r in
      if node_in h r added then Ok (lbl +:+ "*" +:+ NL, added)
      else
        let! cs := node_children h r in
        tree_loop (λ c i ad, tree_str fuel env h c i ad) r indent cs (lbl +:+ NL) added
  end.

(** Node.get_tree_str() without arguments, Node.py:275-311 *)
Definition node_tree_str (env : penv) (h : heap) (r : nref) : res string :=
  let! g := node_graph h r in
  let! out := tree_str (Datatypes.S (graph_fuel h g)) env h r "" [] in Ok out.1.

(** BasicGraph.get_tree_str, _BasicGraph.py:657-667 *)
Definition graph_tree_str (env : penv) (h : heap) (g : gref) : res string :=
  let! rs := roots h g in
  let! out := rfold (λ '(strs, added) r,
                let! (s, added) := tree_str (Datatypes.S (graph_fuel h g)) env h r "" added in
                Ok (strs ++ [s], added)) ([], []) rs in
  Ok (String.concat NL out.1).

(** GraphObj.is_similar_to, _GraphObj.py:143-152; [_style ==] is identity (the
    style classes define no __eq__).  Dict equality ignores order. *)
Definition sdict_eqb (d1 d2 : sdict) : bool :=
  Nat.eqb (length d1) (length d2) &&
  forallb (λ kv, match dget d2 kv.1 with Some v => py_eqb kv.2 v | None => false end) d1.

(** GraphObj.is_similar_to on nodes, _GraphObj.py:143-152. *)
Definition node_obj_similar (N1 N2 : node) : bool :=
  eqb (n_id N1) (n_id N2) && py_eqb (n_value N1) (n_value N2) &&
  eqb (n_style N1) (n_style N2) && sdict_eqb (n_params N1) (n_params N2).

(** Edge.is_similar_to, Edge.py:77-91.  [self.id] raises ValueError without ends. *)
Definition edge_similar (h : heap) (e1 e2 : eref) : res bool :=
  let! i1 := get_edge_id h e1 in let! i2 := get_edge_id h e2 in
  let! E1 := get_e h e1 in let! E2 := get_e h e2 in
  if eqb i1 i2 && py_eqb (e_value E1) (e_value E2) && eqb (e_style E1) (e_style E2)
     && sdict_eqb (e_params E1) (e_params E2)
  then Ok (eqb i1.1.1 i2.1.1 && eqb i1.1.2 i2.1.2 && eqb (e_raw E1) (e_raw E2))
  else Ok false.

(** The loops of Node.is_similar_to, Node.py:122-129 *)
Fixpoint edge_dict_similar (h : heap) (d1 d2 : dict edge_id eref) : res bool :=
  match d1 with
  | [] => Ok true
  | (i, e) :: d1' =>
      let! e2 := dgetR d2 i in
      let! b := edge_similar h e e2 in
      if (b : bool) then edge_dict_similar h d1' d2 else Ok false
  end.
(** Node.is_similar_to, Node.py:106-130 *)
Definition node_similar (h : heap) (r1 r2 : nref) : res bool :=
  let! N1 := get_n h r1 in let! N2 := get_n h r2 in
  if negb (node_obj_similar N1 N2) then Ok false
  else if negb (Nat.eqb (length (n_out N1)) (length (n_out N2))) then Ok false
  else if negb (Nat.eqb (length (n_in N1)) (length (n_in N2))) then Ok false
  else let! b := edge_dict_similar h (n_out N1) (n_out N2) in
       if (b : bool) then edge_dict_similar h (n_in N1) (n_in N2) else Ok false.

(** The loop of BasicGraph.is_similar_to, _BasicGraph.py:750-753 *)
Fixpoint nodes_similar (h : heap) (d1 d2 : dict name nref) : res bool :=
  match d1 with
  | [] => Ok true
  | (n, r) :: d1' =>
      let! r2 := dgetR d2 n in
      let! b := node_similar h r r2 in
      if (b : bool) then nodes_similar h d1' d2 else Ok false
  end.
(** BasicGraph.is_similar_to, _BasicGraph.py:737-761 *)
Definition graph_similar (h : heap) (g1 g2 : gref) : res bool :=
  let! G1 := get_g h g1 in let! G2 := get_g h g2 in
  if negb (Nat.eqb (length (g_nodes G1)) (length (g_nodes G2))) then Ok false
  else
    let! b := nodes_similar h (g_nodes G1) (g_nodes G2) in
    if negb b then Ok false
    else if negb (eqb (g_strict G1) (g_strict G2)) then Ok false
    else if negb (eqb (g_ordering G1) (g_ordering G2)) then Ok false
    else Ok true.
