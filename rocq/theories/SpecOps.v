(** Specification of the effects of single calls: what a call is expected to
    leave behind, written as plain record changes.  No function of the model is
    used except the two style constructors (ModelStyle.v). *)
From Verif Require Export Spec Ops.

(** An argument that is None leaves the attribute alone. *)
Definition keep_or (v old : pv) : pv := match v with PNone => old | _ => v end.

(** The two modes in which an existing node or edge may be named again. *)
Definition lenient (mode : string) : bool := (eqb mode "ignore" || eqb mode "warn")%string.
Definition warning_of (mode : string) (w : warning) : list warning :=
  if eqb mode "warn"%string then [w] else [].

(** May an object with style [old] in graph [og] get another style? *)
Definition may_restyle (h : heap) (old : option sref) (og : option gref) : res unit :=
  match old with
  | None => Ok tt
  | Some _ =>
      match og with
      | None => Err AttributeError
      | Some g => match h_graphs h !! g with
                  | None => Err Unmodelled
                  | Some G => match g_disp G with
                              | None => Err AttributeError      (* a copy *)
                              | Some d => if d_overwrite d then Ok tt else Err RuntimeError
                              end
                  end
      end
  end.
(** The style after assigning [a], and the style objects created for it; [next]
    is the number of existing style objects. *)
Definition restyled {S} (ctor : sdict → res S) (next : nat) (old : option sref) (a : sarg)
    : res (option sref * list S) :=
  match a with
  | SNone => Ok (old, [])
  | SObj s => Ok (Some s, [])
  | SDict d => match ctor d with Ok sty => Ok (Some next, [sty]) | Err x => Err x end
  | SOther => Err TypeError
  end.
(** The same for an optional argument: None means no assignment at all. *)
Definition optional_style {S} (ctor : sdict → res S) (h : heap) (next : nat) (old : option sref) (og : option gref) (a : sarg)
    : res (option sref * list S) :=
  match a with
  | SNone => Ok (old, [])
  | _ => match may_restyle h old og with Err x => Err x | Ok _ => restyled ctor next old a end
  end.

(** The heap with node [r] replaced and node styles added. *)
Definition put_node (h : heap) (r : nref) (N : node) (l : list nstyle) (w : list warning) : heap :=
  h <| h_nodes := <[r := N]> (h_nodes h) |> <| h_ns := h_ns h ++ l |> <| h_warns := h_warns h ++ w |>.
Definition put_edge (h : heap) (e : eref) (E : edge) (l : list estyle) (w : list warning) : heap :=
  h <| h_edges := <[e := E]> (h_edges h) |> <| h_es := h_es h ++ l |> <| h_warns := h_warns h ++ w |>.

(** Naming an existing node again: style first, then label, then value; the first
    failing assignment ends the call. *)
Definition node_updated (h : heap) (r : nref) (N : node) (a : nargs) (w : list warning) : heap * res (option nref) :=
  match optional_style nstyle_ctor h (length (h_ns h)) (n_style N) (n_graph N) (a_style a) with
  | Err x => (put_node h r N [] w, Err x)
  | Ok (st, l) =>
      let N1 := N <| n_style := st |> <| n_label := keep_or (a_label a) (n_label N) |> in
      if n_frozen N && negb (eqb (a_value a) PNone)
      then (put_node h r N1 l w, Err RuntimeError)
      else (put_node h r (N1 <| n_value := keep_or (a_value a) (n_value N) |>) l w, Ok (Some r))
  end.
Definition edge_updated (h : heap) (e : eref) (E : edge) (a : eargs) (w : list warning) : heap * res eref :=
  match optional_style estyle_ctor h (length (h_es h)) (e_style E) (e_graph E) (c_style a) with
  | Err x => (put_edge h e E [] w, Err x)
  | Ok (st, l) =>
      let E1 := E <| e_style := st |> <| e_label := keep_or (c_label a) (e_label E) |> in
      if e_frozen E && negb (eqb (c_value a) PNone)
      then (put_edge h e E1 l w, Err RuntimeError)
      else (put_edge h e (E1 <| e_value := keep_or (c_value a) (e_value E) |>) l w, Ok e)
  end.

(** [r] got the entry [(i, e)] at the end of its outward (inward) edges iff it is
    the start (end). *)
Definition with_new_edge (s t : nref) (i : edge_id) (e : eref) (r : nref) (N : node) : node :=
  N <| n_out := n_out N ++ (if decide (r = s) then [(i, e)] else []) |>
    <| n_in := n_in N ++ (if decide (r = t) then [(i, e)] else []) |>.
(** The entries of the edges [es] are gone; the others keep their order. *)
Definition without_edges (es : list eref) (N : node) : node :=
  N <| n_out := filter (λ kv, kv.2 ∉ es) (n_out N : list (edge_id * eref)) |>
    <| n_in := filter (λ kv, kv.2 ∉ es) (n_in N : list (edge_id * eref)) |>.

(** The argument [x] of a call on graph [g] stands for node [r]: a name stands for
    the node filed under it; a Node object, of whatever graph, stands for the
    node of [g] that has its name. *)
Definition denotes (h : heap) (g : gref) (x : narg) (r : nref) : Prop :=
  ∃ k, named h g k r ∧
    (x = AName k ∨ ∃ r0 N0, x = ANode r0 ∧ h_nodes h !! r0 = Some N0 ∧ n_id N0 = k).
(** ... or for no node of [g]. *)
Definition unknown (h : heap) (g : gref) (x : narg) : Prop :=
  ∃ G k, h_graphs h !! g = Some G ∧ k ∉ (g_nodes G).*1 ∧
    (x = AName k ∨ ∃ r0 N0, x = ANode r0 ∧ h_nodes h !! r0 = Some N0 ∧ n_id N0 = k).

(** [history P h h']: some calls, all satisfying [P] and allowed, lead from [h] to [h']. *)
Inductive history (P : call → Prop) : heap → heap → Prop :=
| hist_nil h : history P h h
| hist_cons h h' c : history P h h' → allowed h' c → P c → history P h (after c h').
