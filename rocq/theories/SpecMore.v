(** What automatic styling may change; the size lines of a saved drawing; the header
    of a DOT text; what a renamed object looks like. *)
From Verif Require Export SpecStyle SpecOps SpecDot.
Local Open Scope string_scope.
Local Open Scope list_scope.

(** [h'] is [h] except for styles: an object keeps its style, or belongs to [g] and gets
    one made since; existing style objects may have been changed. *)
Record styles_only (g : gref) (h h' : heap) : Prop := {
  so_graphs : h_graphs h' = h_graphs h;
  so_warns : h_warns h' = h_warns h;
  so_nlen : length (h_nodes h') = length (h_nodes h);
  so_elen : length (h_edges h') = length (h_edges h);
  so_nslen : length (h_ns h) ≤ length (h_ns h');
  so_eslen : length (h_es h) ≤ length (h_es h');
  so_node : ∀ r N, h_nodes h !! r = Some N → ∃ st, h_nodes h' !! r = Some (N <| n_style := st |>) ∧
    (st = n_style N ∨ n_graph N = Some g ∧ ∃ s, st = Some s ∧ length (h_ns h) ≤ s);
  so_edge : ∀ e E, h_edges h !! e = Some E → ∃ st, h_edges h' !! e = Some (E <| e_style := st |>) ∧
    (st = e_style E ∨ e_graph E = Some g ∧ ∃ s, st = Some s ∧ length (h_es h) ≤ s) }.

(** A line of DOT text. *)
Definition line (s : string) : string := TAB +:+ s +:+ NL.
(** The lines that fix the size of a drawing: width and height, or the one given;
    none if neither is given. *)
Definition size_lines (env : penv) (h : heap) (height width : pv) : string :=
  match (match width with PNone => [] | _ => [pv_str env h width] end ++
         match height with PNone => [] | _ => [pv_str env h height] end)%list with
  | [] => ""
  | l => line ("size=" +:+ Qt +:+ String.concat "," l +:+ "!" +:+ Qt +:+ ";") +:+ line ("ratio=" +:+ Qt +:+ "fill" +:+ Qt +:+ ";")
  end.
(** The text [s] is [t] with [extra] inserted somewhere. *)
Definition inserted (extra t s : string) : Prop := ∃ pre post, t = pre +:+ post ∧ s = pre +:+ extra +:+ post.

(** The direction that is used: the argument, else that of the graph, in capitals. *)
Definition used_direction (D : display) (direction : string) : string :=
  capitals (if decide (direction = "") then d_direction D else direction).
(** The header without the size lines: opening, optional graph attributes, background,
    padding, ordering, direction. *)
Definition header_text (strict ordering : bool) (attrs background pad : string) (direction size : string) : string :=
  (if strict then "strict digraph G {" else "digraph G{") +:+ NL +:+ attrs +:+
  line ("bgcolor=" +:+ Qt +:+ background +:+ Qt +:+ ";") +:+ pad +:+
  (if ordering then line "ordering=out;" else "") +:+ size +:+
  (if decide (direction = "TB") then "" else TAB +:+ "rankdir=" +:+ Qt +:+ direction +:+ Qt).
Definition pad_text (env : penv) (h : heap) (pad : pv) : string :=
  match pad with PNone => "" | _ => line ("pad=" +:+ Qt +:+ pv_str env h pad +:+ Qt +:+ ";") end.

(** The heap after [node.raw_id = n] and after [edge.raw_id = u]. *)
Definition renamed (h : heap) (r : nref) (N : node) (n : name) : heap := h <| h_nodes := <[r := N <| n_id := n |>]> (h_nodes h) |>.
Definition reraw (h : heap) (e : eref) (E : edge) (u : option name) : heap := h <| h_edges := <[e := E <| e_raw := RId u |>]> (h_edges h) |>.
(** The text [t] occurs in [s]. *)
Definition mentions (t s : string) : Prop := ∃ pre post, s = pre +:+ t +:+ post.

(** The style with main colour [c], the colours derived from it, and the other
    attributes of [s]. *)
Definition tinted (c : colour) (s : nstyle) : nstyle :=
  MkNStyle c (Some (CLighten c (1 # 2)%Q)) (Some (CDarken c (1 # 6)%Q)) (Some (CGray (CLighten c (1 # 2)%Q))) true true true true
    (ns_opacity s) (ns_font s) (ns_text_size s) (ns_shape s) (ns_shape_style s) [].
(** The style that branches hand down: that of a root (or of a node whose parents are
    all on cycles) itself; from a single parent edge the colour of the parent, its hue
    turned according to the rank among the siblings; from several the mixture of the
    colours of the parents that are not in a loop with the node, with the divergence
    [d] set to zero. *)
Inductive hands_down (h : heap) (g : gref) : Q → nref → nstyle → Prop :=
  | hd_root d r s : rootlike h g r → style_of h r s → hands_down h g d r s
  | hd_one d r p sp cs i q : ¬ rootlike h g r → node_parents h r = Ok [p] → hands_down h g d p sp →
      node_children h p = Ok cs → get_child_rank h r p = Ok i → (q == d * diverging (length cs) i)%Q →
      hands_down h g d r (tinted (CSat (CHue (ns_colour sp) q)) sp)
  | hd_many d r ps (keep : nref → bool) stys s : ¬ rootlike h g r → node_parents h r = Ok ps → length ps ≠ 1 →
      (∀ p, p ∈ ps → keep p = true ↔ ¬ path h g r p) → Forall2 (hands_down h g 0) (base.filter (λ p, keep p = true) ps) stys → head stys = Some s →
      hands_down h g d r (tinted (CPale (mix (map ns_colour stys)) (1 # 20)) s).

(** The id of an edge: the names of its ends and its own id. *)
Definition edge_ident (h : heap) (e : eref) (i : edge_id) : Prop := ∃ E x y X Y, h_edges h !! e = Some E ∧ e_start E = Some x ∧ e_end E = Some y ∧
  h_nodes h !! x = Some X ∧ h_nodes h !! y = Some Y ∧ i = (n_id X, n_id Y, e_raw E).
