(** What client programs do with style objects directly, and the background colour. *)
From Verif Require Export ModelBuild ModelDot.
Local Open Scope string_scope.
Local Open Scope list_scope.

(** [NodeStyle] called with keyword arguments [d], styling/NodeStyle.py:13-40. *)
Definition make_nstyle (d : sdict) : M sref := let* sty := sread (λ _, nstyle_ctor d) in new_ns sty.
(** [EdgeStyle] called with keyword arguments [d], styling/EdgeStyle.py:14-35. *)
Definition make_estyle (d : sdict) : M sref := let* sty := sread (λ _, estyle_ctor d) in new_es sty.

(** [style.complement(d)], styling/NodeStyle.py:42-52.  With one entry
    for a colour this is the assignment to the property, lines 106-162. *)
Definition set_nstyle (s : sref) (d : sdict) : M unit := complement_ns s d.
(** [style.complement(d)], styling/EdgeStyle.py:37-47, likewise. *)
Definition set_estyle (s : sref) (d : sdict) : M unit := complement_es s d.

(** Reading a style object; no lines of its own. *)
Definition get_ns (h : heap) (s : sref) : res nstyle := match h_ns h !! s with Some sty => Ok sty | None => Err Unmodelled end.
(** The same for edge styles; no lines of its own. *)
Definition get_es (h : heap) (s : sref) : res estyle := match h_es h !! s with Some sty => Ok sty | None => Err Unmodelled end.
(** [style.copy()] and [style.invert_colours()], styling/NodeStyle.py:59-97. *)
Definition derive_nstyle (invert : bool) (s : sref) : M sref :=
  let* sty := sread (λ h, let! sty := get_ns h s in if invert then ns_invert sty else ns_copy sty) in new_ns sty.
(** [style.copy()] and [style.invert_colours()], styling/EdgeStyle.py:52-78. *)
Definition derive_estyle (invert : bool) (s : sref) : M sref :=
  let* sty := sread (λ h, let! sty := get_es h s in if invert then es_invert sty else es_copy sty) in new_es sty.

(** The setter [background_colour], _GraphWithoutDisplay.py:193-203.  Simplification: on a
    graph without the display attributes (a copy) it is outside the model; Python would
    create the one attribute. *)
Definition set_background (g : gref) (v : pv) : M unit :=
  let* c := sread (λ _, to_colour v) in
  upd_disp g (λ D, D <| d_background := c |>).
