(** Graph.py: what is handed to Graphviz for SVG and HTML. *)
From Verif Require Export ModelMore.
Local Open Scope string_scope.

(** Graph.get_svg, Graph.py:13-26, without the call of Graphviz (Graph.py:6-11): the result is the
    text of the source that Graphviz turns into SVG.  Simplification: no further keyword
    arguments, so no path. *)
Definition get_svg (env : penv) (g : gref) (direction : string) (pad : pv) (shuffle : list nref → list nref) : M string :=
  let* direction := sread (λ h,
        if eqb direction "" then let! D := get_display h g in Ok (d_direction D) else Ok direction) in
  render env g direction pad shuffle.
(** DEFAULT_PAD, _GraphWithoutDisplay.py:15 *)
Definition DEFAULT_PAD : pv := PFlt (1 # 10).
(** Graph._repr_html_, Graph.py:28-30 *)
Definition repr_html (env : penv) (g : gref) (shuffle : list nref → list nref) : M string :=
  get_svg env g "" DEFAULT_PAD shuffle.
(** Graph.get_html, Graph.py:32-45, without the wrapper of IPython around the SVG. *)
Definition get_html (env : penv) (g : gref) (direction : string) (pad : pv) (shuffle : list nref → list nref) : M string :=
  let* direction := sread (λ h,
        if eqb direction "" then let! D := get_display h g in Ok (d_direction D) else Ok direction) in
  get_svg env g direction pad shuffle.
