(** Resetting the colours of a style object in place. *)
From Verif Require Export ModelObj.

(** [style.reset_colours()], styling/NodeStyle.py:54-57. *)
Definition reset_nstyle (s : sref) : M unit := upd_ns s (λ sty, Ok (ns_reset sty)).
(** [style.reset_colours()], styling/EdgeStyle.py:49-50. *)
Definition reset_estyle (s : sref) : M unit := upd_es s (λ sty, Ok (es_reset sty)).
