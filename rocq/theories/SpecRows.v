(** Edges and walks in terms of the names, and the rows of from_lists (C90). *)
From Verif Require Export SpecFilter.

(** Some edge of [g] goes from the node named [a] to the node named [b]. *)
Definition linked (h : heap) (g : gref) (a b : name) : Prop := ∃ e x y, joins h g e x y ∧ named h g a x ∧ named h g b y.
(** A walk of exactly [n] edges goes from the node named [a] to the node named [b]. *)
Definition strides (h : heap) (g : gref) (n : nat) (a b : name) : Prop := ∃ x y, named h g a x ∧ named h g b y ∧ walk h g n x y.
(** The three lists have a row for an edge from [a] to [b]. *)
Definition row (start end_ : list string) (labels : list pv) (a b : name) : Prop :=
  ∃ i s t l, start !! i = Some s ∧ end_ !! i = Some t ∧ labels !! i = Some l ∧ a = NStr s ∧ b = NStr t.
(** Edge [e] of [g] starts (ends) in a node named by the string [s]. *)
Definition starts (h : heap) (g : gref) (e : eref) (s : string) : Prop := ∃ x y, joins h g e x y ∧ named h g (NStr s) x.
Definition ends (h : heap) (g : gref) (e : eref) (s : string) : Prop := ∃ x y, joins h g e x y ∧ named h g (NStr s) y.
