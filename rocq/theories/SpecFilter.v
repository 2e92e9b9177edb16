(** Names and paths between names (C89). *)
From Verif Require Export Spec.

(** Graph [g] has a node named [k]. *)
Definition has_name (h : heap) (g : gref) (k : name) : Prop := ∃ r, named h g k r.
(** A directed path leads from the node named [k] to the node named [k']. *)
Definition leads (h : heap) (g : gref) (k k' : name) : Prop := ∃ r r', named h g k r ∧ named h g k' r' ∧ path h g r r'.
(** The node named [k'] is named in [ks], or an ancestor or descendant of such a node. *)
Definition related (h : heap) (g : gref) (ks : list name) (k' : name) : Prop :=
  has_name h g k' ∧ ∃ k, k ∈ ks ∧ (k = k' ∨ leads h g k k' ∨ leads h g k' k).
