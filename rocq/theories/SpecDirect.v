(** Specification of what constructing objects directly leaves behind (C87). *)
From Verif Require Export SpecOps.

(** The entry of [k] is replaced by [v], in its place. *)
Definition refiled {K V} `{EqDecision K} (d : list (K * V)) (k : K) (v : V) : list (K * V) :=
  (λ kv, if decide (kv.1 = k) then (k, v) else kv) <$> d.
(** The node [r] with the entry of [i] replaced in its outward (inward) edges iff it is the
    start (end). *)
Definition with_same_id (s t : nref) (i : edge_id) (e : eref) (r : nref) (N : node) : node :=
  N <| n_out := if decide (r = s) then refiled (n_out N) i e else n_out N |>
    <| n_in := if decide (r = t) then refiled (n_in N) i e else n_in N |>.
(** Some node lists the edge [e]. *)
Definition listed (h : heap) (e : eref) : Prop :=
  ∃ r N k, h_nodes h !! r = Some N ∧ ((k, e) ∈ n_out N ∨ (k, e) ∈ n_in N).
