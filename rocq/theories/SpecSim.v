(** Similar graphs. *)
From Verif Require Export Spec.

(** Equal Python values: the same, or numbers (int, float) of the same size. *)
Definition number (v : pv) : option Q := match v with PInt z => Some (inject_Z z) | PFlt q => Some q | _ => None end.
Definition same_value (v w : pv) : Prop := v = w ∨ ∃ p q, number v = Some p ∧ number w = Some q ∧ (p == q)%Q.
(** Equal dictionaries: the same keys, with equal values. *)
Definition same_dict (d1 d2 : sdict) : Prop :=
  (∀ k, k ∈ d1.*1 ↔ k ∈ d2.*1) ∧ ∀ k v w, (k, v) ∈ d1 → (k, w) ∈ d2 → same_value v w.
Record similar (h : heap) (g1 g2 : gref) : Prop := {
  sim_flags : ∀ G1 G2, h_graphs h !! g1 = Some G1 → h_graphs h !! g2 = Some G2 →
    g_strict G1 = g_strict G2 ∧ g_ordering G1 = g_ordering G2;
  sim_names : ∀ k, (∃ r, named h g1 k r) ↔ (∃ r, named h g2 k r);
  sim_nodes : ∀ k r1 r2 N1 N2, named h g1 k r1 → named h g2 k r2 → h_nodes h !! r1 = Some N1 → h_nodes h !! r2 = Some N2 →
    same_value (n_value N1) (n_value N2) ∧ n_style N1 = n_style N2 ∧ same_dict (n_params N1) (n_params N2);
  sim_ids : ∀ i, (∃ e, has_id h g1 e i) ↔ (∃ e, has_id h g2 e i);
  sim_edges : ∀ i e1 e2 E1 E2, has_id h g1 e1 i → has_id h g2 e2 i → h_edges h !! e1 = Some E1 → h_edges h !! e2 = Some E2 →
    same_value (e_value E1) (e_value E2) ∧ e_style E1 = e_style E2 ∧ same_dict (e_params E1) (e_params E2) }.
(** Keyword parameters come in dictionaries: no key occurs twice. *)
Definition params_ok (h : heap) : Prop :=
  (∀ r N, h_nodes h !! r = Some N → NoDup (n_params N).*1) ∧ (∀ e E, h_edges h !! e = Some E → NoDup (e_params E).*1).
