(** The edges of a node: C72. *)
From Verif Require Export ProofC2 ModelMore SpecMore.
From Verif Require Import Samples.
Local Open Scope list_scope.

(** C72.  node.outward_edges lists the edges that start in the node, node.inward_edges
    those that end there, node.edges both; each edge once. *)
Lemma C72_lists_proof : ∀ h g r, reachable h → in_graph h g r → ∃ os js es, outward_edges h r = Ok os ∧ inward_edges h r = Ok js ∧ node_edges h r = Ok es ∧ NoDup os ∧ NoDup js ∧ NoDup es ∧
  (∀ e, e ∈ os ↔ ∃ y, joins h g e r y) ∧ (∀ e, e ∈ js ↔ ∃ y, joins h g e y r) ∧ (∀ e, e ∈ es ↔ ∃ y, joins h g e r y ∨ joins h g e y r).
Proof.
  intros h g r Hr Hin. pose proof (reachable_WF h Hr) as W. destruct (in_graph_lookup h W g r Hin) as (N & HN & Hg).
  exists (outs h r), (ins h r), (nub (outs h r ++ ins h r)). rewrite (outward_edges_run h r N), (inward_edges_run h r N), (node_edges_run h r N) by done.
  split_and!; try (unfold outs, ins; by rewrite HN).
  - by apply NoDup_outs.
  - by apply NoDup_ins.
  - apply NoDup_nub.
  - intros e. by apply outs_joins.
  - intros e. by apply ins_joins.
  - intros e. rewrite elem_of_nub. by apply edges_at_joins.
Qed.
(** C72.  graph.get_edges lists first the edges that start in the node, then those that
    end there; so an edge is listed twice exactly if it is a loop from the node to
    itself.  Missing: that each edge is listed once (C72_loops_refuted). *)
Lemma C72_get_edges_partial_proof : ∀ h g x r, reachable h → denotes h g x r → ∃ os js, outward_edges h r = Ok os ∧ inward_edges h r = Ok js ∧ get_edges h g x = Ok (os ++ js) ∧
  get_outward_edges h g x = Ok os ∧ get_inward_edges h g x = Ok js ∧ ∀ e, e ∈ os ∧ e ∈ js ↔ joins h g e r r.
Proof.
  intros h g x r Hr Hx. pose proof (reachable_WF h Hr) as W. pose proof (proj2 (get_node_denotes h g x r W) Hx) as Hn. pose proof (get_node_in_graph h W g x r Hn) as Hin. destruct (in_graph_lookup h W g r Hin) as (N & HN & Hg).
  exists (outs h r), (ins h r). rewrite (outward_edges_run h r N), (inward_edges_run h r N) by done. unfold get_edges. rewrite (get_outward_edges_run h W g x r Hn), (get_inward_edges_run h W g x r Hn). cbn [rbind].
  split_and!; try done; try (unfold outs, ins; by rewrite HN). intros e. rewrite (outs_joins h W g), (ins_joins h W g) by done. split; [|eauto].
  intros [[y H1] [z H2]]. destruct H1 as (E & HE & ? & ? & ?), H2 as (E' & HE' & ? & ? & ?). exists E. split_and!; try done; congruence.
Qed.
(** C72 refuted for graph.get_edges: with one loop from a to a it lists the loop twice. *)
Lemma C72_loops_refuted_proof : ∃ h e, reachable h ∧ denotes h 0 (AName (nm "a")) 0 ∧ joins h 0 e 0 0 ∧ node_edges h 0 = Ok [e] ∧ get_edges h 0 (AName (nm "a")) = Ok [e; e].
Proof.
  exists (run (graph_calls ["a"%string] [("a", "a")%string]) empty_heap), 0.
  split; [reach|]. split; [exists (nm "a"); split; [|by left]; eexists; split; [vm_compute; reflexivity|left]|]. split; [eexists; split; [vm_compute; reflexivity|by repeat split]|]. split; vm_compute; reflexivity.
Qed.
Lemma dict_ids h r N (d : dict edge_id eref) : WF h → h_nodes h !! r = Some N → NoDup d.*1 → (∀ k e, (k, e) ∈ d → edge_ident h e k) →
  Forall2 (edge_ident h) (dvals d) (dkeys d) ∧ (∀ i e, dgetR d i = Ok e ↔ e ∈ dvals d ∧ edge_ident h e i) ∧ (∀ i, i ∉ dkeys d → dgetR d i = Err KeyError).
Proof.
  intros W HN Hnd Hid. split_and!.
  - clear Hnd. induction d as [|[k e] d IH]; constructor; [apply Hid; left|]. apply IH. intros. apply Hid. by right.
  - intros i e. rewrite dgetR_Ok. split.
    + intros He%dget_Some_in. split; [|by apply Hid]. apply elem_of_list_fmap. by exists (i, e).
    + intros [He Hi]. apply elem_of_list_fmap in He as ([k e'] & -> & Hin). cbn in *. apply dget_in_Some; [done|]. assert (k = i) as <-; [|done].
      pose proof (Hid k e' Hin) as (E & x & y & X & Y & ? & ? & ? & ? & ? & ->). destruct Hi as (E' & x' & y' & X' & Y' & ? & ? & ? & ? & ? & ->). simplify_eq. done.
  - intros i Hi%dget_None. unfold dgetR. by rewrite Hi.
Qed.
(** C72.  node.outward_edge_ids are the ids of node.outward_edges in the same order, all
    different; get_outward_edge finds exactly these edges by their ids and raises
    KeyError for other ids; num_outward_edges counts them. *)
Lemma C72_outward_ids_proof : ∀ h g r, reachable h → in_graph h g r → ∃ os ids, outward_edges h r = Ok os ∧ outward_edge_ids h r = Ok ids ∧ NoDup ids ∧ Forall2 (edge_ident h) os ids ∧
  num_outward_edges h r = Ok (length os) ∧ (∀ i e, get_outward_edge h r i = Ok e ↔ e ∈ os ∧ edge_ident h e i) ∧ (∀ i, i ∉ ids → get_outward_edge h r i = Err KeyError).
Proof.
  intros h g r Hr Hin. pose proof (reachable_WF h Hr) as W. destruct (in_graph_lookup h W g r Hin) as (N & HN & Hg). exists (dvals (n_out N)), (dkeys (n_out N)).
  destruct (con_keys _ (WF_consistent h W) r N HN) as [Hnd _]. destruct (dict_ids h r N (n_out N) W HN Hnd) as (HA & HB & HC).
  { intros k e Hk. destruct (con_out _ (WF_consistent h W) r N k e HN Hk) as (g' & t & Nt & E & HE & Ht & (E' & HE' & _ & ? & ?) & _ & _ & -> & _). assert (E' = E) as -> by congruence. by exists E, r, t, N, Nt. }
  rewrite (outward_edges_run h r N) by done. unfold outward_edge_ids, num_outward_edges, get_outward_edge. rewrite (get_n_Ok _ _ _ HN). cbn [rbind]. split_and!; try done. unfold dvals. by rewrite fmap_length.
Qed.
(** C72.  The same for node.inward_edge_ids and get_inward_edge. *)
Lemma C72_inward_ids_proof : ∀ h g r, reachable h → in_graph h g r → ∃ js ids, inward_edges h r = Ok js ∧ inward_edge_ids h r = Ok ids ∧ NoDup ids ∧ Forall2 (edge_ident h) js ids ∧
  (∀ i e, get_inward_edge h r i = Ok e ↔ e ∈ js ∧ edge_ident h e i) ∧ (∀ i, i ∉ ids → get_inward_edge h r i = Err KeyError).
Proof.
  intros h g r Hr Hin. pose proof (reachable_WF h Hr) as W. destruct (in_graph_lookup h W g r Hin) as (N & HN & Hg). exists (dvals (n_in N)), (dkeys (n_in N)).
  destruct (con_keys _ (WF_consistent h W) r N HN) as [_ Hnd]. destruct (dict_ids h r N (n_in N) W HN Hnd) as (HA & HB & HC).
  { intros k e Hk. destruct (con_in _ (WF_consistent h W) r N k e HN Hk) as (g' & t & Nt & E & HE & Ht & (E' & HE' & _ & ? & ?) & _ & _ & -> & _). assert (E' = E) as -> by congruence. by exists E, t, r, Nt, N. }
  rewrite (inward_edges_run h r N) by done. unfold inward_edge_ids, get_inward_edge. rewrite (get_n_Ok _ _ _ HN). cbn [rbind]. by split_and!.
Qed.
(** C72, concretely: the node b of the sample has the edges a -> b twice, b -> c and
    c -> b, the node c a loop. *)
Lemma C72_ex_proof : reachable sample ∧ in_graph sample 0 1 ∧ denotes sample 0 (an "b") 1 ∧ in_graph sample 0 2 ∧ outward_edges sample 1 = Ok [1] ∧ inward_edges sample 1 = Ok [0; 2; 3] ∧ node_edges sample 2 = Ok [2; 4; 1] ∧
  get_edges sample 0 (an "b") = Ok [1; 0; 2; 3] ∧ (∃ ids, inward_edge_ids sample 1 = Ok ids ∧ map (λ i, (i.1.1, i.1.2)) ids = [(nm "a", nm "b"); (nm "c", nm "b"); (nm "a", nm "b")]).
Proof. split; [exact sample_reachable|]. split; [eexists _, _; split; [reflexivity|right; left]|]. split; [exists (nm "b"); split; [|by left]; eexists; split; [done|right; left]|].
  split; [eexists _, _; split; [reflexivity|right; right; left]|]. repeat (split; [vm_compute; reflexivity|]). eexists. split; vm_compute; reflexivity. Qed.
