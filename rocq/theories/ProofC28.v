(** Reading the DOT text back. *)
From Verif Require Export SpecRead ProofRead.
Local Open Scope string_scope.

(** C75: the text of a graph is DOT text, and reading it gives the graph: whether it is strict,
    the attributes of the graph, one node statement for each node in the order of the
    nodes, with its name, label, tooltip and style, and one edge statement for each
    edge in the order of the edges, with the names of its ends, its label, tooltip and
    style; nothing else.  The texts are free of quotes and backslashes (see harmless). *)
Lemma C75_read_proof : ∀ env h g G D dir height width pad, reachable h → h_graphs h !! g = Some G → g_disp G = Some D →
  harmless env h g G D dir height width pad →
  ∃ text ns es nds eds, graphviz_str env h g dir height width pad = Ok text ∧
  read_dot text = Some (g_strict G, Drawing (graph_attrs env h G D dir height width pad) nds eds) ∧
  NoDup ns ∧ (∀ r, r ∈ ns ↔ in_graph h g r) ∧ NoDup es ∧ (∀ e, e ∈ es ↔ ∃ x y, joins h g e x y) ∧ nodes h g = Ok ns ∧ graph_edges h g = Ok es ∧
  Forall2 (λ r d, ∃ N, h_nodes h !! r = Some N ∧ d = node_drawn env h N) ns nds ∧
  Forall2 (λ e d, ∃ x y E X Y, joins h g e x y ∧ h_edges h !! e = Some E ∧ h_nodes h !! x = Some X ∧ h_nodes h !! y = Some Y ∧ d = edge_drawn env h E X Y) es eds.
Proof.
  intros env h g G D dir height width pad Hr HG HD HH. pose proof (reachable_WF h Hr) as W.
  destruct (header_reads env h g G D dir height width pad) as (s & ts & k & f & Hh & Hs & Hsay & Hf); [done..|].
  destruct HH as [Hc1 Hc2 Hns Hes _ _ _ _].
  destruct (rmap_run (node_graphviz env h) (λ r s, ∃ N, h_nodes h !! r = Some N ∧ stmt s (with_node (node_drawn env h N).1 (node_drawn env h N).2)) (dvals (g_nodes G))) as (nstrs & Hn & HF).
  { intros r Hin. apply (elem_of_nodes h g) in Hin; [|done]. destruct Hin as (G' & k' & HG' & Hk). assert (G' = G) as -> by congruence.
    destruct (wf_gnodes h W g G k' r HG Hk) as (N & HN & HNid & HNg). destruct (Hns r N HN HNg) as (H1 & H2 & H3 & H4).
    destruct (node_reads env h g G D r N) as (t & us & Ht & Hus & Hd); [done..|]. exists t. split; [done|]. exists N. split; [done|]. by exists us. }
  destruct (rmap_run (edge_graphviz env h) (λ e s, ∃ x y E X Y, joins h g e x y ∧ h_edges h !! e = Some E ∧ h_nodes h !! x = Some X ∧ h_nodes h !! y = Some Y ∧
    stmt s (with_edge (edge_drawn env h E X Y).1.1 (edge_drawn env h E X Y).1.2 (edge_drawn env h E X Y).2)) (all_edges h G)) as (estrs & He & HE).
  { intros e Hin. apply (elem_of_all_edges h g) in Hin; [|done..]. destruct Hin as (x & y & Hj). pose proof Hj as (E & HE & HEg & _ & _).
    destruct (joins_in_graph h g e x y) as [(G1 & k1 & HG1 & Hk1) (G2 & k2 & HG2 & Hk2)]; [done..|].
    destruct (wf_gnodes h W g G1 k1 x HG1 Hk1) as (X & HX & _ & HXg). destruct (wf_gnodes h W g G2 k2 y HG2 Hk2) as (Y & HY & _ & HYg).
    destruct (Hes e E HE HEg) as (H1 & H2 & H3). destruct (Hns x X HX HXg) as (HpX & _). destruct (Hns y Y HY HYg) as (HpY & _).
    destruct (edge_reads env h g G D e x y E X Y) as (t & us & Ht & Hus & Hd); [done..|]. exists t. split; [done|]. exists x, y, E, X, Y. split_and!; try done. by exists us. }
  assert (∃ nds, Forall2 (λ r d, ∃ N, h_nodes h !! r = Some N ∧ d = node_drawn env h N) (dvals (g_nodes G)) nds ∧ Forall2 stmt nstrs (map (λ p, with_node p.1 p.2) nds)) as (nds & HN1 & HN2).
  { clear -HF. induction HF as [|r t ns nstrs (N & HN & Hst) HF (nds & H1 & H2)]; [exists []; by split; constructor|].
    exists (node_drawn env h N :: nds). split; constructor; eauto. }
  assert (∃ eds, Forall2 (λ e d, ∃ x y E X Y, joins h g e x y ∧ h_edges h !! e = Some E ∧ h_nodes h !! x = Some X ∧ h_nodes h !! y = Some Y ∧ d = edge_drawn env h E X Y) (all_edges h G) eds ∧
    Forall2 stmt estrs (map (λ p, with_edge p.1.1 p.1.2 p.2) eds)) as (eds & HE1 & HE2).
  { clear -HE. induction HE as [|r t es estrs (x & y & E & X & Y & H1 & H2 & H3 & H4 & Hst) HF (eds & Ha & Hb)]; [exists []; by split; constructor|].
    exists (edge_drawn env h E X Y :: eds). split; constructor; eauto 10. }
  exists (dot_text ((if g_strict G then "strict digraph G {" +:+ NL else "digraph G{" +:+ NL) +:+ s) nstrs estrs), (dvals (g_nodes G)), (all_edges h G), nds, eds. split_and!; try done.
  - unfold graphviz_str, get_display. rewrite (get_g_Ok _ _ _ HG). cbn [rbind]. rewrite HD. cbn [rbind]. rewrite (nodes_run _ _ _ HG). cbn [rbind]. rewrite Hn.
    cbn [rbind]. rewrite (graph_edges_run _ _ _ W HG). cbn [rbind]. rewrite He. cbn [rbind]. rewrite Hh. cbn [rbind]. done.
  - by eapply dot_reads.
  - by eapply NoDup_nodes.
  - intros r. by apply elem_of_nodes.
  - apply NoDup_nub.
  - intros e. by apply elem_of_all_edges.
  - by apply nodes_run.
  - by apply graph_edges_run.
Qed.

(** C75: two graphs with the same text are both strict or both not, and have the same names
    of nodes and of the ends of edges, in the same order. *)
Lemma C75_same_proof : ∀ env h g G D dir he wi pad h' g' G' D' dir' he' wi' pad' text ns es ns' es',
  reachable h → h_graphs h !! g = Some G → g_disp G = Some D → harmless env h g G D dir he wi pad →
  reachable h' → h_graphs h' !! g' = Some G' → g_disp G' = Some D' → harmless env h' g' G' D' dir' he' wi' pad' →
  graphviz_str env h g dir he wi pad = Ok text → graphviz_str env h' g' dir' he' wi' pad' = Ok text →
  nodes h g = Ok ns → graph_edges h g = Ok es → nodes h' g' = Ok ns' → graph_edges h' g' = Ok es' →
  g_strict G = g_strict G' ∧
  Forall2 (λ r r', ∃ N N', h_nodes h !! r = Some N ∧ h_nodes h' !! r' = Some N' ∧ name_str (n_id N) = name_str (n_id N')) ns ns' ∧
  Forall2 (λ e e', ∃ x y X Y x' y' X' Y', joins h g e x y ∧ joins h' g' e' x' y' ∧ h_nodes h !! x = Some X ∧ h_nodes h !! y = Some Y ∧
    h_nodes h' !! x' = Some X' ∧ h_nodes h' !! y' = Some Y' ∧ name_str (n_id X) = name_str (n_id X') ∧ name_str (n_id Y) = name_str (n_id Y')) es es'.
Proof.
  intros env h g G D dir he wi pad h' g' G' D' dir' he' wi' pad' text ns es ns' es' Hr HG HD HH Hr' HG' HD' HH' Ht Ht' Hn He Hn' He'.
  destruct (C75_read_proof env h g G D dir he wi pad) as (t1 & ns1 & es1 & nds & eds & A1 & A2 & _ & _ & _ & _ & A3 & A4 & A5 & A6); [done..|].
  destruct (C75_read_proof env h' g' G' D' dir' he' wi' pad') as (t2 & ns2 & es2 & nds' & eds' & B1 & B2 & _ & _ & _ & _ & B3 & B4 & B5 & B6); [done..|].
  assert (t1 = text) as -> by congruence. assert (t2 = text) as -> by congruence. assert (ns1 = ns) as -> by congruence. assert (ns2 = ns') as -> by congruence.
  assert (es1 = es) as -> by congruence. assert (es2 = es') as -> by congruence. rewrite A2 in B2. injection B2 as Hst _ <- <-. split; [done|]. split.
  - clear -A5 B5. revert ns' B5. induction A5 as [|r d l1 l2 (N & HN & ->) HF IH]; intros l3 HB.
    + apply Forall2_nil_inv_r in HB as ->. constructor.
    + apply Forall2_cons_inv_r in HB as (r' & l3' & (N' & HN' & Hd) & HB & ->). constructor; [|by apply IH]. exists N, N'. split_and!; try done. by injection Hd.
  - clear -A6 B6. revert es' B6. induction A6 as [|r d l1 l2 (x & y & E & X & Y & Hj & HE & HX & HY & ->) HF IH]; intros l3 HB.
    + apply Forall2_nil_inv_r in HB as ->. constructor.
    + apply Forall2_cons_inv_r in HB as (r' & l3' & (x' & y' & E' & X' & Y' & Hj' & HE' & HX' & HY' & Hd) & HB & ->). constructor; [|by apply IH].
      exists x, y, X, Y, x', y', X', Y'. unfold edge_drawn in Hd. split_and!; try done; congruence.
Qed.

(** The sample of three nodes and two edges satisfies the conditions; here is what its
    text says. *)
Lemma C75_ex_proof : ∃ G D text, reachable dot_sample ∧ h_graphs dot_sample !! 0 = Some G ∧ g_disp G = Some D ∧
  harmless env0 dot_sample 0 G D "lr" PNone (PInt 3) PNone ∧ graphviz_str env0 dot_sample 0 "lr" PNone (PInt 3) PNone = Ok text ∧
  read_dot text = Some (true, Drawing (graph_attrs env0 dot_sample G D "lr" PNone (PInt 3) PNone)
    [("a", [("label", "a")]); ("b", [("label", "B")]); ("c", [("label", "c")])] [("a", "b", [("label", "ab")]); ("b", "c", [])]) ∧
  ("size", "3!") ∈ graph_attrs env0 dot_sample G D "lr" PNone (PInt 3) PNone ∧ ("rankdir", "LR") ∈ graph_attrs env0 dot_sample G D "lr" PNone (PInt 3) PNone.
Proof.
  eexists _, _, _. split; [apply dot_sample_reachable|]. split; [vm_compute; reflexivity|]. split; [vm_compute; reflexivity|]. split.
  { assert (Hpl : ∀ l : attrs, Forall (λ kv, plain kv.2) l → plain_attrs l).
    { intros l HF k v Hin. rewrite Forall_forall in HF. by apply (HF (k, v)). }
    split; try (vm_compute; reflexivity).
    - intros r N HN Hg. destruct r as [|[|[|r]]]; [..|destruct r; discriminate]; vm_compute in HN; injection HN as <-.
      all: split; [vm_compute; repeat split; discriminate|]; split; [vm_compute; done|]; split; [by apply Hpl; vm_compute|]; discriminate.
    - intros e E HE Hg. destruct e as [|[|e]]; [..|destruct e; discriminate]; vm_compute in HE; injection HE as <-.
      all: split; [apply Hpl; vm_compute; repeat constructor; discriminate|]; split; [by apply Hpl; vm_compute|]; discriminate.
    - right. split; [done|]. by eexists _, _, _.
    - apply Hpl. vm_compute. repeat constructor; discriminate.
    - right. by vm_compute.
    - intros k v Hin. vm_compute in Hin. by apply elem_of_nil in Hin. }
  split; [vm_compute; reflexivity|]. split; [vm_compute; reflexivity|]. split; vm_compute; repeat (first [left|right]). 
Qed.
