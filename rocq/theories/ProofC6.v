(** Calls on one graph and the other graphs: C23, C36, C53. *)
From Verif Require Export ProofStyFrame ProofC3.
Local Open Scope string_scope.
Local Open Scope list_scope.

(** * C53 *)
(** C53.  Any call that works on another graph leaves graph g as it was: the graph
    object, its nodes and edges with all their attributes, and the style objects
    that only g uses, unless these are assigned to themselves. *)
Lemma C53_frame_proof : ∀ h c g, reachable h → allowed h c → is_Some (h_graphs h !! g) → target h c ≠ Some g →
  unchanged g h (after c h) ∧ (¬ restyles_own h g c → own_styles_kept g h (after c h)).
Proof.
  intros h c g W%reachable_WF Hal Hex Ht. split; [by apply call_unchanged|]. intros Hro. by apply call_own_styles.
Qed.
(** C53.  Apart from stylize, render and assignments to style objects no call writes on an
    existing style object. *)
Lemma C53_styles_proof : ∀ h c, reachable h → allowed h c →
  writes_styles c = false → styles_kept h (after c h).
Proof. intros h c W%reachable_WF. by apply call_styles. Qed.
(** C53.  So does any sequence of such calls. *)
Lemma C53_sequence_proof : ∀ h h' g, reachable h → is_Some (h_graphs h !! g) → aside g h h' → unchanged g h h'.
Proof. intros h h' g W%reachable_WF. by apply aside_unchanged. Qed.
(** C53.  A call that makes a new graph (constructor, copy, filter, from_lists,
    from_object, from_indented_text, random, from_dict, Graph(obj)) changes no
    existing object at all. *)
Lemma C53_builders_proof : ∀ h c, reachable h → allowed h c → makes_graph c = true → extends h (after c h).
Proof. intros h c W%reachable_WF. by apply makes_extends. Qed.
(** Connecting in graph 1, with a node object of graph 0 as the start: graph 1 gets
    an edge, graph 0 none. *)
Lemma C53_frame_ex_proof :
  let c := CConnect 1 (ANode 0) (an "z") (eargs0 <| c_id := Some (nm "new") |>) in
  reachable sample ∧ allowed sample c ∧ is_Some (h_graphs sample !! 0) ∧ target sample c ≠ Some 0 ∧
  h_edges (after c sample) !! 7 = Some (new_edge 1 4 5 (eargs0 <| c_id := Some (nm "new") |>) None).
Proof. split; [apply sample_reachable|]. by split_and!. Qed.

(** * C36 *)
Lemma add_graphs_shape h dflt f order g1 g2 G1 G2 : WF h → h_graphs h !! g1 = Some G1 → h_graphs h !! g2 = Some G2 →
  ∃ h1, extends h1 (add_graphs dflt f order g1 g2 h).1 ∧
    (h1 = h ∨ ∃ D1 D2, g_disp G1 = Some D1 ∧ g_disp G2 = Some D2 ∧
      h1 = h <| h_graphs := <[g1 := G1 <| g_disp := Some (D1
        <| d_node_styles := dupdate (d_node_styles D1) (d_node_styles D2) |>
        <| d_edge_styles := dupdate (d_edge_styles D1) (d_edge_styles D2) |>) |>]> (h_graphs h) |>).
Proof.
  intros W HG1 HG2. unfold add_graphs, sbind, sread.
  destruct (graph_repr h g1) as [d1|x1] eqn:H1; [|exists h; split; [apply extends_refl|by left]].
  destruct (graph_repr h g2) as [d2|x2] eqn:H2; [|exists h; split; [apply extends_refl|by left]].
  rewrite (get_g_Ok _ _ _ HG2).
  assert (∃ D1, g_disp G1 = Some D1) as [D1 HD1].
  { unfold graph_repr in H1. rewrite (get_g_Ok _ _ _ HG1) in H1. cbn [rbind] in H1.
    destruct (rfold _ _ _) in H1; [|done]. cbn [rbind] in H1. destruct (g_disp G1); [eauto|done]. }
  assert (∃ D2, g_disp G2 = Some D2) as [D2 HD2].
  { unfold graph_repr in H2. rewrite (get_g_Ok _ _ _ HG2) in H2. cbn [rbind] in H2.
    destruct (rfold _ _ _) in H2; [|done]. cbn [rbind] in H2. destruct (g_disp G2); [eauto|done]. }
  rewrite HD2. cbn [when_some]. unfold upd_disp, sbind, sread. rewrite (get_g_Ok _ _ _ HG1), HD1.
  rewrite (upd_g_run _ _ G1) by done. set (h1 := h <| h_graphs := _ |>).
  exists h1. split; [|by right; exists D1, D2].
  destruct (add_repr f order d1 d2) as [d|x] eqn:Hd; [|apply extends_refl].
  assert (WF h1) as W1.
  { pose proof (WF_data_only _ h1 W) as Hx. apply Hx. subst h1. split; simpl; [apply (do_nodes _ _ (data_only_refl h))|apply (do_edges _ _ (data_only_refl h))| |done|done].
    - intros g. destruct (decide (g = g1)) as [->|].
      + pose proof (lookup_lt_Some _ _ _ HG1). rewrite HG1. by rewrite list_lookup_insert.
      + rewrite list_lookup_insert_ne by done. by destruct (h_graphs h !! g). }
  pose proof (graph_repr_styles _ _ _ W H1) as S1. pose proof (graph_repr_styles _ _ _ W H2) as S2.
  assert (J (extends h1) (length (h_ns h1)) (length (h_es h1)) h1) as HJ.
  { split; [split; [done|split; lia]|apply extends_refl]. }
  apply (J_graph_of _ _ (closed_extends h1 W1) _ _ false true dflt (ODict d)) in HJ; [by apply HJ|]. simpl.
  eapply add_repr_styles; [exact S1|exact S2|exact Hd].
Qed.
(** C36, what g1 + g2 may change, whether it succeeds or fails: nothing but the
    per-node and per-edge style overwrites kept in the graph object of g1, which
    receive those of g2.  Partial: the property claims that not even these change. *)
Lemma C36_operands_partial_proof : ∀ h dflt f order g1 g2 G1 G2, reachable h →
  h_graphs h !! g1 = Some G1 → h_graphs h !! g2 = Some G2 →
  ∃ h1, extends h1 (after (CAdd dflt f order g1 g2) h) ∧
    (h1 = h ∨ ∃ D1 D2, g_disp G1 = Some D1 ∧ g_disp G2 = Some D2 ∧
      h1 = h <| h_graphs := <[g1 := G1 <| g_disp := Some (D1
        <| d_node_styles := dupdate (d_node_styles D1) (d_node_styles D2) |>
        <| d_edge_styles := dupdate (d_edge_styles D1) (d_edge_styles D2) |>) |>]> (h_graphs h) |>).
Proof. intros h dflt f order g1 g2 G1 G2 W%reachable_WF. by apply add_graphs_shape. Qed.
(** C36.  If g2 has no per-node or per-edge style overwrites, g1 + g2 leaves every
    existing object unchanged. *)
Lemma C36_plain_partial_proof : ∀ h dflt f order g1 g2 G1 G2 D2, reachable h →
  h_graphs h !! g1 = Some G1 → h_graphs h !! g2 = Some G2 →
  g_disp G2 = Some D2 → d_node_styles D2 = [] → d_edge_styles D2 = [] →
  extends h (after (CAdd dflt f order g1 g2) h).
Proof.
  intros h dflt f order g1 g2 G1 G2 D2 W%reachable_WF HG1 HG2 HD Hn He.
  destruct (add_graphs_shape h dflt f order g1 g2 G1 G2 W HG1 HG2) as (h1 & Hx & [->|(D1 & D2' & HD1 & HD2 & ->)]); [done|].
  assert (D2' = D2) as -> by congruence. rewrite Hn, He in Hx. eapply extends_trans; [|exact Hx].
  split; simpl; try done. intros g G HG. destruct (decide (g = g1)) as [->|].
  - rewrite list_lookup_insert by (by eapply lookup_lt_Some). f_equal. assert (G = G1) as -> by congruence.
    destruct G1. simpl in *. subst. by destruct D1.
  - by rewrite list_lookup_insert_ne.
Qed.
(** a graph with one node a, and another whose dictionary asks for a triangle *)
Definition styled_repr : grepr :=
  MkRepr None None None None None None None None None None None (inr [nm "a"]) []
    (Some [(nm "a", [("shape", PStr "triangle")])]) None None None.
Definition two_graphs : list call :=
  [CNew false true disp0; CAddNode 0 (an "a") nargs0; CFromDict disp0 styled_repr].
(** C36 is false: after g1 + g2, which succeeds, the same node of g1 is drawn with
    another shape, because g1 has taken over the style overwrites of g2. *)
Lemma C36_refuted_proof : ∃ h c g, reachable h ∧ allowed h c ∧ c = CAdd disp0 default_add id 0 1 ∧
  (add_graphs disp0 default_add id 0 1 h).2 = Ok g ∧
  (render env0 0 "TB" (PInt 0) id h).2 ≠ (render env0 0 "TB" (PInt 0) id (after c h)).2 ∧
  (d_node_styles <$> (h_graphs h !! 0 ≫= g_disp)) = Some [] ∧
  (d_node_styles <$> (h_graphs (after c h) !! 0 ≫= g_disp)) = Some [(nm "a", [("shape", PStr "triangle")])].
Proof.
  exists (run two_graphs empty_heap), (CAdd disp0 default_add id 0 1), 2.
  split. { apply run_reachable; [constructor|]. split; [done|]. split; [done|]. split; [|done]. split; [done|].
           by intros p c a ?%elem_of_nil. }
  split; [done|]. split; [done|]. split; [vm_compute; reflexivity|]. split; [vm_compute; discriminate|].
  split; vm_compute; reflexivity.
Qed.
(** C53, instance for sequences: three calls on graph 1, the second of which fails. *)
Lemma C53_sequence_ex_proof : reachable sample ∧ is_Some (h_graphs sample !! 0) ∧
  (let cs := [CRemoveNode 1 (an "z"); CRemoveNode 1 (an "z"); CAddNode 1 (an "b") (nargs0 <| a_value := PInt 3 |>)] in
   aside 0 sample (run cs sample) ∧ h_nodes (run cs sample) ≠ h_nodes sample).
Proof.
  split; [apply sample_reachable|]. split; [eexists; by vm_compute|]. intros cs. split; [|by vm_compute].
  unfold cs. cbn [run fold_left]. repeat (apply aside_cons; [|by vm_compute; repeat split|by vm_compute]). constructor.
Qed.
(** C53, instance for styles: assigning a second style object leaves the first as it is. *)
Lemma C53_styles_ex_proof : let h := run [CNodeStyle 0 (SDict [("colour", PStr "red")])] sample in
  let c := CNodeStyle 1 (SDict [("colour", PStr "blue")]) in
  reachable h ∧ allowed h c ∧ length (h_ns h) = 1 ∧ length (h_ns (after c h)) = 2.
Proof. intros h c. split; [apply run_reachable; [apply sample_reachable|by repeat split]|]. by vm_compute. Qed.
(** C53, instance for builders: a graph is made from lists. *)
Lemma C53_builders_ex_proof : let c := CFromLists disp0 ["a"] ["b"] [PNone] false in
  reachable sample ∧ allowed sample c ∧ makes_graph c = true ∧ length (h_graphs (after c sample)) = 3 ∧
  length (h_nodes (after c sample)) = 8.
Proof. split; [apply sample_reachable|]. by vm_compute. Qed.
(** C36, instance without overwrites: graph 1 has an edge, so that the sum fails, and
    nothing changes; and two graphs without edges, whose sum is a third one. *)
Lemma C36_plain_ex_proof : let h := run [CNew false true disp0; CNew false true disp0; CAddNode 0 (an "a") nargs0; CAddNode 1 (an "b") nargs0] empty_heap in
  reachable h ∧ (∃ G1 G2 D2, h_graphs h !! 0 = Some G1 ∧ h_graphs h !! 1 = Some G2 ∧ g_disp G2 = Some D2 ∧
    d_node_styles D2 = [] ∧ d_edge_styles D2 = []) ∧
  (add_graphs disp0 default_add id 0 1 h).2 = Ok 2 ∧ (add_graphs disp0 default_add id 0 1 sample).2 = Err AttributeError.
Proof.
  intros h. split; [reach|]. split; [|by vm_compute]. eexists _, _, _. by vm_compute.
Qed.
