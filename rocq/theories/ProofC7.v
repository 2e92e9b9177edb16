(** Copies: C23, C24, C25. *)
From Verif Require Export ProofC6 SpecCopy ProofRepr.
Local Open Scope string_scope.
Local Open Scope list_scope.

Lemma is_meth_true v : is_meth v = true ↔ ∃ m, v = PMeth m.
Proof. destruct v; simpl; naive_solver. Qed.
Lemma has_meth_list (l : list pv) : existsb is_meth l = true ↔ ∃ m, PMeth m ∈ l.
Proof.
  rewrite existsb_exists. setoid_rewrite is_meth_true. setoid_rewrite <-elem_of_list_In. naive_solver.
Qed.
Lemma node_meth N : node_has_meth N = true ↔
  ∃ m, n_label N = PMeth m ∨ n_value N = PMeth m ∨ n_tooltip N = PMeth m ∨ PMeth m ∈ dvals (n_params N).
Proof. unfold node_has_meth. rewrite !orb_true_iff, !is_meth_true, has_meth_list. naive_solver. Qed.
Lemma edge_meth N : edge_has_meth N = true ↔
  ∃ m, e_label N = PMeth m ∨ e_value N = PMeth m ∨ e_tooltip N = PMeth m ∨ PMeth m ∈ dvals (e_params N).
Proof. unfold edge_has_meth. rewrite !orb_true_iff, !is_meth_true, has_meth_list. naive_solver. Qed.
Lemma no_methods_spec h g G : WF h → h_graphs h !! g = Some G → no_methods h g → no_meth h G = true.
Proof.
  intros W HG [Hn He]. unfold no_meth. apply negb_true_iff, orb_false_iff.
  split; apply not_true_is_false; rewrite existsb_exists; intros (x & Hx & Hm); apply elem_of_list_In in Hx.
  - apply (Ns_elem h g G W HG) in Hx as (r & HN & Hg). apply node_meth in Hm as (m & Hm).
    destruct (Hn r x m HN Hg) as (? & ? & ? & ?). naive_solver.
  - apply (Es_elem h g G W HG) in Hx as (r & HN & Hg). apply edge_meth in Hm as (m & Hm).
    destruct (He r x m HN Hg) as (? & ? & ? & ?). naive_solver.
Qed.
Lemma copied_copy_of h g G : WF h → h_graphs h !! g = Some G → no_meth h G = true →
  copy_of h g (copied h G) (length (h_graphs h)) (nmap h G) (emap h G).
Proof.
  intros W HG Hm. split.
  - intros G' HG'. assert (G' = G) as -> by congruence. apply copied_new_graph.
  - intros r N HN Hg. split; [apply lookup_ge_None; unfold nmap; lia|]. by rewrite (copied_new_node h g G W HG r N).
  - intros e E HE Hg. split; [apply lookup_ge_None; unfold emap; lia|].
    exists (copied_edge h G E). split; [by rewrite (copied_new_edge h g G W HG e E)|].
    split_and!; try done.
    + intros Hs. simpl. by rewrite Hs.
    + intros s sty Hs Hsty. exists (esmap h G s), (es_deepcopy sty). simpl. rewrite Hs.
      split; [done|]. split; [apply lookup_ge_None; unfold esmap; lia|].
      split; [by eapply (copied_new_style h g G W HG e E)|]. done.
  - intros r' N' HN' Hg. destruct (copied_node_inv h g G W HG _ _ HN') as [HN|(r & N & ? & ? & -> & ->)]; [|eauto].
    destruct (wf_ngraph _ W _ _ _ HN Hg) as (G' & HG' & _). apply lookup_lt_Some in HG'. lia.
  - intros r' N' HN' Hg. destruct (copied_edge_inv h g G W HG _ _ HN') as [HN|(r & N & ? & ? & -> & ->)]; [|eauto].
    destruct (get_edge_id_live h _ _ _ W HN Hg) as (s & t & Ns & Nt & u & _ & _ & HNs & _ & Hgs & _).
    destruct (wf_ngraph _ W _ _ _ HNs Hgs) as (G' & HG' & _). apply lookup_lt_Some in HG'. lia.
  - intros r1 r2 H1 H2. apply in_graph_node in H1; [|done]. apply in_graph_node in H2; [|done].
    apply (nmap_inj h G); by apply (rs_node h g G W HG).
  - intros e1 e2 E1 E2 H1 G1 H2 G2 Heq. unfold emap in Heq.
    apply (pos_inj e1 e2 (edges_in (look (h_nodes h) (g_refs G)))); [apply (es_edge h g G W HG); eauto..|lia].
Qed.

(** * C23 *)
(** C23.  Copying a graph without node styles succeeds: the result is a new graph,
    corresponding node by node and edge by edge to the original, and no object
    that existed before was changed. *)
Lemma C23_copy_proof : ∀ h g G, reachable h → h_graphs h !! g = Some G → unstyled h g → no_methods h g →
  ∃ h' g' nu ep, copy g h = (h', Ok g') ∧ h_graphs h !! g' = None ∧ extends h h' ∧ copy_of h g h' g' nu ep.
Proof.
  intros h g G W%reachable_WF HG Hu Hm. apply (no_methods_spec h g G W HG) in Hm as Hm'.
  destruct (copy_cases h g G W HG) as [[? _]|[(_ & (r & N & s & HN & Hg & Hs) & _)|(_ & _ & Hc)]]; [congruence|..].
  - rewrite (Hu r N HN Hg) in Hs. done.
  - exists (copied h G), (length (h_graphs h)), (nmap h G), (emap h G). split; [done|].
    split; [by apply lookup_ge_None|]. split; [|by apply copied_copy_of].
    pose proof (makes_extends h (CCopy g) W I eq_refl) as Hx. simpl in Hx. by rewrite Hc in Hx.
Qed.
(** C23.  Afterwards the two graphs are independent: calls that are not on the
    original leave the original as it is, and calls that are not on the copy leave
    the copy as it is. *)
Lemma C23_independent_proof : ∀ h g h' g', reachable h → is_Some (h_graphs h !! g) → copy g h = (h', Ok g') →
  g ≠ g' ∧ (∀ h'', aside g h' h'' → unchanged g h h'') ∧ (∀ h'', aside g' h' h'' → unchanged g' h' h'').
Proof.
  intros h g h' g' Hr Hex Hc. pose proof (reachable_WF _ Hr) as W. pose proof (makes_extends h (CCopy g) W I eq_refl) as Hx.
  assert (reachable h') as Hr'. { pose proof (reach_call h (CCopy g) Hr I) as H. simpl in H. by rewrite Hc in H. }
  simpl in Hx. rewrite Hc in Hx. simpl in Hx.
  assert (g' = length (h_graphs h)) as -> by (apply (copy_result h g); [done|by rewrite Hc]).
  destruct Hex as [G HG]. pose proof (lookup_lt_Some _ _ _ HG) as Hlt.
  assert (is_Some (h_graphs h' !! length (h_graphs h))) as Hex'.
  { destruct (copy_cases h g G W HG) as [[_ Hy]|[(_ & _ & Hy)|(_ & _ & Hy)]]; rewrite Hc in Hy; simplify_eq.
    eexists. apply copied_new_graph. }
  split; [lia|]. split.
  - intros h'' Ha. eapply unchanged_trans; [|eapply C53_sequence_proof; [done| |done]].
    + replace h' with (after (CCopy g) h) by (simpl; by rewrite Hc). apply call_unchanged; try done.
    + exists G. by apply Hx.
  - intros h'' Ha. by eapply C53_sequence_proof.
Qed.
(** The sample graph: a copy of graph 0, then calls on both. *)
Lemma C23_copy_ex_proof : reachable sample ∧ is_Some (h_graphs sample !! 0) ∧ unstyled sample 0 ∧ no_methods sample 0 ∧
  ∃ h', copy 0 sample = (h', Ok 2) ∧
  aside 0 h' (run [CRemoveNode 2 (an "b"); CAddNode 2 (an "new") nargs0; CAddNode 1 (an "q") nargs0] h').
Proof.
  split; [apply sample_reachable|]. split; [eexists; by vm_compute|]. split; [|split; [split|]].
  - intros r N HN _. do 6 (destruct r as [|r]; [injection HN as <-; done|]). done.
  - intros r N m HN _. do 6 (destruct r as [|r]; [injection HN as <-; split_and!; try done; by apply not_elem_of_nil|]). done.
  - intros r N m HN _. do 7 (destruct r as [|r]; [injection HN as <-; split_and!; try done; by apply not_elem_of_nil|]). done.
  - eexists. split; [by vm_compute|]. cbn [run fold_left].
    repeat (apply aside_cons; [|by vm_compute; repeat split|by vm_compute]). constructor.
Qed.

(** * C24 *)
(** C24, when copying succeeds: exactly if no node has a style; otherwise it raises
    KeyError and changes nothing.  Partial: the property claims success always. *)
Lemma C24_exact_partial_proof : ∀ h g G, reachable h → h_graphs h !! g = Some G → no_methods h g →
  (unstyled h g → ∃ h' g', copy g h = (h', Ok g')) ∧ (¬ unstyled h g → copy g h = (h, Err KeyError)).
Proof.
  intros h g G W%reachable_WF HG Hm. apply (no_methods_spec h g G W HG) in Hm as Hm'.
  destruct (copy_cases h g G W HG) as [[? _]|[(_ & (r & N & s & HN & Hg & Hs) & Hc)|(_ & Hu & Hc)]]; [congruence|..].
  - split; [|done]. intros Hu. rewrite (Hu r N HN Hg) in Hs. done.
  - split; [eauto|]. intros Hn. by destruct Hn.
Qed.
(** C24 is false: rendering a graph succeeds and copying it then fails. *)
Lemma C24_refuted_proof : ∃ h g s, reachable h ∧ is_Some (h_graphs h !! g) ∧
  (render env0 g "TB" (PInt 0) id h).2 = Ok s ∧
  (let h1 := after (CRender env0 g "TB" (PInt 0) id) h in reachable h1 ∧ copy g h1 = (h1, Err KeyError)).
Proof.
  eexists (run (graph_calls ["a"; "b"] [("a", "b")]) empty_heap), 0, _.
  assert (reachable (run (graph_calls ["a"; "b"] [("a", "b")]) empty_heap)) as Hr by reach.
  split; [done|]. split; [eexists; by vm_compute|]. split; [vm_compute; reflexivity|]. cbv zeta.
  split; [|by vm_compute]. apply reach_call; [done|]. simpl. done.
Qed.

(** * C25 *)
Lemma copy_joins h g h' g' nu ep : WF h → WF h' → copy_of h g h' g' nu ep → ∀ e x y, joins h g e x y → joins h' g' (ep e) (nu x) (nu y).
Proof.
  intros W W' Hc e x y (E & HE & Hg & Hs & Ht).
  destruct (cp_edges _ _ _ _ _ _ Hc e E HE Hg) as (_ & E' & HE' & Hg' & _ & _ & _ & _ & _ & _ & Hs' & Ht' & _).
  exists E'. rewrite Hs', Ht', Hs, Ht. done.
Qed.
Lemma copy_joins_inv h g h' g' nu ep : WF h → copy_of h g h' g' nu ep → ∀ e' x' y', joins h' g' e' x' y' →
  ∃ e x y, joins h g e x y ∧ e' = ep e ∧ x' = nu x ∧ y' = nu y.
Proof.
  intros W Hc e' x' y' (E' & HE' & Hg' & Hs' & Ht').
  destruct (cp_edges_onto _ _ _ _ _ _ Hc e' E' HE' Hg') as (e & E & HE & Hg & ->).
  destruct (cp_edges _ _ _ _ _ _ Hc e E HE Hg) as (_ & E1 & HE1 & _ & _ & _ & _ & _ & _ & _ & Hs & Ht & _).
  assert (E1 = E') as -> by congruence. rewrite Hs' in Hs. rewrite Ht' in Ht.
  destruct (e_start E) as [x|] eqn:Hx; [|done]. destruct (e_end E) as [y|] eqn:Hy; [|done]. simpl in *. simplify_eq.
  exists e, x, y. split; [|done]. by exists E.
Qed.
Section copy_walk.
  Context h g h' g' nu ep (W : WF h) (W' : WF h') (Hc : copy_of h g h' g' nu ep).
  Lemma copy_adj x y : adj h g x y → adj h' g' (nu x) (nu y).
  Proof. intros [e He]. exists (ep e). exact (copy_joins _ _ _ _ _ _ W W' Hc _ _ _ He). Qed.
  Lemma copy_adj_inv x y' : in_graph h g x → adj h' g' (nu x) y' → ∃ y, adj h g x y ∧ in_graph h g y ∧ y' = nu y.
  Proof.
    intros Hx [e' He']. destruct (copy_joins_inv _ _ _ _ _ _ W Hc _ _ _ He') as (e & x1 & y & Hj & -> & Heq & ->).
    destruct (joins_in_graph h g e x1 y W Hj) as [Hx1 Hy].
    apply (cp_nodes_inj _ _ _ _ _ _ Hc) in Heq as ->; [|done..]. exists y. split; [by exists e|done].
  Qed.
  Lemma copy_walk n x y : in_graph h g x → in_graph h g y → walk h g n x y ↔ walk h' g' n (nu x) (nu y).
  Proof.
    intros Hx Hy. split.
    - intros Hw. clear Hx Hy. induction Hw as [x|n x y z Ha _ IH]; [apply nsteps_O|]. eapply nsteps_l; [by apply copy_adj|done].
    - intros Hw. remember (nu x) as x' eqn:Ex. remember (nu y) as y' eqn:Ey. revert x Hx Ex.
      induction Hw as [x'|n x' z' y' Ha _ IH]; intros x Hx Ex.
      + assert (x = y) as -> by (apply (cp_nodes_inj _ _ _ _ _ _ Hc); congruence). apply nsteps_O.
      + subst x'. apply copy_adj_inv in Ha as (z & Ha & Hz & ->); [|done].
        eapply nsteps_l; [done|]. by apply IH.
  Qed.
  Lemma copy_path x y : in_graph h g x → in_graph h g y → path h g x y ↔ path h' g' (nu x) (nu y).
  Proof.
    intros Hx Hy. unfold path. rewrite !tc_nsteps. setoid_rewrite <-(copy_walk _ x y Hx Hy). done.
  Qed.
  Lemma copy_distance n x y : in_graph h g x → in_graph h g y → distance h g n x y ↔ distance h' g' n (nu x) (nu y).
  Proof. intros Hx Hy. unfold distance. setoid_rewrite <-(copy_walk _ x y Hx Hy). done. Qed.
End copy_walk.

(** C25, the part that holds: a copy has the same structure, so that everything the
    library derives from edges (children, ancestors, loops, distances: C12-C22) is
    the same up to the correspondence.  Partial: the property also claims it for
    display. *)
Lemma C25_structure_partial_proof : ∀ h g h' g', reachable h → is_Some (h_graphs h !! g) → copy g h = (h', Ok g') →
  ∃ nu ep, copy_of h g h' g' nu ep ∧
    (∀ e x y, joins h g e x y → joins h' g' (ep e) (nu x) (nu y)) ∧
    (∀ x y, in_graph h g x → in_graph h g y →
      (adj h g x y ↔ adj h' g' (nu x) (nu y)) ∧ (path h g x y ↔ path h' g' (nu x) (nu y)) ∧
      (∀ n, distance h g n x y ↔ distance h' g' n (nu x) (nu y))).
Proof.
  intros h g h' g' Hr [G HG] Hc. pose proof (reachable_WF _ Hr) as W.
  assert (reachable h') as W'%reachable_WF.
  { pose proof (reach_call h (CCopy g) Hr I) as H. simpl in H. by rewrite Hc in H. }
  assert (∃ nu ep, copy_of h g h' g' nu ep) as (nu & ep & Hcp).
  { destruct (copy_cases h g G W HG) as [[_ Hy]|[(_ & _ & Hy)|(Hm & _ & Hy)]]; rewrite Hc in Hy; simplify_eq.
    eexists _, _. by apply copied_copy_of. }
  exists nu, ep. split; [done|]. split; [exact (copy_joins _ _ _ _ _ _ W W' Hcp)|].
  intros x y Hx Hy. split_and!.
  - split; [exact (copy_adj _ _ _ _ _ _ W W' Hcp x y)|]. intros Ha. apply (copy_adj_inv h g h' g' nu ep) in Ha as (y1 & Ha & Hy1 & Heq); [|done..].
    by apply (cp_nodes_inj _ _ _ _ _ _ Hcp) in Heq as ->.
  - exact (copy_path _ _ _ _ _ _ W W' Hcp x y Hx Hy).
  - intros n. exact (copy_distance _ _ _ _ _ _ W W' Hcp n x y Hx Hy).
Qed.
Lemma copy_no_display h g h' g' : WF h → copy g h = (h', Ok g') → ∃ G', h_graphs h' !! g' = Some G' ∧ g_disp G' = None.
Proof.
  intros W Hc. destruct (h_graphs h !! g) as [G|] eqn:HG.
  - destruct (copy_cases h g G W HG) as [[_ Hy]|[(_ & _ & Hy)|(Hm & _ & Hy)]]; rewrite Hc in Hy; simplify_eq.
    eexists. split; [apply copied_new_graph|done].
  - unfold copy, sbind, sread, get_g in Hc. by rewrite HG in Hc.
Qed.
(** C25, what fails on every copy: stylize, render and __graph__ (hence also
    appending it to another graph, and +) raise AttributeError.  Partial: the
    property claims that these work as on the original. *)
Lemma C25_display_partial_proof : ∀ h g h' g', reachable h → copy g h = (h', Ok g') →
  (∀ shuffle, stylize g' shuffle h' = (h', Err AttributeError)) ∧
  (∀ env dir pad shuffle, render env g' dir pad shuffle h' = (h', Err AttributeError)) ∧
  graph_repr h' g' = Err AttributeError ∧
  (∀ g1, graph_append g1 (OGraph g') h' = (h', Err TypeError)) ∧
  (∀ d f order g2, add_graphs d f order g' g2 h' = (h', Err AttributeError)).
Proof.
  intros h g h' g' Hr Hc. pose proof (reachable_WF _ Hr) as W.
  assert (reachable h') as W'%reachable_WF.
  { pose proof (reach_call h (CCopy g) Hr I) as H. simpl in H. by rewrite Hc in H. }
  destruct (copy_no_display h g h' g' W Hc) as (G' & HG' & HD).
  assert (∀ shuffle, stylize g' shuffle h' = (h', Err AttributeError)) as Hs.
  { intros shuffle. unfold stylize, sbind, sread, get_display, get_g. rewrite HG'. cbn [rbind]. by rewrite HD. }
  assert (graph_repr h' g' = Err AttributeError) as Hg.
  { destruct (edgeless_dec h' g' G' W' HG') as [Hno|(e & x & y & Hj)].
    - rewrite (graph_repr_edgeless h' g' G') by done. by rewrite HD.
    - by eapply graph_repr_edges. }
  split; [done|]. split; [|split; [done|split]].
  - intros. unfold render, sbind. by rewrite Hs.
  - intros. unfold graph_append, sbind, sread. simpl. by rewrite Hg.
  - intros. unfold add_graphs, sbind, sread. by rewrite Hg.
Qed.
(** C25 is false: rendering works on the graph, not on its copy. *)
Lemma C25_refuted_proof : ∃ h g s h' g', reachable h ∧ (render env0 g "TB" (PInt 0) id h).2 = Ok s ∧
  copy g h = (h', Ok g') ∧ (render env0 g' "TB" (PInt 0) id h').2 = Err AttributeError.
Proof.
  eexists (run (graph_calls ["a"; "b"] [("a", "b")]) empty_heap), 0, _, _, _.
  split; [reach|]. split; [vm_compute; reflexivity|]. split; [vm_compute; reflexivity|]. vm_compute. reflexivity.
Qed.
Definition line_width (n : Z) : eargs := eargs0 <| c_style := SDict [("line_width", PInt n)] |>.
Definition restyle_calls : list call :=
  [CNew false true (disp0 <| d_overwrite := true |>); CAddNode 0 (an "a") nargs0; CAddNode 0 (an "b") nargs0;
   CConnect 0 (an "a") (an "b") (line_width 1)].
(** C25 is false for updates too: giving an edge that has a style another one. *)
Lemma C25_update_refuted_proof : ∃ h g e h' g', reachable h ∧
  (connect g (an "a") (an "b") (line_width 2) h).2 = Ok e ∧
  copy g h = (h', Ok g') ∧ (connect g' (an "a") (an "b") (line_width 2) h').2 = Err AttributeError.
Proof.
  eexists (run restyle_calls empty_heap), 0, _, _, _.
  split; [reach|]. split; [vm_compute; reflexivity|]. split; [vm_compute; reflexivity|]. vm_compute. reflexivity.
Qed.
