(** Properties C14-C21: ancestors, descendants, loops, roots, siblings. *)
From Verif Require Export ProofC2.
Local Open Scope string_scope.
Local Open Scope list_scope.

(** C14.  ancestors: never fails, no repetition, exactly the nodes with a path of
    at least one edge to the node. *)
Lemma C14_ancestors_proof : ∀ h g x r, reachable h → denotes h g x r →
  ∃ L, get_ancestors h g x = Ok L ∧ node_ancestors h r = Ok L ∧ NoDup L ∧ ∀ y, y ∈ L ↔ path h g y r.
Proof.
  intros h g x r W%reachable_WF Hx. pose proof (denotes_in_graph _ _ _ _ Hx) as Hr.
  destruct (get_ancestors_spec h W g x r) as (L & HL & ? & ?); [by apply denotes_get|].
  exists L. split_and!; try done. unfold node_ancestors. rewrite (node_graph_run h W g) by done. cbn [rbind].
  unfold get_ancestors in *. rewrite <-(get_anc_arg h W g _ x); [done|by apply denotes_get].
Qed.
(** In the sample, c is on a cycle and a is not. *)
Lemma C14_ancestors_ex_proof : reachable sample ∧ denotes sample 0 (an "c") 2 ∧
  get_ancestors sample 0 (an "c") = Ok [1; 0; 2] ∧ get_ancestors sample 0 (an "a") = Ok [].
Proof.
  split; [apply sample_reachable|]. split_and!; [|by vm_compute..].
  exists (nm "c"). split; [|by left]. eexists. split; [done|]. by do 2 right; left.
Qed.

(** C15.  descendants: never fails, no repetition, exactly the other nodes that
    can be reached; num_descendants counts them. *)
Lemma C15_descendants_proof : ∀ h g x r, reachable h → denotes h g x r →
  ∃ L, get_descendants h g x = Ok L ∧ node_descendants h r = Ok L ∧ num_descendants h r = Ok (length L) ∧
    NoDup L ∧ ∀ y, y ∈ L ↔ path h g r y ∧ y ≠ r.
Proof.
  intros h g x r W%reachable_WF Hx. pose proof (denotes_in_graph _ _ _ _ Hx) as Hr.
  destruct (get_descendants_spec h W g x r) as (L & HL & ? & ?); [by apply denotes_get|].
  assert (Hn : node_descendants h r = Ok L).
  { unfold node_descendants. rewrite (node_graph_run h W g) by done. cbn [rbind].
    unfold get_descendants in *. rewrite <-(get_desc_arg h W g _ x); [done|by apply denotes_get]. }
  exists L. split_and!; try done. unfold num_descendants. by rewrite Hn.
Qed.
(** In the sample, c reaches itself but is not listed. *)
Lemma C15_descendants_ex_proof : reachable sample ∧ denotes sample 0 (an "c") 2 ∧
  get_descendants sample 0 (an "c") = Ok [1] ∧ get_descendants sample 0 (an "a") = Ok [1; 2].
Proof.
  split; [apply sample_reachable|]. split_and!; [|by vm_compute..].
  exists (nm "c"). split; [|by left]. eexists. split; [done|]. by do 2 right; left.
Qed.

(** C16.  descendants and ancestors are converse. *)
Lemma C16_converse_proof : ∀ h g a b, reachable h → in_graph h g a → in_graph h g b → a ≠ b →
  ∃ La Lb, node_descendants h a = Ok La ∧ node_ancestors h b = Ok Lb ∧ (b ∈ La ↔ a ∈ Lb).
Proof.
  intros h g a b Hre Ha Hb Hne. pose proof (reachable_WF _ Hre) as W.
  assert (Hden : ∀ r, in_graph h g r → denotes h g (ANode r) r).
  { intros r Hr. pose proof Hr as (G & k & HG & Hk). destruct (wf_gnodes _ W g G k r) as (N & HN & Hid & _); [done..|].
    exists k. split; [by exists G|]. right. eauto. }
  destruct (C15_descendants_proof h g (ANode a) a Hre (Hden a Ha)) as (La & _ & HLa & _ & _ & HLa').
  destruct (C14_ancestors_proof h g (ANode b) b Hre (Hden b Hb)) as (Lb & _ & HLb & _ & HLb').
  exists La, Lb. split_and!; [done..|]. rewrite HLa', HLb'. naive_solver.
Qed.
(** Nodes a and c of the sample. *)
Lemma C16_converse_ex_proof : reachable sample ∧ in_graph sample 0 0 ∧ in_graph sample 0 2 ∧
  node_descendants sample 0 = Ok [1; 2] ∧ node_ancestors sample 2 = Ok [1; 0; 2].
Proof.
  split; [apply sample_reachable|]. split_and!; [| |by vm_compute..].
  - eexists _, (nm "a"). split; [done|]. left.
  - eexists _, (nm "c"). split; [done|]. by do 2 right; left.
Qed.

(** * loops *)
Section loops.
  Context (h : heap) (W : WF h).
  Lemma denotes_self g r : in_graph h g r → denotes h g (ANode r) r.
  Proof.
    intros (G & k & HG & Hk). destruct (wf_gnodes _ W g G k r) as (N & HN & Hid & _); [done..|].
    exists k. split; [by exists G|]. right. eauto.
  Qed.
  Lemma in_loop_run g a r : denotes h g a r → ∃ b, is_node_in_loop h g a = Ok b ∧ (b = true ↔ on_cycle h g r).
  Proof.
    intros Ha. pose proof (denotes_in_graph _ _ _ _ Ha) as Hr. unfold is_node_in_loop. rewrite (denotes_get h g a r) by done. cbn [rbind].
    destruct (get_ancestors_spec h W g (ANode r) r) as (L & -> & _ & HL); [by apply denotes_get, denotes_self|]. cbn [rbind].
    eexists. split; [done|]. rewrite (node_in_run h W g); [|done|intros y Hy%HL; by apply path_in_graph in Hy as [? _]].
    unfold obj_in. rewrite bool_decide_eq_true. apply HL.
  Qed.
  Lemma same_loop_run g a b r1 r2 : denotes h g a r1 → denotes h g b r2 →
    ∃ v, are_nodes_in_same_loop h g a b = Ok v ∧ (v = true ↔ path h g r1 r2 ∧ path h g r2 r1).
  Proof.
    intros Ha Hb. pose proof (denotes_in_graph _ _ _ _ Ha) as H1. pose proof (denotes_in_graph _ _ _ _ Hb) as H2.
    unfold are_nodes_in_same_loop. rewrite (denotes_get h g a r1), (denotes_get h g b r2) by done. cbn [rbind].
    destruct (get_ancestors_spec h W g (ANode r2) r2) as (L2 & -> & _ & HL2); [by apply denotes_get, denotes_self|]. cbn [rbind].
    destruct (get_ancestors_spec h W g (ANode r1) r1) as (L1 & -> & _ & HL1); [by apply denotes_get, denotes_self|]. cbn [rbind].
    eexists. split; [done|].
    rewrite (node_in_run h W g r1); [|done|intros y Hy%HL2; by apply path_in_graph in Hy as [? _]].
    rewrite (node_in_run h W g r2); [|done|intros y Hy%HL1; by apply path_in_graph in Hy as [? _]].
    unfold obj_in. rewrite andb_true_iff, !bool_decide_eq_true. by rewrite HL1, HL2.
  Qed.
End loops.

(** C17.  is_in_loop decides whether some cycle passes through the node. *)
Lemma C17_is_in_loop_proof : ∀ h g x r, reachable h → denotes h g x r →
  ∃ b, is_node_in_loop h g x = Ok b ∧ node_is_in_loop h r = Ok b ∧ (b = true ↔ on_cycle h g r).
Proof.
  intros h g x r W%reachable_WF Hx. pose proof (denotes_in_graph _ _ _ _ Hx) as Hr.
  destruct (in_loop_run h W g x r Hx) as (b & Hb & Hbi).
  destruct (in_loop_run h W g (ANode r) r) as (b' & Hb' & Hbi'); [by apply denotes_self|].
  exists b. split_and!; try done. unfold node_is_in_loop. rewrite (node_graph_run h W g) by done. cbn [rbind]. rewrite Hb'.
  f_equal. destruct b, b'; naive_solver.
Qed.
(** C17.  is_in_loop_with: each node can be reached from the other. *)
Lemma C17_is_in_loop_with_proof : ∀ h g x y r1 r2, reachable h → denotes h g x r1 → denotes h g y r2 →
  ∃ b, are_nodes_in_same_loop h g x y = Ok b ∧ node_in_loop_with h r1 y = Ok b ∧
    (b = true ↔ path h g r1 r2 ∧ path h g r2 r1).
Proof.
  intros h g x y r1 r2 W%reachable_WF Hx Hy. pose proof (denotes_in_graph _ _ _ _ Hx) as Hr.
  destruct (same_loop_run h W g x y r1 r2 Hx Hy) as (b & Hb & Hbi).
  destruct (same_loop_run h W g (ANode r1) y r1 r2) as (b' & Hb' & Hbi'); [by apply denotes_self|done|].
  exists b. split_and!; try done. unfold node_in_loop_with. rewrite (node_graph_run h W g) by done. cbn [rbind]. rewrite Hb'.
  f_equal. destruct b, b'; naive_solver.
Qed.
(** C17.  is_in_loop_with is symmetric and transitive. *)
Lemma C17_equivalence_proof : ∀ h g x y z r1 r2 r3, reachable h → denotes h g x r1 → denotes h g y r2 → denotes h g z r3 →
  are_nodes_in_same_loop h g x y = are_nodes_in_same_loop h g y x ∧
  (are_nodes_in_same_loop h g x y = Ok true → are_nodes_in_same_loop h g y z = Ok true → are_nodes_in_same_loop h g x z = Ok true).
Proof.
  intros h g x y z r1 r2 r3 W%reachable_WF Hx Hy Hz.
  destruct (same_loop_run h W g x y r1 r2) as (b1 & Hb1 & Hi1); [done..|].
  destruct (same_loop_run h W g y x r2 r1) as (b2 & Hb2 & Hi2); [done..|].
  destruct (same_loop_run h W g y z r2 r3) as (b3 & Hb3 & Hi3); [done..|].
  destruct (same_loop_run h W g x z r1 r3) as (b4 & Hb4 & Hi4); [done..|].
  rewrite Hb1, Hb2, Hb3, Hb4. split.
  - f_equal. destruct b1, b2; naive_solver.
  - intros [= ->] [= ->]. f_equal. apply Hi4. destruct Hi1 as [[? ?] _]; [done|]. destruct Hi3 as [[? ?] _]; [done|].
    split; by eapply tc_transitive.
Qed.
(** C17.  An edge is in a loop iff a path leads from its end back to its start. *)
Lemma C17_edge_proof : ∀ h g e x y, reachable h → joins h g e x y →
  ∃ b, edge_is_in_loop h e = Ok b ∧ (b = true ↔ path0 h g y x).
Proof.
  intros h g e x y W%reachable_WF Hj. destruct (joins_in_graph h g e x y) as [Hx Hy]; [done..|].
  unfold edge_is_in_loop. pose proof Hj as (E & HE & Hg & Hs & Ht). unfold edge_start, edge_end.
  rewrite (get_e_Ok _ _ _ HE). cbn [rbind]. rewrite Hs, Ht. cbn [rbind].
  destruct (same_loop_run h W g (ANode x) (ANode y) x y) as (b & Hb & Hbi); [by apply denotes_self..|].
  exists b. unfold node_in_loop_with. rewrite (node_graph_run h W g) by done. split; [done|]. rewrite Hbi. unfold path0.
  assert (path h g x y) by (apply tc_once; by exists e). split.
  - intros [_ ?]. by apply tc_rtc.
  - intros Hp. split; [done|]. apply rtc_tc in Hp as [->|?]; done.
Qed.
Lemma filter_sublist' {A} (P : A → Prop) `{!∀ x, Decision (P x)} (l : list A) : filter P l `sublist_of` l.
Proof. induction l as [|x l IH]; [done|]. rewrite filter_cons. destruct (decide (P x)); by constructor. Qed.
Lemma rfilter_sublist {A} (f : A → res bool) (P : A → Prop) (l : list A) :
  (∀ x, x ∈ l → ∃ b, f x = Ok b ∧ (b = true ↔ P x)) →
  ∃ l', rfilter f l = Ok l' ∧ l' `sublist_of` l ∧ ∀ x, x ∈ l' ↔ x ∈ l ∧ P x.
Proof.
  induction l as [|x l IH]; intros H; cbn [rfilter].
  - exists []. split_and!; [done..|]. intros x. rewrite elem_of_nil. tauto.
  - destruct (H x) as (b & -> & Hb); [left|]. cbn [rbind]. destruct IH as (l' & -> & Hs & Hl); [intros; apply H; by right|]. cbn [rbind].
    destruct b.
    + exists (x :: l'). split_and!; [done|by constructor|]. intros y. rewrite !elem_of_cons, Hl. naive_solver.
    + exists l'. split_and!; [done|by constructor|]. intros y. rewrite elem_of_cons, Hl. naive_solver.
Qed.
(** C17.  loop_nodes: the nodes on cycles, in node order. *)
Lemma C17_loop_nodes_proof : ∀ h g G, reachable h → h_graphs h !! g = Some G →
  ∃ l, loop_nodes h g = Ok l ∧ l `sublist_of` (g_nodes G).*2 ∧ NoDup l ∧ ∀ x, x ∈ l ↔ on_cycle h g x.
Proof.
  intros h g G Hre HG. pose proof (reachable_WF _ Hre) as W. unfold loop_nodes. rewrite (nodes_run _ _ _ HG). cbn [rbind].
  destruct (rfilter_sublist (node_is_in_loop h) (on_cycle h g) (dvals (g_nodes G))) as (l & Hl & Hs & Hi).
  - intros x Hx%(elem_of_nodes h g); [|done].
    destruct (C17_is_in_loop_proof h g (ANode x) x) as (b & _ & ? & ?); [done|by apply denotes_self|eauto].
  - exists l. split_and!; try done.
    + eapply sublist_NoDup; [done|]. by eapply NoDup_nodes.
    + intros x. rewrite Hi, (elem_of_nodes h g) by done. split; [tauto|]. intros Hc. split; [|done]. by apply path_in_graph in Hc as [? _].
Qed.
(** In the sample b and c are on a cycle; the edge c->b is on it, a->b is not. *)
Lemma C17_loops_ex_proof : reachable sample ∧ joins sample 0 2 2 1 ∧ edge_is_in_loop sample 2 = Ok true ∧
  joins sample 0 0 0 1 ∧ edge_is_in_loop sample 0 = Ok false ∧ loop_nodes sample 0 = Ok [1; 2] ∧
  are_nodes_in_same_loop sample 0 (an "b") (ANode 2) = Ok true.
Proof. split; [apply sample_reachable|]. split_and!; [by eexists|by vm_compute|by eexists|by vm_compute..]. Qed.

(** * leaves and sources *)
(** C20.  leaves and absolute_roots. *)
Lemma C20_leaves_proof : ∀ h g G, reachable h → h_graphs h !! g = Some G →
  (∃ l, leaves h g = Ok l ∧ l `sublist_of` (g_nodes G).*2 ∧ NoDup l ∧
     ∀ x, x ∈ l ↔ in_graph h g x ∧ ¬ ∃ y, adj h g x y) ∧
  (∃ l, absolute_roots h g = Ok l ∧ l `sublist_of` (g_nodes G).*2 ∧ NoDup l ∧
     ∀ x, x ∈ l ↔ in_graph h g x ∧ ¬ ∃ y, adj h g y x).
Proof.
  intros h g G Hre HG. pose proof (reachable_WF _ Hre) as W. unfold leaves, absolute_roots. rewrite (nodes_run _ _ _ HG). cbn [rbind]. split.
  - destruct (rfilter_sublist (λ r, let! b := node_has_children h r in Ok (negb b)) (λ x, ¬ ∃ y, adj h g x y) (dvals (g_nodes G))) as (l & Hl & Hs & Hi).
    + intros x Hx%(elem_of_nodes h g); [|done].
      destruct (C13_counts_proof h g (ANode x) x) as (cs & ps & _ & _ & _ & _ & (b & _ & Hb & Hbi) & _); [done|by apply denotes_self|].
      rewrite Hb. cbn [rbind]. exists (negb b). split; [done|]. rewrite <-Hbi. by destruct b.
    + exists l. split_and!; try done.
      * eapply sublist_NoDup; [done|]. by eapply NoDup_nodes.
      * intros x. by rewrite Hi, (elem_of_nodes h g).
  - destruct (rfilter_sublist (λ r, let! b := node_has_parents h r in Ok (negb b)) (λ x, ¬ ∃ y, adj h g y x) (dvals (g_nodes G))) as (l & Hl & Hs & Hi).
    + intros x Hx%(elem_of_nodes h g); [|done].
      destruct (C13_counts_proof h g (ANode x) x) as (cs & ps & _ & _ & _ & _ & _ & (b & _ & Hb & Hbi)); [done|by apply denotes_self|].
      rewrite Hb. cbn [rbind]. exists (negb b). split; [done|]. rewrite <-Hbi. by destruct b.
    + exists l. split_and!; try done.
      * eapply sublist_NoDup; [done|]. by eapply NoDup_nodes.
      * intros x. by rewrite Hi, (elem_of_nodes h g).
Qed.
(** The isolated node d of the sample is both; a is a source only. *)
Lemma C20_leaves_ex_proof : reachable sample ∧ leaves sample 0 = Ok [3] ∧ absolute_roots sample 0 = Ok [0; 3].
Proof. split; [apply sample_reachable|]. by vm_compute. Qed.

(** * roots *)
Lemma sublist_cons_inv_notin {A} (x : A) (l k : list A) : l `sublist_of` x :: k → x ∉ l → l `sublist_of` k.
Proof. intros H Hx. apply sublist_cons_r in H as [?|(l' & -> & ?)]; [done|]. by destruct Hx; left. Qed.
Lemma sublist_ext {A} (k l1 l2 : list A) : NoDup k → l1 `sublist_of` k → l2 `sublist_of` k → (∀ x, x ∈ l1 ↔ x ∈ l2) → l1 = l2.
Proof.
  revert l1 l2. induction k as [|x k IH]; intros l1 l2 Hk H1 H2 Heq.
  - apply sublist_nil_r in H1, H2. by subst.
  - apply NoDup_cons in Hk as [Hx Hk].
    assert (Hnot : ∀ l, l `sublist_of` k → x ∉ l) by (intros l Hl Hxl; apply Hx; eapply elem_of_submseteq; [done|by apply sublist_submseteq]).
    apply sublist_cons_r in H1 as [H1|(m1 & -> & H1)]; apply sublist_cons_r in H2 as [H2|(m2 & -> & H2)].
    + by apply IH.
    + destruct (Hnot l1 H1). apply Heq. left.
    + destruct (Hnot l2 H2). apply Heq. left.
    + f_equal. apply IH; [done..|]. intros y. specialize (Heq y). rewrite !elem_of_cons in Heq.
      pose proof (Hnot _ H1). pose proof (Hnot _ H2). split; intros Hy; (assert (y ≠ x) by (intros ->; done)); naive_solver.
Qed.
Lemma filter_all {A} (P : A → Prop) `{!∀ x, Decision (P x)} (l : list A) : (∀ x, x ∈ l → P x) → filter P l = l.
Proof.
  induction l as [|x l IH]; intros Hl; [done|]. rewrite filter_cons, decide_True by (apply Hl; left). f_equal.
  apply IH. intros; apply Hl; by right.
Qed.
Section roots.
  Context (h : heap) (W : WF h) (g : gref).
  Lemma node_remove_run x l : in_graph h g x → all_in h g l → NoDup l → node_remove h x l = filter (λ y, y ≠ x) l.
  Proof.
    intros Hx. induction l as [|y l IH]; intros Hl Hn; [done|]. apply all_in_cons in Hl as [Hy Hl]. apply NoDup_cons in Hn as [Hyl Hn].
    cbn [node_remove]. rewrite (node_eqb_run h W g x y) by done. rewrite filter_cons. case_bool_decide as Hxy.
    - subst y. rewrite decide_False by (intros H; by apply H). symmetry. apply filter_all. intros ? ? ->. done.
    - rewrite decide_True by congruence. by rewrite IH.
  Qed.
  Lemma fold_remove_run ds l : all_in h g ds → all_in h g l → NoDup l →
    fold_left (λ p d, if node_in h d p then node_remove h d p else p) ds l = filter (λ y, y ∉ ds) l.
  Proof.
    revert l. induction ds as [|d ds IH]; intros l Hds Hl Hn; cbn [fold_left].
    - symmetry. apply filter_all. intros y _. apply not_elem_of_nil.
    - apply all_in_cons in Hds as [Hd Hds].
      assert (Heq : (if node_in h d l then node_remove h d l else l) = filter (λ y, y ≠ d) l).
      { rewrite (node_in_run h W g) by done. destruct (obj_in d l) eqn:Hdl; [by apply node_remove_run|].
        apply obj_in_false in Hdl. symmetry. apply filter_all. intros ? ? ->. done. }
      rewrite Heq, IH; [|done| |by apply NoDup_filter].
      + rewrite list_filter_filter. apply list_filter_iff. intros y. rewrite not_elem_of_cons. tauto.
      + intros y [_ Hy]%elem_of_list_filter. by apply Hl.
  Qed.

  Context (ns : list nref) (Hns : ∀ x, x ∈ ns ↔ in_graph h g x) (Hnd : NoDup ns).
  Definition roots_inv (p : list nref) : Prop :=
    p `sublist_of` ns ∧ (∀ x, in_graph h g x → ∃ y, y ∈ p ∧ path0 h g y x) ∧
    (∀ x, in_graph h g x → (¬ ∃ s, adj h g s x) → x ∈ p).
  Lemma sub_in (p : list nref) : p `sublist_of` ns → all_in h g p.
  Proof. intros Hp x Hx. apply Hns. eapply elem_of_submseteq; [done|by apply sublist_submseteq]. Qed.

  Lemma roots_loop l p : all_in h g l → roots_inv p →
    ∃ p', rfold (roots_step h g) p l = Ok p' ∧ roots_inv p' ∧ (∀ x, x ∈ p' → x ∈ p) ∧
      ∀ r x, r ∈ l → r ∈ p' → x ∈ p' → path h g r x → x = r.
  Proof.
    revert p. induction l as [|r l IH]; intros p Hl Hp; cbn [rfold].
    { exists p. split_and!; [done..|]. by intros ? ? ?%elem_of_nil. }
    apply all_in_cons in Hl as [Hr Hl]. destruct Hp as (Hsub & Hcov & Hsrc). pose proof (sub_in _ Hsub) as Hin.
    unfold roots_step at 1. rewrite (node_in_run h W g) by done. destruct (obj_in r p) eqn:Hrp.
    - apply obj_in_true in Hrp. destruct (get_descendants_spec h W g (ANode r) r) as (ds & -> & Hdn & Hds); [by apply denotes_get, denotes_self|].
      cbn [rbind]. rewrite fold_remove_run; [|intros y [Hy _]%Hds; by apply path_in_graph in Hy as [_ ?]|done|by eapply sublist_NoDup].
      destruct (IH (filter (λ y, y ∉ ds) p)) as (p' & Hp' & Hinv & Hsp & Hno); [done| |].
      + split_and!.
        * etrans; [apply filter_sublist'|done].
        * intros x Hx. destruct (Hcov x Hx) as (y & Hy & Hyx). destruct (decide (y ∈ ds)) as [Hyd|Hyd].
          -- exists r. split; [apply elem_of_list_filter; split; [|done]; intros [_ ?]%Hds; done|].
             apply Hds in Hyd as [Hyd _]. etrans; [by apply tc_rtc|done].
          -- exists y. split; [by apply elem_of_list_filter|done].
        * intros x Hx Hs. apply elem_of_list_filter. split; [|by apply Hsrc]. intros [Hpx _]%Hds. apply Hs.
          apply tc_nsteps in Hpx as (n & Hn & Hpx). destruct n as [|n]; [lia|]. apply nsteps_inv_r in Hpx as (y & _ & ?). eauto.
      + exists p'. split_and!; [done|done| |].
        * intros x Hx%Hsp. by apply elem_of_list_filter in Hx as [_ ?].
        * intros r' x [->|Hr']%elem_of_cons; [|by apply Hno]. intros Hr'p Hx Hpath. destruct (decide (x = r)) as [|Hne]; [done|].
          exfalso. apply Hsp in Hx. apply elem_of_list_filter in Hx as [Hx _]. apply Hx. by apply Hds.
    - apply obj_in_false in Hrp. cbn [rbind]. destruct (IH p) as (p' & Hp' & Hinv & Hsp & Hno); [done|by split_and!|].
      exists p'. split_and!; [done..|]. intros r' x [->|Hr']%elem_of_cons; [|by apply Hno]. intros ?%Hsp. done.
  Qed.
End roots.

(** C18.  roots: a sublist of the nodes; every node is reached from a root; no
    root reaches another; every source is a root; it is as small as possible. *)
Lemma C18_roots_proof : ∀ h g G, reachable h → h_graphs h !! g = Some G →
  ∃ rs, roots h g = Ok rs ∧ rs `sublist_of` (g_nodes G).*2 ∧ NoDup rs ∧
    (∀ x, in_graph h g x → x ∈ rs ∨ ∃ r, r ∈ rs ∧ r ≠ x ∧ path h g r x) ∧
    (∀ r r', r ∈ rs → r' ∈ rs → path h g r r' → r' = r) ∧
    (∀ x, in_graph h g x → (¬ ∃ s, adj h g s x) → x ∈ rs) ∧
    (∀ S, (∀ x, in_graph h g x → ∃ s, s ∈ S ∧ path0 h g s x) → length rs ≤ length S).
Proof.
  intros h g G W%reachable_WF HG. unfold roots. rewrite (nodes_run _ _ _ HG). cbn [rbind].
  pose proof (NoDup_nodes h g G W HG) as Hnd.
  assert (Hns : ∀ x, x ∈ dvals (g_nodes G) ↔ in_graph h g x) by (intros; by apply elem_of_nodes).
  destruct (roots_loop h W g (dvals (g_nodes G)) Hns Hnd (dvals (g_nodes G)) (dvals (g_nodes G))) as (rs & Hrs & (Hsub & Hcov & Hsrc) & _ & Hno).
  - intros x. apply Hns.
  - split_and!; [done| |].
    + intros x Hx. exists x. split; [by apply Hns|apply rtc_refl].
    + intros x Hx _. by apply Hns.
  - pose proof (sub_in h g _ Hns rs Hsub) as Hin. assert (Hnr : NoDup rs) by (by eapply sublist_NoDup).
    assert (Hno' : ∀ r r', r ∈ rs → r' ∈ rs → path h g r r' → r' = r) by (intros r r' Hr; apply Hno; [by apply Hns, Hin|done]).
    exists rs. split_and!; try done.
    + intros x Hx. destruct (Hcov x Hx) as (y & Hy & Hyx). apply rtc_tc in Hyx as [->|Hyx]; [by left|].
      destruct (decide (y = x)) as [->|]; [by left|]. right. eauto.
    + intros S HS.
      assert (∃ ss, Forall2 (λ r s, s ∈ S ∧ path0 h g s r) rs ss) as (ss & Hss).
      { clear Hsub Hcov Hno Hno' Hrs Hnr Hsrc. induction rs as [|r rs IH]; [by exists []|]. apply all_in_cons in Hin as [Hr Hin].
        destruct (HS r Hr) as (s & ? & ?). destruct (IH Hin) as (ss & ?). exists (s :: ss). by constructor. }
      assert (Hroot : ∀ s r1 r2, r1 ∈ rs → r2 ∈ rs → path0 h g s r1 → path0 h g s r2 → r1 = r2).
      { intros s r1 r2 Hr1 Hr2 H1 H2. assert (Hs : in_graph h g s).
        { apply rtc_tc in H1 as [->|H1]; [by apply Hin|]. by apply path_in_graph in H1 as [? _]. }
        destruct (Hcov s Hs) as (r0 & Hr0 & H0).
        assert (∀ r, r ∈ rs → path0 h g s r → r = r0) as Hall.
        { intros r Hr Hsr. assert (path0 h g r0 r) as [->|Hp]%rtc_tc by (by etrans); [done|]. by apply Hno'. }
        rewrite (Hall r1), (Hall r2); done. }
      rewrite (Forall2_length _ _ _ Hss).
      apply submseteq_length, NoDup_submseteq.
      * apply NoDup_alt. intros i j s Hi Hj.
        destruct (Forall2_lookup_r _ _ _ _ _ Hss Hi) as (r1 & Hr1 & _ & Hp1).
        destruct (Forall2_lookup_r _ _ _ _ _ Hss Hj) as (r2 & Hr2 & _ & Hp2).
        assert (r1 = r2) as -> by (eapply Hroot; eauto using elem_of_list_lookup_2).
        by eapply NoDup_lookup.
      * intros s (i & Hi)%elem_of_list_lookup. by destruct (Forall2_lookup_r _ _ _ _ _ Hss Hi) as (r1 & _ & ? & _).
Qed.
(** C18.  On an acyclic graph roots is absolute_roots. *)
Lemma C18_acyclic_proof : ∀ h g G, reachable h → h_graphs h !! g = Some G → acyclic h g →
  roots h g = absolute_roots h g.
Proof.
  intros h g G Hre HG Hac. destruct (C18_roots_proof h g G Hre HG) as (rs & -> & Hs1 & _ & Hcov & Hno & Hsrc & _).
  destruct (C20_leaves_proof h g G Hre HG) as [_ (l & -> & Hs2 & _ & Hl)]. pose proof (reachable_WF _ Hre) as W.
  f_equal. eapply (sublist_ext ((g_nodes G).*2)); [by eapply NoDup_nodes|done..|].
  intros x. rewrite Hl. split; [|intros [? ?]; by apply Hsrc].
  intros Hx. assert (Hgx : in_graph h g x).
  { apply (elem_of_nodes h g G); [done|]. eapply elem_of_submseteq; [done|by apply sublist_submseteq]. }
  split; [done|]. intros [y Hyx]. assert (Hy : in_graph h g y) by (by destruct (adj_in_graph h g y x)).
  destruct (Hcov y Hy) as [Hyr|(r & Hr & Hry & Hp)].
  - assert (x = y) as -> by (eapply Hno; [done..|]; by apply tc_once). apply (Hac y). by apply tc_once.
  - assert (path h g r x) as Hrx by (eapply tc_r; done). assert (x = r) as -> by (by eapply Hno). by apply (Hac r).
Qed.
(** In the sample the root a covers the cycle; graph 1 is acyclic. *)
Lemma C18_roots_ex_proof : reachable sample ∧ roots sample 0 = Ok [0; 3] ∧ acyclic sample 1 ∧ roots sample 1 = Ok [4].
Proof.
  split; [apply sample_reachable|]. split_and!; [by vm_compute| |by vm_compute].
  assert (Hadj : ∀ x y, adj sample 1 x y → x = 4 ∧ y = 5).
  { intros x y (e & E & HE & Hg & Hs & Ht). do 7 (destruct e as [|e]; [injection HE as <-; simplify_eq/=; done|]). done. }
  intros x Hc. assert (∀ y, path sample 1 x y → x = 4 ∧ y = 5) as Hp.
  { clear Hc. intros y. induction 1 as [x y H|x y z H _ IH]; [by apply Hadj|]. apply Hadj in H as [-> ->]. by destruct IH. }
  by destruct (Hp x Hc) as [-> [=]].
Qed.
