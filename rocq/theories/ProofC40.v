(** Which calls add and remove nodes and edges: C81. *)
From Verif Require Export ProofCause.
From Verif Require Import ProofC1 Samples.
Local Open Scope string_scope.
Local Open Scope list_scope.

Definition node_lost_by (h : heap) (c : call) (g : gref) (r : nref) : Prop := ∃ x, c = CRemoveNode g x ∧ denotes h g x r.
Definition edge_lost_by (h : heap) (c : call) (g : gref) (e : eref) (s t : nref) : Prop :=
  c = CDisconnect e ∨ c = CRemoveSelf e ∨ c = CRemoveEdges s ∨ c = CRemoveEdges t ∨ node_lost_by h c g s ∨ node_lost_by h c g t.
Definition node_made_by (c : call) (g : gref) (k : name) : Prop :=
  (∃ a, c = CAddNode g (AName k) a) ∨ (∃ a i, c = CNodeCtor g k a i) ∨ (∃ o, c = CAppend g o) ∨ (∃ os, c = CAppendAll g os).
Definition edge_made_by (h : heap) (c : call) (g : gref) (s t : nref) : Prop :=
  (∃ x y a, c = CConnect g x y a ∧ denotes h g x s ∧ denotes h g y t) ∨
  (∃ y a, c = CConnectTo s y a ∧ denotes h g y t) ∨ (∃ x a, c = CConnectFrom t x a ∧ denotes h g x s) ∨
  (∃ a, c = CEdgeCtor g s t a) ∨ (∃ o, c = CAppend g o) ∨ (∃ os, c = CAppendAll g os).
Record effect (h : heap) (c : call) (g : gref) (h' : heap) : Prop := {
  ef_nlost : ∀ k r, named h g k r → named h' g k r ∨ node_lost_by h c g r;
  ef_elost : ∀ e s t, joins h g e s t → joins h' g e s t ∨ edge_lost_by h c g e s t;
  ef_nmade : ∀ k r, named h' g k r → named h g k r ∨ node_made_by c g k;
  ef_emade : ∀ e s t, joins h' g e s t → joins h g e s t ∨ edge_made_by h c g s t }.
Lemma same_effect h c g h' : same g h h' → effect h c g h'.
Proof. intros [A B]. split; intros; left; by (apply A || apply B). Qed.

Lemma unlink_joins f es h g e s t : f = cleared ∨ f = deadened → joins (unlink f es h) g e s t ↔ joins h g e s t ∧ e ∉ es.
Proof.
  intros Hf. unfold joins. rewrite unlink_edge. split.
  - intros (E & HE & Hg & ?). destruct (h_edges h !! e) as [E0|]; [|done]. simpl in HE. injection HE as <-.
    destruct (decide (e ∈ es)); [destruct Hf as [->| ->]; done|]. split; [by exists E0|done].
  - intros [(E & -> & ?) Hn]. simpl. rewrite decide_False by done. by exists E.
Qed.
Lemma self_denotes h g r N x s : WF h → h_nodes h !! r = Some N → n_graph N = Some g → x = ANode r → denotes h g x s → s = r.
Proof.
  intros W HN Hg -> (k & Hk & [?|(r0 & N0 & [= <-] & HN0 & Hid)]); [done|]. assert (N0 = N) as -> by congruence.
  destruct (wf_ngraph _ W r N g HN Hg) as (G & HG & Hin). destruct Hk as (G' & HG' & Hin'). assert (G' = G) as -> by congruence.
  rewrite <-Hid in Hin'. pose proof (wf_gkeys _ W g G HG) as Hnd.
  apply (dget_in_Some (g_nodes G)) in Hin, Hin'; try done. congruence.
Qed.
Lemma connect_effect h c g x y a : WF h → (∀ s t, denotes h g x s → denotes h g y t → edge_made_by h c g s t) →
  effect h c g (connect g x y a h).1.
Proof.
  intros W Hm. destruct (connect_adds g h g x y a W) as ([A B] & C & D). split.
  - intros. left. by apply A.
  - intros. left. by apply B.
  - intros. left. by apply C.
  - intros e s t Hj. destruct (D e s t Hj) as [?|(_ & ? & ?)]; [by left|right]. by apply Hm.
Qed.

Lemma call_effect h c g : WF h → allowed h c → is_Some (h_graphs h !! g) → effect h c g (after c h).
Proof.
  intros W Hal Hex. destruct (decide (target h c = Some g)) as [Ht|Ht].
  2: { apply same_effect, unchanged_same. by apply call_unchanged. }
  destruct c; simpl in Ht; try done; cbn [after].
  - (* add_node *) injection Ht as ->. destruct Hal as [_ Hal]. destruct x as [k|r|]; [| |apply same_effect, same_refl].
    + destruct (add_node_adds g h g k a W) as ([A B] & C & D). split.
      * intros. left. by apply A.
      * intros. left. by apply B.
      * intros k' r Hn. destruct (C k' r Hn) as [?|[_ ->]]; [by left|right]. left. by exists a.
      * intros. left. by apply D.
    + apply same_effect. destruct (h_nodes h !! r) as [N|] eqn:HN.
      * specialize (Hal r N eq_refl HN). unfold add_node, sbind, sread, get_n. rewrite HN.
        destruct (get_g h g) as [G|]; [|apply same_refl]. destruct (dget (g_nodes G) (n_id N)); [destruct (_ && _); apply same_refl|].
        destruct (n_graph N); [apply same_refl|done].
      * unfold add_node, sbind, sread, get_n. rewrite HN. apply same_refl.
  - injection Ht as ->. apply connect_effect; [done|]. intros s t Hs Htt. left. by exists x, y, a.
  - destruct (h_nodes h !! r) as [N|] eqn:HN; [|done]. unfold connect_to, sbind, sread, node_graph, get_n. rewrite HN. simpl. rewrite Ht.
    apply connect_effect; [done|]. intros s t Hs Htt. right. left. exists x, a. split; [|done]. f_equal. symmetry.
    by eapply self_denotes.
  - destruct (h_nodes h !! r) as [N|] eqn:HN; [|done]. unfold connect_from, sbind, sread, node_graph, get_n. rewrite HN. simpl. rewrite Ht.
    apply connect_effect; [done|]. intros s t Hs Htt. right. right. left. exists x, a. split; [|done]. f_equal. symmetry.
    by eapply self_denotes.
  - destruct (h_edges h !! e) as [E|] eqn:HE; [|done]. rewrite (disconnect_run h e E g) by done. split.
    + intros. by left.
    + intros e' s t Hj. destruct (decide (e' = e)) as [->|Hne]; [right; by left|left].
      apply unlink_joins; [by right|]. split; [done|]. set_solver.
    + intros. by left.
    + intros e' s t [Hj _]%unlink_joins; [|by right]. by left.
  - destruct (h_edges h !! e) as [E|] eqn:HE; [|done]. rewrite (remove_self_run h e E g) by done. split.
    + intros. by left.
    + intros e' s t Hj. destruct (decide (e' = e)) as [->|Hne]; [right; right; by left|left].
      apply unlink_joins; [by left|]. split; [done|]. set_solver.
    + intros. by left.
    + intros e' s t [Hj _]%unlink_joins; [|by left]. by left.
  - destruct (h_nodes h !! r) as [N|] eqn:HN; [|done]. destruct (remove_edges_run h r N W HN) as [-> _]. split.
    + intros. by left.
    + intros e' s t Hj. destruct (decide (e' ∈ own_edges N)) as [Hin|Hne].
      * right. unfold own_edges in Hin. rewrite elem_of_nub, elem_of_app, (out_joins h g r N e'), (in_joins h g r N e') in Hin by done.
        destruct Hin as [[y Hy]|[y Hy]]; destruct (joins_fun _ _ _ _ _ _ _ Hj Hy) as [-> ->]; unfold edge_lost_by; eauto.
      * left. apply unlink_joins; [by left|]. done.
    + intros. by left.
    + intros e' s t [Hj _]%unlink_joins; [|by left]. by left.
  - injection Ht as ->. destruct (get_node h g x) as [r|er] eqn:Hr.
    2: { rewrite (remove_node_fail h g x er) by done. apply same_effect, same_refl. }
    destruct (get_node_Ok h g x r) as (G & N & HG & HN & Hg & Hin); [done..|]. apply get_node_denotes in Hr; [|done].
    destruct (remove_node_spec h g x r N G W Hr HN HG) as (h' & es & Hrun & _ & _ & _ & HGs & _).
    pose proof (remove_node_joins h g x r h' W Hr Hrun) as Hj. rewrite Hrun. cbn [fst]. pose proof (lookup_lt_Some _ _ _ HG) as Hlt. split.
    + intros k r' Hn. destruct (decide (r' = r)) as [->|Hne]; [right; by exists x|left].
      destruct Hn as (G' & HG' & Hin'). assert (G' = G) as -> by congruence. unfold named. rewrite HGs, list_lookup_insert by done.
      eexists. split; [done|]. simpl. by apply elem_of_list_filter.
    + intros e s t H1. destruct (decide (s = r)) as [->|Hs]; [right; unfold edge_lost_by, node_lost_by; do 4 right; left; by exists x|].
      destruct (decide (t = r)) as [->|Htr]; [right; unfold edge_lost_by, node_lost_by; do 5 right; by exists x|].
      left. by apply Hj.
    + intros k r' (G' & HG' & Hin'). rewrite HGs, list_lookup_insert in HG' by done. injection HG' as <-. simpl in Hin'.
      apply elem_of_list_filter in Hin' as [_ Hin']. left. by exists G.
    + intros e s t [H1 _]%Hj. by left.
  - apply same_effect, data_only_same'. by apply node_set_style_data_only, style_exists_n.
  - apply same_effect, data_only_same'. unfold node_set_value, sbind, sread. destruct (get_n h r) as [N|]; [|apply data_only_refl].
    destruct (n_frozen N); [apply data_only_refl|]. by apply upd_n_data_only.
  - apply same_effect, data_only_same'. by apply upd_n_data_only.
  - apply same_effect, data_only_same'. by apply upd_n_data_only.
  - apply same_effect, data_only_same'. by apply upd_n_data_only.
  - apply same_effect, data_only_same'. by apply edge_set_style_data_only, style_exists_e.
  - apply same_effect, data_only_same'. unfold edge_set_value, sbind, sread. destruct (get_e h e) as [N|]; [|apply data_only_refl].
    destruct (e_frozen N); [apply data_only_refl|]. by apply upd_e_data_only.
  - apply same_effect, data_only_same'. by apply upd_e_data_only.
  - apply same_effect, data_only_same'. by apply upd_e_data_only.
  - apply same_effect, data_only_same'. by apply upd_e_data_only.
  - injection Ht as ->. destruct Hal as [_ (G & HG & Hn)]. pose proof (lookup_lt_Some _ _ _ HG) as Hlt.
    destruct (node_ctor_run h g G n a index HG) as (l & [st|x] & _ & ->); cbn [fst]; [|apply same_effect, same_refl].
    rewrite dset_fresh by done. split.
    + intros k r (G' & HG' & Hin). assert (G' = G) as -> by congruence. left. unfold named. simpl. rewrite list_lookup_insert by done.
      eexists. split; [done|]. simpl. set_solver.
    + intros e s t Hj. left. exact Hj.
    + intros k r (G' & HG' & Hin). simpl in HG'. rewrite list_lookup_insert in HG' by done. injection HG' as <-. simpl in Hin.
      apply elem_of_app in Hin as [Hin|Hin]; [left; by exists G|]. apply elem_of_list_singleton in Hin as [= -> ->].
      right. right. left. by exists a, index.
    + intros e s t Hj. left. exact Hj.
  - injection Ht as ->. destruct Hal as [_ (Ns & Nt & HNs & HNt & Hgs & Hgt & Hi)].
    rewrite (edge_ctor_eq h g s t Ns Nt a); [|done..|].
    2: { rewrite <-(WF_mirror_keys h s t Ns Nt); [done..|congruence|eauto]. }
    destruct (restyled _ _ _ _) as [[st l]|x']; cbn [fst]; [|apply same_effect, same_refl]. split.
    + intros k r Hn. left. exact Hn.
    + intros e x' t' (E & HE & Hx). left. exists E. split; [by apply lookup_app_l_Some|done].
    + intros k r Hn. left. exact Hn.
    + intros e x' t' (E & HE & Hg & Hx & Hy). simpl in HE. apply lookup_app_Some in HE as [HE|[_ HE]]; [left; by exists E|].
      apply list_lookup_singleton_Some in HE as [_ <-]. simpl in *. right. unfold edge_made_by. do 3 right. left. exists a. congruence.
  - injection Ht as ->. pose proof (append_grows g h g o W Hal) as [A B]. split.
    + intros. left. by apply A.
    + intros. left. by apply B.
    + intros. right. unfold node_made_by. eauto.
    + intros. right. unfold edge_made_by. eauto 10.
  - injection Ht as ->. pose proof (append_all_grows g h g os W Hal) as [A B]. split.
    + intros. left. by apply A.
    + intros. left. by apply B.
    + intros. right. unfold node_made_by. eauto.
    + intros. right. unfold edge_made_by. eauto 10.
  - injection Ht as ->. apply same_effect. by apply add_graphs_same.
  - apply same_effect. by apply stylize_same.
  - rewrite render_heap. apply same_effect. by apply stylize_same.
  - apply same_effect. unfold set_background, sbind, sread. destruct (to_colour v); [|apply same_refl]. apply upd_disp_same.
Qed.

(** C81.  A node leaves its graph only through remove_node of that node: any other call,
    whether it returns or raises, leaves it where it is. *)
Lemma C81_node_lost_proof : ∀ h c g k r, reachable h → allowed h c → named h g k r →
  named (after c h) g k r ∨ ∃ x, c = CRemoveNode g x ∧ denotes h g x r.
Proof.
  intros h c g k r W%reachable_WF Hal Hn. apply (ef_nlost _ _ _ _ (call_effect h c g W Hal ltac:(destruct Hn as (G & -> & _); eauto)) k r Hn).
Qed.
(** C81.  An edge leaves its graph only through disconnect or remove_self of that edge,
    remove_edges of one of its ends, or remove_node of one of its ends. *)
Lemma C81_edge_lost_proof : ∀ h c g e s t, reachable h → allowed h c → joins h g e s t →
  joins (after c h) g e s t ∨ c = CDisconnect e ∨ c = CRemoveSelf e ∨ c = CRemoveEdges s ∨ c = CRemoveEdges t ∨
  ∃ x, c = CRemoveNode g x ∧ (denotes h g x s ∨ denotes h g x t).
Proof.
  intros h c g e s t W%reachable_WF Hal Hj.
  assert (Hex : is_Some (h_graphs h !! g)).
  { destruct (joins_in_graph h g e s t W Hj) as [(G & k & -> & _) _]. eauto. }
  destruct (ef_elost _ _ _ _ (call_effect h c g W Hal Hex) e s t Hj) as [?|[?|[?|[?|[?|[(x & ? & ?)|(x & ? & ?)]]]]]]; eauto 10.
Qed.
(** C81.  A node comes into an existing graph only through add_node, Node or append on that
    graph; add_node and Node bring only a node of the name given. *)
Lemma C81_node_made_proof : ∀ h c g k r, reachable h → allowed h c → is_Some (h_graphs h !! g) → named (after c h) g k r →
  named h g k r ∨ (∃ a, c = CAddNode g (AName k) a) ∨ (∃ a i, c = CNodeCtor g k a i) ∨
  (∃ o, c = CAppend g o) ∨ (∃ os, c = CAppendAll g os).
Proof. intros h c g k r W%reachable_WF Hal Hex Hn. exact (ef_nmade _ _ _ _ (call_effect h c g W Hal Hex) k r Hn). Qed.
(** C81.  An edge comes into an existing graph only through connect, connect_to, connect_from
    or Edge, given the two nodes it then joins, or through append on that graph. *)
Lemma C81_edge_made_proof : ∀ h c g e s t, reachable h → allowed h c → is_Some (h_graphs h !! g) → joins (after c h) g e s t →
  joins h g e s t ∨
  (∃ x y a, c = CConnect g x y a ∧ denotes h g x s ∧ denotes h g y t) ∨
  (∃ y a, c = CConnectTo s y a ∧ denotes h g y t) ∨ (∃ x a, c = CConnectFrom t x a ∧ denotes h g x s) ∨
  (∃ a, c = CEdgeCtor g s t a) ∨ (∃ o, c = CAppend g o) ∨ (∃ os, c = CAppendAll g os).
Proof. intros h c g e s t W%reachable_WF Hal Hex Hn. exact (ef_emade _ _ _ _ (call_effect h c g W Hal Hex) e s t Hn). Qed.
(** C81.  So along any sequence of calls, failing ones included, without remove_node on the
    graph every node of it stays, and without remove_node, disconnect, remove_self and
    remove_edges every edge. *)
Lemma C81_history_proof : ∀ h h' g, reachable h →
  (history (λ c, ∀ x, c ≠ CRemoveNode g x) h h' → ∀ k r, named h g k r → named h' g k r) ∧
  (history (λ c, (∀ x, c ≠ CRemoveNode g x) ∧ (∀ e, c ≠ CDisconnect e ∧ c ≠ CRemoveSelf e) ∧ (∀ r, c ≠ CRemoveEdges r)) h h' →
     ∀ e s t, joins h g e s t → joins h' g e s t).
Proof.
  intros h h' g Hr. split.
  - intros Hh k r Hn. induction Hh as [|h h' c Hh IH Hal Hc]; [done|].
    destruct (C81_node_lost_proof h' c g k r) as [?|(x & -> & _)]; [|done|by apply IH|done|by destruct (Hc x)].
    by eapply history_reachable.
  - intros Hh e s t Hn. induction Hh as [|h h' c Hh IH Hal Hc]; [done|]. destruct Hc as (H1 & H2 & H3).
    destruct (C81_edge_lost_proof h' c g e s t) as [?|[->|[->|[->|[->|(x & -> & _)]]]]]; [|done|by apply IH|done|..].
    + by eapply history_reachable.
    + by destruct (H2 e).
    + by destruct (H2 e).
    + by destruct (H3 s).
    + by destruct (H3 t).
    + by destruct (H1 x).
Qed.
(** C81.  Example: in the sample, remove_node of b takes node 1 and its edge 0 away, a failing
    remove_node of z takes nothing, connect brings edge 7. *)
Lemma C81_ex_proof : reachable sample ∧ allowed sample (CRemoveNode 0 (an "b")) ∧ named sample 0 (NStr "b") 1 ∧ joins sample 0 0 0 1 ∧
  ¬ named (after (CRemoveNode 0 (an "b")) sample) 0 (NStr "b") 1 ∧ ¬ joins (after (CRemoveNode 0 (an "b")) sample) 0 0 0 1 ∧
  (remove_node 0 (an "z") sample).2 = Err KeyError ∧ named (after (CRemoveNode 0 (an "z")) sample) 0 (NStr "b") 1 ∧
  (let h := after (CConnect 1 (an "a") (an "z") (eargs0 <| c_id := Some (nm "new") |>)) sample in joins h 1 7 4 5 ∧ ¬ joins sample 1 7 4 5).
Proof.
  split; [apply sample_reachable|]. split; [done|]. split; [eexists; split; [by vm_compute|dec]|]. split; [eexists; by vm_compute|].
  split. { intros (G & HG & Hin). vm_compute in HG. injection HG as <-. simpl in Hin. revert Hin. dec. }
  split. { intros (E & HE & Hg & _). vm_compute in HE. injection HE as <-. done. }
  split; [by vm_compute|]. split; [eexists; split; [by vm_compute|dec]|].
  split; [eexists; by vm_compute|]. intros (E & HE & _). by vm_compute in HE.
Qed.
