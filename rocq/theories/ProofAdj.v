(** The edge dictionaries in terms of the edge objects. *)
From Verif Require Export ProofSet.

Lemma named_in h g k r : named h g k r → in_graph h g r.
Proof. intros (G & ? & ?). by exists G, k. Qed.
Lemma in_graph_node h g r : WF h → in_graph h g r ↔ ∃ N, h_nodes h !! r = Some N ∧ n_graph N = Some g.
Proof.
  intros W. split.
  - intros (G & k & HG & Hk). destruct (wf_gnodes _ W g G k r) as (N & ? & ? & ?); eauto.
  - intros (N & HN & Hg). destruct (wf_ngraph _ W r N g HN Hg) as (G & ? & ?). by exists G, (n_id N).
Qed.
Lemma named_node h g k r : WF h → named h g k r ↔ ∃ N, h_nodes h !! r = Some N ∧ n_graph N = Some g ∧ n_id N = k.
Proof.
  intros W. split.
  - intros (G & HG & Hk). destruct (wf_gnodes _ W g G k r) as (N & ? & ? & ?); eauto.
  - intros (N & HN & Hg & <-). destruct (wf_ngraph _ W r N g HN Hg) as (G & ? & ?). by exists G.
Qed.

Lemma out_joins h g r N e : WF h → h_nodes h !! r = Some N → n_graph N = Some g →
  e ∈ dvals (n_out N) ↔ ∃ t, joins h g e r t.
Proof.
  intros W HN Hg. rewrite elem_of_dvals. split.
  - intros [k Hk]. destruct (WF_out_entry h r N k e) as (g1 & E & t & Nt & u & HE & HgE & Hs & Ht & _ & _ & HgN & _); [done..|].
    assert (g1 = g) as -> by congruence. by exists t, E.
  - intros (t & E & HE & HgE & Hs & Ht).
    destruct (wf_live _ W e E g HE HgE) as (s' & t' & Ns' & Nt' & u & ? & ? & ? & ? & ? & ? & ? & Ho & _).
    assert (s' = r) as -> by congruence. assert (Ns' = N) as -> by congruence. eauto.
Qed.
Lemma in_joins h g r N e : WF h → h_nodes h !! r = Some N → n_graph N = Some g →
  e ∈ dvals (n_in N) ↔ ∃ s, joins h g e s r.
Proof.
  intros W HN Hg. rewrite elem_of_dvals. split.
  - intros [k Hk]. destruct (WF_in_entry h r N k e) as (g1 & E & t & Nt & u & HE & HgE & Hs & Ht & _ & _ & HgN & _); [done..|].
    assert (g1 = g) as -> by congruence. by exists t, E.
  - intros (t & E & HE & HgE & Hs & Ht).
    destruct (wf_live _ W e E g HE HgE) as (s' & t' & Ns' & Nt' & u & ? & ? & ? & ? & ? & ? & ? & _ & Ho).
    assert (t' = r) as -> by congruence. assert (Nt' = N) as -> by congruence. eauto.
Qed.
Lemma joins_in_graph h g e x y : WF h → joins h g e x y → in_graph h g x ∧ in_graph h g y.
Proof.
  intros W (E & HE & HgE & Hs & Ht).
  destruct (wf_live _ W e E g HE HgE) as (s' & t' & Ns' & Nt' & u & ? & ? & ? & ? & ? & ? & _).
  simplify_eq. split; apply in_graph_node; eauto.
Qed.
Lemma joins_fun h g e x y x' y' : joins h g e x y → joins h g e x' y' → x = x' ∧ y = y'.
Proof. intros (E & ? & ? & ? & ?) (E' & ? & ? & ? & ?). by simplify_eq. Qed.
Lemma adj_in_graph h g x y : WF h → adj h g x y → in_graph h g x ∧ in_graph h g y.
Proof. intros W [e He]. by eapply joins_in_graph. Qed.

Lemma get_node_denotes h g x r : WF h → get_node h g x = Ok r ↔ denotes h g x r.
Proof.
  intros W. unfold get_node, denotes, named. split.
  - intros (G & HG & Hr)%rbind_Ok. apply get_g_inv in HG. destruct x as [n|r'|]; [| |done].
    + apply dgetR_Ok, dget_Some_in in Hr. exists n. split; [by exists G|by left].
    + apply rbind_Ok in Hr as (N & HN & Hr). apply get_n_inv in HN. apply dgetR_Ok, dget_Some_in in Hr.
      exists (n_id N). split; [by exists G|]. right. by exists r', N.
  - intros (k & (G & HG & Hk) & Hx). rewrite (get_g_Ok _ _ _ HG). simpl.
    assert (dgetR (g_nodes G) k = Ok r) as Hd.
    { apply dgetR_Ok, dget_in_Some; [|done]. by apply (wf_gkeys _ W g). }
    destruct Hx as [->|(r0 & N0 & -> & HN0 & Hid)]; [done|]. rewrite (get_n_Ok _ _ _ HN0). simpl. by rewrite Hid.
Qed.
Lemma get_node_unknown h g x : unknown h g x → get_node h g x = Err KeyError.
Proof.
  intros (G & k & HG & Hk & Hx). unfold get_node. rewrite (get_g_Ok _ _ _ HG). simpl.
  assert (dgetR (g_nodes G) k = Err KeyError) as Hd.
  { unfold dgetR. by rewrite (proj2 (dget_None (g_nodes G) k)) by done. }
  destruct Hx as [->|(r0 & N0 & -> & HN0 & Hid)]; [done|]. rewrite (get_n_Ok _ _ _ HN0). simpl. by rewrite Hid.
Qed.
Lemma get_node_self h g r : WF h → in_graph h g r → get_node h g (ANode r) = Ok r.
Proof.
  intros W (N & HN & Hg)%in_graph_node; [|done]. apply get_node_denotes; [done|]. exists (n_id N). split.
  - apply named_node; eauto.
  - right. eauto.
Qed.
