(** Every heap that a client program reaches satisfies the invariant. *)
From Verif Require Export ProofCopy Ops.

Lemma style_exists_n h a : style_exists (length (h_ns h)) a → nsarg_ok h a.
Proof. by destruct a. Qed.
Lemma style_exists_e h a : style_exists (length (h_es h)) a → esarg_ok h a.
Proof. by destruct a. Qed.
Lemma style_exists_lt n a : style_exists n a → nsarg_lt n a.
Proof. intros Ha s ->. done. Qed.
Lemma repr_exists_styles n m d : repr_exists n m d → repr_styles n m d.
Proof.
  intros [H1 H2]. split.
  - intros nd [k a] Hnd Hin. rewrite Hnd in H1. by eapply style_exists_lt, H1.
  - intros [p c|p c a| |] Hin; simpl; try done. by eapply style_exists_lt, H2.
Qed.
Lemma obj_exists_styles n m o : obj_exists n m o → gobj_styles n m o.
Proof. destruct o; simpl; try done. apply repr_exists_styles. Qed.

Lemma node_ctor_run h g G n a i : h_graphs h !! g = Some G →
  ∃ l ost, resolve_nstyle (a_style a) h = (h <| h_ns := h_ns h ++ l |>, ost) ∧
  node_ctor g n a i h =
  match ost with
  | Err x => (h, Err x)
  | Ok st =>
    (h <| h_nodes := h_nodes h ++ [MkNode (Some g) n (a_value a) (a_label a) (a_tooltip a) st false (a_params a) [] [] i] |>
       <| h_graphs := <[g := G <| g_nodes := dset (g_nodes G) n (length (h_nodes h)) |>]> (h_graphs h) |>
       <| h_ns := h_ns h ++ l |>, Ok (length (h_nodes h)))
  end.
Proof.
  intros HG. destruct (resolve_nstyle_run (a_style a) h) as (l & ost & Hres & _ & Hl & _). exists l, ost. split; [done|].
  unfold node_ctor. destruct ost as [st|x].
  - erewrite sbind_step by exact Hres. erewrite sbind_step by done.
    erewrite sbind_step by (by apply upd_g_run). unfold sret. f_equal.
  - erewrite sbind_fail by exact Hres. f_equal. rewrite (Hl x) by done. apply heap_ns_nil.
Qed.
Lemma WF_node_ctor h g G n a i : WF h → h_graphs h !! g = Some G → n ∉ dkeys (g_nodes G) →
  nsarg_ok h (a_style a) → WF (node_ctor g n a i h).1.
Proof.
  intros W HG Hn Hok. destruct (node_ctor_run h g G n a i HG) as (l & ost & Hres & ->).
  destruct ost as [st|x]; [|done]. simpl.
  eapply (WF_add_node h _ g G (MkNode (Some g) n (a_value a) (a_label a) (a_tooltip a) st false (a_params a) [] [] i)); simpl; try done.
  - intros s ->. destruct (resolve_nstyle_run (a_style a) h) as (l' & ro' & Hr' & Hlt & _).
    rewrite Hres in Hr'. injection Hr' as Hh <-.
    assert (l = l') as <- by (destruct h; unfold set in Hh; simpl in Hh; simplify_eq; done).
    by apply Hlt.
  - simpl. by apply dset_fresh.
  - rewrite app_length. lia.
Qed.

Lemma remove_edges_run h r N : WF h → h_nodes h !! r = Some N →
  remove_edges r h = (unlink cleared (own_edges N) h, Ok tt) ∧ WF (unlink cleared (own_edges N) h).
Proof.
  intros W HN. unfold remove_edges.
  rewrite (sread_Ok _ _ _ _ (node_edges_run h r N W HN)).
  apply siter_remove_self; [done|apply NoDup_nub|intros; by eapply own_edges_live].
Qed.
Lemma remove_edges_none h r : h_nodes h !! r = None → (remove_edges r h).1 = h.
Proof. intros HN. unfold remove_edges, sbind, sread, node_edges, get_n. by rewrite HN. Qed.

Lemma WF_after h c : WF h → allowed h c → WF (after c h).
Proof.
  intros W Hal. assert (I0 : Inv 0 0 h) by (split; [done|split; lia]).
  destruct c; simpl in *.
  - by apply (Inv_new_graph 0 0).
  - apply WF_add_node_call; [done|apply style_exists_n, Hal|apply Hal].
  - apply WF_connect; [done|by apply style_exists_e].
  - unfold connect_to, sbind, sread. destruct (node_graph h r); [|done]. apply WF_connect; [done|by apply style_exists_e].
  - unfold connect_from, sbind, sread. destruct (node_graph h r); [|done]. apply WF_connect; [done|by apply style_exists_e].
  - by apply WF_disconnect.
  - by apply WF_remove_self.
  - destruct (h_nodes h !! r) as [N|] eqn:HN; [|by rewrite remove_edges_none].
    by destruct (remove_edges_run h r N W HN) as [-> ?].
  - by apply WF_remove_node.
  - eapply WF_data_only; [done|]. by apply node_set_style_data_only, style_exists_n.
  - eapply WF_data_only; [done|]. unfold node_set_value, sbind, sread. destruct (get_n h r) as [N|]; [|apply data_only_refl].
    destruct (n_frozen N); [apply data_only_refl|]. by apply upd_n_data_only.
  - eapply WF_data_only; [done|]. by apply upd_n_data_only.
  - eapply WF_data_only; [done|]. by apply upd_n_data_only.
  - eapply WF_data_only; [done|]. by apply upd_n_data_only.
  - eapply WF_data_only; [done|]. by apply edge_set_style_data_only, style_exists_e.
  - eapply WF_data_only; [done|]. unfold edge_set_value, sbind, sread. destruct (get_e h e) as [N|]; [|apply data_only_refl].
    destruct (e_frozen N); [apply data_only_refl|]. by apply upd_e_data_only.
  - eapply WF_data_only; [done|]. by apply upd_e_data_only.
  - eapply WF_data_only; [done|]. by apply upd_e_data_only.
  - eapply WF_data_only; [done|]. by apply upd_e_data_only.
  - destruct Hal as [Hst (G & HG & Hn)]. eapply WF_node_ctor; [done..|by apply style_exists_n].
  - destruct Hal as [Hst (Ns & Nt & HNs & HNt & Hgs & Hgt & Hi)].
    eapply WF_edge_ctor; [done|by apply style_exists_e|done..|].
    rewrite <-(WF_mirror_keys h s t Ns Nt); [done..|congruence|eauto].
  - by apply WF_copy.
  - by apply WF_filter_graph.
  - by apply (Inv_from_lists 0 0).
  - by apply (Inv_from_object 0 0).
  - by apply (Inv_from_indented_text 0 0).
  - by apply (Inv_random_graph 0 0).
  - apply WF_append; [done|by apply obj_exists_styles].
  - apply WF_append_all; [done|]. intros o Ho. by apply obj_exists_styles, Hal.
  - apply WF_graph_of; [done|by apply obj_exists_styles].
  - apply WF_from_dict; [done|by apply repr_exists_styles].
  - by apply WF_add_graphs.
  - by apply WF_stylize.
  - unfold render, sbind. pose proof (WF_stylize h g shuffle W) as H.
    destruct (stylize g shuffle h) as [h1 [a|x]]; simpl in H; [|done]. unfold sread. by destruct graphviz_str.
  - unfold set_background, sbind, sread. destruct (to_colour v); [|done]. by apply (Inv_upd_disp 0 0).
  - unfold make_nstyle, sbind, sread. destruct (nstyle_ctor d); [|done]. eapply WF_data_only; [done|apply dpres_new_ns].
  - unfold derive_nstyle, sbind, sread. destruct (rbind _ _); [|done]. eapply WF_data_only; [done|apply dpres_new_ns].
  - eapply WF_data_only; [done|apply dpres_complement_ns].
  - unfold make_estyle, sbind, sread. destruct (estyle_ctor d); [|done]. eapply WF_data_only; [done|apply dpres_new_es].
  - unfold derive_estyle, sbind, sread. destruct (rbind _ _); [|done]. eapply WF_data_only; [done|apply dpres_new_es].
  - eapply WF_data_only; [done|apply dpres_complement_es].
Qed.

Lemma reachable_WF h : reachable h → WF h.
Proof. induction 1 as [|h c _ IH Hal]; [apply WF_empty|by apply WF_after]. Qed.
