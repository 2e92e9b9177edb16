(** The dictionary a Graph gives of itself: [graph_repr]. *)
From Verif Require Export ProofAdj ProofC2.

(** the entry for a node *)
Definition node_entry (h : heap) (r : nref) : nargs :=
  match h_nodes h !! r with
  | Some N => MkNArgs (PMeth r) (n_value N) (style_arg (n_style N)) "warn"%string PNone []
  | None => nargs0
  end.
Definition repr_of (h : heap) (G : graph) (D : display) : grepr :=
  MkRepr (Some (g_strict G)) (Some (g_ordering G)) (Some (d_label D)) None (Some (d_label_url D))
         (Some (d_gnode D)) None (Some (d_gedge D)) None None None
         (inl ((λ kr, (kr.1, node_entry h kr.2)) <$> g_nodes G)) [] (Some (d_node_styles D))
         (Some ((λ kv, (K3 kv.1, kv.2)) <$> d_edge_styles D)) (Some (d_node_colours D)) None.
Definition edgeless (h : heap) (g : gref) : Prop := ∀ e x y, ¬ joins h g e x y.

Definition repr_step (h : heap) : dict name nargs * list espec → nref → res (dict name nargs * list espec) :=
  λ '(nd, el) r,
      let! N := get_n h r in
      let nd := dset nd (n_id N) (MkNArgs (PMeth r) (n_value N) (style_arg (n_style N)) "warn"%string PNone []) in
      let! es := outward_edges h r in
      let! l := rmap (edge_repr h) es in
      Ok (nd, el ++ l).

Lemma edge_repr_fails h e E g : WF h → h_edges h !! e = Some E → e_graph E = Some g → edge_repr h e = Err AttributeError.
Proof.
  intros W HE Hg. destruct (get_edge_id_live h e E g W HE Hg) as (s & t & Ns & Nt & u & _ & _ & _ & _ & _ & _ & Hu & Hid & _).
  unfold edge_repr, edge_raw_label. rewrite Hid. cbn [rbind]. rewrite (get_e_Ok _ _ _ HE). cbn [rbind]. rewrite Hu. done.
Qed.
Lemma repr_fold h g G : WF h → h_graphs h !! g = Some G → ∀ l2 l1, g_nodes G = l1 ++ l2 →
  (edgeless h g → rfold (repr_step h) ((λ kr, (kr.1, node_entry h kr.2)) <$> l1, []) (dvals l2) =
     Ok ((λ kr, (kr.1, node_entry h kr.2)) <$> g_nodes G, [])) ∧
  ((∃ k r e, (k, r) ∈ l2 ∧ ∃ y, joins h g e r y) → ∀ nd, rfold (repr_step h) (nd, []) (dvals l2) = Err AttributeError).
Proof.
  intros W HG. induction l2 as [|[k r] l2 IH]; intros l1 Hl.
  - rewrite app_nil_r in Hl. subst l1. split; [done|]. by intros (k & r & e & ?%elem_of_nil & _).
  - destruct (wf_gnodes _ W g G k r HG) as (N & HN & Hid & Hg); [rewrite Hl; apply elem_of_app; right; left|].
    destruct (IH (l1 ++ [(k, r)])) as [IH1 IH2]; [by rewrite <-app_assoc|]. clear IH.
    assert (∀ nd el, repr_step h (nd, el) r = let! l := rmap (edge_repr h) (dvals (n_out N)) in
              Ok (dset nd k (node_entry h r), el ++ l)) as Hstep.
    { intros nd el. unfold repr_step. rewrite (get_n_Ok _ _ _ HN). cbn [rbind].
      rewrite (outward_edges_run h r N) by done. cbn [rbind]. unfold node_entry. by rewrite HN, Hid. }
    change (dvals ((k, r) :: l2)) with (r :: dvals l2). cbn [rfold]. split.
    + intros Hno. rewrite Hstep. destruct (n_out N) as [|[i e] o] eqn:Ho.
      * cbn [dvals map rmap rbind]. rewrite <-IH1 by done. f_equal. rewrite fmap_app. rewrite dset_fresh; [done|].
        -- pose proof (wf_gkeys _ W g G HG) as Hnd. rewrite Hl, dkeys_app in Hnd. simpl in Hnd.
           unfold dkeys. rewrite <-list_fmap_compose. intros ([k' r'] & -> & Hin)%elem_of_list_fmap.
           apply NoDup_app in Hnd as (_ & Hdis & _). apply (Hdis k'); [|left].
           apply elem_of_dkeys. eauto.
      * exfalso. assert ((i, e) ∈ n_out N) as Hin by (rewrite Ho; left).
        destruct (WF_out_entry h r N i e W HN Hin) as (g1 & E & t & Nt & u & HE & Hge & Hs & Ht & _ & _ & HgN & _).
        apply (Hno e r t). exists E. split_and!; try done. congruence.
    + intros (k' & r' & e & Hin & y & Hj) nd. rewrite Hstep. destruct (n_out N) as [|[i e1] o] eqn:Ho.
      * cbn [dvals map rmap rbind]. apply IH2. exists k', r', e. split; [|eauto].
        apply elem_of_cons in Hin as [[= -> ->]|Hin]; [|done]. exfalso.
        destruct Hj as (E & HE & Hge & Hs & Ht).
        destruct (get_edge_id_live h e E g W HE Hge) as (s & t & Ns & Nt & u & Hs' & Ht' & HNs & _ & _ & _ & _ & _ & Hout & _).
        assert (s = r) as -> by congruence. assert (Ns = N) as -> by congruence. rewrite Ho in Hout. by apply elem_of_nil in Hout.
      * assert ((i, e1) ∈ n_out N) as Hin1 by (rewrite Ho; left).
        destruct (WF_out_entry h r N i e1 W HN Hin1) as (g1 & E & t & Nt & u & HE & Hge & _).
        change (dvals ((i, e1) :: o)) with (e1 :: dvals o). cbn [rmap]. by rewrite (edge_repr_fails h e1 E g1).
Qed.
Lemma graph_repr_edgeless h g G : WF h → h_graphs h !! g = Some G → edgeless h g →
  graph_repr h g = match g_disp G with Some D => Ok (repr_of h G D) | None => Err AttributeError end.
Proof.
  intros W HG Hno. unfold graph_repr. rewrite (get_g_Ok _ _ _ HG). cbn [rbind]. fold (repr_step h).
  destruct (repr_fold h g G W HG (g_nodes G) []) as [H1 _]; [done|]. simpl in H1. rewrite H1 by done. cbn [rbind].
  by destruct (g_disp G).
Qed.
Lemma graph_repr_edges h g G e x y : WF h → h_graphs h !! g = Some G → joins h g e x y →
  graph_repr h g = Err AttributeError.
Proof.
  intros W HG Hj. unfold graph_repr. rewrite (get_g_Ok _ _ _ HG). cbn [rbind]. fold (repr_step h).
  destruct (repr_fold h g G W HG (g_nodes G) []) as [_ H2]; [done|]. rewrite H2; [done|].
  destruct (joins_in_graph h g e x y W Hj) as [(G' & k & HG' & Hk) _]. assert (G' = G) as -> by congruence.
  exists k, x, e. eauto.
Qed.
Lemma edgeless_dec h g G : WF h → h_graphs h !! g = Some G → edgeless h g ∨ ∃ e x y, joins h g e x y.
Proof.
  intros W HG. destruct (all_edges h G) as [|e l] eqn:Hl.
  - left. intros e x y Hj. assert (e ∈ all_edges h G) as He by (apply (elem_of_all_edges h g); eauto).
    rewrite Hl in He. by apply elem_of_nil in He.
  - right. exists e. apply (elem_of_all_edges h g G); [done..|]. rewrite Hl. left.
Qed.
