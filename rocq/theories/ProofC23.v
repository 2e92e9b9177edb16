(** Styles for all nodes and for all edges: C71. *)
From Verif Require Export ProofGlobal.
Local Open Scope list_scope.

Lemma smart_same h h' g d : h_graphs h' = h_graphs h → (∀ r, n_id <$> h_nodes h' !! r = n_id <$> h_nodes h !! r) → smart_node_style h' g d = smart_node_style h g d.
Proof.
  intros Hg Hn. unfold smart_node_style, nodes, get_g. rewrite Hg. destruct (dget d "shape"%string) as [[]|]; try done. destruct (String.prefix _ _); [|done]. destruct (h_graphs h !! g) as [G|]; [|done]. cbn [rbind].
  assert (∀ l, rmap (λ r, let! N := get_n h' r in Ok (String.length (name_str (n_id N)))) l = rmap (λ r, let! N := get_n h r in Ok (String.length (name_str (n_id N)))) l) as ->; [|done].
  induction l as [|r l IH]; [done|]. cbn [rmap]. rewrite IH. specialize (Hn r). unfold get_n. destruct (h_nodes h' !! r) as [N'|], (h_nodes h !! r) as [N|]; cbn in Hn; try done. injection Hn as Hn. cbn. by rewrite Hn.
Qed.
Lemma node_pass_set g o h h' G : WF h → h_graphs h !! g = Some G → node_pass (λ r d, node_set_style r (SDict d)) g o h = (h', Ok tt) →
  WF h' ∧ h_graphs h' = h_graphs h ∧ h_edges h' = h_edges h ∧ h_es h' = h_es h ∧ (∃ l, h_ns h' = h_ns h ++ l) ∧
  (∀ r, h_nodes h' !! r = (λ N, N <| n_style := (h_nodes h' !! r) ≫= n_style |>) <$> h_nodes h !! r) ∧
  ∀ d, o = Some d → ∃ d', smart_node_style h g d = Ok d' ∧ ∀ i r, dvals (g_nodes G) !! i = Some r → ∃ N s, h_nodes h' !! r = Some N ∧ n_style N = Some (length (h_ns h) + i) ∧ h_ns h' !! (length (h_ns h) + i) = Some s ∧ nstyle_ctor d' = Ok s.
Proof.
  intros W HG H. assert (W' : WF h'). { eapply WF_data_only; [exact W|]. assert (HI : dpres (node_pass (λ r d, node_set_style r (SDict d)) g o)) by (apply dpres_node_pass; intros; dpresM). specialize (HI h). by rewrite H in HI. }
  split; [done|]. unfold node_pass, edge_pass, when_dict in H. destruct o as [d|].
  - apply sbind_Ok in H as (? & d' & [Hd' ->]%sread_inv & (? & ns & [Hns ->]%sread_inv & H)%sbind_Ok). rewrite (nodes_run h g G) in Hns by done. injection Hns as <-.
    destruct (restyle_nodes _ _ _ _ H) as (E & Hl & Hn & _ & Hi); [by eapply (NoDup_nodes h g G)|]. split_and!; [by rewrite E..|done|done|]. intros ? [= <-]. by exists d'.
  - injection H as <-. split_and!; try done; [exists []; by rewrite app_nil_r|]. intros r. destruct (h_nodes h !! r) as [N|]; [|done]. cbn. by destruct N.
Qed.
Lemma edge_pass_set g o h h' G : WF h → h_graphs h !! g = Some G → edge_pass (λ r d, edge_set_style r (SDict d)) g o h = (h', Ok tt) →
  WF h' ∧ h_graphs h' = h_graphs h ∧ h_nodes h' = h_nodes h ∧ h_ns h' = h_ns h ∧ (∃ l, h_es h' = h_es h ++ l) ∧
  (∀ r, h_edges h' !! r = (λ N, N <| e_style := (h_edges h' !! r) ≫= e_style |>) <$> h_edges h !! r) ∧
  ∀ d, o = Some d → ∀ i r, all_edges h G !! i = Some r → ∃ N s, h_edges h' !! r = Some N ∧ e_style N = Some (length (h_es h) + i) ∧ h_es h' !! (length (h_es h) + i) = Some s ∧ estyle_ctor d = Ok s.
Proof.
  intros W HG H. assert (W' : WF h'). { eapply WF_data_only; [exact W|]. assert (HI : dpres (edge_pass (λ r d, edge_set_style r (SDict d)) g o)) by (apply dpres_edge_pass; intros; dpresM). specialize (HI h). by rewrite H in HI. }
  split; [done|]. unfold node_pass, edge_pass, when_dict in H. destruct o as [d|].
  - apply sbind_Ok in H as (? & ns & [Hns ->]%sread_inv & H). rewrite (graph_edges_run h g G) in Hns by done. injection Hns as <-.
    apply restyle_edges in H as (E & Hl & Hn & _ & Hi); [|apply NoDup_nub]. split_and!; [by rewrite E..|done|done|]. by intros ? [= <-].
  - injection H as <-. split_and!; try done; [exists []; by rewrite app_nil_r|]. intros r. destruct (h_edges h !! r) as [N|]; [|done]. cbn. by destruct N.
Qed.
Lemma joins_same h h' g e x y : (∀ r, h_edges h' !! r = (λ N, N <| e_style := (h_edges h' !! r) ≫= e_style |>) <$> h_edges h !! r) → joins h' g e x y ↔ joins h g e x y.
Proof.
  intros Hn. unfold joins. rewrite Hn. split.
  - intros (E & HE & H). destruct (h_edges h !! e) as [E0|] eqn:H0; [|done]. cbn in HE. injection HE as <-. by exists E0.
  - intros (E & HE & H). rewrite HE. cbn. eexists. split; [done|]. done.
Qed.
Lemma edge_pass_frame g o h h' : edge_pass edge_complement g o h = (h', Ok tt) → h_nodes h' = h_nodes h ∧ h_ns h' = h_ns h.
Proof.
  unfold edge_pass, when_dict. destruct o as [d|]; [|by intros [= <-]]. intros (? & es & [_ ->]%sread_inv & H)%sbind_Ok. revert h H. induction es as [|e es IH]; intros h; cbn [siter]; [by intros [= <-]|].
  intros (h1 & [] & (N & k & s & s2 & _ & _ & _ & _ & ->)%ecomplement_run & H2)%sbind_Ok. apply IH in H2 as [-> ->]. done.
Qed.
(** C71.  With a style for all nodes, and possibly one for all edges, a successful call
    of stylize leaves every node with the style that NodeStyle makes of the given
    arguments, whatever the colour scheme; the shape 'auto' becomes 'circle' if all
    names have fewer than three characters. *)
Lemma C71_nodes_partial_proof : ∀ h g G D sh h' d, reachable h → h_graphs h !! g = Some G → g_disp G = Some D → global_styles D → d_gnode D = Some d → NoDup d.*1 → entry d "colour" ≠ Some (PStr "") →
  stylize g sh h = (h', Ok tt) → ∃ d', shaped h g d d' ∧ ∀ r, in_graph h g r → ∃ s, made_of d' s ∧ style_of h' r s.
Proof.
  intros h g G D sh h' d Hr HG HD Hgl Hd Hnd Hcol. pose proof (reachable_WF h Hr) as W. rewrite (stylize_global g sh h G D) by done.
  intros (h1 & [] & H1 & (h2 & [] & H2 & (h3 & [] & H3 & (h4 & [] & H4 & H5)%sbind_Ok)%sbind_Ok)%sbind_Ok)%sbind_Ok.
  destruct (node_pass_set g _ h h1 G W HG H1) as (W1 & Eg1 & Ee1 & Es1 & [l1 Hl1] & Hn1 & Hi1). destruct (Hi1 d Hd) as (d' & Hd' & Hi). clear Hi1.
  pose proof (smart_shaped h g d d' W Hnd Hd') as Hsh. exists d'. split; [done|]. pose proof (shaped_nodup h g d d' Hnd Hsh) as Hnd'.
  assert (HG1 : h_graphs h1 !! g = Some G) by (by rewrite Eg1). destruct (edge_pass_set g _ h1 h2 G W1 HG1 H2) as (W2 & Eg2 & En2 & Ens2 & _ & _ & _).
  assert (HG2 : h_graphs h2 !! g = Some G) by (by rewrite Eg2). destruct (pensieve_post h2 g G (d_scheme D) h3) as [S _ _ _ _ _]; [done..|]. pose proof (sa_WF _ _ _ S W2) as W3.
  assert (HG3 : h_graphs h3 !! g = Some G) by (by rewrite (sa_graphs _ _ _ S)).
  assert (Hi3 : ∀ i r, dvals (g_nodes G) !! i = Some r → ∃ N s, h_nodes h3 !! r = Some N ∧ n_style N = Some (length (h_ns h) + i) ∧ h_ns h3 !! (length (h_ns h) + i) = Some s ∧ nstyle_ctor d' = Ok s).
  { intros i r Hir. destruct (Hi i r Hir) as (N & s & HN & Hk & Hs & Hc). rewrite <-En2 in HN. destruct (sa_node_fwd _ _ _ _ _ S HN) as (N' & HN' & _ & [E|(E & _)]); [|congruence].
    exists N', s. split_and!; [done|congruence| |done]. destruct (sa_ns _ _ _ S) as [l ->]. rewrite Ens2. by apply lookup_app_l_Some. }
  rewrite Hd in H4. unfold node_pass, when_dict in H4. apply sbind_Ok in H4 as (? & d2 & [Hd2 ->]%sread_inv & (? & ns & [Hns ->]%sread_inv & H4)%sbind_Ok). rewrite (nodes_run h3 g G) in Hns by done. injection Hns as <-.
  assert (d2 = d') as ->. { rewrite (smart_same h) in Hd2; [congruence|by rewrite (sa_graphs _ _ _ S), Eg2|]. intros r. destruct (h_nodes h3 !! r) as [N3|] eqn:HN3.
    - destruct (sa_node_bwd _ _ _ _ _ S HN3) as (N2 & HN2 & EN & _). rewrite En2, Hn1 in HN2. destruct (h_nodes h !! r) as [N|]; [|done]. cbn in HN2 |- *. injection HN2 as HN2. rewrite EN, <-HN2. done.
    - apply lookup_ge_None in HN3. rewrite (sa_nlen _ _ _ S), En2 in HN3. apply lookup_ge_None in HN3. rewrite Hn1 in HN3. by destruct (h_nodes h !! r). }
  apply complement_nodes in H4 as (E4 & _ & HA & _); [|by eapply (NoDup_nodes h g G)|].
  2: { intros r1 r2 N1 N2 k Hr1 Hr2 HN1 HN2 Hk1 Hk2. apply elem_of_list_lookup in Hr1 as [i Hi1], Hr2 as [j Hj1]. destruct (Hi3 i r1 Hi1) as (M1 & ? & ? & E1 & _), (Hi3 j r2 Hj1) as (M2 & ? & ? & E2 & _).
       assert (M1 = N1) as -> by congruence. assert (M2 = N2) as -> by congruence. assert (i = j) as -> by (rewrite Hk1 in E1; rewrite Hk2 in E2; injection E1; injection E2; lia). congruence. }
  intros r Hr'. apply (elem_of_nodes h g G) in Hr'; [|done]. destruct (HA r Hr') as (s & s' & (N & k & HN & Hk & Hs) & Hc & Hst). apply elem_of_list_lookup in Hr' as [i Hir].
  destruct (Hi3 i r Hir) as (N' & s2 & HN' & Hk' & Hs2 & Hct). assert (N' = N) as -> by congruence. assert (s2 = s) as -> by congruence. apply (complement_made d') in Hc as ->; [|done|done|].
  - exists s. split; [by apply ctor_made|]. destruct (edge_pass_frame g (d_gedge D) h4 h' H5) as [E5 E6]. unfold style_of in *. by rewrite E5, E6.
  - destruct Hsh as [(? & _ & _ & _ & _ & He)|[-> _]]; [rewrite He|done]. done.
Qed.
Lemma node_pass_frame g o h h' : node_pass node_complement g o h = (h', Ok tt) → h' = h <| h_ns := h_ns h' |> ∧ length (h_ns h') = length (h_ns h).
Proof.
  unfold node_pass, when_dict. destruct o as [d|]; [|intros [= <-]; by destruct h]. intros (? & d' & [_ ->]%sread_inv & (? & ns & [_ ->]%sread_inv & H)%sbind_Ok)%sbind_Ok.
  revert h H. induction ns as [|e es IH]; intros h; cbn [siter]; [intros [= <-]; by destruct h|].
  intros (h1 & [] & (N & k & s & s2 & _ & _ & _ & _ & ->)%complement_run & H2)%sbind_Ok. apply IH in H2 as [-> L]. split; [by destruct h|]. cbn in L |- *. by rewrite L, insert_length.
Qed.
(** C71.  With a style for all edges, and possibly one for all nodes, a successful call
    of stylize leaves every edge with the style that EdgeStyle makes of the given
    arguments, whatever the colours of the nodes. *)
Lemma C71_edges_partial_proof : ∀ h g G D sh h' d, reachable h → h_graphs h !! g = Some G → g_disp G = Some D → global_styles D → d_gedge D = Some d → NoDup d.*1 → entry d "colour" ≠ Some (PStr "") →
  stylize g sh h = (h', Ok tt) → ∀ e x y, joins h g e x y → ∃ s, emade_of d s ∧ edge_style_of h' e s.
Proof.
  intros h g G D sh h' d Hr HG HD Hgl Hd Hnd Hcol. pose proof (reachable_WF h Hr) as W. rewrite (stylize_global g sh h G D) by done.
  intros (h1 & [] & H1 & (h2 & [] & H2 & (h3 & [] & H3 & (h4 & [] & H4 & H5)%sbind_Ok)%sbind_Ok)%sbind_Ok)%sbind_Ok.
  destruct (node_pass_set g _ h h1 G W HG H1) as (W1 & Eg1 & Ee1 & Es1 & _ & _ & _).
  assert (HG1 : h_graphs h1 !! g = Some G) by (by rewrite Eg1). destruct (edge_pass_set g _ h1 h2 G W1 HG1 H2) as (W2 & Eg2 & En2 & Ens2 & _ & He2 & Hi). specialize (Hi d Hd).
  assert (HG2 : h_graphs h2 !! g = Some G) by (by rewrite Eg2). destruct (pensieve_post h2 g G (d_scheme D) h3) as [S _ _ _ _ _]; [done..|]. pose proof (sa_WF _ _ _ S W2) as W3.
  assert (HG3 : h_graphs h3 !! g = Some G) by (by rewrite (sa_graphs _ _ _ S)). destruct (node_pass_frame g _ h3 h4 H4) as [E4 L4]. assert (W4 : WF h4) by (rewrite E4; by apply WF_ns). assert (HG4 : h_graphs h4 !! g = Some G) by (by rewrite E4).
  assert (Hj : ∀ e x y, joins h4 g e x y ↔ joins h g e x y).
  { intros e x y. transitivity (joins h3 g e x y); [by rewrite E4|]. transitivity (joins h2 g e x y); [apply (sa_joins _ _ _ S)|]. transitivity (joins h1 g e x y); [by apply joins_same|]. unfold joins. by rewrite Ee1. }
  assert (Hin : ∀ e, e ∈ all_edges h4 G ↔ e ∈ all_edges h1 G).
  { intros e. rewrite (elem_of_all_edges h4 g), (elem_of_all_edges h1 g) by done. split; intros (x & y & Hxy); exists x, y; [apply Hj in Hxy|apply Hj]; unfold joins in *; by rewrite ?Ee1 in *. }
  assert (Hi4 : ∀ i e, all_edges h1 G !! i = Some e → ∃ N s, h_edges h4 !! e = Some N ∧ e_style N = Some (length (h_es h1) + i) ∧ h_es h4 !! (length (h_es h1) + i) = Some s ∧ estyle_ctor d = Ok s).
  { intros i e Hie. destruct (Hi i e Hie) as (N & s & HN & Hk & Hs & Hc). destruct (sa_edge_fwd _ _ _ _ _ S HN) as (N' & HN' & _ & [E|(E & _)]); [|congruence].
    exists N', s. rewrite E4. split_and!; [done|congruence| |done]. cbn. destruct (sa_es _ _ _ S) as [l ->]. by apply lookup_app_l_Some. }
  rewrite Hd in H5. unfold edge_pass, when_dict in H5. apply sbind_Ok in H5 as (? & es & [Hes ->]%sread_inv & H5). rewrite (graph_edges_run h4 g G) in Hes by done. injection Hes as <-.
  destruct (complement_edges _ _ _ _ H5) as (E5 & _ & HA & _); [apply NoDup_nub| |].
  { intros r1 r2 N1 N2 k [i Hi1]%Hin%elem_of_list_lookup [j Hj1]%Hin%elem_of_list_lookup HN1 HN2 Hk1 Hk2. destruct (Hi4 i r1 Hi1) as (M1 & ? & ? & E1 & _), (Hi4 j r2 Hj1) as (M2 & ? & ? & E2 & _).
    assert (M1 = N1) as -> by congruence. assert (M2 = N2) as -> by congruence. assert (i = j) as -> by (rewrite Hk1 in E1; rewrite Hk2 in E2; injection E1; injection E2; lia). congruence. }
  intros e x y Hxy%Hj. assert (He : e ∈ all_edges h4 G) by (apply (elem_of_all_edges h4 g); eauto). destruct (HA e He) as (s & s' & (N & k & HN & Hk & Hs) & Hc & Hst).
  apply Hin, elem_of_list_lookup in He as [i Hie]. destruct (Hi4 i e Hie) as (N' & s2 & HN' & Hk' & Hs2 & Hct). assert (N' = N) as -> by congruence. assert (s2 = s) as -> by congruence.
  apply (ecomplement_made d) in Hc as ->; [|done..]. exists s. split; [by apply ector_made|done].
Qed.
Lemma restyle_locked d g G D : g_disp G = Some D → d_overwrite D = false → ∀ rs h h', h_graphs h !! g = Some G → siter (λ r, node_set_style r (SDict d)) rs h = (h', Ok tt) →
  ∀ r N, r ∈ rs → h_nodes h !! r = Some N → n_graph N = Some g → n_style N = None.
Proof.
  intros HD Ho. induction rs as [|r rs IH]; intros h h' HG; cbn [siter]; [by intros _ r N ?%elem_of_nil|]. intros (h1 & [] & H1 & H2)%sbind_Ok r' N Hr HN Hg.
  assert (Hfirst : ∀ N, h_nodes h !! r = Some N → n_graph N = Some g → n_style N = None).
  { intros N0 HN0 Hg0. destruct (n_style N0) eqn:Hs; [|done]. rewrite (set_style_locked h r N0 g G D) in H1; try done. by rewrite Hs. }
  destruct (decide (r' = r)) as [->|Hne]; [by apply Hfirst|]. apply elem_of_cons in Hr as [?|Hr]; [done|]. destruct (set_dict_run r d h h1 H1) as (N0 & s & HN0 & _ & ->).
  refine (IH _ _ _ H2 r' N Hr _ Hg); [done|]. cbn. by rewrite list_lookup_insert_ne.
Qed.
(** C71.  If a style for all nodes is given, overwriting is not allowed and some node
    has a style already, e.g. from the last call, stylize does not succeed. *)
Lemma C71_raises_partial_proof : ∀ h g G D sh h' d r, reachable h → h_graphs h !! g = Some G → g_disp G = Some D → global_styles D → d_gnode D = Some d → d_overwrite D = false →
  in_graph h g r → node_styled h r → stylize g sh h ≠ (h', Ok tt).
Proof.
  intros h g G D sh h' d r Hr HG HD Hgl Hd Ho Hin (N & HN & Hs). pose proof (reachable_WF h Hr) as W. rewrite (stylize_global g sh h G D) by done. intros (h1 & [] & H1 & _)%sbind_Ok.
  rewrite Hd in H1. unfold node_pass, when_dict in H1. apply sbind_Ok in H1 as (? & d' & [_ ->]%sread_inv & (? & ns & [Hns ->]%sread_inv & H1)%sbind_Ok).
  rewrite (nodes_run h g G) in Hns by done. injection Hns as <-. apply Hs. destruct (in_graph_lookup h W g r Hin) as (N' & HN' & Hg). assert (N' = N) as -> by congruence.
  eapply (restyle_locked d' g G D); try done. by apply (elem_of_nodes h g).
Qed.

(** C71 refuted: a -> b with the scheme red, ... and the style shape = 'circle' for all
    nodes.  After stylize node a is gray, although without the style it is red. *)
Lemma C71_scheme_refuted_proof : ∃ h G D h' s h2 h2' s2, reachable h ∧ h_graphs h !! 0 = Some G ∧ g_disp G = Some D ∧ global_styles D ∧ d_gnode D = Some [("shape"%string, PStr "circle")] ∧ d_gedge D = None ∧
  (∀ r, ¬ node_styled h r) ∧ stylize 0 id h = (h', Ok tt) ∧ style_of h' 0 s ∧ ns_shape s = PStr "circle" ∧ ns_colour s = CHexa "#AAAAAA" ∧
  h2 = h <| h_graphs := [G <| g_disp := Some (D <| d_gnode := None |>) |>] |> ∧ stylize 0 id h2 = (h2', Ok tt) ∧ style_of h2' 0 s2 ∧ ns_colour s2 = CName "red".
Proof.
  eexists (run [CNew false true (disp0 <| d_gnode := Some [("shape"%string, PStr "circle")] |>); CAppend 0 (ODict (over_repr [nm "a"; nm "b"] [(nm "a", nm "b")] [] [] []))] empty_heap), _, _, _, _, _, _, _.
  split; [reach_over|]. split; [vm_compute; reflexivity|]. split; [vm_compute; reflexivity|]. split; [by repeat split|]. split; [done|]. split; [done|].
  split. { intros r (N & HN & Hs). destruct r as [|[|]]; vm_compute in HN; [by injection HN as <-..|done]. }
  split; [vm_compute; reflexivity|]. split; [style_read|]. split; [reflexivity|]. split; [reflexivity|]. split; [reflexivity|]. split; [vm_compute; reflexivity|]. split; [style_read|]. reflexivity.
Qed.
(** C71 refuted: with the shape 'auto' a graph with the node abc gets the shape 'auto',
    which Graphviz does not have. *)
Lemma C71_auto_refuted_proof : ∃ h G D h' s, reachable h ∧ h_graphs h !! 0 = Some G ∧ g_disp G = Some D ∧ global_styles D ∧ d_gnode D = Some [("shape"%string, PStr "auto")] ∧
  named h 0 (nm "abc") 0 ∧ stylize 0 id h = (h', Ok tt) ∧ style_of h' 0 s ∧ ns_shape s = PStr "auto".
Proof.
  eexists (run [CNew false true (disp0 <| d_gnode := Some [("shape"%string, PStr "auto")] |>); CAppend 0 (ODict (over_repr [nm "abc"; nm "b"] [(nm "abc", nm "b")] [] [] []))] empty_heap), _, _, _, _.
  split; [reach_over|]. split; [vm_compute; reflexivity|]. split; [vm_compute; reflexivity|]. split; [by repeat split|]. split; [done|].
  split; [eexists; split; [vm_compute; reflexivity|]; left|]. split; [vm_compute; reflexivity|]. split; [style_read|]. reflexivity.
Qed.
(** C71, an instance: a -> b with the shape 'Auto' and the colour blue for all nodes and
    the line width 7 for all edges; the styles come out so. *)
Lemma C71_ex_proof : ∃ h G D d de h' s es, reachable h ∧ h_graphs h !! 0 = Some G ∧ g_disp G = Some D ∧ global_styles D ∧ d_gnode D = Some d ∧ d_gedge D = Some de ∧ NoDup d.*1 ∧ NoDup de.*1 ∧
  d = [("shape", PStr "Auto"); ("colour", PStr "blue")]%string ∧ de = [("line_width", PInt 7)]%string ∧ short_names h 0 ∧ joins h 0 0 0 1 ∧ stylize 0 id h = (h', Ok tt) ∧
  style_of h' 1 s ∧ ns_shape s = PStr "circle" ∧ ns_colour s = CName "blue" ∧ edge_style_of h' 0 es ∧ es_line_width es = PInt 7 ∧ es_colour es = CHexa "#AAAAAA".
Proof.
  eexists (run [CNew false true (disp0 <| d_gnode := Some [("shape", PStr "Auto"); ("colour", PStr "blue")]%string |> <| d_gedge := Some [("line_width", PInt 7)]%string |>); CAppend 0 (ODict (over_repr [nm "a"; nm "b"] [(nm "a", nm "b")] [] [] []))] empty_heap), _, _, _, _, _, _, _.
  split; [reach_over|]. split; [vm_compute; reflexivity|]. split; [vm_compute; reflexivity|]. split; [by repeat split|]. split; [done|]. split; [done|]. split; [dec|]. split; [dec|]. split; [done|]. split; [done|].
  split. { intros n r (G & HG & Hin). vm_compute in HG. injection HG as <-. cbn in Hin. repeat (apply elem_of_cons in Hin as [[= -> ->]|Hin]; [vm_compute; lia|]). by apply elem_of_nil in Hin. }
  split; [eexists; split; [vm_compute; reflexivity|by repeat split]|]. split; [vm_compute; reflexivity|]. split; [style_read|]. split; [reflexivity|]. split; [reflexivity|]. split; [style_read|]. split; reflexivity.
Qed.
