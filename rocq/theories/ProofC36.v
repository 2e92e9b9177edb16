(** The stylists called with template styles and ratios: C80. *)
From Verif Require Export ProofTemplRand.
Local Open Scope list_scope.

Lemma pensieve_mainsplit main tmpl pale div dark g G D h : h_graphs h !! g = Some G → g_disp G = Some D → pensieve_main main tmpl pale div dark g h =
  (do* (do* sfold (style_root_main main) (colours_used0 (d_scheme D)) (dvals (g_nodes G)) in siter (style_branch_main main pale div) (dvals (g_nodes G))) in stylize_edges_main tmpl dark g) h.
Proof.
  intros HG HD. unfold pensieve_main. rewrite (sread_Ok _ _ _ D). 2: { unfold get_display. rewrite (get_g_Ok _ _ _ HG). cbn [rbind]. by rewrite HD. }
  rewrite (sread_Ok _ _ _ (dvals (g_nodes G))) by (by apply nodes_run). unfold sbind. destruct (sfold _ _ _ _) as [h1 [u|x]]; [|done]. by destruct (siter _ _ _) as [h2 [[]|x]].
Qed.
Lemma nodes_mainphase main pale div h g G scheme h2 : fine_node main → WF h → h_graphs h !! g = Some G →
  (do* sfold (style_root_main main) (colours_used0 scheme) (dvals (g_nodes G)) in siter (style_branch_main main pale div) (dvals (g_nodes G))) h = (h2, Ok tt) →
  (∃ rs, rs `sublist_of` dvals (g_nodes G) ∧ (∀ r, r ∈ rs ↔ in_graph h g r ∧ ¬ node_styled h r ∧ rootlike h g r) ∧
    ∀ i r, rs !! i = Some r → ∃ c, distinct scheme !! (i mod length (distinct scheme)) = Some c ∧ style_of h2 r (node_made main c)) ∧
  styles_added g h h2 ∧ h_edges h2 = h_edges h ∧ h_es h2 = h_es h ∧ (∀ r, in_graph h g r → node_styled h2 r ↔ styled_later h g r) ∧
  (∀ t, main = Some t → comparable h g → ∀ r, in_graph h g r → ¬ node_styled h r → ¬ rootlike h g r → ¬ on_cycle h g r →
    ∃ c, style_of h2 r (tinted c t) ∧ template_colour h g (ns_colour t) pale div r c).
Proof.
  intros FN W HG (h1 & used' & H1 & H2)%sbind_Ok. set (used := colours_used0 scheme) in *.
  assert (Hnd : NoDup (dvals (g_nodes G))) by (by eapply NoDup_nodes).
  destruct (roots_mainrun main FN h g (dvals (g_nodes G)) used W Hnd) as (rs & Hsub & Hrs & Hm); [intros r; by apply elem_of_nodes|].
  destruct (pick (length rs) used) as [[u cl]|x] eqn:Hp; [|destruct Hm as [h' Hm]; congruence].
  destruct Hm as (h' & Hr & S1 & E1 & E2 & HF & Ho). assert (h' = h1) as -> by congruence. pose proof (sa_WF _ _ _ S1 W) as W1.
  destruct (branches_mainpost main pale div FN h h1 g (dvals (g_nodes G)) h2 W S1 Hnd) as (S2 & E3 & E4 & Hst & Ho2 & Hv); [intros r ?; by apply (elem_of_nodes h g G)|done|].
  split_and!; [| |congruence|congruence| |].
  - exists rs. split_and!; [done|intros r; rewrite Hrs; by rewrite (elem_of_nodes h g G)|]. intros i r Hi. destruct (Forall2_lookup_l _ _ _ _ _ HF Hi) as (c & Hc & Hs).
    exists c. split; [|by eapply sa_style_of]. assert (Hne : scheme ≠ []). { intros ->. apply lookup_lt_Some in Hi. destruct (length rs); [lia|done]. }
    destruct (C43_rotation_proof scheme (length rs) Hne) as (u' & cl' & Hp' & Hlen & Hrot & _). assert (cl' = cl) as -> by (unfold used in Hp; congruence).
    rewrite <-Hrot; [done|]. rewrite <-Hlen. by eapply lookup_lt_Some.
  - by eapply sa_trans.
  - intros r Hr'. split.
    + intros (N2 & HN2 & Hs2). destruct (styled_decide h r) as [?|Hn]; [by left|]. right. destruct (rootlike_decide h g r W Hr') as [?|Hnr]; [by left|]. right.
      intros Hcyc. assert (h_nodes h1 !! r = h_nodes h !! r) as Heq1. { apply Ho. rewrite Hrs. tauto. }
      rewrite Ho2 in HN2 by (rewrite (sa_on_cycle _ _ _ S1); tauto). rewrite Heq1 in HN2. apply Hn. by exists N2.
    + assert (Hroots : rootlike h g r → node_styled h2 r).
      { intros Hroot. eapply sa_node_styled; [done|]. destruct (styled_decide h r) as [Hs|Hn]; [by eapply sa_node_styled|].
        assert (Hi : r ∈ rs). { apply Hrs. split; [by apply (elem_of_nodes h g G)|done]. }
        apply elem_of_list_lookup in Hi as [i Hi]. destruct (Forall2_lookup_l _ _ _ _ _ HF Hi) as (c & _ & N & k & HN & Hk & _). exists N. by rewrite Hk. }
      intros [Hs|[Hs|Hs]]; [by eapply sa_node_styled, sa_node_styled|by apply Hroots|].
      destruct (rootlike_decide h g r W Hr') as [?|Hnr]; [by apply Hroots|].
      apply Hst; [by apply (elem_of_nodes h g G)|by rewrite (sa_rootlike _ _ _ S1)|by rewrite (sa_on_cycle _ _ _ S1)].
  - intros t Hmain Hc r Hr' Hs Hnr Hnc. apply (Hv t); [done|done|by apply (elem_of_nodes h g G)| |by rewrite (sa_rootlike _ _ _ S1)|by rewrite (sa_on_cycle _ _ _ S1)].
    unfold node_styled. rewrite Ho; [done|]. rewrite Hrs. tauto.
Qed.
Lemma nodes_maintotal main pale div h g G scheme : fine_node main → WF h → CI h → comparable h g → scheme ≠ [] → h_graphs h !! g = Some G →
  ∃ h2, (do* sfold (style_root_main main) (colours_used0 scheme) (dvals (g_nodes G)) in siter (style_branch_main main pale div) (dvals (g_nodes G))) h = (h2, Ok tt).
Proof.
  intros FN W HCI Hc Hne HG. assert (Hnd : NoDup (dvals (g_nodes G))) by (by eapply NoDup_nodes).
  destruct (roots_mainrun main FN h g (dvals (g_nodes G)) (colours_used0 scheme) W Hnd) as (rs & Hsub & Hrs & Hm); [intros r; by apply elem_of_nodes|].
  destruct (C43_rotation_proof scheme (length rs) Hne) as (used & cl & Hp & _). rewrite Hp in Hm. destruct Hm as (h1 & Hr & S1 & E1 & E2 & HF & Ho).
  rewrite (sbind_step _ _ _ _ _ Hr). apply (branches_maintotal main pale div FN h h1 g).
  - done.
  - done.
  - assert (HI : ∀ l u h, CI h → CI (sfold (style_root_main main) u l h).1).
    { clear -FN. induction l as [|r l IH]; intros u h HI; [done|]. cbn [sfold]. pose proof (CI_root_main main FN u r h HI) as H1. unfold sbind. destruct (style_root_main main u r h) as [h' [u'|x]]; [by apply IH|done]. }
    pose proof (HI (dvals (g_nodes G)) (colours_used0 scheme) h HCI) as H1. by rewrite Hr in H1.
  - done.
  - intros x Hx Hroot. apply (sa_in_graph _ _ _ S1) in Hx. apply (sa_rootlike _ _ _ S1) in Hroot. destruct (styled_decide h x) as [Hs|Hn]; [by eapply sa_node_styled|].
    assert (Hi : x ∈ rs). { apply Hrs. split; [by apply (elem_of_nodes h g G)|done]. }
    apply elem_of_list_lookup in Hi as [i Hi]. destruct (Forall2_lookup_l _ _ _ _ _ HF Hi) as (c & _ & N & k & HN & Hk & _). exists N. by rewrite Hk.
  - done.
  - intros r Hr'. by apply (elem_of_nodes h g G).
Qed.
Lemma edge_mainphase tmpl dark h g G h2 : fine_edge tmpl → WF h → h_graphs h !! g = Some G → styles_added g h h2 → h_edges h2 = h_edges h →
  (∀ r, in_graph h g r → node_styled h2 r ↔ styled_later h g r) →
  ((∀ e, e ∈ unstyled_edges h (all_edges h G) → later_good h g e) → ∃ h', stylize_edges_main tmpl dark g h2 = (h', Ok tt) ∧ styles_added g h2 h' ∧
    h_nodes h' = h_nodes h2 ∧ h_ns h' = h_ns h2 ∧
    ∀ i e, unstyled_edges h (all_edges h G) !! i = Some e → ∃ x y s a, joins h g e x y ∧ style_of h' x s ∧
      edge_style_of h' e (edge_made tmpl (CDarken (ns_colour s) dark) a) ∧ is_number a ∧
      (factor a == factor (first_arrow tmpl) * product (factor <$> take (Datatypes.S i) (values_of h (unstyled_edges h (all_edges h G)))))%Q) ∧
  ((∃ e, e ∈ unstyled_edges h (all_edges h G) ∧ ¬ later_good h g e) → ∃ h' x, stylize_edges_main tmpl dark g h2 = (h', Err x)).
Proof.
  intros FE W HG S E1 Hst. pose proof (sa_WF _ _ _ S W) as W2. assert (HG2 : h_graphs h2 !! g = Some G) by (by rewrite (sa_graphs _ _ _ S)).
  unfold stylize_edges_main. rewrite (sread_Ok _ _ _ (all_edges h G)) by (rewrite <-(all_edges_sa g h h2 G S); by apply graph_edges_run).
  assert (Hin : ∀ e, e ∈ all_edges h G → ∃ x y, joins h g e x y) by (intros e; by apply elem_of_all_edges).
  assert (Hin2 : ∀ e, e ∈ all_edges h G → ∃ x y, joins h2 g e x y). { intros e He. destruct (Hin e He) as (x & y & ?). exists x, y. by apply (sa_joins _ _ _ S). }
  assert (Hnd : NoDup (all_edges h G)) by apply NoDup_nub.
  assert (Hgl : ∀ e, e ∈ unstyled_edges h (all_edges h G) → good_edge h2 g e ↔ later_good h g e). { intros e He. apply nodes_h2; try done. apply Hin. by eapply elem_of_unstyled. }
  pose proof (unstyled_same h h2 (all_edges h G) E1) as Hu. split.
  - intros Hgood. destruct (edges_mainok tmpl dark FE h2 g (all_edges h G) tmpl (first_arrow tmpl)) as (h' & c' & Hr & Hsa & Hn1 & Hn2 & Ho & Har); [done|by apply carries_first|done|done| |].
    { rewrite Hu. intros e He. by apply Hgl, Hgood. }
    rewrite Hu in *. assert (Hsty : ∀ r s, style_of h2 r s → style_of h' r s). { intros r s. by apply sa_style_of with (g := g). }
    exists h'. rewrite (sbind_step _ _ _ _ _ Hr). split_and!; try done.
    intros i e Hi. destruct (Har i e Hi) as (x & y & s & a & Hj & Hs & Hes & Hna & Ha). exists x, y, s, a. split_and!; [by apply (sa_joins _ _ _ S)|by apply Hsty|done|done|].
    by rewrite (values_of_sa g h h2 _ S) in Ha.
  - intros (e & He & Hbad). destruct (edges_mainfail tmpl dark FE h2 g (all_edges h G) tmpl (first_arrow tmpl)) as (h' & x & Hr); [done|by apply carries_first|done|done| |].
    { exists e. rewrite Hu. split; [done|]. by rewrite Hgl. }
    exists h', x. by rewrite (sbind_fail _ _ _ _ _ Hr).
Qed.
(** Both phases, when the call succeeds. *)
Lemma pensieve_mainpost main tmpl pale div dark h g G D h' : fine_node main → fine_edge tmpl → WF h → h_graphs h !! g = Some G → g_disp G = Some D →
  pensieve_main main tmpl pale div dark g h = (h', Ok tt) →
  styles_added g h h' ∧ (∀ r, in_graph h g r → node_styled h' r ↔ styled_later h g r) ∧
  (∃ rs, rs `sublist_of` dvals (g_nodes G) ∧ (∀ r, r ∈ rs ↔ in_graph h g r ∧ ¬ node_styled h r ∧ rootlike h g r) ∧
    ∀ i r, rs !! i = Some r → ∃ c, distinct (d_scheme D) !! (i mod length (distinct (d_scheme D))) = Some c ∧ style_of h' r (node_made main c)) ∧
  (∀ t, main = Some t → comparable h g → ∀ r, in_graph h g r → ¬ node_styled h r → ¬ rootlike h g r → ¬ on_cycle h g r →
    ∃ c, style_of h' r (tinted c t) ∧ template_colour h g (ns_colour t) pale div r c) ∧
  ∀ i e, unstyled_edges h (all_edges h G) !! i = Some e → ∃ x y s a, joins h g e x y ∧ style_of h' x s ∧
      edge_style_of h' e (edge_made tmpl (CDarken (ns_colour s) dark) a) ∧ is_number a ∧
      (factor a == factor (first_arrow tmpl) * product (factor <$> take (Datatypes.S i) (values_of h (unstyled_edges h (all_edges h G)))))%Q.
Proof.
  intros FN FE W HG HD. rewrite (pensieve_mainsplit main tmpl pale div dark g G D h HG HD). intros (h2 & [] & H1 & H2)%sbind_Ok.
  destruct (nodes_mainphase main pale div h g G (d_scheme D) h2 FN W HG H1) as ((rs & Hsub & Hrs & Hcol) & S & E1 & E2 & Hst & Hv).
  destruct (edge_mainphase tmpl dark h g G h2) as [Hok Hfail]; [done..|].
  assert (Hin : ∀ e, e ∈ all_edges h G → ∃ x y, joins h g e x y) by (intros e; by apply elem_of_all_edges).
  destruct (list_decide (later_good h g) (unstyled_edges h (all_edges h G))) as [Hgood|Hbad].
  { intros e He. apply later_decide; [done|]. apply Hin. by eapply elem_of_unstyled. }
  2: { destruct (Hfail Hbad) as (? & ? & ?). congruence. }
  destruct (Hok Hgood) as (h3 & Hr & S2 & Hn1 & Hn2 & Har). assert (h3 = h') as -> by congruence. split_and!; [by eapply sa_trans|..|done].
  - intros r Hr'. rewrite <-Hst by done. unfold node_styled. by rewrite Hn1.
  - exists rs. split_and!; [done..|]. intros i r Hi. destruct (Hcol i r Hi) as (c & ? & ?). exists c. split; [done|]. by eapply sa_style_of.
  - intros t Hmain Hc r Hr' H3 H4 H5. destruct (Hv t Hmain Hc r Hr' H3 H4 H5) as (c & ? & ?). exists c. split; [|done]. by eapply sa_style_of.
Qed.

(** * The properties *)

(** C80.  Without templates and with the default ratios the direct calls do what
    stylize does for a graph with the default stylist, or with the stylist 'random',
    and no overwrites: the same state and the same result, whatever the state. *)
Lemma C80_default_partial_proof : ∀ h g G D sh, h_graphs h !! g = Some G → g_disp G = Some D →
  (default_styling D → pensieve_main None None (1 # 20) (1 # 20) (1 # 10) g h = stylize g sh h) ∧
  (random_styling D → random_main None None (1 # 10) g sh h = stylize g sh h).
Proof.
  intros h g G D sh HG HD. split; intros Hd.
  - rewrite (stylize_default g sh h G D) by done. by apply (pensieve_none g G D h).
  - rewrite (stylize_random g sh h G D) by done. unfold random_main. rewrite (sread_Ok _ _ _ D). 2: { unfold get_display. rewrite (get_g_Ok _ _ _ HG). cbn [rbind]. by rewrite HD. }
    by rewrite (sread_Ok _ _ _ (dvals (g_nodes G))) by (by apply nodes_run).
Qed.
(** C80.  stylize_with_pensieve called with any templates (or none) and any ratios, if it
    succeeds: only objects of the graph without style get one; the nodes that have one
    afterwards are those that had one, the roots, those with all parents on cycles, and
    those on no cycle; the i-th root without style gets the i-th colour of the scheme
    in turn, with the colours derived from it and the other attributes of the
    template.  Missing: the colours of the branches (C80_branches_partial), and that
    lighter_fill and label_style are taken from the template, which is false
    (C80_lighter_refuted, C80_label_refuted). *)
Lemma C80_roots_partial_proof : ∀ h g G D main tmpl pale div dark h' ns, reachable h → h_graphs h !! g = Some G → g_disp G = Some D → fine_node main → fine_edge tmpl →
  pensieve_main main tmpl pale div dark g h = (h', Ok tt) → nodes h g = Ok ns →
  styles_added g h h' ∧ (∀ r, in_graph h g r → node_styled h' r ↔ node_styled h r ∨ rootlike h g r ∨ ¬ on_cycle h g r) ∧
  ∃ rs, rs `sublist_of` ns ∧ (∀ r, r ∈ rs ↔ in_graph h g r ∧ ¬ node_styled h r ∧ rootlike h g r) ∧
    ∀ i r, rs !! i = Some r → ∃ c, distinct (d_scheme D) !! (i mod length (distinct (d_scheme D))) = Some c ∧ style_of h' r (node_made main c).
Proof.
  intros h g G D main tmpl pale div dark h' ns Hr HG HD FN FE Hrun Hns. pose proof (reachable_WF h Hr) as W. rewrite (nodes_run h g G) in Hns by done. injection Hns as <-.
  by destruct (pensieve_mainpost main tmpl pale div dark h g G D h') as (S & Hst & Hroots & _); [done..|].
Qed.
(** C80.  With a template for nodes, a node that had no style, is no root, has a parent on
    no cycle and is on no cycle itself gets the template's attributes; its colour comes
    from the template's colour by the rule of [template_colour]. *)
Lemma C80_branches_partial_proof : ∀ h g G D t tmpl pale div dark h' r, reachable h → h_graphs h !! g = Some G → g_disp G = Some D → comparable h g → coloured t → fine_edge tmpl →
  pensieve_main (Some t) tmpl pale div dark g h = (h', Ok tt) → in_graph h g r → ¬ node_styled h r → ¬ rootlike h g r → ¬ on_cycle h g r →
  ∃ c, style_of h' r (tinted c t) ∧ template_colour h g (ns_colour t) pale div r c.
Proof.
  intros h g G D t tmpl pale div dark h' r Hr HG HD Hc Ht FE Hrun. pose proof (reachable_WF h Hr) as W.
  destruct (pensieve_mainpost (Some t) tmpl pale div dark h g G D h') as (_ & _ & _ & Hv & _); [done..|]. by apply Hv.
Qed.
(** C80.  The i-th edge (in the order of graph.edges) of those that had no style gets the
    template's opacity, font, text size and line width, the colour of its start darkened
    by the given ratio, and as arrow size the template's times the product of its own
    value and those of the edges before it that had no style (None counts as one). *)
Lemma C80_edges_partial_proof : ∀ h g G D main tmpl pale div dark h' es, reachable h → h_graphs h !! g = Some G → g_disp G = Some D → fine_node main → fine_edge tmpl →
  pensieve_main main tmpl pale div dark g h = (h', Ok tt) → graph_edges h g = Ok es →
  ∀ i e, unstyled_edges h es !! i = Some e → ∃ x y s a, joins h g e x y ∧ style_of h' x s ∧
    edge_style_of h' e (edge_made tmpl (CDarken (ns_colour s) dark) a) ∧ is_number a ∧
    (factor a == factor (first_arrow tmpl) * product (factor <$> take (Datatypes.S i) (values_of h (unstyled_edges h es))))%Q.
Proof.
  intros h g G D main tmpl pale div dark h' es Hr HG HD FN FE Hrun Hes. pose proof (reachable_WF h Hr) as W. rewrite (graph_edges_run h g G) in Hes by done. injection Hes as <-.
  by destruct (pensieve_mainpost main tmpl pale div dark h g G D h') as (_ & _ & _ & _ & Har); [done..|].
Qed.
(** C80.  It succeeds exactly if the start of every edge without style has a style, or is a
    root, or has only parents on cycles, or is on no cycle, and the values of these
    edges are None or numbers (for a non-empty colour scheme and comparable nodes);
    templates and ratios do not matter. *)
Lemma C80_succeeds_partial_proof : ∀ h g G D main tmpl pale div dark, reachable h → h_graphs h !! g = Some G → g_disp G = Some D → fine_node main → fine_edge tmpl → d_scheme D ≠ [] → comparable h g →
  (pensieve_main main tmpl pale div dark g h).2 = Ok tt ↔
  (∀ e x y E, joins h g e x y → h_edges h !! e = Some E → e_style E = None → (node_styled h x ∨ rootlike h g x ∨ ¬ on_cycle h g x) ∧ numeric (e_value E)).
Proof.
  intros h g G D main tmpl pale div dark Hr HG HD FN FE Hne Hc. pose proof (reachable_WF h Hr) as W.
  rewrite (pensieve_mainsplit main tmpl pale div dark g G D h HG HD). destruct (nodes_maintotal main pale div h g G (d_scheme D)) as [h2 H1]; [done|done|by apply reachable_CI|done..|].
  destruct (nodes_mainphase main pale div h g G (d_scheme D) h2 FN W HG H1) as (_ & S & E1 & E2 & Hst & _). rewrite (sbind_step _ _ _ _ _ H1).
  destruct (edge_mainphase tmpl dark h g G h2) as [Hok Hfail]; [done..|].
  transitivity (∀ e, e ∈ unstyled_edges h (all_edges h G) → later_good h g e).
  - destruct (list_decide (later_good h g) (unstyled_edges h (all_edges h G))) as [Hgood|(e & He & Hbad)].
    { intros e He%elem_of_unstyled. apply later_decide; [done|]. revert He. by apply elem_of_all_edges. }
    + destruct (Hok Hgood) as (h' & -> & _). done.
    + destruct (Hfail (ex_intro _ e (conj He Hbad))) as (h' & x & ->). split; [done|]. intros Hall. by destruct Hbad; apply Hall.
  - rewrite (unstyled_cond h g G _ W HG). split.
    + intros H e x y E Hj HE Hs. destruct (H e x y Hj) as (x' & y' & E' & Hj' & HE' & H3 & H4); [intros (? & ? & ?); congruence|]. assert (E' = E) as -> by congruence.
      assert (x' = x) as -> by (destruct Hj as (? & ? & _ & ? & _), Hj' as (? & ? & _ & ? & _); congruence). done.
    + intros H e x y Hj Hs. pose proof Hj as (E & HE & _). exists x, y, E. destruct (H e x y E Hj HE) as [? ?]; [|done]. destruct (e_style E) eqn:He; [|done]. destruct Hs. exists E. by rewrite He.
Qed.
(** C80.  stylize_randomly called with any templates (or none) and any darkness, for a
    non-empty scheme, if it succeeds: the i-th node in the shuffled order has the i-th
    colour of the scheme, in turn, and the template's attributes; every edge that had no
    style has the template's attributes and the colour of its start darkened by the
    ratio; the styles of the other edges are unchanged.  It succeeds if no node has a
    style or overwriting is allowed, and the values of the unstyled edges are None or
    numbers. *)
Lemma C80_random_partial_proof : ∀ h g G D main tmpl dark sh ns, reachable h → h_graphs h !! g = Some G → g_disp G = Some D → fine_node main → fine_edge tmpl → (∀ l, sh l ≡ₚ l) → d_scheme D ≠ [] →
  nodes h g = Ok ns →
  (∀ h', random_main main tmpl dark g sh h = (h', Ok tt) →
    (∀ i r, sh ns !! i = Some r → ∃ c, distinct (d_scheme D) !! (i mod length (distinct (d_scheme D))) = Some c ∧ style_of h' r (node_made main c)) ∧
    (∀ e x y, joins h g e x y → ¬ edge_styled h e → ∃ s a, style_of h' x s ∧ edge_style_of h' e (edge_made tmpl (CDarken (ns_colour s) dark) a)) ∧
    (∀ e s, edge_style_of h e s → edge_style_of h' e s)) ∧
  (d_overwrite D = true ∨ (∀ r, in_graph h g r → ¬ node_styled h r) →
    (∀ e x y E, joins h g e x y → h_edges h !! e = Some E → e_style E = None → numeric (e_value E)) → ∃ h', random_main main tmpl dark g sh h = (h', Ok tt)).
Proof.
  intros h g G D main tmpl dark sh ns Hr HG HD FN FE Hsh Hne Hns. pose proof (reachable_WF h Hr) as W. rewrite (nodes_run h g G) in Hns by done. injection Hns as <-.
  rewrite (random_mainsplit main tmpl dark g sh h G D) by done. destruct (random_mainafter main h g G D sh FN W HG HD Hsh) as [HA HB]. split.
  - intros h' Hrun. assert (Hfree : d_overwrite D = true ∨ ∀ r, in_graph h g r → ¬ node_styled h r).
    { destruct (d_overwrite D) eqn:Ho; [by left|right]. intros r Hi Hs. destruct (HB eq_refl Hne) as [h1 Hx]; [eauto|]. by rewrite (sbind_fail _ _ _ _ _ Hx) in Hrun. }
    destruct (HA Hfree Hne) as (h1 & used & cl & Hp & Hrun1 & W1 & Eg & Ee & Ees & HF & Hst). rewrite (sbind_step _ _ _ _ _ Hrun1) in Hrun.
    destruct (edges_mainfrom tmpl dark h1 g G FE W1) as [_ Hed]; [by rewrite Eg| |].
    { intros e x y Hj. apply Hst. destruct (joins_in_graph h g e x y W) as [? _]; [|done]. unfold joins in *. by rewrite <-Ee. }
    destruct (Hed h' Hrun) as (S & Hn1 & Hn2 & Har). split_and!.
    + intros i r Hi. destruct (Forall2_lookup_l _ _ _ _ _ HF Hi) as (c & Hc & Hs). exists c. split; [|by apply (sa_style_of g h1 h' S)].
      destruct (C43_rotation_proof (d_scheme D) (length (g_nodes G)) Hne) as (u' & cl' & Hp' & Hlen & Hrot & _). assert (cl' = cl) as -> by congruence.
      rewrite <-Hrot; [done|]. rewrite <-Hlen. by eapply lookup_lt_Some.
    + intros e x y Hj Hn. apply (Har e x y); [unfold joins in *; by rewrite Ee|]. unfold edge_styled in *. by rewrite Ee.
    + intros e s Hs. apply (sa_edge_style_of g h1 h' S). unfold edge_style_of in *. by rewrite Ee, Ees.
  - intros Hfree Hnum. destruct (HA Hfree Hne) as (h1 & used & cl & _ & Hrun & W1 & Eg & Ee & Ees & _ & Hst). rewrite (sbind_step _ _ _ _ _ Hrun).
    destruct (edges_mainfrom tmpl dark h1 g G FE W1) as [Hok _]; [by rewrite Eg| |].
    + intros e x y Hj. apply Hst. destruct (joins_in_graph h g e x y W) as [? _]; [|done]. unfold joins in *. by rewrite <-Ee.
    + apply Hok. intros e x y E Hj HE. apply (Hnum e x y E); [|by rewrite <-Ee]. unfold joins in *. by rewrite <-Ee.
Qed.
(** C80 refuted: a -> b with the green template.  The root a is red, the first colour of the
    scheme; b gets the hue of green, not that of its parent, turned. *)
Lemma C80_hue_refuted_proof : ∃ h G D t h' sp s, reachable h ∧ h_graphs h !! 0 = Some G ∧ g_disp G = Some D ∧ comparable h 0 ∧ nstyle_ctor [("colour", PStr "green")]%string = Ok t ∧
  pensieve_main (Some t) None (1 # 20) (1 # 20) (1 # 10) 0 h = (h', Ok tt) ∧ node_parents h' 1 = Ok [0] ∧ ¬ node_styled h 1 ∧ style_of h' 0 sp ∧ style_of h' 1 s ∧
  (∀ q, ns_colour s ≠ CSat (CHue (ns_colour sp) q)) ∧ (∃ q, ns_colour s = CSat (CHue (ns_colour t) q)).
Proof.
  eexists (run (graph_calls ["a"; "b"] [("a", "b")])%string empty_heap), _, _, _, _, _, _. split; [reach|]. split; [vm_compute; reflexivity|]. split; [vm_compute; reflexivity|]. split; [by_adding|].
  split; [vm_compute; reflexivity|]. split; [vm_compute; reflexivity|]. split; [vm_compute; reflexivity|]. split.
  { intros (N & HN & Hs). vm_compute in HN. by injection HN as <-. }
  split; [style_read|]. split; [style_read|]. split; [done|]. by eexists.
Qed.
(** C80 refuted: the template has lighter_fill off, the style of the root made from it
    has it on. *)
Lemma C80_lighter_refuted_proof : ∃ h G D t h' s, reachable h ∧ h_graphs h !! 0 = Some G ∧ g_disp G = Some D ∧ nstyle_ctor [("lighter_fill", PInt 0)]%string = Ok t ∧ ns_lighter t = false ∧
  pensieve_main (Some t) None (1 # 20) (1 # 20) (1 # 10) 0 h = (h', Ok tt) ∧ ¬ node_styled h 0 ∧ style_of h' 0 s ∧ ns_lighter s = true.
Proof.
  eexists (run (graph_calls ["a"; "b"] [("a", "b")])%string empty_heap), _, _, _, _, _. split; [reach|].
  split; [vm_compute; reflexivity|]. split; [vm_compute; reflexivity|]. split; [vm_compute; reflexivity|]. split; [done|]. split; [vm_compute; reflexivity|]. split.
  { intros (N & HN & Hs). vm_compute in HN. by injection HN as <-. }
  split; [style_read|]. done.
Qed.
(** C80 refuted: the template for edges has label_style 'above', the style made from it
    'below'. *)
Lemma C80_label_refuted_proof : ∃ h G D t h' s, reachable h ∧ h_graphs h !! 0 = Some G ∧ g_disp G = Some D ∧ estyle_ctor [("label_style", PStr "above")]%string = Ok t ∧ es_label_style t = PStr "above" ∧
  pensieve_main None (Some t) (1 # 20) (1 # 20) (1 # 10) 0 h = (h', Ok tt) ∧ ¬ edge_styled h 0 ∧ edge_style_of h' 0 s ∧ es_label_style s = PStr "below".
Proof.
  eexists (run (graph_calls ["a"; "b"] [("a", "b")])%string empty_heap), _, _, _, _, _. split; [reach|].
  split; [vm_compute; reflexivity|]. split; [vm_compute; reflexivity|]. split; [vm_compute; reflexivity|]. split; [done|]. split; [vm_compute; reflexivity|]. split.
  { intros (N & HN & Hs). vm_compute in HN. by injection HN as <-. }
  split; [style_read|]. done.
Qed.
(** The diamond a -> b, a -> c, b -> d, c -> d with a template of shape ellipse for the
    nodes and of line width 3 and arrow size 2 for the edges: all hypotheses hold; a is
    red, b has the hue of the template turned, d the paled mixture; every edge has width
    3 and arrow size 2. *)
Lemma C80_ex_proof : ∃ h G D t te h', reachable h ∧ h_graphs h !! 0 = Some G ∧ g_disp G = Some D ∧ comparable h 0 ∧ d_scheme D ≠ [] ∧
  nstyle_ctor [("colour", PStr "green"); ("shape", PStr "ellipse")]%string = Ok t ∧ estyle_ctor [("line_width", PInt 3); ("arrow_size", PInt 2)]%string = Ok te ∧
  fine_node (Some t) ∧ fine_edge (Some te) ∧ pensieve_main (Some t) (Some te) (1 # 5) (1 # 10) (1 # 2) 0 h = (h', Ok tt) ∧
  ¬ node_styled h 1 ∧ ¬ rootlike h 0 1 ∧ ¬ on_cycle h 0 1 ∧
  style_of h' 0 (tinted (CName "red") t) ∧ (∃ q, style_of h' 1 (tinted (CSat (CHue (ns_colour t) q)) t) ∧ (q == - (1 # 10))%Q) ∧
  (∃ q1 q2, style_of h' 3 (tinted (CPale (mix [CSat (CHue (ns_colour t) q1); CSat (CHue (ns_colour t) q2)]) (1 # 5)) t) ∧ (q1 == 0)%Q ∧ (q2 == 0)%Q) ∧
  edge_style_of h' 0 (templated_edge te (CDarken (CName "red") (1 # 2)) (PInt 2)) ∧
  random_main (Some t) (Some te) (1 # 2) 0 id h ≠ (h, Ok tt).
Proof.
  eexists (run (graph_calls ["a"; "b"; "c"; "d"] [("a", "b"); ("a", "c"); ("b", "d"); ("c", "d")])%string empty_heap), _, _, _, _, _. split; [reach|]. split; [vm_compute; reflexivity|].
  split; [vm_compute; reflexivity|]. split; [by_adding|]. split; [done|]. split; [vm_compute; reflexivity|]. split; [vm_compute; reflexivity|]. split; [by repeat split; eexists|]. split; [done|].
  split; [vm_compute; reflexivity|]. split. { intros (N & HN & Hs). vm_compute in HN. by injection HN as <-. }
  split. { intros Hroot. eapply (inc_acyclic _ 0); [|apply (Hroot 0)]; [done|]. eexists 0, _. split; [vm_compute; reflexivity|]. done. }
  split; [by apply inc_acyclic|]. split; [style_read|]. split; [eexists; split; [style_read|done]|]. split; [eexists _, _; split; [style_read|done]|]. split; [style_read|]. vm_compute. done.
Qed.
