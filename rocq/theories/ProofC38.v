(** The stylist called without a template for nodes and with any ratios: the colours of
    the branches (C80). *)
From Verif Require Export ProofC36.
Local Open Scope list_scope.

Lemma inherit_by fuel h g pale div r s : WF h → CI h → comparable h g → in_graph h g r → inherit_style fuel h pale div r = Ok s →
  ∃ s', hands_down_by h g pale div r s' ∧ s = s' <| ns_lighter := true |> <| ns_extra := [] |>.
Proof.
  intros W HCI Hc. revert div r s. induction fuel as [|fuel IH]; intros div r s Hr; [done|]. intros Hi.
  destruct (rootlike_decide h g r W Hr) as [Hroot|Hnr].
  - cbn [inherit_style] in Hi. destruct (root_read h g r) as (b & Hb' & Hb & Hnb); [done..|]. rewrite Hb' in Hi. cbn [rbind] in Hi. assert (b = true) as -> by (by apply Hb).
    destruct (node_style h r) as [sty|] eqn:Hs; [|done]. cbn [rbind] in Hi. assert (Hso : style_of h r sty).
    { unfold node_style, get_n in Hs. destruct (h_nodes h !! r) as [N|] eqn:HN; [|done]. cbn [rbind] in Hs. destruct (n_style N) as [j|] eqn:Hj; [|done].
      destruct (h_ns h !! j) as [sty'|] eqn:Hsty; [|done]. injection Hs as ->. by exists N, j. }
    exists sty. split; [by constructor|]. rewrite (ns_copy_eq sty) in Hi; [by injection Hi as <-|]. by eapply style_coloured.
  - destruct (decide (length (pars h r) = 1)) as [H1|H1].
    + destruct (pars h r) as [|p [|? ?]] eqn:Hps; try done. destruct (inherit_one fuel h g pale div r p s) as (sp & i & d & Hsp & Hrk & Hd & ->); [done..|].
      assert (Hp : in_graph h g p). { apply (pars_in h W g r); [done|]. rewrite Hps. left. }
      destruct (IH div p sp Hp Hsp) as (s' & Hs' & ->). eexists. split.
      * eapply hdb_one; [done|by rewrite (node_parents_run h W g), Hps|exact Hs'|by apply (node_children_run h W g)|exact Hrk|]. apply Qmult_comp; [reflexivity|exact Hd].
      * done.
    + destruct (inherit_many fuel h g pale div r s) as (keep & stys & sty & Hk & Hm & Hhd & ->); [done..|].
      assert (HF : Forall2 (λ p s, ∃ s', hands_down_by h g pale 0%Q p s' ∧ s = s' <| ns_lighter := true |> <| ns_extra := [] |>) (base.filter (λ p, keep p = true) (pars h r)) stys).
      { eapply rmap_Forall2; [|exact Hm]. cbn. intros p b [_ Hp]%elem_of_list_filter. apply IH. by eapply (pars_in h W). }
      assert (∃ stys', Forall2 (hands_down_by h g pale 0%Q) (base.filter (λ p, keep p = true) (pars h r)) stys' ∧ stys = (λ s, s <| ns_lighter := true |> <| ns_extra := [] |>) <$> stys') as (stys' & HF' & ->).
      { clear - HF. induction HF as [|p s l stys (s' & ? & ->) HF (stys' & ? & ->)]; [by exists []|]. exists (s' :: stys'). split; [by constructor|done]. }
      destruct stys' as [|s1 stys']; [done|]. injection Hhd as <-. eexists. split.
      * eapply hdb_many; [done|by apply (node_parents_run h W g)|done|exact Hk|exact HF'|done].
      * assert (map ns_colour ((λ s, s <| ns_lighter := true |> <| ns_extra := [] |>) <$> s1 :: stys') = map ns_colour (s1 :: stys')) as -> by (unfold fmap; by rewrite map_map). done.
Qed.

Lemma branches_value_by pale div h g ns h' : WF h → comparable h g → NoDup ns → (∀ r, r ∈ ns → in_graph h g r) → siter (style_branch_main None pale div) ns h = (h', Ok tt) →
  ∀ r, r ∈ ns → ¬ node_styled h r → ¬ rootlike h g r → ¬ on_cycle h g r → ∃ s, style_of h' r s ∧ inherit_style (inherit_fuel h) h' pale div r = Ok s.
Proof.
  revert h. induction ns as [|x ns IH]; intros h W Hc Hnd Hin; [by intros _ r Hr%elem_of_nil|]. cbn [siter].
  intros (h1 & [] & H1 & H2)%sbind_Ok r Hr Hs Hnr Hnc. apply NoDup_cons in Hnd as [Hni Hnd].
  assert (Hx : in_graph h g x) by (apply Hin; left).
  destruct (branch_mainpost None pale div I h h g x h1 W (sa_refl _ _ W)) as (S1 & E1 & E2 & Hst & Hch & _); [done..|]. pose proof (sa_WF _ _ _ S1 W) as W1.
  assert (Hin1 : ∀ r, r ∈ ns → in_graph h1 g r) by (intros; apply (sa_in_graph _ _ _ S1), Hin; by right).
  destruct (branches_mainpost None pale div I h1 h1 g ns h' W1 (sa_refl _ _ W1) Hnd) as (S2 & E3 & E4 & Hst2 & Hch2 & _); [done..|].
  destruct (decide (r = x)) as [->|Hne].
  - destruct (in_graph_lookup h W g x Hx) as (N & HN & Hg). unfold style_branch_main in H1.
    destruct (root_read h g x) as (b & Hb & Hbi & _); [done..|]. rewrite (sread_Ok _ _ _ b) in H1 by done. destruct b; [by destruct Hnr; apply Hbi|].
    destruct (loop_read h g x) as (l & Hl & Hli); [done..|]. rewrite (sread_Ok _ _ _ l) in H1 by done. destruct l; [by destruct Hnc; apply Hli|].
    rewrite (sread_Ok _ _ _ N) in H1 by (by apply get_n_Ok). destruct (n_style N) as [k|] eqn:Hk. { destruct Hs. exists N. by rewrite Hk. }
    destruct (inherit_style_main (inherit_fuel h) None h pale div x) as [sty|z] eqn:Hi; [|by rewrite (sread_Err _ _ _ z) in H1]. rewrite (sread_Ok _ _ _ sty) in H1 by done.
    destruct (assign_run h g x N sty) as (h2 & Ha & Hsa & Hso & _); [done..|]. assert (h2 = h1) as -> by congruence.
    exists sty. split; [by eapply sa_style_of|]. rewrite inherit_main_none in Hi. rewrite <-(Nat.add_0_r (inherit_fuel h)). apply (inherit_sa _ 0 g h h'); [done|by apply (sa_trans g h h1 h')|done..].
  - apply elem_of_cons in Hr as [->|Hr]; [done|]. destruct (IH h1 W1) with (r := r) as (s & H3 & H4); try done.
    + by eapply sa_comparable.
    + intros Hs1. apply Hs. destruct Hch as [->|(_ & _ & _ & Ho)]; [done|]. destruct Hs1 as (N & HN & ?). rewrite Ho in HN by done. by exists N.
    + by rewrite (sa_rootlike _ _ _ S1).
    + by rewrite (sa_on_cycle _ _ _ S1).
    + exists s. split; [done|]. unfold inherit_fuel in *. by rewrite (sa_nlen _ _ _ S1) in H4.
Qed.
Lemma CI_edge_main dark c e : pres CI (style_edge_main dark c e).
Proof.
  unfold style_edge_main. apply pres_bind; [apply pres_read|intros E]. destruct (e_style E); [apply pres_ret|]. apply pres_bind; [apply pres_read|intros s]. apply pres_bind; [apply pres_read|intros ns]. cbv zeta.
  apply (CI_read text_coloured). { intros h sty _. destruct c; [|apply ector_coloured]. intros (cp & _ & [= <-])%rbind_Ok. apply eput_coloured. }
  intros sty Hs. apply (CI_read text_coloured).
  { intros h sty' _ H. destruct (e_value E); try (apply rbind_Ok in H as (a & _ & H)); by injection H as <-. }
  intros sty' Hs'. apply pres_bind; [by apply CI_new_es|intros k]. apply pres_bind; [apply CI_edge_set_style|intros; apply pres_ret].
Qed.
Lemma CI_pensieve_main main tmpl pale div dark g : fine_node main → pres CI (pensieve_main main tmpl pale div dark g).
Proof.
  intros FN. unfold pensieve_main, stylize_edges_main. apply pres_bind; [apply pres_read|intros D]. apply pres_bind; [apply pres_read|intros ns].
  apply pres_bind; [apply pres_fold; intros; by apply CI_root_main|intros _]. apply pres_bind; [apply pres_iter; intros; by apply CI_branch_main|intros _].
  apply pres_bind; [apply pres_read|intros es]. apply pres_bind; [apply pres_fold; intros; apply CI_edge_main|intros; apply pres_ret].
Qed.

(** C80.  Without a template for nodes, whatever the ratios, a node that had no style, is
    no root, has a parent on no cycle and is on no cycle itself gets the style that its
    ancestors hand down with these ratios.  Missing: that this agrees with the styles of
    the parents (C67_styled_parent_refuted, C67_mixed_refuted). *)
Lemma C80_ratios_partial_proof : ∀ h g G D tmpl pale div dark h' r, reachable h → h_graphs h !! g = Some G → g_disp G = Some D → comparable h g → fine_edge tmpl →
  pensieve_main None tmpl pale div dark g h = (h', Ok tt) → in_graph h g r → ¬ node_styled h r → ¬ rootlike h g r → ¬ on_cycle h g r →
  ∃ s, style_of h' r s ∧ hands_down_by h' g pale div r s.
Proof.
  intros h g G D tmpl pale div dark h' r Hreach HG HD Hc FE Hrun Hr Hs Hnr Hnc. pose proof (reachable_WF h Hreach) as W.
  pose proof (CI_pensieve_main None tmpl pale div dark g I h (reachable_CI h Hreach)) as HCI. rewrite Hrun in HCI. cbn in HCI.
  destruct (pensieve_mainpost None tmpl pale div dark h g G D h' I FE W HG HD Hrun) as (S & _).
  rewrite (pensieve_mainsplit None tmpl pale div dark g G D h HG HD) in Hrun. apply sbind_Ok in Hrun as (h2 & [] & H1 & H2).
  destruct (nodes_mainphase None pale div h g G (d_scheme D) h2 I W HG H1) as (_ & S02 & E1 & E2 & Hst & _).
  assert (S23 : styles_added g h2 h').
  { destruct (edge_mainphase tmpl dark h g G h2) as [Hok Hfail]; [done..|].
    assert (Hin : ∀ e, e ∈ all_edges h G → ∃ x y, joins h g e x y) by (intros e; by apply elem_of_all_edges).
    destruct (list_decide (later_good h g) (unstyled_edges h (all_edges h G))) as [Hgood|Hbad].
    { intros e He. apply later_decide; [done|]. apply Hin. by eapply elem_of_unstyled. }
    2: { destruct (Hfail Hbad) as (? & ? & ?). congruence. }
    destruct (Hok Hgood) as (h3 & Hr3 & S2 & _). by assert (h3 = h') as -> by congruence. }
  apply sbind_Ok in H1 as (h1 & used' & H1 & H3). assert (Hnd : NoDup (dvals (g_nodes G))) by (by eapply NoDup_nodes).
  destruct (roots_mainrun None I h g (dvals (g_nodes G)) (colours_used0 (d_scheme D)) W Hnd) as (rs & Hsub & Hrs & Hm); [intros x; by apply elem_of_nodes|].
  destruct (pick (length rs) (colours_used0 (d_scheme D))) as [[u cl]|x] eqn:Hp; [|destruct Hm as [h3 Hm]; congruence].
  destruct Hm as (h3 & Hrun & S1 & _ & _ & HF & Ho). assert (h3 = h1) as -> by congruence. pose proof (sa_WF _ _ _ S1 W) as W1.
  destruct (branches_value_by pale div h1 g (dvals (g_nodes G)) h2 W1) with (r := r) as (s & Hso & Hi); [by eapply sa_comparable|done| |done| | | | |].
  - intros x ?. apply (sa_in_graph _ _ _ S1). by apply (elem_of_nodes h g G).
  - by apply (elem_of_nodes h g G).
  - intros (N & HN & Hk). rewrite Ho in HN by (rewrite Hrs; tauto). apply Hs. by exists N.
  - by rewrite (sa_rootlike _ _ _ S1).
  - by rewrite (sa_on_cycle _ _ _ S1).
  - exists s. split; [by eapply sa_style_of|].
    assert (Hi' : inherit_style (inherit_fuel h1 + 0) h' pale div r = Ok s).
    { apply (inherit_sa _ 0 g h2 h'); [by apply (sa_WF g h h2 S02)|done|by apply (sa_comparable g h h2 S02)|by apply (sa_in_graph _ _ _ S02)|done]. }
    destruct (inherit_by (inherit_fuel h1 + 0) h' g pale div r s (sa_WF _ _ _ S W) HCI) as (s' & Hhd & ->); [by apply (sa_comparable g h h' S)|by apply (sa_in_graph _ _ _ S)|done|].
    assert (¬ rootlike h' g r) as Hnr' by (by rewrite (sa_rootlike _ _ _ S)).
    assert (s' <| ns_lighter := true |> <| ns_extra := [] |> = s') as ->; [|done]. clear - Hhd Hnr'. by destruct Hhd.
Qed.
(** The diamond a -> b, a -> c, b -> d, c -> d with ratios 1/5, 1/10, 1/2: the hue of b is
    turned by a tenth, d is the mixture paled by a fifth. *)
Lemma C80_ratios_ex_proof : ∃ h G D h', reachable h ∧ h_graphs h !! 0 = Some G ∧ g_disp G = Some D ∧ comparable h 0 ∧
  pensieve_main None None (1 # 5) (1 # 10) (1 # 2) 0 h = (h', Ok tt) ∧ in_graph h 0 1 ∧ ¬ node_styled h 1 ∧ ¬ rootlike h 0 1 ∧ ¬ on_cycle h 0 1 ∧
  ∃ s0 q q1 q2, style_of h' 0 s0 ∧ style_of h' 1 (tinted (CSat (CHue (ns_colour s0) q)) s0) ∧ (q == - (1 # 10))%Q ∧
    style_of h' 3 (tinted (CPale (mix [CSat (CHue (ns_colour s0) q1); CSat (CHue (ns_colour s0) q2)]) (1 # 5)) s0) ∧ (q1 == 0)%Q ∧ (q2 == 0)%Q.
Proof.
  eexists (run (graph_calls ["a"; "b"; "c"; "d"] [("a", "b"); ("a", "c"); ("b", "d"); ("c", "d")])%string empty_heap), _, _, _. split; [reach|]. split; [vm_compute; reflexivity|].
  split; [vm_compute; reflexivity|]. split; [by_adding|]. split; [vm_compute; reflexivity|].
  split. { eexists _, (nm "b"). split; [vm_compute; reflexivity|]. do 1 right. left. }
  split. { intros (N & HN & Hs). vm_compute in HN. by injection HN as <-. }
  split. { intros Hroot. eapply (inc_acyclic _ 0); [|apply (Hroot 0)]; [done|]. eexists 0, _. split; [vm_compute; reflexivity|]. done. }
  split; [by apply inc_acyclic|]. eexists _, _, _, _. split; [style_read|]. split; [style_read|]. split; [done|]. split; [style_read|]. done.
Qed.
