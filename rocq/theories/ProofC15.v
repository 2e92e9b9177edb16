(** Styling with the default stylist. *)
From Verif Require Export ProofStylize.
Local Open Scope list_scope.

Lemma all_edges_sa g h h' G : styles_added g h h' → all_edges h' G = all_edges h G.
Proof.
  intros S. unfold all_edges. f_equal. apply list_bind_ext; [|done]. intros r. unfold outs, ins.
  destruct (h_nodes h !! r) as [N|] eqn:HN.
  - destruct (sa_node_fwd _ _ _ _ _ S HN) as (N' & -> & Heq & _). by rewrite Heq.
  - destruct (h_nodes h' !! r) as [N'|] eqn:HN'; [|done]. destruct (sa_node_bwd _ _ _ _ _ S HN') as (? & ? & _). congruence.
Qed.
Lemma unstyled_same h h' es : h_edges h' = h_edges h → unstyled_edges h' es = unstyled_edges h es.
Proof. intros He. unfold unstyled_edges. by rewrite He. Qed.
Lemma elem_of_unstyled_iff h e es : e ∈ unstyled_edges h es ↔ e ∈ es ∧ ¬ edge_styled h e ∨ e ∈ es ∧ h_edges h !! e = None.
Proof.
  unfold unstyled_edges, edge_styled. rewrite elem_of_list_filter. destruct (h_edges h !! e) as [E|]; cbn.
  - split; [intros [H ?]; left; split; [done|]; intros (? & [= <-] & Hn); done|]. intros [[? Hn]|[? ?]]; [|done]. split; [|done].
    destruct (e_style E) eqn:Hs; [|done]. destruct Hn. exists E. by rewrite Hs.
  - split; [intros [_ ?]; by right|]. intros [[? _]|[? _]]; done.
Qed.
Lemma nodes_h2 h g h2 e : WF h → (∃ x y, joins h g e x y) → styles_added g h h2 → h_edges h2 = h_edges h →
  (∀ r, in_graph h g r → node_styled h2 r ↔ styled_later h g r) → good_edge h2 g e ↔ later_good h g e.
Proof.
  intros W (x0 & y0 & Hj0) S E1 Hst. unfold good_edge, later_good. rewrite E1. split; intros (x & y & E & Hj & HE & Hs & Hv); exists x, y, E.
  - apply (sa_joins _ _ _ S) in Hj. split_and!; try done. apply Hst; [|done]. by apply (joins_in_graph h g e x y) in Hj as [? _].
  - split_and!; try done; [by apply (sa_joins _ _ _ S)|]. apply Hst; [|done]. by apply (joins_in_graph h g e x y) in Hj as [? _].
Qed.
Lemma later_decide h g e : WF h → (∃ x y, joins h g e x y) → later_good h g e ∨ ¬ later_good h g e.
Proof.
  intros W (x & y & Hj). pose proof Hj as (E & HE & _). assert (Hx : in_graph h g x) by (by apply (joins_in_graph h g e x y) in Hj as [? _]).
  assert (Huniq : ∀ x' y' E', joins h g e x' y' → h_edges h !! e = Some E' → x' = x ∧ E' = E).
  { intros x' y' E' (E1 & HE1 & _ & Hs & _) HE'. destruct Hj as (E2 & HE2 & _ & Hs2 & _). assert (E1 = E2) as -> by congruence. split; congruence. }
  assert (styled_later h g x ∨ ¬ styled_later h g x) as [Hs|Hs].
  { unfold styled_later. destruct (styled_decide h x), (rootlike_decide h g x W Hx), (on_cycle_decide h g x W Hx); tauto. }
  - assert (numeric (e_value E) ∨ ¬ numeric (e_value E)) as [Hn|Hn] by (destruct (e_value E); cbn; tauto).
    + left. by exists x, y, E.
    + right. intros (x' & y' & E' & Hj' & HE' & _ & Hn'). by destruct (Huniq x' y' E' Hj' HE') as [-> ->].
  - right. intros (x' & y' & E' & Hj' & HE' & Hs' & _). by destruct (Huniq x' y' E' Hj' HE') as [-> ->].
Qed.
Lemma list_decide {A} (P : A → Prop) (l : list A) : (∀ x, x ∈ l → P x ∨ ¬ P x) → (∀ x, x ∈ l → P x) ∨ ∃ x, x ∈ l ∧ ¬ P x.
Proof.
  induction l as [|x l IH]; intros H; [left; by intros ? ?%elem_of_nil|]. destruct (H x) as [Hx|Hx]; [left|..|right; exists x; split; [left|done]].
  destruct IH as [IH|(y & Hy & Hn)]; [intros; apply H; by right|left; intros y [->|?]%elem_of_cons; eauto|right; exists y; split; [by right|done]].
Qed.

(** The effect of the default styling when it succeeds. *)
Record styling_effect (g : gref) (G : graph) (scheme : list colour) (h h' : heap) : Prop := {
  se_added : styles_added g h h';
  se_nodes : ∀ r, in_graph h g r → node_styled h' r ↔ styled_later h g r;
  se_edges : ∀ e, e ∈ all_edges h G → edge_styled h' e;
  se_good : ∀ e, e ∈ unstyled_edges h (all_edges h G) → later_good h g e;
  se_roots : ∃ rs used cl, rs `sublist_of` dvals (g_nodes G) ∧ (∀ r, r ∈ rs ↔ in_graph h g r ∧ ¬ node_styled h r ∧ rootlike h g r) ∧
    pick (length rs) (colours_used0 scheme) = Ok (used, cl) ∧ Forall2 (λ r c, ∃ s, root_style c s ∧ style_of h' r s) rs cl;
  se_arrow : ∀ i e, unstyled_edges h (all_edges h G) !! i = Some e → ∃ x y s a, joins h g e x y ∧ style_of h' x s ∧
      edge_style_of h' e (standard_edge (CDarken (ns_colour s) edge_darkness_ratio) a) ∧
      (a == (1 # 2) * product (factor <$> take (Datatypes.S i) (values_of h (unstyled_edges h (all_edges h G)))))%Q
}.
Lemma edge_phase h g G h2 : WF h → h_graphs h !! g = Some G → styles_added g h h2 → h_edges h2 = h_edges h → h_es h2 = h_es h →
  (∀ r, in_graph h g r → node_styled h2 r ↔ styled_later h g r) →
  ((∀ e, e ∈ unstyled_edges h (all_edges h G) → later_good h g e) → ∃ h', stylize_edges_based_on_nodes g h2 = (h', Ok tt) ∧ styles_added g h2 h' ∧
    h_nodes h' = h_nodes h2 ∧ h_ns h' = h_ns h2 ∧ (∀ e, e ∈ all_edges h G → edge_styled h' e) ∧
    ∀ i e, unstyled_edges h (all_edges h G) !! i = Some e → ∃ x y s a, joins h g e x y ∧ style_of h' x s ∧
      edge_style_of h' e (standard_edge (CDarken (ns_colour s) edge_darkness_ratio) a) ∧
      (a == (1 # 2) * product (factor <$> take (Datatypes.S i) (values_of h (unstyled_edges h (all_edges h G)))))%Q) ∧
  ((∃ e, e ∈ unstyled_edges h (all_edges h G) ∧ ¬ later_good h g e) → ∃ h' x, stylize_edges_based_on_nodes g h2 = (h', Err x) ∧
    ((∀ e E col, e ∈ all_edges h G → h_edges h !! e = Some E → e_value E ≠ PCol col) → x = AttributeError ∨ x = TypeError)).
Proof.
  intros W HG S E1 E2 Hst. pose proof (sa_WF _ _ _ S W) as W2. assert (HG2 : h_graphs h2 !! g = Some G) by (by rewrite (sa_graphs _ _ _ S)).
  unfold stylize_edges_based_on_nodes. rewrite (sread_Ok _ _ _ (all_edges h G)) by (rewrite <-(all_edges_sa g h h2 G S); by apply graph_edges_run).
  assert (Hin : ∀ e, e ∈ all_edges h G → ∃ x y, joins h g e x y) by (intros e; by apply elem_of_all_edges).
  assert (Hin2 : ∀ e, e ∈ all_edges h G → ∃ x y, joins h2 g e x y). { intros e He. destruct (Hin e He) as (x & y & ?). exists x, y. by apply (sa_joins _ _ _ S). }
  assert (Hnd : NoDup (all_edges h G)) by apply NoDup_nub.
  assert (Hgl : ∀ e, e ∈ unstyled_edges h (all_edges h G) → good_edge h2 g e ↔ later_good h g e). { intros e He. apply nodes_h2; try done. apply Hin. by eapply elem_of_unstyled. }
  pose proof (unstyled_same h h2 (all_edges h G) E1) as Hu. split.
  - intros Hgood. destruct (edges_ok h2 g (all_edges h G) None (1 # 2)%Q) as (h' & c' & Hr & Hsa & Hn1 & Hn2 & Ho & Har); [done|by left|done|done| |].
    { rewrite Hu. intros e He. by apply Hgl, Hgood. }
    rewrite Hu in *. assert (Hsty : ∀ r s, style_of h2 r s → style_of h' r s). { intros r s. by apply sa_style_of with (g := g). }
    exists h'. rewrite (sbind_step _ _ _ _ _ Hr). split_and!; try done.
    + intros e He. destruct (decide (e ∈ unstyled_edges h (all_edges h G))) as [Hi|Hi].
      * apply elem_of_list_lookup in Hi as [i Hi]. destruct (Har i e Hi) as (x & y & s & a & _ & _ & (E & k & HE & Hk & _) & _). exists E. by rewrite Hk.
      * destruct (Hin e He) as (x & y & E & HE & _). rewrite elem_of_unstyled_iff in Hi. unfold edge_styled. rewrite Ho by (by rewrite elem_of_unstyled_iff). rewrite E1, HE.
        exists E. split; [done|]. intros Hs. apply Hi. left. split; [done|]. intros (? & ? & ?). congruence.
    + intros i e Hi. destruct (Har i e Hi) as (x & y & s & a & Hj & Hs & Hes & Ha). exists x, y, s, a. split_and!; [by apply (sa_joins _ _ _ S)|by apply Hsty|done|].
      by rewrite (values_of_sa g h h2 _ S) in Ha.
  - intros (e & He & Hbad). destruct (edges_fail h2 g (all_edges h G) None (1 # 2)%Q) as (h' & x & Hr & Hx); [done|by left|done|done| |].
    { exists e. rewrite Hu. split; [done|]. by rewrite Hgl. }
    exists h', x. rewrite (sbind_fail _ _ _ _ _ Hr). split; [done|]. by rewrite E1 in Hx.
Qed.
Lemma styling_post h g G D sh h' : WF h → h_graphs h !! g = Some G → g_disp G = Some D → default_styling D → stylize g sh h = (h', Ok tt) →
  styling_effect g G (d_scheme D) h h'.
Proof.
  intros W HG HD Hd. rewrite (stylize_default g sh h G D), pensieve_split by done. intros (h2 & [] & H1 & H2)%sbind_Ok.
  destruct (nodes_phase h g G (colours_used0 (d_scheme D)) h2) as (rs & used & cl & Hsub & Hrs & Hp & HF & S & E1 & E2 & Hst); [done..|].
  destruct (edge_phase h g G h2) as [Hok Hfail]; [done..|].
  assert (Hin : ∀ e, e ∈ all_edges h G → ∃ x y, joins h g e x y) by (intros e; by apply elem_of_all_edges).
  destruct (list_decide (later_good h g) (unstyled_edges h (all_edges h G))) as [Hgood|Hbad].
  { intros e He. apply later_decide; [done|]. apply Hin. by eapply elem_of_unstyled. }
  2: { destruct (Hfail Hbad) as (? & ? & ? & _). congruence. }
  destruct (Hok Hgood) as (h3 & Hr & S2 & Hn1 & Hn2 & Hes & Har). assert (h3 = h') as -> by congruence. split; try done.
  - by eapply sa_trans.
  - intros r Hr'. rewrite <-Hst by done. unfold node_styled. by rewrite Hn1.
  - exists rs, used, cl. split_and!; try done. eapply Forall2_impl; [done|]. intros r c (s & ? & ?). exists s. split; [done|]. by eapply sa_style_of.
Qed.
Lemma styling_total h g G D sh : WF h → CI h → h_graphs h !! g = Some G → g_disp G = Some D → default_styling D → comparable h g → d_scheme D ≠ [] →
  ((∀ e, e ∈ unstyled_edges h (all_edges h G) → later_good h g e) → ∃ h', stylize g sh h = (h', Ok tt)) ∧
  ((∃ e, e ∈ unstyled_edges h (all_edges h G) ∧ ¬ later_good h g e) → ∃ h' x, stylize g sh h = (h', Err x) ∧
    ((∀ e E col, e ∈ all_edges h G → h_edges h !! e = Some E → e_value E ≠ PCol col) → x = AttributeError ∨ x = TypeError)).
Proof.
  intros W HCI HG HD Hd Hc Hne. rewrite (stylize_default g sh h G D), pensieve_split by done.
  destruct (nodes_phase_total h g G (d_scheme D)) as [h2 H1]; [done..|]. rewrite (sbind_step _ _ _ _ _ H1).
  destruct (nodes_phase h g G (colours_used0 (d_scheme D)) h2) as (rs & used & cl & Hsub & Hrs & Hp & HF & S & E1 & E2 & Hst); [done..|].
  destruct (edge_phase h g G h2) as [Hok Hfail]; [done..|]. split; [|done]. intros Hgood. destruct (Hok Hgood) as (h' & Hr & _). eauto.
Qed.
Lemma unstyled_cond h g G (P : eref → Prop) : WF h → h_graphs h !! g = Some G →
  (∀ e, e ∈ unstyled_edges h (all_edges h G) → P e) ↔ (∀ e x y, joins h g e x y → ¬ edge_styled h e → P e).
Proof.
  intros W HG. setoid_rewrite elem_of_unstyled_iff. split.
  - intros H e x y Hj Hs. apply H. left. split; [|done]. apply (elem_of_all_edges h g); eauto.
  - intros H e [[He Hs]|[He Hs]]; apply (elem_of_all_edges h g) in He as (x & y & Hj); try done; [by eapply H|]. destruct Hj as (E & ? & _). congruence.
Qed.

(** * The properties *)

(** C42.  For a reachable graph with a non-empty colour scheme, the default stylist
    and no overwriting, whose nodes can be compared (see C54): if the start of every
    edge without style has a style, or is a root, or has only parents on cycles, or
    is on no cycle, and the values of these edges are None or numbers, then stylize
    succeeds.  Missing: the other graphs, on which it raises (C42_fails_partial). *)
Lemma C42_succeeds_partial_proof : ∀ h g G D sh, reachable h → h_graphs h !! g = Some G → g_disp G = Some D → default_styling D → d_scheme D ≠ [] → comparable h g →
  (∀ e x y E, joins h g e x y → h_edges h !! e = Some E → e_style E = None →
     (node_styled h x ∨ rootlike h g x ∨ ¬ on_cycle h g x) ∧ numeric (e_value E)) →
  ∃ h', stylize g sh h = (h', Ok tt).
Proof.
  intros h g G D sh Hr HG HD Hd Hne Hc Hcond. pose proof (reachable_WF h Hr) as W. destruct (styling_total h g G D sh) as [Hok _]; [done|by apply reachable_CI|done..|].
  apply Hok, (unstyled_cond h g G _ W HG). intros e x y Hj Hs. pose proof Hj as (E & HE & _). exists x, y, E.
  destruct (Hcond e x y E Hj HE) as [? ?]; [|done]. destruct (e_style E) eqn:He; [|done]. destruct Hs. exists E. by rewrite He.
Qed.
(** C42.  If some edge without style fails this condition, and no value is a Colour
    object, stylize raises AttributeError or TypeError. *)
Lemma C42_fails_partial_proof : ∀ h g G D sh, reachable h → h_graphs h !! g = Some G → g_disp G = Some D → default_styling D → d_scheme D ≠ [] → comparable h g →
  (∀ e E c, h_edges h !! e = Some E → e_value E ≠ PCol c) →
  (∃ e x y E, joins h g e x y ∧ h_edges h !! e = Some E ∧ e_style E = None ∧
     ¬ ((node_styled h x ∨ rootlike h g x ∨ ¬ on_cycle h g x) ∧ numeric (e_value E))) →
  ∃ h' x, stylize g sh h = (h', Err x) ∧ (x = AttributeError ∨ x = TypeError).
Proof.
  intros h g G D sh Hr HG HD Hd Hne Hc Hcol (e & x & y & E & Hj & HE & Hs & Hbad). pose proof (reachable_WF h Hr) as W.
  destruct (styling_total h g G D sh) as [_ Hf]; [done|by apply reachable_CI|done..|]. destruct Hf as (h' & z & Hrun & Hz).
  - exists e. split.
    + apply elem_of_unstyled_iff. left. split; [apply (elem_of_all_edges h g); eauto|]. intros (E' & ? & ?). congruence.
    + intros (x' & y' & E' & Hj' & HE' & H1 & H2). apply Hbad. assert (E' = E) as -> by congruence. split; [|done].
      assert (x' = x) as -> by (destruct Hj as (? & ? & _ & ? & _), Hj' as (? & ? & _ & ? & _); congruence). done.
  - exists h', z. split; [done|]. apply Hz. eauto.
Qed.
(** C42.  When it succeeds, every edge of the graph has a style, and so has every node
    that had one, is a root, has only parents on cycles, or is on no cycle; exactly
    these have one.  Only styles of objects of the graph that had none are added. *)
Lemma C42_effect_partial_proof : ∀ h g G D sh h', reachable h → h_graphs h !! g = Some G → g_disp G = Some D → default_styling D → stylize g sh h = (h', Ok tt) →
  styles_added g h h' ∧ (∀ e x y, joins h g e x y → edge_styled h' e) ∧
  (∀ r, in_graph h g r → node_styled h' r ↔ node_styled h r ∨ rootlike h g r ∨ ¬ on_cycle h g r).
Proof.
  intros h g G D sh h' Hr HG HD Hd Hrun. pose proof (reachable_WF h Hr) as W. destruct (styling_post h g G D sh h') as [S1 S2 S3 _ _ _]; [done..|]. split_and!; [done| |done].
  intros e x y Hj. apply S3, (elem_of_all_edges h g); eauto.
Qed.
(** C42.  In a graph without cycles whose edge values are None or numbers it succeeds,
    and every node and edge has a style. *)
Lemma C42_acyclic_partial_proof : ∀ h g G D sh, reachable h → h_graphs h !! g = Some G → g_disp G = Some D → default_styling D → d_scheme D ≠ [] → comparable h g →
  acyclic h g → (∀ e x y E, joins h g e x y → h_edges h !! e = Some E → numeric (e_value E)) →
  ∃ h', stylize g sh h = (h', Ok tt) ∧ (∀ r, in_graph h' g r → node_styled h' r) ∧ (∀ e x y, joins h' g e x y → edge_styled h' e).
Proof.
  intros h g G D sh Hr HG HD Hd Hne Hc Hacy Hnum. destruct (C42_succeeds_partial_proof h g G D sh) as [h' Hrun]; [done..| |].
  { intros e x y E Hj HE _. split; [right; right; apply Hacy|by eapply Hnum]. }
  destruct (C42_effect_partial_proof h g G D sh h') as (S & He & Hn); [done..|]. exists h'. split; [done|]. split.
  - intros r Hi%(sa_in_graph _ _ _ S). apply Hn; [done|]. right; right. apply Hacy.
  - intros e x y Hj%(sa_joins _ _ _ S). by eapply He.
Qed.
(** C42 refuted: a -> b, b -> c, c -> b.  Node b is on a cycle and has the parent a that
    is not, so it gets no style, and the edge from b fails. *)
Lemma C42_loop_refuted_proof : ∃ h G D, reachable h ∧ h_graphs h !! 0 = Some G ∧ g_disp G = Some D ∧ default_styling D ∧ d_scheme D ≠ [] ∧ comparable h 0 ∧
  (∀ e E, h_edges h !! e = Some E → e_value E = PNone) ∧ ∀ sh, (stylize 0 sh h).2 = Err AttributeError.
Proof.
  eexists (run (graph_calls ["a"; "b"; "c"] [("a", "b"); ("b", "c"); ("c", "b")])%string empty_heap), _, _. split; [reach|]. split; [vm_compute; reflexivity|]. split; [vm_compute; reflexivity|].
  split; [by repeat split|]. split; [done|]. split.
  - apply (C54_comparable_proof _ 0). right. apply run_history; [constructor|vm_compute; repeat (split; [by repeat split|]); done|repeat constructor; done].
  - split; [|intros sh; vm_compute; reflexivity]. intros e E HE. destruct e as [|[|[|]]]; vm_compute in HE; [by injection HE as <-..|done].
Qed.
Definition inc_edges (h : heap) : bool := forallb (λ E, match e_start E, e_end E with Some x, Some y => Nat.ltb x y | _, _ => true end) (h_edges h).
Lemma inc_acyclic h g : inc_edges h = true → acyclic h g.
Proof.
  intros Hb. assert (Hadj : ∀ x y, adj h g x y → x < y).
  { intros x y (e & E & HE & _ & Hx & Hy). unfold inc_edges in Hb. rewrite forallb_forall in Hb.
    specialize (Hb E). rewrite Hx, Hy in Hb. apply Nat.ltb_lt, Hb, elem_of_list_In. by eapply elem_of_list_lookup_2. }
  assert (Hp : ∀ x y, path h g x y → x < y) by (intros x y Hp; induction Hp; [by apply Hadj|]; apply Hadj in H; lia).
  intros x Hx%Hp. lia.
Qed.
(** The diamond a -> b -> d, a -> c -> d: four node styles and four edge styles. *)
Lemma C42_ex_proof : ∃ h G D h', reachable h ∧ h_graphs h !! 0 = Some G ∧ g_disp G = Some D ∧ default_styling D ∧ d_scheme D ≠ [] ∧ comparable h 0 ∧ acyclic h 0 ∧
  (∀ e E, h_edges h !! e = Some E → e_value E = PNone) ∧ stylize 0 id h = (h', Ok tt) ∧ length (h_ns h') = 4 ∧ length (h_es h') = 4.
Proof.
  assert (reachable (run (graph_calls ["a"; "b"; "c"; "d"] [("a", "b"); ("b", "d"); ("a", "c"); ("c", "d")])%string empty_heap)) as Hr by reach.
  eexists _, _, _, _. split; [exact Hr|]. split; [vm_compute; reflexivity|]. split; [vm_compute; reflexivity|]. split; [by repeat split|]. split; [done|]. split_and!.
  - apply (C54_comparable_proof _ 0). right. apply run_history; [constructor|vm_compute; repeat (split; [by repeat split|]); done|repeat constructor; done].
  - by apply inc_acyclic.
  - intros e E HE. destruct e as [|[|[|[|]]]]; vm_compute in HE; [by injection HE as <-..|done].
  - vm_compute; reflexivity.
  - done.
  - done.
Qed.

(** C45.  After a successful call the i-th edge (in the order of graph.edges) of those
    that had no style has the default edge style, with the colour of its start a tenth
    darker, and arrow size one half times the product of the values of this edge and
    of the edges before it that had no style (None counts as one).  Missing: its own
    value only, which is false of the code (C45_own_value_refuted). *)
Lemma C45_arrow_partial_proof : ∀ h g G D sh h' es, reachable h → h_graphs h !! g = Some G → g_disp G = Some D → default_styling D → stylize g sh h = (h', Ok tt) →
  graph_edges h g = Ok es → ∀ i e, unstyled_edges h es !! i = Some e → ∃ x y s a,
    joins h g e x y ∧ style_of h' x s ∧ edge_style_of h' e (standard_edge (CDarken (ns_colour s) (1 # 10)%Q) a) ∧ (a == (1 # 2) * product (factor <$> take (Datatypes.S i) (values_of h (unstyled_edges h es))))%Q.
Proof.
  intros h g G D sh h' es Hr HG HD Hd Hrun Hes i e He. pose proof (reachable_WF h Hr) as W. rewrite (graph_edges_run h g G) in Hes by done. injection Hes as <-.
  destruct (styling_post h g G D sh h') as [_ _ _ _ _ Har]; [done..|]. exact (Har i e He).
Qed.
(** C45 refuted: in the graph with edges a -> b of value 2 and a -> c of value 3, the
    second edge has arrow size 3, not 3/2. *)
Lemma C45_own_value_refuted_proof : ∃ h G D h' e E s a, reachable h ∧ h_graphs h !! 0 = Some G ∧ g_disp G = Some D ∧ default_styling D ∧
  stylize 0 id h = (h', Ok tt) ∧ h_edges h !! e = Some E ∧ e_style E = None ∧ numeric (e_value E) ∧ edge_style_of h' e s ∧ es_arrow s = PFlt a ∧
  ¬ (a == (1 # 2) * factor (e_value E))%Q.
Proof.
  eexists (run [CNew false true disp0; CAddNode 0 (an "a") nargs0; CAddNode 0 (an "b") nargs0; CAddNode 0 (an "c") nargs0;
    CConnect 0 (an "a") (an "b") (eargs0 <| c_value := PInt 2 |>); CConnect 0 (an "a") (an "c") (eargs0 <| c_value := PInt 3 |>)] empty_heap), _, _, _, 1, _, _, _.
  split; [reach|]. split; [vm_compute; reflexivity|]. split; [vm_compute; reflexivity|]. split; [by repeat split|]. split; [vm_compute; reflexivity|].
  split; [vm_compute; reflexivity|]. split; [done|]. split; [done|]. split; [eexists _, _; split; [vm_compute; reflexivity|split; vm_compute; reflexivity]|].
  split; [vm_compute; reflexivity|]. by vm_compute.
Qed.
(** The same graph, with a third edge b -> c without value: the sizes are 1, 3 and 3. *)
Lemma C45_arrow_ex_proof : ∃ h G D h' es, reachable h ∧ h_graphs h !! 0 = Some G ∧ g_disp G = Some D ∧ default_styling D ∧ stylize 0 id h = (h', Ok tt) ∧
  graph_edges h 0 = Ok es ∧ unstyled_edges h es = es ∧ length es = 3 ∧ es_arrow <$> h_es h' = [PFlt (2 # 2)%Q; PFlt (6 # 2)%Q; PFlt (6 # 2)%Q].
Proof.
  eexists (run [CNew false true disp0; CAddNode 0 (an "a") nargs0; CAddNode 0 (an "b") nargs0; CAddNode 0 (an "c") nargs0;
    CConnect 0 (an "a") (an "b") (eargs0 <| c_value := PInt 2 |>); CConnect 0 (an "a") (an "c") (eargs0 <| c_value := PInt 3 |>);
    CConnect 0 (an "b") (an "c") eargs0] empty_heap), _, _, _, _.
  split; [reach|]. split; [vm_compute; reflexivity|]. split; [vm_compute; reflexivity|]. split; [by repeat split|]. split; [vm_compute; reflexivity|].
  split; [vm_compute; reflexivity|]. split; [vm_compute; reflexivity|]. split; [done|]. vm_compute. reflexivity.
Qed.

Lemma roots_noop h g used ns : WF h → (∀ r, r ∈ ns → in_graph h g r) → (∀ r, r ∈ ns → rootlike h g r → node_styled h r) → sfold style_root used ns h = (h, Ok used).
Proof.
  intros W. induction ns as [|r ns IH]; intros Hin Hst; [done|]. cbn [sfold]. destruct (in_graph_lookup h W g r) as (N & HN & _); [apply Hin; left|].
  destruct (style_root_run used h g r N W) as [[_ Hrun]|(Hs & Hroot & _)]; [apply Hin; left|done|..].
  - rewrite (sbind_step _ _ _ _ _ Hrun). apply IH; intros; [apply Hin|apply Hst]; try done; by right.
  - apply (Hst r) in Hroot; [|left]. rewrite (styled_dec h r W N HN) in Hroot. done.
Qed.
Lemma branches_noop h g ns : WF h → (∀ r, r ∈ ns → in_graph h g r) → (∀ r, r ∈ ns → rootlike h g r ∨ on_cycle h g r ∨ node_styled h r) → siter style_branch ns h = (h, Ok tt).
Proof.
  intros W. induction ns as [|r ns IH]; intros Hin Hst; [done|]. cbn [siter]. assert (Hr : in_graph h g r) by (apply Hin; left).
  assert (Hrun : style_branch r h = (h, Ok tt)).
  { unfold style_branch. destruct (root_read h g r) as (b & Hb & Hbi & _); [done..|]. rewrite (sread_Ok _ _ _ b) by done. destruct b; [done|].
    destruct (loop_read h g r) as (l & Hl & Hli); [done..|]. rewrite (sread_Ok _ _ _ l) by done. destruct l; [done|].
    destruct (Hst r) as [?%Hbi|[?%Hli|(N & HN & Hs)]]; [left|done..|]. rewrite (sread_Ok _ _ _ N) by (by apply get_n_Ok). by destruct (n_style N). }
  rewrite (sbind_step _ _ _ _ _ Hrun). apply IH; intros; [apply Hin|apply Hst]; by right.
Qed.
Lemma edges_noop h c es : (∀ e, e ∈ es → edge_styled h e) → sfold style_edge c es h = (h, Ok c).
Proof.
  induction es as [|e es IH]; intros H; [done|]. cbn [sfold]. rewrite (sbind_step _ _ _ _ _ (style_edge_skip c h e (H e (elem_of_list_here _ _)))). apply IH. intros; apply H; by right.
Qed.
(** C55.  With the default stylist and no overwriting, calling stylize again succeeds and
    changes nothing.  Missing: display options that overwrite styles, for which it is
    false (C55_dict_refuted, C55_random_refuted). *)
Lemma C55_default_partial_proof : ∀ h g G D sh sh' h', reachable h → h_graphs h !! g = Some G → g_disp G = Some D → default_styling D →
  stylize g sh h = (h', Ok tt) → stylize g sh' h' = (h', Ok tt).
Proof.
  intros h g G D sh sh' h' Hr HG HD Hd Hrun. pose proof (reachable_WF h Hr) as W. destruct (styling_post h g G D sh h') as [S Hn He _ _ _]; [done..|].
  pose proof (sa_WF _ _ _ S W) as W'. assert (HG' : h_graphs h' !! g = Some G) by (by rewrite (sa_graphs _ _ _ S)).
  assert (Hin : ∀ r, r ∈ dvals (g_nodes G) → in_graph h' g r) by (intros r; by apply elem_of_nodes).
  rewrite (stylize_default g sh' h' G D) by done. unfold stylize_with_pensieve. rewrite (sread_Ok _ _ _ (dvals (g_nodes G))) by (by apply nodes_run).
  rewrite (sbind_step _ _ _ h' (colours_used0 (d_scheme D))); [rewrite (sbind_step _ _ _ h' tt)|].
  - unfold stylize_edges_based_on_nodes. rewrite (sread_Ok _ _ _ (all_edges h G)) by (rewrite <-(all_edges_sa g h h' G S); by apply graph_edges_run).
    by rewrite (sbind_step _ _ _ _ _ (edges_noop h' None _ He)).
  - apply (branches_noop h' g); [done..|]. intros r Hi%Hin. apply (sa_in_graph _ _ _ S) in Hi. rewrite (sa_on_cycle _ _ _ S).
    destruct (on_cycle_decide h g r W Hi) as [?|?]; [by right; left|]. right; right. apply Hn; [done|]. by right; right.
  - apply (roots_noop h' g); [done..|]. intros r Hi%Hin. apply (sa_in_graph _ _ _ S) in Hi. rewrite (sa_rootlike _ _ _ S). intros Hroot. apply Hn; [done|]. by right; left.
Qed.
(** C55 refuted: Graph(node_style={'shape': 'circle'}) with one node raises RuntimeError the second time. *)
Lemma C55_dict_refuted_proof : ∃ h h', reachable h ∧ (∃ G D, h_graphs h !! 0 = Some G ∧ g_disp G = Some D ∧ d_stylist D = PStr "pensieve"%string ∧ length (g_nodes G) = 1) ∧
  stylize 0 id h = (h', Ok tt) ∧ (stylize 0 id h').2 = Err RuntimeError.
Proof.
  eexists (run [CNew false true (disp0 <| d_gnode := Some [("shape"%string, PStr "circle")] |>); CAddNode 0 (an "a") nargs0] empty_heap), _. split; [reach|].
  split; [eexists _, _; split; [vm_compute; reflexivity|]; split; [vm_compute; reflexivity|]; done|]. split; [vm_compute; reflexivity|]. vm_compute. reflexivity.
Qed.
(** C55 refuted: with stylist 'random' and one node it raises RuntimeError the second time, whatever the shuffle. *)
Lemma C55_random_refuted_proof : ∃ h h', reachable h ∧ (∃ G D, h_graphs h !! 0 = Some G ∧ g_disp G = Some D ∧ d_stylist D = PStr "random"%string ∧ d_gnode D = None ∧ d_gedge D = None ∧ length (g_nodes G) = 1) ∧
  stylize 0 id h = (h', Ok tt) ∧ (stylize 0 id h').2 = Err RuntimeError.
Proof.
  eexists (run [CNew false true (disp0 <| d_stylist := PStr "random" |>); CAddNode 0 (an "a") nargs0] empty_heap), _. split; [reach|].
  split; [eexists _, _; split; [vm_compute; reflexivity|]; split; [vm_compute; reflexivity|]; done|]. split; [vm_compute; reflexivity|]. vm_compute. reflexivity.
Qed.
(** A graph with the cycle a -> b -> a and a child c of b. *)
Lemma C55_default_ex_proof : ∃ h G D h', reachable h ∧ h_graphs h !! 0 = Some G ∧ g_disp G = Some D ∧ default_styling D ∧ stylize 0 id h = (h', Ok tt) ∧
  on_cycle h 0 0 ∧ length (h_ns h') = 3 ∧ length (h_es h') = 3.
Proof.
  eexists (run (graph_calls ["a"; "b"; "c"] [("a", "b"); ("b", "a"); ("b", "c")])%string empty_heap), _, _, _. split; [reach|]. split; [vm_compute; reflexivity|]. split; [vm_compute; reflexivity|].
  split; [by repeat split|]. split; [vm_compute; reflexivity|]. split; [|by vm_compute].
  eapply tc_l; [|apply tc_once]; [exists 0|exists 1]; eexists; (split; [vm_compute; reflexivity|]); done.
Qed.

Lemma root_style_eq c s : root_style c s → s = standard_node c.
Proof. unfold root_style. cbv. by intros [= <-]. Qed.
(** C59.  After a successful call of the default stylist, the nodes that had no style and
    of which every parent (if any) is on a cycle have the default node style with the
    colours of the scheme in turn, in node order. *)
Lemma C59_roots_proof : ∀ h g G D sh h' ns, reachable h → h_graphs h !! g = Some G → g_disp G = Some D → default_styling D → stylize g sh h = (h', Ok tt) →
  nodes h g = Ok ns → ∃ rs, rs `sublist_of` ns ∧ (∀ r, r ∈ rs ↔ r ∈ ns ∧ ¬ node_styled h r ∧ rootlike h g r) ∧
  ∀ i r, rs !! i = Some r → ∃ c, distinct (d_scheme D) !! (i mod length (distinct (d_scheme D))) = Some c ∧ style_of h' r (standard_node c).
Proof.
  intros h g G D sh h' ns Hr HG HD Hd Hrun Hns. pose proof (reachable_WF h Hr) as W. rewrite (nodes_run h g G) in Hns by done. injection Hns as <-.
  destruct (styling_post h g G D sh h') as [_ _ _ _ (rs & used & cl & Hsub & Hrs & Hp & HF) _]; [done..|]. exists rs. split; [done|]. split.
  { intros r. rewrite Hrs. by rewrite (elem_of_nodes h g G). }
  intros i r Hi. destruct (Forall2_lookup_l _ _ _ _ _ HF Hi) as (c & Hc & s & Hs%root_style_eq & Hst). subst s. exists c. split; [|done].
  destruct (decide (d_scheme D = [])) as [He|Hne].
  - rewrite He in Hp. destruct rs as [|r0 rs]; [done|]. cbn in Hp. done.
  - destruct (C43_rotation_proof (d_scheme D) (length rs) Hne) as (u' & cl' & Hp' & Hlen & Hrot & _). assert (cl' = cl) as -> by congruence.
    rewrite <-Hrot; [done|]. by eapply lookup_lt_Some.
Qed.
(** Three roots a, b, d (c is a child of a) and the scheme red, blue. *)
Lemma C59_roots_ex_proof : ∃ h G D h', reachable h ∧ h_graphs h !! 0 = Some G ∧ g_disp G = Some D ∧ default_styling D ∧ stylize 0 id h = (h', Ok tt) ∧
  d_scheme D = [CName "red"; CName "blue"] ∧ nodes h 0 = Ok [0; 1; 2; 3] ∧ style_of h' 0 (standard_node (CName "red")) ∧
  style_of h' 1 (standard_node (CName "blue")) ∧ style_of h' 3 (standard_node (CName "red")).
Proof.
  eexists (run (graph_calls ["a"; "b"; "c"; "d"] [("a", "c")])%string empty_heap), _, _, _. split; [reach|]. split; [vm_compute; reflexivity|]. split; [vm_compute; reflexivity|].
  split; [by repeat split|]. split; [vm_compute; reflexivity|]. split; [done|]. split; [vm_compute; reflexivity|].
  split_and!; (eexists _, _; split; [vm_compute; reflexivity|]; split; vm_compute; reflexivity).
Qed.

(** C60.  After a successful call of the default stylist every edge that had no style has
    the default edge style with the colour of its start node (the one it has now), a
    tenth darker (for the arrow size see C45_arrow_partial); and styles that were there
    before are unchanged. *)
Lemma C60_edges_proof : ∀ h g G D sh h', reachable h → h_graphs h !! g = Some G → g_disp G = Some D → default_styling D → stylize g sh h = (h', Ok tt) →
  (∀ e x y, joins h g e x y → ¬ edge_styled h e → ∃ s a, style_of h' x s ∧ edge_style_of h' e (standard_edge (CDarken (ns_colour s) (1 # 10)%Q) a)) ∧
  (∀ r s, style_of h r s → style_of h' r s) ∧ (∀ e s, edge_style_of h e s → edge_style_of h' e s).
Proof.
  intros h g G D sh h' Hr HG HD Hd Hrun. pose proof (reachable_WF h Hr) as W. destruct (styling_post h g G D sh h') as [S _ _ _ _ Har]; [done..|]. split_and!.
  - intros e x y Hj Hn. assert (He : e ∈ unstyled_edges h (all_edges h G)). { apply elem_of_unstyled_iff. left. split; [|done]. apply (elem_of_all_edges h g); eauto. }
    apply elem_of_list_lookup in He as [i Hi]. destruct (Har i e Hi) as (x' & y' & s & a & Hj' & Hs & Hes & _).
    assert (x' = x) as -> by (destruct Hj as (? & ? & _ & ? & _), Hj' as (? & ? & _ & ? & _); congruence). exists s, a. done.
  - intros r s. by apply (sa_style_of g).
  - intros e s. by apply (sa_edge_style_of g).
Qed.
(** The edge a -> b in a graph in which b was given a style when it was added. *)
Lemma C60_edges_ex_proof : ∃ h G D h', reachable h ∧ h_graphs h !! 0 = Some G ∧ g_disp G = Some D ∧ default_styling D ∧ stylize 0 id h = (h', Ok tt) ∧
  joins h 0 0 0 1 ∧ ¬ edge_styled h 0 ∧ node_styled h 1 ∧ ¬ node_styled h 0 ∧ edge_style_of h' 0 (standard_edge (CDarken (CName "red") (1 # 10)%Q) (1 # 2)%Q).
Proof.
  eexists (run [CNew false true disp0; CAddNode 0 (an "a") nargs0; CAddNode 0 (an "b") (nargs0 <| a_style := SDict [("shape"%string, PStr "circle")] |>);
    CConnect 0 (an "a") (an "b") eargs0] empty_heap), _, _, _.
  split; [reach|]. split; [vm_compute; reflexivity|]. split; [vm_compute; reflexivity|]. split; [by repeat split|]. split; [vm_compute; reflexivity|].
  split; [eexists; split; [vm_compute; reflexivity|]; done|]. split; [intros (? & H & Hs); vm_compute in H; injection H as <-; by apply Hs|].
  split; [eexists; split; [vm_compute; reflexivity|]; done|]. split; [intros (? & H & Hs); vm_compute in H; injection H as <-; by apply Hs|].
  eexists _, _. split; [vm_compute; reflexivity|]. split; vm_compute; reflexivity.
Qed.
