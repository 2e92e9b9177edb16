(** Instances that meet the hypotheses of theorems of C31, C42, C56 and C63. *)
From Verif Require Export SpecStyle ModelMore Samples ProofC9 ProofC15 ProofC17 ProofC22.
From Coq Require Import Lqa.
Local Open Scope string_scope.
Local Open Scope list_scope.

(** Instance of C31_acyclic and C31_extremes: three nodes, no cycles allowed, all draws
    1/2.  With probability 1 there are three edge objects more than before, with
    probability 0 there is none. *)
Lemma C31_extremes_ex_proof : reachable sample ∧ (∀ k : nat, 0 <= (λ _ : nat, 1 # 2) k < 1)%Q ∧
  (∃ h1, random_graph disp0 3 false false 1 1 true (λ _, 1 # 2)%Q sample = (h1, Ok 2) ∧ length (h_edges h1) = length (h_edges sample) + 3) ∧
  (∃ h0, random_graph disp0 3 false false 1 0 true (λ _, 1 # 2)%Q sample = (h0, Ok 2) ∧ h_edges h0 = h_edges sample).
Proof.
  split; [apply sample_reachable|]. split; [intros k; cbv beta; lra|].
  split; (eexists; split; [vm_compute; reflexivity|vm_compute; reflexivity]).
Qed.

(** Instance of C63_node_partial: the node b of the sample, with a name that no node has and
    with the name of another node. *)
Lemma C63_node_ex_proof : ∃ N, reachable sample ∧ h_nodes sample !! 1 = Some N ∧ n_graph N = Some 0 ∧ nm "new" ≠ n_id N ∧ nm "a" ≠ n_id N ∧
  get_node sample 0 (AName (nm "new")) = Err KeyError ∧ get_node sample 0 (AName (nm "a")) = Ok 0.
Proof. eexists. split; [apply sample_reachable|]. split; [vm_compute; reflexivity|]. by vm_compute. Qed.

(** Instance of C63_edge_partial: the first edge from a to b of the sample, with an id that
    no edge has. *)
Lemma C63_edge_ex_proof : ∃ i E, reachable sample ∧ has_id sample 0 0 i ∧ h_edges sample !! 0 = Some E ∧ i.1 = (nm "a", nm "b") ∧
  ∀ e', ¬ has_id sample 0 e' (i.1, RId (Some (nm "fresh"))).
Proof.
  eexists _, _. split; [apply sample_reachable|]. split.
  { eexists 0, 1, _, _, _. split; [eexists; split; [vm_compute; reflexivity|by vm_compute]|]. do 3 (split; [vm_compute; reflexivity|]). reflexivity. }
  split; [vm_compute; reflexivity|]. split; [reflexivity|].
  intros e (x & y & E & X & Y & _ & HE & _ & _ & Hi). assert (e_raw E = RId (Some (nm "fresh"))) as Hraw by congruence.
  do 7 (destruct e as [|e]; [vm_compute in HE; injection HE as <-; discriminate Hraw|]). vm_compute in HE. done.
Qed.

Lemma no_in_path h g x y : (∀ p, ¬ adj h g p y) → ¬ path h g x y.
Proof. intros Hn Hp. induction Hp as [x y H|x z y _ _ IH]; [by eapply Hn|by apply IH]. Qed.

(** Instance of C42_fails_partial: in a -> b, b -> c, c -> b the edge from b to c starts in a
    node without style that is on a cycle and has the parent a, which is on none. *)
Lemma C42_fails_ex_proof : ∃ h G D, reachable h ∧ h_graphs h !! 0 = Some G ∧ g_disp G = Some D ∧ default_styling D ∧ d_scheme D ≠ [] ∧ comparable h 0 ∧
  (∀ e E c, h_edges h !! e = Some E → e_value E ≠ PCol c) ∧
  ∃ e x y E, joins h 0 e x y ∧ h_edges h !! e = Some E ∧ e_style E = None ∧ ¬ ((node_styled h x ∨ rootlike h 0 x ∨ ¬ on_cycle h 0 x) ∧ numeric (e_value E)).
Proof.
  eexists (run (graph_calls ["a"; "b"; "c"] [("a", "b"); ("b", "c"); ("c", "b")]) empty_heap), _, _.
  split; [reach|]. split; [vm_compute; reflexivity|]. split; [vm_compute; reflexivity|].
  split; [by repeat split|]. split; [done|]. split.
  { apply (C54_comparable_proof _ 0). right. apply run_history; [constructor|vm_compute; repeat (split; [by repeat split|]); done|repeat constructor; done]. }
  set (h := run _ _).
  assert (Hin : ∀ x, ¬ adj h 0 x 0).
  { intros x (e & E & HE & _ & _ & Hy). destruct e as [|[|[|]]]; vm_compute in HE; [injection HE as <-; discriminate Hy..|done]. }
  assert (joins h 0 0 0 1 ∧ joins h 0 1 1 2 ∧ joins h 0 2 2 1) as (J0 & J1 & J2).
  { split; [|split]; (eexists; split; [vm_compute; reflexivity|by vm_compute]). }
  split.
  { intros e E c HE. destruct e as [|[|[|]]]; vm_compute in HE; [injection HE as <-; discriminate..|done]. }
  eexists 1, 1, 2, _. split; [exact J1|]. split; [vm_compute; reflexivity|]. split; [done|].
  intros [[(N & HN & Hs)|[Hroot|Hno]] _].
  - vm_compute in HN. injection HN as <-. done.
  - apply (no_in_path h 0 0 0 Hin). apply Hroot. exists 0. exact J0.
  - apply Hno. apply (tc_l _ 1 2 1); [exists 1; exact J1|]. apply tc_once. exists 2; exact J2.
Qed.

(** Instance of C56_coloured_partial: a node style of a given colour and an edge style, made
    by calls. *)
Lemma C56_coloured_ex_proof : ∃ h, reachable h ∧ length (h_ns h) = 1 ∧ length (h_es h) = 1.
Proof. exists (run [CNStyleNew [("colour", PStr "red")]; CEStyleNew []] empty_heap). split; [reach|]. by vm_compute. Qed.

Lemma edges_arrow h g G h' : WF h → h_graphs h !! g = Some G → (∀ e x y, joins h g e x y → node_styled h x) → stylize_edges_based_on_nodes g h = (h', Ok tt) →
  styles_added g h h' ∧ ∀ i e, unstyled_edges h (all_edges h G) !! i = Some e → ∃ x y s a, joins h g e x y ∧ style_of h' x s ∧
    edge_style_of h' e (standard_edge (CDarken (ns_colour s) (1 # 10)%Q) a) ∧ (a == (1 # 2) * product (factor <$> take (Datatypes.S i) (values_of h (unstyled_edges h (all_edges h G)))))%Q.
Proof.
  intros W HG Hst Hr0. unfold stylize_edges_based_on_nodes in Hr0. rewrite (sread_Ok _ _ _ (all_edges h G)) in Hr0 by (by apply graph_edges_run).
  assert (Hin : ∀ e, e ∈ all_edges h G → ∃ x y, joins h g e x y) by (intros e; by apply elem_of_all_edges). assert (Hnd : NoDup (all_edges h G)) by apply NoDup_nub.
  assert (Hun : ∀ e, e ∈ unstyled_edges h (all_edges h G) → ∃ x y E, joins h g e x y ∧ h_edges h !! e = Some E ∧ e_style E = None).
  { intros e [He1 He2]%elem_of_list_filter. destruct (Hin e He2) as (x & y & Hj). pose proof Hj as (E & HE & _). exists x, y, E. split_and!; try done. by rewrite HE in He1. }
  assert (Hdec : ∀ v, numeric v ∨ ¬ numeric v) by (intros []; cbn; auto).
  destruct (list_decide (good_edge h g) (unstyled_edges h (all_edges h G))) as [Hgood|Hbad].
  { intros e He. destruct (Hun e He) as (x & y & E & Hj & HE & Hs). destruct (Hdec (e_value E)) as [Hn|Hn]; [left; exists x, y, E; split_and!; eauto|right].
    intros (x' & y' & E' & _ & HE' & _ & Hn'). congruence. }
  2: { destruct (edges_fail h g (all_edges h G) None (1 # 2)%Q) as (h2 & x & Hr & _); [done|by left|done..|]. by rewrite (sbind_fail _ _ _ _ _ Hr) in Hr0. }
  destruct (edges_ok h g (all_edges h G) None (1 # 2)%Q) as (h2 & c' & Hr & S & Hn1 & Hn2 & _ & Har); [done|by left|done..|]. rewrite (sbind_step _ _ _ _ _ Hr) in Hr0.
  injection Hr0 as <-. split; [done|]. intros i e Hi. destruct (Har i e Hi) as (x & y & s & a & Hj & Hs & Hes & Ha). exists x, y, s, a. split_and!; try done. by apply (sa_style_of g h h2).
Qed.

(** C70.  The arrow sizes when it succeeds: the i-th edge (in the order of graph.edges) of
    those that had no style has arrow size one half times the product of the values of
    this edge and of the edges before it that had no style (None counts as one), and the
    colour of its start a tenth darker. *)
Lemma C70_arrow_partial_proof : ∀ h g G D sh h' es, reachable h → h_graphs h !! g = Some G → g_disp G = Some D → random_styling D → (∀ l, sh l ≡ₚ l) → d_scheme D ≠ [] →
  stylize g sh h = (h', Ok tt) → graph_edges h' g = Ok es → ∀ i e, unstyled_edges h es !! i = Some e → ∃ x y s a,
    joins h g e x y ∧ style_of h' x s ∧ edge_style_of h' e (standard_edge (CDarken (ns_colour s) (1 # 10)%Q) a) ∧
    (a == (1 # 2) * product (factor <$> take (Datatypes.S i) (values_of h (unstyled_edges h es))))%Q.
Proof.
  intros h g G D sh h' es Hr HG HD Hd Hsh Hne Hrun Hes i e. pose proof (reachable_WF h Hr) as W.
  rewrite (stylize_random g sh h G D) in Hrun by done. destruct (random_after h g G D sh W HG HD Hsh) as [HA HB].
  assert (Hfree : d_overwrite D = true ∨ ∀ r, in_graph h g r → ¬ node_styled h r).
  { destruct (d_overwrite D) eqn:Ho; [by left|right]. intros r Hi Hs. destruct (HB eq_refl Hne) as [h1 Hx]; [eauto|]. by rewrite (sbind_fail _ _ _ _ _ Hx) in Hrun. }
  destruct (HA Hfree Hne) as (h1 & used & cl & Hp & Hrun1 & W1 & Eg & Ee & Ees & HF & Hst). rewrite (sbind_step _ _ _ _ _ Hrun1) in Hrun.
  assert (HG1 : h_graphs h1 !! g = Some G) by (by rewrite Eg).
  destruct (edges_arrow h1 g G h' W1 HG1) as [S Har]; [|done|].
  { intros e' x y Hj. apply Hst. destruct (joins_in_graph h g e' x y W) as [? _]; [|done]. unfold joins in *. by rewrite <-Ee. }
  rewrite (graph_edges_run h' g G) in Hes; [|by eapply sa_WF|by rewrite (sa_graphs _ _ _ S)]. rewrite (all_edges_sa g h1 h' G S) in Hes. injection Hes as <-.
  assert (Hu : ∀ l, unstyled_edges h1 l = unstyled_edges h l) by (intros l; unfold unstyled_edges; by rewrite Ee).
  assert (Hv : ∀ l, values_of h1 l = values_of h l) by (intros l; unfold values_of; by rewrite Ee).
  intros Hi. specialize (Har i e). rewrite Hu, Hv in Har. destruct (Har Hi) as (x & y & s & a & Hj & ?). exists x, y, s, a. split; [|done]. unfold joins in *. by rewrite <-Ee.
Qed.

(** C70, instance: a -> b with value 2, a -> c with value 3, b -> c without, stylist
    'random' with the order unchanged: the sizes are 1, 3 and 3. *)
Lemma C70_arrow_ex_proof : ∃ h G D h' es, reachable h ∧ h_graphs h !! 0 = Some G ∧ g_disp G = Some D ∧ random_styling D ∧ (∀ l : list nref, id l ≡ₚ l) ∧ d_scheme D ≠ [] ∧
  stylize 0 id h = (h', Ok tt) ∧ graph_edges h' 0 = Ok es ∧ unstyled_edges h es = es ∧ length es = 3 ∧ es_arrow <$> h_es h' = [PFlt (2 # 2)%Q; PFlt (6 # 2)%Q; PFlt (6 # 2)%Q].
Proof.
  eexists (run [CNew false true (disp0 <| d_stylist := PStr "random" |>); CAddNode 0 (an "a") nargs0; CAddNode 0 (an "b") nargs0; CAddNode 0 (an "c") nargs0;
    CConnect 0 (an "a") (an "b") (eargs0 <| c_value := PInt 2 |>); CConnect 0 (an "a") (an "c") (eargs0 <| c_value := PInt 3 |>);
    CConnect 0 (an "b") (an "c") eargs0] empty_heap), _, _, _, _.
  split; [reach|]. split; [vm_compute; reflexivity|]. split; [vm_compute; reflexivity|]. split; [by repeat split|]. split; [done|]. split; [done|]. split; [vm_compute; reflexivity|].
  split; [vm_compute; reflexivity|]. split; [vm_compute; reflexivity|]. split; [done|]. vm_compute. reflexivity.
Qed.
