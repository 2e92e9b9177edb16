(** Property C22: the printed tree. *)
From Verif Require Export ProofTree.
Local Open Scope string_scope.
Local Open Scope list_scope.

Section forest.
  Context (env : penv) (h : heap) (W : WF h) (g : gref) (U : list nref) (HU : ∀ x, x ∈ U ↔ in_graph h g x) (HUn : NoDup U).

  Lemma trees_run rs strs A : all_in h g rs → nonleaf h g A →
    ∃ f A', rfold (λ '(strs, added) r,
                let! (s, added) := tree_str (Datatypes.S (Datatypes.S (length U))) env h r "" added in
                Ok (strs ++ [s], added)) (strs, A) rs = Ok (strs ++ print_trees (lbl env h) f, A') ∧
      tops f = rs ∧ printed h g A f ∧ grows A A' (expanded f).
  Proof.
    revert strs A. induction rs as [|r rs IH]; intros strs A Hrs HA.
    { exists FNil, A. split_and!; [by rewrite app_nil_r|done|apply printed_nil|]. intros x. simpl. rewrite elem_of_nil. tauto. }
    apply all_in_cons in Hrs as [Hr Hrs]. cbn [rfold].
    destruct (tree_str_run env h W g U HU (Datatypes.S (Datatypes.S (length U))) r "" A Hr HA) as (b & below & A1 & -> & Hp1 & Hg1).
    { eapply Nat.le_lt_trans; [apply filter_length|]. lia. }
    cbn [rbind]. destruct (IH (strs ++ [lbl env h r +:+ (if b then "*" else "") +:+ NL +:+ print_below (lbl env h) "" below]) A1)
      as (f & A' & Hrun & Htops & Hp2 & Hg2); [done|by eapply grows_nonleaf|].
    exists (FCons r b below f), A'. rewrite Hrun. split_and!.
    - cbn [print_trees]. by rewrite <-app_assoc.
    - simpl. by rewrite Htops.
    - by eapply printed_cons.
    - intros x. rewrite (expanded_cons r b below f), elem_of_app, (Hg2 x), (Hg1 x). tauto.
  Qed.

  Lemma closed_lines f x y b : printed h g [] f → (x, b) ∈ lines f → adj h g x y → ∃ b', (y, b') ∈ lines f.
  Proof.
    intros Hp Hx Hxy. pose proof (pr_in _ _ _ _ Hp _ _ Hx) as Hgx.
    assert (Hy : y ∈ kids h x) by (by apply (elem_of_kids h W g)).
    apply (child_line h W g f x y); [apply Hp| |done|done].
    apply (pr_exp _ _ _ _ Hp); [|by intros Hk; rewrite Hk in Hy; apply elem_of_nil in Hy].
    destruct b; [|done]. apply elem_of_list_split in Hx as (pre & post & Heq).
    destruct (pr_star _ _ _ _ Hp _ _ _ Heq) as [?%elem_of_nil|?]; [done|]. rewrite Heq. apply elem_of_app. by left.
  Qed.
  Lemma path_lines f x y b : printed h g [] f → (x, b) ∈ lines f → path0 h g x y → ∃ b', (y, b') ∈ lines f.
  Proof.
    intros Hp Hx Hpath. revert b Hx. induction Hpath as [x|x z y Hxz _ IH]; intros b Hx; [by exists b|].
    destruct (closed_lines f x z b Hp Hx Hxz) as [b' ?]. by eapply IH.
  Qed.
  Lemma nonleaf_adj x : in_graph h g x → kids h x ≠ [] ↔ ∃ y, adj h g x y.
  Proof.
    intros Hx. setoid_rewrite <-(elem_of_kids h W g x); [|done]. destruct (kids h x) as [|y l].
    - split; [done|]. by intros [y ?%elem_of_nil].
    - split; [|done]. intros _. exists y. left.
  Qed.
  Lemma expanded_filter f : faithful h f → (∀ r b, (r, b) ∈ lines f → in_graph h g r) →
    expanded f = (filter (λ l, l.2 = false ∧ kids h l.1 ≠ []) (lines f)).*1.
  Proof.
    induction f as [|r b below IH1 next IH2]; [done|]. cbn [faithful lines expanded]. intros (Hb & Hf1 & Hf2) Hin.
    rewrite filter_cons, filter_app. assert (Hr : in_graph h g r) by (apply (Hin r b); left).
    assert (Hd : match below with FNil => [] | _ => [r] end = if decide (b = false ∧ kids h r ≠ []) then [r] else []).
    { destruct b.
      - subst below. rewrite decide_False by (by intros [? _]). done.
      - rewrite (kids_run h W g r Hr) in Hb. injection Hb as Hb. rewrite Hb.
        destruct below; cbn [tops]; [rewrite decide_False by (by intros [_ ?])|rewrite decide_True by done]; done. }
    rewrite Hd, IH1, IH2; [|done| |done|].
    - simpl. destruct (decide (b = false ∧ kids h r ≠ [])); simpl; by rewrite fmap_app.
    - intros x b0 ?. apply (Hin x b0). right. apply elem_of_app. by right.
    - intros x b0 ?. apply (Hin x b0). right. apply elem_of_app. by left.
  Qed.
  Lemma once_filter f r : printed h g [] f → r ∈ expanded f → kids h r ≠ [] → length (filter (λ l, l = (r, false)) (lines f)) = 1.
  Proof.
    intros Hp Hr Hk. pose proof (pr_nodup _ _ _ _ Hp) as Hnd. pose proof (pr_faithful _ _ _ _ Hp) as Hf.
    rewrite expanded_filter in Hnd, Hr; [|done|apply Hp..].
    assert (Hsub : filter (λ l, l = (r, false)) (lines f) = filter (λ l, l = (r, false)) (filter (λ l, l.2 = false ∧ kids h l.1 ≠ []) (lines f))).
    { rewrite list_filter_filter. apply list_filter_iff. intros [x b]. simpl. split; [intros [= -> ->]; done|tauto]. }
    rewrite Hsub. revert Hnd Hr. assert (Hall : Forall (λ l, l.2 = false) (filter (λ l, l.2 = false ∧ kids h l.1 ≠ []) (lines f))).
    { apply Forall_forall. intros l Hl%elem_of_list_filter. tauto. }
    revert Hall. generalize (filter (λ l, l.2 = false ∧ kids h l.1 ≠ []) (lines f)). clear -r. intros l.
    induction l as [|[x b] l IH]; [by intros _ _ ?%elem_of_nil|]. intros [Hb Hall]%Forall_cons [Hx Hnd]%NoDup_cons Hr. simpl in Hb. subst b.
    rewrite filter_cons. simpl in Hr. destruct (decide (x = r)) as [->|Hne].
    - rewrite decide_True by done. simpl. f_equal. destruct (filter _ l) as [|y k] eqn:Hy; [done|].
      exfalso. apply Hx. assert (y ∈ filter (λ l, l = (r, false)) l) as [-> Hyl]%elem_of_list_filter by (rewrite Hy; left).
      apply elem_of_list_fmap. by exists (r, false).
    - rewrite decide_False by congruence. apply IH; [done..|]. by apply elem_of_cons in Hr as [->|?].
  Qed.
End forest.

Lemma sum_permutation l k : l ≡ₚ k → sum_list l = sum_list k.
Proof. induction 1; simpl; lia. Qed.
Lemma sum_zero_filter {A} (f : A → nat) (l : list A) :
  sum_list (f <$> filter (λ x, f x ≠ 0) l) = sum_list (f <$> l).
Proof.
  induction l as [|x l IH]; [done|]. rewrite filter_cons. destruct (decide (f x ≠ 0)).
  - rewrite !fmap_cons. change (f x + sum_list (f <$> filter (λ x, f x ≠ 0) l) = f x + sum_list (f <$> l)). by rewrite IH.
  - rewrite !fmap_cons. change (sum_list (f <$> filter (λ x, f x ≠ 0) l) = f x + sum_list (f <$> l)). rewrite IH. lia.
Qed.

(** C22.  graph.get_tree_str() succeeds on every graph; the text is that of a forest
    of lines over the roots where below every unstarred line are the children of
    the node in order, every node has a line, every node with children has exactly
    one unstarred line, it comes before all its starred lines, and nothing is below
    starred lines; leaves are never starred; there is one line per root and per edge.
    (The trees are joined by an additional newline.) *)
Lemma C22_graph_tree_proof : ∀ env h g G, reachable h → h_graphs h !! g = Some G →
  ∃ lbl f rs es, (∀ r, in_graph h g r → node_label env h r = Ok (lbl r)) ∧
    roots h g = Ok rs ∧ graph_edges h g = Ok es ∧
    graph_tree_str env h g = Ok (String.concat NL (print_trees lbl f)) ∧
    tops f = rs ∧ faithful h f ∧
    (∀ x, in_graph h g x ↔ ∃ b, (x, b) ∈ lines f) ∧
    (∀ x y, adj h g x y → length (filter (λ l, l = (x, false)) (lines f)) = 1) ∧
    (∀ pre x post, lines f = pre ++ (x, true) :: post → (x, false) ∈ pre ∧ ∃ y, adj h g x y) ∧
    length (lines f) = length rs + length es.
Proof.
  intros env h g G Hre HG. pose proof (reachable_WF _ Hre) as W.
  destruct (C18_roots_proof h g G Hre HG) as (rs & Hrs & Hsub & Hnd & Hcov & _ & _ & _).
  set (U := dvals (g_nodes G)). assert (HU : ∀ x, x ∈ U ↔ in_graph h g x) by (intros; by apply elem_of_nodes).
  assert (HUn : NoDup U) by (by eapply NoDup_nodes).
  assert (Hin : all_in h g rs).
  { intros x Hx. apply HU. eapply elem_of_submseteq; [done|by apply sublist_submseteq]. }
  destruct (trees_run env h W g U HU rs [] []) as (f & A' & Hrun & Htops & Hp & _); [done|by intros x ?%elem_of_nil|].
  exists (lbl env h), f, rs, (all_edges h G).
  assert (Hexp : ∀ x, x ∈ expanded f ↔ in_graph h g x ∧ kids h x ≠ []).
  { intros x. split.
    - intros Hx. pose proof (expanded_line h f x (pr_faithful _ _ _ _ Hp) Hx) as Hl. split; [by eapply (pr_in _ _ _ _ Hp)|].
      eapply (pr_nonleaf _ _ _ _ Hp); [done|by right].
    - intros [Hx Hk]. assert (∃ b, (x, b) ∈ lines f) as [b Hb].
      { destruct (Hcov x Hx) as [Hxr|(r & Hr & _ & Hpath)].
        - rewrite <-Htops in Hxr. by apply top_line.
        - rewrite <-Htops in Hr. apply top_line in Hr as [b Hb]. eapply (path_lines h W g); [done..|]. by apply tc_rtc. }
      apply (pr_exp _ _ _ _ Hp); [|done]. destruct b; [|done].
      apply elem_of_list_split in Hb as (pre & post & Heq).
      destruct (pr_star _ _ _ _ Hp _ _ _ Heq) as [?%elem_of_nil|?]; [done|]. rewrite Heq. apply elem_of_app. by left. }
  split_and!.
  - intros r. by apply (lbl_run env h W g).
  - done.
  - by apply graph_edges_run.
  - unfold graph_tree_str. rewrite Hrs. cbn [rbind].
    assert (graph_fuel h g = Datatypes.S (length U)) as ->.
    { unfold graph_fuel, U, dvals. rewrite HG. by rewrite map_length. }
    rewrite Hrun. cbn [rbind]. done.
  - done.
  - apply Hp.
  - intros x. split; [|intros [b Hb]; by eapply (pr_in _ _ _ _ Hp)]. intros Hx.
    destruct (Hcov x Hx) as [Hxr|(r & Hr & _ & Hpath)].
    + rewrite <-Htops in Hxr. by apply top_line.
    + rewrite <-Htops in Hr. apply top_line in Hr as [b Hb]. eapply (path_lines h W g); [done..|]. by apply tc_rtc.
  - intros x y Hxy. assert (in_graph h g x) by (by destruct (adj_in_graph h g x y)).
    assert (kids h x ≠ []) by (apply (nonleaf_adj h W g); [done|eauto]).
    apply (once_filter h W g); [done| |done]. by apply Hexp.
  - intros pre x post Heq. assert ((x, true) ∈ lines f) as Hl by (rewrite Heq; apply elem_of_app; right; left).
    assert (in_graph h g x) by (by eapply (pr_in _ _ _ _ Hp)). split.
    + destruct (pr_star _ _ _ _ Hp _ _ _ Heq) as [?%elem_of_nil|?]; done.
    + apply (nonleaf_adj h W g); [done|]. eapply (pr_nonleaf _ _ _ _ Hp); [done|by left].
  - rewrite (count_lines h W g f); [|apply Hp..]. rewrite Htops. f_equal.
    assert (expanded f ≡ₚ filter (λ x, length (kids h x) ≠ 0) U) as Hperm.
    { apply NoDup_Permutation; [apply Hp|by apply NoDup_filter|]. intros x. rewrite Hexp, elem_of_list_filter, HU.
      assert (length (kids h x) ≠ 0 ↔ kids h x ≠ []) as ->; [by destruct (kids h x)|tauto]. }
    rewrite (sum_permutation _ _ (fmap_Permutation (λ x, length (kids h x)) _ _ Hperm)), (sum_zero_filter (λ x, length (kids h x))).
    transitivity (length (out_all h G)).
    + unfold out_all. rewrite <-sum_length_bind. f_equal. rewrite <-list_fmap_compose. apply list_fmap_ext. intros i x Hi%elem_of_list_lookup_2.
      simpl. apply (length_kids h g); [done|]. by apply HU.
    + apply Permutation_length, NoDup_Permutation; [by eapply NoDup_out_all|apply NoDup_nub|].
      intros e. by rewrite elem_of_out_all, elem_of_all_edges.
Qed.

(** C22.  node.get_tree_str() succeeds on every node; the lines are those of the
    nodes reachable from it. *)
Lemma C22_node_tree_proof : ∀ env h g r, reachable h → in_graph h g r →
  ∃ lbl f s, (∀ r, in_graph h g r → node_label env h r = Ok (lbl r)) ∧
    node_tree_str env h r = Ok s ∧ print_trees lbl f = [s] ∧ tops f = [r] ∧ faithful h f ∧
    (∀ x, path0 h g r x ↔ ∃ b, (x, b) ∈ lines f) ∧
    (∀ x y, path0 h g r x → adj h g x y → length (filter (λ l, l = (x, false)) (lines f)) = 1) ∧
    (∀ pre x post, lines f = pre ++ (x, true) :: post → (x, false) ∈ pre ∧ ∃ y, adj h g x y).
Proof.
  intros env h g r Hre Hr. pose proof (reachable_WF _ Hre) as W. pose proof Hr as (G & _ & HG & _).
  set (U := dvals (g_nodes G)). assert (HU : ∀ x, x ∈ U ↔ in_graph h g x) by (intros; by apply elem_of_nodes).
  assert (HUn : NoDup U) by (by eapply NoDup_nodes).
  destruct (tree_str_run env h W g U HU (Datatypes.S (Datatypes.S (length U))) r "" []) as (b & below & A1 & Hrun & Hp & Hg1).
  { done. } { by intros x ?%elem_of_nil. } { eapply Nat.le_lt_trans; [apply filter_length|]. lia. }
  set (f := FCons r b below FNil) in *.
  assert (Hreach : ∀ x b, (x, b) ∈ lines f → path0 h g r x).
  { assert (∀ f, faithful h f → (∀ x b, (x, b) ∈ lines f → in_graph h g x) → ∀ x b, (x, b) ∈ lines f → ∃ t, t ∈ tops f ∧ path0 h g t x) as H.
    { clear -W. induction f as [|r b below IH1 next IH2]; intros Hf Hin x b0; simpl; [by intros ?%elem_of_nil|]. destruct Hf as (Hb & Hf1 & Hf2).
      assert (Hr : in_graph h g r) by (apply (Hin r b); left).
      intros [[= -> ->]|[Hx|Hx]%elem_of_app]%elem_of_cons.
      - exists r. split; [left|apply rtc_refl].
      - destruct (IH1 Hf1) with (x := x) (b := b0) as (t & Ht & Hp); [|done|].
        { intros y c ?. apply (Hin y c). right. apply elem_of_app. by left. }
        exists r. split; [left|]. destruct b; [subst below; by apply elem_of_nil in Ht|].
        rewrite (kids_run h W g r Hr) in Hb. injection Hb as Hb. rewrite <-Hb in Ht. apply (elem_of_kids h W g) in Ht; [|done]. by eapply rtc_l.
      - destruct (IH2 Hf2) with (x := x) (b := b0) as (t & Ht & Hp); [|done|].
        { intros y c ?. apply (Hin y c). right. apply elem_of_app. by right. }
        exists t. split; [by right|done]. }
    intros x b0 Hx. destruct (H f (pr_faithful _ _ _ _ Hp) (pr_in _ _ _ _ Hp) x b0 Hx) as (t & Ht & ?).
    simpl in Ht. by apply elem_of_list_singleton in Ht as ->. }
  exists (lbl env h), f, (lbl env h r +:+ (if b then "*" else "") +:+ NL +:+ print_below (lbl env h) "" below).
  assert (Hline : ∀ x, path0 h g r x → ∃ b, (x, b) ∈ lines f).
  { intros x Hx. apply (path_lines h W g f r x b Hp); [|done]. left. }
  split_and!.
  - intros x. by apply (lbl_run env h W g).
  - unfold node_tree_str. rewrite (node_graph_run h W g) by done. cbn [rbind].
    assert (graph_fuel h g = Datatypes.S (length U)) as ->.
    { unfold graph_fuel, U, dvals. rewrite HG. by rewrite map_length. }
    rewrite Hrun. done.
  - done.
  - done.
  - apply Hp.
  - intros x. split; [apply Hline|]. intros [b0 ?]. by eapply Hreach.
  - intros x y Hx Hxy. assert (Hgx : in_graph h g x) by (by destruct (adj_in_graph h g x y)).
    assert (Hk : kids h x ≠ []) by (apply (nonleaf_adj h W g); [done|eauto]).
    apply (once_filter h W g); [done| |done].
    destruct (Hline x Hx) as [b0 Hb0]. apply (pr_exp _ _ _ _ Hp); [|done]. destruct b0; [|done].
    apply elem_of_list_split in Hb0 as (pre & post & Heq).
    destruct (pr_star _ _ _ _ Hp _ _ _ Heq) as [?%elem_of_nil|?]; [done|]. rewrite Heq. apply elem_of_app. by left.
  - intros pre x post Heq. assert ((x, true) ∈ lines f) as Hl by (rewrite Heq; apply elem_of_app; right; left).
    assert (in_graph h g x) by (by eapply (pr_in _ _ _ _ Hp)). split.
    + destruct (pr_star _ _ _ _ Hp _ _ _ Heq) as [?%elem_of_nil|?]; done.
    + apply (nonleaf_adj h W g); [done|]. eapply (pr_nonleaf _ _ _ _ Hp); [done|by left].
Qed.
Definition env0 : penv := MkPEnv (λ _, "q") (λ _, "c") (λ _ _, "x") (λ _, "y").
(** The sample graph: a with b twice, the cycle b, c, and the isolated node d. *)
Lemma C22_tree_ex_proof : reachable sample ∧ in_graph sample 0 0 ∧
  graph_tree_str env0 sample 0 = Ok ("a" +:+ NL +:+ "├ b" +:+ NL +:+ "│ └ c" +:+ NL +:+ "│   ├ b*" +:+ NL +:+
    "│   └ c*" +:+ NL +:+ "└ b*" +:+ NL +:+ NL +:+ "d" +:+ NL).
Proof. split; [apply sample_reachable|]. split; [|by vm_compute]. eexists _, (nm "a"). split; [done|]. left. Qed.
