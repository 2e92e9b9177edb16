(** Properties C12-C21: queries. *)
From Verif Require Export ProofQuery Samples.
Local Open Scope string_scope.
Local Open Scope list_scope.

Lemma denotes_get h g a r : WF h → denotes h g a r → get_node h g a = Ok r.
Proof. intros W. by apply get_node_denotes. Qed.
Lemma denotes_in_graph h g a r : denotes h g a r → in_graph h g r.
Proof. intros (k & (G & ? & ?) & _). by exists G, k. Qed.
Lemma nodes_run h g G : h_graphs h !! g = Some G → nodes h g = Ok (dvals (g_nodes G)).
Proof. intros HG. unfold nodes. by rewrite (get_g_Ok _ _ _ HG). Qed.
Lemma elem_of_nodes h g G x : h_graphs h !! g = Some G → x ∈ dvals (g_nodes G) ↔ in_graph h g x.
Proof.
  intros HG. rewrite elem_of_dvals. split; [intros [k Hk]; by exists G, k|]. intros (G' & k & HG' & Hk).
  assert (G' = G) as -> by congruence. eauto.
Qed.
Lemma NoDup_nodes h g G : WF h → h_graphs h !! g = Some G → NoDup (dvals (g_nodes G)).
Proof.
  intros W HG. unfold dvals. apply NoDup_fmap_2_strong.
  - intros [k1 r1] [k2 r2] H1 H2 Heq. simpl in Heq. subst r2. f_equal.
    destruct (wf_gnodes _ W g G k1 r1) as (N1 & ? & ? & ?); [done..|].
    destruct (wf_gnodes _ W g G k2 r1) as (N2 & ? & ? & ?); [done..|]. congruence.
  - eapply (NoDup_fmap_1 fst). by apply (wf_gkeys _ W g).
Qed.

(** * edges *)
Lemma rfold_run {A B} (f : B → A → res B) (p : B → A → B) (I : B → Prop) l b : I b →
  (∀ b x, I b → x ∈ l → f b x = Ok (p b x) ∧ I (p b x)) → rfold f b l = Ok (fold_left p l b) ∧ I (fold_left p l b).
Proof.
  revert b. induction l as [|x l IH]; intros b Hb Hf; [done|]. cbn [rfold fold_left].
  destruct (Hf b x) as [-> HI]; [done|left|]. simpl. apply IH; [done|]. intros b' y ? ?. apply Hf; [done|by right].
Qed.
Lemma fold_left_nub {A} `{EqDecision A} {B} (f : B → list A) l acc :
  fold_left (λ acc r, fold_left add_new (f r) acc) l acc = fold_left add_new (l ≫= f) acc.
Proof.
  revert acc. induction l as [|x l IH]; intros acc; [done|]. cbn [fold_left]. rewrite IH.
  change (mbind f (x :: l)) with (f x ++ mbind f l). by rewrite fold_left_app.
Qed.
Lemma fold_add_new_nub {A} `{EqDecision A} (l acc : list A) : fold_left add_new (nub l) acc = fold_left add_new l acc.
Proof.
  assert (∀ l' acc, fold_left add_new (fold_left add_new l l') acc = fold_left add_new l (fold_left add_new l' acc)) as H.
  { induction l as [|x l IH]; intros l' acc'; [done|]. cbn [fold_left]. rewrite IH. f_equal. unfold add_new at 2.
    destruct (decide (x ∈ l')) as [Hx|Hx].
    - unfold add_new at 2. rewrite decide_True; [done|]. apply elem_of_fold_add_new. by right.
    - by rewrite fold_left_app. }
  apply (H []).
Qed.
Definition edges_at (h : heap) (r : nref) : list eref := nub (outs h r ++ ins h r).
Definition all_edges (h : heap) (G : graph) : list eref := nub (dvals (g_nodes G) ≫= λ r, outs h r ++ ins h r).

Lemma node_edges_at h g r : WF h → in_graph h g r → node_edges h r = Ok (edges_at h r).
Proof.
  intros W (N & HN & _)%in_graph_node; [|done]. rewrite (node_edges_run h r N) by done.
  unfold edges_at, outs, ins. by rewrite HN.
Qed.
Lemma edges_at_joins h g r e : WF h → in_graph h g r → e ∈ outs h r ++ ins h r ↔ ∃ y, joins h g e r y ∨ joins h g e y r.
Proof.
  intros W Hr. rewrite elem_of_app, (outs_joins h W g), (ins_joins h W g) by done. naive_solver.
Qed.
Lemma joins_edges_of h g e x y : joins h g e x y → edges_of h g e.
Proof. intros (E & ? & ? & _). by exists E. Qed.
Lemma graph_edges_run h g G : WF h → h_graphs h !! g = Some G → graph_edges h g = Ok (all_edges h G).
Proof.
  intros W HG. unfold graph_edges. rewrite (nodes_run _ _ _ HG). cbn [rbind].
  destruct (rfold_run (λ acc r, let! es := node_edges h r in edge_collect h acc es)
    (λ acc r, fold_left add_new (outs h r ++ ins h r) acc) (λ acc, ∀ e, e ∈ acc → edges_of h g e) (dvals (g_nodes G)) []) as [-> _].
  - by intros e ?%elem_of_nil.
  - intros acc r Hacc Hr%(elem_of_nodes h g); [|done]. rewrite (node_edges_at h g r) by done. cbn [rbind].
    assert (Hat : ∀ e, e ∈ outs h r ++ ins h r → edges_of h g e).
    { intros e He. apply (edges_at_joins h g r e W Hr) in He as (y & [?|?]); by eapply joins_edges_of. }
    rewrite (edge_collect_live h g (edges_at h r) acc W Hacc).
    + unfold edges_at. rewrite fold_add_new_nub. split; [done|].
      intros e He. apply elem_of_fold_add_new in He. destruct He; auto.
    + intros e He. apply Hat. unfold edges_at in He. by rewrite elem_of_nub in He.
  - rewrite fold_left_nub. done.
Qed.
Lemma elem_of_all_edges h g G e : WF h → h_graphs h !! g = Some G → e ∈ all_edges h G ↔ ∃ x y, joins h g e x y.
Proof.
  intros W HG. unfold all_edges. rewrite elem_of_nub, elem_of_list_bind. split.
  - intros (r & He & Hr). apply (elem_of_nodes h g) in Hr; [|done]. apply (edges_at_joins h g r e W Hr) in He as (y & [?|?]); eauto.
  - intros (x & y & Hj). exists x. destruct (joins_in_graph h g e x y) as [Hx _]; [done..|].
    split; [|by apply (elem_of_nodes h g)]. apply (edges_at_joins h g); eauto.
Qed.

(** C12.  graph.edges lists every edge of the graph once. *)
Lemma C12_edges_proof : ∀ h g G, reachable h → h_graphs h !! g = Some G →
  ∃ es, graph_edges h g = Ok es ∧ NoDup es ∧ ∀ e, e ∈ es ↔ ∃ x y, joins h g e x y.
Proof.
  intros h g G W%reachable_WF HG. exists (all_edges h G). split; [by apply graph_edges_run|].
  split; [apply NoDup_nub|]. intros e. by apply elem_of_all_edges.
Qed.

Definition id_of (h : heap) (e : eref) : option edge_id :=
  match get_edge_id h e with Ok i => Some i | Err _ => None end.
Lemma joins_id h g e x y : WF h → joins h g e x y →
  ∃ E Nx Ny, h_edges h !! e = Some E ∧ h_nodes h !! x = Some Nx ∧ h_nodes h !! y = Some Ny ∧
    get_edge_id h e = Ok (n_id Nx, n_id Ny, e_raw E).
Proof.
  intros W (E & HE & Hg & Hs & Ht).
  destruct (get_edge_id_live h e E g) as (s & t & Ns & Nt & u & ? & ? & ? & ? & ? & ? & Hu & Hid & _); [done..|].
  assert (s = x) as -> by congruence. assert (t = y) as -> by congruence. exists E, Ns, Nt. rewrite Hu. done.
Qed.
Definition out_all (h : heap) (G : graph) : list eref := dvals (g_nodes G) ≫= outs h.
Lemma elem_of_out_all h g G e : WF h → h_graphs h !! g = Some G → e ∈ out_all h G ↔ ∃ x y, joins h g e x y.
Proof.
  intros W HG. unfold out_all. rewrite elem_of_list_bind. split.
  - intros (r & He & Hr). apply (elem_of_nodes h g) in Hr; [|done]. apply (outs_joins h W g) in He as (y & ?); eauto.
  - intros (x & y & Hj). exists x. destruct (joins_in_graph h g e x y) as [Hx _]; [done..|].
    split; [|by apply (elem_of_nodes h g)]. apply (outs_joins h W g); eauto.
Qed.
Lemma NoDup_bind {A B} (f : A → list B) (l : list A) : NoDup l → (∀ x, x ∈ l → NoDup (f x)) →
  (∀ x y b, x ∈ l → y ∈ l → b ∈ f x → b ∈ f y → x = y) → NoDup (l ≫= f).
Proof.
  induction l as [|x l IH]; intros Hl Hf Hd; [constructor|]. apply NoDup_cons in Hl as [Hx Hl].
  change (NoDup (f x ++ (l ≫= f))). apply NoDup_app. split_and!.
  - apply Hf. left.
  - intros b Hb (y & Hb' & Hy)%elem_of_list_bind. apply Hx. rewrite (Hd x y b); [done|left|by right|done|done].
  - apply IH; [done|intros; apply Hf; by right|]. intros y z b ? ?. apply Hd; by right.
Qed.
Lemma NoDup_out_all h g G : WF h → h_graphs h !! g = Some G → NoDup (out_all h G).
Proof.
  intros W HG. unfold out_all. apply NoDup_bind.
  - by eapply NoDup_nodes.
  - intros x _. by apply NoDup_outs.
  - intros x y e Hx Hy. apply (elem_of_nodes h g) in Hx; [|done]. apply (elem_of_nodes h g) in Hy; [|done].
    rewrite (outs_joins h W g x), (outs_joins h W g y) by done. intros [t1 H1] [t2 H2]. by destruct (joins_fun _ _ _ _ _ _ _ H1 H2).
Qed.
Lemma NoDup_in_all h g G : WF h → h_graphs h !! g = Some G → NoDup (dvals (g_nodes G) ≫= ins h).
Proof.
  intros W HG. apply NoDup_bind.
  - by eapply NoDup_nodes.
  - intros x _. by apply NoDup_ins.
  - intros x y e Hx Hy. apply (elem_of_nodes h g) in Hx; [|done]. apply (elem_of_nodes h g) in Hy; [|done].
    rewrite (ins_joins h W g x), (ins_joins h W g y) by done. intros [t1 H1] [t2 H2]. by destruct (joins_fun _ _ _ _ _ _ _ H1 H2).
Qed.
Lemma elem_of_in_all h g G e : WF h → h_graphs h !! g = Some G → e ∈ (dvals (g_nodes G) ≫= ins h) ↔ ∃ x y, joins h g e x y.
Proof.
  intros W HG. rewrite elem_of_list_bind. split.
  - intros (r & He & Hr). apply (elem_of_nodes h g) in Hr; [|done]. apply (ins_joins h W g) in He as (y & ?); eauto.
  - intros (x & y & Hj). exists y. destruct (joins_in_graph h g e x y) as [_ Hx]; [done..|].
    split; [|by apply (elem_of_nodes h g)]. apply (ins_joins h W g); eauto.
Qed.

Lemma has_id_get h g e i : has_id h g e i → get_edge_id h e = Ok i.
Proof.
  intros (x & y & E & Nx & Ny & (E' & HE' & Hg & Hs & Ht) & HE & HNx & HNy & ->). assert (E' = E) as -> by congruence.
  unfold get_edge_id. rewrite (get_e_Ok _ _ _ HE). cbn [rbind]. rewrite Hs, Ht, (get_n_Ok _ _ _ HNx), (get_n_Ok _ _ _ HNy). done.
Qed.
Lemma has_id_inj h g e1 e2 i : WF h → has_id h g e1 i → has_id h g e2 i → e1 = e2.
Proof.
  intros W H1 H2. pose proof (has_id_get _ _ _ _ H1). pose proof (has_id_get _ _ _ _ H2).
  destruct H1 as (? & ? & ? & ? & ? & (E1 & ? & ? & _) & _). destruct H2 as (? & ? & ? & ? & ? & (E2 & ? & ? & _) & _).
  eapply (edge_id_inj h g e1 e2 E1 E2); done.
Qed.
Lemma edges_dict_run h g G : WF h → h_graphs h !! g = Some G →
  ∃ d, edges_dict h g = Ok d ∧ NoDup (dkeys d) ∧ dvals d = out_all h G ∧ ∀ k e, (k, e) ∈ d → has_id h g e k.
Proof.
  intros W HG. unfold edges_dict. rewrite (nodes_run _ _ _ HG). cbn [rbind].
  pose proof (NoDup_out_all h g G W HG) as HND. unfold out_all in *.
  assert (Hall : ∀ r, r ∈ dvals (g_nodes G) → in_graph h g r) by (intros r; by apply elem_of_nodes).
  assert (H : ∀ ns (d : dict edge_id eref), (∀ r, r ∈ ns → in_graph h g r) → NoDup (dvals d ++ (ns ≫= outs h)) → NoDup (dkeys d) →
    (∀ k e, (k, e) ∈ d → has_id h g e k) →
    ∃ d', rfold (λ acc r, let! es := outward_edges h r in rfold (λ acc e, let! i := get_edge_id h e in Ok (dset acc i e)) acc es) d ns = Ok d'
      ∧ NoDup (dkeys d') ∧ dvals d' = dvals d ++ (ns ≫= outs h) ∧ ∀ k e, (k, e) ∈ d' → has_id h g e k).
  { clear HND. intros ns. induction ns as [|r ns IH]; intros d Hns HND Hk Hid.
    - exists d. split_and!; try done. by rewrite app_nil_r.
    - cbn [rfold]. destruct (in_graph_lookup h W g r) as (N & HN & _); [apply Hns; left|].
      assert (outward_edges h r = Ok (outs h r)) as ->.
      { rewrite (outward_edges_run h r N W HN). unfold outs. by rewrite HN. }
      cbn [rbind]. change ((r :: ns) ≫= outs h) with (outs h r ++ (ns ≫= outs h)) in *.
      assert (H1 : ∀ es (d : dict edge_id eref), (∀ e, e ∈ es → ∃ y, joins h g e r y) → NoDup (dvals d ++ es) → NoDup (dkeys d) →
        (∀ k e, (k, e) ∈ d → has_id h g e k) →
        ∃ d', rfold (λ acc e, let! i := get_edge_id h e in Ok (dset acc i e)) d es = Ok d'
          ∧ NoDup (dkeys d') ∧ dvals d' = dvals d ++ es ∧ ∀ k e, (k, e) ∈ d' → has_id h g e k).
      { clear - W. intros es. induction es as [|e es IH]; intros d Hes HND Hk Hid.
        - exists d. rewrite app_nil_r. done.
        - cbn [rfold]. destruct (Hes e) as (y & Hj); [left|].
          destruct (joins_id h g e r y W Hj) as (E & Nx & Ny & HE & HNx & HNy & ->). cbn [rbind].
          set (i := (n_id Nx, n_id Ny, e_raw E)).
          assert (Hf : i ∉ dkeys d).
          { intros (e' & He')%elem_of_dkeys. assert (e' = e) as ->.
            { eapply has_id_inj; [done|by apply Hid|]. exists r, y, E, Nx, Ny. done. }
            apply NoDup_app in HND as (_ & HD & _). apply (HD e); [|left]. apply elem_of_dvals. eauto. }
          rewrite dset_fresh by done. 
          destruct (IH (d ++ [(i, e)])) as (d' & Hd' & ? & Hv & ?).
          + intros e' ?. apply Hes. by right.
          + rewrite dvals_app. simpl. by rewrite <- app_assoc.
          + by apply NoDup_dkeys_snoc.
          + intros k e' [?|[= -> ->]%elem_of_list_singleton]%elem_of_app; [by apply Hid|].
            exists r, y, E, Nx, Ny. done.
          + exists d'. split_and!; try done. rewrite Hv, dvals_app. simpl. by rewrite <- app_assoc. }
      destruct (H1 (outs h r) d) as (d1 & -> & ? & Hv1 & ?).
      + intros e He. apply (outs_joins h W g); [|done]. apply Hns. left.
      + rewrite app_assoc in HND. by apply NoDup_app in HND as [? _].
      + done.
      + done.
      + cbn [rbind]. destruct (IH d1) as (d' & Hd' & ? & Hv & ?).
        * intros ? ?. apply Hns. by right.
        * rewrite Hv1. by rewrite <- app_assoc.
        * done.
        * done.
        * exists d'. split_and!; try done. rewrite Hv, Hv1. by rewrite <- app_assoc. }
  destruct (H (dvals (g_nodes G)) []) as (d & Hd & ? & Hv & ?); [done|done|constructor|by intros ? ? ?%elem_of_nil|].
  by exists d.
Qed.

(** C12.  graph.edges_dict has one entry per edge, under its id. *)
Lemma C12_edges_dict_proof : ∀ h g G, reachable h → h_graphs h !! g = Some G →
  ∃ d es, edges_dict h g = Ok d ∧ graph_edges h g = Ok es ∧ NoDup d.*1 ∧ d.*2 ≡ₚ es ∧
    ∀ k e, (k, e) ∈ d ↔ has_id h g e k.
Proof.
  intros h g G W%reachable_WF HG. destruct (edges_dict_run h g G W HG) as (d & Hd & Hk & Hv & Hid).
  assert (Hv' : d.*2 = out_all h G) by exact Hv.
  exists d, (all_edges h G). split_and!; [done|by apply graph_edges_run|done| |].
  - rewrite Hv'. apply NoDup_Permutation; [by eapply NoDup_out_all|apply NoDup_nub|].
    intros e. by rewrite elem_of_out_all, elem_of_all_edges.
  - intros k e. split; [apply Hid|]. intros Hi. pose proof Hi as (x & y & _ & _ & _ & Hj & _).
    assert (e ∈ d.*2) as He by (rewrite Hv'; apply (elem_of_out_all h g); eauto).
    apply elem_of_list_fmap in He as ([k' e'] & -> & He). simpl in *. pose proof (Hid _ _ He) as Hi'.
    apply has_id_get in Hi, Hi'. assert (k' = k) as -> by congruence. done.
Qed.
(** The sample graph has a self-loop, two parallel edges and a cycle. *)
Lemma C12_edges_ex_proof : reachable sample ∧ graph_edges sample 0 = Ok [0; 3; 1; 2; 4] ∧
  edges_dict sample 0 = Ok [((nm "a", nm "b", RId None), 0); ((nm "a", nm "b", RId (Some (nm "x"))), 3);
    ((nm "b", nm "c", RId None), 1); ((nm "c", nm "b", RId None), 2); ((nm "c", nm "c", RId None), 4)].
Proof. split; [apply sample_reachable|]. by vm_compute. Qed.

(** * parents and children *)
Lemma length_filter_omap {A B} `{EqDecision B} (f : A → option B) (b : B) (l : list A) :
  length (filter (λ y, y = b) (omap f l)) = length (filter (λ x, f x = Some b) l).
Proof.
  induction l as [|x l IH]; [done|]. cbn [omap list_omap]. rewrite filter_cons.
  destruct (f x) as [y|] eqn:Hf.
  - rewrite filter_cons. destruct (decide (y = b)) as [->|Hne].
    + rewrite decide_True by done. simpl. by rewrite IH.
    + rewrite decide_False by congruence. done.
  - rewrite decide_False by done. done.
Qed.
Lemma length_kids h g r : WF h → in_graph h g r → length (kids h r) = length (outs h r).
Proof.
  intros W Hr. unfold kids.
  assert (∀ e, e ∈ outs h r → is_Some (end_of h e)) as H.
  { intros e He. apply (outs_joins h W g) in He as (y & Hj); [|done]. rewrite (joins_end h g e r y) by done. eauto. }
  revert H. generalize (outs h r). induction l as [|e l IH]; intros H; [done|]. cbn [omap list_omap].
  destruct (H e) as [y ->]; [left|]. simpl. f_equal. apply IH. intros; apply H; by right.
Qed.
Lemma length_pars h g r : WF h → in_graph h g r → length (pars h r) = length (ins h r).
Proof.
  intros W Hr. unfold pars.
  assert (∀ e, e ∈ ins h r → is_Some (start_of h e)) as H.
  { intros e He. apply (ins_joins h W g) in He as (y & Hj); [|done]. rewrite (joins_start h g e y r) by done. eauto. }
  revert H. generalize (ins h r). induction l as [|e l IH]; intros H; [done|]. cbn [omap list_omap].
  destruct (H e) as [y ->]; [left|]. simpl. f_equal. apply IH. intros; apply H; by right.
Qed.

(** C13.  Occurrences of b among the children of a = occurrences of a among the
    parents of b = number of edges from a to b; for the methods of the graph and
    of the nodes. *)
Lemma C13_dual_proof : ∀ h g x y a b, reachable h → denotes h g x a → denotes h g y b →
  ∃ es cs ps, NoDup es ∧ (∀ e, e ∈ es ↔ joins h g e a b) ∧
    get_children h g x = Ok cs ∧ node_children h a = Ok cs ∧
    get_parents h g y = Ok ps ∧ node_parents h b = Ok ps ∧
    length (filter (λ z, z = b) cs) = length es ∧ length (filter (λ z, z = a) ps) = length es.
Proof.
  intros h g x y a b W%reachable_WF Hx Hy.
  pose proof (denotes_in_graph _ _ _ _ Hx) as Ha. pose proof (denotes_in_graph _ _ _ _ Hy) as Hb.
  set (es := filter (λ e, end_of h e = Some b) (outs h a)).
  assert (Hes : ∀ e, e ∈ es ↔ joins h g e a b).
  { intros e. unfold es. rewrite elem_of_list_filter, (outs_joins h W g) by done. split.
    - intros [He [t Hj]]. rewrite (joins_end h g e a t Hj) in He. by simplify_eq.
    - intros Hj. split; [by eapply joins_end|eauto]. }
  assert (NoDup es) by (apply NoDup_filter, NoDup_outs; done).
  exists es, (kids h a), (pars h b).
  split_and!; try done.
  - apply (get_children_run h W). by apply denotes_get.
  - by apply (node_children_run h W g).
  - apply (get_parents_run h W). by apply denotes_get.
  - by apply (node_parents_run h W g).
  - unfold kids. by rewrite length_filter_omap.
  - unfold pars. rewrite length_filter_omap. apply Permutation_length, NoDup_Permutation; [apply NoDup_filter, NoDup_ins; done|done|].
    intros e. rewrite Hes, elem_of_list_filter, (ins_joins h W g) by done. split.
    + intros [He [s Hj]]. rewrite (joins_start h g e s b Hj) in He. by simplify_eq.
    + intros Hj. split; [by eapply joins_start|eauto].
Qed.
(** C13.  The counts and the has_ predicates agree with the lists. *)
Lemma C13_counts_proof : ∀ h g x a, reachable h → denotes h g x a →
  ∃ cs ps, get_children h g x = Ok cs ∧ get_parents h g x = Ok ps ∧
    num_children h g x = Ok (length cs) ∧ num_parents h g x = Ok (length ps) ∧
    (∃ b, has_children h g x = Ok b ∧ node_has_children h a = Ok b ∧ (b = true ↔ ∃ t, adj h g a t)) ∧
    (∃ b, has_parents h g x = Ok b ∧ node_has_parents h a = Ok b ∧ (b = true ↔ ∃ s, adj h g s a)).
Proof.
  intros h g x a W%reachable_WF Hx. pose proof (denotes_in_graph _ _ _ _ Hx) as Ha.
  exists (kids h a), (pars h a).
  assert (Hc : get_children h g x = Ok (kids h a)) by (apply (get_children_run h W); by apply denotes_get).
  assert (Hp : get_parents h g x = Ok (pars h a)) by (apply (get_parents_run h W); by apply denotes_get).
  split_and!; [done|done|by unfold num_children; rewrite Hc|by unfold num_parents; rewrite Hp| |].
  - exists (Nat.ltb 0 (length (kids h a))). split_and!.
    + unfold has_children, num_children. by rewrite Hc.
    + unfold node_has_children, has_children, num_children.
      rewrite (node_graph_run h W g) by done. cbn [rbind]. by rewrite (get_children_node h W) by done.
    + rewrite Nat.ltb_lt. setoid_rewrite <-(elem_of_kids h W g a); [|done]. destruct (kids h a) as [|t l]; simpl.
      * split; [lia|]. by intros [t ?%elem_of_nil].
      * split; [|lia]. intros _. exists t. left.
  - exists (Nat.ltb 0 (length (pars h a))). split_and!.
    + unfold has_parents, num_parents. by rewrite Hp.
    + unfold node_has_parents. rewrite (node_parents_run h W g) by done. by destruct (pars h a).
    + rewrite Nat.ltb_lt. setoid_rewrite <-(elem_of_pars h W g a); [|done]. destruct (pars h a) as [|t l]; simpl.
      * split; [lia|]. by intros [t ?%elem_of_nil].
      * split; [|lia]. intros _. exists t. left.
Qed.
Lemma sum_length_bind {A B} (f : A → list B) l : sum_list (length <$> (f <$> l)) = length (l ≫= f).
Proof. induction l as [|x l IH]; [done|]. change (length (f x) + sum_list (length <$> (f <$> l)) = length (f x ++ (l ≫= f))). rewrite IH. by rewrite app_length. Qed.
(** C13.  The sums over all nodes are the number of edges. *)
Lemma C13_sums_proof : ∀ h g G, reachable h → h_graphs h !! g = Some G →
  ∃ cs ps es, graph_edges h g = Ok es ∧
    rmap (λ kr, num_children h g (ANode kr.2)) (g_nodes G) = Ok cs ∧
    rmap (λ kr, num_parents h g (ANode kr.2)) (g_nodes G) = Ok ps ∧
    sum_list cs = length es ∧ sum_list ps = length es.
Proof.
  intros h g G W%reachable_WF HG.
  assert (Hin : ∀ kr, kr ∈ g_nodes G → in_graph h g kr.2).
  { intros [k r] Hkr. by exists G, k. }
  exists ((λ kr, length (outs h kr.2)) <$> g_nodes G), ((λ kr, length (ins h kr.2)) <$> g_nodes G), (all_edges h G).
  split_and!.
  - by apply graph_edges_run.
  - apply rmap_total. intros kr Hkr. unfold num_children. rewrite (get_children_node h W) by auto. cbn [rbind].
    by rewrite (length_kids h g) by auto.
  - apply rmap_total. intros kr Hkr. unfold num_parents. rewrite (get_parents_node h W) by auto. cbn [rbind].
    by rewrite (length_pars h g) by auto.
  - transitivity (length (out_all h G)).
    + unfold out_all, dvals. rewrite <-sum_length_bind. f_equal.
      rewrite <-!list_fmap_compose. done.
    + apply Permutation_length, NoDup_Permutation; [by eapply NoDup_out_all|apply NoDup_nub|].
      intros e. by rewrite elem_of_out_all, elem_of_all_edges.
  - transitivity (length (dvals (g_nodes G) ≫= ins h)).
    + unfold dvals. rewrite <-sum_length_bind. f_equal. rewrite <-!list_fmap_compose. done.
    + apply Permutation_length, NoDup_Permutation; [by eapply NoDup_in_all|apply NoDup_nub|].
      intros e. by rewrite elem_of_in_all, elem_of_all_edges.
Qed.
(** In the sample, node b is a child of a twice. *)
Lemma C13_dual_ex_proof : reachable sample ∧ denotes sample 0 (an "a") 0 ∧ denotes sample 0 (ANode 1) 1 ∧
  get_children sample 0 (an "a") = Ok [1; 1] ∧ get_parents sample 0 (ANode 1) = Ok [0; 2; 0].
Proof.
  split; [apply sample_reachable|]. split_and!; [| |by vm_compute..].
  - exists (nm "a"). split; [|by left]. eexists. split; [done|]. left.
  - exists (nm "b"). split; [|]. { eexists. split; [done|]. right. left. } right. eexists _, _. done.
Qed.
