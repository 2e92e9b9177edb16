(** Which calls add and remove nodes and edges: lemmas for C81. *)
From Verif Require Export ProofC16 ProofC6.

(** graph [g] has the same nodes and edges *)
Definition same (g : gref) (h h' : heap) : Prop :=
  (∀ k r, named h' g k r ↔ named h g k r) ∧ (∀ e s t, joins h' g e s t ↔ joins h g e s t).
Lemma same_refl g h : same g h h.
Proof. by split. Qed.
Lemma same_trans g h1 h2 h3 : same g h1 h2 → same g h2 h3 → same g h1 h3.
Proof. intros [A1 A2] [B1 B2]. split; intros; [rewrite B1; apply A1|rewrite B2; apply A2]. Qed.

Lemma data_only_same' g h h' : data_only h h' → same g h h'.
Proof.
  intros [_ He Hg _ _]. split.
  - intros k r. unfold named. specialize (Hg g). destruct (h_graphs h !! g) as [G|], (h_graphs h' !! g) as [G'|]; try done.
    split; intros (G0 & [= <-] & Hin); (eexists; split; [done|]); congruence.
  - intros e s t. unfold joins. specialize (He e). destruct (h_edges h !! e) as [E|], (h_edges h' !! e) as [E'|]; try done.
    destruct He as (H1 & _ & H2 & H3 & _). split; intros (E0 & [= <-] & Hx); (eexists; split; [done|]);
      destruct_and!; split_and!; congruence.
Qed.
Lemma unchanged_same g h h' : unchanged g h h' → same g h h'.
Proof.
  intros [Hg _ He]. split.
  - intros k r. unfold named. by rewrite Hg.
  - intros e s t. split; intros (E & HE & Hx & ?); exists E; (split; [by apply (He e E Hx)|done]).
Qed.
Lemma extends_same g h h' : WF h → WF h' → is_Some (h_graphs h !! g) → extends h h' → same g h h'.
Proof.
  intros W W' [G HG] [Xn Xe Xg _]. pose proof (Xg g G HG) as HG'.
  assert (Hn : ∀ k r, named h' g k r ↔ named h g k r).
  { intros k r. unfold named. rewrite HG, HG'. done. }
  split; [done|]. intros e s t. split.
  - intros (E & HE & Hg & Hs & Ht). destruct (wf_live _ W' e E g HE Hg) as (s' & t' & Ns & Nt & u & Hs' & Ht' & HNs & HNt & Hgs & Hgt & Hu & Hin & _).
    assert (s' = s) as -> by congruence. assert (t' = t) as -> by congruence.
    destruct (wf_ngraph _ W' s Ns g HNs Hgs) as (G1 & HG1 & Hin1). assert (G1 = G) as -> by congruence.
    destruct (wf_gnodes _ W g G _ s HG Hin1) as (Ns0 & HNs0 & _). pose proof (Xn s Ns0 HNs0) as HNs'. assert (Ns0 = Ns) as -> by congruence.
    destruct (WF_out_entry h s Ns _ e W HNs0 Hin) as (g1 & E1 & ? & ? & ? & HE1 & _). pose proof (Xe e E1 HE1).
    assert (E1 = E) as -> by congruence. by exists E.
  - intros (E & HE & ?). exists E. split; [by apply Xe|done].
Qed.
Lemma put_node_same g h r N N' l w : h_nodes h !! r = Some N → same g h (put_node h r N' l w).
Proof. intros HN. by split. Qed.
Lemma put_edge_same g h e E E' l w : h_edges h !! e = Some E → e_graph E' = e_graph E → e_start E' = e_start E → e_end E' = e_end E →
  same g h (put_edge h e E' l w).
Proof.
  intros HE Hg Hs Ht. split; [done|]. intros e0 s t. unfold joins. simpl. destruct (decide (e0 = e)) as [->|].
  - rewrite list_lookup_insert by (by eapply lookup_lt_Some). rewrite HE.
    split; intros (E0 & [= <-] & ?); (eexists; split; [done|]); destruct_and!; split_and!; congruence.
  - by rewrite list_lookup_insert_ne.
Qed.
Lemma node_updated_same g h r N a w : h_nodes h !! r = Some N → same g h (node_updated h r N a w).1.
Proof.
  intros HN. unfold node_updated. destruct (optional_style _ _ _ _ _ _) as [[st l]|x]; simpl; [|by eapply put_node_same].
  destruct (n_frozen N && _); by eapply put_node_same.
Qed.
Lemma edge_updated_same g h e E a w : h_edges h !! e = Some E → same g h (edge_updated h e E a w).1.
Proof.
  intros HE. unfold edge_updated. destruct (optional_style _ _ _ _ _ _) as [[st l]|x]; simpl; [|by eapply put_edge_same].
  destruct (e_frozen E && _); by eapply put_edge_same.
Qed.

(** graph [g] has at least the nodes and edges it had *)
Definition grows (g : gref) (h h' : heap) : Prop :=
  (∀ k r, named h g k r → named h' g k r) ∧ (∀ e s t, joins h g e s t → joins h' g e s t).
Lemma same_grows g h h' : same g h h' → grows g h h'.
Proof. intros [A B]. split; intros; [by apply A|by apply B]. Qed.
Lemma grows_trans g h1 h2 h3 : grows g h1 h2 → grows g h2 h3 → grows g h1 h3.
Proof. intros [A1 A2] [B1 B2]. split; auto. Qed.

(** add_node under a name: the nodes that may come are filed under that name *)
Lemma add_node_adds g0 h g k a : WF h →
  grows g0 h (add_node g (AName k) a h).1 ∧
  (∀ k' r, named (add_node g (AName k) a h).1 g0 k' r → named h g0 k' r ∨ g0 = g ∧ k' = k) ∧
  (∀ e s t, joins (add_node g (AName k) a h).1 g0 e s t → joins h g0 e s t).
Proof.
  intros W. assert (Hsame : ∀ h', same g0 h h' → grows g0 h h' ∧ (∀ k' r, named h' g0 k' r → named h g0 k' r ∨ g0 = g ∧ k' = k) ∧
    (∀ e s t, joins h' g0 e s t → joins h g0 e s t)).
  { intros h' Hs. split; [by apply same_grows|]. destruct Hs as [A B]. split; intros; [left; by apply A|by apply B]. }
  destruct k as [s|z]; [|by apply Hsame, same_refl].
  destruct (h_graphs h !! g) as [G|] eqn:HG.
  2: { unfold add_node, sbind, sread, get_g. rewrite HG. by apply Hsame, same_refl. }
  destruct (dget (g_nodes G) (NStr s)) as [r|] eqn:Hr.
  - pose proof Hr as Hin. apply dget_Some_in in Hin.
    destruct (wf_gnodes _ W g G _ r HG Hin) as (N & HN & _ & HgN).
    rewrite (add_node_existing_eq h g G s r N) by done. destruct (lenient _); [|by apply Hsame, same_refl].
    apply Hsame. by apply node_updated_same.
  - rewrite (add_node_fresh_eq h g G s a) by done. cbv zeta. pose proof (lookup_lt_Some _ _ _ HG) as Hlt.
    destruct (restyled _ _ _ _) as [[st l]|x]; cbn [fst].
    + split; [split|split].
      * intros k r (G0 & HG0 & Hin). unfold named. simpl. destruct (decide (g0 = g)) as [->|].
        -- rewrite list_lookup_insert by done. eexists. split; [done|]. simpl. assert (G0 = G) as -> by congruence. set_solver.
        -- rewrite list_lookup_insert_ne by done. by exists G0.
      * intros e x t Hj. exact Hj.
      * intros k r (G0 & HG0 & Hin). simpl in HG0. destruct (decide (g0 = g)) as [->|].
        -- rewrite list_lookup_insert in HG0 by done. injection HG0 as <-. simpl in Hin.
           apply elem_of_app in Hin as [Hin|Hin]; [left; by exists G|]. right. apply elem_of_list_singleton in Hin as [= -> _]. done.
        -- rewrite list_lookup_insert_ne in HG0 by done. left. by exists G0.
      * intros e x t Hj. exact Hj.
    + apply Hsame. eapply data_only_same', data_only_graph; simpl; naive_solver.
Qed.
(** connect: the edges that may come join the two nodes named *)
Lemma connect_adds g0 h g x y a : WF h →
  grows g0 h (connect g x y a h).1 ∧
  (∀ k' r, named (connect g x y a h).1 g0 k' r → named h g0 k' r) ∧
  (∀ e s t, joins (connect g x y a h).1 g0 e s t → joins h g0 e s t ∨ g0 = g ∧ denotes h g x s ∧ denotes h g y t).
Proof.
  intros W. assert (Hsame : ∀ h', same g0 h h' → grows g0 h h' ∧ (∀ k' r, named h' g0 k' r → named h g0 k' r) ∧
    (∀ e s t, joins h' g0 e s t → joins h g0 e s t ∨ g0 = g ∧ denotes h g x s ∧ denotes h g y t)).
  { intros h' Hs. split; [by apply same_grows|]. destruct Hs as [A B]. split; intros; [by apply A|left; by apply B]. }
  destruct (get_node h g x) as [s|e] eqn:Hs; [|erewrite connect_fail by eauto; by apply Hsame, same_refl].
  destruct (get_node h g y) as [t|e] eqn:Ht; [|erewrite connect_fail by eauto; by apply Hsame, same_refl].
  destruct (get_node_Ok h g x s) as (G & Ns & HG & HNs & Hgs & _); [done..|].
  destruct (get_node_Ok h g y t) as (G' & Nt & HG' & HNt & Hgt & _); [done..|].
  rewrite (connect_eq h g x y a s t Ns Nt) by done. cbv zeta.
  destruct (dget _ _) as [e|] eqn:He.
  - destruct (h_edges h !! e) as [E|] eqn:HE; [|by apply Hsame, same_refl].
    destruct (lenient _); [|by apply Hsame, same_refl]. apply Hsame. by apply edge_updated_same.
  - destruct (restyled _ _ _ _) as [[st l]|x']; [|by apply Hsame, same_refl]. cbn [fst].
    apply get_node_denotes in Hs, Ht; [|done..]. split; [split|split].
    + done.
    + intros e x' t' (E & HE & Hx). exists E. split; [by apply lookup_app_l_Some|done].
    + done.
    + intros e x' t' (E & HE & Hg & Hx & Hy). simpl in HE. apply lookup_app_Some in HE as [HE|[_ HE]]; [left; by exists E|].
      apply list_lookup_singleton_Some in HE as [_ <-]. simpl in *. right. split; [congruence|]. split; congruence.
Qed.

(** append keeps what a graph has *)
Section keep.
  Context (g0 : gref) (h0 : heap).
  Definition KG (n m : nat) (h : heap) : Prop := Inv n m h ∧ grows g0 h0 h.
  Lemma KG_pres {A} n m (c : M A) : pres (Inv n m) c → (∀ h, Inv n m h → grows g0 h (c h).1) → pres (KG n m) c.
  Proof. intros H1 H2 h [HI HKh]. split; [by apply H1|]. eapply grows_trans; [done|by apply H2]. Qed.
  Lemma KG_add n m g k a : nsarg_lt n (a_style a) → pres (KG n m) (add_node g (AName k) a).
  Proof. intros Ha. apply KG_pres; [by apply Inv_add_node|]. intros h [W S]. by apply add_node_adds. Qed.
  Lemma KG_connect n m g x y a : nsarg_lt m (c_style a) → pres (KG n m) (connect g x y a).
  Proof. intros Ha. apply KG_pres; [by apply Inv_connect|]. intros h [W S]. by apply connect_adds. Qed.
  Lemma upd_disp_same h g f : same g0 h (upd_disp g f h).1.
  Proof.
    unfold upd_disp, sbind, sread, get_g. destruct (h_graphs h !! g) as [G|] eqn:HG; [|apply same_refl].
    destruct (g_disp G); [|apply same_refl]. by apply data_only_same', upd_g_data_only.
  Qed.
  Lemma KG_disp n m g f : (∀ D, d_overwrite (f D) = d_overwrite D) → pres (KG n m) (upd_disp g f).
  Proof. intros Hf. apply KG_pres; [by apply Inv_upd_disp|]. intros h _. apply same_grows, upd_disp_same. Qed.
  Lemma KG_strict n m g b : pres (KG n m) (upd_g g (λ G, G <| g_strict := b |>)).
  Proof. apply KG_pres; [by apply Inv_upd_strict|]. intros h _. by apply same_grows, data_only_same', upd_g_data_only. Qed.
  Lemma KG_ordering n m g b : pres (KG n m) (upd_g g (λ G, G <| g_ordering := b |>)).
  Proof. apply KG_pres; [by apply Inv_upd_ordering|]. intros h _. by apply same_grows, data_only_same', upd_g_data_only. Qed.
  Hint Resolve KG_add KG_connect KG_strict KG_ordering : pres.
  Hint Extern 1 (pres (KG _ _) (upd_disp _ _)) => (apply KG_disp; intros ?; reflexivity) : pres.
  Ltac presKG := repeat first [solve [eauto with pres] | pstep].
  Lemma KG_append_repr n m g d : repr_styles n m d → pres (KG n m) (append_repr g d).
  Proof.
    intros [Hn He]. unfold append_repr.
    repeat (apply pres_bind; [apply pres_when_some; intros ?; presKG|intros _]).
    apply pres_bind; [|intros _].
    { destruct (r_nodes d) as [nd|ns] eqn:Hd.
      - apply pres_iter. intros kv Hkv. presM. apply KG_add. by eapply Hn.
      - presKG. }
    apply pres_bind; [|intros ed].
    { apply pres_fold. intros b s Hs. specialize (He s Hs). destruct s; simpl in *; presKG. }
    repeat (apply pres_bind; [apply pres_when_some; intros ?; presKG|intros _]).
    apply pres_when_some; intros ?; presKG.
  Qed.
  Lemma KG_append n m g o : gobj_styles n m o → pres (KG n m) (graph_append g o).
  Proof.
    intros Ho h [[W S] Hk]. unfold graph_append, sbind, sread. destruct (obj_dict h o) as [d|x] eqn:Hd; [|done].
    assert (repr_styles (length (h_ns h)) (length (h_es h)) d) as Hs.
    { eapply obj_dict_styles; [done| |done]. destruct o; simpl in *; try done. by eapply repr_styles_mono; try apply S. }
    destruct (KG_append_repr _ _ g d Hs h) as [[W' S'] Hk']; [split; [split; [done|split; lia]|done]|].
    split; [|done]. split; [done|]. destruct S, S'. split; lia.
  Qed.
  Lemma KG_append_all n m g os : (∀ o, o ∈ os → gobj_styles n m o) → pres (KG n m) (append_all g os).
  Proof. intros Hos. apply pres_iter. intros o Ho. apply KG_append; auto. Qed.
End keep.
Lemma append_grows g0 h g o : WF h → obj_exists (length (h_ns h)) (length (h_es h)) o → grows g0 h (graph_append g o h).1.
Proof.
  intros W Ho. apply (KG_append g0 h (length (h_ns h)) (length (h_es h)) g o); [by apply obj_exists_styles|].
  split; [split; [done|split; lia]|by apply same_grows, same_refl].
Qed.
Lemma append_all_grows g0 h g os : WF h → (∀ o, o ∈ os → obj_exists (length (h_ns h)) (length (h_es h)) o) → grows g0 h (append_all g os h).1.
Proof.
  intros W Ho. apply (KG_append_all g0 h (length (h_ns h)) (length (h_es h)) g os); [intros; by apply obj_exists_styles, Ho|].
  split; [split; [done|split; lia]|by apply same_grows, same_refl].
Qed.

Lemma stylize_same g0 h g sh : WF h → same g0 h (stylize g sh h).1.
Proof. intros W. apply data_only_same', dpres_stylize. Qed.
Lemma add_graphs_same g0 h dflt f order g1 g2 : WF h → is_Some (h_graphs h !! g0) → same g0 h (add_graphs dflt f order g1 g2 h).1.
Proof.
  intros W Hex. pose proof (WF_add_graphs h dflt f order g1 g2 W) as W'.
  destruct (h_graphs h !! g1) as [G1|] eqn:HG1.
  2: { unfold add_graphs, sbind, sread, graph_repr, get_g. rewrite HG1. apply same_refl. }
  destruct (h_graphs h !! g2) as [G2|] eqn:HG2.
  2: { unfold add_graphs, sbind, sread. destruct (graph_repr h g1); [|apply same_refl]. unfold graph_repr, get_g. rewrite HG2. apply same_refl. }
  destruct (add_graphs_shape h dflt f order g1 g2 G1 G2 W HG1 HG2) as (h1 & Hx & [->|(D1 & D2 & HD1 & HD2 & ->)]).
  - by apply extends_same.
  - set (h1 := h <| h_graphs := _ |>) in *. assert (data_only h h1) as Hd.
    { eapply data_only_graph; [exact HG1|..]; simpl; naive_solver. }
    eapply same_trans; [by apply data_only_same'|]. apply extends_same; [exact (WF_data_only _ _ W Hd)|done| |done].
    unfold h1. simpl. destruct (decide (g0 = g1)) as [->|]; [rewrite list_lookup_insert by (by eapply lookup_lt_Some); by eexists|].
    by rewrite list_lookup_insert_ne.
Qed.
