(** How objects evolve along a history. *)
From Verif Require Export ProofStep.

(** no style assignment may replace an existing style of objects of [og] *)
Definition locked (h : heap) (og : option gref) : Prop :=
  ∀ g G, og = Some g → h_graphs h !! g = Some G → d_overwrite <$> g_disp G ≠ Some true.

Record nkeep (fr : Prop) (h : heap) (N N' : node) : Prop := {
  nk_id : n_id N' = n_id N;
  nk_index : n_index N' = n_index N;
  nk_tooltip : n_tooltip N' = n_tooltip N;
  nk_graph : n_graph N' = n_graph N ∨ n_graph N' = None;
  nk_frozen : fr → n_frozen N = true → n_frozen N' = true ∧ n_value N' = n_value N;
  nk_style : ∀ s, n_style N = Some s → locked h (n_graph N) → n_style N' = Some s }.
Record ekeep (fr : Prop) (h : heap) (N N' : edge) : Prop := {
  ek_raw : e_raw N' = e_raw N ∨ e_raw N' = RDead;
  ek_start : e_start N' = e_start N ∨ e_start N' = None;
  ek_end : e_end N' = e_end N ∨ e_end N' = None;
  ek_tooltip : e_tooltip N' = e_tooltip N;
  ek_graph : e_graph N' = e_graph N ∨ e_graph N' = None;
  ek_same : is_Some (e_graph N') → e_raw N' = e_raw N ∧ e_start N' = e_start N ∧ e_end N' = e_end N;
  ek_frozen : fr → e_frozen N = true → e_frozen N' = true ∧ e_value N' = e_value N;
  ek_style : ∀ s, e_style N = Some s → locked h (e_graph N) → e_style N' = Some s }.

Record evo (fr : nref + eref → Prop) (ix : bool) (h h' : heap) : Prop := {
  ev_node : ∀ r N, h_nodes h !! r = Some N → ∃ N', h_nodes h' !! r = Some N' ∧ nkeep (fr (inl r)) h N N';
  ev_edge : ∀ r N, h_edges h !! r = Some N → ∃ N', h_edges h' !! r = Some N' ∧ ekeep (fr (inr r)) h N N';
  ev_graph : ∀ g G, h_graphs h !! g = Some G → ∃ G', h_graphs h' !! g = Some G' ∧
    (g_counter G ≤ g_counter G')%Z ∧ d_overwrite <$> g_disp G' = d_overwrite <$> g_disp G;
  ev_fresh : ix = true → ∀ r N' g G, h_nodes h' !! r = Some N' → h_nodes h !! r = None →
    n_graph N' = Some g → h_graphs h !! g = Some G → (g_counter G ≤ n_index N')%Z }.

Lemma nkeep_refl fr h N : nkeep fr h N N.
Proof. split; auto. Qed.
Lemma ekeep_refl fr h N : ekeep fr h N N.
Proof. split; auto. Qed.
#[global] Hint Resolve nkeep_refl ekeep_refl : core.

Section evo.
  Context (fr : nref + eref → Prop) (ix : bool).
  Notation evo := (evo fr ix).

  Lemma evo_refl h : evo h h.
  Proof.
    split; eauto.
    - intros g G HG. exists G. split_and!; [done|lia|done].
    - intros. congruence.
  Qed.

  Lemma locked_evo h h' og og' : WF h → evo h h' → (∀ g, og = Some g → is_Some (h_graphs h !! g)) →
    og' = og ∨ og' = None → locked h og → locked h' og'.
  Proof.
    intros W He Hog [->| ->] Hl g G Hg HG; [|done].
    destruct (Hog g Hg) as [G0 HG0]. destruct (ev_graph _ _ _ _ He g G0 HG0) as (G' & HG' & _ & Hd).
    assert (G' = G) as -> by congruence. rewrite Hd. by eapply Hl.
  Qed.
  Lemma graph_of_node h r N g : WF h → h_nodes h !! r = Some N → n_graph N = Some g → is_Some (h_graphs h !! g).
  Proof. intros W HN Hg. destruct (wf_ngraph _ W r N g HN Hg) as (G & HG & _). eauto. Qed.
  Lemma graph_of_edge h r N g : WF h → h_edges h !! r = Some N → e_graph N = Some g → is_Some (h_graphs h !! g).
  Proof.
    intros W HN Hg. destruct (wf_live _ W r N g HN Hg) as (s & t & Ns & Nt & u & _ & _ & HNs & _ & Hgs & _).
    by eapply graph_of_node.
  Qed.

  Lemma evo_trans h1 h2 h3 : WF h1 → WF h2 → evo h1 h2 → evo h2 h3 → evo h1 h3.
  Proof.
    intros W1 W2 E1 E2. split.
    - intros r N HN. destruct (ev_node _ _ _ _ E1 r N HN) as (N2 & HN2 & K1).
      destruct (ev_node _ _ _ _ E2 r N2 HN2) as (N3 & HN3 & K2). exists N3. split; [done|].
      destruct K1, K2. split; try congruence.
      + destruct nk_graph0 as [Hg|Hg], nk_graph1 as [Hg'|Hg']; rewrite ?Hg', ?Hg; auto.
      + intros Hf Hz. destruct (nk_frozen0 Hf Hz) as [Hz2 Hv2]. destruct (nk_frozen1 Hf Hz2). split; congruence.
      + intros s Hs Hl. apply nk_style1; [by apply nk_style0|].
        eapply (locked_evo h1 h2 (n_graph N)); [done|done| |done|done]. intros g. by eapply graph_of_node.
    - intros r N HN. destruct (ev_edge _ _ _ _ E1 r N HN) as (N2 & HN2 & K1).
      destruct (ev_edge _ _ _ _ E2 r N2 HN2) as (N3 & HN3 & K2). exists N3. split; [done|].
      destruct K1, K2. split; try congruence.
      + destruct ek_raw0 as [Hg|Hg], ek_raw1 as [Hg'|Hg']; rewrite ?Hg', ?Hg; auto.
      + destruct ek_start0 as [Hg|Hg], ek_start1 as [Hg'|Hg']; rewrite ?Hg', ?Hg; auto.
      + destruct ek_end0 as [Hg|Hg], ek_end1 as [Hg'|Hg']; rewrite ?Hg', ?Hg; auto.
      + destruct ek_graph0 as [Hg|Hg], ek_graph1 as [Hg'|Hg']; rewrite ?Hg', ?Hg; auto.
      + intros Hs. destruct (ek_same1 Hs) as (-> & -> & ->). apply ek_same0.
        destruct ek_graph1 as [Hg'|Hg']; [by rewrite <-Hg'|]. rewrite Hg' in Hs. by destruct Hs.
      + intros Hf Hz. destruct (ek_frozen0 Hf Hz) as [Hz2 Hv2]. destruct (ek_frozen1 Hf Hz2). split; congruence.
      + intros s Hs Hl. apply ek_style1; [by apply ek_style0|].
        eapply (locked_evo h1 h2 (e_graph N)); [done|done| |done|done]. intros g. by eapply graph_of_edge.
    - intros g G HG. destruct (ev_graph _ _ _ _ E1 g G HG) as (G2 & HG2 & ? & ?).
      destruct (ev_graph _ _ _ _ E2 g G2 HG2) as (G3 & HG3 & ? & ?). exists G3. split_and!; [done|lia|congruence].
    - intros Hix r N3 g G HN3 HN Hg HG.
      destruct (ev_graph _ _ _ _ E1 g G HG) as (G2 & HG2 & Hc & _).
      destruct (h_nodes h2 !! r) as [N2|] eqn:HN2.
      + destruct (ev_node _ _ _ _ E2 r N2 HN2) as (N3' & HN3' & K2). assert (N3' = N3) as -> by congruence.
        rewrite (nk_index _ _ _ _ K2). destruct (nk_graph _ _ _ _ K2) as [Hg2|Hg2]; [|congruence].
        eapply (ev_fresh _ _ _ _ E1); [done..| |done]. congruence.
      + pose proof (ev_fresh _ _ _ _ E2 Hix r N3 g G2 HN3 HN2 Hg HG2). lia.
  Qed.

  Lemma locked_no_restyle h old og s : old = Some s → locked h og → may_restyle h old og ≠ Ok tt.
  Proof.
    intros -> Hl Hm. simpl in Hm. destruct og as [g|]; [|done]. destruct (h_graphs h !! g) as [G|] eqn:HG; [|done].
    destruct (g_disp G) as [d|] eqn:Hd; [|done]. destruct (d_overwrite d) eqn:Ho; [|done].
    apply (Hl g G); [done..|]. rewrite Hd. simpl. by rewrite Ho.
  Qed.

  (** a heap in which the same graphs exist, and nothing new *)
  Lemma evo_same h h' :
    (∀ r N, h_nodes h !! r = Some N → ∃ N', h_nodes h' !! r = Some N' ∧ nkeep (fr (inl r)) h N N') →
    (∀ r N, h_edges h !! r = Some N → ∃ N', h_edges h' !! r = Some N' ∧ ekeep (fr (inr r)) h N N') →
    (∀ g G, h_graphs h !! g = Some G → ∃ G', h_graphs h' !! g = Some G' ∧
      (g_counter G ≤ g_counter G')%Z ∧ d_overwrite <$> g_disp G' = d_overwrite <$> g_disp G) →
    length (h_nodes h') = length (h_nodes h) → evo h h'.
  Proof.
    intros Hn He Hg Hl. split; [done..|]. intros _ r N' g G HN' HN. apply lookup_lt_Some in HN'.
    apply lookup_ge_None in HN. lia.
  Qed.
  Lemma graphs_refl h : ∀ g G, h_graphs h !! g = Some G → ∃ G', h_graphs h !! g = Some G' ∧
      (g_counter G ≤ g_counter G')%Z ∧ d_overwrite <$> g_disp G' = d_overwrite <$> g_disp G.
  Proof. intros g G HG. exists G. split_and!; [done|lia|done]. Qed.
  Lemma graphs_insert (gs : list graph) g0 G0 G0' : gs !! g0 = Some G0 → 
    (g_counter G0 ≤ g_counter G0')%Z → d_overwrite <$> g_disp G0' = d_overwrite <$> g_disp G0 →
    ∀ g G, gs !! g = Some G → ∃ G', <[g0 := G0']> gs !! g = Some G' ∧
      (g_counter G ≤ g_counter G')%Z ∧ d_overwrite <$> g_disp G' = d_overwrite <$> g_disp G.
  Proof.
    intros H0 Hc Hd g G HG. destruct (decide (g = g0)) as [->|].
    - assert (G = G0) as -> by congruence. exists G0'. rewrite list_lookup_insert by (by eapply lookup_lt_Some). done.
    - rewrite list_lookup_insert_ne by done. exists G. split_and!; [done|lia|done].
  Qed.
  Lemma graphs_app (gs l : list graph) : ∀ g G, gs !! g = Some G → ∃ G', (gs ++ l) !! g = Some G' ∧
      (g_counter G ≤ g_counter G')%Z ∧ d_overwrite <$> g_disp G' = d_overwrite <$> g_disp G.
  Proof. intros g G HG. exists G. split_and!; [by apply lookup_app_l_Some|lia|done]. Qed.

  Lemma nkeep_cut r h es N : nkeep (fr r) h N (cut_node es N).
  Proof. split; simpl; auto. Qed.
  Lemma ekeep_unlink r h f E : f = cleared ∨ f = deadened → ekeep (fr r) h E (f E).
  Proof. intros [->| ->]; split; simpl; auto; by intros []. Qed.

  Lemma evo_step h og t h' : WF h → (∀ x, t = TUnfreeze x → ¬ fr x) → (t = TCtor → ix = false) →
    step h og t h' → evo h h'.
  Proof.
    intros W Hfr Hix Hs. destruct Hs.
    - apply evo_same; simpl; [|eauto|apply graphs_refl|by rewrite insert_length].
      intros r0 N0 HN0. destruct (decide (r0 = r)) as [->|].
      + assert (N0 = N) as -> by congruence. rewrite list_lookup_insert by (by eapply lookup_lt_Some).
        exists N'. split; [done|]. split; try congruence; [by left|..].
        * intros Hfr1 Hz. split; [|destruct H6; congruence].
          destruct H8 as [?|[[? ?]|[Ht ?]]]; [congruence|done|]. by destruct (Hfr _ Ht).
        * intros s Hst Hl. destruct H7 as [?|Hm]; [congruence|]. by eapply locked_no_restyle in Hm.
      + rewrite list_lookup_insert_ne by done. eauto.
    - apply evo_same; simpl; [eauto| |apply graphs_refl|done].
      intros r0 N0 HN0. destruct (decide (r0 = e)) as [->|].
      + assert (N0 = E) as -> by congruence. rewrite list_lookup_insert by (by eapply lookup_lt_Some).
        exists E'. split; [done|]. split; try congruence; auto.
        * intros Hfr1 Hz. split; [|destruct H5; congruence].
          destruct H7 as [?|[[? ?]|[Ht ?]]]; [congruence|done|]. by destruct (Hfr _ Ht).
        * intros s Hst Hl. destruct H6 as [?|Hm]; [congruence|]. by eapply locked_no_restyle in Hm.
      + rewrite list_lookup_insert_ne by done. eauto.
    - apply evo_same; simpl; [eauto|eauto|by eapply graphs_insert|done].
    - apply evo_same; simpl; [eauto|eauto|apply graphs_app|done].
    - split; simpl; [| |eapply graphs_insert; [done|..]|].
      + intros r N0 HN0. exists N0. split; [by apply lookup_app_l_Some|done].
      + eauto.
      + destruct_or!; destruct_and!; lia.
      + congruence.
      + intros Hx r N' g0 G0 HN' HN Hg HG0. apply lookup_ge_None in HN. rewrite lookup_app_r in HN' by done.
        apply list_lookup_singleton_Some in HN' as [_ <-]. assert (g0 = g) as -> by congruence.
        assert (G0 = G) as -> by congruence.
        match goal with H : _ ∨ _ |- _ => destruct H as [[Ht _]|(_ & -> & _)]; [|lia] end.
        specialize (Hix Ht). congruence.
    - apply evo_same; simpl; [| |apply graphs_refl|by rewrite imap_length].
      + intros r N HN. rewrite list_lookup_imap, HN. simpl. eexists. split; [done|]. split; simpl; auto.
      + intros r N HN. exists N. split; [by apply lookup_app_l_Some|done].
    - apply evo_same; [| |exact (graphs_refl h)|simpl; by rewrite fmap_length].
      + intros r N HN. rewrite unlink_node, HN. simpl. eexists. split; [done|]. apply nkeep_cut.
      + intros r N HN. rewrite unlink_edge, HN. simpl. eexists. split; [done|].
        destruct (decide _); [by apply ekeep_unlink|done].
    - apply evo_same; [| | |simpl; by rewrite insert_length, fmap_length].
      + intros r0 N0 HN0. unfold removed. cbv zeta. simpl. destruct (decide (r0 = r)) as [->|].
        * assert (N0 = N) as -> by congruence. rewrite list_lookup_insert by (rewrite fmap_length; by eapply lookup_lt_Some).
          eexists. split; [done|]. split; simpl; auto.
        * rewrite list_lookup_insert_ne by done. rewrite list_lookup_fmap, HN0. simpl. eexists. split; [done|]. apply nkeep_cut.
      + intros r0 N0 HN0. unfold removed. cbv zeta. simpl. rewrite list_lookup_imap, HN0. simpl. eexists. split; [done|].
        destruct (decide _); [apply ekeep_unlink; auto|done].
      + simpl. by eapply graphs_insert.
    - split.
      + intros r N HN. exists N. split; [|done]. by apply copied_old_node.
      + intros r N HN. exists N. split; [|done]. by apply copied_old_edge.
      + apply graphs_app.
      + intros Hx r N' g0 G0 HN' HN Hg HG0. exfalso.
        eapply (copied_node_inv h g G) in HN' as [?|(r1 & N1 & ? & ? & ? & ->)]; [congruence| |done..].
        simpl in Hg. injection Hg as <-. apply lookup_lt_Some in HG0. lia.
    - apply evo_same; simpl; [eauto|eauto|apply graphs_refl|done].
    - apply evo_same; simpl; [eauto|eauto|apply graphs_refl|done].
    - apply evo_same; simpl; [eauto|eauto|apply graphs_refl|done].
    - apply evo_same; simpl; [eauto|eauto|apply graphs_refl|done].
  Qed.

  Lemma kept_evo h0 : WF h0 →
    kept (evo h0) (λ _, True) (λ t, (∀ x, t = TUnfreeze x → ¬ fr x) ∧ (t = TCtor → ix = false)).
  Proof.
    intros W0. split; [done|by split|done|]. intros h h' og t W HK _ [H1 H2] Hs.
    eapply evo_trans; [done|done|done|]. by eapply evo_step.
  Qed.

  Lemma evo_history (P : call → Prop) h h' : WF h →
    (∀ c t, P c → tags_of c t → (∀ x, t = TUnfreeze x → ¬ fr x) ∧ (t = TCtor → ix = false)) →
    history P h h' → evo h h'.
  Proof.
    intros W HP Hh. eapply kept_history; [by apply kept_evo|done|done|apply evo_refl|done].
  Qed.
End evo.
