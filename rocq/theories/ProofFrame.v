(** Steps on one graph leave the others alone. *)
From Verif Require Export ProofEvo SpecFrame.

Lemma unchanged_refl g h : unchanged g h h.
Proof. by split. Qed.
Lemma unchanged_trans g h1 h2 h3 : unchanged g h1 h2 → unchanged g h2 h3 → unchanged g h1 h3.
Proof.
  intros [A1 A2 A3] [B1 B2 B3]. split; [congruence|..]; intros; [rewrite B2 by done; by apply A2|rewrite B3 by done; by apply A3].
Qed.
Lemma styles_refl h : styles_kept h h.
Proof. by split. Qed.
Lemma styles_trans h1 h2 h3 : styles_kept h1 h2 → styles_kept h2 h3 → styles_kept h1 h3.
Proof. intros [A1 A2] [B1 B2]. split; auto. Qed.

(** an object of another graph is replaced *)
Lemma put_other {A} (f : A → option gref) (g : gref) (l : list A) r x x' :
  l !! r = Some x → f x ≠ Some g → f x' ≠ Some g →
  ∀ i y, f y = Some g → <[r := x']> l !! i = Some y ↔ l !! i = Some y.
Proof.
  intros Hr Hx Hx' i y Hy. destruct (decide (i = r)) as [->|].
  - rewrite list_lookup_insert by (by eapply lookup_lt_Some). split; [intros [= ->]|intros ?]; congruence.
  - by rewrite list_lookup_insert_ne.
Qed.
Lemma app_other {A} (f : A → option gref) (g : gref) (l l' : list A) :
  (∀ x, x ∈ l' → f x ≠ Some g) → ∀ i y, f y = Some g → (l ++ l') !! i = Some y ↔ l !! i = Some y.
Proof.
  intros Hl i y Hy. rewrite lookup_app_Some. split; [|by left]. intros [?|[_ H]]; [done|].
  apply elem_of_list_lookup_2 in H. by destruct (Hl y H).
Qed.
Lemma map_other {A} (f : A → option gref) (g : gref) (l l' : list A) :
  (∀ i, match l !! i, l' !! i with
        | Some x, Some y => (f x = Some g → y = x) ∧ (f y = Some g → f x = Some g)
        | None, None => True | _, _ => False end) →
  ∀ i y, f y = Some g → l' !! i = Some y ↔ l !! i = Some y.
Proof.
  intros Hl i y Hy. specialize (Hl i). destruct (l !! i) as [x|], (l' !! i) as [x'|]; try done.
  destruct Hl as [H1 H2]. split; intros [= ->]; f_equal; [symmetry; auto|auto].
Qed.

Lemma filter_id {A} (P : A → Prop) `{∀ x, Decision (P x)} (l : list A) : (∀ x, x ∈ l → P x) → filter P l = l.
Proof.
  induction l as [|x l IH]; intros Hl; [done|]. rewrite filter_cons, decide_True by (apply Hl; left).
  rewrite IH; [done|]. intros; apply Hl; by right.
Qed.
(** edges of [g'] have no entries at nodes of another graph *)
Lemma cut_other h g es r N : WF h → h_nodes h !! r = Some N → n_graph N = Some g →
  (∀ e E, e ∈ es → h_edges h !! e = Some E → e_graph E ≠ Some g) → cut_node es N = N.
Proof.
  intros W HN Hg Hes.
  assert (Ho : cut es (n_out N) = n_out N).
  { apply filter_id. intros [k e] Hke Hin. simpl in Hin.
    destruct (WF_out_entry h r N k e W HN Hke) as (g1 & E & t & Nt & u & HE & Hg1 & _ & _ & _ & _ & HgN & _).
    apply (Hes e E Hin HE). congruence. }
  assert (Hi : cut es (n_in N) = n_in N).
  { apply filter_id. intros [k e] Hke Hin. simpl in Hin.
    destruct (WF_in_entry h r N k e W HN Hke) as (g1 & E & t & Nt & u & HE & Hg1 & _ & _ & _ & _ & HgN & _).
    apply (Hes e E Hin HE). congruence. }
  unfold cut_node. rewrite Ho, Hi. by destruct N.
Qed.
(** the edges of a node are edges of its graph *)
Lemma own_edges_graph h r N e E : WF h → h_nodes h !! r = Some N → e ∈ own_edges N → h_edges h !! e = Some E →
  e_graph E = n_graph N.
Proof.
  intros W HN [[k Hk]%elem_of_dvals|[k Hk]%elem_of_dvals]%elem_of_nub%elem_of_app HE.
  - destruct (WF_out_entry h r N k e) as (g' & E' & t & Nt & u & HE' & HgE & _ & _ & _ & _ & HgN & _); [done..|]. congruence.
  - destruct (WF_in_entry h r N k e) as (g' & E' & t & Nt & u & HE' & HgE & _ & _ & _ & _ & HgN & _); [done..|]. congruence.
Qed.
Lemma unlink_unchanged h g f es : WF h → (f = cleared ∨ f = deadened) →
  (∀ e E, e ∈ es → h_edges h !! e = Some E → e_graph E ≠ Some g) → unchanged g h (unlink f es h).
Proof.
  intros W Hf Hes. split; [done| |].
  - apply (map_other n_graph). intros r. rewrite unlink_node. destruct (h_nodes h !! r) as [N|] eqn:HN; [|done]. simpl.
    split; [|done]. intros HgN. by eapply cut_other.
  - apply (map_other e_graph). intros r. rewrite unlink_edge. destruct (h_edges h !! r) as [N|] eqn:HN; [|done]. simpl.
    destruct (decide _) as [Hin|]; [|done]. split; [intros []%(Hes r N)|]; [done..|]. by destruct Hf as [->| ->].
Qed.

Lemma step_unchanged h og t h' g : WF h → is_Some (h_graphs h !! g) → og ≠ Some g → step h og t h' → unchanged g h h'.
Proof.
  intros W Hex Hog Hs. destruct Hs.
  - split; simpl; [done| |done]. apply (put_other n_graph g _ _ N N'); congruence.
  - split; simpl; [done|done|]. apply (put_other e_graph g _ _ E E'); congruence.
  - split; simpl; [|done|done]. rewrite list_lookup_insert_ne; [done|]. congruence.
  - split; simpl; [|done|done]. destruct Hex as [G0 HG0]. rewrite HG0. by apply lookup_app_l_Some.
  - split; simpl; [| |done].
    + rewrite list_lookup_insert_ne; [done|]. congruence.
    + apply (app_other n_graph). intros x ->%elem_of_list_singleton. congruence.
  - split; simpl; [done| |].
    + apply (map_other n_graph). intros r. rewrite list_lookup_imap. destruct (h_nodes h !! r) as [N|] eqn:HN; [|done]. simpl.
      split; [|done]. intros HgN. unfold with_new_edge. rewrite !decide_False by congruence. rewrite !app_nil_r. by destruct N.
    + apply (app_other e_graph). intros x ->%elem_of_list_singleton. simpl. congruence.
  - apply unlink_unchanged; [done..|]. intros e' E' ->%elem_of_list_singleton HE'. congruence.
  - assert (unchanged g h (unlink cleared (own_edges N) h)) as Hu.
    { apply unlink_unchanged; [done|by left|]. intros e' E' He' HE'.
      rewrite (own_edges_graph h r N e' E') by done. congruence. }
    eapply unchanged_trans; [exact Hu|]. split; unfold removed; cbv zeta; simpl; [| |done].
    + rewrite list_lookup_insert_ne; [done|]. congruence.
    + apply (put_other n_graph g _ _ (cut_node (own_edges N) N)); simpl; [|congruence|done].
      rewrite list_lookup_fmap. by rewrite H0.
  - destruct Hex as [G0 HG0]. split.
    + rewrite HG0. simpl. by apply lookup_app_l_Some.
    + intros r N Hg. split; [|by apply copied_old_node].
      intros [?|(r1 & N1 & ? & ? & -> & ->)]%(copied_node_inv h g0 G W H); [done|].
      simpl in Hg. injection Hg as <-. apply lookup_lt_Some in HG0. lia.
    + intros r N Hg. split; [|by apply copied_old_edge].
      intros [?|(r1 & N1 & ? & ? & -> & ->)]%(copied_edge_inv h g0 G W H); [done|].
      simpl in Hg. injection Hg as <-. apply lookup_lt_Some in HG0. lia.
  - by split.
  - by split.
  - by split.
  - by split.
Qed.
Lemma app_kept {A} (l l' : list A) : ∀ i x, l !! i = Some x → (l ++ l') !! i = Some x.
Proof. intros. by apply lookup_app_l_Some. Qed.
Lemma step_styles h og t h' : t ≠ TRestyle → step h og t h' → styles_kept h h'.
Proof. intros Ht Hs. destruct Hs; try done; split; simpl; try done; apply app_kept. Qed.
Lemma step_graphs_some h og t h' (g : gref) : step h og t h' → is_Some (h_graphs h !! g) → is_Some (h_graphs h' !! g).
Proof.
  intros Hs. rewrite !lookup_lt_is_Some. destruct Hs; unfold unlink, removed, copied; cbv zeta; simpl;
    rewrite ?app_length, ?insert_length; lia.
Qed.

Lemma kept_unlink K okg okt es g : kept K okg okt → okg (Some g) → ∀ h, WF h → K h → NoDup es →
  (∀ e, e ∈ es → ∃ E, h_edges h !! e = Some E ∧ e_graph E = Some g) → K (siter remove_self es h).1.
Proof.
  intros HK Hg. induction es as [|e es IH]; intros h W Hk Hnd Hlive; [done|].
  simpl. apply NoDup_cons in Hnd as [Hne Hnd]. destruct (Hlive e) as (E & HE & HgE); [left|].
  rewrite (sbind_step _ _ _ (unlink cleared [e] h) tt) by (by eapply remove_self_run).
  apply IH; [eapply WF_unlink_one; eauto| |done|].
  - apply (kp_step _ _ _ HK h _ (Some g) TNormal W Hk Hg (kp_normal _ _ _ HK)). by eapply S_unlink; [left| |].
  - intros e' He'. destruct (Hlive e') as (E' & HE' & Hg'); [by right|]. exists E'. split; [|done].
    rewrite unlink_edge, HE'. simpl. rewrite decide_False; [done|]. rewrite elem_of_list_singleton. by intros ->.
Qed.

Lemma new_ns_step h s : step h None TNormal (h <| h_ns := h_ns h ++ [s] |>).
Proof.
  pose proof (S_warns h [s] []) as Hs. refine (eq_rect _ (step h None TNormal) Hs _ _).
  apply heap_eq; simpl; rewrite ?app_nil_r; done.
Qed.
(** Calls whose target is in [okg]; those that write on style objects excluded *)
Lemma kept_after_on K okg okt h c : kept K okg okt → (∀ t, t ≠ TRestyle → tags_of c t → okt t) →
  writes_styles c = false →
  okg (target h c) → WF h → K h → allowed h c → K (after c h).
Proof.
  intros HK Ht Hws Hok W Hk Hal.
  assert (HJ : J K (length (h_ns h)) (length (h_es h)) h) by (split; [split; [done|split; lia]|done]).
  pose proof (kept_closed _ _ _ HK) as HC.
  pose proof (kp_normal _ _ _ HK) as Hn. pose proof (kp_none _ _ _ HK) as Hno.
  assert (Hset : is_setter c = true → setter_graph h c = target h c → K (after c h)).
  { intros Hc Heq. destruct (setter_step h c W Hal Hc) as (t & Htr & Htt & [Hs|Hs]).
    - rewrite Heq in Hs. refine (kp_step _ _ _ HK h _ _ t W Hk Hok _ Hs).
      by apply Ht.
    - by eapply (kp_step _ _ _ HK). }
  destruct c; try discriminate Hws; simpl in Hok; try (apply Hset; [done|]; simpl; by destruct (_ !! _)); simpl in Hal; try (by apply Hset); unfold after.
  - by eapply k_new.
  - destruct x as [k|r|]; [by eapply k_add, style_exists_n, Hal| |done].
    destruct Hal as [_ Hal]. destruct (h_nodes h !! r) as [N|] eqn:HN.
    + specialize (Hal r N eq_refl HN). unfold add_node, sbind, sread, get_n. rewrite HN.
      destruct (get_g h g) as [G|]; [|done]. destruct (dget (g_nodes G) (n_id N)); [by destruct (_ && _)|].
      by destruct (n_graph N).
    + unfold add_node, sbind, sread, get_n. by rewrite HN.
  - by eapply k_connect, style_exists_e.
  - unfold connect_to, sbind, sread, node_graph, get_n. destruct (h_nodes h !! r) as [N|]; [|done]. simpl.
    destruct (n_graph N) as [g|]; [|done]. by eapply k_connect, style_exists_e.
  - unfold connect_from, sbind, sread, node_graph, get_n. destruct (h_nodes h !! r) as [N|]; [|done]. simpl.
    destruct (n_graph N) as [g|]; [|done]. by eapply k_connect, style_exists_e.
  - destruct (disconnect_step h e W) as [(E & HE & Hs)|Hs]; [|by eapply (kp_step _ _ _ HK)].
    rewrite HE in Hok. exact (kp_step _ _ _ HK h _ _ TNormal W Hk Hok Hn Hs).
  - destruct (remove_self_step h e W) as [(E & HE & Hs)|Hs]; [|by eapply (kp_step _ _ _ HK)].
    rewrite HE in Hok. exact (kp_step _ _ _ HK h _ _ TNormal W Hk Hok Hn Hs).
  - destruct (h_nodes h !! r) as [N|] eqn:HN; [|by rewrite remove_edges_none].
    unfold remove_edges. rewrite (sread_Ok _ _ _ _ (node_edges_run h r N W HN)). fold (own_edges N).
    destruct (own_edges N) as [|e0 es] eqn:Hes; [done|]. rewrite <-Hes.
    assert (∃ g, n_graph N = Some g) as [g Hg].
    { destruct (own_edges_live h r N e0 W HN) as (E & g & HE & Hg); [rewrite Hes; left|]. exists g.
      rewrite <-(own_edges_graph h r N e0 E) by (rewrite ?Hes; [done..|left]||done). done. }
    rewrite Hg in Hok. apply (kept_unlink K okg okt _ g); try done; [apply NoDup_nub|].
    intros e He. destruct (own_edges_live h r N e W HN He) as (E & g' & HE & Hg'). exists E. split; [done|].
    by rewrite (own_edges_graph h r N e E).
  - by eapply k_remove.
  - destruct (node_set_style_step h r a) as [(N & HN & Hs)|Hs]; [|by eapply (kp_step _ _ _ HK)].
    rewrite HN in Hok. exact (kp_step _ _ _ HK h _ _ TNormal W Hk Hok Hn Hs).
  - destruct (edge_set_style_step h e a) as [(N & HN & Hs)|Hs]; [|by eapply (kp_step _ _ _ HK)].
    rewrite HN in Hok. exact (kp_step _ _ _ HK h _ _ TNormal W Hk Hok Hn Hs).
  - by eapply k_copy.
  - by eapply (J_filter K _ HC) in HJ as [_ ?].
  - by eapply (J_from_lists K _ HC) in HJ as [_ ?].
  - by eapply (J_from_object K _ HC) in HJ as [_ ?].
  - by eapply (J_from_text K _ HC) in HJ as [_ ?].
  - by eapply (J_random K _ HC) in HJ as [_ ?].
  - exact (proj2 (J_append K _ HC _ _ g o Hok (obj_exists_styles _ _ _ Hal) h HJ)).
  - refine (proj2 (J_append_all K _ HC _ _ g os Hok _ h HJ)). intros o Ho. by apply obj_exists_styles, Hal.
  - exact (proj2 (J_graph_of K _ HC _ _ strict ordering d o (obj_exists_styles _ _ _ Hal) h HJ)).
  - exact (proj2 (J_from_dict K _ HC _ _ d r (repr_exists_styles _ _ _ Hal) h HJ)).
  - by eapply K_add_graphs.
  - unfold set_background, sbind, sread. destruct (to_colour v); [|done]. by eapply k_disp.
  - unfold make_nstyle, sbind, sread. destruct (nstyle_ctor d); [|done].
    exact (kp_step _ _ _ HK h _ _ TNormal W Hk Hno Hn (new_ns_step h _)).
  - unfold derive_nstyle, sbind, sread. destruct (rbind _ _); [|done].
    exact (kp_step _ _ _ HK h _ _ TNormal W Hk Hno Hn (new_ns_step h _)).
  - unfold make_estyle, sbind, sread. destruct (estyle_ctor d); [|done].
    exact (kp_step _ _ _ HK h _ _ TNormal W Hk Hno Hn (S_es h _)).
  - unfold derive_estyle, sbind, sread. destruct (rbind _ _); [|done].
    exact (kp_step _ _ _ HK h _ _ TNormal W Hk Hno Hn (S_es h _)).
Qed.

(** * Builders touch nothing that existed *)
Lemma extends_refl h : extends h h.
Proof. by split. Qed.
Lemma extends_trans h1 h2 h3 : extends h1 h2 → extends h2 h3 → extends h1 h3.
Proof. intros [A1 A2 A3 A4] [B1 B2 B3 B4]. split; auto. by eapply styles_trans. Qed.
Lemma extends_lengths h h' : extends h h' → length (h_graphs h) ≤ length (h_graphs h').
Proof.
  intros He. destruct (decide (length (h_graphs h') < length (h_graphs h))) as [Hlt|]; [|lia].
  apply lookup_lt_is_Some in Hlt as [G HG]. apply (ex_graphs _ _ He), lookup_lt_Some in HG. lia.
Qed.
Lemma put_new {A} (l0 l : list A) r (x x' : A) : l !! r = Some x → l0 !! r ≠ Some x →
  (∀ i y, l0 !! i = Some y → l !! i = Some y) → ∀ i y, l0 !! i = Some y → <[r := x']> l !! i = Some y.
Proof. intros Hr Hn Hl i y Hy. rewrite list_lookup_insert_ne; [by apply Hl|]. intros <-. apply Hl in Hy as Hy'. congruence. Qed.
Lemma app_new {A} (l0 l l' : list A) :
  (∀ i y, l0 !! i = Some y → l !! i = Some y) → ∀ i y, l0 !! i = Some y → (l ++ l') !! i = Some y.
Proof. intros Hl i y Hy. by apply lookup_app_l_Some, Hl. Qed.

Section fresh.
  Context (h0 : heap) (W0 : WF h0).
  Notation n0 := (length (h_graphs h0)).
  Lemma old_node r N g : h_nodes h0 !! r = Some N → n_graph N = Some g → g < n0.
  Proof. intros HN Hg. destruct (wf_ngraph _ W0 r N g HN Hg) as (G & HG & _). by eapply lookup_lt_Some. Qed.
  Lemma old_edge e E g : h_edges h0 !! e = Some E → e_graph E = Some g → g < n0.
  Proof.
    intros HE Hg. destruct (get_edge_id_live h0 e E g W0 HE Hg) as (s & t & Ns & Nt & u & _ & _ & HNs & _ & Hgs & _).
    by eapply old_node.
  Qed.
  Lemma not_old_edge h e E g : extends h0 h → h_edges h !! e = Some E → e_graph E = Some g → n0 ≤ g → h_edges h0 !! e = None.
  Proof.
    intros He HE Hg Hn. destruct (h_edges h0 !! e) as [E0|] eqn:HE0; [|done].
    pose proof (ex_edges _ _ He _ _ HE0). assert (E0 = E) as -> by congruence.
    pose proof (old_edge _ _ _ HE0 Hg). lia.
  Qed.
  Lemma cut_old h es : WF h → extends h0 h → (∀ e E, e ∈ es → h_edges h !! e = Some E → ∃ g, e_graph E = Some g ∧ n0 ≤ g) →
    ∀ r N, h_nodes h0 !! r = Some N → cut_node es N = N.
  Proof.
    intros W He Hes r N HN.
    assert (Ho : cut es (n_out N) = n_out N).
    { apply filter_id. intros [k e] Hke Hin. simpl in Hin.
      destruct (WF_out_entry h0 r N k e W0 HN Hke) as (g1 & E & t & Nt & u & HE & Hg1 & _).
      destruct (Hes e E Hin (ex_edges _ _ He _ _ HE)) as (g & Hg & Hn). pose proof (old_edge _ _ _ HE Hg). lia. }
    assert (Hi : cut es (n_in N) = n_in N).
    { apply filter_id. intros [k e] Hke Hin. simpl in Hin.
      destruct (WF_in_entry h0 r N k e W0 HN Hke) as (g1 & E & t & Nt & u & HE & Hg1 & _).
      destruct (Hes e E Hin (ex_edges _ _ He _ _ HE)) as (g & Hg & Hn). pose proof (old_edge _ _ _ HE Hg). lia. }
    unfold cut_node. rewrite Ho, Hi. by destruct N.
  Qed.
  Lemma unlink_extends h f es : WF h → extends h0 h →
    (∀ e E, e ∈ es → h_edges h !! e = Some E → ∃ g, e_graph E = Some g ∧ n0 ≤ g) → extends h0 (unlink f es h).
  Proof.
    intros W He Hes. split; [| |apply He|apply He].
    - intros r N HN. rewrite unlink_node, (ex_nodes _ _ He _ _ HN). simpl. f_equal. by eapply cut_old.
    - intros e E HE. rewrite unlink_edge, (ex_edges _ _ He _ _ HE). simpl.
      destruct (decide _) as [Hin|]; [|done]. destruct (Hes e E Hin (ex_edges _ _ He _ _ HE)) as (g & Hg & Hn).
      pose proof (old_edge _ _ _ HE Hg). lia.
  Qed.
  Lemma step_extends h g t h' : WF h → extends h0 h → n0 ≤ g → t ≠ TRestyle → step h (Some g) t h' → extends h0 h'.
  Proof.
    intros W He Hn Ht Hs. pose proof (ex_styles _ _ He) as [Hs1 Hs2].
    remember (Some g) as og eqn:Hog. destruct Hs; try done.
    - split; [| |apply He|]; simpl; [|apply He|split; simpl; [by apply app_new|done]].
      eapply put_new; [done| |apply He]. intros HN. pose proof (old_node _ _ _ HN Hog). lia.
    - split; [| |apply He|]; simpl; [apply He| |split; simpl; [done|by apply app_new]].
      eapply put_new; [done| |apply He]. intros HN. pose proof (old_edge _ _ _ HN Hog). lia.
    - injection Hog as ->. split; simpl; [apply He..| |done]. eapply put_new; [done| |apply He]. intros ?%lookup_lt_Some. lia.
    - injection Hog as ->. split; simpl; [apply app_new, He|apply He| |split; simpl; [by apply app_new|done]].
      eapply put_new; [done| |apply He]. intros ?%lookup_lt_Some. lia.
    - injection Hog as ->. split; simpl; [|apply app_new, He|apply He|split; simpl; [done|by apply app_new]].
      intros r N HN. rewrite list_lookup_imap, (ex_nodes _ _ He _ _ HN). simpl. unfold with_new_edge.
      assert (∀ r' N', h_nodes h !! r' = Some N' → n_graph N' = Some g → r ≠ r') as Hne.
      { intros r' N' HN' Hg ->. pose proof (ex_nodes _ _ He _ _ HN). assert (N' = N) as -> by congruence.
        pose proof (old_node _ _ _ HN Hg). lia. }
      rewrite !decide_False by eauto. rewrite !app_nil_r. by destruct N.
    - injection Hog as ->. apply unlink_extends; [done..|]. intros e' E' ->%elem_of_list_singleton HE'. exists g.
      split; [congruence|done].
    - injection Hog as ->. assert (extends h0 (unlink cleared (own_edges N) h)) as Hu.
      { apply unlink_extends; [done..|]. intros e' E' He' HE'. exists g. by rewrite (own_edges_graph h r N e' E'). }
      split; unfold removed; cbv zeta; simpl; [|apply Hu| |apply Hu].
      + eapply (put_new _ _ r (cut_node (own_edges N) N)); [|..|apply Hu].
        * rewrite list_lookup_fmap. by rewrite H0.
        * intros HN. pose proof (old_node r _ g HN). simpl in *. specialize (H3 H1). lia.
      + eapply put_new; [done| |apply He]. intros ?%lookup_lt_Some. lia.
  Qed.
  Lemma one_step_extends {A} h g (c : M A) : WF h → extends h0 h → n0 ≤ g → one_step (Some g) h c → extends h0 (c h).1.
  Proof. intros W He Hn [Hs| ->]; [|done]. by apply (step_extends h g TNormal). Qed.
  Lemma closed_extends : closed (extends h0) (λ g, n0 ≤ g).
  Proof.
    split.
    - intros h. apply extends_lengths.
    - intros h s o d W He. unfold new_graph, new_g. split; simpl; try apply He. apply app_new, He.
    - intros. eapply one_step_extends; [done|done|eassumption|]. by apply add_node_step.
    - intros. eapply one_step_extends; [done|done|eassumption|]. by apply connect_step.
    - intros. eapply one_step_extends; [done|done|eassumption|]. by apply remove_node_step.
    - intros h g W He. destruct (h_graphs h !! g) as [G|] eqn:HG; [|by rewrite copy_none].
      destruct (copy_cases h g G W HG) as [[_ ->]|[(_ & _ & ->)|(? & ? & ->)]]; [done..|]. simpl.
      pose proof (ex_styles _ _ He) as [Hs1 Hs2].
      split; simpl; [apply app_new, He..|]. split; simpl; [done|by apply app_new].
    - intros. eapply one_step_extends; [done|done|eassumption|]. by apply upd_disp_step.
    - intros. eapply one_step_extends; [done|done|eassumption|]. by apply upd_g_step.
    - intros. eapply one_step_extends; [done|done|eassumption|]. by apply upd_g_step.
  Qed.
End fresh.

Lemma makes_extends h c : WF h → allowed h c → makes_graph c = true → extends h (after c h).
Proof.
  intros W Hal Hc. pose proof (closed_extends h W) as HC.
  assert (HJ : J (extends h) (length (h_ns h)) (length (h_es h)) h) by (split; [split; [done|split; lia]|apply extends_refl]).
  destruct c; try done; simpl in Hal; unfold after.
  - eapply k_new; [done..|apply extends_refl].
  - eapply k_copy; [done..|apply extends_refl].
  - by eapply (J_filter _ _ HC) in HJ as [_ ?].
  - by eapply (J_from_lists _ _ HC) in HJ as [_ ?].
  - by eapply (J_from_object _ _ HC) in HJ as [_ ?].
  - by eapply (J_from_text _ _ HC) in HJ as [_ ?].
  - by eapply (J_random _ _ HC) in HJ as [_ ?].
  - exact (proj2 (J_graph_of _ _ HC _ _ strict ordering d o (obj_exists_styles _ _ _ Hal) h HJ)).
  - exact (proj2 (J_from_dict _ _ HC _ _ d r (repr_exists_styles _ _ _ Hal) h HJ)).
Qed.
