(** Lemmas on [shows]. *)
From Verif Require Export SpecBuild ProofC1 ProofRepr.
Local Open Scope list_scope.

Lemma shows_names h g ns es G : h_graphs h !! g = Some G → shows h g ns es → dkeys (g_nodes G) = v_name <$> ns.
Proof.
  intros HG (G' & HG' & HF & _). assert (G' = G) as -> by congruence. unfold dkeys.
  induction HF as [|[k r] v l l' [Hk _] _ IH]; [done|]. cbn in *. by rewrite IH, Hk.
Qed.
Lemma shows_named h g ns es k : shows h g ns es → k ∈ v_name <$> ns ↔ ∃ r, named h g k r.
Proof.
  intros Hs. pose proof Hs as (G & HG & _). rewrite <-(shows_names h g ns es G HG Hs), elem_of_dkeys. split.
  - intros [r Hr]. exists r, G. done.
  - intros (r & G' & HG' & Hr). assert (G' = G) as -> by congruence. eauto.
Qed.
Lemma shows_NoDup h g ns es : WF h → shows h g ns es → NoDup (v_name <$> ns).
Proof. intros W Hs. pose proof Hs as (G & HG & _). rewrite <-(shows_names h g ns es G HG Hs). by apply (wf_gkeys _ W g). Qed.
Lemma named_inj h g k r r' : WF h → named h g k r → named h g k r' → r = r'.
Proof.
  intros W (G & HG & Hr) (G' & HG' & Hr'). assert (G' = G) as -> by congruence.
  eapply dict_functional; [by eapply (wf_gkeys _ W g)|exact Hr|exact Hr'].
Qed.
Lemma named_id h g k r N : WF h → named h g k r → h_nodes h !! r = Some N → n_id N = k ∧ n_graph N = Some g.
Proof. intros W (G & HG & Hk) HN. destruct (wf_gnodes _ W g G k r HG Hk) as (N' & ? & ? & ?). by simplify_eq. Qed.

(** every edge is listed *)
Lemma Forall2_elem_l {A B} (P : A → B → Prop) l k x : Forall2 P l k → x ∈ l → ∃ y, y ∈ k ∧ P x y.
Proof. intros HF [i Hi]%elem_of_list_lookup. destruct (Forall2_lookup_l _ _ _ _ _ HF Hi) as (y & Hy & ?). exists y. split; [by eapply elem_of_list_lookup_2|done]. Qed.
Lemma Forall2_elem_r {A B} (P : A → B → Prop) l k y : Forall2 P l k → y ∈ k → ∃ x, x ∈ l ∧ P x y.
Proof. intros HF [i Hi]%elem_of_list_lookup. destruct (Forall2_lookup_r _ _ _ _ _ HF Hi) as (x & Hx & ?). exists x. split; [by eapply elem_of_list_lookup_2|done]. Qed.
Lemma shows_node h g ns es k r : WF h → shows h g ns es → named h g k r → ∃ v, v ∈ ns ∧ v_name v = k ∧ node_shows h g es r v.
Proof.
  intros W (G & HG & HF & _) (G' & HG' & Hk). assert (G' = G) as -> by congruence.
  destruct (Forall2_elem_l _ _ _ _ HF Hk) as (v & Hv & ? & ?). by exists v.
Qed.
Lemma shows_view h g ns es v : shows h g ns es → v ∈ ns → ∃ r, named h g (v_name v) r ∧ node_shows h g es r v.
Proof.
  intros (G & HG & HF & _) Hv. destruct (Forall2_elem_r _ _ _ _ HF Hv) as ([k r] & Hin & Hk & ?). simpl in *.
  exists r. split; [|done]. exists G. by rewrite <-Hk.
Qed.
Lemma shows_all_edges h g ns es e s t : WF h → shows h g ns es → joins h g e s t → ∃ w, w ∈ es ∧ edge_shows h g e w.
Proof.
  intros W Hs Hj. destruct (joins_in_graph h g e s t W Hj) as [(G & k & HG & Hk) _].
  destruct (shows_node h g ns es k s W Hs) as (v & Hv & Hvk & N & HN & Hg & Hid & _ & _ & _ & _ & _ & _ & Hout & _); [by exists G|].
  destruct Hj as (E & HE & HgE & Hst & Hen).
  destruct (get_edge_id_live h e E g W HE HgE) as (s' & t' & Ns & Nt & u & ? & ? & HNs & _ & _ & _ & _ & _ & Ho & _).
  simplify_eq. destruct (Forall2_elem_l _ _ _ _ Hout Ho) as (w & [_ Hw]%elem_of_list_filter & _ & ?). eauto.
Qed.
Lemma shows_edge h g ns es w : shows h g ns es → w ∈ es → ∃ e, edge_shows h g e w.
Proof.
  intros Hs Hw. pose proof Hs as (_ & _ & _ & He). destruct (He w Hw) as [(v & Hv & Hin)%elem_of_list_fmap _]. destruct (shows_view h g ns es v Hs Hin) as (r & _ & N & _ & _ & _ & _ & _ & _ & _ & _ & _ & Hout & _).
  destruct (Forall2_elem_r _ _ _ w Hout) as (ke & _ & _ & ?); [|eauto]. by apply elem_of_list_filter.
Qed.
(** the keys at a node *)
Lemma Forall2_keys h g (d : dict edge_id eref) es : Forall2 (λ ke w, ke.1 = w_key w ∧ edge_shows h g ke.2 w) d es → dkeys d = w_key <$> es.
Proof. unfold dkeys. induction 1 as [|[i e] w d es [Hi _] _ IH]; [done|]. cbn in *. by rewrite IH, Hi. Qed.

(** * monotonicity *)
Lemma edge_shows_mono h h' g g' e w : (∀ k r, named h g k r → named h' g' k r) →
  (∀ E, h_edges h !! e = Some E → e_graph E = Some g → ∃ E', h_edges h' !! e = Some E' ∧ e_graph E' = Some g' ∧
      e_start E' = e_start E ∧ e_end E' = e_end E ∧ e_raw E' = e_raw E ∧ e_label E' = e_label E ∧ e_value E' = e_value E ∧
      e_tooltip E' = e_tooltip E ∧ e_frozen E' = e_frozen E ∧ e_params E' = e_params E ∧ e_style E' = e_style E) →
  (∀ E s, h_edges h !! e = Some E → e_style E = Some s → h_es h' !! s = h_es h !! s) →
  edge_shows h g e w → edge_shows h' g' e w.
Proof.
  intros Hn He Hst (E & s & t & HE & (E0 & HE0 & Hg & Hs & Ht) & Hs1 & Ht1 & Hw). assert (E0 = E) as -> by congruence.
  destruct (He E HE Hg) as (E' & HE' & Hg' & Hs' & Ht' & H1 & H2 & H3 & H4 & H5 & H6 & H7).
  exists E', s, t. rewrite H1, H2, H3, H4, H5, H6, H7. split; [done|]. split; [exists E'; by rewrite Hs', Ht'|].
  split; [auto|]. split; [auto|]. destruct Hw as (? & ? & ? & ? & ? & ? & Hsty). split_and!; try done.
  rewrite <-Hsty. destruct (e_style E) as [x|] eqn:Hx; [|done]. simpl. by eapply Hst.
Qed.

(** * new graphs *)
Lemma shows_new h strict ord d : let '(h', o) := new_graph strict ord d h in
  o = Ok (length (h_graphs h)) ∧ shows h' (length (h_graphs h)) [] [] ∧ h_warns h' = h_warns h ∧
  h_graphs h' !! length (h_graphs h) = Some (MkGraph [] strict ord 0 (Some d)).
Proof.
  unfold new_graph, new_g. cbn. split; [done|]. assert (Hg : (h_graphs h ++ [MkGraph [] strict ord 0 (Some d)]) !! length (h_graphs h) = Some (MkGraph [] strict ord 0 (Some d))).
  { by apply list_lookup_middle. }
  split; [|done]. eexists. split; [exact Hg|]. split; [constructor|]. by intros w ?%elem_of_nil.
Qed.

(** * adding a node *)
Lemma style_app {A} (l k : list A) (o : option nat) x : (∀ s, o = Some s → s < length l) → (o ≫= λ s, l !! s) = x → (o ≫= λ s, (l ++ k) !! s) = x.
Proof. intros Ho <-. destruct o as [s|]; [|done]. simpl. apply lookup_app_l. by apply Ho. Qed.

Lemma Forall2_mono {A B} (P Q : A → B → Prop) l k : (∀ x y, x ∈ l → y ∈ k → P x y → Q x y) → Forall2 P l k → Forall2 Q l k.
Proof.
  intros HPQ HF. apply Forall2_same_length_lookup. split; [by eapply Forall2_length|].
  intros i x y Hx Hy. apply HPQ; [by eapply elem_of_list_lookup_2..|]. by eapply Forall2_lookup_lr.
Qed.
Lemma dkeys_fst {K V} (d : dict K V) : dkeys d = d.*1.
Proof. done. Qed.

Lemma add_fresh_facts h g G s a st l : h_graphs h !! g = Some G → NStr s ∉ dkeys (g_nodes G) →
  restyled nstyle_ctor (length (h_ns h)) None (a_style a) = Ok (st, l) →
  ∃ h', add_node g (AName (NStr s)) a h = (h', Ok (Some (length (h_nodes h)))) ∧
    h_nodes h' = h_nodes h ++ [MkNode (Some g) (NStr s) (a_value a) (a_label a) (a_tooltip a) st false (a_params a) [] [] (g_counter G)] ∧
    h_edges h' = h_edges h ∧
    h_graphs h' !! g = Some (G <| g_counter := (g_counter G + 1)%Z |> <| g_nodes := g_nodes G ++ [(NStr s, length (h_nodes h))] |>) ∧
    h_ns h' = h_ns h ++ l ∧ h_es h' = h_es h ∧ h_warns h' = h_warns h.
Proof.
  intros HG Hk Hst. rewrite (add_node_fresh_eq h g G s a HG (proj2 (dget_None _ _) Hk)), Hst.
  eexists. split; [reflexivity|]. split; [done|]. split; [done|]. split; [|done]. simpl. apply list_lookup_insert. by eapply lookup_lt_Some.
Qed.
Lemma filter_none {A} (P : A → Prop) `{!∀ x, Decision (P x)} (l : list A) : (∀ x, x ∈ l → ¬ P x) → filter P l = [].
Proof.
  induction l as [|x l IH]; intros Hn; [done|]. rewrite filter_cons, decide_False by (apply Hn; left).
  apply IH. intros y Hy. apply Hn. by right.
Qed.

Lemma shows_add_fresh h g ns es s a st l : WF h → nsarg_ok h (a_style a) → shows h g ns es → NStr s ∉ v_name <$> ns →
  restyled nstyle_ctor (length (h_ns h)) None (a_style a) = Ok (st, l) →
  ∃ h' r, add_node g (AName (NStr s)) a h = (h', Ok (Some r)) ∧ WF h' ∧ named h' g (NStr s) r ∧
    shows h' g (ns ++ [MkNView (NStr s) (a_label a) (a_value a) (a_tooltip a) false (a_params a) (st ≫= λ i, (h_ns h ++ l) !! i)]) es ∧
    h_warns h' = h_warns h ∧ flags h' g = flags h g ∧ h_ns h' = h_ns h ++ l ∧ h_es h' = h_es h ∧
    (∀ k r, named h g k r → named h' g k r).
Proof.
  intros W Hok Hs Hfr Hst. pose proof Hs as (G & HG & HF & He). pose proof (shows_names h g ns es G HG Hs) as Hnames.
  assert (NStr s ∉ dkeys (g_nodes G)) as Hnk by congruence.
  pose proof (WF_add_node_call h g (AName (NStr s)) a W Hok) as W'.
  destruct (add_fresh_facts h g G s a st l HG Hnk Hst) as (h' & Heq & Hn' & He' & Hg' & Hns' & Hes' & Hw').
  rewrite Heq in W'. specialize (W' ltac:(done)). simpl in W'. exists h', (length (h_nodes h)).
  assert (Hmono : ∀ k r, named h g k r → named h' g k r).
  { intros k r (G' & HG' & Hr). assert (G' = G) as -> by congruence. eexists. split; [exact Hg'|]. simpl. apply elem_of_app. by left. }
  assert (Hemono : ∀ e w, edge_shows h g e w → edge_shows h' g e w).
  { intros e w. apply edge_shows_mono; [done| |].
    - intros E HE HgE. exists E. by rewrite He'.
    - intros E i _ _. by rewrite Hes'. }
  split_and!; try done.
  - eexists. split; [exact Hg'|]. simpl. apply elem_of_app. right. left.
  - eexists. split; [exact Hg'|]. split.
    + cbn. apply Forall2_app.
      * eapply Forall2_mono; [|exact HF]. intros [k r] v Hr Hv [Hk (N & HN & HgN & Hid & H1 & H2 & H3 & H4 & H5 & H6 & Hout & Hin)].
        split; [done|]. exists N. split; [rewrite Hn'; by apply lookup_app_l_Some|]. split_and!; try done.
        -- rewrite Hns'. apply style_app; [|done]. intros i Hi. by eapply (wf_nstyle _ W).
        -- eapply Forall2_mono; [|exact Hout]. intros ke w _ _ [? ?]. split; [done|auto].
        -- eapply Forall2_mono; [|exact Hin]. intros ke w _ _ [? ?]. split; [done|auto].
      * constructor; [|constructor]. split; [done|]. eexists. split; [rewrite Hn'; by apply list_lookup_middle|].
        split_and!; try done; cbn [n_style n_out n_in v_name v_style].
        -- by rewrite Hns'.
        -- rewrite filter_none; [constructor|]. intros w Hw Heqw. apply Hfr. rewrite <-Heqw. by apply He.
        -- rewrite filter_none; [constructor|]. intros w Hw Heqw. apply Hfr. rewrite <-Heqw. by apply He.
    + intros w Hw. rewrite fmap_app. destruct (He w Hw). split; apply elem_of_app; by left.
  - unfold flags. by rewrite Hg', HG.
Qed.

(** * naming a node again *)
Definition nview_updated (h : heap) (a : nargs) (st : option sref) (l : list nstyle) (v : nview) : nview :=
  MkNView (v_name v) (keep_or (a_label a) (v_label v)) (keep_or (a_value a) (v_value v)) (v_tooltip v) (v_frozen v) (v_params v)
    (match a_style a with SNone => v_style v | _ => st ≫= λ i, (h_ns h ++ l) !! i end).

Lemma shows_add_same h g ns es s a : WF h → shows h g ns es → NStr s ∈ v_name <$> ns → a_mode a = "ignore"%string →
  a_label a = PNone → a_value a = PNone → a_style a = SNone →
  ∃ r, add_node g (AName (NStr s)) a h = (h, Ok (Some r)) ∧ named h g (NStr s) r.
Proof.
  intros W Hs Hin Hm Hl Hv Hst. apply (shows_named h g ns es) in Hin as [r Hr]; [|done]. exists r. split; [|done].
  pose proof Hr as (G & HG & Hk). destruct (wf_gnodes _ W g G _ r HG Hk) as (N & HN & Hid & HgN).
  rewrite (add_node_existing_spec h g s a r N) by done. rewrite Hm. change (lenient "ignore") with true. change (warning_of "ignore" (WNode (NStr s))) with (@nil warning). cbv iota.
  unfold node_updated, optional_style. rewrite Hst, Hl, Hv. rewrite eqb_same. cbn [negb]. rewrite andb_false_r. cbn [keep_or].
  f_equal. apply heap_eq; simpl; rewrite ?app_nil_r; try done. apply list_insert_id. rewrite HN. by destruct N.
Qed.

(** * a new edge *)
Lemma connect_new_facts h g x y a s t Ns Nt st l : WF h → denotes h g x s → denotes h g y t →
  h_nodes h !! s = Some Ns → h_nodes h !! t = Some Nt →
  (∀ e E, h_edges h !! e = Some E → e_raw E = RId (c_id a) → ¬ joins h g e s t) →
  restyled estyle_ctor (length (h_es h)) None (c_style a) = Ok (st, l) →
  ∃ h', connect g x y a h = (h', Ok (length (h_edges h))) ∧
    h_nodes h' = imap (with_new_edge s t (n_id Ns, n_id Nt, RId (c_id a)) (length (h_edges h))) (h_nodes h) ∧
    h_edges h' = h_edges h ++ [MkEdge (Some g) (RId (c_id a)) (c_value a) (c_label a) (c_tooltip a) st false (c_params a) (Some s) (Some t)] ∧
    h_graphs h' = h_graphs h ∧ h_ns h' = h_ns h ∧ h_es h' = h_es h ++ l ∧ h_warns h' = h_warns h.
Proof.
  intros W Hx Hy HNs HNt Hno Hst. rewrite (connect_new_spec h g x y a s t Ns Nt) by done. cbv zeta. rewrite Hst.
  eexists. split; [reflexivity|]. done.
Qed.
Lemma filter_snoc {A} (P : A → Prop) `{!∀ x, Decision (P x)} (l : list A) x : filter P (l ++ [x]) = filter P l ++ (if decide (P x) then [x] else []).
Proof. rewrite filter_app. f_equal. Qed.
Lemma edge_shows_key h g e w s t E : WF h → edge_shows h g e w → joins h g e s t → h_edges h !! e = Some E →
  named h g (w_from w) s ∧ named h g (w_to w) t ∧ e_raw E = RId (w_id w).
Proof.
  intros W (E1 & s1 & t1 & HE1 & (E2 & HE2 & _ & Hs2 & Ht2) & Hs & Ht & Hr & _) (E3 & HE3 & _ & Hs3 & Ht3) HE.
  simplify_eq. done.
Qed.

Lemma shows_connect_fresh h g ns es x y a s t k1 k2 st l : WF h → esarg_ok h (c_style a) → shows h g ns es →
  denotes h g x s → denotes h g y t → named h g k1 s → named h g k2 t →
  (k1, k2, RId (c_id a)) ∉ w_key <$> es →
  restyled estyle_ctor (length (h_es h)) None (c_style a) = Ok (st, l) →
  ∃ h', connect g x y a h = (h', Ok (length (h_edges h))) ∧ WF h' ∧
    shows h' g ns (es ++ [MkEView k1 k2 (c_id a) (c_label a) (c_value a) (c_tooltip a) false (c_params a) (st ≫= λ i, (h_es h ++ l) !! i)]) ∧
    h_warns h' = h_warns h ∧ flags h' g = flags h g ∧ h_ns h' = h_ns h ∧ h_es h' = h_es h ++ l ∧
    (∀ k r, named h g k r → named h' g k r) ∧ get_edge_id h' (length (h_edges h)) = Ok (k1, k2, RId (c_id a)).
Proof.
  intros W Hok Hs Hx Hy Hk1 Hk2 Hfr Hst. pose proof Hs as (G & HG & HF & He).
  pose proof Hk1 as (G1 & HG1 & Hin1). assert (G1 = G) as -> by congruence. clear HG1.
  pose proof Hk2 as (G2 & HG2 & Hin2). assert (G2 = G) as -> by congruence. clear HG2.
  destruct (wf_gnodes _ W g G _ _ HG Hin1) as (Ns & HNs & Hids & Hgs). destruct (wf_gnodes _ W g G _ _ HG Hin2) as (Nt & HNt & Hidt & Hgt).
  pose proof (WF_connect h g x y a W Hok) as W'.
  destruct (connect_new_facts h g x y a s t Ns Nt st l) as (h' & Heq & Hn' & He' & Hg' & Hns' & Hes' & Hw'); try done.
  { intros e E HE Hraw Hj. destruct (shows_all_edges h g ns es e s t W Hs Hj) as (w & Hw & Hsh).
    destruct (edge_shows_key h g e w s t E W Hsh Hj HE) as (Hf & Ht & Hr). apply Hfr. apply elem_of_list_fmap. exists w. split; [|done].
    unfold w_key. destruct (named_id h g _ _ Ns W Hf HNs) as [<- _]. destruct (named_id h g _ _ Nt W Ht HNt) as [<- _]. congruence. }
  rewrite Heq in W'. simpl in W'. exists h'. rewrite Hids, Hidt in Hn'.
  assert (Hmono : ∀ k r, named h g k r → named h' g k r) by (intros k r; unfold named; by rewrite Hg').
  set (e := length (h_edges h)) in *. set (w0 := MkEView _ _ _ _ _ _ _ _ _).
  assert (Hemono : ∀ e w, edge_shows h g e w → edge_shows h' g e w).
  { intros e0 w (E & ? & ? & HE & Hrest). eapply (edge_shows_mono h h'); [done| | |by exists E, x0, x1].
    - intros E1 HE1 HgE. exists E1. rewrite He'. split; [by apply lookup_app_l_Some|done].
    - intros E1 i HE1 Hi. rewrite Hes'. apply lookup_app_l. by eapply (wf_estyle _ W). }
  assert (Hnew : edge_shows h' g e w0).
  { eexists _, s, t. split; [rewrite He'; by apply list_lookup_middle|]. split; [eexists; split; [rewrite He'; by apply list_lookup_middle|done]|].
    split_and!; try done; [auto..|]. cbn. by rewrite Hes'. }
  split_and!; try done.
  - exists G. rewrite Hg'. split; [done|]. split.
    + eapply Forall2_mono; [|exact HF]. intros [k r] v Hr Hv [Hk (N & HN & HgN & Hid & H1 & H2 & H3 & H4 & H5 & H6 & Hout & Hin)].
      simpl in *. split; [done|].
      assert (Hrn : ∀ k' r', (k', r') ∈ g_nodes G → k' = v_name v ↔ r = r').
      { intros k' r' Hr'. rewrite <-Hk. split.
        - intros ->. eapply dict_functional; [by apply (wf_gkeys _ W g G HG)|exact Hr|exact Hr'].
        - intros ->. destruct (wf_gnodes _ W g G _ _ HG Hr) as (? & ? & ? & _). destruct (wf_gnodes _ W g G _ _ HG Hr') as (? & ? & ? & _). congruence. }
      exists (with_new_edge s t (k1, k2, RId (c_id a)) e r N). split; [by rewrite Hn', list_lookup_imap, HN|].
      split_and!; try done; cbn [with_new_edge].
      * by rewrite Hns'.
      * rewrite filter_snoc. apply Forall2_app; [eapply Forall2_mono; [|exact Hout]; intros ? ? _ _ [? ?]; split; [done|auto]|]. cbn.
        destruct (decide (r = s)) as [->|Hne].
        -- rewrite decide_True by (by apply (Hrn k1 s)). constructor; [done|constructor].
        -- rewrite decide_False by (by rewrite (Hrn k1 s)). constructor.
      * rewrite filter_snoc. apply Forall2_app; [eapply Forall2_mono; [|exact Hin]; intros ? ? _ _ [? ?]; split; [done|auto]|]. cbn.
        destruct (decide (r = t)) as [->|Hne].
        -- rewrite decide_True by (by apply (Hrn k2 t)). constructor; [done|constructor].
        -- rewrite decide_False by (by rewrite (Hrn k2 t)). constructor.
    + intros w [Hw| ->%elem_of_list_singleton]%elem_of_app; [by apply He|]. cbn.
      split; apply (shows_named h g ns es); eauto.
  - unfold flags. by rewrite Hg'.
  - unfold get_edge_id. rewrite (get_e_Ok h' e _ ltac:(rewrite He'; by apply list_lookup_middle)). cbn.
    assert (∀ r N, h_nodes h !! r = Some N → ∃ N', h_nodes h' !! r = Some N' ∧ n_id N' = n_id N) as Hids'.
    { intros r N HN. eexists. rewrite Hn', list_lookup_imap, HN. by split. }
    destruct (Hids' s Ns HNs) as (Ns' & HNs' & Hi1). destruct (Hids' t Nt HNt) as (Nt' & HNt' & Hi2).
    rewrite (get_n_Ok _ _ _ HNs'), (get_n_Ok _ _ _ HNt'). cbn. by rewrite Hi1, Hi2, Hids, Hidt.
Qed.

(** * Bundled, for calls without styles *)
Definition built (w : list warning) (f : option (bool * bool * option display)) (h : heap) (g : gref) (ns : list nview) (es : list eview) : Prop :=
  WF h ∧ shows h g ns es ∧ h_warns h = w ∧ flags h g = f.
Lemma built_new h strict ord d : WF h → ∃ h', new_graph strict ord d h = (h', Ok (length (h_graphs h))) ∧
  built (h_warns h) (Some (strict, ord, Some d)) h' (length (h_graphs h)) [] [].
Proof.
  intros W. pose proof (shows_new h strict ord d) as Hs.
  destruct (Inv_new_graph (length (h_ns h)) (length (h_es h)) strict ord d h) as [W1 _]; [split; [done|split; lia]|].
  destruct (new_graph strict ord d h) as [h' o]. destruct Hs as (-> & Hs & Hw & HG). exists h'. split; [done|].
  split_and!; try done. unfold flags. by rewrite HG.
Qed.
Definition nview_of (s : string) (a : nargs) : nview := MkNView (NStr s) (a_label a) (a_value a) (a_tooltip a) false (a_params a) None.
Definition eview_of (k1 k2 : name) (a : eargs) : eview := MkEView k1 k2 (c_id a) (c_label a) (c_value a) (c_tooltip a) false (c_params a) None.
Lemma built_add w f h g ns es s a : built w f h g ns es → NStr s ∉ v_name <$> ns → a_style a = SNone →
  ∃ h' r, add_node g (AName (NStr s)) a h = (h', Ok (Some r)) ∧ built w f h' g (ns ++ [nview_of s a]) es ∧
    named h' g (NStr s) r ∧ (∀ k r, named h g k r → named h' g k r).
Proof.
  intros (W & Hs & Hw & Hf) Hfr Hst. destruct (shows_add_fresh h g ns es s a None []) as (h' & r & Heq & W' & Hn & Hs' & Hw' & Hf' & _ & _ & Hm); try done.
  { by rewrite Hst. }
  { by rewrite Hst. }
  exists h', r. split; [done|]. split; [|done]. unfold built. rewrite Hw', Hf'. done.
Qed.
Lemma built_same w f h g ns es s a : built w f h g ns es → NStr s ∈ v_name <$> ns → a_mode a = "ignore"%string →
  a_label a = PNone → a_value a = PNone → a_style a = SNone →
  ∃ r, add_node g (AName (NStr s)) a h = (h, Ok (Some r)) ∧ named h g (NStr s) r.
Proof. intros (W & Hs & _). by apply (shows_add_same h g ns es). Qed.
Lemma named_denotes h g k r : WF h → named h g k r → denotes h g (AName k) r ∧ denotes h g (ANode r) r.
Proof.
  intros W Hn. pose proof Hn as (G & HG & Hk). destruct (wf_gnodes _ W g G k r HG Hk) as (N & HN & <- & Hg).
  split; exists (n_id N); (split; [exact Hn|]); [by left|right; by exists r, N].
Qed.
Lemma built_connect w f h g ns es x y a s t k1 k2 : built w f h g ns es →
  denotes h g x s → denotes h g y t → named h g k1 s → named h g k2 t → (k1, k2, RId (c_id a)) ∉ w_key <$> es → c_style a = SNone →
  ∃ h', connect g x y a h = (h', Ok (length (h_edges h))) ∧ built w f h' g ns (es ++ [eview_of k1 k2 a]) ∧
    (∀ k r, named h g k r → named h' g k r) ∧ get_edge_id h' (length (h_edges h)) = Ok (k1, k2, RId (c_id a)).
Proof.
  intros (W & Hs & Hw & Hf) Hx Hy H1 H2 Hfr Hst.
  destruct (shows_connect_fresh h g ns es x y a s t k1 k2 None []) as (h' & Heq & W' & Hs' & Hw' & Hf' & _ & _ & Hm & Hid); try done.
  { by rewrite Hst. }
  { by rewrite Hst. }
  exists h'. split; [done|]. split; [|done]. unfold built. rewrite Hw', Hf'. done.
Qed.
(** by name *)
Lemma built_connect_names w f h g ns es k1 k2 a : built w f h g ns es →
  k1 ∈ v_name <$> ns → k2 ∈ v_name <$> ns → (k1, k2, RId (c_id a)) ∉ w_key <$> es → c_style a = SNone →
  ∃ h', connect g (AName k1) (AName k2) a h = (h', Ok (length (h_edges h))) ∧ built w f h' g ns (es ++ [eview_of k1 k2 a]) ∧
    get_edge_id h' (length (h_edges h)) = Ok (k1, k2, RId (c_id a)).
Proof.
  intros Hb H1 H2 Hfr Hst. pose proof Hb as (W & Hs & _).
  apply (shows_named h g ns es k1 Hs) in H1 as [s H1]. apply (shows_named h g ns es k2 Hs) in H2 as [t H2].
  destruct (built_connect w f h g ns es (AName k1) (AName k2) a s t k1 k2) as (h' & ? & ? & _ & ?); try done; [by apply named_denotes..|eauto].
Qed.

(** * distinct *)
Lemma elem_of_distinct {A} `{EqDecision A} (l : list A) x : x ∈ distinct l ↔ x ∈ l.
Proof.
  induction l as [|y l IH]; simpl; [done|]. rewrite !elem_of_cons, elem_of_list_filter, IH.
  destruct (decide (x = y)); naive_solver.
Qed.
Lemma distinct_snoc {A} `{EqDecision A} (l : list A) x : distinct (l ++ [x]) = if decide (x ∈ l) then distinct l else distinct l ++ [x].
Proof.
  induction l as [|y l IH]; [done|]. cbn [distinct app]. rewrite IH. destruct (decide (x ∈ l)) as [Hin|Hin].
  - rewrite decide_True by (by right). done.
  - rewrite filter_snoc. destruct (decide (x ≠ y)) as [Hne|Heq].
    + rewrite decide_False by (rewrite elem_of_cons; naive_solver). done.
    + apply dec_stable in Heq as ->. rewrite decide_True by left. by rewrite app_nil_r.
Qed.
Lemma NoDup_distinct {A} `{EqDecision A} (l : list A) : NoDup (distinct l).
Proof.
  induction l as [|y l IH]; [constructor|]. simpl. constructor; [rewrite elem_of_list_filter; naive_solver|]. by apply NoDup_filter.
Qed.
