(** What append builds. *)
From Verif Require Export SpecAppend ProofBuild ProofC11.
Local Open Scope string_scope.
Local Open Scope list_scope.

Definition runs {A} (m : M A) (h : heap) (P : A → heap → Prop) : Prop := ∃ h' a, m h = (h', Ok a) ∧ P a h'.
Lemma runs_bind {A B} (m : M A) (k : A → M B) h P Q : runs m h P → (∀ a h', P a h' → runs (k a) h' Q) → runs (sbind m k) h Q.
Proof. intros (h1 & a & Hm & HP) Hk. destruct (Hk a h1 HP) as (h2 & b & Hb & HQ). exists h2, b. split; [|done]. by rewrite (sbind_step _ _ _ _ _ Hm). Qed.
Lemma runs_ret {A} (a : A) h (P : A → heap → Prop) : P a h → runs (sret a) h P.
Proof. intros H. by exists h, a. Qed.
Lemma runs_weaken {A} (m : M A) h (P Q : A → heap → Prop) : runs m h P → (∀ a h', P a h' → Q a h') → runs m h Q.
Proof. intros (h1 & a & Hm & HP) Hk. exists h1, a. auto. Qed.

Section append.
  Context (w : list warning) (g : gref).
  Definition at_ (s o : bool) (D : display) (ns : list nview) (es : list eview) (h : heap) : Prop := built w (Some (s, o, Some D)) h g ns es.
  Lemma shows_graph h h' G F ns es : h_graphs h !! g = Some G → g_nodes (F G) = g_nodes G → h' = h <| h_graphs := <[g := F G]> (h_graphs h) |> →
    shows h g ns es → shows h' g ns es.
  Proof.
    intros HG HF -> (G' & HG' & HS & HE). assert (G' = G) as -> by congruence. exists (F G). split; [cbn; apply list_lookup_insert; by eapply lookup_lt_Some|].
    split; [|done]. rewrite HF. 
    assert (Hn : ∀ k r, named h g k r → named (h <| h_graphs := <[g := F G]> (h_graphs h) |>) g k r).
    { intros k r (G1 & HG1 & Hk). assert (G1 = G) as -> by congruence. exists (F G). split; [cbn; apply list_lookup_insert; by eapply lookup_lt_Some|]. by rewrite HF. }
    assert (Hes : ∀ e v, edge_shows h g e v → edge_shows (h <| h_graphs := <[g := F G]> (h_graphs h) |>) g e v).
    { intros e v (E & s & t & H1 & H2 & H3 & H4 & H5). exists E, s, t. split_and!; try done; naive_solver. }
    eapply Forall2_impl; [exact HS|]. intros [k r] v (Hk & N & H). split; [done|]. exists N. destruct H as (H1 & H2 & H3 & H4 & H5 & H6 & H7 & H8 & H9 & H10 & H11).
    split_and!; try done; (eapply Forall2_impl; [eassumption|]); intros [i e] v' [? ?]; split; try done; by apply Hes.
  Qed.
  Lemma runs_disp f s o D ns es h : at_ s o D ns es h → runs (upd_disp g f) h (λ _, at_ s o (f D) ns es).
  Proof.
    intros (W & Hs & Hw & Hf). unfold flags in Hf. destruct (h_graphs h !! g) as [G|] eqn:HG; [|done]. cbn in Hf. injection Hf as <- <- HD.
    assert (upd_disp g f h = (h <| h_graphs := <[g := G <| g_disp := Some (f D) |>]> (h_graphs h) |>, Ok tt)) as Hrun.
    { unfold upd_disp, sread. unfold sbind at 1. rewrite (get_g_Ok _ _ _ HG), HD. by rewrite (upd_g_run _ _ _ _ HG). }
    eexists _, tt. split; [exact Hrun|]. split_and!.
    - destruct (Inv_upd_disp (length (h_ns h)) (length (h_es h)) g f h) as [W' _]; [split; [done|split; lia]|]. by rewrite Hrun in W'.
    - eapply (shows_graph h _ G (λ G, G <| g_disp := Some (f D) |>)); done.
    - done.
    - unfold flags. cbn. rewrite list_lookup_insert by (by eapply lookup_lt_Some). done.
  Qed.
  Lemma runs_strict b s o D ns es h : at_ s o D ns es h → runs (upd_g g (λ G, G <| g_strict := b |>)) h (λ _, at_ b o D ns es).
  Proof.
    intros (W & Hs & Hw & Hf). unfold flags in Hf. destruct (h_graphs h !! g) as [G|] eqn:HG; [|done]. cbn in Hf. injection Hf as <- <- HD.
    pose proof (upd_g_run h g G (λ G, G <| g_strict := b |>) HG) as Hrun. eexists _, tt. split; [exact Hrun|]. split_and!.
    - destruct (Inv_upd_strict (length (h_ns h)) (length (h_es h)) g b h) as [W' _]; [split; [done|split; lia]|]. by rewrite Hrun in W'.
    - eapply (shows_graph h _ G (λ G, G <| g_strict := b |>)); done.
    - done.
    - unfold flags. cbn. rewrite list_lookup_insert by (by eapply lookup_lt_Some). cbn. by rewrite HD.
  Qed.
  Lemma runs_ordering b s o D ns es h : at_ s o D ns es h → runs (upd_g g (λ G, G <| g_ordering := b |>)) h (λ _, at_ s b D ns es).
  Proof.
    intros (W & Hs & Hw & Hf). unfold flags in Hf. destruct (h_graphs h !! g) as [G|] eqn:HG; [|done]. cbn in Hf. injection Hf as <- <- HD.
    pose proof (upd_g_run h g G (λ G, G <| g_ordering := b |>) HG) as Hrun. eexists _, tt. split; [exact Hrun|]. split_and!.
    - destruct (Inv_upd_ordering (length (h_ns h)) (length (h_es h)) g b h) as [W' _]; [split; [done|split; lia]|]. by rewrite Hrun in W'.
    - eapply (shows_graph h _ G (λ G, G <| g_ordering := b |>)); done.
    - done.
    - unfold flags. cbn. rewrite list_lookup_insert by (by eapply lookup_lt_Some). cbn. by rewrite HD.
  Qed.
  Lemma runs_set_if {A} (v : option A) f s o D ns es h : at_ s o D ns es h → runs (when_some v (λ x, upd_disp g (f x))) h (λ _, at_ s o (set_if v f D) ns es).
  Proof. intros H. destruct v; cbn; [by apply runs_disp|by apply runs_ret]. Qed.
  Lemma runs_over {A} (v : option A) (m : A → M unit) F s o D ns es h : (∀ l D h, v = Some l → at_ s o D ns es h → runs (m l) h (λ _, at_ s o (F l D) ns es)) →
    at_ s o D ns es h → runs (when_some v m) h (λ _, at_ s o (set_if v F D) ns es).
  Proof. intros Hm H. destruct v; cbn; [by apply Hm|by apply runs_ret]. Qed.
  Lemma runs_iter_disp {A} (l : list A) f s o D ns es h : at_ s o D ns es h → runs (siter (λ x, upd_disp g (f x)) l) h (λ _, at_ s o (fold_left (λ D x, f x D) l D) ns es).
  Proof.
    revert D h. induction l as [|x l IH]; intros D h H; cbn [siter fold_left]; [by apply runs_ret|].
    eapply runs_bind; [by apply runs_disp|]. intros [] h' H'. by apply IH.
  Qed.
  Lemma runs_nodes nd s o D ns es h : at_ s o D ns es h → (∀ k a, (k, a) ∈ nd → (∃ x, k = NStr x) ∧ a_style a = SNone) → NoDup ((v_name <$> ns) ++ nd.*1) →
    runs (siter (λ kv, do* add_node g (AName kv.1) kv.2 in sret tt) nd) h
      (λ _, at_ s o D (ns ++ ((λ kv : name * nargs, MkNView kv.1 (a_label kv.2) (a_value kv.2) (a_tooltip kv.2) false (a_params kv.2) None) <$> nd)) es).
  Proof.
    revert ns h. induction nd as [|[k a] nd IH]; intros ns h H Hok Hnd; cbn [siter].
    - apply runs_ret. by rewrite app_nil_r.
    - destruct (Hok k a) as ((x & ->) & Hst); [by left|]. cbn [fst snd].
      destruct (built_add w _ h g ns es x a H) as (h' & r & Hrun & Hb & _); [|done|].
      { intros Hin. apply NoDup_app in Hnd as (_ & Hd & _). apply (Hd (NStr x)); [done|]. by left. }
      eapply (runs_bind _ _ _ (λ _, at_ s o D (ns ++ [nview_of x a]) es)).
      { eapply (runs_bind _ _ _ (λ _, at_ s o D (ns ++ [nview_of x a]) es)); [by exists h', (Some r)|]. intros ? ? ?. by apply runs_ret. }
      intros [] h1 H1. eapply runs_weaken; [apply (IH (ns ++ [nview_of x a])); [done|..]|].
      + intros k' a' Hin. apply Hok. by right.
      + rewrite fmap_app, <-app_assoc. exact Hnd.
      + intros [] h2 H2. by rewrite <-app_assoc in H2.
  Qed.
  Lemma runs_edges d ss : ∀ pre ed s o D ns es h, at_ s o D ns es h → r_edges d = pre ++ ss → 
    (∀ p c, dget ed (p, c) = last (filter (λ i, i.1.1 = p ∧ i.1.2 = c) (pre ≫= spec_id))) →
    (∀ x, x ∈ ss → ∃ p c, p ∈ v_name <$> ns ∧ c ∈ v_name <$> ns ∧ (x = E2 p c ∨ ∃ a, x = E3 p c a ∧ c_style a = SNone)) →
    NoDup ((w_key <$> es) ++ (ss ≫= spec_id)) →
    runs (sfold (append_edge g) ed ss) h (λ ed' h', at_ s o D ns (es ++ (ss ≫= spec_edge)) h' ∧ ∀ p c, dget ed' (p, c) = last_id d p c).
  Proof.
    induction ss as [|x ss IH]; intros pre ed s o D ns es h H Hpre Hed Hok Hnd; cbn [sfold].
    - apply runs_ret. cbn. rewrite app_nil_r. split; [done|]. intros p c. rewrite Hed. unfold last_id, given_ids. by rewrite Hpre, app_nil_r.
    - destruct (Hok x) as (p & c & Hp & Hc & Hx); [by left|].
      assert (∃ a, append_edge g ed x = (let* e := connect g (AName p) (AName c) a in let* i := sread (λ h, get_edge_id h e) in sret (dset ed (p, c) i)) ∧
        c_style a = SNone ∧ spec_id x = [(p, c, RId (c_id a))] ∧ spec_edge x = [eview_of p c a]) as (a & -> & Hst & Hid & Hsp).
      { destruct Hx as [->|(a & -> & Hst)]; [by exists eargs0|by exists a]. }
      change ((x :: ss) ≫= spec_id) with (spec_id x ++ (ss ≫= spec_id)) in Hnd. rewrite Hid in Hnd. cbn [app] in Hnd.
      destruct (built_connect_names w _ h g ns es p c a H) as (h' & Hrun & Hb & Hi); [done..| |done|].
      { intros Hin. apply NoDup_app in Hnd as (_ & Hd & _). apply (Hd (p, c, RId (c_id a))); [done|]. by left. }
      eapply (runs_bind _ _ _ (λ ed' h', ed' = dset ed (p, c) (p, c, RId (c_id a)) ∧ at_ s o D ns (es ++ [eview_of p c a]) h')).
      { exists h', (dset ed (p, c) (p, c, RId (c_id a))). split; [|done]. rewrite (sbind_step _ _ _ _ _ Hrun). unfold sread. unfold sbind at 1. by rewrite Hi. }
      intros ed' h1 [-> H1]. eapply runs_weaken; [apply (IH (pre ++ [x]) _ s o D ns (es ++ [eview_of p c a])); [done|..]|].
      + by rewrite <-app_assoc.
      + intros p' c'. rewrite bind_app. cbn [mbind list_bind]. rewrite Hid. cbn [app]. rewrite filter_snoc. cbn [fst snd].
        destruct (decide (p = p' ∧ c = c')) as [[-> ->]|Hne].
        * rewrite last_snoc, dget_dset. by rewrite decide_True.
        * rewrite app_nil_r, <-Hed, dget_dset. rewrite decide_False; [done|naive_solver].
      + intros y Hy. apply Hok. by right.
      + rewrite fmap_app, <-app_assoc. exact Hnd.
      + intros e2 h2 [H2 Hl]. split; [|done]. change ((x :: ss) ≫= spec_edge) with (spec_edge x ++ (ss ≫= spec_edge)). rewrite Hsp.
        by rewrite <-app_assoc in H2.
  Qed.
  Lemma runs_edge_over {A} d ed (ov : A → ovr) (l : list (ekey * A)) : (∀ p c, dget ed (p, c) = last_id d p c) →
    (∀ k v, (k, v) ∈ l → ∃ p c i, k = K2 p c ∧ (p, c, i) ∈ given_ids d) → ∀ s o D ns es h, at_ s o D ns es h →
    runs (siter (λ kv, let* i := sread (λ _, edge_key ed kv.1) in upd_disp g (λ x, x <| d_edge_colours := dset (d_edge_colours x) i (ov kv.2) |>)) l) h
      (λ _, at_ s o (D <| d_edge_colours := fold_left (for_edge d ov) l (d_edge_colours D) |>) ns es).
  Proof.
    intros Hed. induction l as [|[k v] l IH]; intros Hok s o D ns es h H; cbn [siter].
    - apply runs_ret. cbn. by destruct D.
    - destruct (Hok k v) as (p & c & i & -> & Hin); [by left|].
      assert (∃ j, last_id d p c = Some j) as [j Hj].
      { unfold last_id. destruct (last (filter _ _)) eqn:Hl; [eauto|]. apply last_None in Hl.
        assert ((p, c, i) ∈ filter (λ i, i.1.1 = p ∧ i.1.2 = c) (given_ids d)) as Hf by (by apply elem_of_list_filter). rewrite Hl in Hf. by apply elem_of_nil in Hf. }
      eapply (runs_bind _ _ _ (λ _, at_ s o (D <| d_edge_colours := dset (d_edge_colours D) j (ov v) |>) ns es)).
      { cbn [fst snd edge_key]. unfold dgetR. rewrite Hed, Hj. unfold sread. unfold runs, sbind at 1.
        by apply (runs_disp (λ x, x <| d_edge_colours := dset (d_edge_colours x) j (ov v) |>)). }
      intros [] h1 H1. eapply runs_weaken; [apply (IH ltac:(intros k' v' ?; apply (Hok k' v'); by right)); exact H1|].
      intros [] h2 H2. cbn [fold_left]. unfold for_edge at 2. cbn [fst snd]. rewrite Hj. exact H2.
  Qed.
End append.

Lemma runs_append w g s o D ns es h d : at_ w g s o D ns es h → acceptable h g d →
  NoDup ((v_name <$> ns) ++ given_names d) → NoDup ((w_key <$> es) ++ given_ids d) →
  runs (graph_append g (ODict d)) h (λ _, at_ w g (or_keep (r_strict d) s) (or_keep (r_ordering d) o) (display_given d D) (ns ++ given_nodes d) (es ++ given_edges d)).
Proof.
  intros H0 [Hlab Hnames Hnodes Hedges Hst Hcol] Hn He.
  assert (names_of h g = v_name <$> ns) as Hno.
  { destruct H0 as (_ & Hs & _). pose proof Hs as (G & HG & _). unfold names_of. rewrite HG. by eapply shows_names. }
  rewrite Hno in Hedges. unfold graph_append. eapply (runs_bind _ _ _ (λ a h', a = d ∧ at_ w g s o D ns es h')); [by exists h, d|].
  clear Hno. intros ? h0 [-> H]. clear h H0. unfold append_repr.
  eapply (runs_bind _ _ _ (λ _, at_ w g (or_keep (r_strict d) s) o D ns es)).
  { destruct (r_strict d); cbn; [by eapply runs_strict|by apply runs_ret]. }
  clear h0 H. intros [] h H. eapply (runs_bind _ _ _ (λ _, at_ w g (or_keep (r_strict d) s) (or_keep (r_ordering d) o) D ns es)).
  { destruct (r_ordering d); cbn; [by eapply runs_ordering|by apply runs_ret]. }
  clear h H. intros [] h H.
  generalize (or_keep (r_strict d) s) (or_keep (r_ordering d) o) H. clear s o H. intros s o H.
  unfold display_given. set (D1 := set_if (r_label d) _ D).
  eapply (runs_bind _ _ _ (λ _, at_ w g s o D1 ns es)).
  { subst D1. destruct (r_label d) as [v|] eqn:Hl; cbn [when_some set_if]; [|by apply runs_ret]. destruct (Hlab v eq_refl) as [x ->].
    unfold runs, sread, sbind. by eapply (runs_disp w g (λ x0, x0 <| d_label := PStr (String "010" x) |>)). }
  clearbody D1. clear h H. intros [] h H.
  eapply runs_bind; [by apply (runs_set_if w g (r_tooltip d) (λ v D, D <| d_tooltip := v |>))|]. clear h H. intros [] h H.
  eapply runs_bind; [by apply (runs_set_if w g (r_label_url d) (λ v D, D <| d_label_url := v |>))|]. clear h H. intros [] h H.
  eapply runs_bind; [by apply (runs_set_if w g (or_else (r_gnode d) (r_gnode2 d)) (λ v D, D <| d_gnode := v |>))|]. clear h H. intros [] h H.
  eapply runs_bind; [by apply (runs_set_if w g (or_else (r_gedge d) (r_gedge2 d)) (λ v D, D <| d_gedge := v |>))|]. clear h H. intros [] h H.
  eapply runs_bind; [by apply (runs_set_if w g (r_direction d) (λ v D, D <| d_direction := v |>))|]. clear h H. intros [] h H.
  change (either (r_gnode d) (r_gnode2 d)) with (or_else (r_gnode d) (r_gnode2 d)).
  change (either (r_gedge d) (r_gedge2 d)) with (or_else (r_gedge d) (r_gedge2 d)).
  revert H. match goal with |- at_ _ _ _ _ ?X _ _ _ → _ => set (D2 := X) end. clearbody D2. clear D D1. intros H.
  eapply (runs_bind _ _ _ (λ _, at_ w g s o D2 (ns ++ given_nodes d) es)).
  { unfold given_names in *. unfold given_nodes. destruct (r_nodes d) as [nd|nl] eqn:Hr.
    - apply runs_nodes; [done| |done]. intros k a Hin. split; [apply Hnames; apply elem_of_list_fmap; by exists (k, a)|by eapply Hnodes].
    - assert (∀ l, siter (λ n, do* add_node g (AName n) nargs0 in sret tt) l = siter (λ kv : name * nargs, do* add_node g (AName kv.1) kv.2 in sret tt) ((λ n, (n, nargs0)) <$> l)) as ->.
      { induction l as [|x l IH]; [done|]. cbn [siter fmap list_fmap]. by rewrite IH. }
      eapply runs_weaken; [eapply (runs_nodes w g ((λ n, (n, nargs0)) <$> nl)); [exact H|..]|].
      + intros k a (x & [= -> ->] & Hx)%elem_of_list_fmap. by auto.
      + rewrite <-list_fmap_compose. unfold compose. cbn [fst]. by rewrite list_fmap_id.
      + intros [] h' H'. by rewrite <-list_fmap_compose in H'. }
  clear h H. intros [] h H. eapply runs_bind.
  { eapply (runs_edges w g d (r_edges d) []); [exact H|done|done| |exact He].
    intros x Hx. destruct (Hedges x Hx) as (p & c & Hp & Hc & Hor). exists p, c.
    assert (v_name <$> given_nodes d = given_names d) as Hgn.
    { unfold given_nodes, given_names. destruct (r_nodes d); rewrite <-list_fmap_compose; [done|]. by apply list_fmap_id. }
    rewrite fmap_app, Hgn. naive_solver. }
  clear h H. cbn beta. intros ed h [H Hed]. change (r_edges d ≫= spec_edge) with (given_edges d) in H.
  eapply runs_bind.
  { eapply (runs_over w g (r_node_styles d) _ (λ l D, D <| d_node_styles := fold_left (λ m kv, dset m kv.1 kv.2) l (d_node_styles D) |>)); [|exact H]. clear.
    intros l D h _ H. eapply runs_weaken; [by apply (runs_iter_disp w g l (λ kv x, x <| d_node_styles := dset (d_node_styles x) kv.1 kv.2 |>))|].
    intros [] h' H'. refine (eq_ind _ (λ D, at_ w g s o D _ _ h') H' _ _). clear. revert D. induction l as [|kv l IH]; intros D2; cbn [fold_left]; [by destruct D2|]. by rewrite IH. }
  clear h H. intros [] h H. eapply runs_bind.
  { eapply (runs_over w g (r_edge_styles d) _ (λ l D, D <| d_edge_colours := fold_left (for_edge d OvStyle) l (d_edge_colours D) |>)); [|exact H]. clear h H.
    intros l D h Hl H. eapply (runs_edge_over w g d ed OvStyle l); [done| |done]. intros k v Hin. by eapply Hst. }
  clear h H. intros [] h H. eapply runs_bind.
  { eapply (runs_over w g (r_node_colours d) _ (λ l D, D <| d_node_colours := fold_left (λ m kv, dset m kv.1 kv.2) l (d_node_colours D) |>)); [|exact H]. clear.
    intros l D h _ H. eapply runs_weaken; [by apply (runs_iter_disp w g l (λ kv x, x <| d_node_colours := dset (d_node_colours x) kv.1 kv.2 |>))|].
    intros [] h' H'. refine (eq_ind _ (λ D, at_ w g s o D _ _ h') H' _ _). clear. revert D. induction l as [|kv l IH]; intros D2; cbn [fold_left]; [by destruct D2|]. by rewrite IH. }
  clear h H. intros [] h H.
  eapply (runs_over w g (r_edge_colours d) _ (λ l D, D <| d_edge_colours := fold_left (for_edge d OvColour) l (d_edge_colours D) |>)); [|exact H]. clear h H.
  intros l D h Hl H. eapply (runs_edge_over w g d ed OvColour l); [done| |done]. intros k v Hin. by eapply Hcol.
Qed.

Lemma acceptable_ext h g h' g' d : names_of h g = names_of h' g' → acceptable h g d → acceptable h' g' d.
Proof. intros Hn []. split; try done. by rewrite <-Hn. Qed.

(** C76: append with a dictionary whose node names and edge ids are new succeeds,
    and the graph then has the nodes and edges it had, unchanged and first, followed by
    the nodes and edges given, with the attributes given and in the order given; the
    strict and ordering flags and the display options given replace the present
    ones, the others stay; no warning is given. *)
Lemma C76_append_proof : ∀ h g G D d ns es, reachable h → h_graphs h !! g = Some G → g_disp G = Some D →
  shows h g ns es → acceptable h g d → NoDup ((v_name <$> ns) ++ given_names d) → NoDup ((w_key <$> es) ++ given_ids d) →
  ∃ h', graph_append g (ODict d) h = (h', Ok tt) ∧ shows h' g (ns ++ given_nodes d) (es ++ given_edges d) ∧ h_warns h' = h_warns h ∧
    flags h' g = Some (or_keep (r_strict d) (g_strict G), or_keep (r_ordering d) (g_ordering G), Some (display_given d D)).
Proof.
  intros h g G D d ns es Hr HG HD Hs Ha Hn He.
  destruct (runs_append (h_warns h) g (g_strict G) (g_ordering G) D ns es h d) as (h' & [] & Hrun & Hat); try done.
  { split_and!; [by apply reachable_WF|done..|]. unfold flags. rewrite HG. cbn. by rewrite HD. }
  destruct Hat as (_ & H2 & H3 & H4). by exists h'.
Qed.

(** C76: Graph(obj=dictionary) makes a new graph with exactly the nodes and
    edges given, with their attributes, the flags of the dictionary or else the arguments,
    and the display options of the dictionary or else the arguments; overwriting is
    allowed if the dictionary says so. *)
Lemma C76_graph_of_proof : ∀ h strict ordering D d, reachable h →
  acceptable h (length (h_graphs h)) d → NoDup (given_names d) → NoDup (given_ids d) →
  ∃ h', graph_of strict ordering D (ODict d) h = (h', Ok (length (h_graphs h))) ∧
    shows h' (length (h_graphs h)) (given_nodes d) (given_edges d) ∧ h_warns h' = h_warns h ∧
    flags h' (length (h_graphs h)) = Some (or_keep (r_strict d) strict, or_keep (r_ordering d) ordering,
      Some (display_given d (D <| d_overwrite := or_keep (r_overwrite d) (d_overwrite D) |>))).
Proof.
  intros h strict ordering D d Hr Ha Hn He. unfold graph_of. cbv zeta iota.
  assert ((match r_overwrite d with Some b => D <| d_overwrite := b |> | None => D end) = D <| d_overwrite := or_keep (r_overwrite d) (d_overwrite D) |>) as ->.
  { destruct (r_overwrite d); [done|]. by destruct D. }
  set (D1 := D <| d_overwrite := _ |>). clearbody D1.
  destruct (built_new h strict ordering D1 (reachable_WF _ Hr)) as (h1 & Hn1 & Hb). rewrite (sbind_step _ _ _ _ _ Hn1).
  destruct (runs_append (h_warns h) (length (h_graphs h)) strict ordering D1 [] [] h1 d) as (h2 & [] & Hrun & _ & H2 & H3 & H4); try done.
  { eapply acceptable_ext; [|exact Ha]. destruct Hb as (_ & Hs & _). pose proof Hs as (G & HG & _). unfold names_of. rewrite HG.
    rewrite lookup_ge_None_2 by done. symmetry. exact (shows_names _ _ _ _ _ HG Hs). }
  rewrite (sbind_step _ _ _ _ _ Hrun). by exists h2.
Qed.

(** C76: from_dict makes a new graph with exactly the nodes and edges given. *)
Lemma C76_from_dict_proof : ∀ h D d, reachable h →
  acceptable h (length (h_graphs h)) d → NoDup (given_names d) → NoDup (given_ids d) →
  ∃ h', from_dict D d h = (h', Ok (length (h_graphs h))) ∧
    shows h' (length (h_graphs h)) (given_nodes d) (given_edges d) ∧ h_warns h' = h_warns h ∧
    flags h' (length (h_graphs h)) = Some (or_keep (r_strict d) false, or_keep (r_ordering d) true, Some (display_given d D)).
Proof.
  intros h D1 d Hr Ha Hn He. unfold from_dict.
  destruct (built_new h false true D1 (reachable_WF _ Hr)) as (h1 & Hn1 & Hb). rewrite (sbind_step _ _ _ _ _ Hn1).
  destruct (runs_append (h_warns h) (length (h_graphs h)) false true D1 [] [] h1 d) as (h2 & [] & Hrun & _ & H2 & H3 & H4); try done.
  { eapply acceptable_ext; [|exact Ha]. destruct Hb as (_ & Hs & _). pose proof Hs as (G & HG & _). unfold names_of. rewrite HG.
    rewrite lookup_ge_None_2 by done. symmetry. exact (shows_names _ _ _ _ _ HG Hs). }
  rewrite (sbind_step _ _ _ _ _ Hrun). by exists h2.
Qed.

Definition repr1 : grepr :=
  MkRepr None (Some false) None None None None None None None None (Some true)
    (inl [(NStr "a", nargs0 <| a_value := PInt 1 |>); (NStr "b", nargs0 <| a_label := PStr "B" |>)])
    [E3 (NStr "a") (NStr "b") (eargs0 <| c_label := PStr "x" |>)] None None None None.
Definition repr2 : grepr :=
  MkRepr (Some true) None (Some (PStr "t")) None None None None None None None None
    (inr [NStr "c"]) [E2 (NStr "a") (NStr "c"); E3 (NStr "a") (NStr "b") (eargs0 <| c_id := Some (NStr "i") |>)]
    None None (Some [(NStr "c", PStr "blue")]) (Some [(K2 (NStr "a") (NStr "b"), PStr "red")]).
(** A graph made from a dictionary, to which a second dictionary is appended. *)
Lemma C76_ex_proof : acceptable empty_heap 0 repr1 ∧ ∃ h1, graph_of true true disp0 (ODict repr1) empty_heap = (h1, Ok 0) ∧ reachable h1 ∧
  shows h1 0 [MkNView (NStr "a") PNone (PInt 1) PNone false [] None; plain_node "b" (PStr "B")]
    [plain_edge (NStr "a") (NStr "b") None (PStr "x")] ∧
  acceptable h1 0 repr2 ∧ ∃ h2, graph_append 0 (ODict repr2) h1 = (h2, Ok tt) ∧
  shows h2 0 [MkNView (NStr "a") PNone (PInt 1) PNone false [] None; plain_node "b" (PStr "B"); plain_node "c" PNone]
    [plain_edge (NStr "a") (NStr "b") None (PStr "x"); plain_edge (NStr "a") (NStr "c") None PNone; plain_edge (NStr "a") (NStr "b") (Some (NStr "i")) PNone] ∧
  flags h2 0 = Some (true, false, Some (disp0 <| d_overwrite := true |> <| d_label := PStr (String "010" "t") |>
    <| d_node_colours := [(NStr "c", PStr "blue")] |>
    <| d_edge_colours := [((NStr "a", NStr "b", RId (Some (NStr "i"))), OvColour (PStr "red"))] |>)).
Proof.
  assert (Ha1 : acceptable empty_heap 0 repr1).
  { split; try done.
    - intros k. cbn. rewrite !elem_of_cons. intros [->|[->|?%elem_of_nil]]; [eauto|eauto|done].
    - intros nd k a [= <-]. rewrite !elem_of_cons. intros [[= -> ->]|[[= -> ->]|?%elem_of_nil]]; done.
    - intros s. cbn. rewrite !elem_of_cons. intros [->|?%elem_of_nil]; [|done]. eexists _, _.
      (split; [|split; [|first [by left|by right; eexists]]]); apply elem_of_list_In; vm_compute; tauto. }
  split; [done|].
  destruct (C76_graph_of_proof empty_heap true true disp0 repr1) as (h1 & Hrun & Hs & _ & Hf).
  { constructor. } { done. } { dec. } { dec. }
  change (length (h_graphs empty_heap)) with 0 in *.
  assert (Hr : reachable h1).
  { replace h1 with (after (CGraphOf true true disp0 (ODict repr1)) empty_heap) by (cbn [after]; by rewrite Hrun). apply reach_call; [constructor|]. split.
    - intros k a. cbn. rewrite !elem_of_cons. intros [[= -> ->]|[[= -> ->]|?%elem_of_nil]]; done.
    - intros p c a. cbn. rewrite !elem_of_cons. intros [[= -> -> ->]|?%elem_of_nil]; done. }
  pose proof Hs as (G & HG & _). pose proof (shows_names _ _ _ _ _ HG Hs) as Hnames.
  assert (Ha2 : acceptable h1 0 repr2).
  { assert (names_of h1 0 = [NStr "a"; NStr "b"]) as Hno by (unfold names_of; rewrite HG; exact Hnames). split; try done.
    - intros v [= <-]. eauto.
    - intros k. cbn. rewrite !elem_of_cons. intros [->|?%elem_of_nil]; [eauto|done].
    - intros s. rewrite Hno. cbn. rewrite !elem_of_cons. intros [->|[->|?%elem_of_nil]]; [..|done]; eexists _, _;
        (split; [|split; [|first [by left|by right; eexists]]]); apply elem_of_list_In; vm_compute; tauto.
    - intros l k v [= <-]. rewrite elem_of_list_singleton. intros [= -> ->]. eexists _, _, (RId (Some (NStr "i"))). split; [reflexivity|]. right. left. }
  exists h1. split; [done|]. split; [done|]. split; [exact Hs|]. split; [done|].
  unfold flags in Hf. rewrite HG in Hf. cbn [fmap option_fmap option_map] in Hf. injection Hf as Hf1 Hf2 Hf3.
  destruct (C76_append_proof h1 0 G _ repr2 _ _ Hr HG Hf3 Hs Ha2) as (h2 & Hrun2 & Hs2 & _ & Hf'); [dec|dec|].
  exists h2. split; [done|]. split; [exact Hs2|]. rewrite Hf', Hf1, Hf2. reflexivity.
Qed.
