(** Removing all edges of a node, freezing, node names, lists given to append, the
    attribute line of the header: C08, C39, C11, C76, C66. *)
From Verif Require Export SpecHead ModelShow ProofC29 ProofC17.
From Verif Require Import Samples.
From Verif Require Import ProofLetters.
Local Open Scope string_scope.
Local Open Scope list_scope.

(** C08.  node.remove_edges: with [es] the edges that start or end in the node, the
    entries of [es] disappear from all edge dictionaries (the others keep their order) and
    the edges [es] lose graph, start and end; the node keeps its graph and its place in
    it, and nothing else changes. *)
Lemma C08_remove_edges_proof : ∀ h r N g, reachable h → h_nodes h !! r = Some N → n_graph N = Some g →
  ∃ h' es, remove_edges r h = (h', Ok tt) ∧
    (∀ e, e ∈ es ↔ ∃ y, joins h g e r y ∨ joins h g e y r) ∧
    h_nodes h' = without_edges es <$> h_nodes h ∧
    h_edges h' = imap (λ e E, if decide (e ∈ es) then E <| e_start := None |> <| e_end := None |> <| e_graph := None |> else E) (h_edges h) ∧
    h_graphs h' = h_graphs h ∧ h_ns h' = h_ns h ∧ h_es h' = h_es h ∧ h_warns h' = h_warns h.
Proof.
  intros h r N g W%reachable_WF HN Hg. destruct (remove_edges_run h r N W HN) as [Hr _].
  exists (unlink cleared (own_edges N) h), (own_edges N). split_and!; try done.
  intros e. unfold own_edges. rewrite elem_of_nub, elem_of_app.
  rewrite (out_joins h g r N e), (in_joins h g r N e) by done. split; [intros [[y ?]|[y ?]]|intros [y [?|?]]]; eauto.
Qed.
(** C08, instance: c has a self-loop and lies on a cycle; it stays in the graph without edges. *)
Lemma C08_remove_edges_ex_proof : reachable sample ∧ ∃ N, h_nodes sample !! 2 = Some N ∧ n_graph N = Some 0 ∧ length (n_out N) = 2 ∧
  ∃ h', remove_edges 2 sample = (h', Ok tt) ∧ ((λ N, (length (n_out N), length (n_in N))) <$> h_nodes h') = [(2, 0); (0, 2); (0, 0); (0, 0); (1, 0); (0, 1)] ∧
    h_graphs h' = h_graphs sample.
Proof.
  split; [apply sample_reachable|]. eexists. split; [by vm_compute|]. split; [by vm_compute|]. split; [by vm_compute|]. eexists. by vm_compute.
Qed.

(** C39.  freeze and unfreeze change only the flag, and exactly while it is set does
    assigning the value raise. *)
Lemma C39_freeze_proof : ∀ h, 
  (∀ r N, h_nodes h !! r = Some N → ∀ b, ∃ h', node_set_frozen r b h = (h', Ok tt) ∧
     h' = h <| h_nodes := <[r := N <| n_frozen := b |>]> (h_nodes h) |> ∧
     ∀ v, node_set_value r v h' = if b then (h', Err RuntimeError)
       else (h' <| h_nodes := <[r := N <| n_frozen := false |> <| n_value := v |>]> (h_nodes h) |>, Ok tt)) ∧
  (∀ e E, h_edges h !! e = Some E → ∀ b, ∃ h', edge_set_frozen e b h = (h', Ok tt) ∧
     h' = h <| h_edges := <[e := E <| e_frozen := b |>]> (h_edges h) |> ∧
     ∀ v, edge_set_value e v h' = if b then (h', Err RuntimeError)
       else (h' <| h_edges := <[e := E <| e_frozen := false |> <| e_value := v |>]> (h_edges h) |>, Ok tt)).
Proof.
  intros h. split.
  - intros r N HN b. eexists. split; [unfold node_set_frozen, upd_n; by rewrite HN|]. split; [done|]. intros v.
    assert (h_nodes (h <| h_nodes := <[r := N <| n_frozen := b |>]> (h_nodes h) |>) !! r = Some (N <| n_frozen := b |>)) as Hl
      by (cbn; apply list_lookup_insert; by eapply lookup_lt_Some).
    unfold node_set_value. rewrite (sread_Ok _ _ _ _ (get_n_Ok _ _ _ Hl)). cbn. destruct b; [done|]. unfold upd_n. rewrite Hl. cbn. by rewrite list_insert_insert.
  - intros r N HN b. eexists. split; [unfold edge_set_frozen, upd_e; by rewrite HN|]. split; [done|]. intros v.
    assert (h_edges (h <| h_edges := <[r := N <| e_frozen := b |>]> (h_edges h) |>) !! r = Some (N <| e_frozen := b |>)) as Hl
      by (cbn; apply list_lookup_insert; by eapply lookup_lt_Some).
    unfold edge_set_value. rewrite (sread_Ok _ _ _ _ (get_e_Ok _ _ _ Hl)). cbn. destruct b; [done|]. unfold upd_e. rewrite Hl. cbn. by rewrite list_insert_insert.
Qed.
(** C39, instance: b is frozen, its value cannot be set; unfrozen, it can. *)
Lemma C39_freeze_ex_proof : (∃ N, h_nodes sample !! 1 = Some N) ∧
  (node_set_value 1 (PInt 5) (node_set_frozen 1 true sample).1).2 = Err RuntimeError ∧
  (n_value <$> h_nodes (node_set_value 1 (PInt 5) (node_set_frozen 1 false (node_set_frozen 1 true sample).1).1).1 !! 1) = Some (PInt 5).
Proof. split; [eexists; by vm_compute|]. by vm_compute. Qed.

(** C11.  get_node_name returns a name that is in the graph unchanged and raises
    KeyError for any other; unlike get_node it gives the name of any node object, of
    this graph or not. *)
Lemma C11_get_node_name_proof : ∀ h g G, reachable h → h_graphs h !! g = Some G →
  (∀ n r, named h g n r → get_node_name h g (AName n) = Ok n) ∧
  (∀ n, (∀ r, ¬ named h g n r) → get_node_name h g (AName n) = Err KeyError) ∧
  (∀ r N, h_nodes h !! r = Some N → get_node_name h g (ANode r) = Ok (n_id N)) ∧
  get_node_name h g AOther = Err TypeError.
Proof.
  intros h g G W%reachable_WF HG. unfold get_node_name. rewrite (get_g_Ok _ _ _ HG). cbn [rbind]. split_and!; [..|done].
  - intros n r (G' & HG' & Hin). assert (G' = G) as -> by congruence. unfold dgetR.
    rewrite (dget_in_Some _ _ r); [|exact (wf_gkeys _ W g G HG)|done]. cbn [rbind].
    destruct (wf_gnodes _ W g G n r HG Hin) as (N & HN & Hid & _). rewrite (get_n_Ok _ _ _ HN). cbn [rbind]. by rewrite Hid.
  - intros n Hn. unfold dgetR. destruct (dget (g_nodes G) n) as [r|] eqn:Hd; [|done]. destruct (Hn r). exists G. split; [done|]. by apply dget_Some_in.
  - intros r N HN. by rewrite (get_n_Ok _ _ _ HN).
Qed.
(** C11, instance: a name of the graph, an unknown name, a node of the other graph. *)
Lemma C11_get_node_name_ex_proof : reachable sample ∧ (∃ G, h_graphs sample !! 0 = Some G) ∧ get_node_name sample 0 (an "a") = Ok (nm "a") ∧
  get_node_name sample 0 (an "z") = Err KeyError ∧ get_node_name sample 0 (ANode 5) = Ok (nm "z") ∧ get_node sample 0 (ANode 5) = Err KeyError.
Proof. split; [apply sample_reachable|]. split; [eexists; by vm_compute|]. by vm_compute. Qed.

Lemma acceptable_grow h g h' d : (∀ k, k ∈ names_of h g → k ∈ names_of h' g) → acceptable h g d → acceptable h' g d.
Proof.
  intros Hn [H1 H2 H3 H4 H5 H6]. split; try done. intros s Hs. destruct (H4 s Hs) as (p & c & Hp & Hc & Ho). exists p, c.
  split_and!; [..|done]; rewrite elem_of_app in *; naive_solver.
Qed.
Lemma runs_append_all w g ds : ∀ s o D ns es h, at_ w g s o D ns es h → (∀ d, d ∈ ds → acceptable h g d) →
  NoDup ((v_name <$> ns) ++ (ds ≫= given_names)) → NoDup ((w_key <$> es) ++ (ds ≫= given_ids)) →
  runs (append_all g (ODict <$> ds)) h (λ _, at_ w g (fold_left (λ b d, or_keep (r_strict d) b) ds s) (fold_left (λ b d, or_keep (r_ordering d) b) ds o)
    (fold_left (λ D d, display_given d D) ds D) (ns ++ (ds ≫= given_nodes)) (es ++ (ds ≫= given_edges))).
Proof.
  induction ds as [|d ds IH]; intros s o D ns es h H Ha Hn He.
  - cbn. rewrite !app_nil_r. by apply runs_ret.
  - unfold append_all. cbn [fmap list_fmap siter fold_left]. rewrite !bind_cons in *. 
    assert (Hgn : v_name <$> given_nodes d = given_names d).
    { unfold given_nodes, given_names. destruct (r_nodes d); rewrite <-list_fmap_compose; [done|]. by apply list_fmap_id. }
    assert (Hge : w_key <$> given_edges d = given_ids d).
    { unfold given_edges, given_ids. clear. induction (r_edges d) as [|x l IH]; [done|]. rewrite !bind_cons, fmap_app, IH. f_equal. by destruct x. }
    eapply runs_bind; [apply (runs_append w g s o D ns es h d H); [apply Ha; left|..]|].
    + rewrite app_assoc in Hn. by apply NoDup_app in Hn as [? _].
    + rewrite app_assoc in He. by apply NoDup_app in He as [? _].
    + intros [] h1 H1. rewrite !app_assoc. apply (IH _ _ _ _ _ h1 H1).
      * intros d' Hd'. apply (acceptable_grow h g); [|apply Ha; by right].
        assert (Hnm : ∀ s o D ns es h, at_ w g s o D ns es h → names_of h g = v_name <$> ns).
        { intros ? ? ? ? ? hh (_ & Hs & _). pose proof Hs as (G & HG & _). unfold names_of. rewrite HG. exact (shows_names _ _ _ _ _ HG Hs). }
        rewrite (Hnm _ _ _ _ _ _ H), (Hnm _ _ _ _ _ _ H1), fmap_app. set_solver.
      * by rewrite fmap_app, Hgn, <-app_assoc.
      * by rewrite fmap_app, Hge, <-app_assoc.
Qed.

(** C76.  append with a list of dictionaries, all of whose node names and edge ids are
    new and different, has the effect of appending them one after the other. *)
Lemma C76_list_proof : ∀ h g G D ds ns es, reachable h → h_graphs h !! g = Some G → g_disp G = Some D →
  shows h g ns es → (∀ d, d ∈ ds → acceptable h g d) → NoDup ((v_name <$> ns) ++ (ds ≫= given_names)) → NoDup ((w_key <$> es) ++ (ds ≫= given_ids)) →
  ∃ h', append_all g (ODict <$> ds) h = (h', Ok tt) ∧ shows h' g (ns ++ (ds ≫= given_nodes)) (es ++ (ds ≫= given_edges)) ∧ h_warns h' = h_warns h ∧
    flags h' g = Some (fold_left (λ b d, or_keep (r_strict d) b) ds (g_strict G), fold_left (λ b d, or_keep (r_ordering d) b) ds (g_ordering G),
      Some (fold_left (λ D d, display_given d D) ds D)).
Proof.
  intros h g G D ds ns es Hr HG HD Hs Ha Hn He.
  destruct (runs_append_all (h_warns h) g ds (g_strict G) (g_ordering G) D ns es h) as (h' & [] & Hrun & Hat); try done.
  { split_and!; [by apply reachable_WF|done..|]. unfold flags. rewrite HG. cbn. by rewrite HD. }
  destruct Hat as (_ & H2 & H3 & H4). by exists h'.
Qed.
(** C76.  append with a list stops at the first item that raises; what was appended
    before stays. *)
Lemma C76_list_stops_proof : ∀ g os o os' h h1 h2 x, append_all g os h = (h1, Ok tt) → graph_append g o h1 = (h2, Err x) →
  append_all g (os ++ o :: os') h = (h2, Err x).
Proof.
  intros g os o os'. unfold append_all. induction os as [|o0 os IH]; intros h h1 h2 x H1 H2; cbn [app siter] in *.
  - injection H1 as ->. by rewrite (sbind_fail _ _ _ _ _ H2).
  - apply sbind_Ok in H1 as (h0 & [] & H0 & H1). rewrite (sbind_step _ _ _ _ _ H0). by eapply IH.
Qed.
Definition part (n : string) (v : pv) (to : string) : grepr :=
  MkRepr None None None None None None None None None None None
    (inl [(NStr n, nargs0 <| a_value := v |>)]) [E2 (NStr to) (NStr n)] None None (Some [(NStr n, PStr "blue")]) None.
Lemma part_acceptable n v to h g : NStr to ∈ names_of h g → acceptable h g (part n v to).
Proof.
  intros Hto. split; try done.
  - intros k [->|[]%elem_of_nil]%elem_of_cons. by exists n.
  - intros nd k a [= <-] [[= -> ->]|[]%elem_of_nil]%elem_of_cons. done.
  - intros s [->|[]%elem_of_nil]%elem_of_cons. exists (NStr to), (NStr n). split_and!; [by apply elem_of_app; left|apply elem_of_app; right; left|by left].
Qed.
(** C76, instance: two dictionaries, then something that is not a dictionary. *)
Lemma C76_list_ex_proof : let ds := [part "x" (PInt 1) "a"; part "y" (PInt 2) "b"] in
  reachable sample ∧ (∀ d, d ∈ ds → acceptable sample 0 d) ∧
  ∃ h1 G, append_all 0 (ODict <$> ds) sample = (h1, Ok tt) ∧ append_all 0 ((ODict <$> ds) ++ [OBad; ODict (part "u" (PInt 3) "a")]) sample = (h1, Err TypeError) ∧
  h_graphs h1 !! 0 = Some G ∧ dkeys (g_nodes G) = NStr <$> ["a"; "b"; "c"; "d"; "x"; "y"].
Proof.
  intros ds. split; [apply sample_reachable|]. split.
  - intros d [->|[->|[]%elem_of_nil]%elem_of_cons]%elem_of_cons; apply part_acceptable; dec.
  - do 2 eexists. split; [by vm_compute|]. split; [by vm_compute|]. split; by vm_compute.
Qed.

(** * The attribute line *)
Lemma last_is_app c s : last_is c s = true ↔ ∃ m, s = (m +:+ String c "").
Proof.
  induction s as [|d s IH]; cbn [last_is].
  - split; [done|]. intros (m & Hm). by destruct m.
  - destruct s as [|d' s].
    + unfold eqb. case_bool_decide as H; split; try done.
      * intros _. subst. by exists "".
      * intros ([|x m] & Hm); [injection Hm as ->; done|]. injection Hm as _ Hm. by destruct m.
    + rewrite IH. split.
      * intros (m & ->). by exists (String d m).
      * intros ([|x m] & Hm); [by injection Hm|]. injection Hm as _ Hm. by exists m.
Qed.
Lemma prefix_lt c s : String.prefix "<" (String c s) = true → c = "<"%char.
Proof. unfold String.prefix. destruct (ascii_dec "<" c) as [<-|]; [done|discriminate]. Qed.
Lemma html_spec l : String.prefix "<" l && last_is ">" l = true ↔ html_like l.
Proof.
  unfold html_like. rewrite andb_true_iff, last_is_app. split.
  - intros [Hp (m & ->)]. destruct m as [|c m]; [done|]. change (String.prefix "<" (String c (m +:+ ">")) = true) in Hp.
    apply prefix_lt in Hp as ->. by exists m.
  - intros (m & ->). split; [change (String.prefix "<" (String "<" (m +:+ ">")) = true); by destruct (m +:+ ">")|]. by exists (String "<" m).
Qed.
#[local] Opaque String.append String.concat TAB NL Qt pv_str.
Lemma header_label_written env h D : (∀ t, header_label env h D = Ok t → label_written env h D t) ∧
  ((∃ l, d_label D = PStr l ∧ (html_like l ∨ d_label_bg D = PNone ∨ ∃ c, located D c)) → ∃ t, header_label env h D = Ok t).
Proof.
  unfold header_label. split.
  - intros t. destruct (d_label D) as [| | |l| |] eqn:Hl; try done. destruct (String.prefix "<" l && last_is ">" l) eqn:Hh.
    + intros [= <-]. apply written_html; [done|]. by apply html_spec.
    + assert (¬ html_like l) as Hn by (intros Hx%html_spec; congruence).
      destruct (d_label_bg D) eqn:Hb; [intros [= <-]; by apply written_text|..].
      all: (destruct (d_label_location D) as [| | |[|c0 s0]| |] eqn:Hloc; try done; cbn [first_char rbind]; unfold eqb;
        case_bool_decide as Hc; intros [= <-]; rewrite <-Hb;
        [injection Hc as ->; apply written_top; [done|done|congruence|by exists s0]
        |apply (written_other env h D l c0); [done|done|congruence|by exists s0|intros ->; by apply Hc]]).
  - intros (l & Hl & Hor). rewrite Hl. destruct (String.prefix "<" l && last_is ">" l) eqn:Hh; [by eexists|].
    destruct Hor as [Hx%html_spec|[Hb|(c & s & Hs)]]; [congruence|rewrite Hb; by eexists|].
    rewrite Hs. cbn [first_char rbind]. destruct (d_label_bg D); by eexists.
Qed.
Lemma fold_dset (f : pv → string) kw : ∀ base : list (string * string), NoDup (base.*1) → NoDup (kw.*1 : list string) →
  let attrs := fold_left (λ a (kv : string * pv), dset a kv.1 (f kv.2)) kw base in
  attrs.*1 = base.*1 ++ filter (λ k, k ∉ base.*1) (kw.*1) ∧
  ∀ k v, (k, v) ∈ attrs ↔ (∃ w, (k, w) ∈ kw ∧ v = f w) ∨ k ∉ kw.*1 ∧ (k, v) ∈ base.
Proof.
  induction kw as [|[k0 w0] kw IH]; intros base Hb Hk attrs.
  - subst attrs. cbn. rewrite app_nil_r. split; [done|]. intros k v. split; [intros; right; split; [apply not_elem_of_nil|done]|].
    intros [(w & Hw & _)|[_ ?]]; [by apply elem_of_nil in Hw|done].
  - cbn in Hk. apply NoDup_cons in Hk as [Hk0 Hk]. subst attrs. cbn [fold_left fst snd].
    destruct (IH (dset base k0 (f w0))) as [H1 H2]; [by apply NoDup_dkeys_dset|done|]. split.
    + rewrite H1. cbn [fmap list_fmap fst]. rewrite filter_cons. destruct (decide (k0 ∈ base.*1)) as [Hin|Hin].
      * assert ((dset base k0 (f w0)).*1 = base.*1) as -> by (by apply dkeys_dset_old). rewrite decide_False by (by intros ?). done.
      * rewrite decide_True by done. rewrite (dset_fresh base k0 (f w0)) by done. rewrite fmap_app, <-app_assoc. cbn. f_equal. f_equal.
        apply filter_iff_in. intros k Hk1. rewrite elem_of_app, elem_of_list_singleton. split; [intros Hn Hx; apply Hn; by left|]. intros Hn Hx. destruct Hx as [Hx|Hx]; [by apply Hn|]. subst. by apply Hk0.
    + intros k v. rewrite H2, elem_of_dset by done. cbn. rewrite not_elem_of_cons. setoid_rewrite elem_of_cons. split.
      * intros [(w & Hw & ->)|[Hn [[-> ->]|[Hne Hin]]]]; [left; exists w; auto|left; exists w0; auto|right; auto].
      * intros [(w & [[= -> ->]|Hw] & ->)|[[Hne Hn] Hin]]; [right; split; [done|by left]|left; by exists w|right; split; [done|right; done]].
Qed.

Lemma present_app l1 l2 : present (l1 ++ l2) = present l1 ++ present l2.
Proof. unfold present. apply omap_app. Qed.
Lemma present_keys l : (present l).*1 `sublist_of` l.*1.
Proof. induction l as [|[k [v|]] l IH]; cbn; [constructor|by constructor|by constructor]. Qed.
Lemma label_none D env h : d_label D = PNone → header_label env h D = Err AttributeError.
Proof. intros H. unfold header_label. by rewrite H. Qed.
Lemma usual_keys env h D base : usual_attributes env h D base → NoDup (base.*1).
Proof.
  intros (lab & Hlab & ->). eapply sublist_NoDup; [apply present_keys|]. destruct Hlab as [[_ ->]|(t & _ & ->)]; cbn; dec.
Qed.
Lemma extra_fold env h l (a : dict string string) : fold_left (λ a kv, dset a kv.1 (match kv.2 with PInt z => pretty z | v => quoted (pv_str env h v) end)) l a =
  fold_left (λ a (kv : string * pv), dset a kv.1 (extra_text env h kv.2)) l a.
Proof. revert a. induction l as [|[k v] l IH]; intros a; [done|]. cbn [fold_left]. rewrite IH. by destruct v. Qed.
Lemma attributes_fine env h D : NoDup ((d_kwargs D).*1) → label_fine D →
  ∃ base attrs, usual_attributes env h D base ∧ extended env h (d_kwargs D) base attrs ∧ header_attributes env h D = Ok attrs.
Proof.
  intros Hkw Hf.
  assert (∃ base, usual_attributes env h D base ∧ header_attributes env h D =
    Ok (fold_left (λ a kv, dset a kv.1 (extra_text env h kv.2)) (d_kwargs D) base)) as (base & Hu & ->).
  { unfold header_attributes. destruct Hf as [Hl|(l & Hl & Hor)].
    - rewrite Hl. cbn [rbind app]. eexists. split; [exists []; split; [by left|done]|].
      rewrite extra_fold. unfold present, attr_q, if_given, in_quotes. by destruct (d_tooltip D).
    - destruct (header_label_written env h D) as [Hw Ht]. destruct Ht as [t Ht].
      { exists l. split; [done|]. destruct Hor as [?|[_ [?|?]]]; auto. }
      rewrite Ht. cbn [rbind]. rewrite Hl.
      assert (∃ loc, match d_label_location D with PNone => Ok [] | v => let! c := first_char v in Ok [("labelloc", quoted c)] end = Ok loc ∧
        loc = present [("labelloc", match d_label_location D with PStr (String c _) => Some (in_quotes (String c "")) | _ => None end)]) as (loc & -> & ->).
      { destruct Hor as [(c & s & ->)|[-> _]]; by eexists. }
      cbn [rbind]. eexists. split; [exists (label_attributes env h D t); split; [right; exists t; split; [by apply Hw|done]|done]|].
      rewrite extra_fold. rewrite present_app. unfold label_attributes.
      assert (∀ k v, attr_q env h k v = present [(k, if_given v (in_quotes (pv_str env h v)))]) as Hq by (intros k v; by destruct v).
      rewrite !Hq.
      assert (match d_font_size D with PNone => [] | v => [("fontsize", pv_str env h v)] end = present [("fontsize", if_given (d_font_size D) (pv_str env h (d_font_size D)))]) as ->
        by (by destruct (d_font_size D)).
      assert (match d_label_url D with PNone => [] | v => [("href", quoted (pv_str env h v)); ("target", quoted "_blank")] end =
        present [("href", if_given (d_label_url D) (in_quotes (pv_str env h (d_label_url D)))); ("target", if_given (d_label_url D) (in_quotes "_blank"))]) as ->
        by (by destruct (d_label_url D)).
      change [("label", t)] with (present [("label", Some t)]). rewrite <-!present_app. reflexivity. }
  eexists base, _. split; [done|]. split; [|done]. destruct (fold_dset (extra_text env h) (d_kwargs D) base) as [H1 H2]; [by eapply usual_keys|done|]. by split.
Qed.
Lemma attributes_bad env h D : ¬ label_fine D → ∃ x, header_attributes env h D = Err x.
Proof.
  intros Hn. unfold header_attributes. destruct (d_label D) as [| | |l| |] eqn:Hl; try (unfold header_label; rewrite Hl; by eexists).
  { destruct Hn. by left. }
  destruct (header_label env h D) as [t|x] eqn:Ht; [|by eexists]. cbn [rbind].
  destruct (d_label_location D) as [| | |[|c s]| |] eqn:Hloc; cbn [first_char rbind]; try by eexists.
  - exfalso. apply Hn. right. exists l. split; [done|]. right. split; [done|].
    unfold header_label in Ht. rewrite Hl in Ht. destruct (String.prefix "<" l && last_is ">" l) eqn:Hh; [left; by apply html_spec|]. right.
    rewrite Hloc in Ht. by destruct (d_label_bg D).
  - exfalso. apply Hn. right. exists l. split; [done|]. left. exists c, s. done.
Qed.

(** C66.  The header in full: as C66_header_partial, the attribute line being the label,
    its location, font, colour and link, the tooltip and the extra keyword arguments,
    the latter taking precedence; it raises exactly if the label is not a text or the
    location is unusable. *)
Lemma C66_attributes_proof : ∀ env h g G D dir height width pad, h_graphs h !! g = Some G → g_disp G = Some D → NoDup ((d_kwargs D).*1) →
  (label_fine D → ∃ base attrs, usual_attributes env h D base ∧ extended env h (d_kwargs D) base attrs ∧
     graphviz_header env h g dir height width pad = Ok (header_text (g_strict G) (negb (g_ordering G)) (attribute_line attrs)
       (pe_hexadecimal env (d_background D)) (pad_text env h pad) (used_direction D dir) (size_lines env h height width))) ∧
  (¬ label_fine D → ∃ x, graphviz_header env h g dir height width pad = Err x).
Proof.
  intros env h g G D dir height width pad HG HD Hkw. split.
  - intros Hf. destruct (attributes_fine env h D Hkw Hf) as (base & attrs & Hu & He & Ha). exists base, attrs. split; [done|]. split; [done|].
    unfold graphviz_header, get_display, get_g. rewrite HG. cbn [rbind]. rewrite HD. cbn [rbind]. rewrite Ha. cbn [rbind]. f_equal.
    assert ((match attrs with [] => "" | _ => TAB +:+ " graph [" +:+ String.concat ", " (map (λ kv, kv.1 +:+ " = " +:+ kv.2) attrs) +:+ " ];" +:+ NL end) = attribute_line attrs) as ->.
    { unfold attribute_line, line. destruct attrs; [done|]. by rewrite !append_assoc. }
    generalize (attribute_line attrs). intros at'. unfold header_text, used_direction, pad_text. rewrite size_header. unfold eqb, quoted, line.
    rewrite !bool_decide_decide. generalize (size_lines env h height width) as sz. intros sz.
    assert ((if if decide (dir = "") then true else false then d_direction D else dir) = if decide (dir = "") then d_direction D else dir) as -> by by destruct (decide (dir = "")).
    rewrite upper_capitals. generalize (capitals (if decide (dir = "") then d_direction D else dir)) as u. intros u.
    destruct (decide (u = "TB")), (g_strict G), (g_ordering G), pad; cbn [negb]; rewrite ?append_assoc, ?append_nil_l, ?append_nil_r; reflexivity.
  - intros Hn. destruct (attributes_bad env h D Hn) as (x & Hx). exists x. unfold graphviz_header, get_display, get_g. rewrite HG. cbn [rbind]. rewrite HD. cbn [rbind]. by rewrite Hx.
Qed.
#[local] Transparent String.append String.concat TAB NL Qt pv_str.
(** C66.  The exact header of a graph made by Graph() without options. *)
Lemma C66_default_header_proof : ∀ env h scheme, ∃ h' g, new_graph false true (display0 scheme) h = (h', Ok g) ∧
  graphviz_header env h' g "" PNone PNone DEFAULT_PAD = Ok (default_header (pe_hexadecimal env (CName "#FAFAFA")) (pv_str env h' DEFAULT_PAD)).
Proof.
  intros env h scheme. do 2 eexists. split; [reflexivity|]. unfold graphviz_header, get_display, get_g.
  match goal with |- context [h_graphs ?X !! ?i] => assert (h_graphs X !! i = Some (MkGraph [] false true 0 (Some (display0 scheme)))) as -> by (cbn; rewrite lookup_app_r by done; by rewrite Nat.sub_diag) end. cbn [rbind g_disp].
  set (h' := h <| h_graphs := _ |>). clearbody h'.
  assert (header_attributes env h' (display0 scheme) = Ok [("label", in_quotes (NL +:+ "Powered by Abstract")); ("labelloc", in_quotes "b"); ("fontsize", "10");
    ("fontname", in_quotes "helvetica"); ("fontcolor", in_quotes "deepskyblue3"); ("href", in_quotes "https://github.com/idin/abstract"); ("target", in_quotes "_blank")]) as -> by reflexivity.
  unfold DEFAULT_PAD. generalize (pv_str env h' (PFlt (1 # 10))). cbn [rbind g_strict g_ordering d_background d_direction display0].
  generalize (pe_hexadecimal env (CName "#FAFAFA")). intros x y. f_equal. unfold default_header, line. rewrite !append_assoc. unfold quoted, in_quotes. rewrite !append_assoc.
  reflexivity.
Qed.
Definition fancy : display := disp0 <| d_kwargs := [("fontsize", PInt 12); ("layout", PStr "dot")] |> <| d_label := PStr "L" |> <| d_label_bg := PStr "white" |> <| d_label_location := PStr "top" |>.
(** C66, instance: a label with a background at the top, an option that replaces an
    attribute and one that is added. *)
Lemma C66_attributes_ex_proof : let h := run [CNew true true fancy] empty_heap in reachable h ∧ ∃ G, h_graphs h !! 0 = Some G ∧ g_disp G = Some fancy ∧ label_fine fancy ∧
  NoDup ((d_kwargs fancy).*1) ∧ ∃ s, graphviz_header env0 h 0 "" PNone PNone PNone = Ok s ∧
    mentions ("fontsize = 12, fontname = " +:+ in_quotes "helvetica") s ∧ mentions ("layout = " +:+ in_quotes "dot") s ∧ mentions ("L </td></tr></table>" +:+ NL +:+ ">") s.
Proof.
  intros h. split; [apply run_reachable; [constructor|by repeat split]|]. eexists. split; [by vm_compute|]. split; [by vm_compute|].
  split; [right; exists "L"; split; [done|]; left; by exists "t"%char, "op"|]. split; [dec|]. eexists. split; [by vm_compute|].
  split_and!; apply occurs_mentions; by vm_compute.
Qed.
