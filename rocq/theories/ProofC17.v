(** raw_id, saved drawings and the header: C63, C65, C66. *)
From Verif Require Export ProofC16.
From Verif Require Import ProofLetters.
Local Open Scope string_scope.
Local Open Scope list_scope.

Lemma append_assoc (a b c : string) : ((a +:+ b) +:+ c) = (a +:+ b +:+ c).
Proof. induction a as [|x a IH]; [done|]. change (String x ((a +:+ b) +:+ c) = String x (a +:+ b +:+ c)). by rewrite IH. Qed.
Lemma append_nil_l (a : string) : ("" +:+ a) = a.
Proof. done. Qed.
Lemma append_nil_r (a : string) : (a +:+ "") = a.
Proof. induction a as [|x a IH]; [done|]. change (String x (a +:+ "") = String x a). by rewrite IH. Qed.
Lemma concat_1 a : String.concat "," [a] = a.
Proof. reflexivity. Qed.
Lemma concat_2 a b : String.concat "," [a; b] = (a +:+ "," +:+ b).
Proof. reflexivity. Qed.
#[local] Opaque String.append String.concat TAB NL Qt pv_str.
Lemma size_header env h height width : header_size env h height width = size_lines env h height width.
Proof.
  unfold header_size, size_lines, line, quoted.
  destruct height, width; cbn [app]; rewrite ?concat_1, ?concat_2, ?append_assoc; reflexivity.
Qed.
(** C66.  The header: opening, graph attributes (none, or one line), background, padding,
    ordering, size, direction.  What is written about the ordering is the negation of
    what the graph was created with. *)
Lemma C66_header_partial_proof : ∀ env h g G D dir height width pad s, h_graphs h !! g = Some G → g_disp G = Some D →
  graphviz_header env h g dir height width pad = Ok s →
  ∃ attrs, (attrs = "" ∨ ∃ t, attrs = line (" graph [" +:+ t +:+ " ];")) ∧
    s = header_text (g_strict G) (negb (g_ordering G)) attrs (pe_hexadecimal env (d_background D)) (pad_text env h pad)
          (used_direction D dir) (size_lines env h height width).
Proof.
  intros env h g G D dir height width pad s HG HD. unfold graphviz_header, get_display, get_g. rewrite HG. cbn [rbind]. rewrite HD. cbn [rbind].
  destruct (header_attributes env h D) as [attrs|]; cbn [rbind]; [|done].
  set (at' := match attrs with [] => "" | _ => _ end). intros Hs. apply (f_equal (λ r, match r with Ok x => x | Err _ => "" end)) in Hs.
  exists at'. split.
  - subst at'. destruct attrs as [|p attrs]; [by left|right].
    exists (String.concat ", " (map (λ kv : string * string, kv.1 +:+ " = " +:+ kv.2) (p :: attrs))). unfold line. rewrite !append_assoc. reflexivity.
  - clearbody at'. rewrite <-Hs. unfold header_text, used_direction, pad_text. rewrite size_header. unfold eqb, quoted, line.
    rewrite !bool_decide_decide. generalize (size_lines env h height width) as sz. intros sz.
    assert ((if if decide (dir = "") then true else false then d_direction D else dir) = if decide (dir = "") then d_direction D else dir) as -> by by destruct (decide (dir = "")).
    rewrite upper_capitals. generalize (capitals (if decide (dir = "") then d_direction D else dir)) as u. intros u.
    destruct (decide (u = "TB")), (g_strict G), (g_ordering G), pad; cbn [negb]; rewrite ?append_assoc, ?append_nil_l, ?append_nil_r; reflexivity.
Qed.

Lemma prefix_app t x : String.prefix t (t +:+ x) = true.
Proof. induction t as [|c t IH]; [by destruct x|]. change (String.prefix (String c t) (String c (t +:+ x)) = true). simpl. destruct (ascii_dec c c); [done|congruence]. Qed.
Fixpoint occurs (t s : string) : bool :=
  String.prefix t s || match s with "" => false | String _ s' => occurs t s' end.
Lemma mentions_occurs t s : mentions t s → occurs t s = true.
Proof.
  intros (pre & post & ->). induction pre as [|c pre IH].
  - rewrite append_nil_l. destruct (t +:+ post) eqn:H; cbn [occurs]; rewrite <-H, prefix_app; done.
  - change (occurs t (String c (pre +:+ t +:+ post)) = true). cbn [occurs]. by rewrite IH, orb_true_r.
Qed.
Lemma prefix_inv t s : String.prefix t s = true → ∃ post, s = (t +:+ post).
Proof.
  revert s. induction t as [|c t IH]; intros s Hp; [by exists s|]. destruct s as [|d s]; [done|]. cbn in Hp. destruct (ascii_dec c d) as [->|]; [|done].
  destruct (IH s Hp) as [post ->]. by exists post.
Qed.
Lemma occurs_mentions t s : occurs t s = true → mentions t s.
Proof.
  induction s as [|c s IH]; cbn [occurs]; intros [Hp|H]%orb_true_iff; try done.
  - destruct (prefix_inv _ _ Hp) as [post ->]. by exists "", post.
  - destruct (prefix_inv _ _ Hp) as [post ->]. by exists "", post.
  - destruct (IH H) as (pre & post & ->). by exists (String c pre), post.
Qed.
(** C66.  A graph created with ordering=True gets no ordering statement, one created with
    ordering=False gets it. *)
Lemma C66_ordering_refuted_proof : ∃ h g1 g2 G1 G2, reachable h ∧ h_graphs h !! g1 = Some G1 ∧ h_graphs h !! g2 = Some G2 ∧
  g_ordering G1 = true ∧ g_ordering G2 = false ∧
  (∃ s, graphviz_header env0 h g1 "" PNone PNone PNone = Ok s ∧ ¬ mentions "ordering" s) ∧
  (∃ s, graphviz_header env0 h g2 "" PNone PNone PNone = Ok s ∧ mentions "ordering=out" s).
Proof.
  exists sample, 0, 1. do 2 eexists. split; [apply sample_reachable|]. do 2 (split; [by vm_compute|]). do 2 (split; [by vm_compute|]). split.
  - eexists. split; [by vm_compute|]. intros H%mentions_occurs. vm_compute in H. done.
  - eexists. split; [vm_compute; reflexivity|]. apply occurs_mentions. vm_compute. reflexivity.
Qed.

Lemma graphviz_split env h g dir pad : ∃ X : res (string * string), ∀ height width,
  graphviz_str env h g dir height width pad = let! pp := X in Ok (pp.1 +:+ size_lines env h height width +:+ pp.2).
Proof.
  unfold graphviz_str. destruct (get_display h g) as [D|x]; cbn [rbind]; [|by exists (Err x)].
  destruct (nodes h g) as [ns|x]; cbn [rbind]; [|by exists (Err x)]. destruct (rmap _ ns) as [nstrs|x]; cbn [rbind]; [|by exists (Err x)].
  destruct (graph_edges h g) as [es|x]; cbn [rbind]; [|by exists (Err x)]. destruct (rmap _ es) as [estrs|x]; cbn [rbind]; [|by exists (Err x)].
  unfold graphviz_header. destruct (get_g h g) as [G|x]; cbn [rbind]; [|by exists (Err x)]. destruct (get_display h g) as [D'|x]; cbn [rbind]; [|by exists (Err x)].
  destruct (header_attributes env h D') as [attrs|x]; cbn [rbind]; [|by exists (Err x)].
  set (a1 := if g_strict G then _ else _). set (a2 := match attrs with [] => "" | _ => _ end). set (a3 := quoted (pe_hexadecimal _ _)).
  set (a4 := match pad with PNone => "" | _ => _ end). set (a5 := if g_ordering G then _ else _). set (a6 := if eqb (upper _) "TB" then _ else _).
  eexists (Ok (a1 +:+ a2 +:+ TAB +:+ "bgcolor=" +:+ a3 +:+ ";" +:+ NL +:+ a4 +:+ a5, _)). intros height width. cbn [rbind fst snd].
  rewrite size_header, !append_assoc. reflexivity.
Qed.
(** C65.  render(path=...) leaves the same state as render() and returns the same text, or
    raises the same exception; the text it saves is the returned one with the size lines
    inserted (the same text if neither height nor width is given). *)
Lemma C65_save_proof : ∀ env h g save dir height width pad shuffle,
  (render_save env g save dir height width pad shuffle h).1 = (render env g dir pad shuffle h).1 ∧
  match (render env g dir pad shuffle h).2 with
  | Err x => (render_save env g save dir height width pad shuffle h).2 = Err x
  | Ok t => ∃ o, (render_save env g save dir height width pad shuffle h).2 = Ok (o, t) ∧
      if save then ∃ s, o = Some s ∧ inserted (size_lines env (render env g dir pad shuffle h).1 height width) t s else o = None
  end.
Proof.
  intros env h g save dir height width pad sh. unfold render_save, render, sbind, sread. destruct (stylize g sh h) as [h1 [[]|x]]; [|done].
  destruct (graphviz_split env h1 g dir pad) as [X HX]. rewrite !HX. destruct save; destruct X as [[pre post]|x]; cbn; rewrite ?HX; cbn; [|done| |done].
  - split; [done|]. eexists. split; [done|]. eexists. split; [done|]. exists pre, post. done.
  - split; [done|]. by eexists.
Qed.
(** Saving graph 1 of the sample with a height. *)
Lemma C65_ex_proof : ∃ s t, (render_save env0 1 true "" (PInt 5) PNone PNone (λ l, l) sample).2 = Ok (Some s, t) ∧
  (render env0 1 "" PNone (λ l, l) sample).2 = Ok t ∧ mentions "size=" s ∧ ¬ mentions "size=" t.
Proof.
  do 2 eexists. split; [by vm_compute|]. split; [by vm_compute|]. split.
  - apply occurs_mentions. vm_compute. reflexivity.
  - intros H%mentions_occurs. vm_compute in H. done.
Qed.

(** C63.  Assigning node.raw_id changes only the name that the node reports: the graph
    keeps it under the old name; it is not found under the new one, and passing the node
    itself fails too, unless the graph has another node of the new name (which is then
    taken instead). *)
Lemma C63_node_partial_proof : ∀ h g r N n, reachable h → h_nodes h !! r = Some N → n_graph N = Some g → n ≠ n_id N →
  let h' := renamed h r N n in
  node_set_raw_id r n h = (h', Ok tt) ∧ get_node h' g (AName (n_id N)) = Ok r ∧
  match get_node h g (AName n) with
  | Ok r2 => get_node h' g (AName n) = Ok r2 ∧ get_node h' g (ANode r) = Ok r2 ∧ r2 ≠ r
  | Err _ => get_node h' g (AName n) = Err KeyError ∧ get_node h' g (ANode r) = Err KeyError ∧
             node_children h' r = Err KeyError ∧ node_parents h' r = Err KeyError
  end.
Proof.
  intros h g r N n Hr HN Hg Hn. apply reachable_WF in Hr as W. cbv zeta. split; [unfold node_set_raw_id, upd_n; by rewrite HN|].
  destruct (wf_ngraph _ W r N g HN Hg) as (G & HG & Hin). pose proof (wf_gkeys _ W g G HG) as Hnd.
  assert (h_nodes (renamed h r N n) !! r = Some (N <| n_id := n |>)) as HN'.
  { unfold renamed. simpl. rewrite list_lookup_insert; [done|]. by eapply lookup_lt_Some. }
  assert (h_graphs (renamed h r N n) !! g = Some G) as HG' by done.
  assert (∀ k, get_node h g (AName k) = dgetR (g_nodes G) k) as H1 by (intros k; unfold get_node, get_g; by rewrite HG).
  assert (∀ k, get_node (renamed h r N n) g (AName k) = dgetR (g_nodes G) k) as H2.
  { intros k. unfold get_node, get_g. by rewrite HG'. }
  assert (get_node (renamed h r N n) g (ANode r) = dgetR (g_nodes G) n) as H3.
  { unfold get_node, get_g, get_n. rewrite HG', HN'. done. }
  rewrite H1, !H2, H3. unfold dgetR. rewrite (dget_in_Some _ _ _ Hnd Hin). split; [done|].
  destruct (dget (g_nodes G) n) as [r2|] eqn:Hd.
  - split_and!; [done..|]. intros ->. apply dget_Some_in in Hd. destruct (wf_gnodes _ W g G n r HG Hd) as (N' & ? & ? & ?). congruence.
  - assert (node_graph (renamed h r N n) r = Ok g) as Hgr.
    { unfold node_graph, get_n. rewrite HN'. cbn [rbind]. cbn. by rewrite Hg. }
    unfold dgetR in H3. rewrite Hd in H3. split_and!; [done..| |].
    + unfold node_children, get_children, get_outward_edges. rewrite Hgr. cbn [rbind]. by rewrite H3.
    + unfold node_parents, get_parents, get_inward_edges. rewrite Hgr. cbn [rbind]. by rewrite H3.
Qed.
(** C63.  So renaming a node by raw_id loses it. *)
Lemma C63_node_refuted_proof : ∃ h g r n, reachable h ∧ in_graph h g r ∧ get_node h g (AName n) = Err KeyError ∧
  (node_set_raw_id r n h).2 = Ok tt ∧ get_node (node_set_raw_id r n h).1 g (AName n) = Err KeyError ∧
  node_children (node_set_raw_id r n h).1 r = Err KeyError.
Proof.
  exists sample, 0, 1, (nm "new"). split; [apply sample_reachable|]. split; [|by vm_compute]. eexists _, (nm "b"). split; [by vm_compute|dec].
Qed.
Lemma remove_outward_fail h r N i : h_nodes h !! r = Some N → i ∉ dkeys (n_out N) → remove_outward r i h = (h, Err KeyError).
Proof.
  intros HN Hi. unfold remove_outward, sbind, sread, get_n. rewrite HN. apply dmem_false in Hi. by rewrite Hi.
Qed.
(** C63.  After edge.raw_id = u for an id that the two nodes do not have yet, the edge is
    still listed under the old id, and disconnect and remove_self raise KeyError and
    change nothing. *)
Lemma C63_edge_partial_proof : ∀ h g e i E u, reachable h → has_id h g e i → h_edges h !! e = Some E →
  (∀ e', ¬ has_id h g e' (i.1, RId u)) →
  let h' := reraw h e E u in
  edge_set_raw_id e u h = (h', Ok tt) ∧ get_edge_id h' e = Ok (i.1, RId u) ∧
  (∃ x N, e_start E = Some x ∧ h_nodes h' !! x = Some N ∧ (i, e) ∈ n_out N) ∧
  disconnect e h' = (h', Err KeyError) ∧ remove_self e h' = (h', Err KeyError).
Proof.
  intros h g e i E u Hr Hi HE Hu. apply reachable_WF in Hr as W. cbv zeta.
  destruct Hi as (x & y & E0 & Nx & Ny & (E1 & HE1 & Hg & Hs & Ht) & HE0 & HNx & HNy & ->).
  assert (E0 = E) as -> by congruence. assert (E1 = E) as -> by congruence. simpl in Hu.
  split; [unfold edge_set_raw_id, upd_e; by rewrite HE|].
  assert (h_edges (reraw h e E u) !! e = Some (E <| e_raw := RId u |>)) as HE'.
  { unfold reraw. simpl. rewrite list_lookup_insert; [done|]. by eapply lookup_lt_Some. }
  assert (get_edge_id (reraw h e E u) e = Ok (n_id Nx, n_id Ny, RId u)) as Hid.
  { unfold get_edge_id, get_e. rewrite HE'. cbn [rbind]. simpl. rewrite Hs, Ht. unfold get_n. simpl. rewrite HNx, HNy. done. }
  split; [done|].
  destruct (wf_live _ W e E g HE Hg) as (s' & t' & Ns' & Nt' & u' & A1 & A2 & A3 & A4 & A5 & A6 & A7 & A8 & A9).
  assert ((n_id Nx, n_id Ny, e_raw E, e) ∈ n_out Nx) as Hout by (by simplify_eq).
  split. { exists x, Nx. split_and!; done. }
  assert ((n_id Nx, n_id Ny, RId u) ∉ dkeys (n_out Nx)) as Hf.
  { intros (e' & He')%elem_of_dkeys. apply (Hu e'). destruct (wf_out _ W x Nx _ e' HNx He') as (g' & E' & t & Nt & HE2 & Hs2 & Ht2 & HNt & Hk & Hg2).
    exists x, t, E', Nx, Nt. assert (g' = g) as ->.
    { destruct (wf_live _ W e' E' g' HE2 Hg2) as (s1 & t1 & N1 & N2 & u1 & B1 & B2 & B3 & B4 & B5 & B6 & _). simplify_eq. congruence. }
    split_and!; try done. by exists E'. }
  assert (remove_outward x (n_id Nx, n_id Ny, RId u) (reraw h e E u) = (reraw h e E u, Err KeyError)) as Hro by (by eapply remove_outward_fail).
  split.
  - unfold disconnect, sbind at 1, sread, edge_start, get_e. rewrite HE'. cbn [rbind]. cbn [e_start set]. simpl. rewrite Hs.
    unfold sbind at 1, sread. rewrite Hid. unfold sbind at 1. by rewrite Hro.
  - unfold remove_self, sbind at 1, sread, get_e. rewrite HE'. simpl. rewrite Hs, Ht. unfold sbind at 1, sread. rewrite Hid. unfold sbind at 1. by rewrite Hro.
Qed.
(** C63.  Giving an edge the id of another edge between the same nodes and removing it
    unlists the other edge instead. *)
Lemma C63_edge_refuted_proof : ∃ h g e1 e2 u h' es, reachable h ∧ e1 ≠ e2 ∧ (∃ x y, joins h g e1 x y ∧ joins h g e2 x y) ∧
  h' = (remove_self e1 (edge_set_raw_id e1 u h).1).1 ∧ (remove_self e1 (edge_set_raw_id e1 u h).1).2 = Ok tt ∧
  get_outward_edges h' g (an "a") = Ok es ∧ e1 ∈ es ∧ e2 ∉ es ∧ (∃ x y, joins h' g e2 x y) ∧ graph_edges h' g = Err ValueError.
Proof.
  exists sample, 0, 0, 3, (Some (nm "x")). do 2 eexists. split; [apply sample_reachable|]. split; [done|]. split.
  { exists 0, 1. split; eexists; by vm_compute. }
  split; [vm_compute; reflexivity|]. split; [by vm_compute|]. split; [by vm_compute|]. split; [dec|]. split; [dec|]. split; [|by vm_compute].
  exists 0, 1. eexists. by vm_compute.
Qed.
