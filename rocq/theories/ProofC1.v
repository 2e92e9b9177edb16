(** Properties C01-C11 (except C04): construction and removal. *)
From Verif Require Export ProofAdj Samples.
Local Open Scope string_scope.
Local Open Scope list_scope.

(** C01.  After any history of calls (failing ones included) the heap is
    consistent: see [consistent] in Spec.v. *)
Lemma C01_consistent_proof : ∀ h, reachable h → consistent h.
Proof. intros h ?%reachable_WF. by apply WF_consistent. Qed.
(** C01, instance: a reachable heap with edges in it. *)
Lemma C01_consistent_ex_proof : reachable sample ∧
  (∃ N, h_nodes sample !! 2 = Some N ∧ length (n_out N) = 2 ∧ length (n_in N) = 2).
Proof. split; [apply sample_reachable|]. eexists. by split_and!. Qed.

(** C02.  add_node with a fresh str name: one node object is appended, it is
    filed last in the graph, the index counter is incremented; nothing else
    changes.  If the style argument is rejected, only the counter changes. *)
Lemma C02_add_node_fresh_proof : ∀ h g G s a, reachable h →
  h_graphs h !! g = Some G → NStr s ∉ (g_nodes G).*1 →
  let G1 := G <| g_counter := (g_counter G + 1)%Z |> in
  let r := length (h_nodes h) in
  add_node g (AName (NStr s)) a h =
  match restyled nstyle_ctor (length (h_ns h)) None (a_style a) with
  | Ok (st, l) =>
    (h <| h_nodes := h_nodes h ++ [MkNode (Some g) (NStr s) (a_value a) (a_label a) (a_tooltip a) st false
                                     (a_params a) [] [] (g_counter G)] |>
       <| h_graphs := <[g := G1 <| g_nodes := g_nodes G ++ [(NStr s, r)] |>]> (h_graphs h) |>
       <| h_ns := h_ns h ++ l |>, Ok (Some r))
  | Err x => (h <| h_graphs := <[g := G1]> (h_graphs h) |>, Err x)
  end.
Proof.
  intros h g G s a Hr HG Hs G1 r. rewrite (add_node_fresh_eq h g G s a); [|done|by apply dget_None].
  simpl. by destruct (restyled nstyle_ctor (length (h_ns h)) None (a_style a)) as [[st l]|x].
Qed.
(** C02, instance. *)
Lemma C02_add_node_fresh_ex_proof : reachable sample ∧
  (∃ G, h_graphs sample !! 0 = Some G ∧ NStr "new" ∉ (g_nodes G).*1) ∧
  (add_node 0 (an "new") nargs0 sample).2 = Ok (Some 6).
Proof.
  split; [apply sample_reachable|]. split; [|by vm_compute]. eexists. split; [done|]. dec.
Qed.

Lemma add_node_existing_spec : ∀ h g s a r N, WF h →
  named h g (NStr s) r → h_nodes h !! r = Some N →
  add_node g (AName (NStr s)) a h =
  if lenient (a_mode a) then node_updated h r N a (warning_of (a_mode a) (WNode (NStr s)))
  else (h, Err KeyError).
Proof.
  intros h g s a r N W (G & HG & Hr) HN. apply (add_node_existing_eq h g G s r N a); [done| |done].
  apply dget_in_Some; [|done]. by apply (wf_gkeys _ W g).
Qed.
(** C03.  add_node with the name of an existing node. *)
Lemma C03_add_node_existing_proof : ∀ h g s a r N, reachable h →
  named h g (NStr s) r → h_nodes h !! r = Some N →
  add_node g (AName (NStr s)) a h =
  if lenient (a_mode a) then node_updated h r N a (warning_of (a_mode a) (WNode (NStr s)))
  else (h, Err KeyError).
Proof. intros h g s a r N W%reachable_WF. by apply add_node_existing_spec. Qed.
(** C03.  Hence no call of add_node with an existing name touches an edge, a graph
    object or another node, and the node keeps its name, graph, edges, index. *)
Lemma C03_add_node_existing_frame_proof : ∀ h g s a r N, reachable h →
  named h g (NStr s) r → h_nodes h !! r = Some N →
  let h' := (add_node g (AName (NStr s)) a h).1 in
  h_edges h' = h_edges h ∧ h_graphs h' = h_graphs h ∧
  ∃ N', h_nodes h' = <[r := N']> (h_nodes h) ∧
    n_id N' = n_id N ∧ n_graph N' = n_graph N ∧ n_out N' = n_out N ∧ n_in N' = n_in N ∧
    n_index N' = n_index N ∧ n_frozen N' = n_frozen N ∧ n_params N' = n_params N ∧ n_tooltip N' = n_tooltip N.
Proof.
  intros h g s a r N Hr Hn HN h'. unfold h'. rewrite (C03_add_node_existing_proof h g s a r N) by done.
  destruct (lenient _).
  - unfold node_updated. destruct (optional_style _ _ _ _ _ _) as [[st l]|x].
    + destruct (_ && _); simpl; (split; [done|]; split; [done|]; by eexists).
    + simpl. do 2 (split; [done|]). by eexists.
  - simpl. do 2 (split; [done|]). exists N. split; [|done]. by rewrite list_insert_id.
Qed.
(** C03, instance: a label update with a warning, and a refused call. *)
Lemma C03_add_node_existing_ex_proof : reachable sample ∧ named sample 0 (NStr "b") 1 ∧
  (∃ h', add_node 0 (an "b") (nargs0 <| a_label := PStr "B" |>) sample = (h', Ok (Some 1)) ∧
     h_warns h' = [WNode (NStr "b")] ∧ n_label <$> h_nodes h' !! 1 = Some (PStr "B")) ∧
  add_node 0 (an "b") (nargs0 <| a_mode := "error" |>) sample = (sample, Err KeyError).
Proof.
  split; [apply sample_reachable|]. split; [|split].
  - eexists. split; [done|]. right. left.
  - eexists. by vm_compute.
  - by vm_compute.
Qed.

(** the entry of an edge, found through its id *)
Lemma out_entry_joins h g s t e Ns Nt u : WF h → h_nodes h !! s = Some Ns → h_nodes h !! t = Some Nt →
  n_graph Ns = Some g → n_graph Nt = Some g →
  dget (n_out Ns) (n_id Ns, n_id Nt, u) = Some e ↔ joins h g e s t ∧ e_raw <$> h_edges h !! e = Some u.
Proof.
  intros W HNs HNt Hgs Hgt. split.
  - intros He%dget_Some_in.
    destruct (WF_out_entry h s Ns _ e W HNs He) as (g1 & E & t1 & Nt1 & u1 & HE & HgE & Hs & Ht & HNt1 & Hu & Hg1 & Hgt1 & Hk & _).
    injection Hk as Hn Hu'. assert (g1 = g) as -> by congruence.
    assert (t1 = t) as -> by (by eapply (WF_name_inj h g t1 t Nt1 Nt)).
    split; [by exists E|]. rewrite HE. simpl. congruence.
  - intros [(E & HE & HgE & Hs & Ht) Hu]. rewrite HE in Hu. simpl in Hu.
    destruct (wf_live _ W e E g HE HgE) as (s' & t' & Ns' & Nt' & u' & ? & ? & ? & ? & ? & ? & ? & Ho & _).
    assert (s' = s) as -> by congruence. assert (t' = t) as -> by congruence.
    assert (Ns' = Ns) as -> by congruence. assert (Nt' = Nt) as -> by congruence.
    apply dget_in_Some; [by eapply wf_nout|]. assert (e_raw E = u) as <- by congruence. done.
Qed.
Lemma denotes_node h g x r N : WF h → denotes h g x r → h_nodes h !! r = Some N → n_graph N = Some g.
Proof.
  intros W (k & Hk & _) HN. apply (named_node h g k r) in Hk as (N' & ? & ? & _); [|done]. congruence.
Qed.

Lemma connect_new_spec : ∀ h g x y a s t Ns Nt, WF h →
  denotes h g x s → denotes h g y t → h_nodes h !! s = Some Ns → h_nodes h !! t = Some Nt →
  (∀ e E, h_edges h !! e = Some E → e_raw E = RId (c_id a) → ¬ joins h g e s t) →
  let i := (n_id Ns, n_id Nt, RId (c_id a)) in
  let e := length (h_edges h) in
  connect g x y a h =
  match restyled estyle_ctor (length (h_es h)) None (c_style a) with
  | Ok (st, l) =>
    (h <| h_nodes := imap (with_new_edge s t i e) (h_nodes h) |>
       <| h_edges := h_edges h ++ [MkEdge (Some g) (RId (c_id a)) (c_value a) (c_label a) (c_tooltip a) st false
                                     (c_params a) (Some s) (Some t)] |>
       <| h_es := h_es h ++ l |>, Ok e)
  | Err x => (h, Err x)
  end.
Proof.
  intros h g x y a s t Ns Nt W Hx Hy HNs HNt Hno i e.
  rewrite (connect_eq h g x y a s t Ns Nt) by (done || by apply get_node_denotes). simpl.
  destruct (dget _ _) as [e'|] eqn:He'; [|done].
  apply (out_entry_joins h g s t e') in He' as [Hj Hu]; [|done|done|done|exact (denotes_node _ _ _ _ _ W Hx HNs)|exact (denotes_node _ _ _ _ _ W Hy HNt)].
  destruct (h_edges h !! e') as [E|] eqn:HE; [|done]. simpl in Hu. injection Hu as Hu. destruct (Hno e' E HE Hu Hj).
Qed.
(** C05.  connect when no edge with this start, end and id exists: one edge object
    is appended to the heap; it is filed last among the outward edges of its
    start and the inward edges of its end.  Nothing else changes.  If the style
    argument is rejected nothing changes at all. *)
Lemma C05_connect_new_proof : ∀ h g x y a s t Ns Nt, reachable h →
  denotes h g x s → denotes h g y t → h_nodes h !! s = Some Ns → h_nodes h !! t = Some Nt →
  (∀ e E, h_edges h !! e = Some E → e_raw E = RId (c_id a) → ¬ joins h g e s t) →
  let i := (n_id Ns, n_id Nt, RId (c_id a)) in
  let e := length (h_edges h) in
  connect g x y a h =
  match restyled estyle_ctor (length (h_es h)) None (c_style a) with
  | Ok (st, l) =>
    (h <| h_nodes := imap (with_new_edge s t i e) (h_nodes h) |>
       <| h_edges := h_edges h ++ [MkEdge (Some g) (RId (c_id a)) (c_value a) (c_label a) (c_tooltip a) st false
                                     (c_params a) (Some s) (Some t)] |>
       <| h_es := h_es h ++ l |>, Ok e)
  | Err x => (h, Err x)
  end.
Proof. intros h g x y a s t Ns Nt W%reachable_WF. by apply connect_new_spec. Qed.
(** C05.  The new edge joins the two nodes, all other edges join what they joined. *)
Lemma C05_connect_new_joins_proof : ∀ h g x y a s t Ns Nt h' e, reachable h →
  denotes h g x s → denotes h g y t → h_nodes h !! s = Some Ns → h_nodes h !! t = Some Nt →
  (∀ e E, h_edges h !! e = Some E → e_raw E = RId (c_id a) → ¬ joins h g e s t) →
  connect g x y a h = (h', Ok e) →
  ∀ g' e' u v, joins h' g' e' u v ↔ joins h g' e' u v ∨ (g' = g ∧ e' = e ∧ u = s ∧ v = t).
Proof.
  intros h g x y a s t Ns Nt h' e Hr Hx Hy HNs HNt Hno Hc g' e' u v.
  rewrite (C05_connect_new_proof h g x y a s t Ns Nt) in Hc by done. simpl in Hc.
  destruct (restyled _ _ _ _) as [[st l]|]; [|done]. injection Hc as <- <-. unfold joins. simpl. split.
  - intros (E & HE & ? & ? & ?). apply lookup_app_Some in HE as [HE|[Hle HE]]; [left; by exists E|].
    right. destruct (e' - length (h_edges h)) as [|n] eqn:Hn; [|destruct n; done]. injection HE as <-. simpl in *. simplify_eq.
    split_and!; [done|lia|done..].
  - intros [(E & HE & ? & ? & ?)|(-> & -> & -> & ->)].
    + exists E. split; [|done]. by apply lookup_app_l_Some.
    + eexists. split; [by rewrite lookup_app_r, Nat.sub_diag by lia|done].
Qed.
(** C05, instance: a second self-loop, under another id. *)
Lemma C05_connect_new_ex_proof : reachable sample ∧ denotes sample 0 (an "c") 2 ∧
  (∀ e E, h_edges sample !! e = Some E → e_raw E = RId (Some (nm "y")) → ¬ joins sample 0 e 2 2) ∧
  (connect 0 (an "c") (an "c") (eargs0 <| c_id := Some (nm "y") |>) sample).2 = Ok 7.
Proof.
  split; [apply sample_reachable|]. split_and!; [| |by vm_compute].
  - exists (nm "c"). split; [|by left]. eexists. split; [done|]. by do 2 right; left.
  - intros e E He Hu. do 7 (destruct e as [|e]; [injection He as <-; discriminate|]). done.
Qed.

Lemma connect_existing_spec : ∀ h g x y a s t Ns Nt e E, WF h →
  denotes h g x s → denotes h g y t → h_nodes h !! s = Some Ns → h_nodes h !! t = Some Nt →
  joins h g e s t → h_edges h !! e = Some E → e_raw E = RId (c_id a) →
  connect g x y a h =
  if lenient (c_mode a)
  then edge_updated h e E a (warning_of (c_mode a) (WEdge (n_id Ns, n_id Nt, RId (c_id a))))
  else (h, Err ValueError).
Proof.
  intros h g x y a s t Ns Nt e E W Hx Hy HNs HNt Hj HE Hu.
  rewrite (connect_eq h g x y a s t Ns Nt) by (done || by apply get_node_denotes). simpl.
  rewrite (proj2 (out_entry_joins h g s t e Ns Nt (RId (c_id a)) W HNs HNt
     (denotes_node _ _ _ _ _ W Hx HNs) (denotes_node _ _ _ _ _ W Hy HNt))); [by rewrite HE|].
  split; [done|]. rewrite HE. simpl. congruence.
Qed.
(** C06.  connect when the edge exists already. *)
Lemma C06_connect_existing_proof : ∀ h g x y a s t Ns Nt e E, reachable h →
  denotes h g x s → denotes h g y t → h_nodes h !! s = Some Ns → h_nodes h !! t = Some Nt →
  joins h g e s t → h_edges h !! e = Some E → e_raw E = RId (c_id a) →
  connect g x y a h =
  if lenient (c_mode a)
  then edge_updated h e E a (warning_of (c_mode a) (WEdge (n_id Ns, n_id Nt, RId (c_id a))))
  else (h, Err ValueError).
Proof. intros h g x y a s t Ns Nt e E W%reachable_WF. by apply connect_existing_spec. Qed.
(** C06.  Hence connect on an existing edge touches no node, no graph object and no
    other edge. *)
Lemma C06_connect_existing_frame_proof : ∀ h g x y a s t Ns Nt e E, reachable h →
  denotes h g x s → denotes h g y t → h_nodes h !! s = Some Ns → h_nodes h !! t = Some Nt →
  joins h g e s t → h_edges h !! e = Some E → e_raw E = RId (c_id a) →
  let h' := (connect g x y a h).1 in
  h_nodes h' = h_nodes h ∧ h_graphs h' = h_graphs h ∧
  ∃ E', h_edges h' = <[e := E']> (h_edges h) ∧
    e_raw E' = e_raw E ∧ e_graph E' = e_graph E ∧ e_start E' = e_start E ∧ e_end E' = e_end E ∧
    e_frozen E' = e_frozen E ∧ e_params E' = e_params E ∧ e_tooltip E' = e_tooltip E.
Proof.
  intros h g x y a s t Ns Nt e E Hr Hx Hy HNs HNt Hj HE Hu h'. unfold h'.
  rewrite (C06_connect_existing_proof h g x y a s t Ns Nt e E) by done.
  destruct (lenient _).
  - unfold edge_updated. destruct (optional_style _ _ _ _ _ _) as [[st l]|z].
    + destruct (_ && _); simpl; (split; [done|]; split; [done|]; by eexists).
    + simpl. do 2 (split; [done|]). by eexists.
  - simpl. do 2 (split; [done|]). exists E. split; [|done]. by rewrite list_insert_id.
Qed.
(** C06.  In a reachable heap two different edges of a graph never have the same
    start, end and id. *)
Lemma C06_ids_unique_proof : ∀ h g e1 e2 E1 E2 s t, reachable h →
  h_edges h !! e1 = Some E1 → h_edges h !! e2 = Some E2 → joins h g e1 s t → joins h g e2 s t →
  e_raw E1 = e_raw E2 → e1 = e2.
Proof.
  intros h g e1 e2 E1 E2 s t W%reachable_WF HE1 HE2 Hj1 Hj2 Hu.
  destruct (joins_in_graph h g e1 s t) as [Hs Ht]; [done..|].
  apply in_graph_node in Hs as (Ns & HNs & Hgs); [|done]. apply in_graph_node in Ht as (Nt & HNt & Hgt); [|done].
  pose proof (out_entry_joins h g s t e1 Ns Nt (e_raw E1) W HNs HNt Hgs Hgt) as H1.
  pose proof (out_entry_joins h g s t e2 Ns Nt (e_raw E1) W HNs HNt Hgs Hgt) as H2.
  rewrite HE1 in H1. rewrite HE2, Hu in H2. destruct H1 as [_ H1]. destruct H2 as [_ H2].
  rewrite Hu in H1. specialize (H1 (conj Hj1 (f_equal Some Hu))). specialize (H2 (conj Hj2 eq_refl)). congruence.
Qed.
(** C06, instance: edge 0 of the sample joins a and b; edge 3 too, under id x. *)
Lemma C06_connect_existing_ex_proof : reachable sample ∧ joins sample 0 0 0 1 ∧ joins sample 0 3 0 1 ∧
  (∃ h', connect 0 (an "a") (an "b") (eargs0 <| c_value := PInt 3 |>) sample = (h', Ok 0) ∧
     e_value <$> h_edges h' !! 0 = Some (PInt 3) ∧ length (h_warns h') = 1) ∧
  connect 0 (an "a") (an "b") (eargs0 <| c_mode := "error" |>) sample = (sample, Err ValueError).
Proof.
  split; [apply sample_reachable|]. split_and!; [by eexists|by eexists| |by vm_compute].
  eexists. by vm_compute.
Qed.

(** undoing a new edge *)
Lemma without_new_edge h s t i r N : WF h → h_nodes h !! r = Some N →
  cut_node [length (h_edges h)] (with_new_edge s t i (length (h_edges h)) r N) = N.
Proof.
  intros W HN. set (e := length (h_edges h)).
  assert (Ho : ∀ k, (k, e) ∉ n_out N).
  { intros k Hk. destruct (WF_out_entry h r N k e) as (?&E&?&?&?&HE&_); [done..|]. apply lookup_lt_Some in HE. subst e. lia. }
  assert (Hi : ∀ k, (k, e) ∉ n_in N).
  { intros k Hk. destruct (WF_in_entry h r N k e) as (?&E&?&?&?&HE&_); [done..|]. apply lookup_lt_Some in HE. subst e. lia. }
  assert (Hcut : ∀ (d : dict edge_id eref) (P : Prop) `{Decision P}, (∀ k, (k, e) ∉ d) → cut [e] (d ++ (if decide P then [(i, e)] else [])) = d).
  { intros d P ? Hd. unfold cut. rewrite filter_app. fold (cut [e] d). rewrite cut_id by done.
    destruct (decide P); [|by rewrite app_nil_r]. rewrite filter_cons_False; [by rewrite app_nil_r|]. simpl. rewrite elem_of_list_singleton. tauto. }
  assert (cut [e] (n_out (with_new_edge s t i e r N)) = n_out N) as H1 by (by apply Hcut).
  assert (cut [e] (n_in (with_new_edge s t i e r N)) = n_in N) as H2 by (by apply Hcut).
  unfold cut_node. rewrite H1, H2. by destruct N.
Qed.

(** C07.  Adding a new edge and removing it again, by disconnect or remove_self,
    restores all nodes and graphs; what stays behind is the dead edge object
    and the style object made for it. *)
Lemma C07_connect_disconnect_proof : ∀ h g x y a s t h1 e (remove : eref → M unit), reachable h →
  allowed h (CConnect g x y a) → denotes h g x s → denotes h g y t →
  (∀ e E, h_edges h !! e = Some E → e_raw E = RId (c_id a) → ¬ joins h g e s t) →
  connect g x y a h = (h1, Ok e) → remove = disconnect ∨ remove = remove_self →
  ∃ h2 E l, remove e h1 = (h2, Ok tt) ∧
    h_nodes h2 = h_nodes h ∧ h_graphs h2 = h_graphs h ∧ h_ns h2 = h_ns h ∧ h_warns h2 = h_warns h ∧
    h_edges h2 = h_edges h ++ [E] ∧ e_graph E = None ∧ h_es h2 = h_es h ++ l.
Proof.
  intros h g x y a s t h1 e remove Hr Hal Hx Hy Hno Hc Hrem. pose proof (reachable_WF _ Hr) as W.
  destruct (get_node_Ok h g x s) as (G & Ns & HG & HNs & Hgs & _); [done|by apply get_node_denotes|].
  destruct (get_node_Ok h g y t) as (G' & Nt & _ & HNt & Hgt & _); [done|by apply get_node_denotes|].
  assert (W1 : WF h1).
  { pose proof (reachable_WF _ (reach_call _ _ Hr Hal)) as Hw. simpl in Hw. by rewrite Hc in Hw. }
  rewrite (C05_connect_new_proof h g x y a s t Ns Nt) in Hc by done. cbv zeta in Hc.
  destruct (restyled _ _ _ _) as [[st l]|]; [|done]. injection Hc as <- <-. set (E := MkEdge _ _ _ _ _ _ _ _ _ _) in *. set (i := (n_id Ns, n_id Nt, RId (c_id a))) in *.
  set (h1 := h <| h_nodes := _ |> <| h_edges := _ |> <| h_es := _ |>) in *.
  assert (HE : h_edges h1 !! length (h_edges h) = Some E) by (subst h1; simpl; by rewrite lookup_app_r, Nat.sub_diag by lia).
  assert (Hun : ∀ f, e_graph (f E) = None → let h2 := unlink f [length (h_edges h)] h1 in
    h_nodes h2 = h_nodes h ∧ h_edges h2 = h_edges h ++ [f E]).
  { intros f Hf h2. split.
    - apply list_eq. intros r. unfold h2. rewrite unlink_node. subst h1. simpl. rewrite list_lookup_imap.
      destruct (h_nodes h !! r) as [N|] eqn:HN; [|done]. simpl. f_equal. by apply without_new_edge.
    - unfold h2. rewrite (unlink_one_edges h1 _ E) by done. subst h1. simpl.
      rewrite insert_app_r_alt, Nat.sub_diag by lia. done. }
  destruct Hrem as [-> | ->].
  - exists (unlink deadened [length (h_edges h)] h1), (deadened E), l. split; [by apply (disconnect_run h1 _ E g)|].
    destruct (Hun deadened) as [? ?]; [done|]. by split_and!.
  - exists (unlink cleared [length (h_edges h)] h1), (cleared E), l. split; [by apply (remove_self_run h1 _ E g)|].
    destruct (Hun cleared) as [? ?]; [done|]. by split_and!.
Qed.
(** C07, instance: a self-loop is added and removed. *)
Lemma C07_connect_disconnect_ex_proof : reachable sample ∧
  allowed sample (CConnect 0 (an "b") (an "b") eargs0) ∧ denotes sample 0 (an "b") 1 ∧
  (∀ e E, h_edges sample !! e = Some E → e_raw E = RId None → ¬ joins sample 0 e 1 1) ∧
  (∃ h1, connect 0 (an "b") (an "b") eargs0 sample = (h1, Ok 7) ∧ h_nodes h1 ≠ h_nodes sample).
Proof.
  split; [apply sample_reachable|]. split_and!; [done| | |].
  - exists (nm "b"). split; [|by left]. eexists. split; [done|]. by right; left.
  - intros e E He Hu (E' & HE & _ & Hs & Ht). assert (E' = E) as -> by congruence.
    do 7 (destruct e as [|e]; [injection He as <-; discriminate|]). done.
  - eexists. split; [by vm_compute|]. simpl. discriminate.
Qed.

Lemma remove_node_spec : ∀ h g x r N G, WF h → denotes h g x r →
  h_nodes h !! r = Some N → h_graphs h !! g = Some G →
  ∃ h' es, remove_node g x h = (h', Ok tt) ∧
    (∀ e, e ∈ es ↔ ∃ y, joins h g e r y ∨ joins h g e y r) ∧
    h_nodes h' = <[r := N <| n_graph := None |> <| n_out := [] |> <| n_in := [] |>]> (without_edges es <$> h_nodes h) ∧
    h_edges h' = imap (λ e E, if decide (e ∈ es) then E <| e_start := None |> <| e_end := None |> <| e_graph := None |> else E) (h_edges h) ∧
    h_graphs h' = <[g := G <| g_nodes := filter (λ kv, kv.2 ≠ r) (g_nodes G : list (name * nref)) |>]> (h_graphs h) ∧
    h_ns h' = h_ns h ∧ h_es h' = h_es h ∧ h_warns h' = h_warns h.
Proof.
  intros h g x r N G W Hx HN HG. pose proof (denotes_node _ _ _ _ _ W Hx HN) as Hg.
  exists (removed g G r N h), (own_edges N). split; [by apply remove_node_run; [|apply get_node_denotes|..]|].
  split_and!; [| | | |done..].
  - intros e. unfold own_edges. rewrite elem_of_nub, elem_of_app.
    rewrite (out_joins h g r N e), (in_joins h g r N e) by done. split; [intros [[y ?]|[y ?]]|intros [y [?|?]]]; eauto.
  - unfold removed. simpl. f_equal. destruct (cut_own_edges N) as [Ho Hi]. unfold cut_node in *.
    destruct N; cbn in *. by rewrite Ho, Hi.
  - done.
  - unfold removed. simpl. rewrite ddel_filter by (by apply (wf_gkeys _ W g)).
    assert (∀ (A B : dict name nref), A = B → <[g := G <| g_nodes := A |>]> (h_graphs h) = <[g := G <| g_nodes := B |>]> (h_graphs h)) as Hcg by (by intros ? ? ->).
    apply Hcg.
    apply filter_iff_in. intros [k r'] Hin. simpl. destruct (wf_gnodes _ W g G k r' HG Hin) as (N' & HN' & Hid' & Hg').
    split.
    + intros Hne ->. congruence.
    + intros Hne ->. apply Hne. eapply (WF_name_inj h g r' r N' N); congruence.
Qed.
Lemma remove_node_joins : ∀ h g x r h', WF h → denotes h g x r →
  remove_node g x h = (h', Ok tt) →
  ∀ g' e u v, joins h' g' e u v ↔ joins h g' e u v ∧ u ≠ r ∧ v ≠ r.
Proof.
  intros h g x r h' W Hx Hrm g' e u v.
  destruct (get_node_Ok h g x r) as (G & N & HG & HN & Hg & _); [done|by apply get_node_denotes|].
  destruct (remove_node_spec h g x r N G) as (h1 & es & Hrm' & Hes & _ & HE & _); [done..|].
  assert (h1 = h') as -> by congruence. unfold joins at 1. rewrite HE. split.
  - intros (E & HE' & Hg' & Hu & Hv). rewrite list_lookup_imap in HE'. destruct (h_edges h !! e) as [E0|] eqn:HE0; [|done].
    simpl in HE'. injection HE' as <-. destruct (decide (e ∈ es)) as [Hin|Hin]; [by destruct E0|].
    split; [by exists E0|]. rewrite Hes in Hin.
    assert (Hj : joins h g' e u v) by by exists E0.
    destruct (joins_in_graph h g' e u v) as [Hgu Hgv]; [done..|].
    apply in_graph_node in Hgu as (Nu & ? & ?); [|done]. apply in_graph_node in Hgv as (Nv & ? & ?); [|done].
    split; intros ->; apply Hin.
    + assert (g' = g) as -> by congruence. eauto.
    + assert (g' = g) as -> by congruence. eauto.
  - intros [(E & HE0 & Hg' & Hu & Hv) [Hur Hvr]]. exists E. split; [|done]. rewrite list_lookup_imap, HE0. simpl.
    rewrite decide_False; [done|]. rewrite Hes. intros [y [(E' & ? & ? & ? & ?)|(E' & ? & ? & ? & ?)]]; congruence.
Qed.

(** C08.  remove_node: with [es] the edges that start or end in the node, the
    entries of [es] disappear from all edge dictionaries (the others keep their
    order), the edges [es] lose graph, start and end, the node loses its graph
    and is taken out of the graph; nothing else changes. *)
Lemma C08_remove_node_proof : ∀ h g x r N G, reachable h → denotes h g x r →
  h_nodes h !! r = Some N → h_graphs h !! g = Some G →
  ∃ h' es, remove_node g x h = (h', Ok tt) ∧
    (∀ e, e ∈ es ↔ ∃ y, joins h g e r y ∨ joins h g e y r) ∧
    h_nodes h' = <[r := N <| n_graph := None |> <| n_out := [] |> <| n_in := [] |>]> (without_edges es <$> h_nodes h) ∧
    h_edges h' = imap (λ e E, if decide (e ∈ es) then E <| e_start := None |> <| e_end := None |> <| e_graph := None |> else E) (h_edges h) ∧
    h_graphs h' = <[g := G <| g_nodes := filter (λ kv, kv.2 ≠ r) (g_nodes G : list (name * nref)) |>]> (h_graphs h) ∧
    h_ns h' = h_ns h ∧ h_es h' = h_es h ∧ h_warns h' = h_warns h.
Proof. intros h g x r N G W%reachable_WF. by apply remove_node_spec. Qed.
(** C08.  Hence an edge of any graph survives remove_node iff it did not touch the
    node, and survives with the same ends. *)
Lemma C08_surviving_edges_proof : ∀ h g x r h', reachable h → denotes h g x r →
  remove_node g x h = (h', Ok tt) →
  ∀ g' e u v, joins h' g' e u v ↔ joins h g' e u v ∧ u ≠ r ∧ v ≠ r.
Proof. intros h g x r h' W%reachable_WF. by apply remove_node_joins. Qed.
(** C08, instance: removing c, which has a self-loop and lies on a cycle. *)
Lemma C08_remove_node_ex_proof : reachable sample ∧ denotes sample 0 (an "c") 2 ∧
  (∃ h', remove_node 0 (an "c") sample = (h', Ok tt) ∧
    ((λ N, (length (n_out N), length (n_in N))) <$> h_nodes h') = [(2, 0); (0, 2); (0, 0); (0, 0); (1, 0); (0, 1)]).
Proof.
  split; [apply sample_reachable|]. split.
  - exists (nm "c"). split; [|by left]. eexists. split; [done|]. by do 2 right; left.
  - eexists. by vm_compute.
Qed.

(** C09.  Removing a live edge: its entries disappear, the edge loses its graph;
    nothing else changes. *)
Lemma C09_remove_live_proof : ∀ h e E g, reachable h → h_edges h !! e = Some E → e_graph E = Some g →
  disconnect e h = (h <| h_nodes := without_edges [e] <$> h_nodes h |>
    <| h_edges := <[e := E <| e_raw := RDead |> <| e_graph := None |>]> (h_edges h) |>, Ok tt) ∧
  remove_self e h = (h <| h_nodes := without_edges [e] <$> h_nodes h |>
    <| h_edges := <[e := E <| e_start := None |> <| e_end := None |> <| e_graph := None |>]> (h_edges h) |>, Ok tt).
Proof.
  intros h e E g W%reachable_WF HE Hg. rewrite (disconnect_run h e E g), (remove_self_run h e E g) by done.
  split; f_equal; apply heap_eq; try done.
  - by rewrite (unlink_one_edges h e E deadened).
  - by rewrite (unlink_one_edges h e E cleared).
Qed.
(** C09.  In particular exactly this edge is gone. *)
Lemma C09_remove_live_joins_proof : ∀ h e E g (remove : eref → M unit), reachable h →
  h_edges h !! e = Some E → e_graph E = Some g → remove = disconnect ∨ remove = remove_self →
  ∃ h', remove e h = (h', Ok tt) ∧
  ∀ g' e' u v, joins h' g' e' u v ↔ joins h g' e' u v ∧ e' ≠ e.
Proof.
  intros h e E g remove Hr HE Hg Hrem. destruct (C09_remove_live_proof h e E g) as [H1 H2]; [done..|].
  assert (∀ E', e_graph E' = None → ∀ h', h_edges h' = <[e := E']> (h_edges h) →
    ∀ g' e' u v, joins h' g' e' u v ↔ joins h g' e' u v ∧ e' ≠ e) as Haux.
  { intros E' HE' h' Hh g' e' u v. unfold joins. rewrite Hh. destruct (decide (e' = e)) as [->|Hne].
    - rewrite list_lookup_insert by (by eapply lookup_lt_Some). split; [intros (? & [= <-] & ? & _); congruence|tauto].
    - rewrite list_lookup_insert_ne by done. naive_solver. }
  destruct Hrem as [-> | ->].
  - eexists. split; [exact H1|]. eapply Haux; [|reflexivity]. done.
  - eexists. split; [exact H2|]. eapply Haux; [|reflexivity]. done.
Qed.
(** C09.  Removing a dead edge again raises and changes nothing. *)
Lemma C09_remove_dead_proof : ∀ h e E, reachable h → h_edges h !! e = Some E → e_graph E = None →
  (∃ x, disconnect e h = (h, Err x) ∧ (x = ValueError ∨ x = KeyError)) ∧
  (∃ x, remove_self e h = (h, Err x) ∧ (x = ValueError ∨ x = KeyError)).
Proof. intros h e E W%reachable_WF HE Hg. split; [by eapply disconnect_dead|by eapply remove_self_dead]. Qed.
(** C09, instance: edge 4 is a live self-loop, edge 5 was disconnected. *)
Lemma C09_remove_ex_proof : reachable sample ∧
  e_graph <$> h_edges sample !! 4 = Some (Some 0) ∧ e_graph <$> h_edges sample !! 5 = Some None ∧
  (disconnect 4 sample).2 = Ok tt ∧ (disconnect 5 sample).2 = Err KeyError ∧
  (remove_self 4 (remove_self 4 sample).1).2 = Err ValueError.
Proof. split; [apply sample_reachable|]. by vm_compute. Qed.

(** C10.  The id of an edge between two nodes of a graph is either in both
    dictionaries or in none, so neither of the two branches of connect that
    report an inconsistency is ever taken. *)
Lemma C10_no_weird_branch_proof : ∀ h g s t Ns Nt u, reachable h →
  h_nodes h !! s = Some Ns → h_nodes h !! t = Some Nt → n_graph Ns = Some g → n_graph Nt = Some g →
  (n_id Ns, n_id Nt, u) ∈ (n_out Ns).*1 ↔ (n_id Ns, n_id Nt, u) ∈ (n_in Nt).*1.
Proof. intros h g s t Ns Nt u W%reachable_WF HNs HNt Hgs Hgt. apply (WF_mirror_keys h s t Ns Nt); [done|done|done|congruence|eauto]. Qed.
(** C10.  A lenient connect without style succeeds between any two nodes, unless it
    is asked to change the value of a frozen edge. *)
Lemma C10_connect_succeeds_proof : ∀ h g x y a s t, reachable h →
  denotes h g x s → denotes h g y t → c_style a = SNone → lenient (c_mode a) = true →
  (∀ e E, h_edges h !! e = Some E → joins h g e s t → e_raw E = RId (c_id a) → e_frozen E = false ∨ c_value a = PNone) →
  ∃ h' e, connect g x y a h = (h', Ok e) ∧ joins h' g e s t.
Proof.
  intros h g x y a s t Hr Hx Hy Hst Hm Hfr. pose proof (reachable_WF _ Hr) as W.
  destruct (get_node_Ok h g x s) as (G & Ns & HG & HNs & Hgs & _); [done|by apply get_node_denotes|].
  destruct (get_node_Ok h g y t) as (G' & Nt & _ & HNt & Hgt & _); [done|by apply get_node_denotes|].
  destruct (dget (n_out Ns) (n_id Ns, n_id Nt, RId (c_id a))) as [e|] eqn:He.
  - apply (out_entry_joins h g s t e) in He as [Hj Hu]; [|done..].
    destruct (h_edges h !! e) as [E|] eqn:HE; [|done]. injection Hu as Hu.
    rewrite (C06_connect_existing_proof h g x y a s t Ns Nt e E) by done. rewrite Hm. unfold edge_updated.
    rewrite Hst. simpl.
    assert (e_frozen E && negb (eqb (c_value a) PNone) = false) as ->.
    { destruct (Hfr e E) as [-> | ->]; [done..|by rewrite eqb_same, andb_false_r]. }
    destruct Hj as (E' & HE' & ? & ? & ?). assert (E' = E) as -> by congruence.
    eexists _, e. split; [done|]. eexists. split; [simpl; apply list_lookup_insert; by eapply lookup_lt_Some|done].
  - assert (∀ e E, h_edges h !! e = Some E → e_raw E = RId (c_id a) → ¬ joins h g e s t) as Hno.
    { intros e E HE Hu Hj. assert (dget (n_out Ns) (n_id Ns, n_id Nt, RId (c_id a)) = Some e); [|congruence].
      apply (out_entry_joins h g s t e); [done..|]. split; [done|]. rewrite HE. simpl. congruence. }
    pose proof (C05_connect_new_proof h g x y a s t Ns Nt Hr Hx Hy HNs HNt Hno) as Hc. rewrite Hst in Hc. simpl in Hc.
    eexists _, _. split; [exact Hc|]. eexists. split; [simpl; by rewrite lookup_app_r, Nat.sub_diag by lia|done].
Qed.
(** C10, instance: both cases of the biconditional occur in the sample. *)
Lemma C10_connect_succeeds_ex_proof : reachable sample ∧
  (∃ Ns Nt, h_nodes sample !! 0 = Some Ns ∧ h_nodes sample !! 1 = Some Nt ∧
    (n_id Ns, n_id Nt, RId None) ∈ (n_out Ns).*1 ∧ (n_id Nt, n_id Ns, RId None) ∉ (n_out Nt).*1) ∧
  denotes sample 0 (an "a") 0.
Proof.
  split; [apply sample_reachable|]. split.
  - eexists _, _. do 2 (split; [done|]). split; [by left|]. dec.
  - exists (nm "a"). split; [|by left]. eexists. split; [done|]. left.
Qed.

Lemma graph_fuel_S h g : ∃ n, graph_fuel h g = Datatypes.S n.
Proof. unfold graph_fuel. by destruct (h_graphs h !! g); eexists. Qed.

(** C11.  Calls that name a node which is not in the graph raise KeyError and change
    nothing.  The queries are functions of the heap, so they cannot change it. *)
Lemma C11_unknown_node_proof : ∀ h g x, reachable h → unknown h g x →
  get_node h g x = Err KeyError ∧ remove_node g x h = (h, Err KeyError) ∧
  get_parents h g x = Err KeyError ∧ get_children h g x = Err KeyError ∧
  get_ancestors h g x = Err KeyError ∧ get_descendants h g x = Err KeyError ∧
  get_ancestors_dist h g x = Err KeyError ∧ get_descendants_dist h g x = Err KeyError ∧
  (∀ y s a, denotes h g y s → connect g x y a h = (h, Err KeyError) ∧ connect g y x a h = (h, Err KeyError)) ∧
  (∀ a, connect g x x a h = (h, Err KeyError)).
Proof.
  intros h g x W%reachable_WF Hx%get_node_unknown. destruct (graph_fuel_S h g) as [n Hn]. split_and!.
  - done.
  - by apply remove_node_fail.
  - unfold get_parents, get_inward_edges. by rewrite Hx.
  - unfold get_children, get_outward_edges. by rewrite Hx.
  - unfold get_ancestors. rewrite Hn. simpl. by rewrite Hx.
  - unfold get_descendants. rewrite Hn. simpl. by rewrite Hx.
  - unfold get_ancestors_dist. rewrite Hn. simpl. by rewrite Hx.
  - unfold get_descendants_dist. rewrite Hn. simpl. by rewrite Hx.
  - intros y s a Hy. apply get_node_denotes in Hy; [|done]. unfold connect. split.
    + by rewrite (sread_Err _ _ _ _ Hx).
    + rewrite (sread_Ok _ _ _ _ Hy). by rewrite (sread_Err _ _ _ _ Hx).
  - intros a. unfold connect. by rewrite (sread_Err _ _ _ _ Hx).
Qed.
(** C11, instance: a name, and a node object of another graph. *)
Lemma C11_unknown_node_ex_proof : reachable sample ∧ unknown sample 0 (an "z") ∧ unknown sample 0 (ANode 5) ∧ denotes sample 0 (an "a") 0.
Proof.
  split; [apply sample_reachable|]. split_and!.
  - eexists _, (nm "z"). split; [done|]. split; [dec|by left].
  - eexists _, (nm "z"). split; [done|]. split; [dec|]. right. by eexists _, _.
  - exists (nm "a"). split; [|by left]. eexists. split; [done|]. left.
Qed.
