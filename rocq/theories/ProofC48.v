(** Constructing nodes and edges directly, and the methods of Node that file edges: C87. *)
From Verif Require Export ModelCore Samples SpecDirect.
From Verif Require Import ProofAdj ProofOps ProofSet ProofEdge ProofC1.
Local Open Scope string_scope.
Local Open Scope list_scope.

Lemma dset_refiled {K V} `{EqDecision K} (d : dict K V) k v : NoDup d.*1 → k ∈ d.*1 → dset d k v = refiled d k v.
Proof.
  unfold refiled. induction d as [|[k' v'] d IH]; simpl; [by intros _ ?%elem_of_nil|]. intros [Hk Hnd]%NoDup_cons Hin.
  destruct (decide (k = k')) as [Hd|Hd].
  - rewrite decide_True by done. subst k'. f_equal. symmetry. rewrite <-(list_fmap_id d) at 2. apply list_fmap_ext.
    intros j [k2 v2] Hj. simpl. rewrite decide_False; [done|]. intros ->. apply Hk. apply elem_of_list_fmap. exists (k, v2). split; [done|]. by eapply elem_of_list_lookup_2.
  - rewrite decide_False by done. f_equal. apply IH; [done|]. apply elem_of_cons in Hin as [->|?]; done.
Qed.
Lemma node_ctor_eq h g G n a i : h_graphs h !! g = Some G → node_ctor g n a i h =
  match restyled nstyle_ctor (length (h_ns h)) None (a_style a) with
  | Err x => (h, Err x)
  | Ok (st, l) =>
    (h <| h_nodes := h_nodes h ++ [MkNode (Some g) n (a_value a) (a_label a) (a_tooltip a) st false (a_params a) [] [] i] |>
       <| h_graphs := <[g := G <| g_nodes := dset (g_nodes G) n (length (h_nodes h)) |>]> (h_graphs h) |>
       <| h_ns := h_ns h ++ l |>, Ok (length (h_nodes h)))
  end.
Proof.
  intros HG. destruct (node_ctor_run h g G n a i HG) as (l & ost & Hres & ->).
  rewrite resolve_nstyle_eq in Hres. simpl.
  destruct (restyled nstyle_ctor (length (h_ns h)) None (a_style a)) as [[st l']|x].
  - injection Hres as Hh <-. apply app_inv_head in Hh as <-. done.
  - injection Hres as Hh <-. done.
Qed.
Lemma edge_ctor_any h g s t Ns Nt a :
  let i := (n_id Ns, n_id Nt, RId (c_id a)) in
  let e := length (h_edges h) in
  h_nodes h !! s = Some Ns → h_nodes h !! t = Some Nt →
  edge_ctor g s t a h =
  match restyled estyle_ctor (length (h_es h)) None (c_style a) with
  | Err x => (h, Err x)
  | Ok (st, l) =>
    (h <| h_nodes := imap (λ r N, N <| n_out := if decide (r = s) then dset (n_out N) i e else n_out N |>
                                    <| n_in := if decide (r = t) then dset (n_in N) i e else n_in N |>) (h_nodes h) |>
       <| h_edges := h_edges h ++ [MkEdge (Some g) (RId (c_id a)) (c_value a) (c_label a) (c_tooltip a) st false (c_params a) (Some s) (Some t)] |>
       <| h_es := h_es h ++ l |>, Ok e)
  end.
Proof.
  intros i e HNs HNt. unfold edge_ctor.
  pose proof (resolve_estyle_eq (c_style a) h) as Hres.
  destruct (restyled estyle_ctor (length (h_es h)) None (c_style a)) as [[st l]|x] eqn:Hrs; simpl in Hres.
  2:{ by erewrite sbind_fail by exact Hres. }
  erewrite sbind_step by exact Hres. erewrite sbind_step by done.
  set (h1 := h <| h_es := _ |>). set (h2 := h1 <| h_edges := _ |>).
  fold (new_edge g s t a st) in h2. fold (new_edge g s t a st).
  assert (HE : h_edges h2 !! e = Some (new_edge g s t a st)).
  { subst h2 h1. simpl. by apply list_lookup_middle. }
  assert (Hid : ∀ h3, h_edges h3 = h_edges h2 → (∃ N, h_nodes h3 !! s = Some N ∧ n_id N = n_id Ns) →
     (∃ N, h_nodes h3 !! t = Some N ∧ n_id N = n_id Nt) → get_edge_id h3 e = Ok i).
  { intros h3 He (N1 & H1 & H1') (N2 & H2 & H2'). unfold get_edge_id.
    rewrite (get_e_Ok _ _ (new_edge g s t a st)) by (by rewrite He). simpl.
    rewrite (get_n_Ok _ _ _ H1), (get_n_Ok _ _ _ H2). simpl. subst i. congruence. }
  unfold append_outward. rewrite sbind_assoc. change (length (h_edges h1)) with e.
  rewrite (sread_Ok _ _ _ i) by (apply Hid; eauto).
  erewrite sbind_step by (by apply (upd_n_run h2 s Ns)).
  set (h3 := h2 <| h_nodes := _ |>).
  assert (HNt3 : ∃ N3, h_nodes h3 !! t = Some N3 ∧ n_id N3 = n_id Nt ∧ n_in N3 = n_in Nt).
  { subst h3. simpl. destruct (decide (t = s)) as [->|].
    - simplify_eq. rewrite list_lookup_insert by (by eapply lookup_lt_Some). by eexists.
    - rewrite list_lookup_insert_ne by done. eauto. }
  destruct HNt3 as (N3 & HN3 & Hid3 & Hin3).
  unfold append_inward. rewrite sbind_assoc.
  rewrite (sread_Ok _ _ _ i).
  2:{ apply Hid; [done| |eauto]. subst h3. simpl.
      rewrite list_lookup_insert by (by eapply lookup_lt_Some). by eexists. }
  erewrite sbind_step by (by apply (upd_n_run h3 t N3)).
  unfold sret. f_equal. apply heap_eq; simpl; try done.
  apply list_eq. intros r. rewrite list_lookup_imap. subst h3 h2 h1. simpl in *. rewrite Hin3.
  destruct (decide (t = r)) as [->|Ht].
  - rewrite list_lookup_insert by (by eapply lookup_lt_Some). rewrite HNt. simpl. f_equal.
    destruct (decide (s = r)) as [->|Hs].
    + assert (Nt = Ns) as -> by congruence. rewrite list_lookup_insert in HN3 by (by eapply lookup_lt_Some). injection HN3 as <-. rewrite !decide_True by done. by destruct Ns.
    + rewrite list_lookup_insert_ne in HN3 by done. assert (N3 = Nt) as -> by congruence. rewrite (decide_False (P := r = s)), (decide_True (P := r = r)) by congruence. by destruct Nt.
  - rewrite list_lookup_insert_ne by done. destruct (decide (s = r)) as [->|Hs].
    + rewrite list_lookup_insert by (by eapply lookup_lt_Some). rewrite HNs. simpl. rewrite (decide_True (P := r = r)), (decide_False (P := r = t)) by congruence. by destruct Ns.
    + rewrite list_lookup_insert_ne by done. destruct (h_nodes h !! r) as [N|]; [|done]. simpl. rewrite !decide_False by congruence. by destruct N.
Qed.

(** C87.  Node(graph, name) and Edge(graph, start, end, id) called with a new name, or with an
    id that the two nodes of the graph do not have yet, keep everything consistent. *)
Lemma C87_fresh_partial_proof : ∀ h, reachable h →
  (∀ g G n a i, h_graphs h !! g = Some G → n ∉ (g_nodes G).*1 → style_exists (length (h_ns h)) (a_style a) → consistent (node_ctor g n a i h).1) ∧
  (∀ g s t Ns Nt a, h_nodes h !! s = Some Ns → h_nodes h !! t = Some Nt → n_graph Ns = Some g → n_graph Nt = Some g →
    (∀ e E, h_edges h !! e = Some E → e_raw E = RId (c_id a) → ¬ joins h g e s t) → style_exists (length (h_es h)) (c_style a) →
    consistent (edge_ctor g s t a h).1).
Proof.
  intros h Hr. split.
  - intros g G n a i HG Hn Hs. apply C01_consistent_proof. apply (reach_call h (CNodeCtor g n a i) Hr). split; [done|]. by exists G.
  - intros g s t Ns Nt a HNs HNt Hgs Hgt Hno Hst. apply C01_consistent_proof. apply (reach_call h (CEdgeCtor g s t a) Hr). split; [done|].
    exists Ns, Nt. split_and!; try done. intros ((k & e) & Hk & Hin)%elem_of_list_fmap. simpl in Hk. subst k.
    destruct (con_out _ (C01_consistent_proof _ Hr) s Ns _ e HNs Hin) as (g' & t' & Nt' & E & HE & HNt' & Hj & Hg1 & Hg2 & Hk & Hin').
    injection Hk as Hid Hraw. assert (t' = t) as ->.
    { assert (g' = g) as -> by congruence. pose proof (con_graph _ (C01_consistent_proof _ Hr) t Nt g HNt Hgt) as (G & HG & H1).
      pose proof (con_graph _ (C01_consistent_proof _ Hr) t' Nt' g HNt' Hg2) as (G' & HG' & H2). assert (G' = G) as -> by congruence.
      rewrite Hid in H1. pose proof (con_names _ (C01_consistent_proof _ Hr) g G HG) as Hnd.
      apply dget_in_Some in H1, H2; [congruence|done..]. }
    assert (g' = g) as -> by congruence. by apply (Hno e E).
Qed.
(** C87.  Node(graph, name) with the name of a node [r] of the graph does not raise: a new
    node without edges takes the place of [r] in the graph. *)
Lemma C87_node_proof : ∀ h g G n r a i, reachable h → h_graphs h !! g = Some G → (n, r) ∈ g_nodes G →
  node_ctor g n a i h =
  match restyled nstyle_ctor (length (h_ns h)) None (a_style a) with
  | Err x => (h, Err x)
  | Ok (st, l) =>
    (h <| h_nodes := h_nodes h ++ [MkNode (Some g) n (a_value a) (a_label a) (a_tooltip a) st false (a_params a) [] [] i] |>
       <| h_graphs := <[g := G <| g_nodes := refiled (g_nodes G) n (length (h_nodes h)) |>]> (h_graphs h) |>
       <| h_ns := h_ns h ++ l |>, Ok (length (h_nodes h)))
  end.
Proof.
  intros h g G n r a i Hr HG Hin. rewrite (node_ctor_eq h g G) by done. destruct (restyled _ _ _ _) as [[st l]|]; [|done].
  rewrite dset_refiled; [done| |].
  - by apply (con_names _ (C01_consistent_proof _ Hr) g).
  - apply elem_of_list_fmap. by exists (n, r).
Qed.
(** C87.  Then [r] is no longer in the graph, but still says that it is and keeps its edges;
    so the graph is inconsistent, whatever the graph is. *)
Lemma C87_node_breaks_proof : ∀ h g n r a i h' r', reachable h → named h g n r → node_ctor g n a i h = (h', Ok r') →
  named h' g n r' ∧ ¬ in_graph h' g r ∧ h_nodes h' !! r = h_nodes h !! r ∧ (∀ g' e x y, joins h' g' e x y ↔ joins h g' e x y) ∧ ¬ consistent h'.
Proof.
  intros h g n r a i h' r' Hr (G & HG & Hin) Hc. pose proof (C01_consistent_proof _ Hr) as C.
  destruct (con_member _ C g n r) as (N & HN & Hid & Hgr); [by exists G|].
  rewrite (C87_node_proof h g G n r a i Hr HG Hin) in Hc. destruct (restyled _ _ _ _) as [[st l]|]; [|done].
  injection Hc as <- <-. assert (Hlt : r < length (h_nodes h)) by (by eapply lookup_lt_Some).
  assert (Hlg : g < length (h_graphs h)) by (by eapply lookup_lt_Some).
  assert (Hno : ¬ in_graph (h <| h_nodes := h_nodes h ++ [MkNode (Some g) n (a_value a) (a_label a) (a_tooltip a) st false (a_params a) [] [] i] |>
       <| h_graphs := <[g := G <| g_nodes := refiled (g_nodes G) n (length (h_nodes h)) |>]> (h_graphs h) |>
       <| h_ns := h_ns h ++ l |>) g r).
  { intros (G' & k & HG' & Hk). simpl in HG'. rewrite list_lookup_insert in HG' by done. injection HG' as <-. simpl in Hk.
    unfold refiled in Hk. apply elem_of_list_fmap in Hk as ([k' r2] & Hk & Hin2). simpl in Hk. case_decide as Hd; [injection Hk as _ ->; lia|].
    injection Hk as -> ->. destruct (con_member _ C g k' r2) as (N2 & HN2 & Hid2 & _); [by exists G|]. congruence. }
  split; [|split; [exact Hno|split; [|split]]].
  - eexists. simpl. rewrite list_lookup_insert by done. split; [done|]. simpl. unfold refiled. apply elem_of_list_fmap. exists (n, r). simpl. by rewrite decide_True.
  - simpl. by rewrite lookup_app_l.
  - done.
  - intros C'. destruct (con_graph _ C' r N g) as (G' & HG' & Hin'); [simpl; by rewrite lookup_app_l|done|]. apply Hno. by exists G', (n_id N).
Qed.
(** C87.  Edge(graph, start, end, id) with the id of an edge [e0] between the two nodes does
    not raise: a new edge takes the place of [e0] at both ends. *)
Lemma C87_edge_proof : ∀ h g s t Ns Nt a e0 E0, reachable h → h_nodes h !! s = Some Ns → h_nodes h !! t = Some Nt →
  joins h g e0 s t → h_edges h !! e0 = Some E0 → e_raw E0 = RId (c_id a) →
  edge_ctor g s t a h =
  match restyled estyle_ctor (length (h_es h)) None (c_style a) with
  | Err x => (h, Err x)
  | Ok (st, l) =>
    (h <| h_nodes := imap (with_same_id s t (n_id Ns, n_id Nt, RId (c_id a)) (length (h_edges h))) (h_nodes h) |>
       <| h_edges := h_edges h ++ [MkEdge (Some g) (RId (c_id a)) (c_value a) (c_label a) (c_tooltip a) st false (c_params a) (Some s) (Some t)] |>
       <| h_es := h_es h ++ l |>, Ok (length (h_edges h)))
  end.
Proof.
  intros h g s t Ns Nt a e0 E0 Hr HNs HNt (E & HE & Hg & Hs & Ht) HE0 Hraw. assert (E = E0) as -> by congruence. pose proof (C01_consistent_proof _ Hr) as C.
  destruct (con_edge _ C e0 E0 g HE Hg) as (s' & t' & Ns' & Nt' & Hs' & Ht' & HNs' & HNt' & Ho & Hi).
  assert (s' = s) as -> by congruence. assert (t' = t) as -> by congruence. assert (Ns' = Ns) as -> by congruence. assert (Nt' = Nt) as -> by congruence.
  rewrite Hraw in Ho, Hi. rewrite (edge_ctor_any h g s t Ns Nt a) by done. destruct (restyled _ _ _ _) as [[st l]|]; [|done].
  f_equal. apply heap_eq; simpl; try done. apply imap_ext. intros r N HN. unfold with_same_id.
  destruct (con_keys _ C r N HN) as [K1 K2].
  assert ((if decide (r = s) then dset (n_out N) (n_id Ns, n_id Nt, RId (c_id a)) (length (h_edges h)) else n_out N) =
          (if decide (r = s) then refiled (n_out N) (n_id Ns, n_id Nt, RId (c_id a)) (length (h_edges h)) else n_out N)) as ->.
  { case_decide as Hd; [|done]. subst r. assert (N = Ns) as -> by congruence. apply dset_refiled; [done|]. apply elem_of_list_fmap. by exists ((n_id Ns, n_id Nt, RId (c_id a)), e0). }
  assert ((if decide (r = t) then dset (n_in N) (n_id Ns, n_id Nt, RId (c_id a)) (length (h_edges h)) else n_in N) =
          (if decide (r = t) then refiled (n_in N) (n_id Ns, n_id Nt, RId (c_id a)) (length (h_edges h)) else n_in N)) as ->; [|done].
  case_decide as Hd; [|done]. subst r. assert (N = Nt) as -> by congruence. apply dset_refiled; [done|]. apply elem_of_list_fmap. by exists ((n_id Ns, n_id Nt, RId (c_id a)), e0).
Qed.
Lemma refiled_elem {K V} `{EqDecision K} (d : list (K * V)) k v k' v' : (k', v') ∈ refiled d k v → (k' = k ∧ v' = v ∧ k ∈ d.*1) ∨ (k' ≠ k ∧ (k', v') ∈ d).
Proof.
  unfold refiled. intros ([k2 v2] & Hk & Hin)%elem_of_list_fmap. simpl in Hk. case_decide as Hd.
  - injection Hk as -> ->. left. split_and!; [done..|]. subst k2. apply elem_of_list_fmap. by exists (k, v2).
  - injection Hk as -> ->. by right.
Qed.
Lemma refiled_keys {K V} `{EqDecision K} (d : list (K * V)) k v : (refiled d k v).*1 = d.*1.
Proof.
  unfold refiled. rewrite <-list_fmap_compose. apply list_fmap_ext. intros j [k2 v2] _. simpl. case_decide; [by subst|done].
Qed.
Lemma refiled_in {K V} `{EqDecision K} (d : list (K * V)) k v : k ∈ d.*1 → (k, v) ∈ refiled d k v.
Proof.
  intros ([k2 v2] & Hk & Hin)%elem_of_list_fmap. simpl in Hk. subst k2. unfold refiled. apply elem_of_list_fmap. exists (k, v2). simpl. by rewrite decide_True.
Qed.
Lemma old_entry h e r N k : reachable h → h_nodes h !! r = Some N → (k, e) ∈ n_out N ∨ (k, e) ∈ n_in N → e < length (h_edges h).
Proof.
  intros Hr HN [Hin|Hin]; pose proof (C01_consistent_proof _ Hr) as C.
  - destruct (con_out _ C r N k e HN Hin) as (? & ? & ? & E & HE & _). by eapply lookup_lt_Some.
  - destruct (con_in _ C r N k e HN Hin) as (? & ? & ? & E & HE & _). by eapply lookup_lt_Some.
Qed.
(** C87.  Then [e0] is listed at none of its ends any more, but still says that it is an edge
    of the graph between them; so the graph is inconsistent, whatever the graph is. *)
Lemma C87_edge_breaks_proof : ∀ h g s t a e0 E0 h' e, reachable h → joins h g e0 s t → h_edges h !! e0 = Some E0 → e_raw E0 = RId (c_id a) →
  edge_ctor g s t a h = (h', Ok e) →
  listed h' e ∧ joins h' g e s t ∧ ¬ listed h' e0 ∧ joins h' g e0 s t ∧ ¬ consistent h'.
Proof.
  intros h g s t a e0 E0 h' e Hr Hj HE0 Hraw Hc. pose proof (C01_consistent_proof _ Hr) as C.
  pose proof Hj as (E & HE & Hg & Hs & Ht). assert (E = E0) as -> by congruence. clear HE.
  destruct (con_edge _ C e0 E0 g HE0 Hg) as (s' & t' & Ns & Nt & Hs' & Ht' & HNs & HNt & Ho & Hi).
  assert (s' = s) as -> by congruence. assert (t' = t) as -> by congruence. rewrite Hraw in Ho, Hi.
  rewrite (C87_edge_proof h g s t Ns Nt a e0 E0) in Hc by done. destruct (restyled _ _ _ _) as [[st l]|]; [|done]. injection Hc as <- <-.
  set (i := (n_id Ns, n_id Nt, RId (c_id a))) in *. assert (Hlt : e0 < length (h_edges h)) by (by eapply lookup_lt_Some).
  set (h' := h <| h_nodes := _ |> <| h_edges := _ |> <| h_es := _ |>).
  assert (Hl0 : ¬ listed h' e0).
  { intros (r & N' & k & HN' & Hk). simpl in HN'. rewrite list_lookup_imap in HN'. destruct (h_nodes h !! r) as [N|] eqn:HN; [|done]. injection HN' as <-.
    unfold with_same_id in Hk. simpl in Hk. destruct Hk as [Hk|Hk].
    - destruct (decide (r = s)) as [->|Hd].
      + assert (N = Ns) as -> by congruence. apply refiled_elem in Hk as [(_ & He & _)|(Hk & Hin)]; [lia|].
        destruct (con_out _ C s Ns k e0 HNs Hin) as (g' & t' & Nt' & E' & HE' & HNt' & Hj' & _ & _ & Hk' & _).
        assert (E' = E0) as -> by congruence. destruct Hj' as (E' & HE'' & ? & ? & ?). assert (E' = E0) as -> by congruence. assert (t' = t) as -> by congruence.
        assert (Nt' = Nt) as -> by congruence. subst i. congruence.
      + destruct (con_out _ C r N k e0 HN Hk) as (g' & t' & Nt' & E' & HE' & HNt' & Hj' & _). destruct Hj' as (E2 & HE'' & ? & ? & ?). congruence.
    - destruct (decide (r = t)) as [->|Hd].
      + assert (N = Nt) as -> by congruence. apply refiled_elem in Hk as [(_ & He & _)|(Hk & Hin)]; [lia|].
        destruct (con_in _ C t Nt k e0 HNt Hin) as (g' & t' & Nt' & E' & HE' & HNt' & Hj' & _ & _ & Hk' & _).
        assert (E' = E0) as -> by congruence. destruct Hj' as (E' & HE'' & ? & ? & ?). assert (E' = E0) as -> by congruence. assert (t' = s) as -> by congruence.
        assert (Nt' = Ns) as -> by congruence. subst i. congruence.
      + destruct (con_in _ C r N k e0 HN Hk) as (g' & t' & Nt' & E' & HE' & HNt' & Hj' & _). destruct Hj' as (E2 & HE'' & ? & ? & ?). congruence. }
  assert (Hj0 : joins h' g e0 s t) by (exists E0; simpl; by rewrite lookup_app_l).
  split_and!; [| |done|done|].
  - exists s, (with_same_id s t i (length (h_edges h)) s Ns), i. simpl. rewrite list_lookup_imap, HNs. split; [done|]. left.
    unfold with_same_id. simpl. rewrite decide_True by done. apply refiled_in. apply elem_of_list_fmap. by exists (i, e0).
  - eexists. simpl. split; [by apply list_lookup_middle|done].
  - intros C'. destruct (con_edge _ C' e0 E0 g) as (s' & t' & Ns' & Nt' & _ & _ & HNs' & _ & Hin & _); [simpl; by rewrite lookup_app_l|done|].
    apply Hl0. exists s', Ns', (n_id Ns', n_id Nt', e_raw E0). split; [done|]. by left.
Qed.
(** C87.  Removing [e0], which the program may still hold, then takes the new edge out of the
    graph: afterwards no node lists it, but it says that it joins its ends. *)
Lemma C87_stale_proof : ∀ h g s t a e0 E0 h' e, reachable h → joins h g e0 s t → h_edges h !! e0 = Some E0 → e_raw E0 = RId (c_id a) →
  edge_ctor g s t a h = (h', Ok e) →
  ∃ h2, remove_self e0 h' = (h2, Ok tt) ∧ ¬ listed h2 e ∧ joins h2 g e s t.
Proof.
  intros h g s t a e0 E0 h' e Hr Hj HE0 Hraw Hc. pose proof (C01_consistent_proof _ Hr) as C.
  pose proof Hj as (E & HE & Hg & Hs & Ht). assert (E = E0) as -> by congruence. clear HE.
  destruct (con_edge _ C e0 E0 g HE0 Hg) as (s' & t' & Ns & Nt & Hs' & Ht' & HNs & HNt & Ho & Hi).
  assert (s' = s) as -> by congruence. assert (t' = t) as -> by congruence. rewrite Hraw in Ho, Hi.
  rewrite (C87_edge_proof h g s t Ns Nt a e0 E0) in Hc by done. destruct (restyled _ _ _ _) as [[st l]|]; [|done]. injection Hc as <- <-.
  set (i := (n_id Ns, n_id Nt, RId (c_id a))) in *. assert (Hlt : e0 < length (h_edges h)) by (by eapply lookup_lt_Some).
  set (e := length (h_edges h)) in *.
  set (h' := h <| h_nodes := _ |> <| h_edges := _ |> <| h_es := _ |>).
  assert (HE' : h_edges h' !! e0 = Some E0) by (simpl; by rewrite lookup_app_l).
  assert (HNs' : h_nodes h' !! s = Some (with_same_id s t i e s Ns)) by (simpl; by rewrite list_lookup_imap, HNs).
  assert (HNt' : h_nodes h' !! t = Some (with_same_id s t i e t Nt)) by (simpl; by rewrite list_lookup_imap, HNt).
  assert (Hid : ∀ h3, h_edges h3 = h_edges h' → (∃ N, h_nodes h3 !! s = Some N ∧ n_id N = n_id Ns) →
     (∃ N, h_nodes h3 !! t = Some N ∧ n_id N = n_id Nt) → get_edge_id h3 e0 = Ok i).
  { intros h3 He (N1 & H1 & H1') (N2 & H2 & H2'). unfold get_edge_id.
    rewrite (get_e_Ok _ _ E0) by (by rewrite He). simpl. rewrite Hs, Ht.
    rewrite (get_n_Ok _ _ _ H1), (get_n_Ok _ _ _ H2). simpl. subst i. congruence. }
  unfold remove_self. rewrite (sread_Ok _ _ _ E0) by (by apply get_e_Ok). rewrite Hs, Ht.
  rewrite (sread_Ok _ _ _ i) by (apply Hid; [done|by eexists|by eexists]).
  assert (Hko : i ∈ (n_out Ns).*1) by (apply elem_of_list_fmap; by exists (i, e0)).
  assert (Hki : i ∈ (n_in Nt).*1) by (apply elem_of_list_fmap; by exists (i, e0)).
  assert (H1 : remove_outward s i h' = (h' <| h_nodes := <[s := with_same_id s t i e s Ns <| n_out := ddel (n_out (with_same_id s t i e s Ns)) i |>]> (h_nodes h') |>, Ok tt)).
  { unfold remove_outward. rewrite (sread_Ok _ _ _ (with_same_id s t i e s Ns)) by (by apply get_n_Ok).
    rewrite (proj2 (dmem_true _ _)); [exact (upd_n_run h' s _ (λ N, N <| n_out := ddel (n_out N) i |>) HNs')|]. unfold with_same_id. simpl. rewrite decide_True by done. change (i ∈ (refiled (n_out Ns) i e).*1). by rewrite refiled_keys. }
  erewrite sbind_step by exact H1. set (h1 := h' <| h_nodes := _ |>).
  assert (HNt1 : ∃ N3, h_nodes h1 !! t = Some N3 ∧ n_id N3 = n_id Nt ∧ n_in N3 = refiled (n_in Nt) i e).
  { subst h1. cbn [h_nodes set]. destruct (decide (t = s)) as [->|Hne].
    - assert (Nt = Ns) as -> by congruence. eexists. split; [apply list_lookup_insert; by eapply lookup_lt_Some|]. unfold with_same_id. simpl. by rewrite decide_True.
    - eexists. split; [etrans; [by apply list_lookup_insert_ne|exact HNt']|]. unfold with_same_id. simpl. by rewrite decide_True. }
  destruct HNt1 as (N3 & HN3 & Hid3 & Hin3).
  rewrite (sread_Ok _ _ _ i).
  2:{ apply Hid; [done| |eauto]. eexists. split; [apply list_lookup_insert; by eapply lookup_lt_Some|]. done. }
  assert (H2 : remove_inward t i h1 = (h1 <| h_nodes := <[t := N3 <| n_in := ddel (n_in N3) i |>]> (h_nodes h1) |>, Ok tt)).
  { unfold remove_inward. rewrite (sread_Ok _ _ _ N3) by (by apply get_n_Ok). rewrite (proj2 (dmem_true _ _)); [exact (upd_n_run h1 t _ (λ N, N <| n_in := ddel (n_in N) i |>) HN3)|].
    rewrite Hin3. change (i ∈ (refiled (n_in Nt) i e).*1). by rewrite refiled_keys. }
  erewrite sbind_step by exact H2. set (h2 := h1 <| h_nodes := _ |>).
  rewrite (upd_e_run h2 e0 E0) by done. eexists. split; [reflexivity|]. split.
  2:{ eexists. simpl. split; [rewrite list_lookup_insert_ne by lia; by apply list_lookup_middle|done]. }
  destruct (con_keys _ C s Ns HNs) as [Ks _]. destruct (con_keys _ C t Nt HNt) as [_ Kt].
  assert (Hnew : ∀ r N k, h_nodes h !! r = Some N → (k, e) ∈ n_out N ∨ (k, e) ∈ n_in N → False).
  { intros r N k HN Hk. pose proof (old_entry h e r N k Hr HN Hk). subst e. lia. }
  intros (r & N' & k & HN' & Hk). subst h2 h1. cbn [h_nodes h_edges set] in HN'.
  assert (∃ N, h_nodes h !! r = Some N ∧ n_out N' = (if decide (r = s) then ddel (refiled (n_out N) i e) i else n_out N) ∧
    n_in N' = (if decide (r = t) then ddel (refiled (n_in N) i e) i else n_in N)) as (N & HN & Hno & Hni).
  { destruct (decide (t = r)) as [->|Hnt].
    - change (<[r:=N3 <| n_in := ddel (n_in N3) i |>]> (<[s:=with_same_id s r i e s Ns <| n_out := ddel (n_out (with_same_id s r i e s Ns)) i |>]> (h_nodes h')) !! r = Some N') in HN'.
      rewrite list_lookup_insert in HN' by (rewrite insert_length; by eapply lookup_lt_Some). injection HN' as <-. exists Nt. split; [done|].
      change (<[s:=with_same_id s r i e s Ns <| n_out := ddel (n_out (with_same_id s r i e s Ns)) i |>]> (h_nodes h') !! r = Some N3) in HN3.
      simpl. rewrite (decide_True (P := r = r)) by done. split; [|by rewrite Hin3]. destruct (decide (r = s)) as [->|Hne].
      + assert (Nt = Ns) as -> by congruence. rewrite list_lookup_insert in HN3 by (by eapply lookup_lt_Some). injection HN3 as <-. unfold with_same_id. simpl. by rewrite decide_True.
      + rewrite list_lookup_insert_ne in HN3 by done. assert (N3 = with_same_id s r i e r Nt) as -> by congruence. unfold with_same_id. simpl. by rewrite decide_False.
    - change (<[t:=N3 <| n_in := ddel (n_in N3) i |>]> (<[s:=with_same_id s t i e s Ns <| n_out := ddel (n_out (with_same_id s t i e s Ns)) i |>]> (h_nodes h')) !! r = Some N') in HN'.
      rewrite list_lookup_insert_ne in HN' by done. destruct (decide (s = r)) as [->|Hns].
      + rewrite list_lookup_insert in HN' by (by eapply lookup_lt_Some). injection HN' as <-. exists Ns. split; [done|]. unfold with_same_id. simpl. rewrite !(decide_True (P := r = r)) by done. rewrite !(decide_False (P := r = t)) by congruence. split; reflexivity.
      + rewrite list_lookup_insert_ne in HN' by done. simpl in HN'. rewrite list_lookup_imap in HN'. destruct (h_nodes h !! r) as [N|]; [|done]. injection HN' as <-. exists N. split; [done|].
        unfold with_same_id. simpl. by rewrite !decide_False by congruence. }
  rewrite Hno, Hni in Hk. destruct Hk as [Hk|Hk].
  - destruct (decide (r = s)) as [->|Hd]; [|apply (Hnew r N k HN); by left]. assert (N = Ns) as -> by congruence. rewrite ddel_filter in Hk by (change (NoDup (refiled (n_out Ns) i e).*1); by rewrite refiled_keys).
    apply elem_of_list_filter in Hk as [Hk1 Hk]. simpl in Hk1. apply refiled_elem in Hk as [(-> & _)|(_ & Hk)]; [done|]. apply (Hnew s Ns k HNs); by left.
  - destruct (decide (r = t)) as [->|Hd]; [|apply (Hnew r N k HN); by right]. assert (N = Nt) as -> by congruence. rewrite ddel_filter in Hk by (change (NoDup (refiled (n_in Nt) i e).*1); by rewrite refiled_keys).
    apply elem_of_list_filter in Hk as [Hk1 Hk]. simpl in Hk1. apply refiled_elem in Hk as [(-> & _)|(_ & Hk)]; [done|]. apply (Hnew t Nt k HNt); by right.
Qed.
(** C87.  Edge(graph, start, end) does not test that its ends are nodes of the graph: with a
    start or an end of another graph, or of none, the result is inconsistent. *)
Lemma C87_foreign_proof : ∀ h g s t Ns Nt a h' e, reachable h → h_nodes h !! s = Some Ns → h_nodes h !! t = Some Nt →
  n_graph Ns ≠ Some g ∨ n_graph Nt ≠ Some g → edge_ctor g s t a h = (h', Ok e) → joins h' g e s t ∧ ¬ consistent h'.
Proof.
  intros h g s t Ns Nt a h' e Hr HNs HNt Hg Hc. rewrite (edge_ctor_any h g s t Ns Nt a) in Hc by done. destruct (restyled _ _ _ _) as [[st l]|]; [|done].
  injection Hc as <- <-. split; [eexists; simpl; split; [by apply list_lookup_middle|done]|].
  intros C'. destruct (con_edge _ C' (length (h_edges h)) (MkEdge (Some g) (RId (c_id a)) (c_value a) (c_label a) (c_tooltip a) st false (c_params a) (Some s) (Some t)) g)
    as (s' & t' & Ns' & Nt' & [= <-] & [= <-] & HNs' & HNt' & Ho & Hi); [simpl; by apply list_lookup_middle|done|].
  destruct (con_out _ C' _ _ _ _ HNs' Ho) as (g' & t' & Nt2 & E2 & _ & HNt2 & (E3 & HE3 & Hg3 & Hs3 & Ht3) & H1 & H2 & _).
  simpl in HE3. rewrite list_lookup_middle in HE3 by done. injection HE3 as <-. simpl in Hg3, Ht3. injection Hg3 as <-. injection Ht3 as <-.
  simpl in HNs', HNt2. rewrite list_lookup_imap in HNs', HNt2. rewrite HNs in HNs'. rewrite HNt in HNt2. simpl in HNs', HNt2. injection HNs' as <-. injection HNt2 as <-. simpl in *. naive_solver.
Qed.
(** C87.  remove_outward_edge (remove_inward_edge) of an edge the node lists does not raise and
    leaves the edge at its other end. *)
Lemma C87_half_removed_proof : ∀ h r N i e, reachable h → h_nodes h !! r = Some N →
  ((i, e) ∈ n_out N → ∃ h', remove_outward r i h = (h', Ok tt) ∧ ¬ consistent h') ∧
  ((i, e) ∈ n_in N → ∃ h', remove_inward r i h = (h', Ok tt) ∧ ¬ consistent h').
Proof.
  intros h r N i e Hr HN. pose proof (C01_consistent_proof _ Hr) as C. destruct (con_keys _ C r N HN) as [Ko Ki]. split; intros Hin.
  - exists (h <| h_nodes := <[r := N <| n_out := ddel (n_out N) i |>]> (h_nodes h) |>). split.
    + unfold remove_outward. rewrite (sread_Ok _ _ _ N) by (by apply get_n_Ok). rewrite (proj2 (dmem_true _ _)); [exact (upd_n_run h r _ (λ N, N <| n_out := ddel (n_out N) i |>) HN)|].
      apply elem_of_list_fmap. by exists (i, e).
    + intros C'. destruct (con_out _ C r N i e HN Hin) as (g & t & Nt & E & HE & HNt & (E' & HE' & Hg & Hs & Ht) & _ & _ & Hk & _).
      assert (E' = E) as -> by congruence. destruct (con_edge _ C' e E g) as (s' & t' & Ns' & Nt' & Hs' & Ht' & HNs' & HNt' & Ho & _); [done..|].
      assert (s' = r) as -> by congruence. simpl in HNs'. rewrite list_lookup_insert in HNs' by (by eapply lookup_lt_Some). injection HNs' as <-. simpl in Ho.
      rewrite ddel_filter in Ho by done. apply elem_of_list_filter in Ho as [Hne Ho]. simpl in Hne. apply Hne.
      destruct (con_out _ C r N _ e HN Ho) as (g2 & t2 & Nt2 & E2 & HE2 & HNt2 & (E3 & HE3 & ? & ? & ?) & _ & _ & Hk2 & _). congruence.
  - exists (h <| h_nodes := <[r := N <| n_in := ddel (n_in N) i |>]> (h_nodes h) |>). split.
    + unfold remove_inward. rewrite (sread_Ok _ _ _ N) by (by apply get_n_Ok). rewrite (proj2 (dmem_true _ _)); [exact (upd_n_run h r _ (λ N, N <| n_in := ddel (n_in N) i |>) HN)|].
      apply elem_of_list_fmap. by exists (i, e).
    + intros C'. destruct (con_in _ C r N i e HN Hin) as (g & t & Nt & E & HE & HNt & (E' & HE' & Hg & Hs & Ht) & _ & _ & Hk & _).
      assert (E' = E) as -> by congruence. destruct (con_edge _ C' e E g) as (s' & t' & Ns' & Nt' & Hs' & Ht' & HNs' & HNt' & _ & Ho); [done..|].
      assert (t' = r) as -> by congruence. simpl in HNt'. rewrite list_lookup_insert in HNt' by (by eapply lookup_lt_Some). injection HNt' as <-. simpl in Ho.
      rewrite ddel_filter in Ho by done. apply elem_of_list_filter in Ho as [Hne Ho]. simpl in Hne. apply Hne.
      destruct (con_in _ C r N _ e HN Ho) as (g2 & t2 & Nt2 & E2 & HE2 & HNt2 & (E3 & HE3 & ? & ? & ?) & _ & _ & Hk2 & _). congruence.
Qed.
(** C87.  append_outward_edge (append_inward_edge) of an edge of a graph at a node that is not
    its start (end) does not raise and makes the graph inconsistent. *)
Lemma C87_half_appended_proof : ∀ h r N g e s t, reachable h → h_nodes h !! r = Some N → joins h g e s t →
  (r ≠ s → ∃ h', append_outward r e h = (h', Ok tt) ∧ ¬ consistent h') ∧ (r ≠ t → ∃ h', append_inward r e h = (h', Ok tt) ∧ ¬ consistent h').
Proof.
  intros h r N g e s t Hr HN (E & HE & Hg & Hs & Ht). pose proof (C01_consistent_proof _ Hr) as C.
  destruct (con_edge _ C e E g HE Hg) as (s' & t' & Ns & Nt & Hs' & Ht' & HNs & HNt & _ & _).
  assert (s' = s) as -> by congruence. assert (t' = t) as -> by congruence.
  assert (Hid : get_edge_id h e = Ok (n_id Ns, n_id Nt, e_raw E)).
  { unfold get_edge_id. rewrite (get_e_Ok _ _ E) by done. simpl. rewrite Hs, Ht, (get_n_Ok _ _ _ HNs), (get_n_Ok _ _ _ HNt). done. }
  split; intros Hne.
  - exists (h <| h_nodes := <[r := N <| n_out := dset (n_out N) (n_id Ns, n_id Nt, e_raw E) e |>]> (h_nodes h) |>). split.
    + unfold append_outward. rewrite (sread_Ok _ _ _ _ Hid). exact (upd_n_run h r _ (λ N, N <| n_out := dset (n_out N) (n_id Ns, n_id Nt, e_raw E) e |>) HN).
    + intros C'. destruct (con_out _ C' r (N <| n_out := dset (n_out N) (n_id Ns, n_id Nt, e_raw E) e |>) (n_id Ns, n_id Nt, e_raw E) e) as (g' & t' & Nt' & E' & HE' & _ & (E2 & HE2 & _ & Hs2 & _) & _).
      * simpl. apply list_lookup_insert. by eapply lookup_lt_Some.
      * simpl. apply dget_Some_in. by rewrite dget_dset, decide_True.
      * simpl in HE2. congruence.
  - exists (h <| h_nodes := <[r := N <| n_in := dset (n_in N) (n_id Ns, n_id Nt, e_raw E) e |>]> (h_nodes h) |>). split.
    + unfold append_inward. rewrite (sread_Ok _ _ _ _ Hid). exact (upd_n_run h r _ (λ N, N <| n_in := dset (n_in N) (n_id Ns, n_id Nt, e_raw E) e |>) HN).
    + intros C'. destruct (con_in _ C' r (N <| n_in := dset (n_in N) (n_id Ns, n_id Nt, e_raw E) e |>) (n_id Ns, n_id Nt, e_raw E) e) as (g' & t' & Nt' & E' & HE' & _ & (E2 & HE2 & _ & _ & Ht2) & _).
      * simpl. apply list_lookup_insert. by eapply lookup_lt_Some.
      * simpl. apply dget_Some_in. by rewrite dget_dset, decide_True.
      * simpl in HE2. congruence.
Qed.
(** C87 refuted: after Node(graph, 'b') for the existing name b the edge of a leads to a node
    that is not in the graph. *)
Lemma C87_node_refuted_proof : ∃ h g n r a i h' r', reachable h ∧ named h g n r ∧ node_ctor g n a i h = (h', Ok r') ∧ ¬ consistent h' ∧
  (∃ e x, in_graph h' g x ∧ joins h' g e x r ∧ ¬ in_graph h' g r).
Proof.
  assert (Hn : named sample 0 (nm "b") 1) by (eexists; split; [done|]; dec).
  destruct (node_ctor 0 (nm "b") nargs0 0%Z sample) as [h' [r'|x]] eqn:E; [|vm_compute in E; discriminate E].
  destruct (C87_node_breaks_proof sample 0 (nm "b") 1 nargs0 0%Z h' r' sample_reachable Hn E) as (_ & H1 & _ & H2 & H3).
  exists sample, 0, (nm "b"), 1, nargs0, 0%Z, h', r'. split; [apply sample_reachable|]. split_and!; [done|exact E|done|]. exists 0, 0.
  split; [|split; [apply H2; by vm_compute; eexists|done]]. vm_compute in E. injection E as <- <-. eexists _, (nm "a"). split; [reflexivity|]. simpl. dec.
Qed.
(** C87 refuted: a second Edge between a and b makes the graph inconsistent. *)
Lemma C87_edge_refuted_proof : ∃ h g e0 s t h' e, reachable h ∧ joins h g e0 s t ∧ edge_ctor g s t eargs0 h = (h', Ok e) ∧ ¬ consistent h' ∧ listed h e0 ∧ ¬ listed h' e0.
Proof.
  assert (Hj : joins sample 0 0 0 1) by (eexists; by vm_compute).
  destruct (h_edges sample !! 0) as [E0|] eqn:HE0; [|vm_compute in HE0; discriminate HE0].
  assert (Hraw : e_raw E0 = RId (c_id eargs0)) by (vm_compute in HE0; injection HE0 as <-; reflexivity).
  destruct (edge_ctor 0 0 1 eargs0 sample) as [h' [e|x]] eqn:E; [|vm_compute in E; discriminate E].
  destruct (C87_edge_breaks_proof sample 0 0 1 eargs0 0 E0 h' e sample_reachable Hj HE0 Hraw E) as (_ & _ & H1 & _ & H2).
  exists sample, 0, 0, 0, 1, h', e. split; [apply sample_reachable|]. split_and!; [done|exact E|done| |done].
  eexists 0, _, (nm "a", nm "b", RId None). split; [reflexivity|]. left. simpl. dec.
Qed.
(** Node a of the first sample graph and node z of the second can be joined. *)
Lemma C87_foreign_ex_proof : reachable sample ∧ (∃ N, h_nodes sample !! 5 = Some N ∧ n_graph N ≠ Some 0) ∧ (edge_ctor 0 0 5 eargs0 sample).2 = Ok 7 ∧
  (∃ N i, h_nodes sample !! 0 = Some N ∧ (i, 0) ∈ n_out N) ∧ joins sample 0 0 0 1.
Proof.
  split; [apply sample_reachable|]. split; [eexists; by vm_compute|]. split; [by vm_compute|]. split; [|eexists; by vm_compute].
  eexists _, (nm "a", nm "b", RId None). split; [reflexivity|]. simpl. dec.
Qed.
