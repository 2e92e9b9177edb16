(** The heap invariant and its preservation by the primitive state changes. *)
From Verif Require Export ProofDict ModelCore Spec.

Record WF (h : heap) : Prop := {
  wf_gnodes : ∀ g G k r, h_graphs h !! g = Some G → (k, r) ∈ g_nodes G →
    ∃ N, h_nodes h !! r = Some N ∧ n_id N = k ∧ n_graph N = Some g;
  wf_gkeys : ∀ g G, h_graphs h !! g = Some G → NoDup (dkeys (g_nodes G));
  wf_ngraph : ∀ r N g, h_nodes h !! r = Some N → n_graph N = Some g →
    ∃ G, h_graphs h !! g = Some G ∧ (n_id N, r) ∈ g_nodes G;
  wf_nout : ∀ r N, h_nodes h !! r = Some N → NoDup (dkeys (n_out N));
  wf_nin : ∀ r N, h_nodes h !! r = Some N → NoDup (dkeys (n_in N));
  wf_out : ∀ r N k e, h_nodes h !! r = Some N → (k, e) ∈ n_out N →
    ∃ g E t Nt, h_edges h !! e = Some E ∧ e_start E = Some r ∧ e_end E = Some t ∧
      h_nodes h !! t = Some Nt ∧ k = (n_id N, n_id Nt, e_raw E) ∧ e_graph E = Some g;
  wf_in : ∀ r N k e, h_nodes h !! r = Some N → (k, e) ∈ n_in N →
    ∃ g E s Ns, h_edges h !! e = Some E ∧ e_start E = Some s ∧ e_end E = Some r ∧
      h_nodes h !! s = Some Ns ∧ k = (n_id Ns, n_id N, e_raw E) ∧ e_graph E = Some g;
  wf_live : ∀ e E g, h_edges h !! e = Some E → e_graph E = Some g →
    ∃ s t Ns Nt u, e_start E = Some s ∧ e_end E = Some t ∧
      h_nodes h !! s = Some Ns ∧ h_nodes h !! t = Some Nt ∧
      n_graph Ns = Some g ∧ n_graph Nt = Some g ∧ e_raw E = RId u ∧
      ((n_id Ns, n_id Nt, e_raw E), e) ∈ n_out Ns ∧ ((n_id Ns, n_id Nt, e_raw E), e) ∈ n_in Nt;
  wf_dead : ∀ e E, h_edges h !! e = Some E → e_graph E = None →
    (e_start E = None ∧ e_end E = None) ∨
    (e_raw E = RDead ∧ ∃ s t Ns Nt, e_start E = Some s ∧ e_end E = Some t ∧
       h_nodes h !! s = Some Ns ∧ h_nodes h !! t = Some Nt);
  wf_nstyle : ∀ r N s, h_nodes h !! r = Some N → n_style N = Some s → s < length (h_ns h);
  wf_estyle : ∀ e E s, h_edges h !! e = Some E → e_style E = Some s → s < length (h_es h)
}.

Lemma WF_empty : WF empty_heap.
Proof. split; intros *; rewrite ?lookup_nil; done. Qed.

Lemma WF_consistent h : WF h → consistent h.
Proof.
  intros W. split.
  - intros g G HG. by apply (wf_gkeys _ W g).
  - intros g k r (G & HG & Hk). by eapply wf_gnodes.
  - intros r N g HN Hg. destruct (wf_ngraph _ W r N g) as (G & ? & ?); [done..|]. by exists G.
  - intros r N k e HN Hk. destruct (wf_out _ W r N k e) as (g & E & t & Nt & HE & Hs & Ht & HNt & -> & Hg); [done..|].
    destruct (wf_live _ W e E g) as (s' & t' & Ns' & Nt' & u & ? & ? & ? & ? & ? & ? & ? & ? & ?); [done..|].
    simplify_eq. eexists g, _, _, _. split_and!; [done|done|by eexists|done..].
  - intros r N k e HN Hk. destruct (wf_in _ W r N k e) as (g & E & s & Ns & HE & Hs & Ht & HNs & -> & Hg); [done..|].
    destruct (wf_live _ W e E g) as (s' & t' & Ns' & Nt' & u & ? & ? & ? & ? & ? & ? & ? & ? & ?); [done..|].
    simplify_eq. eexists g, _, _, _. split_and!; [done|done|by eexists|done..].
  - intros r N HN. split; [by apply (wf_nout _ W r)|by apply (wf_nin _ W r)].
  - intros e E g HE Hg.
    destruct (wf_live _ W e E g) as (s' & t' & Ns' & Nt' & u & ? & ? & ? & ? & ? & ? & ? & ? & ?); [done..|].
    by exists s', t', Ns', Nt'.
Qed.

(** * A state change that touches only data fields *)

(** The fields the invariant reads are the same; styles may only be added. *)
Record data_only (h h' : heap) : Prop := {
  do_nodes : ∀ r, match h_nodes h !! r, h_nodes h' !! r with
    | Some N, Some N' => n_graph N' = n_graph N ∧ n_id N' = n_id N ∧ n_out N' = n_out N ∧ n_in N' = n_in N
                         ∧ n_index N' = n_index N
                         ∧ (n_style N' = n_style N ∨ ∃ s, n_style N' = Some s ∧ s < length (h_ns h'))
    | None, None => True
    | _, _ => False
    end;
  do_edges : ∀ e, match h_edges h !! e, h_edges h' !! e with
    | Some E, Some E' => e_graph E' = e_graph E ∧ e_raw E' = e_raw E ∧ e_start E' = e_start E ∧ e_end E' = e_end E
                         ∧ (e_style E' = e_style E ∨ ∃ s, e_style E' = Some s ∧ s < length (h_es h'))
    | None, None => True
    | _, _ => False
    end;
  do_graphs : ∀ g, match h_graphs h !! g, h_graphs h' !! g with
    | Some G, Some G' => g_nodes G' = g_nodes G
    | None, None => True
    | _, _ => False
    end;
  do_ns : length (h_ns h) ≤ length (h_ns h');
  do_es : length (h_es h) ≤ length (h_es h')
}.

Lemma data_only_refl h : data_only h h.
Proof.
  split; try done.
  - intros r. destruct (h_nodes h !! r); naive_solver.
  - intros r. destruct (h_edges h !! r); naive_solver.
  - intros r. by destruct (h_graphs h !! r).
Qed.
Lemma data_only_trans h1 h2 h3 : data_only h1 h2 → data_only h2 h3 → data_only h1 h3.
Proof.
  intros D1 D2. pose proof (do_ns _ _ D1). pose proof (do_ns _ _ D2).
  pose proof (do_es _ _ D1). pose proof (do_es _ _ D2). split; [| | |lia|lia].
  - intros r. pose proof (do_nodes _ _ D1 r). pose proof (do_nodes _ _ D2 r).
    destruct (h_nodes h1 !! r), (h_nodes h2 !! r), (h_nodes h3 !! r); try done.
    destruct_and!. split_and!; try congruence.
    match goal with H : _ ∨ _ |- _ => destruct H as [He|(s & ? & ?)]; [|right; eauto with lia] end.
    match goal with H : _ ∨ _ |- _ => destruct H as [He'|(s & ? & ?)]; [|right] end.
    + left; congruence.
    + exists s. split; [congruence|lia].
  - intros r. pose proof (do_edges _ _ D1 r). pose proof (do_edges _ _ D2 r).
    destruct (h_edges h1 !! r), (h_edges h2 !! r), (h_edges h3 !! r); try done.
    destruct_and!. split_and!; try congruence.
    match goal with H : _ ∨ _ |- _ => destruct H as [He|(s & ? & ?)]; [|right; eauto with lia] end.
    match goal with H : _ ∨ _ |- _ => destruct H as [He'|(s & ? & ?)]; [|right] end.
    + left; congruence.
    + exists s. split; [congruence|lia].
  - intros r. pose proof (do_graphs _ _ D1 r). pose proof (do_graphs _ _ D2 r).
    destruct (h_graphs h1 !! r), (h_graphs h2 !! r), (h_graphs h3 !! r); try done. congruence.
Qed.

(** Lookups through [data_only]. *)
Lemma do_node_back h h' r N' : data_only h h' → h_nodes h' !! r = Some N' →
  ∃ N, h_nodes h !! r = Some N ∧ n_graph N' = n_graph N ∧ n_id N' = n_id N ∧ n_out N' = n_out N
       ∧ n_in N' = n_in N ∧ n_index N' = n_index N
       ∧ (n_style N' = n_style N ∨ ∃ s, n_style N' = Some s ∧ s < length (h_ns h')).
Proof. intros D HN. pose proof (do_nodes _ _ D r). rewrite HN in H. destruct (h_nodes h !! r); naive_solver. Qed.
Lemma do_node_fwd h h' r N : data_only h h' → h_nodes h !! r = Some N →
  ∃ N', h_nodes h' !! r = Some N' ∧ n_graph N' = n_graph N ∧ n_id N' = n_id N ∧ n_out N' = n_out N
       ∧ n_in N' = n_in N ∧ n_index N' = n_index N.
Proof. intros D HN. pose proof (do_nodes _ _ D r). rewrite HN in H. destruct (h_nodes h' !! r); naive_solver. Qed.
Lemma do_edge_back h h' e E' : data_only h h' → h_edges h' !! e = Some E' →
  ∃ E, h_edges h !! e = Some E ∧ e_graph E' = e_graph E ∧ e_raw E' = e_raw E ∧ e_start E' = e_start E
       ∧ e_end E' = e_end E
       ∧ (e_style E' = e_style E ∨ ∃ s, e_style E' = Some s ∧ s < length (h_es h')).
Proof. intros D HE. pose proof (do_edges _ _ D e). rewrite HE in H. destruct (h_edges h !! e); naive_solver. Qed.
Lemma do_edge_fwd h h' e E : data_only h h' → h_edges h !! e = Some E →
  ∃ E', h_edges h' !! e = Some E' ∧ e_graph E' = e_graph E ∧ e_raw E' = e_raw E ∧ e_start E' = e_start E
       ∧ e_end E' = e_end E.
Proof. intros D HE. pose proof (do_edges _ _ D e). rewrite HE in H. destruct (h_edges h' !! e); naive_solver. Qed.
Lemma do_graph_back h h' g G' : data_only h h' → h_graphs h' !! g = Some G' →
  ∃ G, h_graphs h !! g = Some G ∧ g_nodes G' = g_nodes G.
Proof. intros D HE. pose proof (do_graphs _ _ D g). rewrite HE in H. destruct (h_graphs h !! g); naive_solver. Qed.
Lemma do_graph_fwd h h' g G : data_only h h' → h_graphs h !! g = Some G →
  ∃ G', h_graphs h' !! g = Some G' ∧ g_nodes G' = g_nodes G.
Proof. intros D HE. pose proof (do_graphs _ _ D g). rewrite HE in H. destruct (h_graphs h' !! g); naive_solver. Qed.

Ltac do_back D :=
  repeat match goal with
  | H : h_nodes ?h' !! ?r = Some ?N |- _ =>
      match type of D with data_only ?h h' =>
        apply (do_node_back h h' r N D) in H as (?N & H & ? & ? & ? & ? & ? & ?) end
  | H : h_edges ?h' !! ?r = Some ?N |- _ =>
      match type of D with data_only ?h h' =>
        apply (do_edge_back h h' r N D) in H as (?E & H & ? & ? & ? & ? & ?) end
  | H : h_graphs ?h' !! ?r = Some ?N |- _ =>
      match type of D with data_only ?h h' =>
        apply (do_graph_back h h' r N D) in H as (?G & H & ?) end
  end.

(** Rewrite the fields of primed objects into those of the old ones. *)
Ltac wfrw :=
  repeat match goal with
  | H : n_out ?a = n_out ?b |- context [n_out ?a] => rewrite H
  | H : n_in ?a = n_in ?b |- context [n_in ?a] => rewrite H
  | H : n_id ?a = n_id ?b |- context [n_id ?a] => rewrite H
  | H : n_graph ?a = n_graph ?b |- context [n_graph ?a] => rewrite H
  | H : e_raw ?a = e_raw ?b |- context [e_raw ?a] => rewrite H
  | H : e_graph ?a = e_graph ?b |- context [e_graph ?a] => rewrite H
  | H : e_start ?a = e_start ?b |- context [e_start ?a] => rewrite H
  | H : e_end ?a = e_end ?b |- context [e_end ?a] => rewrite H
  | H : g_nodes ?a = g_nodes ?b |- context [g_nodes ?a] => rewrite H
  end.

Ltac cg := first [done | congruence | (wfrw; done) | (wfrw; congruence)].

Lemma WF_data_only h h' : WF h → data_only h h' → WF h'.
Proof.
  intros W D. pose proof (do_ns _ _ D) as Dns. pose proof (do_es _ _ D) as Des. split.
  - intros g G k r HG Hk. do_back D. rewrite H in Hk.
    destruct (wf_gnodes _ W g G0 k r) as (N & HN & ? & ?); [done..|].
    destruct (do_node_fwd _ _ r N D) as (N' & ? & ? & ? & _); [done|]. exists N'. split_and!; cg.
  - intros g G HG. do_back D. rewrite H. by eapply wf_gkeys.
  - intros r N g HN Hg. do_back D. destruct (wf_ngraph _ W r N0 g) as (G & HG & ?); [cg..|].
    destruct (do_graph_fwd _ _ g G D) as (G' & ? & ?); [done|]. exists G'. split; [done|]. by wfrw.
  - intros r N HN. do_back D. rewrite H1. by eapply wf_nout.
  - intros r N HN. do_back D. rewrite H2. by eapply wf_nin.
  - intros r N k e HN Hk. do_back D. rewrite H1 in Hk.
    destruct (wf_out _ W r N0 k e) as (g & E & t & Nt & HE & Hs & Ht & HNt & -> & Hg); [done..|].
    destruct (do_edge_fwd _ _ e E D) as (E' & ? & ? & ? & ? & ?); [done|].
    destruct (do_node_fwd _ _ t Nt D) as (Nt' & ? & ? & ? & ?); [done|].
    exists g, E', t, Nt'. wfrw. by split_and!.
  - intros r N k e HN Hk. do_back D. rewrite H2 in Hk.
    destruct (wf_in _ W r N0 k e) as (g & E & s & Ns & HE & Hs & Ht & HNs & -> & Hg); [done..|].
    destruct (do_edge_fwd _ _ e E D) as (E' & ? & ? & ? & ? & ?); [done|].
    destruct (do_node_fwd _ _ s Ns D) as (Ns' & ? & ? & ? & ?); [done|].
    exists g, E', s, Ns'. wfrw. by split_and!.
  - intros e E g HE Hg. do_back D.
    destruct (wf_live _ W e E0 g) as (s & t & Ns & Nt & u & ? & ? & HNs & HNt & ? & ? & ? & ? & ?); [cg..|].
    destruct (do_node_fwd _ _ s Ns D) as (Ns' & ? & ? & ? & ? & ?); [done|].
    destruct (do_node_fwd _ _ t Nt D) as (Nt' & ? & ? & ? & ? & ? & ?); [done|].
    exists s, t, Ns', Nt', u. wfrw. by split_and!.
  - intros e E HE Hg. do_back D.
    destruct (wf_dead _ W e E0) as [[? ?]|(? & s & t & Ns & Nt & ? & ? & HNs & HNt)]; [cg..|left|right].
    + split; cg.
    + destruct (do_node_fwd _ _ s Ns D) as (Ns' & ? & ? & ? & ?); [done|].
      destruct (do_node_fwd _ _ t Nt D) as (Nt' & ? & ? & ? & ?); [done|].
      split; [cg|]. exists s, t, Ns', Nt'. split_and!; cg.
  - intros r N s HN Hs. do_back D. destruct H4 as [?|(s' & ? & ?)].
    + eapply Nat.lt_le_trans; [|done]. eapply wf_nstyle; [done..|cg].
    + cg.
  - intros r N s HN Hs. do_back D. destruct H3 as [?|(s' & ? & ?)].
    + eapply Nat.lt_le_trans; [|done]. eapply wf_estyle; [done..|cg].
    + cg.
Qed.

(** * The node list after a pointwise change *)
Lemma lookup_alter_fmap {A} (f : A → A) (l : list A) i j :
  alter f i l !! j = (if decide (i = j) then f else id) <$> l !! j.
Proof.
  destruct (decide (i = j)) as [->|].
  - by rewrite list_lookup_alter.
  - rewrite list_lookup_alter_ne by done. by destruct (l !! j).
Qed.
Lemma insert_alter {A} (l : list A) i x (f : A → A) : l !! i = Some x → <[i := f x]> l = alter f i l.
Proof.
  intros Hx. apply list_eq. intros j. rewrite lookup_alter_fmap. destruct (decide (i = j)) as [->|].
  - rewrite list_lookup_insert by (by eapply lookup_lt_Some). by rewrite Hx.
  - rewrite list_lookup_insert_ne by done. by destruct (l !! j).
Qed.

(** * Adding an edge object and its two entries *)
Lemma WF_add_edge h h' g s t Ns Nt u E :
  let i := (n_id Ns, n_id Nt, RId u) in
  let e := length (h_edges h) in
  WF h →
  h_nodes h !! s = Some Ns → h_nodes h !! t = Some Nt → n_graph Ns = Some g → n_graph Nt = Some g →
  i ∉ dkeys (n_out Ns) → i ∉ dkeys (n_in Nt) →
  e_graph E = Some g → e_raw E = RId u → e_start E = Some s → e_end E = Some t →
  (∀ k, e_style E = Some k → k < length (h_es h')) →
  (∀ r, h_nodes h' !! r = (λ N, N <| n_out := n_out N ++ if decide (r = s) then [(i, e)] else [] |>
                                  <| n_in := n_in N ++ if decide (r = t) then [(i, e)] else [] |>)
                          <$> h_nodes h !! r) →
  h_edges h' = h_edges h ++ [E] → h_graphs h' = h_graphs h →
  length (h_ns h) ≤ length (h_ns h') → length (h_es h) ≤ length (h_es h') → WF h'.
Proof.
  intros i e W HNs HNt Hgs Hgt Hfo Hfi HgE HrE HsE HtE HstE Hn He Hg Hns Hes.
  assert (Hback : ∀ r N', h_nodes h' !! r = Some N' → ∃ N, h_nodes h !! r = Some N ∧
    n_graph N' = n_graph N ∧ n_id N' = n_id N ∧ n_style N' = n_style N ∧
    n_out N' = n_out N ++ (if decide (r = s) then [(i, e)] else []) ∧
    n_in N' = n_in N ++ (if decide (r = t) then [(i, e)] else [])).
  { intros r N'. rewrite Hn. destruct (h_nodes h !! r) as [N|]; simpl; [|done]. intros [= <-]. by exists N. }
  assert (Hfwd : ∀ r N, h_nodes h !! r = Some N → ∃ N', h_nodes h' !! r = Some N' ∧
    n_graph N' = n_graph N ∧ n_id N' = n_id N ∧ n_style N' = n_style N ∧
    n_out N' = n_out N ++ (if decide (r = s) then [(i, e)] else []) ∧
    n_in N' = n_in N ++ (if decide (r = t) then [(i, e)] else [])).
  { intros r N HN. rewrite Hn, HN. simpl. by eexists. }
  assert (HE : h_edges h' !! e = Some E).
  { rewrite He. apply list_lookup_middle. done. }
  assert (HEold : ∀ e' E', h_edges h !! e' = Some E' → h_edges h' !! e' = Some E').
  { intros e' E' HE'. rewrite He. by apply lookup_app_l_Some. }
  assert (HEback : ∀ e' E', h_edges h' !! e' = Some E' →
            h_edges h !! e' = Some E' ∨ (e' = e ∧ E' = E)).
  { intros e' E'. rewrite He. intros [?|[? HE']]%lookup_app_Some; [by left|right].
    destruct (e' - length (h_edges h)) eqn:Hd; [|done]. simpl in HE'. split; [unfold e; lia|cg]. }
  destruct (Hfwd s Ns HNs) as (Ns' & HNs' & Hs1 & Hs2 & Hs3 & Hs4 & Hs5).
  destruct (Hfwd t Nt HNt) as (Nt' & HNt' & Ht1 & Ht2 & Ht3 & Ht4 & Ht5).
  rewrite decide_True in Hs4 by done. rewrite decide_True in Ht5 by done.
  split.
  - intros g' G k r. rewrite Hg. intros HG Hk.
    destruct (wf_gnodes _ W g' G k r) as (N & HN & ? & ?); [done..|].
    destruct (Hfwd r N HN) as (N' & ? & ? & ? & ?). exists N'. split_and!; cg.
  - intros g' G. rewrite Hg. by apply wf_gkeys.
  - intros r N' g' HN' Hg'. destruct (Hback r N' HN') as (N & HN & Hb1 & Hb2 & _).
    rewrite Hg, Hb2. eapply wf_ngraph; [done..|cg].
  - intros r N' HN'. destruct (Hback r N' HN') as (N & HN & Hb1 & Hb2 & Hb3 & Hb4 & Hb5).
    rewrite Hb4. destruct (decide (r = s)) as [->|].
    + simplify_eq. apply NoDup_dkeys_snoc; [by eapply wf_nout|done].
    + rewrite app_nil_r. by eapply wf_nout.
  - intros r N' HN'. destruct (Hback r N' HN') as (N & HN & Hb1 & Hb2 & Hb3 & Hb4 & Hb5).
    rewrite Hb5. destruct (decide (r = t)) as [->|].
    + simplify_eq. apply NoDup_dkeys_snoc; [by eapply wf_nin|done].
    + rewrite app_nil_r. by eapply wf_nin.
  - intros r N' k e' HN' Hk. destruct (Hback r N' HN') as (N & HN & Hb1 & Hb2 & Hb3 & Hb4 & Hb5).
    rewrite Hb4 in Hk. apply elem_of_app in Hk as [Hk|Hk].
    + destruct (wf_out _ W r N k e') as (g' & E' & t' & Nt'' & ? & ? & ? & Ht' & -> & ?); [done..|].
      destruct (Hfwd _ _ Ht') as (N'' & ? & ? & ? & ?).
      exists g', E', t', N''. split_and!; try done; [auto|cg].
    + destruct (decide (r = s)) as [->|]; [|by apply elem_of_nil in Hk].
      apply elem_of_list_singleton in Hk as [= -> ->]. simplify_eq.
      exists g, E, t, Nt'. split_and!; try done. unfold i. cg.
  - intros r N' k e' HN' Hk. destruct (Hback r N' HN') as (N & HN & Hb1 & Hb2 & Hb3 & Hb4 & Hb5).
    rewrite Hb5 in Hk. apply elem_of_app in Hk as [Hk|Hk].
    + destruct (wf_in _ W r N k e') as (g' & E' & s' & Ns'' & ? & ? & ? & Hs' & -> & ?); [done..|].
      destruct (Hfwd _ _ Hs') as (N'' & ? & ? & ? & ?).
      exists g', E', s', N''. split_and!; try done; [auto|cg].
    + destruct (decide (r = t)) as [->|]; [|by apply elem_of_nil in Hk].
      apply elem_of_list_singleton in Hk as [= -> ->]. simplify_eq.
      exists g, E, s, Ns'. split_and!; try done. unfold i. cg.
  - intros e' E' g' HE' Hg'. destruct (HEback _ _ HE') as [HE''|[-> ->]].
    + destruct (wf_live _ W e' E' g') as (s0 & t0 & Ns0 & Nt0 & u0 & ? & ? & Hs0 & Ht0 & ? & ? & ? & ? & ?); [done..|].
      destruct (Hfwd _ _ Hs0) as (Ns0' & ? & ? & ? & ? & Hso & _).
      destruct (Hfwd _ _ Ht0) as (Nt0' & ? & ? & ? & ? & _ & Hti).
      exists s0, t0, Ns0', Nt0', u0. rewrite Hso, Hti. split_and!; try cg.
      * apply elem_of_app. left. cg.
      * apply elem_of_app. left. cg.
    + exists s, t, Ns', Nt', u. rewrite Hs4, Ht5. split_and!; try cg.
      * apply elem_of_app. right. apply elem_of_list_singleton. unfold i. cg.
      * apply elem_of_app. right. apply elem_of_list_singleton. unfold i. cg.
  - intros e' E' HE' Hg'. destruct (HEback _ _ HE') as [HE''|[-> ->]]; [|cg].
    destruct (wf_dead _ W e' E') as [?|(? & s0 & t0 & Ns0 & Nt0 & ? & ? & Hs0 & Ht0)]; [done..|by left|right].
    split; [done|]. destruct (Hfwd _ _ Hs0) as (? & ? & _). destruct (Hfwd _ _ Ht0) as (? & ? & _).
    by eexists _, _, _, _.
  - intros r N' k HN' Hk. destruct (Hback r N' HN') as (N & HN & Hb1 & Hb2 & Hb3 & Hb4 & Hb5).
    eapply Nat.lt_le_trans; [|done]. eapply wf_nstyle; [done..|cg].
  - intros e' E' k HE' Hk. destruct (HEback _ _ HE') as [HE''|[-> ->]]; [|auto].
    eapply Nat.lt_le_trans; [|done]. by eapply wf_estyle.
Qed.

(** * Deleting the two entries of an edge *)

(** the edges in the dicts of two nodes are the same objects for the same id *)
Lemma WF_out_edge h r N k e E : WF h → h_nodes h !! r = Some N → (k, e) ∈ n_out N →
  h_edges h !! e = Some E → e_start E = Some r ∧ get_edge_id h e = Ok k.
Proof.
  intros W HN Hk HE. destruct (wf_out _ W r N k e) as (g & E' & t & Nt & ? & ? & ? & ? & -> & ?); [done..|].
  simplify_eq. split; [done|]. unfold get_edge_id, get_e, get_n. rewrite HE. simpl.
  by simplify_option_eq.
Qed.

Lemma WF_del_edge h h' e E g s t Ns Nt E' :
  let i := (n_id Ns, n_id Nt, e_raw E) in
  WF h →
  h_edges h !! e = Some E → e_graph E = Some g → e_start E = Some s → e_end E = Some t →
  h_nodes h !! s = Some Ns → h_nodes h !! t = Some Nt →
  (∀ r, h_nodes h' !! r = (λ N, N <| n_out := if decide (r = s) then ddel (n_out N) i else n_out N |>
                                  <| n_in := if decide (r = t) then ddel (n_in N) i else n_in N |>)
                          <$> h_nodes h !! r) →
  e_graph E' = None → e_style E' = e_style E →
  ((e_start E' = None ∧ e_end E' = None) ∨ (e_raw E' = RDead ∧ e_start E' = Some s ∧ e_end E' = Some t)) →
  h_edges h' = <[e := E']> (h_edges h) → h_graphs h' = h_graphs h →
  h_ns h' = h_ns h → h_es h' = h_es h → WF h'.
Proof.
  intros i W HE HgE HsE HtE HNs HNt Hn HgE' HstE' Hdead He Hg Hns Hes.
  assert (Hback : ∀ r N', h_nodes h' !! r = Some N' → ∃ N, h_nodes h !! r = Some N ∧
    n_graph N' = n_graph N ∧ n_id N' = n_id N ∧ n_style N' = n_style N ∧
    n_out N' = (if decide (r = s) then ddel (n_out N) i else n_out N) ∧
    n_in N' = (if decide (r = t) then ddel (n_in N) i else n_in N)).
  { intros r N'. rewrite Hn. destruct (h_nodes h !! r) as [N|]; simpl; [|done]. intros [= <-]. by exists N. }
  assert (Hfwd : ∀ r N, h_nodes h !! r = Some N → ∃ N', h_nodes h' !! r = Some N' ∧
    n_graph N' = n_graph N ∧ n_id N' = n_id N ∧ n_style N' = n_style N ∧
    n_out N' = (if decide (r = s) then ddel (n_out N) i else n_out N) ∧
    n_in N' = (if decide (r = t) then ddel (n_in N) i else n_in N)).
  { intros r N HN. rewrite Hn, HN. simpl. by eexists. }
  assert (HEother : ∀ e', e' ≠ e → h_edges h' !! e' = h_edges h !! e').
  { intros e' ?. rewrite He. by rewrite list_lookup_insert_ne. }
  assert (HEnew : h_edges h' !! e = Some E').
  { rewrite He. rewrite list_lookup_insert; [done|]. by eapply lookup_lt_Some. }
  destruct (wf_live _ W e E g) as (s' & t' & Ns' & Nt' & u & ? & ? & ? & ? & Hgs & Hgt & Hu & Hio & Hii); [done..|].
  simplify_eq. fold i in Hio, Hii.
  assert (Ho : ∀ r N N' k e', h_nodes h !! r = Some N → h_nodes h' !! r = Some N' →
     (k, e') ∈ n_out N' ↔ (k, e') ∈ n_out N ∧ e' ≠ e).
  { intros r N N' k e' HN HN'. destruct (Hback _ _ HN') as (N0 & ? & _ & _ & _ & Hb & _). simplify_eq.
    rewrite Hb. destruct (decide (r = s)) as [->|Hne].
    - simplify_eq. rewrite elem_of_ddel by (by eapply wf_nout).
      split; intros [H1 H2]; [split; [done|]|split; [|done]].
      + intros ->. apply H1. destruct (WF_out_edge h s Ns k e E) as [_ Hk]; [done..|].
        destruct (WF_out_edge h s Ns i e E) as [_ Hi]; [done..|]. cg.
      + intros ->. apply H2. apply (dict_functional (n_out Ns) i e' e); [by eapply wf_nout|done..].
    - split; [|naive_solver]. intros Hk. split; [done|]. intros ->.
      destruct (WF_out_edge h r N k e E) as [Hr _]; [done..|]. cg. }
  assert (Hi : ∀ r N N' k e', h_nodes h !! r = Some N → h_nodes h' !! r = Some N' →
     (k, e') ∈ n_in N' ↔ (k, e') ∈ n_in N ∧ e' ≠ e).
  { intros r N N' k e' HN HN'. destruct (Hback _ _ HN') as (N0 & ? & _ & _ & _ & _ & Hb). simplify_eq.
    rewrite Hb. destruct (decide (r = t)) as [->|Hne].
    - simplify_eq. rewrite elem_of_ddel by (by eapply wf_nin).
      split; intros [H1 H2]; [split; [done|]|split; [|done]].
      + intros ->. apply H1.
        destruct (wf_in _ W t Nt k e) as (g0 & E0 & s0 & Ns0 & ? & ? & ? & ? & -> & ?); [done..|]. simplify_eq.
      + intros ->. apply H2. apply (dict_functional (n_in Nt) i e' e); [by eapply wf_nin|done..].
    - split; [|naive_solver]. intros Hk. split; [done|]. intros ->.
      destruct (wf_in _ W r N k e) as (g0 & E0 & s0 & Ns0 & ? & ? & ? & ? & -> & ?); [done..|]. cg. }
  split.
  - intros g' G k r. rewrite Hg. intros HG Hk.
    destruct (wf_gnodes _ W g' G k r) as (N & HN & ? & ?); [done..|].
    destruct (Hfwd r N HN) as (N' & ? & ? & ? & ?). exists N'. split_and!; cg.
  - intros g' G. rewrite Hg. by apply wf_gkeys.
  - intros r N' g' HN' Hg'. destruct (Hback r N' HN') as (N & HN & Hb1 & Hb2 & _).
    rewrite Hg, Hb2. eapply wf_ngraph; [done..|cg].
  - intros r N' HN'. destruct (Hback r N' HN') as (N & HN & Hb1 & Hb2 & Hb3 & Hb4 & Hb5).
    rewrite Hb4. destruct (decide (r = s)); [apply NoDup_dkeys_ddel|]; by eapply wf_nout.
  - intros r N' HN'. destruct (Hback r N' HN') as (N & HN & Hb1 & Hb2 & Hb3 & Hb4 & Hb5).
    rewrite Hb5. destruct (decide (r = t)); [apply NoDup_dkeys_ddel|]; by eapply wf_nin.
  - intros r N' k e' HN' Hk. destruct (Hback r N' HN') as (N & HN & Hb1 & Hb2 & Hb3 & Hb4 & Hb5).
    rewrite (Ho r N N') in Hk by done. destruct Hk as [Hk Hne].
    destruct (wf_out _ W r N k e') as (g' & E0 & t0 & Nt0 & ? & ? & ? & Ht0 & -> & ?); [done..|].
    destruct (Hfwd _ _ Ht0) as (N'' & ? & ? & ? & ?).
    exists g', E0, t0, N''. rewrite HEother by done. split_and!; try done. cg.
  - intros r N' k e' HN' Hk. destruct (Hback r N' HN') as (N & HN & Hb1 & Hb2 & Hb3 & Hb4 & Hb5).
    rewrite (Hi r N N') in Hk by done. destruct Hk as [Hk Hne].
    destruct (wf_in _ W r N k e') as (g' & E0 & t0 & Nt0 & ? & ? & ? & Ht0 & -> & ?); [done..|].
    destruct (Hfwd _ _ Ht0) as (N'' & ? & ? & ? & ?).
    exists g', E0, t0, N''. rewrite HEother by done. split_and!; try done. cg.
  - intros e' E0 g' HE0 Hg'. destruct (decide (e' = e)) as [->|Hne]; [cg|].
    rewrite HEother in HE0 by done.
    destruct (wf_live _ W e' E0 g') as (s0 & t0 & Ns0 & Nt0 & u0 & ? & ? & Hs0 & Ht0 & ? & ? & ? & ? & ?); [done..|].
    destruct (Hfwd _ _ Hs0) as (Ns0' & ? & ? & ? & ? & _ & _).
    destruct (Hfwd _ _ Ht0) as (Nt0' & ? & ? & ? & ? & _ & _).
    exists s0, t0, Ns0', Nt0', u0.
    rewrite (Ho s0 Ns0 Ns0'), (Hi t0 Nt0 Nt0') by done. wfrw. split_and!; cg.
  - intros e' E0 HE0 Hg'. destruct (decide (e' = e)) as [->|Hne].
    + rewrite HEnew in HE0. injection HE0 as <-. destruct Hdead as [?|(? & ? & ?)]; [by left|right].
      split; [done|]. destruct (Hfwd s Ns) as (? & ? & _); [done|]. destruct (Hfwd t Nt) as (? & ? & _); [done|].
      by eexists _, _, _, _.
    + rewrite HEother in HE0 by done.
      destruct (wf_dead _ W e' E0) as [?|(? & s0 & t0 & Ns0 & Nt0 & ? & ? & Hs0 & Ht0)]; [done..|by left|right].
      split; [done|]. destruct (Hfwd _ _ Hs0) as (? & ? & _). destruct (Hfwd _ _ Ht0) as (? & ? & _).
      by eexists _, _, _, _.
  - intros r N' k HN' Hk. destruct (Hback r N' HN') as (N & HN & Hb1 & Hb2 & Hb3 & Hb4 & Hb5).
    rewrite Hns. eapply wf_nstyle; [done..|cg].
  - intros e' E0 k HE0 Hk. rewrite Hes. destruct (decide (e' = e)) as [->|Hne].
    + rewrite HEnew in HE0. injection HE0 as <-. apply (wf_estyle _ W e E); [done|]. cg.
    + rewrite HEother in HE0 by done. by eapply wf_estyle.
Qed.

(** * Adding a node *)
Lemma WF_add_node h h' g G N G' :
  let r := length (h_nodes h) in
  WF h →
  h_graphs h !! g = Some G → n_id N ∉ dkeys (g_nodes G) →
  n_graph N = Some g → n_out N = [] → n_in N = [] → (∀ s, n_style N = Some s → s < length (h_ns h')) →
  g_nodes G' = g_nodes G ++ [(n_id N, r)] →
  h_nodes h' = h_nodes h ++ [N] → h_edges h' = h_edges h → h_graphs h' = <[g := G']> (h_graphs h) →
  length (h_ns h) ≤ length (h_ns h') → length (h_es h) ≤ length (h_es h') → WF h'.
Proof.
  intros r W HG Hfresh HgN Ho Hi Hst HG' Hn He Hg Hns Hes.
  assert (Hfwd : ∀ r' N', h_nodes h !! r' = Some N' → h_nodes h' !! r' = Some N').
  { intros r' N' ?. rewrite Hn. by apply lookup_app_l_Some. }
  assert (Hback : ∀ r' N', h_nodes h' !! r' = Some N' → h_nodes h !! r' = Some N' ∨ (r' = r ∧ N' = N)).
  { intros r' N'. rewrite Hn. intros [?|[? HN']]%lookup_app_Some; [by left|right].
    destruct (r' - length (h_nodes h)) eqn:Hd; [|done]. simpl in HN'. split; [unfold r; lia|cg]. }
  assert (Hnew : h_nodes h' !! r = Some N) by (rewrite Hn; by apply list_lookup_middle).
  assert (Hgg : h_graphs h' !! g = Some G').
  { rewrite Hg, list_lookup_insert; [done|]. by eapply lookup_lt_Some. }
  assert (Hgo : ∀ g', g' ≠ g → h_graphs h' !! g' = h_graphs h !! g').
  { intros. rewrite Hg. by rewrite list_lookup_insert_ne. }
  split.
  - intros g' G0 k r' HG0 Hk. destruct (decide (g' = g)) as [->|].
    + rewrite Hgg in HG0. injection HG0 as <-. rewrite HG' in Hk.
      apply elem_of_app in Hk as [Hk|Hk%elem_of_list_singleton].
      * destruct (wf_gnodes _ W g G k r') as (N0 & ? & ? & ?); [done..|]. exists N0. split_and!; auto.
      * simplify_eq. by exists N.
    + rewrite Hgo in HG0 by done.
      destruct (wf_gnodes _ W g' G0 k r') as (N0 & ? & ? & ?); [done..|]. exists N0. split_and!; auto.
  - intros g' G0 HG0. destruct (decide (g' = g)) as [->|].
    + rewrite Hgg in HG0. injection HG0 as <-. rewrite HG'.
      apply NoDup_dkeys_snoc; [by eapply wf_gkeys|done].
    + rewrite Hgo in HG0 by done. by eapply wf_gkeys.
  - intros r' N' g' HN' Hg'. destruct (Hback _ _ HN') as [HN0|[-> ->]].
    + destruct (wf_ngraph _ W r' N' g') as (G0 & ? & ?); [done..|]. destruct (decide (g' = g)) as [->|].
      * exists G'. split; [done|]. rewrite HG'. apply elem_of_app. left. by simplify_eq.
      * exists G0. rewrite Hgo by done. done.
    + simplify_eq. exists G'. split; [cg|]. rewrite HG'. apply elem_of_app. right. by apply elem_of_list_singleton.
  - intros r' N' HN'. destruct (Hback _ _ HN') as [HN0|[-> ->]]; [by eapply wf_nout|]. rewrite Ho. constructor.
  - intros r' N' HN'. destruct (Hback _ _ HN') as [HN0|[-> ->]]; [by eapply wf_nin|]. rewrite Hi. constructor.
  - intros r' N' k e HN' Hk. destruct (Hback _ _ HN') as [HN0|[-> ->]].
    + destruct (wf_out _ W r' N' k e) as (g' & E & t & Nt & ? & ? & ? & ? & ? & ?); [done..|].
      exists g', E, t, Nt. rewrite He. split_and!; auto.
    + rewrite Ho in Hk. by apply elem_of_nil in Hk.
  - intros r' N' k e HN' Hk. destruct (Hback _ _ HN') as [HN0|[-> ->]].
    + destruct (wf_in _ W r' N' k e) as (g' & E & t & Nt & ? & ? & ? & ? & ? & ?); [done..|].
      exists g', E, t, Nt. rewrite He. split_and!; auto.
    + rewrite Hi in Hk. by apply elem_of_nil in Hk.
  - intros e E g'. rewrite He. intros HE HgE.
    destruct (wf_live _ W e E g') as (s & t & Ns & Nt & u & ? & ? & ? & ? & ? & ? & ? & ? & ?); [done..|].
    exists s, t, Ns, Nt, u. split_and!; auto.
  - intros e E. rewrite He. intros HE HgE.
    destruct (wf_dead _ W e E) as [?|(? & s & t & Ns & Nt & ? & ? & ? & ?)]; [done..|by left|right].
    split; [done|]. exists s, t, Ns, Nt. split_and!; auto.
  - intros r' N' k HN' Hk. destruct (Hback _ _ HN') as [HN0|[-> ->]]; [|by eauto].
    eapply Nat.lt_le_trans; [|done]. by eapply wf_nstyle.
  - intros e E k. rewrite He. intros. eapply Nat.lt_le_trans; [|done]. by eapply wf_estyle.
Qed.

(** * Taking a node without edges out of its graph *)
Lemma WF_drop_node h h' g G r N G' :
  WF h → h_graphs h !! g = Some G → h_nodes h !! r = Some N → n_graph N = Some g →
  n_out N = [] → n_in N = [] → g_nodes G' = ddel (g_nodes G) (n_id N) →
  h_nodes h' = <[r := N <| n_graph := None |>]> (h_nodes h) → h_edges h' = h_edges h →
  h_graphs h' = <[g := G']> (h_graphs h) → h_ns h' = h_ns h → h_es h' = h_es h → WF h'.
Proof.
  intros W HG HN HgN Ho Hi HG' Hn He Hg Hns Hes.
  assert (Hgg : h_graphs h' !! g = Some G').
  { rewrite Hg, list_lookup_insert; [done|]. by eapply lookup_lt_Some. }
  assert (Hgo : ∀ g', g' ≠ g → h_graphs h' !! g' = h_graphs h !! g').
  { intros. rewrite Hg. by rewrite list_lookup_insert_ne. }
  assert (Hnew : h_nodes h' !! r = Some (N <| n_graph := None |>)).
  { rewrite Hn, list_lookup_insert; [done|]. by eapply lookup_lt_Some. }
  assert (Hno : ∀ r', r' ≠ r → h_nodes h' !! r' = h_nodes h !! r').
  { intros. rewrite Hn. by rewrite list_lookup_insert_ne. }
  assert (Hback : ∀ r' N', h_nodes h' !! r' = Some N' →
     ∃ N0, h_nodes h !! r' = Some N0 ∧ n_id N' = n_id N0 ∧ n_out N' = n_out N0 ∧ n_in N' = n_in N0 ∧
       n_style N' = n_style N0 ∧ n_graph N' = (if decide (r' = r) then None else n_graph N0)).
  { intros r' N' HN'. destruct (decide (r' = r)) as [->|].
    - rewrite Hnew in HN'. injection HN' as <-. by exists N.
    - rewrite Hno in HN' by done. by exists N'. }
  assert (Hfwd : ∀ r' N0, h_nodes h !! r' = Some N0 →
     ∃ N', h_nodes h' !! r' = Some N' ∧ n_id N' = n_id N0 ∧ n_out N' = n_out N0 ∧ n_in N' = n_in N0 ∧
       n_graph N' = (if decide (r' = r) then None else n_graph N0)).
  { intros r' N' HN'. destruct (decide (r' = r)) as [->|].
    - rewrite Hnew. simplify_eq. by eexists.
    - exists N'. by rewrite Hno. }
  assert (Hnd := wf_gkeys _ W g G HG).
  split.
  - intros g' G0 k r' HG0 Hk. destruct (decide (g' = g)) as [->|].
    + rewrite Hgg in HG0. injection HG0 as <-. rewrite HG' in Hk. apply elem_of_ddel in Hk as [? Hk]; [|done].
      destruct (wf_gnodes _ W g G k r') as (N0 & ? & ? & ?); [done..|].
      exists N0. split_and!; [|done..]. rewrite Hno; [done|]. intros ->. simplify_eq.
    + rewrite Hgo in HG0 by done.
      destruct (wf_gnodes _ W g' G0 k r') as (N0 & ? & ? & ?); [done..|].
      exists N0. split_and!; [|done..]. rewrite Hno; [done|]. intros ->. simplify_eq.
  - intros g' G0 HG0. destruct (decide (g' = g)) as [->|].
    + rewrite Hgg in HG0. injection HG0 as <-. rewrite HG'. by apply NoDup_dkeys_ddel.
    + rewrite Hgo in HG0 by done. by eapply wf_gkeys.
  - intros r' N' g' HN' Hg'. destruct (decide (r' = r)) as [->|].
    { rewrite Hnew in HN'. injection HN' as <-. done. }
    rewrite Hno in HN' by done.
    destruct (wf_ngraph _ W r' N' g') as (G0 & HG0 & Hin); [done..|].
    destruct (decide (g' = g)) as [->|]; [|exists G0; by rewrite Hgo].
    exists G'. split; [done|]. rewrite HG'. apply elem_of_ddel; [done|]. simplify_eq. split; [|done].
    intros Heq. destruct (wf_ngraph _ W r N g) as (G1 & ? & Hin'); [done..|]. simplify_eq.
    rewrite Heq in Hin. assert (r' = r); [|done]. by eapply dict_functional.
  - intros r' N' HN'. destruct (Hback _ _ HN') as (N0 & ? & ? & -> & ? & ?). by eapply wf_nout.
  - intros r' N' HN'. destruct (Hback _ _ HN') as (N0 & ? & ? & ? & -> & ?). by eapply wf_nin.
  - intros r' N' k e HN' Hk. destruct (Hback _ _ HN') as (N0 & ? & Hid & Ho' & ? & ?). rewrite Ho' in Hk.
    destruct (wf_out _ W r' N0 k e) as (g' & E & t & Nt & ? & ? & ? & Ht & ? & ?); [done..|].
    destruct (Hfwd _ _ Ht) as (Nt' & ? & ? & _). exists g', E, t, Nt'. rewrite He, Hid. split_and!; cg.
  - intros r' N' k e HN' Hk. destruct (Hback _ _ HN') as (N0 & ? & Hid & ? & Hi' & ?). rewrite Hi' in Hk.
    destruct (wf_in _ W r' N0 k e) as (g' & E & t & Nt & ? & ? & ? & Ht & ? & ?); [done..|].
    destruct (Hfwd _ _ Ht) as (Nt' & ? & ? & _). exists g', E, t, Nt'. rewrite He, Hid. split_and!; cg.
  - intros e E g'. rewrite He. intros HE HgE.
    destruct (wf_live _ W e E g') as (s & t & Ns & Nt & u & ? & ? & Hs & Ht & ? & ? & ? & ? & ?); [done..|].
    assert (s ≠ r). { intros ->. simplify_eq. rewrite Ho in *. by eapply elem_of_nil. }
    assert (t ≠ r). { intros ->. simplify_eq. rewrite Hi in *. by eapply elem_of_nil. }
    exists s, t, Ns, Nt, u. rewrite !Hno by done. split_and!; done.
  - intros e E. rewrite He. intros HE HgE.
    destruct (wf_dead _ W e E) as [?|(? & s & t & Ns & Nt & ? & ? & Hs & Ht)]; [done..|by left|right].
    split; [done|]. destruct (Hfwd _ _ Hs) as (? & ? & _). destruct (Hfwd _ _ Ht) as (? & ? & _).
    by eexists _, _, _, _.
  - intros r' N' k HN' Hk. destruct (Hback _ _ HN') as (N0 & ? & ? & ? & ? & ? & ?).
    rewrite Hns. eapply wf_nstyle; [done..|cg].
  - intros e E k. rewrite He, Hes. by apply wf_estyle.
Qed.

(** * A new empty graph *)
Lemma WF_new_graph h h' G :
  WF h → g_nodes G = [] → h_nodes h' = h_nodes h → h_edges h' = h_edges h →
  h_graphs h' = h_graphs h ++ [G] → h_ns h' = h_ns h → h_es h' = h_es h → WF h'.
Proof.
  intros W HG Hn He Hg Hns Hes.
  assert (Hback : ∀ g G0, h_graphs h' !! g = Some G0 → h_graphs h !! g = Some G0 ∨ G0 = G).
  { intros g G0. rewrite Hg. intros [?|[? HG0]]%lookup_app_Some; [by left|right].
    apply elem_of_list_lookup_2 in HG0. by apply elem_of_list_singleton in HG0. }
  split; rewrite ?Hn, ?He, ?Hns, ?Hes.
  - intros g G0 k r HG0 Hk. destruct (Hback _ _ HG0) as [?| ->]; [by eapply wf_gnodes|].
    rewrite HG in Hk. by apply elem_of_nil in Hk.
  - intros g G0 HG0. destruct (Hback _ _ HG0) as [?| ->]; [by eapply wf_gkeys|]. rewrite HG. constructor.
  - intros r N g HN HgN. destruct (wf_ngraph _ W r N g) as (G0 & ? & ?); [done..|].
    exists G0. split; [|done]. rewrite Hg. by apply lookup_app_l_Some.
  - apply W. - apply W. - apply W. - apply W. - apply W. - apply W. - apply W. - apply W.
Qed.
