(** What disconnect, remove_self, remove_edges and remove_node do to the heap. *)
From Verif Require Export ProofEdge.

(** the heap after the edge objects [es] have been taken out of all outward and
    inward dicts and changed by [f] *)
Definition cut {K} (es : list eref) (d : list (K * eref)) : list (K * eref) := filter (λ kv, kv.2 ∉ es) d.
Definition cut_node (es : list eref) (N : node) : node :=
  N <| n_out := cut es (n_out N) |> <| n_in := cut es (n_in N) |>.
Definition unlink (f : edge → edge) (es : list eref) (h : heap) : heap :=
  h <| h_nodes := cut_node es <$> h_nodes h |>
    <| h_edges := imap (λ e E, if decide (e ∈ es) then f E else E) (h_edges h) |>.

(** what remove_self and disconnect write on the edge *)
Definition cleared (E : edge) : edge := E <| e_start := None |> <| e_end := None |> <| e_graph := None |>.
Definition deadened (E : edge) : edge := E <| e_raw := RDead |> <| e_graph := None |>.

Lemma cut_app {K} (es es' : list eref) (d : list (K * eref)) : cut es' (cut es d) = cut (es ++ es') d.
Proof.
  unfold cut. rewrite list_filter_filter. apply list_filter_iff. intros [k e]. simpl. rewrite elem_of_app. tauto.
Qed.
Lemma cut_node_app es es' N : cut_node es' (cut_node es N) = cut_node (es ++ es') N.
Proof. destruct N. unfold cut_node, set; simpl. by rewrite !cut_app. Qed.
Lemma cut_nil {K} (d : list (K * eref)) : cut [] d = d.
Proof.
  unfold cut. induction d as [|kv d IH]; [done|]. rewrite filter_cons_True, IH; [done|]. apply not_elem_of_nil.
Qed.
Lemma elem_of_cut {K} es (d : list (K * eref)) k e : (k, e) ∈ cut es d ↔ e ∉ es ∧ (k, e) ∈ d.
Proof. unfold cut. by rewrite elem_of_list_filter. Qed.
Lemma cut_node_nil N : cut_node [] N = N.
Proof.
  destruct N. unfold cut_node, set; simpl.
  by rewrite !cut_nil.
Qed.
Lemma unlink_nil f h : unlink f [] h = h.
Proof.
  destruct h as [ns es gs a b c]. unfold unlink, set; simpl. f_equal.
  - rewrite <-(list_fmap_id ns) at 2. apply list_fmap_ext. intros ? ? ?. apply cut_node_nil.
  - apply list_eq. intros e. rewrite list_lookup_imap. destruct (es !! e) as [E|]; simpl; [|done].
    done.
Qed.
Lemma unlink_app f es es' h : (∀ e, e ∈ es → e ∈ es' → False) →
  unlink f es' (unlink f es h) = unlink f (es ++ es') h.
Proof.
  intros Hd. apply heap_eq; simpl; try done.
  - rewrite <-list_fmap_compose. apply list_fmap_ext. intros ? ? ?. simpl. apply cut_node_app.
  - apply list_eq. intros e. rewrite !list_lookup_imap. destruct (h_edges h !! e) as [E|]; [|done]. simpl. f_equal.
    destruct (decide (e ∈ es)), (decide (e ∈ es')), (decide (e ∈ es ++ es')) as [H|H]; rewrite ?elem_of_app in H; naive_solver.
Qed.

Lemma unlink_node f es h r : h_nodes (unlink f es h) !! r = cut_node es <$> h_nodes h !! r.
Proof. unfold unlink. simpl. by rewrite list_lookup_fmap. Qed.
Lemma unlink_edge f es h e : h_edges (unlink f es h) !! e = (λ E, if decide (e ∈ es) then f E else E) <$> h_edges h !! e.
Proof. unfold unlink. simpl. by rewrite list_lookup_imap. Qed.

Lemma filter_iff_in {A} (P1 P2 : A → Prop) `{!∀ x, Decision (P1 x), !∀ x, Decision (P2 x)} (l : list A) :
  (∀ x, x ∈ l → P1 x ↔ P2 x) → filter P1 l = filter P2 l.
Proof.
  induction l as [|x l IH]; intros Hl; [done|]. rewrite !filter_cons.
  rewrite IH by (intros; apply Hl; by right). pose proof (Hl x ltac:(left)).
  destruct (decide (P1 x)), (decide (P2 x)); tauto.
Qed.

(** the entry of a live edge is its only occurrence in a dict *)
Lemma WF_out_del h r N k e : WF h → h_nodes h !! r = Some N → (k, e) ∈ n_out N →
  ddel (n_out N) k = cut [e] (n_out N).
Proof.
  intros W HN Hin. rewrite ddel_filter by (by eapply wf_nout). unfold cut. apply filter_iff_in. intros [k' e'] Hin'. simpl. rewrite elem_of_list_singleton. split.
  - intros Hne ->. apply Hne.
    destruct (WF_out_entry h r N k e) as (g1 & E1 & t1 & Nt1 & u1 & HE1 & ? & ? & ? & ? & ? & ? & ? & -> & ?); [done..|].
    destruct (WF_out_entry h r N k' e) as (g2 & E2 & t2 & Nt2 & u2 & HE2 & ? & ? & ? & ? & ? & ? & ? & -> & ?); [done..|].
    assert (E2 = E1) as -> by congruence. assert (t2 = t1) as -> by congruence. congruence.
  - intros Hne ->. apply Hne. eapply dict_functional; [by eapply wf_nout|exact Hin'|exact Hin].
Qed.
Lemma WF_in_del h r N k e : WF h → h_nodes h !! r = Some N → (k, e) ∈ n_in N →
  ddel (n_in N) k = cut [e] (n_in N).
Proof.
  intros W HN Hin. rewrite ddel_filter by (by eapply wf_nin). unfold cut. apply filter_iff_in. intros [k' e'] Hin'. simpl. rewrite elem_of_list_singleton. split.
  - intros Hne ->. apply Hne.
    destruct (WF_in_entry h r N k e) as (g1 & E1 & t1 & Nt1 & u1 & HE1 & ? & ? & ? & ? & ? & ? & ? & -> & ?); [done..|].
    destruct (WF_in_entry h r N k' e) as (g2 & E2 & t2 & Nt2 & u2 & HE2 & ? & ? & ? & ? & ? & ? & ? & -> & ?); [done..|].
    assert (E2 = E1) as -> by congruence. assert (t2 = t1) as -> by congruence. congruence.
  - intros Hne ->. apply Hne. eapply dict_functional; [by eapply wf_nin|exact Hin'|exact Hin].
Qed.
Lemma cut_id {K} (e : eref) (d : list (K * eref)) : (∀ k, (k, e) ∉ d) → cut [e] d = d.
Proof.
  unfold cut. induction d as [|[k e'] d IH]; intros Hn; [done|].
  rewrite filter_cons_True.
  - f_equal. apply IH. intros k' Hk'. apply (Hn k'). by right.
  - simpl. rewrite elem_of_list_singleton. intros ->. apply (Hn k). left.
Qed.

(** the explicit node list *)
Lemma unlink_one_node h e E g s t Ns Nt r f : WF h → h_edges h !! e = Some E → e_graph E = Some g →
  e_start E = Some s → e_end E = Some t → h_nodes h !! s = Some Ns → h_nodes h !! t = Some Nt →
  let i := (n_id Ns, n_id Nt, e_raw E) in
  h_nodes (unlink f [e] h) !! r =
  (λ N, N <| n_out := if decide (r = s) then ddel (n_out N) i else n_out N |>
          <| n_in := if decide (r = t) then ddel (n_in N) i else n_in N |>) <$> h_nodes h !! r.
Proof.
  intros W HE Hg Hs Ht HNs HNt i.
  destruct (wf_live _ W e E g) as (s' & t' & Ns' & Nt' & u & ? & ? & ? & ? & ? & ? & Hu & Ho & Hi); [done..|].
  simplify_eq. fold i in Ho, Hi. rewrite unlink_node. destruct (h_nodes h !! r) as [N|] eqn:HN; [|done]. simpl. f_equal.
  assert ((if decide (r = s) then ddel (n_out N) i else n_out N) = cut [e] (n_out N)) as ->.
  { destruct (decide (r = s)) as [->|Hne].
    - rewrite HNs in HN. injection HN as <-. by eapply WF_out_del.
    - rewrite cut_id; [done|]. intros k Hk.
      destruct (WF_out_entry h r N k e) as (? & ? & ? & ? & ? & ? & ? & ? & ?); [done..|]. congruence. }
  assert ((if decide (r = t) then ddel (n_in N) i else n_in N) = cut [e] (n_in N)) as ->; [|done].
  { destruct (decide (r = t)) as [->|Hne].
    - rewrite HNt in HN. injection HN as <-. by eapply WF_in_del.
    - rewrite cut_id; [done|]. intros k Hk.
      destruct (WF_in_entry h r N k e) as (? & ? & ? & ? & ? & ? & ? & ? & ? & ?); [done..|]. congruence. }
Qed.

Lemma unlink_one_edges h e E f : h_edges h !! e = Some E → h_edges (unlink f [e] h) = <[e := f E]> (h_edges h).
Proof.
  intros HE. apply list_eq. intros e'. rewrite unlink_edge. destruct (decide (e' = e)) as [->|Hne].
  - rewrite HE. simpl. rewrite decide_True by (by apply elem_of_list_singleton).
    by rewrite list_lookup_insert by (by eapply lookup_lt_Some).
  - rewrite list_lookup_insert_ne by done. destruct (h_edges h !! e'); [|done]. simpl.
    by rewrite decide_False by (by rewrite elem_of_list_singleton).
Qed.

Lemma WF_unlink_one h e E g f : WF h → h_edges h !! e = Some E → e_graph E = Some g →
  f = cleared ∨ f = deadened → WF (unlink f [e] h).
Proof.
  intros W HE Hg Hf.
  destruct (wf_live _ W e E g) as (s & t & Ns & Nt & u & Hs & Ht & HNs & HNt & _); [done..|].
  eapply (WF_del_edge h _ e E g s t Ns Nt (f E)); try done.
  - intros r. by eapply unlink_one_node.
  - destruct Hf as [-> | ->]; done.
  - destruct Hf as [-> | ->]; done.
  - destruct Hf as [-> | ->]; naive_solver.
  - by apply unlink_one_edges.
Qed.

(** the two removals that disconnect and remove_self make *)
Lemma remove_both h e E g s t Ns Nt f : WF h → h_edges h !! e = Some E → e_graph E = Some g →
  e_start E = Some s → e_end E = Some t → h_nodes h !! s = Some Ns → h_nodes h !! t = Some Nt →
  let i := (n_id Ns, n_id Nt, e_raw E) in
  ∃ h1, remove_outward s i h = (h1, Ok tt) ∧ get_edge_id h1 e = Ok i ∧ edge_end h1 e = Ok t ∧
  ∃ h2, remove_inward t i h1 = (h2, Ok tt) ∧ upd_e e f h2 = (unlink f [e] h, Ok tt).
Proof.
  intros W HE Hg Hs Ht HNs HNt i.
  destruct (wf_live _ W e E g) as (s' & t' & Ns' & Nt' & u & ? & ? & ? & ? & ? & ? & Hu & Ho & Hi); [done..|].
  simplify_eq. fold i in Ho, Hi.
  unfold remove_outward. rewrite (sread_Ok _ _ _ Ns) by (by apply get_n_Ok).
  assert (dmem (n_out Ns) i = true) as -> by (apply dmem_true, elem_of_dkeys; eauto).
  rewrite (upd_n_run _ _ Ns) by done. eexists. split; [done|].
  set (h1 := h <| h_nodes := _ |>).
  assert (HNt1 : ∃ N1, h_nodes h1 !! t = Some N1 ∧ n_id N1 = n_id Nt ∧ n_in N1 = n_in Nt).
  { subst h1. simpl. destruct (decide (t = s)) as [->|].
    - rewrite list_lookup_insert by (by eapply lookup_lt_Some). eexists. split; [done|].
      assert (Ns = Nt) as -> by congruence. done.
    - rewrite list_lookup_insert_ne by done. eauto. }
  destruct HNt1 as (N1 & HN1 & Hid1 & Hin1).
  assert (HNs1 : ∃ N1, h_nodes h1 !! s = Some N1 ∧ n_id N1 = n_id Ns).
  { subst h1. simpl. rewrite list_lookup_insert by (by eapply lookup_lt_Some). by eexists. }
  destruct HNs1 as (N2 & HN2 & Hid2).
  split; [|split].
  - unfold get_edge_id. rewrite (get_e_Ok _ _ E) by done. simpl. rewrite Hs, Ht.
    rewrite (get_n_Ok _ _ _ HN2), (get_n_Ok _ _ _ HN1). simpl. by rewrite Hid1, Hid2.
  - unfold edge_end. rewrite (get_e_Ok _ _ E) by done. simpl. by rewrite Ht.
  - unfold remove_inward. rewrite (sread_Ok _ _ _ N1) by (by apply get_n_Ok).
    assert (dmem (n_in N1) i = true) as -> by (rewrite Hin1; apply dmem_true, elem_of_dkeys; eauto).
    rewrite (upd_n_run _ _ N1) by done. eexists. split; [done|].
    rewrite (upd_e_run _ _ E) by done. f_equal. apply heap_eq; try done.
    + apply list_eq. intros r. rewrite (unlink_one_node h e E g s t Ns Nt) by done. fold i.
      subst h1. simpl. simpl in HN1. destruct (decide (r = t)) as [->|Hrt].
      * rewrite list_lookup_insert by (rewrite insert_length; by eapply lookup_lt_Some).
        rewrite HNt. simpl. f_equal. destruct (decide (t = s)) as [->|].
        -- rewrite list_lookup_insert in HN1 by (by eapply lookup_lt_Some). injection HN1 as <-.
           assert (Ns = Nt) as -> by congruence. by destruct Nt.
        -- rewrite list_lookup_insert_ne in HN1 by done. assert (N1 = Nt) as -> by congruence. by destruct Nt.
      * rewrite list_lookup_insert_ne by done. destruct (decide (r = s)) as [->|Hrs].
        -- rewrite list_lookup_insert by (by eapply lookup_lt_Some). rewrite HNs. by destruct Ns.
        -- rewrite list_lookup_insert_ne by done. destruct (h_nodes h !! r) as [N|]; [|done]. by destruct N.
    + by rewrite (unlink_one_edges h e E f).
Qed.

Lemma remove_self_run h e E g : WF h → h_edges h !! e = Some E → e_graph E = Some g →
  remove_self e h = (unlink cleared [e] h, Ok tt).
Proof.
  intros W HE Hg.
  destruct (wf_live _ W e E g) as (s & t & Ns & Nt & u & Hs & Ht & HNs & HNt & _); [done..|].
  destruct (remove_both h e E g s t Ns Nt cleared) as (h1 & H1 & Hid & Hend & h2 & H2 & H3); [done..|].
  unfold remove_self. rewrite (sread_Ok _ _ _ E) by (by apply get_e_Ok). rewrite Hs, Ht.
  rewrite (sread_Ok _ _ _ (n_id Ns, n_id Nt, e_raw E)).
  2:{ unfold get_edge_id. rewrite (get_e_Ok _ _ E) by done. simpl. rewrite Hs, Ht.
      by rewrite (get_n_Ok _ _ _ HNs), (get_n_Ok _ _ _ HNt). }
  erewrite sbind_step by exact H1. rewrite (sread_Ok _ _ _ _ Hid).
  by erewrite sbind_step by exact H2.
Qed.
Lemma disconnect_run h e E g : WF h → h_edges h !! e = Some E → e_graph E = Some g →
  disconnect e h = (unlink deadened [e] h, Ok tt).
Proof.
  intros W HE Hg.
  destruct (wf_live _ W e E g) as (s & t & Ns & Nt & u & Hs & Ht & HNs & HNt & _); [done..|].
  destruct (remove_both h e E g s t Ns Nt deadened) as (h1 & H1 & Hid & Hend & h2 & H2 & H3); [done..|].
  unfold disconnect. rewrite (sread_Ok _ _ _ s) by (unfold edge_start; rewrite (get_e_Ok _ _ E) by done; simpl; by rewrite Hs).
  rewrite (sread_Ok _ _ _ (n_id Ns, n_id Nt, e_raw E)).
  2:{ unfold get_edge_id. rewrite (get_e_Ok _ _ E) by done. simpl. rewrite Hs, Ht.
      by rewrite (get_n_Ok _ _ _ HNs), (get_n_Ok _ _ _ HNt). }
  erewrite sbind_step by exact H1. rewrite (sread_Ok _ _ _ _ Hend), (sread_Ok _ _ _ _ Hid).
  by erewrite sbind_step by exact H2.
Qed.

(** on an edge that is in no graph any more both raise and change nothing *)
Lemma dead_no_entry h s Ns n : WF h → h_nodes h !! s = Some Ns → (n_id Ns, n, RDead) ∉ dkeys (n_out Ns).
Proof.
  intros W HNs [e He]%elem_of_dkeys.
  destruct (WF_out_entry h s Ns _ e W HNs He) as (? & ? & ? & ? & ? & ? & ? & ? & ? & ? & ? & ? & ? & ? & ?). congruence.
Qed.
Lemma remove_outward_dead h e E s t Ns Nt : WF h → h_edges h !! e = Some E → e_raw E = RDead →
  e_start E = Some s → e_end E = Some t → h_nodes h !! s = Some Ns → h_nodes h !! t = Some Nt →
  ∃ i, get_edge_id h e = Ok i ∧ remove_outward s i h = (h, Err KeyError).
Proof.
  intros W HE Hr Hs Ht HNs HNt. exists (n_id Ns, n_id Nt, RDead). split.
  - unfold get_edge_id. rewrite (get_e_Ok _ _ E) by done. simpl. rewrite Hs, Ht, Hr.
    by rewrite (get_n_Ok _ _ _ HNs), (get_n_Ok _ _ _ HNt).
  - unfold remove_outward. rewrite (sread_Ok _ _ _ Ns) by (by apply get_n_Ok).
    assert (dmem (n_out Ns) (n_id Ns, n_id Nt, RDead) = false) as ->; [|done].
    apply dmem_false. by eapply dead_no_entry.
Qed.
Lemma remove_self_dead h e E : WF h → h_edges h !! e = Some E → e_graph E = None →
  ∃ x, remove_self e h = (h, Err x) ∧ (x = ValueError ∨ x = KeyError).
Proof.
  intros W HE Hg. unfold remove_self. rewrite (sread_Ok _ _ _ E) by (by apply get_e_Ok).
  destruct (wf_dead _ W e E HE Hg) as [[Hs Ht]|(Hr & s & t & Ns & Nt & Hs & Ht & HNs & HNt)].
  - rewrite Hs. eauto.
  - rewrite Hs, Ht. destruct (remove_outward_dead h e E s t Ns Nt) as (i & Hi & Hrm); [done..|].
    rewrite (sread_Ok _ _ _ _ Hi). erewrite sbind_fail by exact Hrm. eauto.
Qed.
Lemma disconnect_dead h e E : WF h → h_edges h !! e = Some E → e_graph E = None →
  ∃ x, disconnect e h = (h, Err x) ∧ (x = ValueError ∨ x = KeyError).
Proof.
  intros W HE Hg. unfold disconnect.
  destruct (wf_dead _ W e E HE Hg) as [[Hs Ht]|(Hr & s & t & Ns & Nt & Hs & Ht & HNs & HNt)].
  - rewrite (sread_Err _ _ _ ValueError); [eauto|]. unfold edge_start. rewrite (get_e_Ok _ _ E) by done. simpl. by rewrite Hs.
  - destruct (remove_outward_dead h e E s t Ns Nt) as (i & Hi & Hrm); [done..|].
    rewrite (sread_Ok _ _ _ s) by (unfold edge_start; rewrite (get_e_Ok _ _ E) by done; simpl; by rewrite Hs).
    rewrite (sread_Ok _ _ _ _ Hi). erewrite sbind_fail by exact Hrm. eauto.
Qed.
Lemma remove_self_none h e : h_edges h !! e = None → remove_self e h = (h, Err Unmodelled).
Proof. intros HE. unfold remove_self. rewrite (sread_Err _ _ _ Unmodelled); [done|]. unfold get_e. by rewrite HE. Qed.
Lemma disconnect_none h e : h_edges h !! e = None → disconnect e h = (h, Err Unmodelled).
Proof.
  intros HE. unfold disconnect. rewrite (sread_Err _ _ _ Unmodelled); [done|].
  unfold edge_start, get_e. by rewrite HE.
Qed.

Lemma WF_remove_self h e : WF h → WF (remove_self e h).1.
Proof.
  intros W. destruct (h_edges h !! e) as [E|] eqn:HE; [|by rewrite remove_self_none].
  destruct (e_graph E) as [g|] eqn:Hg.
  - rewrite (remove_self_run h e E g) by done. eapply WF_unlink_one; eauto.
  - destruct (remove_self_dead h e E) as (x & -> & _); done.
Qed.
Lemma WF_disconnect h e : WF h → WF (disconnect e h).1.
Proof.
  intros W. destruct (h_edges h !! e) as [E|] eqn:HE; [|by rewrite disconnect_none].
  destruct (e_graph E) as [g|] eqn:Hg.
  - rewrite (disconnect_run h e E g) by done. eapply WF_unlink_one; eauto.
  - destruct (disconnect_dead h e E) as (x & -> & _); done.
Qed.

(** * remove_self on a list of edges *)
Lemma siter_remove_self h es : WF h → NoDup es →
  (∀ e, e ∈ es → ∃ E g, h_edges h !! e = Some E ∧ e_graph E = Some g) →
  siter remove_self es h = (unlink cleared es h, Ok tt) ∧ WF (unlink cleared es h).
Proof.
  revert h. induction es as [|e es IH]; intros h W Hnd Hlive.
  - rewrite unlink_nil. done.
  - simpl. apply NoDup_cons in Hnd as [Hne Hnd].
    destruct (Hlive e) as (E & g & HE & Hg); [left|].
    rewrite (sbind_step _ _ _ (unlink cleared [e] h) tt) by (by eapply remove_self_run).
    destruct (IH (unlink cleared [e] h)) as [IH1 IH2]; [eapply WF_unlink_one; eauto|done| |].
    + intros e' He'. destruct (Hlive e') as (E' & g' & HE' & Hg'); [by right|]. exists E', g'. split; [|done].
      rewrite unlink_edge, HE'. simpl. rewrite decide_False; [done|]. rewrite elem_of_list_singleton. by intros ->.
    + rewrite IH1. rewrite unlink_app in *; [done|..];
        intros e' ->%elem_of_list_singleton ?; done.
Qed.

(** * the edges of a node *)
Lemma get_edge_id_live h e E g : WF h → h_edges h !! e = Some E → e_graph E = Some g →
  ∃ s t Ns Nt u, e_start E = Some s ∧ e_end E = Some t ∧ h_nodes h !! s = Some Ns ∧ h_nodes h !! t = Some Nt ∧
    n_graph Ns = Some g ∧ n_graph Nt = Some g ∧ e_raw E = RId u ∧
    get_edge_id h e = Ok (n_id Ns, n_id Nt, RId u) ∧
    ((n_id Ns, n_id Nt, RId u), e) ∈ n_out Ns ∧ ((n_id Ns, n_id Nt, RId u), e) ∈ n_in Nt.
Proof.
  intros W HE Hg.
  destruct (wf_live _ W e E g HE Hg) as (s & t & Ns & Nt & u & Hs & Ht & HNs & HNt & Hgs & Hgt & Hu & Ho & Hi).
  rewrite Hu in *. exists s, t, Ns, Nt, u. split_and!; try done.
  unfold get_edge_id. rewrite (get_e_Ok _ _ E) by done. simpl. rewrite Hs, Ht, Hu.
  by rewrite (get_n_Ok _ _ _ HNs), (get_n_Ok _ _ _ HNt).
Qed.

(** in a graph, edges with equal ids are the same edge *)
Lemma edge_id_inj h g e1 e2 E1 E2 i : WF h → h_edges h !! e1 = Some E1 → h_edges h !! e2 = Some E2 →
  e_graph E1 = Some g → e_graph E2 = Some g → get_edge_id h e1 = Ok i → get_edge_id h e2 = Ok i → e1 = e2.
Proof.
  intros W HE1 HE2 Hg1 Hg2 Hi1 Hi2.
  destruct (get_edge_id_live h e1 E1 g) as (s1 & t1 & Ns1 & Nt1 & u1 & ? & ? & HNs1 & ? & Hgs1 & ? & ? & Hid1 & Ho1 & _); [done..|].
  destruct (get_edge_id_live h e2 E2 g) as (s2 & t2 & Ns2 & Nt2 & u2 & ? & ? & HNs2 & ? & Hgs2 & ? & ? & Hid2 & Ho2 & _); [done..|].
  rewrite Hid1 in Hi1. rewrite Hid2 in Hi2. rewrite <-Hi1 in Hi2. injection Hi2 as Hn Hm Hu.
  assert (s2 = s1) as -> by (by eapply (WF_name_inj h g s2 s1 Ns2 Ns1)).
  assert (Ns2 = Ns1) as -> by congruence. rewrite Hm, Hu in Ho2.
  eapply dict_functional; [by apply (wf_nout _ W s1 Ns1)|exact Ho1|exact Ho2].
Qed.

Definition edges_of (h : heap) (g : gref) (e : eref) : Prop := ∃ E, h_edges h !! e = Some E ∧ e_graph E = Some g.

Lemma edge_eq_live h g e1 e2 : WF h → edges_of h g e1 → edges_of h g e2 → edge_eq h e1 e2 = Ok (eqb e1 e2).
Proof.
  intros W (E1 & HE1 & Hg1) (E2 & HE2 & Hg2). unfold edge_eq. destruct (eqb e1 e2) eqn:Heq; [done|].
  rewrite (get_e_Ok _ _ _ HE1), (get_e_Ok _ _ _ HE2). simpl. rewrite Hg1, Hg2. rewrite eqb_same.
  destruct (get_edge_id_live h e1 E1 g) as (s1 & t1 & Ns1 & Nt1 & u1 & ? & ? & HNs1 & ? & Hgs1 & ? & ? & Hid1 & _); [done..|].
  destruct (get_edge_id_live h e2 E2 g) as (s2 & t2 & Ns2 & Nt2 & u2 & ? & ? & HNs2 & ? & Hgs2 & ? & ? & Hid2 & _); [done..|].
  rewrite Hid1, Hid2. simpl. f_equal. apply eqb_false. intros Hi. apply eqb_isnt in Heq. apply Heq.
  eapply (edge_id_inj h g e1 e2 E1 E2); try done. by rewrite Hid2, <-Hi.
Qed.
Lemma edge_in_live h g e l : WF h → edges_of h g e → (∀ x, x ∈ l → edges_of h g x) →
  edge_in h e l = Ok (bool_decide (e ∈ l)).
Proof.
  intros W He. induction l as [|x l IH]; intros Hl; simpl; [done|].
  rewrite (edge_eq_live h g) by (try done; apply Hl; left). simpl.
  destruct (eqb x e) eqn:Heq.
  - apply eqb_is in Heq as ->. f_equal. symmetry. apply bool_decide_eq_true. left.
  - rewrite IH by (intros; apply Hl; by right). f_equal. apply eqb_isnt in Heq.
    apply bool_decide_ext. rewrite elem_of_cons. naive_solver.
Qed.
Lemma edge_collect_live h g es l : WF h → (∀ x, x ∈ l → edges_of h g x) → (∀ x, x ∈ es → edges_of h g x) →
  edge_collect h l es = Ok (fold_left add_new es l).
Proof.
  intros W. revert l. induction es as [|e es IH]; intros l Hl Hes; simpl; [done|].
  rewrite (edge_in_live h g) by (try done; apply Hes; left). simpl.
  assert ((if bool_decide (e ∈ l) then l else l ++ [e]) = add_new l e) as ->.
  { unfold add_new. by destruct (decide (e ∈ l)) as [?|?]; [rewrite bool_decide_true by done|rewrite bool_decide_false by done]. }
  apply IH.
  - intros x [?| ->]%elem_of_add_new; [by apply Hl|]. apply Hes. left.
  - intros x ?. apply Hes. by right.
Qed.

Lemma out_edges_of h g r N e : WF h → h_nodes h !! r = Some N → n_graph N = Some g → e ∈ dvals (n_out N) → edges_of h g e.
Proof.
  intros W HN Hg [k Hk]%elem_of_dvals.
  destruct (WF_out_entry h r N k e) as (g' & E & t & Nt & u & HE & HgE & _ & _ & _ & _ & HgN & _); [done..|].
  exists E. split; [done|congruence].
Qed.
Lemma in_edges_of h g r N e : WF h → h_nodes h !! r = Some N → n_graph N = Some g → e ∈ dvals (n_in N) → edges_of h g e.
Proof.
  intros W HN Hg [k Hk]%elem_of_dvals.
  destruct (WF_in_entry h r N k e) as (g' & E & t & Nt & u & HE & HgE & _ & _ & _ & _ & HgN & _); [done..|].
  exists E. split; [done|congruence].
Qed.

(** an edge object occurs once in a dict *)
Lemma NoDup_out_edges h r N : WF h → h_nodes h !! r = Some N → NoDup (dvals (n_out N)).
Proof.
  intros W HN. unfold dvals. apply NoDup_fmap_2_strong.
  - intros [k1 e1] [k2 e2] H1 H2 Heq. simpl in Heq. subst e2. f_equal.
    destruct (WF_out_entry h r N k1 e1) as (g1 & E1 & t1 & Nt1 & u1 & HE1 & ? & ? & ? & ? & ? & ? & ? & -> & ?); [done..|].
    destruct (WF_out_entry h r N k2 e1) as (g2 & E2 & t2 & Nt2 & u2 & HE2 & ? & ? & ? & ? & ? & ? & ? & -> & ?); [done..|].
    assert (E2 = E1) as -> by congruence. assert (t2 = t1) as -> by congruence. congruence.
  - eapply (NoDup_fmap_1 fst). by apply (wf_nout _ W r).
Qed.
Lemma NoDup_in_edges h r N : WF h → h_nodes h !! r = Some N → NoDup (dvals (n_in N)).
Proof.
  intros W HN. unfold dvals. apply NoDup_fmap_2_strong.
  - intros [k1 e1] [k2 e2] H1 H2 Heq. simpl in Heq. subst e2. f_equal.
    destruct (WF_in_entry h r N k1 e1) as (g1 & E1 & t1 & Nt1 & u1 & HE1 & ? & ? & ? & ? & ? & ? & ? & -> & ?); [done..|].
    destruct (WF_in_entry h r N k2 e1) as (g2 & E2 & t2 & Nt2 & u2 & HE2 & ? & ? & ? & ? & ? & ? & ? & -> & ?); [done..|].
    assert (E2 = E1) as -> by congruence. assert (t2 = t1) as -> by congruence. congruence.
  - eapply (NoDup_fmap_1 fst). by apply (wf_nin _ W r).
Qed.

Lemma no_graph_no_edges h r N : WF h → h_nodes h !! r = Some N → n_graph N = None → n_out N = [] ∧ n_in N = [].
Proof.
  intros W HN Hg. split.
  - destruct (n_out N) as [|[k e] d] eqn:Ho; [done|].
    destruct (WF_out_entry h r N k e) as (g' & E & t & Nt & u & HE & HgE & _ & _ & _ & _ & HgN & _);
      [done|done|rewrite Ho; left|congruence].
  - destruct (n_in N) as [|[k e] d] eqn:Ho; [done|].
    destruct (WF_in_entry h r N k e) as (g' & E & t & Nt & u & HE & HgE & _ & _ & _ & _ & HgN & _);
      [done|done|rewrite Ho; left|congruence].
Qed.

Lemma outward_edges_run h r N : WF h → h_nodes h !! r = Some N → outward_edges h r = Ok (dvals (n_out N)).
Proof.
  intros W HN. unfold outward_edges. rewrite (get_n_Ok _ _ _ HN). simpl.
  destruct (n_graph N) as [g|] eqn:Hg.
  - rewrite (edge_collect_live h g); [|done|by intros ? ?%elem_of_nil|by intros; eapply out_edges_of].
    f_equal. apply nub_NoDup. by eapply NoDup_out_edges.
  - destruct (no_graph_no_edges h r N) as [-> _]; done.
Qed.
Lemma inward_edges_run h r N : WF h → h_nodes h !! r = Some N → inward_edges h r = Ok (dvals (n_in N)).
Proof.
  intros W HN. unfold inward_edges. rewrite (get_n_Ok _ _ _ HN). simpl.
  destruct (n_graph N) as [g|] eqn:Hg.
  - rewrite (edge_collect_live h g); [|done|by intros ? ?%elem_of_nil|by intros; eapply in_edges_of].
    f_equal. apply nub_NoDup. by eapply NoDup_in_edges.
  - destruct (no_graph_no_edges h r N) as [_ ->]; done.
Qed.
Lemma node_edges_run h r N : WF h → h_nodes h !! r = Some N →
  node_edges h r = Ok (nub (dvals (n_out N) ++ dvals (n_in N))).
Proof.
  intros W HN. unfold node_edges. rewrite (get_n_Ok _ _ _ HN). simpl.
  destruct (n_graph N) as [g|] eqn:Hg.
  - rewrite (edge_collect_live h g); [|done|by intros ? ?%elem_of_nil|by intros; eapply out_edges_of]. simpl.
    rewrite (edge_collect_live h g); [|done| |by intros; eapply in_edges_of].
    + unfold nub. by rewrite fold_left_app.
    + intros x [[]%elem_of_nil|?]%elem_of_fold_add_new. by eapply out_edges_of.
  - destruct (no_graph_no_edges h r N) as [-> ->]; done.
Qed.

(** * remove_node *)
Definition own_edges (N : node) : list eref := nub (dvals (n_out N) ++ dvals (n_in N)).

Lemma own_edges_live h r N e : WF h → h_nodes h !! r = Some N → e ∈ own_edges N →
  ∃ E g, h_edges h !! e = Some E ∧ e_graph E = Some g.
Proof.
  intros W HN [[k Hk]%elem_of_dvals|[k Hk]%elem_of_dvals]%elem_of_nub%elem_of_app.
  - destruct (WF_out_entry h r N k e) as (g' & E & t & Nt & u & HE & HgE & _); [done..|]. eauto.
  - destruct (WF_in_entry h r N k e) as (g' & E & t & Nt & u & HE & HgE & _); [done..|]. eauto.
Qed.

Lemma cut_all {K} es (d : list (K * eref)) : (∀ k e, (k, e) ∈ d → e ∈ es) → cut es d = [].
Proof.
  intros Hd. destruct (cut es d) as [|[k e] l] eqn:Hc; [done|].
  assert ((k, e) ∈ cut es d) as [Hn Hin]%elem_of_cut by (rewrite Hc; left). destruct (Hn (Hd k e Hin)).
Qed.
Lemma cut_own_edges N : n_out (cut_node (own_edges N) N) = [] ∧ n_in (cut_node (own_edges N) N) = [].
Proof.
  unfold own_edges. split; simpl; apply cut_all; intros k e He; apply elem_of_nub, elem_of_app; [left|right];
    apply elem_of_dvals; eauto.
Qed.

Definition removed (g : gref) (G : graph) (r : nref) (N : node) (h : heap) : heap :=
  let h1 := unlink cleared (own_edges N) h in
  h1 <| h_nodes := <[r := cut_node (own_edges N) N <| n_graph := None |>]> (h_nodes h1) |>
     <| h_graphs := <[g := G <| g_nodes := ddel (g_nodes G) (n_id N) |>]> (h_graphs h) |>.

Lemma remove_node_run h g x r N G : WF h → get_node h g x = Ok r → h_nodes h !! r = Some N → h_graphs h !! g = Some G →
  remove_node g x h = (removed g G r N h, Ok tt) ∧ WF (removed g G r N h).
Proof.
  intros W Hr HN HG.
  destruct (get_node_Ok h g x r) as (G' & N' & HG' & HN' & HgN & Hin); [done..|]. simplify_eq.
  unfold remove_node. rewrite (sread_Ok _ _ _ _ Hr).
  rewrite (sread_Ok _ _ _ (own_edges N)) by (by apply node_edges_run).
  destruct (siter_remove_self h (own_edges N)) as [Hit W1];
    [done|apply NoDup_nub|intros; by eapply own_edges_live|].
  erewrite sbind_step by exact Hit. unfold removed. set (h1 := unlink cleared (own_edges N) h) in *.
  assert (HN1 : h_nodes h1 !! r = Some (cut_node (own_edges N) N)).
  { unfold h1. by rewrite unlink_node, HN. }
  erewrite sbind_step by (by apply upd_n_run). set (h2 := h1 <| h_nodes := _ |>).
  assert (HN2 : h_nodes h2 !! r = Some (cut_node (own_edges N) N <| n_graph := None |>)).
  { subst h2. simpl. rewrite list_lookup_insert; [done|]. by eapply lookup_lt_Some. }
  rewrite (sread_Ok _ _ _ (cut_node (own_edges N) N <| n_graph := None |>)) by (by apply get_n_Ok).
  rewrite (sread_Ok _ _ _ G) by (by apply get_g_Ok).
  change (n_id (cut_node (own_edges N) N <| n_graph := None |>)) with (n_id N).
  assert (dmem (g_nodes G) (n_id N) = true) as -> by (apply dmem_true, elem_of_dkeys; eauto).
  split; [by rewrite (upd_g_run _ _ G) by done|].
  destruct (cut_own_edges N) as [Hco Hci].
  eapply (WF_drop_node h1 _ g G r (cut_node (own_edges N) N)); try done. simpl. reflexivity.
Qed.
Lemma remove_node_fail h g x e : get_node h g x = Err e → remove_node g x h = (h, Err e).
Proof. intros Hx. unfold remove_node. by rewrite (sread_Err _ _ _ _ Hx). Qed.

Lemma WF_remove_node h g x : WF h → WF (remove_node g x h).1.
Proof.
  intros W. destruct (get_node h g x) as [r|e] eqn:Hr; [|by erewrite remove_node_fail].
  destruct (get_node_Ok h g x r) as (G & N & HG & HN & _); [done..|].
  destruct (remove_node_run h g x r N G) as [-> ?]; done.
Qed.
