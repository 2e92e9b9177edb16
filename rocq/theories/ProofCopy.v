(** What copy does to the heap. *)
From Verif Require Export ProofPres.

Section pos.
  Context {A : Type} `{EqDecision A}.
  Implicit Types l : list A.
  Lemma pos_lookup x l : x ∈ l → l !! pos x l = Some x.
  Proof.
    induction l as [|y l IH]; [by intros ?%elem_of_nil|]. simpl. destruct (decide (x = y)) as [->|Hne]; [done|].
    intros [?|?]%elem_of_cons; [done|]. simpl. auto.
  Qed.
  Lemma pos_lt x l : x ∈ l → pos x l < length l.
  Proof. intros Hx%pos_lookup. by eapply lookup_lt_Some. Qed.
  Lemma pos_NoDup x l i : NoDup l → l !! i = Some x → pos x l = i.
  Proof.
    intros Hnd Hi. eapply NoDup_lookup; [done| |done]. apply pos_lookup. by eapply elem_of_list_lookup_2.
  Qed.
  Lemma pos_inj x y l : x ∈ l → y ∈ l → pos x l = pos y l → x = y.
  Proof. intros Hx%pos_lookup Hy%pos_lookup Heq. rewrite Heq in Hx. congruence. Qed.
End pos.

Lemma siter_new_ns l h : siter (λ sty, do* new_ns sty in sret tt) l h = (h <| h_ns := h_ns h ++ l |>, Ok tt).
Proof.
  revert h. induction l as [|x l IH]; intros h; simpl.
  - unfold sret. by rewrite heap_ns_nil.
  - unfold sbind, new_ns, sret in *. rewrite IH. f_equal. apply heap_eq; simpl; try done. by rewrite <-app_assoc.
Qed.
Lemma siter_new_es l h : siter (λ sty, do* new_es sty in sret tt) l h = (h <| h_es := h_es h ++ l |>, Ok tt).
Proof.
  revert h. induction l as [|x l IH]; intros h; simpl.
  - unfold sret. by rewrite heap_es_nil.
  - unfold sbind, new_es, sret in *. rewrite IH. f_equal. apply heap_eq; simpl; try done. by rewrite <-app_assoc.
Qed.
Lemma siter_new_e {A} (f : A → edge) l h : siter (λ x, do* new_e (f x) in sret tt) l h = (h <| h_edges := h_edges h ++ (f <$> l) |>, Ok tt).
Proof.
  revert h. induction l as [|x l IH]; intros h; simpl.
  - unfold sret. f_equal. apply heap_eq; simpl; try done. by rewrite app_nil_r.
  - unfold sbind, new_e, sret in *. rewrite IH. f_equal. apply heap_eq; simpl; try done. by rewrite <-app_assoc.
Qed.
Lemma siter_new_n {A} (f : A → node) l h : siter (λ x, do* new_n (f x) in sret tt) l h = (h <| h_nodes := h_nodes h ++ (f <$> l) |>, Ok tt).
Proof.
  revert h. induction l as [|x l IH]; intros h; simpl.
  - unfold sret. f_equal. apply heap_eq; simpl; try done. by rewrite app_nil_r.
  - unfold sbind, new_n, sret in *. rewrite IH. f_equal. apply heap_eq; simpl; try done. by rewrite <-app_assoc.
Qed.
Lemma siter_upd_e {K} (f : edge → edge) (l : list (K * eref)) h : NoDup (l.*2) →
  (∀ k e, (k, e) ∈ l → is_Some (h_edges h !! e)) →
  siter (λ kv, upd_e kv.2 f) l h = (h <| h_edges := imap (λ e E, if decide (e ∈ l.*2) then f E else E) (h_edges h) |>, Ok tt).
Proof.
  revert h. induction l as [|[k e] l IH]; intros h Hnd Hex; simpl.
  - unfold sret. f_equal. apply heap_eq; simpl; try done. apply list_eq. intros i. rewrite list_lookup_imap.
    by destruct (h_edges h !! i).
  - apply NoDup_cons in Hnd as [Hne Hnd]. destruct (Hex k e) as [E HE]; [left|].
    erewrite sbind_step by (by apply upd_e_run). rewrite IH; [|done|].
    + f_equal. apply heap_eq; simpl; try done. apply list_eq. intros i. rewrite !list_lookup_imap.
      destruct (decide (i = e)) as [->|Hie].
      * rewrite list_lookup_insert by (by eapply lookup_lt_Some). rewrite HE. simpl. f_equal.
        rewrite decide_False by done. rewrite decide_True by left. done.
      * rewrite list_lookup_insert_ne by done. destruct (h_edges h !! i); [|done]. simpl. f_equal.
        assert (i ∈ e :: l.*2 ↔ i ∈ l.*2) as Hiff by (rewrite elem_of_cons; naive_solver).
        by rewrite (decide_ext _ _ _ _ Hiff).
    + intros k' e' Hin. simpl. destruct (decide (e' = e)) as [->|].
      * rewrite list_lookup_insert by (by eapply lookup_lt_Some). eauto.
      * rewrite list_lookup_insert_ne by done. apply (Hex k'). by right.
Qed.

(** * The parts of the copy *)
Definition g_refs (G : graph) : list nref := dvals (g_nodes G).
Definition look {A} (l : list A) (rs : list nat) : list A := omap (λ r, l !! r) rs.
Definition edges_in (Ns : list node) : list eref := nub (concat (map (λ N, dvals (n_out N) ++ dvals (n_in N)) Ns)).

Lemma look_fmap {A} (l : list A) rs : (∀ r, r ∈ rs → is_Some (l !! r)) → Some <$> look l rs = (λ r, l !! r) <$> rs.
Proof.
  induction rs as [|r rs IH]; intros Hrs; [done|]. simpl. destruct (Hrs r) as [x Hx]; [left|].
  rewrite Hx. simpl. f_equal. apply IH. intros. apply Hrs. by right.
Qed.
Lemma look_lookup {A} (l : list A) rs i r : (∀ r, r ∈ rs → is_Some (l !! r)) → rs !! i = Some r → look l rs !! i = l !! r.
Proof.
  intros Hrs Hi. pose proof (look_fmap l rs Hrs) as Hl.
  assert ((Some <$> look l rs) !! i = ((λ r, l !! r) <$> rs) !! i) as H by by rewrite Hl.
  rewrite !list_lookup_fmap, Hi in H. simpl in H. destruct (look l rs !! i), (l !! r); simpl in H; congruence.
Qed.
Lemma look_length {A} (l : list A) rs : (∀ r, r ∈ rs → is_Some (l !! r)) → length (look l rs) = length rs.
Proof.
  intros Hrs. pose proof (look_fmap l rs Hrs) as Hl. apply (f_equal length) in Hl. by rewrite !fmap_length in Hl.
Qed.
Lemma look_elem {A} (l : list A) rs x : x ∈ look l rs ↔ ∃ r, r ∈ rs ∧ l !! r = Some x.
Proof. unfold look. rewrite elem_of_list_omap. done. Qed.
Lemma rmap_look {A} (f : nat → res A) (l : list A) rs : (∀ r x, l !! r = Some x → f r = Ok x) →
  (∀ r, r ∈ rs → is_Some (l !! r)) → rmap f rs = Ok (look l rs).
Proof.
  intros Hf. induction rs as [|r rs IH]; intros Hrs; [done|]. simpl. destruct (Hrs r) as [x Hx]; [left|].
  rewrite (Hf r x Hx), Hx. simpl. rewrite IH; [done|]. intros. apply Hrs. by right.
Qed.

Section copy.
  Context (h : heap) (g : gref) (G : graph).
  Context (W : WF h) (HG : h_graphs h !! g = Some G).

  Let rs := g_refs G.
  Let Ns := look (h_nodes h) rs.
  Let es := edges_in Ns.
  Let Es := look (h_edges h) es.
  Let ess := nub (omap e_style Es).
  Let n0 := length (h_nodes h).
  Let e0 := length (h_edges h).
  Let s0 := length (h_es h).
  Let g' := length (h_graphs h).

  Lemma rs_node r : r ∈ rs ↔ ∃ N, h_nodes h !! r = Some N ∧ n_graph N = Some g.
  Proof.
    unfold rs, g_refs. rewrite elem_of_dvals. split.
    - intros [k Hk]. destruct (wf_gnodes _ W g G k r) as (N & ? & ? & ?); [done..|]. eauto.
    - intros (N & HN & HgN). destruct (wf_ngraph _ W r N g) as (G' & ? & ?); [done..|]. simplify_eq. eauto.
  Qed.
  Lemma rs_NoDup : NoDup rs.
  Proof.
    unfold rs, g_refs, dvals. apply NoDup_fmap_2_strong.
    - intros [k1 r1] [k2 r2] H1 H2 Heq. simpl in Heq. subst r2. f_equal.
      destruct (wf_gnodes _ W g G k1 r1) as (N1 & ? & ? & ?); [done..|].
      destruct (wf_gnodes _ W g G k2 r1) as (N2 & ? & ? & ?); [done..|]. congruence.
    - eapply (NoDup_fmap_1 fst). by apply (wf_gkeys _ W g).
  Qed.
  Lemma rs_Some r : r ∈ rs → is_Some (h_nodes h !! r).
  Proof. intros (N & HN & _)%rs_node. eauto. Qed.
  Lemma Ns_lookup i r : rs !! i = Some r → Ns !! i = h_nodes h !! r.
  Proof. apply look_lookup, rs_Some. Qed.
  Lemma Ns_elem N : N ∈ Ns ↔ ∃ r, h_nodes h !! r = Some N ∧ n_graph N = Some g.
  Proof. unfold Ns. rewrite look_elem. setoid_rewrite rs_node. naive_solver. Qed.
  Lemma Ns_inv i N : Ns !! i = Some N → ∃ r, rs !! i = Some r ∧ h_nodes h !! r = Some N ∧ n_graph N = Some g.
  Proof.
    intros Hi. destruct (rs !! i) as [r|] eqn:Hr.
    - exists r. split; [done|]. rewrite (Ns_lookup i r Hr) in Hi. split; [done|].
      destruct (rs_node r) as [H _]. destruct H as (N' & ? & ?); [by eapply elem_of_list_lookup_2|]. congruence.
    - apply lookup_ge_None in Hr. apply lookup_lt_Some in Hi. unfold Ns in Hi. rewrite look_length in Hi by apply rs_Some. lia.
  Qed.
  Lemma es_edge e : e ∈ es ↔ ∃ E, h_edges h !! e = Some E ∧ e_graph E = Some g.
  Proof.
    unfold es, edges_in. rewrite elem_of_nub, <-flat_map_concat_map, elem_of_list_In, in_flat_map.
    setoid_rewrite <-elem_of_list_In. setoid_rewrite Ns_elem. setoid_rewrite elem_of_app. split.
    - intros (N & (r & HN & HgN) & [Hin|Hin]).
      + destruct (out_edges_of h g r N e) as (E & ? & ?); eauto.
      + destruct (in_edges_of h g r N e) as (E & ? & ?); eauto.
    - intros (E & HE & HgE).
      destruct (wf_live _ W e E g HE HgE) as (s & t & Nsx & Nt & u & ? & ? & ? & ? & ? & ? & ? & Ho & Hi).
      exists Nsx. split; [eauto|]. left. apply elem_of_dvals. eauto.
  Qed.
  Lemma es_NoDup : NoDup es.
  Proof. apply NoDup_nub. Qed.
  Lemma es_Some e : e ∈ es → is_Some (h_edges h !! e).
  Proof. intros (E & HE & _)%es_edge. eauto. Qed.
  Lemma Es_lookup i e : es !! i = Some e → Es !! i = h_edges h !! e.
  Proof. apply look_lookup, es_Some. Qed.
  Lemma Es_elem E : E ∈ Es ↔ ∃ e, h_edges h !! e = Some E ∧ e_graph E = Some g.
  Proof. unfold Es. rewrite look_elem. setoid_rewrite es_edge. naive_solver. Qed.
  Lemma Es_inv i E : Es !! i = Some E → ∃ e, es !! i = Some e ∧ h_edges h !! e = Some E ∧ e_graph E = Some g.
  Proof.
    intros Hi. destruct (es !! i) as [e|] eqn:Hr.
    - exists e. split; [done|]. rewrite (Es_lookup i e Hr) in Hi. split; [done|].
      destruct (es_edge e) as [H _]. destruct H as (N' & ? & ?); [by eapply elem_of_list_lookup_2|]. congruence.
    - apply lookup_ge_None in Hr. apply lookup_lt_Some in Hi. unfold Es in Hi. rewrite look_length in Hi by apply es_Some. lia.
  Qed.

  Definition nmap (r : nref) : nref := n0 + pos r rs.
  Definition emap (e : eref) : eref := e0 + pos e es.
  Definition esmap (s : sref) : sref := s0 + pos s ess.

  (** the copied objects *)
  Definition copied_node (N : node) : node :=
    MkNode (Some g') (n_id N) (n_value N) (n_label N) (n_tooltip N) (n_style N) (n_frozen N) (n_params N)
           ((λ kv, (kv.1, emap kv.2)) <$> n_out N) ((λ kv, (kv.1, emap kv.2)) <$> n_in N) (n_index N).
  Definition copied_edge (E : edge) : edge :=
    MkEdge (Some g') (e_raw E) (e_value E) (e_label E) (e_tooltip E) (esmap <$> e_style E) (e_frozen E) (e_params E)
           (nmap <$> e_start E) (nmap <$> e_end E).
  Definition copied_graph : graph :=
    MkGraph ((λ kv, (kv.1, nmap kv.2)) <$> g_nodes G) (g_strict G) (g_ordering G) (g_counter G) None.
  Definition copied_styles : list estyle := es_deepcopy <$> look (h_es h) ess.
  Definition copied : heap :=
    MkHeap (h_nodes h ++ (copied_node <$> Ns)) (h_edges h ++ (copied_edge <$> Es))
           (h_graphs h ++ [copied_graph]) (h_ns h) (h_es h ++ copied_styles) (h_warns h).

  (** the state when the nodes [l] have been adopted *)
  Definition mid_node (l : list nref) (r : nref) (N : node) : node :=
    MkNode (if decide (r ∈ l) then Some g' else None) (n_id N) (n_value N) (n_label N) (n_tooltip N) (n_style N) (n_frozen N) (n_params N)
           ((λ kv, (kv.1, emap kv.2)) <$> n_out N) ((λ kv, (kv.1, emap kv.2)) <$> n_in N) (n_index N).
  Definition mid_end (l : list nref) (o : option nref) : option nref :=
    match o with Some r => if decide (r ∈ l) then Some (nmap r) else None | None => None end.
  Definition is_mid (l : list nref) (o : option nref) : bool :=
    match o with Some r => bool_decide (r ∈ l) | None => false end.
  Definition mid_edge (l : list nref) (E : edge) : edge :=
    MkEdge (if is_mid l (e_start E) || is_mid l (e_end E) then Some g' else None)
           (e_raw E) (e_value E) (e_label E) (e_tooltip E) (esmap <$> e_style E) (e_frozen E) (e_params E)
           (mid_end l (e_start E)) (mid_end l (e_end E)).
  Definition mid (l : list nref) : heap :=
    MkHeap (h_nodes h ++ zip_with (mid_node l) rs Ns) (h_edges h ++ (mid_edge l <$> Es))
           (h_graphs h ++ [copied_graph]) (h_ns h) (h_es h ++ copied_styles) (h_warns h).

  Lemma mid_node_lookup l i : h_nodes (mid l) !! (n0 + i) = r ← rs !! i; N ← h_nodes h !! r; Some (mid_node l r N).
  Proof.
    simpl. rewrite lookup_app_r by (unfold n0; lia). replace (n0 + i - length (h_nodes h)) with i by (unfold n0; lia).
    rewrite lookup_zip_with. destruct (rs !! i) as [r|] eqn:Hr; [|done]. simpl.
    by rewrite (Ns_lookup i r).
  Qed.
  Lemma mid_edge_lookup l i : h_edges (mid l) !! (e0 + i) = e ← es !! i; E ← h_edges h !! e; Some (mid_edge l E).
  Proof.
    simpl. rewrite lookup_app_r by (unfold e0; lia). replace (e0 + i - length (h_edges h)) with i by (unfold e0; lia).
    rewrite list_lookup_fmap. destruct (es !! i) as [e|] eqn:Hr; simpl.
    - by rewrite (Es_lookup i e).
    - apply lookup_ge_None in Hr. rewrite (proj2 (lookup_ge_None Es i)); [done|].
      unfold Es. rewrite look_length; [done|]. apply es_Some.
  Qed.

  Lemma emap_inj e1 e2 : e1 ∈ es → e2 ∈ es → emap e1 = emap e2 → e1 = e2.
  Proof. intros H1 H2 Heq. apply (pos_inj e1 e2 es); [done..|]. unfold emap in Heq. lia. Qed.
  Lemma nmap_inj r1 r2 : r1 ∈ rs → r2 ∈ rs → nmap r1 = nmap r2 → r1 = r2.
  Proof. intros H1 H2 Heq. apply (pos_inj r1 r2 rs); [done..|]. unfold nmap in Heq. lia. Qed.

  (** adopting one node *)
  Lemma adopt_step l r N : r ∈ rs → r ∉ l → h_nodes h !! r = Some N →
    (do* upd_n (nmap r) (λ N, N <| n_graph := Some g' |>) in update_edges (nmap r)) (mid l) = (mid (l ++ [r]), Ok tt).
  Proof.
    intros Hr Hl HN.
    assert (HgN : n_graph N = Some g) by (apply rs_node in Hr as (? & ? & ?); congruence).
    assert (Hm : h_nodes (mid l) !! nmap r = Some (mid_node l r N)).
    { unfold nmap. rewrite mid_node_lookup, pos_lookup by done. simpl. by rewrite HN. }
    erewrite sbind_step by (by apply upd_n_run). set (h1 := mid l <| h_nodes := _ |>).
    assert (F1 : h_nodes h1 = <[nmap r := mid_node l r N <| n_graph := Some g' |>]> (h_nodes (mid l))) by done.
    assert (F2 : h_edges h1 = h_edges (mid l)) by done.
    assert (F3 : h_graphs h1 = h_graphs (mid l)) by done.
    assert (F4 : h_ns h1 = h_ns (mid l)) by done.
    assert (F5 : h_es h1 = h_es (mid l)) by done.
    assert (F6 : h_warns h1 = h_warns (mid l)) by done.
    clearbody h1.
    assert (H1 : h_nodes h1 !! nmap r = Some (mid_node (l ++ [r]) r N)).
    { rewrite F1, list_lookup_insert by (by eapply lookup_lt_Some).
      unfold mid_node. rewrite (decide_True (P := r ∈ l ++ [r])) by (apply elem_of_app; right; left). done. }
    unfold update_edges. rewrite (sread_Ok _ _ _ _ (get_n_Ok _ _ _ H1)).
    assert (Hg1 : n_graph (mid_node (l ++ [r]) r N) = Some g').
    { unfold mid_node. simpl. by rewrite decide_True by (apply elem_of_app; right; left). }
    rewrite Hg1. simpl n_out. simpl n_in.
    assert (Hout : ∀ e, e ∈ dvals (n_out N) → e ∈ es) by (intros e He; apply es_edge; by eapply out_edges_of).
    assert (Hin : ∀ e, e ∈ dvals (n_in N) → e ∈ es) by (intros e He; apply es_edge; by eapply in_edges_of).
    assert (Hvals : ∀ d : dict edge_id eref, ((λ kv, (kv.1, emap kv.2)) <$> d).*2 = emap <$> dvals d).
    { intros d. unfold dvals. rewrite <-!list_fmap_compose. done. }
    assert (Hnd : ∀ d : list eref, NoDup d → (∀ e, e ∈ d → e ∈ es) → NoDup (emap <$> d)).
    { intros d Hd Hde. apply NoDup_fmap_2_strong; [|done]. intros. apply emap_inj; auto. }
    assert (Hex : ∀ e, e ∈ es → is_Some (h_edges h1 !! emap e)).
    { intros e He. rewrite F2. unfold emap.
      rewrite mid_edge_lookup, pos_lookup by done. simpl. destruct (es_Some e He) as [E HE]. rewrite HE. simpl. eauto. }
    erewrite sbind_step.
    2:{ apply siter_upd_e.
        - rewrite Hvals. apply Hnd; [by eapply NoDup_out_edges|done].
        - intros k e ([k' e'] & [= -> ->] & Hke)%elem_of_list_fmap. apply Hex, Hout, elem_of_dvals. eauto. }
    rewrite siter_upd_e.
    2:{ rewrite Hvals. apply Hnd; [by eapply NoDup_in_edges|done]. }
    2:{ intros k e ([k' e'] & [= -> ->] & Hke)%elem_of_list_fmap. simpl h_edges. rewrite list_lookup_imap.
        destruct (Hex e') as [E ->]; [apply Hin, elem_of_dvals; eauto|]. simpl. eauto. }
    f_equal. apply heap_eq; try done.
    - (* nodes *)
      apply list_eq. intros x. simpl h_nodes at 1. rewrite F1.
      destruct (decide (x = nmap r)) as [->|Hx].
      + rewrite list_lookup_insert by (by eapply lookup_lt_Some).
        unfold nmap. rewrite mid_node_lookup, pos_lookup by done. simpl. rewrite HN. simpl. f_equal.
        unfold mid_node. rewrite (decide_True (P := r ∈ l ++ [r])) by (apply elem_of_app; right; left). done.
      + rewrite list_lookup_insert_ne by done. destruct (decide (x < n0)).
        * simpl. rewrite !lookup_app_l by done. done.
        * replace x with (n0 + (x - n0)) by lia. fold n0. rewrite !mid_node_lookup.
          destruct (rs !! (x - n0)) as [r'|] eqn:Hr'; [|done]. simpl. destruct (h_nodes h !! r') as [N'|]; [|done].
          simpl. f_equal. unfold mid_node. f_equal.
          destruct (decide (r' ∈ l)), (decide (r' ∈ l ++ [r])) as [Hd|Hd]; try done.
          -- destruct Hd. apply elem_of_app. by left.
          -- apply elem_of_app in Hd as [?|Hd]; [done|]. apply elem_of_list_singleton in Hd as ->.
             destruct Hx. unfold nmap. rewrite (pos_NoDup r rs (x - n0)); [lia|apply rs_NoDup|done].
    - (* edges *)
      apply list_eq. intros x. simpl h_edges. rewrite !list_lookup_imap, !Hvals.
      rewrite F2.
      destruct (decide (x < e0)) as [Hx|Hx].
      + simpl. rewrite !lookup_app_l by done. destruct (h_edges h !! x) as [E|]; [|done]. simpl.
        assert (∀ d : list eref, x ∉ emap <$> d) as Hd.
        { intros d (e & -> & _)%elem_of_list_fmap. unfold emap in Hx. lia. }
        rewrite !decide_False by apply Hd. done.
      + replace x with (e0 + (x - e0)) by lia. change (h_edges h ++ (mid_edge (l ++ [r]) <$> Es)) with (h_edges (mid (l ++ [r]))).
        rewrite !mid_edge_lookup.
        destruct (es !! (x - e0)) as [e|] eqn:He; [|done]. simpl. destruct (h_edges h !! e) as [E|] eqn:HE; [|done].
        simpl. f_equal.
        assert (Hee : e ∈ es) by (by eapply elem_of_list_lookup_2).
        assert (HgE : e_graph E = Some g) by (apply es_edge in Hee as (? & ? & ?); congruence).
        assert (Hem : e0 + (x - e0) = emap e).
        { unfold emap. rewrite (pos_NoDup e es (x - e0)); [done|apply es_NoDup|done]. }
        rewrite Hem.
        destruct (wf_live _ W e E g HE HgE) as (s & t & Nsx & Nt & u & Hs & Ht & HNs & HNt & ? & ? & ? & Ho & Hi).
        assert (Hmem : ∀ d : list eref, (∀ e, e ∈ d → e ∈ es) → emap e ∈ emap <$> d ↔ e ∈ d).
        { intros d Hd. split.
          - intros (e' & Heq & He')%elem_of_list_fmap. rewrite (emap_inj e e'); auto.
          - intros. by apply elem_of_list_fmap_1. }
        assert (Hso : e ∈ dvals (n_out N) ↔ s = r).
        { rewrite elem_of_dvals. split.
          - intros [k Hk]. destruct (WF_out_entry h r N k e) as (? & E' & ? & ? & ? & ? & ? & ? & ?); [done..|]. congruence.
          - intros ->. assert (Nsx = N) as -> by congruence. eauto. }
        assert (Hti : e ∈ dvals (n_in N) ↔ t = r).
        { rewrite elem_of_dvals. split.
          - intros [k Hk]. destruct (WF_in_entry h r N k e) as (? & E' & ? & ? & ? & ? & ? & ? & ? & ?); [done..|]. congruence.
          - intros ->. assert (Nt = N) as -> by congruence. eauto. }
        unfold mid_edge. rewrite Hs, Ht. simpl.
        assert (Hd : ∀ y, (y ∈ l ++ [r]) ↔ y ∈ l ∨ y = r) by (intros; by rewrite elem_of_app, elem_of_list_singleton).
        destruct (decide (emap e ∈ emap <$> dvals (n_out N))) as [H1'|H1'], (decide (emap e ∈ emap <$> dvals (n_in N))) as [H2'|H2'];
          rewrite Hmem in H1' by done; rewrite Hmem in H2' by done; rewrite Hso in H1'; rewrite Hti in H2'.
        * subst. rewrite !(decide_True (P := r ∈ l ++ [r])), !(bool_decide_true (r ∈ l ++ [r])) by (by apply Hd; right). done.
        * subst. rewrite (decide_True (P := r ∈ l ++ [r])), !(bool_decide_true (r ∈ l ++ [r])) by (by apply Hd; right).
          assert (t ∈ l ++ [r] ↔ t ∈ l) as Hiff by (rewrite Hd; clear -H2'; tauto).
          by rewrite (decide_ext _ _ _ _ Hiff).
        * subst. rewrite (decide_True (P := r ∈ l ++ [r])), !(bool_decide_true (r ∈ l ++ [r])) by (by apply Hd; right).
          rewrite orb_true_r.
          assert (s ∈ l ++ [r] ↔ s ∈ l) as Hiff by (rewrite Hd; clear -H1'; tauto).
          by rewrite (decide_ext _ _ _ _ Hiff).
        * assert (s ∈ l ++ [r] ↔ s ∈ l) as Hiff by (rewrite Hd; clear -H1'; tauto).
          assert (t ∈ l ++ [r] ↔ t ∈ l) as Hiff' by (rewrite Hd; clear -H2'; tauto).
          by rewrite (decide_ext _ _ _ _ Hiff), (decide_ext _ _ _ _ Hiff'), (bool_decide_ext _ _ Hiff), (bool_decide_ext _ _ Hiff').
  Qed.

  Lemma adopt_loop l1 l2 : rs = l1 ++ l2 →
    siter (λ r, do* upd_n r (λ N, N <| n_graph := Some g' |>) in update_edges r) (nmap <$> l2) (mid l1) = (mid rs, Ok tt).
  Proof.
    revert l1. induction l2 as [|r l2 IH]; intros l1 Hrs.
    - rewrite app_nil_r in Hrs. by rewrite <-Hrs.
    - assert (Hr : r ∈ rs) by (rewrite Hrs; apply elem_of_app; right; left).
      destruct (rs_Some r Hr) as [N HN].
      cbn [fmap list_fmap siter]. erewrite sbind_step.
      2:{ apply (adopt_step l1 r N); [done| |done]. pose proof rs_NoDup as Hnd. rewrite Hrs in Hnd.
          apply NoDup_app in Hnd as (_ & Hnd & _). intros Hl. apply (Hnd r Hl). left. }
      apply IH. by rewrite Hrs, <-app_assoc.
  Qed.

  Lemma mid_all : mid rs = copied.
  Proof.
    apply heap_eq; simpl; try done; f_equal.
    - apply list_eq. intros i. rewrite lookup_zip_with, list_lookup_fmap.
      destruct (rs !! i) as [r|] eqn:Hr; simpl.
      + destruct (Ns !! i) as [N|] eqn:HN; [|done]. simpl. f_equal. unfold mid_node.
        rewrite decide_True by (by eapply elem_of_list_lookup_2). done.
      + destruct (Ns !! i) as [N|] eqn:HN; [|done]. destruct (Ns_inv _ _ HN) as (? & ? & ?). congruence.
    - apply list_fmap_ext. intros i E HE. destruct (Es_inv _ _ HE) as (e & _ & HE' & HgE).
      destruct (wf_live _ W e E g HE' HgE) as (s & t & Nsx & Nt & u & Hs & Ht & HNs & HNt & Hgs & Hgt & _).
      assert (s ∈ rs) by (apply rs_node; eauto). assert (t ∈ rs) by (apply rs_node; eauto).
      unfold mid_edge, copied_edge. rewrite Hs, Ht. simpl.
      rewrite !(decide_True (P := s ∈ rs)), !(decide_True (P := t ∈ rs)), !(bool_decide_true (s ∈ rs)) by done.
      done.
  Qed.

  Lemma mid_start : mid [] = MkHeap (h_nodes h ++ ((copy_node id emap) <$> Ns))
       (h_edges h ++ (copy_edge esmap <$> Es)) (h_graphs h ++ [copied_graph]) (h_ns h) (h_es h ++ copied_styles) (h_warns h).
  Proof.
    apply heap_eq; simpl; try done; f_equal.
    - apply list_eq. intros i. rewrite lookup_zip_with, !list_lookup_fmap.
      destruct (rs !! i) as [r|] eqn:Hr; simpl.
      + destruct (Ns !! i) as [N|] eqn:HN; [|done]. simpl. f_equal. unfold mid_node.
        by destruct N as [? ? ? ? ? []].
      + destruct (Ns !! i) as [N|] eqn:HN; [|done]. destruct (Ns_inv _ _ HN) as (? & ? & ?). congruence.
    - apply list_fmap_ext. intros i E HE.
      by destruct E as [? ? ? ? ? ? ? ? [s|] [t|]].
  Qed.

  Lemma Ns_rmap : rmap (get_n h) (nub (dvals (g_nodes G))) = Ok Ns.
  Proof.
    rewrite nub_NoDup by apply rs_NoDup. apply rmap_look; [|apply rs_Some]. intros r x Hx. by apply get_n_Ok.
  Qed.
  Lemma Es_rmap : rmap (get_e h) es = Ok Es.
  Proof. apply rmap_look; [|apply es_Some]. intros r x Hx. by apply get_e_Ok. Qed.
  Lemma ess_Some s : s ∈ ess → is_Some (h_es h !! s).
  Proof.
    unfold ess. rewrite elem_of_nub, elem_of_list_omap. intros (E & HE & Hs).
    apply Es_elem in HE as (e & HE & _). apply lookup_lt_is_Some. by eapply wf_estyle.
  Qed.
  Lemma ESs_rmap : rmap (λ s, match h_es h !! s with Some sty => Ok (es_deepcopy sty) | None => Err Unmodelled end) ess = Ok copied_styles.
  Proof.
    unfold copied_styles. assert (∀ s, s ∈ ess → is_Some (h_es h !! s)) as Hs by apply ess_Some.
    revert Hs. induction ess as [|s l IH]; intros Hs; [done|]. simpl. destruct (Hs s) as [x Hx]; [left|].
    rewrite Hx. simpl. rewrite IH; [done|]. intros. apply Hs. by right.
  Qed.

  (** no stored value is a bound method (outside the model) *)
  Definition no_meth : bool := negb (existsb node_has_meth Ns || existsb edge_has_meth Es).

  Lemma copy_meth : no_meth = false → copy g h = (h, Err Unmodelled).
  Proof.
    intros Hm. unfold copy. rewrite (sread_Ok _ _ _ _ (get_g_Ok _ _ _ HG)).
    rewrite (sread_Ok _ _ _ _ Ns_rmap). fold es. rewrite (sread_Ok _ _ _ _ Es_rmap).
    unfold no_meth in Hm. apply negb_false_iff in Hm. by rewrite Hm.
  Qed.
  Lemma copy_styled : no_meth = true → (∃ N s, N ∈ Ns ∧ n_style N = Some s) → copy g h = (h, Err KeyError).
  Proof.
    intros Hm (N & s & HN & Hs). unfold copy. rewrite (sread_Ok _ _ _ _ (get_g_Ok _ _ _ HG)).
    rewrite (sread_Ok _ _ _ _ Ns_rmap). fold es. rewrite (sread_Ok _ _ _ _ Es_rmap).
    unfold no_meth in Hm. apply negb_true_iff in Hm. rewrite Hm.
    rewrite (sread_Err _ _ _ KeyError); [done|].
    assert (Hin : s ∈ nub (omap n_style Ns)) by (apply elem_of_nub, elem_of_list_omap; eauto).
    assert (Hall : ∀ s, s ∈ nub (omap n_style Ns) → is_Some (h_ns h !! s)).
    { intros s' (N' & HN' & Hs')%elem_of_nub%elem_of_list_omap. apply Ns_elem in HN' as (r & HN' & _).
      apply lookup_lt_is_Some. by eapply wf_nstyle. }
    revert Hin Hall. generalize (nub (omap n_style Ns)). intros [|s' l] Hin Hall; [by apply elem_of_nil in Hin|].
    simpl. destruct (Hall s') as [x ->]; [left|]. done.
  Qed.
  Lemma copy_plain : no_meth = true → (∀ N, N ∈ Ns → n_style N = None) → copy g h = (copied, Ok g').
  Proof.
    intros Hm Hst. unfold copy. rewrite (sread_Ok _ _ _ _ (get_g_Ok _ _ _ HG)).
    rewrite (sread_Ok _ _ _ _ Ns_rmap). fold es. rewrite (sread_Ok _ _ _ _ Es_rmap).
    unfold no_meth in Hm. apply negb_true_iff in Hm. rewrite Hm.
    assert (nub (omap n_style Ns) = []) as ->.
    { destruct (nub (omap n_style Ns)) as [|s l] eqn:Hn; [done|].
      assert (s ∈ nub (omap n_style Ns)) as (N & HN & Hs)%elem_of_nub%elem_of_list_omap by (rewrite Hn; left).
      specialize (Hst N HN). congruence. }
    rewrite (sread_Ok _ _ _ []) by done. fold ess. rewrite (sread_Ok _ _ _ _ ESs_rmap).
    do 4 (erewrite sread_Ok by reflexivity). fold n0 e0 s0.
    erewrite sbind_step by apply siter_new_ns. rewrite heap_ns_nil.
    erewrite sbind_step by apply siter_new_es.
    erewrite sbind_step by apply siter_new_e.
    erewrite sbind_step by apply siter_new_n.
    unfold new_g at 1. unfold sbind at 1.
    match goal with |- sbind (siter _ _) _ ?hh = _ => assert (hh = mid []) as -> end.
    { rewrite mid_start. apply heap_eq; simpl; try done.
      - f_equal. apply list_fmap_ext. intros i N HN. simpl.
        assert (n_style N = None) as Hn by (apply Hst; by eapply elem_of_list_lookup_2).
        destruct N as [? ? ? ? ? []]; simpl in Hn; done.
      - f_equal. unfold copied_graph. unfold nmap. rewrite nub_NoDup by apply rs_NoDup. done. }
    simpl length.
    assert (dvals ((λ kv, (kv.1, n0 + pos kv.2 (nub (dvals (g_nodes G))))) <$> g_nodes G) = nmap <$> rs) as ->.
    { rewrite nub_NoDup by apply rs_NoDup. unfold dvals, rs, g_refs, nmap. unfold dvals. rewrite <-!list_fmap_compose. done. }
    erewrite sbind_step by (by apply (adopt_loop [] rs)). unfold sret. by rewrite mid_all.
  Qed.

  (** lookups in the copied heap *)
  Lemma copied_old_node r N : h_nodes h !! r = Some N → h_nodes copied !! r = Some N.
  Proof. intros HN. simpl. by apply lookup_app_l_Some. Qed.
  Lemma copied_new_node r N : h_nodes h !! r = Some N → n_graph N = Some g → h_nodes copied !! nmap r = Some (copied_node N).
  Proof.
    intros HN Hg. assert (Hr : r ∈ rs) by (apply rs_node; eauto). rewrite <-mid_all. unfold nmap.
    rewrite mid_node_lookup, pos_lookup by done. simpl. rewrite HN. simpl. f_equal. unfold mid_node. by rewrite decide_True.
  Qed.
  Lemma copied_node_inv x N' : h_nodes copied !! x = Some N' →
    h_nodes h !! x = Some N' ∨ ∃ r N, h_nodes h !! r = Some N ∧ n_graph N = Some g ∧ x = nmap r ∧ N' = copied_node N.
  Proof.
    intros Hx. destruct (decide (x < n0)) as [Hlt|Hge].
    - left. simpl in Hx. by rewrite lookup_app_l in Hx.
    - right. rewrite <-mid_all in Hx. replace x with (n0 + (x - n0)) in Hx by lia. rewrite mid_node_lookup in Hx.
      destruct (rs !! (x - n0)) as [r|] eqn:Hr; [|done]. simpl in Hx.
      assert (Hrs : r ∈ rs) by (by eapply elem_of_list_lookup_2).
      pose proof (proj1 (rs_node r) Hrs) as (N & HN & Hg). rewrite HN in Hx. simpl in Hx. injection Hx as <-.
      exists r, N. split_and!; [done|done| |].
      + unfold nmap. rewrite (pos_NoDup r rs (x - n0)); [lia|apply rs_NoDup|done].
      + unfold mid_node. by rewrite decide_True.
  Qed.
  Lemma copied_old_edge e E : h_edges h !! e = Some E → h_edges copied !! e = Some E.
  Proof. intros HE. simpl. by apply lookup_app_l_Some. Qed.
  Lemma copied_new_edge e E : h_edges h !! e = Some E → e_graph E = Some g → h_edges copied !! emap e = Some (copied_edge E).
  Proof.
    intros HE Hg. assert (He : e ∈ es) by (apply es_edge; eauto). simpl. unfold emap.
    rewrite lookup_app_r by (unfold e0; lia). replace (e0 + pos e es - length (h_edges h)) with (pos e es) by (unfold e0; lia).
    rewrite list_lookup_fmap, (Es_lookup _ e) by (by apply pos_lookup). by rewrite HE.
  Qed.
  Lemma copied_edge_inv x E' : h_edges copied !! x = Some E' →
    h_edges h !! x = Some E' ∨ ∃ e E, h_edges h !! e = Some E ∧ e_graph E = Some g ∧ x = emap e ∧ E' = copied_edge E.
  Proof.
    simpl. intros [Hx|[Hge Hx]]%lookup_app_Some; [by left|right].
    apply list_lookup_fmap_inv in Hx as (E & -> & Hx).
    destruct (Es_inv _ _ Hx) as (e & He & HE & Hg). exists e, E. split_and!; [done|done| |done].
    unfold emap. rewrite (pos_NoDup e es (x - length (h_edges h))); [unfold e0; lia|apply es_NoDup|done].
  Qed.
  Lemma copied_graph_inv x G' : h_graphs copied !! x = Some G' →
    h_graphs h !! x = Some G' ∨ (x = g' ∧ G' = copied_graph).
  Proof.
    simpl. intros [Hx|[Hge Hx]]%lookup_app_Some; [by left|right].
    apply list_lookup_singleton_Some in Hx as [Hx <-]. unfold g'. split; [lia|done].
  Qed.
  Lemma copied_old_graph x G' : h_graphs h !! x = Some G' → h_graphs copied !! x = Some G'.
  Proof. intros HE. simpl. by apply lookup_app_l_Some. Qed.
  Lemma copied_new_graph : h_graphs copied !! g' = Some copied_graph.
  Proof. simpl. unfold g'. by rewrite lookup_app_r, Nat.sub_diag by done. Qed.

  Lemma copied_new_style e E s sty : h_edges h !! e = Some E → e_graph E = Some g → e_style E = Some s → h_es h !! s = Some sty →
    h_es copied !! esmap s = Some (es_deepcopy sty).
  Proof.
    intros HE Hg Hs Hsty. assert (Hin : s ∈ ess).
    { unfold ess. rewrite elem_of_nub, elem_of_list_omap. exists E. split; [|done]. apply Es_elem. eauto. }
    simpl. unfold esmap. rewrite lookup_app_r by (unfold s0; lia).
    replace (s0 + pos s ess - length (h_es h)) with (pos s ess) by (unfold s0; lia).
    unfold copied_styles. rewrite list_lookup_fmap, (look_lookup _ _ _ s), Hsty; [done|apply ess_Some|by apply pos_lookup].
  Qed.

  Lemma fmap_entry {K} (f : eref → eref) (d : list (K * eref)) k e :
    (k, e) ∈ (λ kv, (kv.1, f kv.2)) <$> d ↔ ∃ e', e = f e' ∧ (k, e') ∈ d.
  Proof.
    rewrite elem_of_list_fmap. split.
    - intros ([k' e'] & [= -> ->] & Hin). eauto.
    - intros (e' & -> & Hin). by exists (k, e').
  Qed.
  Lemma fmap_keys {K} (f : eref → eref) (d : list (K * eref)) : ((λ kv, (kv.1, f kv.2)) <$> d).*1 = d.*1.
  Proof. rewrite <-list_fmap_compose. done. Qed.

  Lemma WF_copied : WF copied.
  Proof.
    split.
    - intros x G' k r [HG'|[-> ->]]%copied_graph_inv Hk.
      + destruct (wf_gnodes _ W x G' k r) as (N & HN & ? & ?); [done..|]. exists N. split; [by apply copied_old_node|done].
      + simpl in Hk. apply fmap_entry in Hk as (r' & -> & Hk).
        destruct (wf_gnodes _ W g G k r') as (N & HN & ? & ?); [done..|]. exists (copied_node N).
        split; [by apply copied_new_node|done].
    - intros x G' [HG'|[-> ->]]%copied_graph_inv; [by eapply wf_gkeys|]. simpl. unfold dkeys. rewrite fmap_keys.
      by apply (wf_gkeys _ W g).
    - intros x N' g1 [HN|(r & N & HN & Hg & -> & ->)]%copied_node_inv Hg1.
      + destruct (wf_ngraph _ W x N' g1) as (G1 & ? & ?); [done..|]. exists G1. split; [by apply copied_old_graph|done].
      + simpl in Hg1. injection Hg1 as <-. exists copied_graph. split; [apply copied_new_graph|]. simpl.
        apply fmap_entry. exists r. split; [done|]. destruct (wf_ngraph _ W r N g) as (G1 & ? & ?); [done..|]. assert (G1 = G) as -> by congruence. done.
    - intros x N' [HN|(r & N & HN & Hg & -> & ->)]%copied_node_inv; [by eapply wf_nout|].
      simpl. unfold dkeys. rewrite fmap_keys. by eapply wf_nout.
    - intros x N' [HN|(r & N & HN & Hg & -> & ->)]%copied_node_inv; [by eapply wf_nin|].
      simpl. unfold dkeys. rewrite fmap_keys. by eapply wf_nin.
    - intros x N' k e [HN|(r & N & HN & Hg & -> & ->)]%copied_node_inv Hk.
      + destruct (wf_out _ W x N' k e) as (g1 & E & t & Nt & ? & ? & ? & ? & ? & ?); [done..|].
        exists g1, E, t, Nt. split_and!; [by apply copied_old_edge|done|done|by apply copied_old_node|done|done].
      + simpl in Hk. apply fmap_entry in Hk as (e' & -> & Hk).
        destruct (WF_out_entry h r N k e') as (g1 & E & t & Nt & u & HE & HgE & Hs & Ht & Hu & HNt & HgN & HgNt & -> & ?); [done..|].
        assert (g1 = g) as -> by congruence. exists g', (copied_edge E), (nmap t), (copied_node Nt).
        split_and!; [by apply copied_new_edge|simpl; by rewrite Hs|simpl; by rewrite Ht|by apply copied_new_node|simpl; by rewrite Hu|done].
    - intros x N' k e [HN|(r & N & HN & Hg & -> & ->)]%copied_node_inv Hk.
      + destruct (wf_in _ W x N' k e) as (g1 & E & t & Nt & ? & ? & ? & ? & ? & ?); [done..|].
        exists g1, E, t, Nt. split_and!; [by apply copied_old_edge|done|done|by apply copied_old_node|done|done].
      + simpl in Hk. apply fmap_entry in Hk as (e' & -> & Hk).
        destruct (WF_in_entry h r N k e') as (g1 & E & t & Nt & u & HE & HgE & Hs & Ht & Hu & HNt & HgN & HgNt & -> & ?); [done..|].
        assert (g1 = g) as -> by congruence. exists g', (copied_edge E), (nmap t), (copied_node Nt).
        split_and!; [by apply copied_new_edge|simpl; by rewrite Hs|simpl; by rewrite Ht|by apply copied_new_node|simpl; by rewrite Hu|done].
    - intros x E' g1 [HE|(e & E & HE & HgE & -> & ->)]%copied_edge_inv Hg1.
      + destruct (wf_live _ W x E' g1) as (s & t & Ns1 & Nt & u & ? & ? & ? & ? & ? & ? & ? & ? & ?); [done..|].
        exists s, t, Ns1, Nt, u. split_and!; try done; by apply copied_old_node.
      + simpl in Hg1. injection Hg1 as <-.
        destruct (wf_live _ W e E g) as (s & t & Ns1 & Nt & u & Hs & Ht & ? & ? & ? & ? & Hu & ? & ?); [done..|].
        exists (nmap s), (nmap t), (copied_node Ns1), (copied_node Nt), u.
        split_and!; [simpl; by rewrite Hs|simpl; by rewrite Ht|by apply copied_new_node|by apply copied_new_node|done|done|done| |];
          simpl; apply fmap_entry; eauto.
    - intros x E' [HE|(e & E & HE & HgE & -> & ->)]%copied_edge_inv Hg1; [|done].
      destruct (wf_dead _ W x E') as [?|(? & s & t & Ns1 & Nt & ? & ? & ? & ?)]; [done..|by left|right].
      split; [done|]. exists s, t, Ns1, Nt. split_and!; [done|done|by apply copied_old_node|by apply copied_old_node].
    - intros x N' s [HN|(r & N & HN & Hg & -> & ->)]%copied_node_inv Hs; simpl in *; by eapply wf_nstyle.
    - intros x E' s [HE|(e & E & HE & HgE & -> & ->)]%copied_edge_inv Hs; simpl h_es; rewrite app_length.
      + assert (s < length (h_es h)) by (by eapply wf_estyle). lia.
      + simpl in Hs. destruct (e_style E) as [s1|] eqn:Hs1; [|done]. simpl in Hs. injection Hs as <-.
        assert (Hin : s1 ∈ ess).
        { unfold ess. rewrite elem_of_nub, elem_of_list_omap. exists E. split; [|done]. apply Es_elem. eauto. }
        unfold copied_styles. rewrite fmap_length, look_length by apply ess_Some.
        apply pos_lt in Hin. unfold esmap, s0. lia.
  Qed.
End copy.

Lemma copy_none h g : h_graphs h !! g = None → (copy g h).1 = h.
Proof. intros HG. unfold copy. unfold sbind, sread at 1. unfold get_g. by rewrite HG. Qed.

(** the three outcomes of copy *)
Lemma copy_cases h g G : WF h → h_graphs h !! g = Some G →
  (no_meth h G = false ∧ copy g h = (h, Err Unmodelled)) ∨
  (no_meth h G = true ∧ (∃ r N s, h_nodes h !! r = Some N ∧ n_graph N = Some g ∧ n_style N = Some s) ∧ copy g h = (h, Err KeyError)) ∨
  (no_meth h G = true ∧ (∀ r N, h_nodes h !! r = Some N → n_graph N = Some g → n_style N = None) ∧
   copy g h = (copied h G, Ok (length (h_graphs h)))).
Proof.
  intros W HG. destruct (no_meth h G) eqn:Hm; [right|left; split; [done|by apply (copy_meth h g G)]].
  destruct (decide (Exists (λ N, is_Some (n_style N)) (look (h_nodes h) (g_refs G)))) as [Hs|Hs].
  - left. apply Exists_exists in Hs as (N & HN & s & Hs). split; [done|]. split.
    + apply (Ns_elem h g G W HG) in HN as (r & ? & ?). eauto 6.
    + apply (copy_styled h g G); eauto.
  - right. split; [done|].
    assert (Hall : ∀ N, N ∈ look (h_nodes h) (g_refs G) → n_style N = None).
    { intros N HN. destruct (n_style N) eqn:Hn; [|done]. destruct Hs. apply Exists_exists. exists N. rewrite Hn. eauto. }
    split.
    + intros r N HN Hg. apply Hall. apply (Ns_elem h g G W HG). eauto.
    + by apply (copy_plain h g G).
Qed.
Lemma WF_copy h g : WF h → WF (copy g h).1.
Proof.
  intros W. destruct (h_graphs h !! g) as [G|] eqn:HG; [|by rewrite copy_none].
  destruct (copy_cases h g G W HG) as [[_ ->]|[(_ & _ & ->)|(_ & _ & ->)]]; [done..|]. by apply (WF_copied h g G).
Qed.
Lemma WF_filter_graph h g xs d ft : WF h → WF (filter_graph g xs d ft h).1.
Proof.
  intros W. apply (pres_bind WF); [apply pres_read| |done]. intros rel.
  apply (pres_bind WF); [apply pres_read|]. intros G.
  apply (pres_bind WF); [intros h1 W1; by apply WF_copy|]. intros g'.
  apply (pres_bind WF); [|intros; apply pres_ret].
  apply pres_iter. intros n _ h1 W1. by apply WF_remove_node.
Qed.
