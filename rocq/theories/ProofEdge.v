(** What connect, disconnect, remove_self and remove_node do to the heap. *)
From Verif Require Export ProofCore.

(** the three assignments made on an existing edge, in order *)
Definition set_edge (r : eref) (a : eargs) : M eref :=
  do* when_style (c_style a) (edge_set_style r (c_style a)) in
  do* when_val (c_label a) (edge_set_label r (c_label a)) in
  do* when_val (c_value a) (edge_set_value r (c_value a)) in
  sret r.

Lemma set_edge_run h r N a : h_edges h !! r = Some N →
  ∃ l st lb vl ro, set_edge r a h =
    (h <| h_edges := <[r := N <| e_style := st |> <| e_label := lb |> <| e_value := vl |>]> (h_edges h) |>
       <| h_es := h_es h ++ l |>, ro) ∧
    (c_style a = SNone → l = [] ∧ st = e_style N) ∧
    (st = e_style N ∨ ∃ s, st = Some s ∧ (esarg_ok h (c_style a) → s < length (h_es h ++ l))) ∧
    (style_locked h (e_style N) (e_graph N) → st = e_style N) ∧
    (lb = e_label N ∨ lb = given (c_label a) (e_label N)) ∧
    (vl = e_value N ∨ (e_frozen N = false ∧ vl = given (c_value a) (e_value N))) ∧
    (∀ x, ro = Ok x → x = r ∧ lb = given (c_label a) (e_label N) ∧ vl = given (c_value a) (e_value N) ∧
       (c_style a ≠ SNone → ¬ style_locked h (e_style N) (e_graph N) ∧
          ∃ s, st = Some s ∧ (c_style a = SObj s ∨ ∃ d sty, c_style a = SDict d ∧ s = length (h_es h) ∧ l = [sty])) ∧
       (c_value a ≠ PNone → e_frozen N = false)) ∧
    (∀ x, ro = Err x → c_style a ≠ SNone ∨ (e_frozen N = true ∧ c_value a ≠ PNone)) ∧
    (c_style a = SNone → c_value a = PNone ∨ e_frozen N = false → ro = Ok r).
Proof.
  intros HN. unfold set_edge.
  assert (Hst : ∃ l st ro, when_style (c_style a) (edge_set_style r (c_style a)) h =
    (h <| h_edges := <[r := N <| e_style := st |>]> (h_edges h) |> <| h_es := h_es h ++ l |>, ro) ∧
    (c_style a = SNone → l = [] ∧ st = e_style N ∧ ro = Ok tt) ∧
    (st = e_style N ∨ ∃ s, st = Some s ∧ (esarg_ok h (c_style a) → s < length (h_es h ++ l))) ∧
    (style_locked h (e_style N) (e_graph N) → st = e_style N) ∧
    (ro = Ok tt → c_style a ≠ SNone → ¬ style_locked h (e_style N) (e_graph N) ∧
       ∃ s, st = Some s ∧ (c_style a = SObj s ∨ ∃ d sty, c_style a = SDict d ∧ s = length (h_es h) ∧ l = [sty]))).
  { assert (Hsame : N <| e_style := e_style N |> = N) by by destruct N.
    assert (c_style a = SNone ∨ c_style a ≠ SNone) as [Ha|Ha] by (destruct (c_style a); auto).
    - rewrite Ha. simpl. exists [], (e_style N), (Ok tt).
      rewrite Hsame, heap_edges_same, heap_es_nil by done. naive_solver.
    - assert (when_style (c_style a) (edge_set_style r (c_style a)) = edge_set_style r (c_style a)) as ->
        by by destruct (c_style a).
      destruct (edge_set_style_run h r N (c_style a) HN) as [(Hl & x & ->)|(Hl & l & st & ro & -> & H1 & H2 & H3 & H4 & H5)].
      + exists [], (e_style N), (Err x). rewrite Hsame, heap_edges_same, heap_es_nil by done. naive_solver.
      + exists l, st, ro. split; [done|]. naive_solver. }
  destruct Hst as (l & st & ro & Hrun & H1 & H2 & H3 & H4).
  destruct ro as [[]|x].
  2:{ erewrite sbind_fail by exact Hrun. exists l, st, (e_label N), (e_value N), (Err x).
      split; [by destruct N|]. naive_solver. }
  erewrite sbind_step by exact Hrun. clear Hrun.
  set (h1 := h <| h_edges := _ |> <| h_es := _ |>). set (N1 := N <| e_style := st |>) in *.
  assert (HN1 : h_edges h1 !! r = Some N1).
  { subst h1. simpl. rewrite list_lookup_insert; [done|]. by eapply lookup_lt_Some. }
  assert (Hlb : when_val (c_label a) (edge_set_label r (c_label a)) h1 =
     (h1 <| h_edges := <[r := N1 <| e_label := given (c_label a) (e_label N1) |>]> (h_edges h1) |>, Ok tt)).
  { unfold given, when_val, edge_set_label. destruct (c_label a) eqn:Ha;
      try (by erewrite upd_e_run by exact HN1).
    assert (N1 <| e_label := e_label N1 |> = N1) as -> by by destruct N.
    by rewrite heap_edges_same by done. }
  erewrite sbind_step by exact Hlb. clear Hlb.
  set (h2 := h1 <| h_edges := _ |>). set (N2 := N1 <| e_label := given (c_label a) (e_label N1) |>) in *.
  assert (HN2 : h_edges h2 !! r = Some N2).
  { subst h2. simpl. rewrite list_lookup_insert; [done|]. rewrite insert_length. by eapply lookup_lt_Some. }
  assert (Hh2 : ∀ f, h2 <| h_edges := <[r := f]> (h_edges h2) |> =
     h <| h_edges := <[r := f]> (h_edges h) |> <| h_es := h_es h ++ l |>).
  { intros f. subst h2 h1. apply heap_eq; simpl; try done. by rewrite !list_insert_insert. }
  destruct (decide (c_value a = PNone)) as [Hv|Hv].
  - rewrite Hv. simpl. exists l, st, (given (c_label a) (e_label N)), (e_value N), (Ok r). split.
    + unfold sbind, sret. f_equal. rewrite <-(heap_edges_same h2 r N2) by done.
      by rewrite Hh2.
    + split_and!; try naive_solver.
  - assert (when_val (c_value a) (edge_set_value r (c_value a)) = edge_set_value r (c_value a)) as ->
        by by destruct (c_value a).
    assert (given (c_value a) (e_value N) = c_value a) as Hgv by by destruct (c_value a).
    unfold edge_set_value. rewrite sbind_assoc. rewrite (sread_Ok _ _ _ N2) by (by apply get_e_Ok).
    change (e_frozen N2) with (e_frozen N). destruct (e_frozen N) eqn:Hf.
    + exists l, st, (given (c_label a) (e_label N)), (e_value N), (Err RuntimeError). split.
      * unfold sbind, sraise. f_equal. rewrite <-(heap_edges_same h2 r N2) by done.
        by rewrite Hh2.
      * split_and!; try naive_solver.
    + exists l, st, (given (c_label a) (e_label N)), (c_value a), (Ok r). split.
      * erewrite sbind_step; [|by apply upd_e_run]. unfold sret. f_equal. by rewrite Hh2.
      * rewrite Hgv. split_and!; try naive_solver.
Qed.

Lemma set_edge_data_only h r a : esarg_ok h (c_style a) → data_only h (set_edge r a h).1 ∨ h_edges h !! r = None.
Proof.
  intros Hok. destruct (h_edges h !! r) as [N|] eqn:HN; [left|by right].
  destruct (set_edge_run h r N a HN) as (l & st & lb & vl & ro & -> & _ & Hst & _). simpl.
  eapply data_only_edge; simpl; try done.
  - apply app_length_le.
  - naive_solver.
Qed.

(** * Edge.__init__ *)
Definition new_edge (g : gref) (s t : nref) (a : eargs) (st : option sref) : edge :=
  MkEdge (Some g) (RId (c_id a)) (c_value a) (c_label a) (c_tooltip a) st false (c_params a) (Some s) (Some t).

(** the node list with entry [(i, e)] appended to the outward dict of [s] and the
    inward dict of [t] *)
Definition with_entry (s t : nref) (i : edge_id) (e : eref) (ns : list node) : list node :=
  alter (λ N, N <| n_in := n_in N ++ [(i, e)] |>) t (alter (λ N, N <| n_out := n_out N ++ [(i, e)] |>) s ns).

Lemma with_entry_lookup s t i e ns r : with_entry s t i e ns !! r =
  (λ N, N <| n_out := n_out N ++ if decide (r = s) then [(i, e)] else [] |>
          <| n_in := n_in N ++ if decide (r = t) then [(i, e)] else [] |>) <$> ns !! r.
Proof.
  unfold with_entry. rewrite !lookup_alter_fmap, <-option_fmap_compose.
  destruct (ns !! r) as [N|]; [|done]. simpl. f_equal.
  destruct (decide (r = s)), (decide (r = t)), (decide (t = r)), (decide (s = r)); try congruence;
    destruct N; unfold set; simpl; by rewrite ?app_nil_r.
Qed.

Lemma edge_ctor_run h g s t Ns Nt a :
  let i := (n_id Ns, n_id Nt, RId (c_id a)) in
  h_nodes h !! s = Some Ns → h_nodes h !! t = Some Nt → i ∉ dkeys (n_out Ns) → i ∉ dkeys (n_in Nt) →
  ∃ l ost, resolve_estyle (c_style a) h = (h <| h_es := h_es h ++ l |>, ost) ∧
  edge_ctor g s t a h =
  match ost with
  | Err x => (h, Err x)
  | Ok st =>
    (h <| h_nodes := with_entry s t i (length (h_edges h)) (h_nodes h) |>
       <| h_edges := h_edges h ++ [new_edge g s t a st] |>
       <| h_es := h_es h ++ l |>, Ok (length (h_edges h)))
  end.
Proof.
  intros i HNs HNt Hio Hii.
  destruct (resolve_estyle_run (c_style a) h) as (l & ost & Hres & _ & Hl & _). exists l, ost. split; [done|].
  unfold edge_ctor. destruct ost as [st|x].
  2:{ erewrite sbind_fail by exact Hres. by rewrite (Hl x), heap_es_nil by done. }
  erewrite sbind_step by exact Hres. erewrite sbind_step by done.
  set (h1 := h <| h_es := _ |>). set (h2 := h1 <| h_edges := _ |>).
  fold (new_edge g s t a st) in h2.
  assert (HE : h_edges h2 !! length (h_edges h) = Some (new_edge g s t a st)).
  { subst h2 h1. simpl. by apply list_lookup_middle. }
  assert (Hid : ∀ h3, h_edges h3 = h_edges h2 → (∃ N, h_nodes h3 !! s = Some N ∧ n_id N = n_id Ns) →
     (∃ N, h_nodes h3 !! t = Some N ∧ n_id N = n_id Nt) → get_edge_id h3 (length (h_edges h)) = Ok i).
  { intros h3 He (N1 & H1 & H1') (N2 & H2 & H2'). unfold get_edge_id.
    rewrite (get_e_Ok _ _ (new_edge g s t a st)) by (by rewrite He). simpl.
    rewrite (get_n_Ok _ _ _ H1), (get_n_Ok _ _ _ H2). simpl. subst i. congruence. }
  unfold append_outward. rewrite sbind_assoc. change (length (h_edges h1)) with (length (h_edges h)).
  rewrite (sread_Ok _ _ _ i) by (apply Hid; eauto).
  erewrite sbind_step by (by apply (upd_n_run h2 s Ns)).
  set (h3 := h2 <| h_nodes := _ |>).
  assert (HNt3 : ∃ N3, h_nodes h3 !! t = Some N3 ∧ n_id N3 = n_id Nt ∧ n_in N3 = n_in Nt).
  { subst h3. simpl. destruct (decide (t = s)) as [->|].
    - simplify_eq. rewrite list_lookup_insert by (by eapply lookup_lt_Some). by eexists.
    - rewrite list_lookup_insert_ne by done. eauto. }
  destruct HNt3 as (N3 & HN3 & Hid3 & Hin3).
  unfold append_inward. rewrite sbind_assoc.
  rewrite (sread_Ok _ _ _ i).
  2:{ apply Hid; [done| |eauto]. subst h3. simpl.
      rewrite list_lookup_insert by (by eapply lookup_lt_Some). by eexists. }
  erewrite sbind_step by (by apply (upd_n_run h3 t N3)).
  unfold sret. f_equal. apply heap_eq; simpl; try done.
  rewrite Hin3, !dset_fresh by done.
  rewrite (insert_alter (h_nodes h) s Ns (λ N, N <| n_out := n_out Ns ++ [(i, length (h_edges h))] |>)) by done.
  unfold with_entry. apply list_eq. intros r.
  assert (HN3' : alter (λ N, N <| n_out := n_out Ns ++ [(i, length (h_edges h))] |>) s (h_nodes h) !! t = Some N3).
  { rewrite <-(insert_alter (h_nodes h) s Ns) by done. revert HN3. subst h3. simpl. by rewrite dset_fresh. }
  rewrite (insert_alter _ t N3 (λ N, N <| n_in := n_in Nt ++ [(i, length (h_edges h))] |>)) by done.
  rewrite !lookup_alter_fmap. destruct (decide (t = r)) as [->|].
  - rewrite HNt. simpl. f_equal. rewrite lookup_alter_fmap, HNt in HN3'. simpl in HN3'.
    destruct (decide (s = r)) as [->|]; simpl; [|by destruct Nt]. simplify_eq. by destruct Ns.
  - destruct (h_nodes h !! r) as [N|] eqn:HN; [|done]. simpl.
    destruct (decide (s = r)) as [->|]; [|done]. by simplify_eq.
Qed.

Lemma WF_edge_ctor h g s t Ns Nt a : WF h → esarg_ok h (c_style a) →
  h_nodes h !! s = Some Ns → h_nodes h !! t = Some Nt → n_graph Ns = Some g → n_graph Nt = Some g →
  (n_id Ns, n_id Nt, RId (c_id a)) ∉ dkeys (n_out Ns) →
  (n_id Ns, n_id Nt, RId (c_id a)) ∉ dkeys (n_in Nt) → WF (edge_ctor g s t a h).1.
Proof.
  intros W Hok HNs HNt Hgs Hgt Ho Hi.
  destruct (edge_ctor_run h g s t Ns Nt a) as (l & ost & Hres & ->); [done..|].
  destruct ost as [st|x]; [|done]. simpl.
  eapply (WF_add_edge h _ g s t Ns Nt (c_id a) (new_edge g s t a st)); try done; simpl.
  - intros k ->. destruct (resolve_estyle_run (c_style a) h) as (l' & ro' & Hr' & Hlt & _).
    rewrite Hres in Hr'. injection Hr' as Hh <-.
    assert (l = l') as <- by (destruct h; unfold set in Hh; simpl in Hh; simplify_eq; done).
    by apply Hlt.
  - intros r. by rewrite with_entry_lookup.
  - apply app_length_le.
Qed.

(** * get_node *)
Lemma get_node_Ok h g x r : WF h → get_node h g x = Ok r →
  ∃ G N, h_graphs h !! g = Some G ∧ h_nodes h !! r = Some N ∧ n_graph N = Some g ∧ (n_id N, r) ∈ g_nodes G.
Proof.
  intros W. unfold get_node. intros (G & HG & Hr)%rbind_Ok. apply get_g_inv in HG.
  assert (∃ k, dget (g_nodes G) k = Some r) as (k & Hk).
  { destruct x as [n|r'|]; [| |done].
    - exists n. by apply dgetR_Ok.
    - apply rbind_Ok in Hr as (N & ? & ?). exists (n_id N). by apply dgetR_Ok. }
  apply dget_Some_in in Hk. destruct (wf_gnodes _ W g G k r) as (N & HN & <- & ?); [done..|]. by exists G, N.
Qed.
Lemma get_node_name_Ok h g G r N : WF h → h_graphs h !! g = Some G → h_nodes h !! r = Some N → n_graph N = Some g →
  get_node h g (AName (n_id N)) = Ok r.
Proof.
  intros W HG HN HgN. destruct (wf_ngraph _ W r N g) as (G' & HG' & Hin); [done..|]. simplify_eq.
  unfold get_node. rewrite (get_g_Ok _ _ _ HG). simpl. apply dgetR_Ok, dget_in_Some; [|done]. by eapply wf_gkeys.
Qed.
Lemma get_node_node_Ok h g r N : WF h → h_nodes h !! r = Some N → n_graph N = Some g →
  get_node h g (ANode r) = Ok r.
Proof.
  intros W HN HgN. destruct (wf_ngraph _ W r N g) as (G & HG & Hin); [done..|].
  unfold get_node. rewrite (get_g_Ok _ _ _ HG), (get_n_Ok _ _ _ HN). simpl.
  apply dgetR_Ok, dget_in_Some; [|done]. by eapply wf_gkeys.
Qed.

(** * connect *)

(** node names are unique in a graph *)
Lemma WF_name_inj h g r r' N N' : WF h → h_nodes h !! r = Some N → h_nodes h !! r' = Some N' →
  n_graph N = Some g → n_graph N' = Some g → n_id N = n_id N' → r = r'.
Proof.
  intros W HN HN' Hg Hg' Hid.
  destruct (wf_ngraph _ W r N g HN Hg) as (G & HG & Hi1).
  destruct (wf_ngraph _ W r' N' g HN' Hg') as (G' & HG' & Hi2).
  assert (G' = G) as -> by congruence. rewrite Hid in Hi1.
  eapply dict_functional; [by eapply wf_gkeys|exact Hi1|exact Hi2].
Qed.

Lemma WF_out_entry h r N k e : WF h → h_nodes h !! r = Some N → (k, e) ∈ n_out N →
  ∃ g E t Nt u, h_edges h !! e = Some E ∧ e_graph E = Some g ∧ e_start E = Some r ∧ e_end E = Some t ∧
    e_raw E = RId u ∧ h_nodes h !! t = Some Nt ∧ n_graph N = Some g ∧ n_graph Nt = Some g ∧
    k = (n_id N, n_id Nt, RId u) ∧ (k, e) ∈ n_in Nt.
Proof.
  intros W HN Hin.
  destruct (wf_out _ W r N k e HN Hin) as (g & E & t & Nt & HE & Hs & Ht & HNt & -> & Hg).
  destruct (wf_live _ W e E g HE Hg) as (s' & t' & Ns' & Nt' & u & ? & ? & ? & ? & ? & ? & Hu & ? & ?).
  simplify_eq. rewrite Hu in *. by eexists g, E, t, Nt, u.
Qed.
Lemma WF_in_entry h r N k e : WF h → h_nodes h !! r = Some N → (k, e) ∈ n_in N →
  ∃ g E s Ns u, h_edges h !! e = Some E ∧ e_graph E = Some g ∧ e_start E = Some s ∧ e_end E = Some r ∧
    e_raw E = RId u ∧ h_nodes h !! s = Some Ns ∧ n_graph N = Some g ∧ n_graph Ns = Some g ∧
    k = (n_id Ns, n_id N, RId u) ∧ (k, e) ∈ n_out Ns.
Proof.
  intros W HN Hin.
  destruct (wf_in _ W r N k e HN Hin) as (g & E & t & Nt & HE & Hs & Ht & HNt & -> & Hg).
  destruct (wf_live _ W e E g HE Hg) as (s' & t' & Ns' & Nt' & u & ? & ? & ? & ? & ? & ? & Hu & ? & ?).
  simplify_eq. rewrite Hu in *. by eexists g, E, t, Nt, u.
Qed.

(** both dicts agree on the presence of an id *)
Lemma WF_mirror h s t Ns Nt u e : WF h → h_nodes h !! s = Some Ns → h_nodes h !! t = Some Nt →
  n_graph Ns = n_graph Nt → is_Some (n_graph Ns) →
  ((n_id Ns, n_id Nt, u), e) ∈ n_out Ns ↔ ((n_id Ns, n_id Nt, u), e) ∈ n_in Nt.
Proof.
  intros W HNs HNt Hg [g Hgs]. assert (Hgt : n_graph Nt = Some g) by congruence. split; intros Hin.
  - destruct (WF_out_entry h s Ns _ e W HNs Hin) as (g' & E & t' & Nt' & u' & HE & _ & _ & _ & _ & HNt' & Hgs' & Hgt' & Hk & Hin').
    injection Hk as Hid ->. assert (g' = g) as -> by congruence.
    assert (t' = t) as -> by (by eapply (WF_name_inj h g t' t Nt' Nt)).
    assert (Nt' = Nt) as -> by congruence. exact Hin'.
  - destruct (WF_in_entry h t Nt _ e W HNt Hin) as (g' & E & s' & Ns' & u' & HE & _ & _ & _ & _ & HNs' & Hgt' & Hgs' & Hk & Hin').
    injection Hk as Hid ->. assert (g' = g) as -> by congruence.
    assert (s' = s) as -> by (by eapply (WF_name_inj h g s' s Ns' Ns)).
    assert (Ns' = Ns) as -> by congruence. exact Hin'.
Qed.

Lemma WF_mirror_keys h s t Ns Nt u : WF h → h_nodes h !! s = Some Ns → h_nodes h !! t = Some Nt →
  n_graph Ns = n_graph Nt → is_Some (n_graph Ns) →
  (n_id Ns, n_id Nt, u) ∈ dkeys (n_out Ns) ↔ (n_id Ns, n_id Nt, u) ∈ dkeys (n_in Nt).
Proof.
  intros. rewrite !elem_of_dkeys. split; intros [e He]; exists e; by apply (WF_mirror h s t).
Qed.

Lemma connect_run h g x y a s t Ns Nt : WF h → get_node h g x = Ok s → get_node h g y = Ok t →
  h_nodes h !! s = Some Ns → h_nodes h !! t = Some Nt →
  let i := (n_id Ns, n_id Nt, RId (c_id a)) in
  connect g x y a h =
  match dget (n_out Ns) i with
  | None => edge_ctor g s t a h
  | Some e => if decide (ok_mode (c_mode a))
              then set_edge e a (h <| h_warns := h_warns h ++ mode_warns (c_mode a) (WEdge i) |>)
              else (h, Err ValueError)
  end.
Proof.
  intros W Hs Ht HNs HNt i.
  destruct (get_node_Ok h g x s) as (G & N & HG & HN & Hgs & _); [done..|]. simplify_eq.
  destruct (get_node_Ok h g y t) as (G' & N & HG' & HN & Hgt & _); [done..|]. simplify_eq.
  unfold connect. rewrite (sread_Ok _ _ _ s), (sread_Ok _ _ _ t) by done.
  rewrite (sread_Ok _ _ _ Ns), (sread_Ok _ _ _ Nt) by (by apply get_n_Ok). fold i.
  pose proof (WF_mirror_keys h s t Ns Nt (RId (c_id a))) as Hm. fold i in Hm.
  unfold dmem at 1. destruct (dget (n_out Ns) i) as [e|] eqn:He.
  - assert (dmem (n_in Nt) i = true) as ->.
    { apply dmem_true, Hm; [done|done|done|congruence|by eexists|]. apply dget_is_Some. by eexists. }
    unfold sbind at 1. rewrite mode_run. destruct (decide (ok_mode (c_mode a))); [|done].
    rewrite (sread_Ok _ _ _ e) by (by apply dgetR_Ok). done.
  - assert (dmem (n_in Nt) i = false) as ->; [|done].
    apply dmem_false. rewrite <-Hm; [by apply dget_None|done|done|done|congruence|by eexists].
Qed.

Lemma connect_fail h g x y a x' :
  get_node h g x = Err x' ∨ (∃ s, get_node h g x = Ok s ∧ get_node h g y = Err x') →
  connect g x y a h = (h, Err x').
Proof.
  intros [Hx|(s & Hs & Hy)]; unfold connect; [by rewrite (sread_Err _ _ _ _ Hx)|].
  rewrite (sread_Ok _ _ _ _ Hs). by rewrite (sread_Err _ _ _ _ Hy).
Qed.

Lemma WF_connect h g x y a : WF h → esarg_ok h (c_style a) → WF (connect g x y a h).1.
Proof.
  intros W Hok. destruct (get_node h g x) as [s|e] eqn:Hs; [|erewrite connect_fail; eauto].
  destruct (get_node h g y) as [t|e] eqn:Ht; [|erewrite connect_fail; eauto].
  destruct (get_node_Ok h g x s) as (G & Ns & HG & HNs & Hgs & _); [done..|].
  destruct (get_node_Ok h g y t) as (G' & Nt & HG' & HNt & Hgt & _); [done..|].
  rewrite (connect_run h g x y a s t Ns Nt) by done. cbv zeta.
  destruct (dget _ _) as [e|] eqn:He.
  - destruct (decide (ok_mode (c_mode a))); [|done]. set (h1 := h <| h_warns := _ |>).
    assert (D1 : data_only h h1) by (by apply data_only_same).
    destruct (set_edge_data_only h1 e a) as [D|Hn]; [done| |].
    + eapply WF_data_only; [done|]. by eapply data_only_trans.
    + apply dget_Some_in in He. destruct (wf_out _ W s Ns _ _ HNs He) as (? & E & ? & ? & HE & _).
      change (h_edges h1 !! e) with (h_edges h !! e) in Hn. congruence.
  - apply dget_None in He. eapply (WF_edge_ctor h g s t Ns Nt); try done.
    rewrite <-(WF_mirror_keys h s t); [done|done|done|done|congruence|by eexists].
Qed.
