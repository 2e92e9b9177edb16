(** Frozen values, failing calls, styles, strictness, re-adding: C39, C40, C41, C51, C52. *)
From Verif Require Export ProofEvo ProofC1 ProofC2.
From Verif Require Import Samples.
Local Open Scope string_scope.
Local Open Scope list_scope.

(** C39.  A frozen node keeps its value and stays frozen as long as it is not
    unfrozen itself, whatever else happens. *)
Lemma C39_node_history_proof : ∀ h h' r N, reachable h → h_nodes h !! r = Some N → n_frozen N = true →
  history (λ c, c ≠ CNodeFrozen r false) h h' →
  ∃ N', h_nodes h' !! r = Some N' ∧ n_frozen N' = true ∧ n_value N' = n_value N.
Proof.
  intros h h' r N W%reachable_WF HN Hf Hh.
  assert (evo (λ x, x = inl r) false h h') as He.
  { eapply evo_history; [done| |done]. intros c t Hc Ht. split; [|done]. intros x -> ->. by simpl in Ht. }
  destruct (ev_node _ _ _ _ He r N HN) as (N' & HN' & Hk). exists N'. split; [done|]. by apply Hk.
Qed.
(** C39.  The same for edges. *)
Lemma C39_edge_history_proof : ∀ h h' e E, reachable h → h_edges h !! e = Some E → e_frozen E = true →
  history (λ c, c ≠ CEdgeFrozen e false) h h' →
  ∃ E', h_edges h' !! e = Some E' ∧ e_frozen E' = true ∧ e_value E' = e_value E.
Proof.
  intros h h' r N W%reachable_WF HN Hf Hh.
  assert (evo (λ x, x = inr r) false h h') as He.
  { eapply evo_history; [done| |done]. intros c t Hc Ht. split; [|done]. intros x -> ->. by simpl in Ht. }
  destruct (ev_edge _ _ _ _ He r N HN) as (N' & HN' & Hk). exists N'. split; [done|]. by apply Hk.
Qed.
(** C39.  Assigning the value of a frozen object raises RuntimeError and changes
    nothing; add_node and connect that pass a value for it raise. *)
Lemma C39_raise_proof : ∀ h g, reachable h →
  (∀ r N v, h_nodes h !! r = Some N → n_frozen N = true → node_set_value r v h = (h, Err RuntimeError)) ∧
  (∀ e E v, h_edges h !! e = Some E → e_frozen E = true → edge_set_value e v h = (h, Err RuntimeError)) ∧
  (∀ s r N a, named h g (NStr s) r → h_nodes h !! r = Some N → n_frozen N = true → a_value a ≠ PNone →
     ∃ x, (add_node g (AName (NStr s)) a h).2 = Err x) ∧
  (∀ x y s t e E a, denotes h g x s → denotes h g y t → joins h g e s t → h_edges h !! e = Some E →
     e_raw E = RId (c_id a) → e_frozen E = true → c_value a ≠ PNone → ∃ z, (connect g x y a h).2 = Err z).
Proof.
  intros h g Hr. pose proof (reachable_WF _ Hr) as W. split_and!.
  - intros r N v HN Hf. unfold node_set_value. rewrite (sread_Ok _ _ _ N) by (by apply get_n_Ok). by rewrite Hf.
  - intros r N v HN Hf. unfold edge_set_value. rewrite (sread_Ok _ _ _ N) by (by apply get_e_Ok). by rewrite Hf.
  - intros s r N a Hn HN Hf Hv. rewrite (C03_add_node_existing_proof h g s a r N) by done.
    destruct (lenient _); [|by eexists]. unfold node_updated. destruct (optional_style _ _ _ _ _ _) as [[st l]|x]; [|by eexists].
    assert (eqb (a_value a) PNone = false) as -> by (by apply eqb_false). rewrite Hf. by eexists.
  - intros x y s t e E a Hx Hy Hj HE Hu Hf Hv.
    destruct (proj1 (in_graph_node h g s W) (denotes_in_graph h g x s Hx)) as (Ns & HNs & _).
    destruct (proj1 (in_graph_node h g t W) (denotes_in_graph h g y t Hy)) as (Nt & HNt & _).
    rewrite (C06_connect_existing_proof h g x y a s t Ns Nt e E) by done.
    destruct (lenient _); [|by eexists]. unfold edge_updated. destruct (optional_style _ _ _ _ _ _) as [[st l]|z]; [|by eexists].
    assert (eqb (c_value a) PNone = false) as -> by (by apply eqb_false). rewrite Hf. by eexists.
Qed.
Definition frozen_calls : list call := [CNodeValue 1 (PInt 5); CNodeFrozen 1 true].
Definition thaw_calls : list call :=
  [CNodeFrozen 0 false; CNodeValue 1 (PInt 6); CAddNode 0 (an "b") (nargs0 <| a_value := PInt 7 |>); CCopy 0; CRemoveNode 0 (an "b")].
(** Freeze b with value 5; then unfreeze another node, try to overwrite the value of
    b, copy the graph: b still has the value 5. *)
Lemma C39_node_history_ex_proof : let h := run frozen_calls sample in let h' := run thaw_calls h in
  reachable h ∧ history (λ c, c ≠ CNodeFrozen 1 false) h h' ∧
  (∃ N, h_nodes h !! 1 = Some N ∧ n_frozen N = true ∧ n_value N = PInt 5) ∧
  (∃ N', h_nodes h' !! 1 = Some N' ∧ n_value N' = PInt 5 ∧ n_graph N' = None).
Proof.
  intros h h'. split_and!; [..|eexists; by vm_compute|eexists; by vm_compute].
  - apply run_reachable; [apply sample_reachable|by repeat split].
  - apply run_history; [constructor|vm_compute; repeat (split; [by repeat split|]); done|by repeat constructor].
Qed.

(** C40.  False: on a frozen node, add_node(name, label, value) raises after having
    changed the label. *)
Lemma C40_atomic_refuted_proof : ∃ h g x a h', reachable h ∧ add_node g x a h = (h', Err RuntimeError) ∧ h_nodes h' ≠ h_nodes h.
Proof.
  exists (run [CNodeFrozen 1 true] sample), 0, (an "b"), (nargs0 <| a_label := PStr "new" |> <| a_value := PInt 1 |>).
  eexists. split; [apply run_reachable; [apply sample_reachable|by repeat split]|]. split; [by vm_compute|]. by vm_compute.
Qed.
(** C40.  False: add_node with a fresh name and an invalid style raises after having
    used up an index. *)
Lemma C40_index_refuted_proof : ∃ h g x a h', reachable h ∧ add_node g x a h = (h', Err TypeError) ∧ h_graphs h' ≠ h_graphs h.
Proof.
  exists sample, 0, (an "new"), (nargs0 <| a_style := SOther |>).
  eexists. split; [apply sample_reachable|]. split; [by vm_compute|]. by vm_compute.
Qed.
(** C40.  False for connect too. *)
Lemma C40_connect_refuted_proof : ∃ h g x y a h', reachable h ∧ connect g x y a h = (h', Err RuntimeError) ∧ h_edges h' ≠ h_edges h.
Proof.
  exists (run [CEdgeFrozen 0 true] sample), 0, (an "a"), (an "b"), (eargs0 <| c_label := PStr "new" |> <| c_value := PInt 1 |>).
  eexists. split; [apply run_reachable; [apply sample_reachable|by repeat split]|]. split; [by vm_compute|]. by vm_compute.
Qed.

Lemma put_node_warns h r N w : h_nodes h !! r = Some N → put_node h r N [] w = h <| h_warns := h_warns h ++ w |>.
Proof. intros HN. apply heap_eq; simpl; rewrite ?app_nil_r; try done. by apply list_insert_id. Qed.
Lemma put_edge_warns h r N w : h_edges h !! r = Some N → put_edge h r N [] w = h <| h_warns := h_warns h ++ w |>.
Proof. intros HN. apply heap_eq; simpl; rewrite ?app_nil_r; try done. by apply list_insert_id. Qed.
Lemma heap_warns_nil h : h = h <| h_warns := h_warns h ++ [] |>.
Proof. destruct h. unfold set. simpl. by rewrite app_nil_r. Qed.
Lemma add_node_object h g r a : WF h → (∀ N, h_nodes h !! r = Some N → n_graph N ≠ None) →
  (add_node g (ANode r) a h).1 = h.
Proof.
  intros W Hr. unfold add_node, sbind, sread, get_n, get_g. destruct (h_nodes h !! r) as [N|]; [|done].
  simpl. destruct (h_graphs h !! g) as [G|]; [|done]. simpl. destruct (dget (g_nodes G) (n_id N)) as [r'|].
  - by destruct (_ && _).
  - specialize (Hr N eq_refl). by destruct (n_graph N).
Qed.

(** C40, exact.  What a raising add_node may leave behind: nothing but warnings; or,
    when a value was passed for a frozen node, the style and label; or, when the
    style of a fresh name was rejected, an incremented index counter. *)
Lemma C40_add_node_exact_partial_proof : ∀ h g x a h' ex, reachable h → allowed h (CAddNode g x a) → add_node g x a h = (h', Err ex) →
  (∃ w, h' = h <| h_warns := h_warns h ++ w |>) ∨
  (∃ s r N st l w, x = AName (NStr s) ∧ named h g (NStr s) r ∧ h_nodes h !! r = Some N ∧
     n_frozen N = true ∧ a_value a ≠ PNone ∧ ex = RuntimeError ∧
     optional_style nstyle_ctor h (length (h_ns h)) (n_style N) (n_graph N) (a_style a) = Ok (st, l) ∧
     h' = put_node h r (N <| n_style := st |> <| n_label := keep_or (a_label a) (n_label N) |>) l w) ∨
  (∃ s G, x = AName (NStr s) ∧ h_graphs h !! g = Some G ∧ NStr s ∉ (g_nodes G).*1 ∧
     restyled nstyle_ctor (length (h_ns h)) None (a_style a) = Err ex ∧
     h' = h <| h_graphs := <[g := G <| g_counter := (g_counter G + 1)%Z |>]> (h_graphs h) |>).
Proof.
  intros h g x a h' ex Hr [_ Hal] Hrun. pose proof (reachable_WF _ Hr) as W. destruct x as [[s|z]|r|].
  - destruct (h_graphs h !! g) as [G|] eqn:HG.
    + destruct (decide (NStr s ∈ (g_nodes G).*1)) as [Hin|Hin].
      * apply elem_of_list_fmap in Hin as ([k r] & Hk & Hin). simpl in Hk. subst k.
        destruct (wf_gnodes _ W g G _ r HG Hin) as (N & HN & _).
        rewrite (C03_add_node_existing_proof h g s a r N) in Hrun; [|done|by exists G|done].
        destruct (lenient _).
        -- unfold node_updated in Hrun. destruct (optional_style _ _ _ _ _ _) as [[st l]|y] eqn:Hst.
           ++ destruct (n_frozen N) eqn:Hf; [|done]. destruct (eqb (a_value a) PNone) eqn:Hv; [done|].
              simpl in Hrun. injection Hrun as <- <-. right. left. exists s, r, N, st, l. eexists.
              split_and!; [done|by exists G|done|done| |done|done|done]. by apply eqb_isnt in Hv.
           ++ injection Hrun as <- <-. left. eexists. by apply put_node_warns.
        -- injection Hrun as <- <-. left. exists []. apply heap_warns_nil.
      * rewrite (C02_add_node_fresh_proof h g G s a) in Hrun by done.
        destruct (restyled _ _ _ _) as [[st l]|y] eqn:Hst; [done|]. injection Hrun as <- <-.
        right. right. exists s, G. done.
    + unfold add_node, sbind, sread, get_g in Hrun. rewrite HG in Hrun. simpl in Hrun. injection Hrun as <- <-.
      left. exists []. apply heap_warns_nil.
  - injection Hrun as <- <-. left. exists []. apply heap_warns_nil.
  - left. exists []. rewrite <-heap_warns_nil. assert ((add_node g (ANode r) a h).1 = h) as E; [|by rewrite Hrun in E].
    apply add_node_object; [done|]. intros N HN. by eapply Hal.
  - injection Hrun as <- <-. left. exists []. apply heap_warns_nil.
Qed.
(** C40, exact, for connect. *)
Lemma C40_connect_exact_partial_proof : ∀ h g x y a h' ex, reachable h → connect g x y a h = (h', Err ex) →
  (∃ w, h' = h <| h_warns := h_warns h ++ w |>) ∨
  (∃ s t e E st l w, denotes h g x s ∧ denotes h g y t ∧ joins h g e s t ∧ h_edges h !! e = Some E ∧ e_raw E = RId (c_id a) ∧
     e_frozen E = true ∧ c_value a ≠ PNone ∧ ex = RuntimeError ∧
     optional_style estyle_ctor h (length (h_es h)) (e_style E) (e_graph E) (c_style a) = Ok (st, l) ∧
     h' = put_edge h e (E <| e_style := st |> <| e_label := keep_or (c_label a) (e_label E) |>) l w).
Proof.
  intros h g x y a h' ex Hr Hrun. pose proof (reachable_WF _ Hr) as W.
  destruct (get_node h g x) as [s|z] eqn:Hx.
  2: { unfold connect, sbind, sread in Hrun. rewrite Hx in Hrun. injection Hrun as <- <-. left. exists []. apply heap_warns_nil. }
  destruct (get_node h g y) as [t|z] eqn:Hy.
  2: { unfold connect, sbind, sread in Hrun. rewrite Hx, Hy in Hrun. injection Hrun as <- <-. left. exists []. apply heap_warns_nil. }
  destruct (get_node_Ok h g x s W Hx) as (G & Ns & HG & HNs & Hgs & _).
  destruct (get_node_Ok h g y t W Hy) as (G' & Nt & _ & HNt & Hgt & _).
  rewrite (connect_eq h g x y a s t Ns Nt) in Hrun by done. simpl in Hrun.
  destruct (dget (n_out Ns) _) as [e|] eqn:He.
  - apply (out_entry_joins h g s t e) in He as [Hj Hu]; [|done..].
    destruct (h_edges h !! e) as [E|] eqn:HE; [|done]. injection Hu as Hu. destruct (lenient _).
    + unfold edge_updated in Hrun. destruct (optional_style _ _ _ _ _ _) as [[st l]|z] eqn:Hst.
      * destruct (e_frozen E) eqn:Hf; [|done]. destruct (eqb (c_value a) PNone) eqn:Hv; [done|].
        simpl in Hrun. injection Hrun as <- <-. right. exists s, t, e, E, st, l. eexists.
        split_and!; [by apply get_node_denotes|by apply get_node_denotes|done|done|done|done| |done|done|done]. by apply eqb_isnt in Hv.
      * injection Hrun as <- <-. left. eexists. by apply put_edge_warns.
    + injection Hrun as <- <-. left. exists []. apply heap_warns_nil.
  - destruct (restyled _ _ _ _) as [[st l]|z]; [done|]. injection Hrun as <- <-. left. exists []. apply heap_warns_nil.
Qed.
(** C40.  Hence raising calls that pass no style and not both a label and a value
    leave every object as it was. *)
Lemma C40_plain_partial_proof : ∀ h, reachable h →
  (∀ g x a h' ex, allowed h (CAddNode g x a) → a_style a = SNone → a_label a = PNone ∨ a_value a = PNone →
     add_node g x a h = (h', Err ex) → ∃ w, h' = h <| h_warns := h_warns h ++ w |>) ∧
  (∀ g x y a h' ex, c_style a = SNone → c_label a = PNone ∨ c_value a = PNone →
     connect g x y a h = (h', Err ex) → ∃ w, h' = h <| h_warns := h_warns h ++ w |>).
Proof.
  intros h Hr. split.
  - intros g x a h' ex Hal Hst Hlv Hrun.
    destruct (C40_add_node_exact_partial_proof h g x a h' ex) as [?|[(s & r & N & st & l & w & _ & _ & HN & _ & Hv & _ & Ho & ->)|(s & G & _ & _ & _ & Ho & _)]]; [done..| |].
    + rewrite Hst in Ho. simpl in Ho. injection Ho as <- <-. destruct Hlv as [Hlv|]; [|done]. rewrite Hlv. simpl.
      exists w. assert (N <| n_style := n_style N |> <| n_label := n_label N |> = N) as -> by by destruct N. by apply put_node_warns.
    + by rewrite Hst in Ho.
  - intros g x y a h' ex Hst Hlv Hrun.
    destruct (C40_connect_exact_partial_proof h g x y a h' ex) as [?|(s & t & e & E & st & l & w & _ & _ & _ & HE & _ & _ & Hv & _ & Ho & ->)]; [done..|].
    rewrite Hst in Ho. simpl in Ho. injection Ho as <- <-. destruct Hlv as [Hlv|]; [|done]. rewrite Hlv. simpl.
    exists w. assert (E <| e_style := e_style E |> <| e_label := e_label E |> = E) as -> by by destruct E. by apply put_edge_warns.
Qed.
(** A raising add_node that passes only a value for the frozen node b. *)
Lemma C40_plain_ex_proof : let h := run [CNodeFrozen 1 true] sample in let a := nargs0 <| a_value := PInt 1 |> in
  reachable h ∧ allowed h (CAddNode 0 (an "b") a) ∧
  (add_node 0 (an "b") a h).2 = Err RuntimeError ∧ h_nodes (add_node 0 (an "b") a h).1 = h_nodes h.
Proof. intros h a. split; [apply run_reachable; [apply sample_reachable|by repeat split]|]. split; [by vm_compute|]. by vm_compute. Qed.

(** C41.  On a graph that does not allow overwriting, a style once given to a node
    stays, whatever happens. *)
Lemma C41_node_history_proof : ∀ h h' g r N s G, reachable h → h_nodes h !! r = Some N → n_graph N = Some g →
  h_graphs h !! g = Some G → d_overwrite <$> g_disp G ≠ Some true → n_style N = Some s →
  history (λ _, True) h h' → ∃ N', h_nodes h' !! r = Some N' ∧ n_style N' = Some s.
Proof.
  intros h h' g r N s G W%reachable_WF HN Hg HG Hd Hs Hh.
  assert (evo (λ _, False) false h h') as He.
  { eapply evo_history; [done| |done]. intros c t _ _. split; [by intros ? _ []|done]. }
  destruct (ev_node _ _ _ _ He r N HN) as (N' & HN' & Hk). exists N'. split; [done|]. apply Hk; [done|].
  intros g' G' Hg' HG'. assert (g' = g) as -> by congruence. congruence.
Qed.
(** C41.  The same for edges. *)
Lemma C41_edge_history_proof : ∀ h h' g e E s G, reachable h → h_edges h !! e = Some E → e_graph E = Some g →
  h_graphs h !! g = Some G → d_overwrite <$> g_disp G ≠ Some true → e_style E = Some s →
  history (λ _, True) h h' → ∃ E', h_edges h' !! e = Some E' ∧ e_style E' = Some s.
Proof.
  intros h h' g r N s G W%reachable_WF HN Hg HG Hd Hs Hh.
  assert (evo (λ _, False) false h h') as He.
  { eapply evo_history; [done| |done]. intros c t _ _. split; [by intros ? _ []|done]. }
  destruct (ev_edge _ _ _ _ He r N HN) as (N' & HN' & Hk). exists N'. split; [done|]. apply Hk; [done|].
  intros g' G' Hg' HG'. assert (g' = g) as -> by congruence. congruence.
Qed.
(** C41.  Such an assignment raises RuntimeError and changes nothing but warnings:
    the setters, add_node and connect. *)
Lemma C41_raise_proof : ∀ h g G d, reachable h → h_graphs h !! g = Some G → g_disp G = Some d → d_overwrite d = false →
  (∀ r N s a, h_nodes h !! r = Some N → n_graph N = Some g → n_style N = Some s →
     node_set_style r a h = (h, Err RuntimeError)) ∧
  (∀ e E s a, h_edges h !! e = Some E → e_graph E = Some g → e_style E = Some s →
     edge_set_style e a h = (h, Err RuntimeError)) ∧
  (∀ k r N s a, named h g (NStr k) r → h_nodes h !! r = Some N → n_style N = Some s → a_style a ≠ SNone →
     lenient (a_mode a) = true → ∃ w, add_node g (AName (NStr k)) a h = (h <| h_warns := h_warns h ++ w |>, Err RuntimeError)) ∧
  (∀ x y p q e E s a, denotes h g x p → denotes h g y q → joins h g e p q → h_edges h !! e = Some E →
     e_raw E = RId (c_id a) → e_style E = Some s → c_style a ≠ SNone →
     lenient (c_mode a) = true → ∃ w, connect g x y a h = (h <| h_warns := h_warns h ++ w |>, Err RuntimeError)).
Proof.
  intros h g G d Hr HG Hd Ho. pose proof (reachable_WF _ Hr) as W.
  assert (Hm : ∀ s, may_restyle h (Some s) (Some g) = Err RuntimeError) by (intros s; simpl; by rewrite HG, Hd, Ho).
  split_and!.
  - intros r N s a HN Hg Hs. rewrite (node_set_style_eq h r N) by done. by rewrite Hs, Hg, Hm.
  - intros r N s a HN Hg Hs. rewrite (edge_set_style_eq h r N) by done. by rewrite Hs, Hg, Hm.
  - intros k r N s a Hn HN Hs Ha Hl. rewrite (C03_add_node_existing_proof h g k a r N) by done. rewrite Hl. unfold node_updated.
    assert (n_graph N = Some g) as Hg by (destruct Hn as (G1 & HG1 & Hin); destruct (wf_gnodes _ W g G1 _ r HG1 Hin) as (? & ? & ? & ?); congruence).
    assert (optional_style nstyle_ctor h (length (h_ns h)) (n_style N) (n_graph N) (a_style a) = Err RuntimeError) as ->.
    { unfold optional_style. rewrite Hs, Hg, Hm. by destruct (a_style a). }
    eexists. f_equal. by apply put_node_warns.
  - intros x y p q e E s a Hx Hy Hj HE Hu Hs Ha Hl.
    destruct (proj1 (in_graph_node h g p W) (denotes_in_graph h g x p Hx)) as (Ns & HNs & _).
    destruct (proj1 (in_graph_node h g q W) (denotes_in_graph h g y q Hy)) as (Nt & HNt & _).
    rewrite (C06_connect_existing_proof h g x y a p q Ns Nt e E) by done. rewrite Hl. unfold edge_updated.
    assert (e_graph E = Some g) as Hg by (destruct Hj as (? & ? & ? & _); congruence).
    assert (optional_style estyle_ctor h (length (h_es h)) (e_style E) (e_graph E) (c_style a) = Err RuntimeError) as ->.
    { unfold optional_style. rewrite Hs, Hg, Hm. by destruct (c_style a). }
    eexists. f_equal. by apply put_edge_warns.
Qed.
(** C41.  With style_overwrite_allowed=True, or when there was no style, an accepted
    assignment takes effect: the given style object, or a new one built from the
    given dict. *)
Lemma C41_replace_proof : ∀ h g G d, reachable h → h_graphs h !! g = Some G → g_disp G = Some d →
  (∀ r N s, h_nodes h !! r = Some N → n_graph N = Some g → d_overwrite d = true ∨ n_style N = None →
     node_set_style r (SObj s) h = (put_node h r (N <| n_style := Some s |>) [] [], Ok tt) ∧
     (∀ dc sty, nstyle_ctor dc = Ok sty →
        node_set_style r (SDict dc) h = (put_node h r (N <| n_style := Some (length (h_ns h)) |>) [sty] [], Ok tt))) ∧
  (∀ e E s, h_edges h !! e = Some E → e_graph E = Some g → d_overwrite d = true ∨ e_style E = None →
     edge_set_style e (SObj s) h = (put_edge h e (E <| e_style := Some s |>) [] [], Ok tt) ∧
     (∀ dc sty, estyle_ctor dc = Ok sty →
        edge_set_style e (SDict dc) h = (put_edge h e (E <| e_style := Some (length (h_es h)) |>) [sty] [], Ok tt))).
Proof.
  intros h g G d Hr HG Hd.
  assert (Hm : ∀ st, d_overwrite d = true ∨ st = None → may_restyle h st (Some g) = Ok tt).
  { intros [s|] [Ho|Ho]; try done. simpl. by rewrite HG, Hd, Ho. }
  split.
  - intros r N s HN Hg Ho. split; [|intros dc sty Hc]; rewrite (node_set_style_eq h r N) by done; rewrite Hg, Hm by done; simpl; [done|].
    by rewrite Hc.
  - intros r N s HN Hg Ho. split; [|intros dc sty Hc]; rewrite (edge_set_style_eq h r N) by done; rewrite Hg, Hm by done; simpl; [done|].
    by rewrite Hc.
Qed.
(** Node a of the sample gets a style; the second assignment is refused. *)
Lemma C41_node_history_ex_proof : let h := run [CNodeStyle 0 (SDict [])] sample in
  reachable h ∧ (∃ N G d, h_nodes h !! 0 = Some N ∧ n_graph N = Some 0 ∧ n_style N = Some 0 ∧
    h_graphs h !! 0 = Some G ∧ g_disp G = Some d ∧ d_overwrite d = false) ∧
  node_set_style 0 (SDict []) h = (h, Err RuntimeError).
Proof.
  intros h. split; [apply run_reachable; [apply sample_reachable|by repeat split]|]. split; [|by vm_compute].
  eexists _, _, _. by vm_compute.
Qed.

(** C51.  False: graph 1 of the sample was created with strict=True; a second edge
    with another id between a and z is accepted. *)
Lemma C51_strict_refuted_proof : ∃ h g G e1 e2 x y, reachable h ∧ h_graphs h !! g = Some G ∧ g_strict G = true ∧
  joins h g e1 x y ∧ joins h g e2 x y ∧ e1 ≠ e2.
Proof.
  exists (run [CConnect 1 (an "a") (an "z") (eargs0 <| c_id := Some (nm "x") |>)] sample), 1.
  eexists. exists 6, 7, 4, 5. split; [apply run_reachable; [apply sample_reachable|by repeat split]|].
  split; [by vm_compute|]. split; [done|]. split_and!; [eexists; by vm_compute..|done].
Qed.
(** C51.  The flag has no effect on connect at all: with any extra id not yet used
    between the two nodes, connect makes one more edge whatever the flag is.  What
    remains true is C06: no two edges with the same start, end and id. *)
Lemma C51_flag_ignored_partial_proof : ∀ h g x y s t u, reachable h → denotes h g x s → denotes h g y t →
  (∀ e E, h_edges h !! e = Some E → joins h g e s t → e_raw E ≠ RId u) →
  ∃ h', connect g x y (eargs0 <| c_id := u |>) h = (h', Ok (length (h_edges h))) ∧ joins h' g (length (h_edges h)) s t ∧
    (∀ e, joins h g e s t → joins h' g e s t).
Proof.
  intros h g x y s t u Hr Hx Hy Hno. pose proof (reachable_WF _ Hr) as W.
  destruct (proj1 (in_graph_node h g s W) (denotes_in_graph h g x s Hx)) as (Ns & HNs & _).
  destruct (proj1 (in_graph_node h g t W) (denotes_in_graph h g y t Hy)) as (Nt & HNt & _).
  rewrite (C05_connect_new_proof h g x y (eargs0 <| c_id := u |>) s t Ns Nt) by naive_solver. simpl.
  eexists. split; [done|]. split.
  - eexists. split; [simpl; by rewrite lookup_app_r, Nat.sub_diag by lia|done].
  - intros e (E & HE & H). exists E. split; [|done]. simpl. by apply lookup_app_l_Some.
Qed.

(** C52.  False: the node object is filed again, but it does not report the graph,
    and its queries fail. *)
Lemma C52_readd_refuted_proof : ∃ h g r h', reachable h ∧ in_graph h g r ∧ h' = (remove_node g (ANode r) h).1 ∧
  ∃ h'', add_node g (ANode r) nargs0 h' = (h'', Ok (Some r)) ∧ in_graph h'' g r ∧
    node_graph h'' r = Err AttributeError ∧ ¬ consistent h''.
Proof.
  exists sample, 0, 1. eexists. split; [apply sample_reachable|]. split; [eexists _, (nm "b"); split; [done|]; right; left|].
  split; [done|]. eexists. split; [by vm_compute|]. split; [eexists _, (nm "b"); split; [by vm_compute|]; do 3 right; left|].
  split; [by vm_compute|]. intros Hc. destruct (con_member _ Hc 0 (nm "b") 1) as (N & HN & _ & Hg).
  - eexists. split; [by vm_compute|]. do 3 right. left.
  - vm_compute in HN. injection HN as <-. done.
Qed.
(** C52, exact.  Adding a removed node object to a graph without its name: it is filed
    last, nothing else changes, and it goes on reporting no graph, so that every query
    that goes through node.graph fails. *)
Lemma C52_readd_exact_partial_proof : ∀ h g G r N a, reachable h → h_graphs h !! g = Some G → h_nodes h !! r = Some N →
  n_graph N = None → n_id N ∉ (g_nodes G).*1 →
  let h' := h <| h_graphs := <[g := G <| g_nodes := g_nodes G ++ [(n_id N, r)] |>]> (h_graphs h) |> in
  add_node g (ANode r) a h = (h', Ok (Some r)) ∧
  in_graph h' g r ∧ node_graph h' r = Err AttributeError ∧ node_descendants h' r = Err AttributeError ∧
  node_children h' r = Err AttributeError ∧ node_parents h' r = Err AttributeError ∧
  node_is_in_loop h' r = Err AttributeError ∧ (∀ x b, connect_to r x b h' = (h', Err AttributeError)).
Proof.
  intros h g G r N a Hr HG HN Hg Hk h'.
  assert (HN' : h_nodes h' !! r = Some N) by done.
  assert (Hng : node_graph h' r = Err AttributeError) by (unfold node_graph; rewrite (get_n_Ok _ _ _ HN'); simpl; by rewrite Hg).
  split_and!.
  - unfold add_node. rewrite (sread_Ok _ _ _ N) by (by apply get_n_Ok). rewrite (sread_Ok _ _ _ G) by (by apply get_g_Ok).
    rewrite (proj2 (dget_None (g_nodes G) (n_id N))) by done. rewrite Hg. unfold sbind. rewrite (upd_g_run _ _ G) by done.
    unfold sret. f_equal. unfold h'. by rewrite dset_fresh.
  - exists (G <| g_nodes := g_nodes G ++ [(n_id N, r)] |>), (n_id N). split.
    + simpl. by rewrite list_lookup_insert by (by eapply lookup_lt_Some).
    + simpl. apply elem_of_app. right. left.
  - done.
  - unfold node_descendants. by rewrite Hng.
  - unfold node_children. by rewrite Hng.
  - unfold node_parents. by rewrite Hng.
  - unfold node_is_in_loop. by rewrite Hng.
  - intros x b. unfold connect_to, sbind, sread. by rewrite Hng.
Qed.
(** C52.  add_node of a node object that is already in the graph changes nothing and
    always returns None. *)
Lemma C52_returns_none_partial_proof : ∀ h g r a, reachable h → in_graph h g r → add_node g (ANode r) a h = (h, Ok None).
Proof.
  intros h g r a W%reachable_WF Hr. destruct (proj1 (in_graph_node h g r W) Hr) as (N & HN & Hg).
  destruct (wf_ngraph _ W r N g HN Hg) as (G & HG & Hin).
  unfold add_node. rewrite (sread_Ok _ _ _ N) by (by apply get_n_Ok). rewrite (sread_Ok _ _ _ G) by (by apply get_g_Ok).
  rewrite (dget_in_Some (g_nodes G) (n_id N) r); [|by apply (wf_gkeys _ W g)|done]. by rewrite Hg, !eqb_same.
Qed.
(** C52.  False: add_node(node) does not return the node. *)
Lemma C52_returns_none_refuted_proof : ∃ h g r, reachable h ∧ in_graph h g r ∧ (add_node g (ANode r) nargs0 h).2 = Ok None.
Proof.
  exists sample, 0, 1. split; [apply sample_reachable|]. split; [|by vm_compute]. eexists _, (nm "b"). split; [done|]. right. left.
Qed.

(** C39, instance for edges: edge 0 with value 5 is frozen, then written to and
    removed; another edge is unfrozen. *)
Lemma C39_edge_history_ex_proof : let h := run [CEdgeValue 0 (PInt 5); CEdgeFrozen 0 true] sample in
  let h' := run [CEdgeFrozen 1 false; CEdgeValue 0 (PInt 6); CConnect 0 (an "a") (an "b") (eargs0 <| c_value := PInt 7 |>); CDisconnect 0] h in
  reachable h ∧ history (λ c, c ≠ CEdgeFrozen 0 false) h h' ∧
  (∃ E, h_edges h !! 0 = Some E ∧ e_frozen E = true ∧ e_value E = PInt 5) ∧
  (∃ E', h_edges h' !! 0 = Some E' ∧ e_value E' = PInt 5 ∧ e_graph E' = None).
Proof.
  intros h h'. split_and!; [..|eexists; by vm_compute|eexists; by vm_compute].
  - apply run_reachable; [apply sample_reachable|by repeat split].
  - apply run_history; [constructor|vm_compute; repeat (split; [by repeat split|]); done|by repeat constructor].
Qed.
(** C39, instance for the raising calls: node b and edge 0 are frozen. *)
Lemma C39_raise_ex_proof : let h := run [CNodeFrozen 1 true; CEdgeFrozen 0 true] sample in
  reachable h ∧ named h 0 (NStr "b") 1 ∧ n_frozen <$> h_nodes h !! 1 = Some true ∧ joins h 0 0 0 1 ∧
  e_frozen <$> h_edges h !! 0 = Some true ∧ e_raw <$> h_edges h !! 0 = Some (RId None) ∧
  (add_node 0 (an "b") (nargs0 <| a_value := PInt 1 |>) h).2 = Err RuntimeError ∧
  (connect 0 (an "a") (an "b") (eargs0 <| c_value := PInt 1 |>) h).2 = Err RuntimeError.
Proof.
  intros h. split; [apply run_reachable; [apply sample_reachable|by repeat split]|].
  split_and!; try (by vm_compute).
  - eexists. split; [by vm_compute|]. right; left.
  - eexists. split; [by vm_compute|by vm_compute].
Qed.
(** C40, instance of the exact description: the label of the frozen node b is changed,
    then the call raises; a fresh name with an unacceptable style uses up an index. *)
Lemma C40_add_node_exact_ex_proof : let h := run [CNodeFrozen 1 true] sample in
  let a := nargs0 <| a_label := PStr "L" |> <| a_value := PInt 1 |> in let b := nargs0 <| a_style := SOther |> in
  reachable h ∧ allowed h (CAddNode 0 (an "b") a) ∧ allowed h (CAddNode 0 (an "new") b) ∧
  (∃ h', add_node 0 (an "b") a h = (h', Err RuntimeError) ∧ n_label <$> h_nodes h' !! 1 = Some (PStr "L")) ∧
  (∃ h', add_node 0 (an "new") b h = (h', Err TypeError) ∧ g_counter <$> h_graphs h !! 0 = Some 4%Z ∧ g_counter <$> h_graphs h' !! 0 = Some 5%Z).
Proof.
  intros h a b. split; [apply run_reachable; [apply sample_reachable|by repeat split]|].
  split_and!; [by vm_compute..|eexists; split; by vm_compute|eexists; split; [|split]; by vm_compute].
Qed.
(** C40, instance for connect: the label of the frozen edge 0. *)
Lemma C40_connect_exact_ex_proof : let h := run [CEdgeFrozen 0 true] sample in
  let a := eargs0 <| c_label := PStr "L" |> <| c_value := PInt 1 |> in
  reachable h ∧ ∃ h', connect 0 (an "a") (an "b") a h = (h', Err RuntimeError) ∧ e_label <$> h_edges h' !! 0 = Some (PStr "L").
Proof. intros h a. split; [apply run_reachable; [apply sample_reachable|by repeat split]|]. eexists; split; by vm_compute. Qed.
(** C41, instance for edges, and for the raising calls. *)
Lemma C41_raise_ex_proof : let h := run [CNodeStyle 0 (SDict []); CEdgeStyle 0 (SDict [])] sample in
  reachable h ∧ (∃ N G d, h_nodes h !! 0 = Some N ∧ n_graph N = Some 0 ∧ n_style N = Some 0 ∧
    h_graphs h !! 0 = Some G ∧ g_disp G = Some d ∧ d_overwrite d = false) ∧
  (∃ E, h_edges h !! 0 = Some E ∧ e_graph E = Some 0 ∧ e_style E = Some 0) ∧ joins h 0 0 0 1 ∧
  (add_node 0 (an "a") (nargs0 <| a_style := SDict [] |>) h).2 = Err RuntimeError ∧
  (connect 0 (an "a") (an "b") (eargs0 <| c_style := SObj 0 |>) h).2 = Err RuntimeError.
Proof.
  intros h. split; [apply run_reachable; [apply sample_reachable|by repeat split]|].
  split_and!; [by vm_compute; eexists _, _, _|by vm_compute; eexists|eexists; split; by vm_compute|by vm_compute..].
Qed.
(** C41, instance for replacing: a graph that allows overwriting; a red style is
    replaced by a blue one. *)
Lemma C41_replace_ex_proof : let h := run [CNew false true (disp0 <| d_overwrite := true |>); CAddNode 0 (an "a") nargs0;
    CNodeStyle 0 (SDict [("colour", PStr "red")])] empty_heap in
  reachable h ∧ (∃ N G d, h_nodes h !! 0 = Some N ∧ n_graph N = Some 0 ∧ n_style N = Some 0 ∧
    h_graphs h !! 0 = Some G ∧ g_disp G = Some d ∧ d_overwrite d = true) ∧
  ∃ h', node_set_style 0 (SDict [("colour", PStr "blue")]) h = (h', Ok tt) ∧ n_style <$> h_nodes h' !! 0 = Some (Some 1) ∧
    ns_colour <$> h_ns h' !! 1 = Some (CName "blue").
Proof.
  intros h. split; [apply run_reachable; [constructor|by repeat split]|]. split; [by vm_compute; eexists _, _, _|].
  eexists. split; [|split]; by vm_compute.
Qed.
(** C51, instance: graph 1 of the sample is strict and gets a parallel edge. *)
Lemma C51_flag_ignored_ex_proof : reachable sample ∧ denotes sample 1 (an "a") 4 ∧ denotes sample 1 (an "z") 5 ∧
  (∀ e E, h_edges sample !! e = Some E → joins sample 1 e 4 5 → e_raw E ≠ RId (Some (nm "y"))) ∧
  g_strict <$> h_graphs sample !! 1 = Some true ∧ joins sample 1 6 4 5.
Proof.
  split; [apply sample_reachable|]. split_and!.
  - exists (nm "a"). split; [|by left]. eexists. split; [by vm_compute|left].
  - exists (nm "z"). split; [|by left]. eexists. split; [by vm_compute|right; left].
  - intros e E HE _. do 7 (destruct e as [|e]; [injection HE as <-; done|]). done.
  - done.
  - eexists. by vm_compute.
Qed.
(** C52, instance: node b after its removal. *)
Lemma C52_readd_exact_ex_proof : let h := run [CRemoveNode 0 (an "b")] sample in
  reachable h ∧ (∃ G N, h_graphs h !! 0 = Some G ∧ h_nodes h !! 1 = Some N ∧ n_graph N = None ∧ n_id N ∉ (g_nodes G).*1) ∧
  (add_node 0 (ANode 1) nargs0 h).2 = Ok (Some 1).
Proof.
  intros h. split; [apply run_reachable; [apply sample_reachable|by repeat split]|]. split; [|by vm_compute].
  eexists _, _. split; [by vm_compute|]. split; [by vm_compute|]. split; [done|]. dec.
Qed.
(** C52, instance: a node of the sample. *)
Lemma C52_returns_none_ex_proof : reachable sample ∧ in_graph sample 0 1 ∧ (add_node 0 (ANode 1) nargs0 sample).2 = Ok None.
Proof. split; [apply sample_reachable|]. split; [|by vm_compute]. eexists _, (nm "b"). split; [done|]. right. left. Qed.
