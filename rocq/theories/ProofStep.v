(** Every call is a sequence of basic steps.  A step records the graph it works
    on and what kind of call it can come from. *)
From Verif Require Export ProofHist.

Inductive tag := TNormal | TFreeze | TUnfreeze (x : nref + eref) | TParam (x : nref + eref) (k : string) | TCtor | TRestyle.

Inductive step (h : heap) : option gref → tag → heap → Prop :=
| S_node r N N' l w t :
    h_nodes h !! r = Some N →
    n_graph N' = n_graph N → n_id N' = n_id N → n_out N' = n_out N → n_in N' = n_in N →
    n_index N' = n_index N → n_tooltip N' = n_tooltip N →
    (n_value N' = n_value N ∨ n_frozen N = false) →
    (n_style N' = n_style N ∨ may_restyle h (n_style N) (n_graph N) = Ok tt) →
    (n_frozen N' = n_frozen N ∨ (t = TFreeze ∧ n_frozen N' = true) ∨ (t = TUnfreeze (inl r) ∧ n_frozen N' = false)) →
    (n_params N' = n_params N ∨ ∃ k v, t = TParam (inl r) k ∧ n_params N' = dset (n_params N) k v) →
    step h (n_graph N) t (put_node h r N' l w)
| S_edge e E E' l w t :
    h_edges h !! e = Some E →
    e_graph E' = e_graph E → e_raw E' = e_raw E → e_start E' = e_start E → e_end E' = e_end E →
    e_tooltip E' = e_tooltip E →
    (e_value E' = e_value E ∨ e_frozen E = false) →
    (e_style E' = e_style E ∨ may_restyle h (e_style E) (e_graph E) = Ok tt) →
    (e_frozen E' = e_frozen E ∨ (t = TFreeze ∧ e_frozen E' = true) ∨ (t = TUnfreeze (inr e) ∧ e_frozen E' = false)) →
    (e_params E' = e_params E ∨ ∃ k v, t = TParam (inr e) k ∧ e_params E' = dset (e_params E) k v) →
    step h (e_graph E) t (put_edge h e E' l w)
| S_graph g G G' :
    h_graphs h !! g = Some G → g_nodes G' = g_nodes G → (g_counter G ≤ g_counter G')%Z →
    d_overwrite <$> g_disp G' = d_overwrite <$> g_disp G →
    step h (Some g) TNormal (h <| h_graphs := <[g := G']> (h_graphs h) |>)
| S_new_graph G :
    g_nodes G = [] → g_counter G = 0%Z →
    step h None TNormal (h <| h_graphs := h_graphs h ++ [G] |>)
| S_new_node g G G' N l t :
    h_graphs h !! g = Some G → n_id N ∉ dkeys (g_nodes G) →
    n_graph N = Some g → n_out N = [] → n_in N = [] → n_frozen N = false →
    g_nodes G' = g_nodes G ++ [(n_id N, length (h_nodes h))] → g_disp G' = g_disp G →
    g_strict G' = g_strict G → g_ordering G' = g_ordering G →
    (t = TCtor ∧ g_counter G' = g_counter G) ∨
      (t = TNormal ∧ n_index N = g_counter G ∧ g_counter G' = (g_counter G + 1)%Z) →
    step h (Some g) t (h <| h_nodes := h_nodes h ++ [N] |> <| h_graphs := <[g := G']> (h_graphs h) |>
                         <| h_ns := h_ns h ++ l |>)
| S_new_edge g s t Ns Nt a st l :
    let i := (n_id Ns, n_id Nt, RId (c_id a)) in
    h_nodes h !! s = Some Ns → h_nodes h !! t = Some Nt → n_graph Ns = Some g → n_graph Nt = Some g →
    i ∉ dkeys (n_out Ns) → i ∉ dkeys (n_in Nt) →
    step h (Some g) TNormal
      (h <| h_nodes := imap (with_new_edge s t i (length (h_edges h))) (h_nodes h) |>
         <| h_edges := h_edges h ++ [new_edge g s t a st] |>
         <| h_es := h_es h ++ l |>)
| S_unlink f e E g :
    f = cleared ∨ f = deadened → h_edges h !! e = Some E → e_graph E = Some g →
    step h (Some g) TNormal (unlink f [e] h)
| S_removed g G r N :
    h_graphs h !! g = Some G → h_nodes h !! r = Some N → n_graph N = Some g → (n_id N, r) ∈ g_nodes G →
    step h (Some g) TNormal (removed g G r N h)
| S_copied g G :
    h_graphs h !! g = Some G → no_meth h G = true →
    (∀ r N, h_nodes h !! r = Some N → n_graph N = Some g → n_style N = None) →
    step h None TNormal (copied h G)
| S_warns l w : step h None TNormal (h <| h_ns := h_ns h ++ l |> <| h_warns := h_warns h ++ w |>)
| S_es l : step h None TNormal (h <| h_es := h_es h ++ l |>)
| S_ns_put l : length l = length (h_ns h) → step h None TRestyle (h <| h_ns := l |>)
| S_es_put l : length l = length (h_es h) → step h None TRestyle (h <| h_es := l |>).

Lemma step_refl h : step h None TNormal h.
Proof.
  pose proof (S_es h []) as H. by rewrite heap_es_nil in H.
Qed.

(** [c] is one step on graph [og], or does nothing *)
Definition one_step {A} (og : option gref) (h : heap) (c : M A) : Prop :=
  step h og TNormal (c h).1 ∨ (c h).1 = h.

Lemma optional_style_ok {S} (ctor : sdict → res S) h k old og a st l :
  optional_style ctor h k old og a = Ok (st, l) → st = old ∨ may_restyle h old og = Ok tt.
Proof.
  destruct a; simpl; [intros [= <- <-]; by left|..]; destruct (may_restyle h old og) as [[]|]; try done; auto.
Qed.

Lemma node_updated_step h r N a w : h_nodes h !! r = Some N → step h (n_graph N) TNormal (node_updated h r N a w).1.
Proof.
  intros HN. unfold node_updated. destruct (optional_style _ _ _ _ _ _) as [[st l]|x] eqn:Hst.
  - apply optional_style_ok in Hst. destruct (n_frozen N) eqn:Hf; simpl.
    + destruct (eqb (a_value a) PNone) eqn:Hv; simpl; apply (S_node h r N); simpl; auto.
      apply eqb_is in Hv as ->. by left.
    + apply (S_node h r N); simpl; auto.
  - simpl. apply (S_node h r N); auto.
Qed.
Lemma edge_updated_step h r N a w : h_edges h !! r = Some N → step h (e_graph N) TNormal (edge_updated h r N a w).1.
Proof.
  intros HN. unfold edge_updated. destruct (optional_style _ _ _ _ _ _) as [[st l]|x] eqn:Hst.
  - apply optional_style_ok in Hst. destruct (e_frozen N) eqn:Hf; simpl.
    + destruct (eqb (c_value a) PNone) eqn:Hv; simpl; apply (S_edge h r N); simpl; auto.
      apply eqb_is in Hv as ->. by left.
    + apply (S_edge h r N); simpl; auto.
  - simpl. apply (S_edge h r N); auto.
Qed.

Lemma add_node_step h g k a : WF h → one_step (Some g) h (add_node g (AName k) a).
Proof.
  intros W. destruct k as [s|z]; [|right; reflexivity].
  destruct (h_graphs h !! g) as [G|] eqn:HG.
  2: { right. unfold add_node, sbind, sread, get_g. rewrite HG. reflexivity. }
  unfold one_step. destruct (dget (g_nodes G) (NStr s)) as [r|] eqn:Hr.
  - pose proof Hr as Hin. apply dget_Some_in in Hin.
    destruct (wf_gnodes _ W g G _ r HG Hin) as (N & HN & _ & HgN).
    rewrite (add_node_existing_eq h g G s r N) by done. destruct (lenient _); [|right; reflexivity].
    left. rewrite <-HgN. by apply node_updated_step.
  - left. rewrite (add_node_fresh_eq h g G s a) by done. cbv zeta. apply dget_None in Hr.
    destruct (restyled _ _ _ _) as [[st l]|x]; simpl.
    + apply (S_new_node h g G (G <| g_counter := (g_counter G + 1)%Z |>
          <| g_nodes := g_nodes G ++ [(NStr s, length (h_nodes h))] |>)
          (MkNode (Some g) (NStr s) (a_value a) (a_label a) (a_tooltip a) st false (a_params a) [] [] (g_counter G)));
        simpl; try done. by right.
    + apply (S_graph h g G); simpl; try done. lia.
Qed.
Lemma connect_step h g x y a : WF h → one_step (Some g) h (connect g x y a).
Proof.
  intros W. destruct (get_node h g x) as [s|e] eqn:Hs; [|right; erewrite connect_fail; [reflexivity|eauto]].
  destruct (get_node h g y) as [t|e] eqn:Ht; [|right; erewrite connect_fail; [reflexivity|eauto]].
  destruct (get_node_Ok h g x s) as (G & Ns & HG & HNs & Hgs & _); [done..|].
  destruct (get_node_Ok h g y t) as (G' & Nt & HG' & HNt & Hgt & _); [done..|].
  unfold one_step. rewrite (connect_eq h g x y a s t Ns Nt) by done. cbv zeta.
  destruct (dget _ _) as [e|] eqn:He.
  - destruct (h_edges h !! e) as [E|] eqn:HE; [|right; reflexivity].
    destruct (lenient _); [|right; reflexivity]. left.
    apply dget_Some_in in He. destruct (WF_out_entry h s Ns _ e W HNs He) as (g1 & E' & ? & ? & ? & HE' & Hx).
    assert (E' = E) as -> by congruence.
    assert (e_graph E = Some g) as <- by (destruct_and!; congruence). by apply edge_updated_step.
  - apply dget_None in He. destruct (restyled _ _ _ _) as [[st l]|x']; [|right; reflexivity]. left.
    apply (S_new_edge h g s t Ns Nt a st l); try done.
    rewrite <-(WF_mirror_keys h s t); [done|done|done|done|congruence|by eexists].
Qed.
Lemma remove_node_step h g x : WF h → one_step (Some g) h (remove_node g x).
Proof.
  intros W. destruct (get_node h g x) as [r|e] eqn:Hr.
  - left. destruct (get_node_Ok h g x r) as (G & N & HG & HN & Hg & Hin); [done..|].
    destruct (remove_node_run h g x r N G W Hr HN HG) as [-> _]. by apply S_removed.
  - right. rewrite (remove_node_fail h g x e) by done. reflexivity.
Qed.
Lemma copy_step h g : WF h → step h None TNormal (copy g h).1.
Proof.
  intros W. destruct (h_graphs h !! g) as [G|] eqn:HG; [|rewrite copy_none by done; apply step_refl].
  destruct (copy_cases h g G W HG) as [[_ ->]|[(_ & _ & ->)|(? & ? & ->)]]; [apply step_refl..|].
  by apply (S_copied h g G).
Qed.
Lemma upd_g_step h g f : (∀ G, g_nodes (f G) = g_nodes G ∧ g_counter (f G) = g_counter G ∧
    d_overwrite <$> g_disp (f G) = d_overwrite <$> g_disp G) → one_step (Some g) h (upd_g g f).
Proof.
  intros Hf. unfold one_step, upd_g. destruct (h_graphs h !! g) as [G|] eqn:HG; [|right; reflexivity].
  left. destruct (Hf G) as (? & Hc & ?). apply (S_graph h g G); try done. rewrite Hc. lia.
Qed.
Lemma upd_disp_step h g f : (∀ D, d_overwrite (f D) = d_overwrite D) → one_step (Some g) h (upd_disp g f).
Proof.
  intros Hf. unfold one_step, upd_disp, sbind, sread, get_g.
  destruct (h_graphs h !! g) as [G|] eqn:HG; [|right; reflexivity].
  destruct (g_disp G) as [D|] eqn:HD; [|right; reflexivity]. unfold upd_g. rewrite HG. left.
  apply (S_graph h g G); simpl; try done. rewrite HD. simpl. by rewrite Hf.
Qed.
Lemma node_set_style_step h r a : 
  (∃ N, h_nodes h !! r = Some N ∧ step h (n_graph N) TNormal (node_set_style r a h).1) ∨
  step h None TNormal (node_set_style r a h).1.
Proof.
  destruct (h_nodes h !! r) as [N|] eqn:HN.
  2: { right. unfold node_set_style, sbind, sread, get_n. rewrite HN. apply step_refl. }
  rewrite (node_set_style_eq h r N) by done. destruct (may_restyle _ _ _) as [[]|] eqn:Hm; [|right; apply step_refl].
  destruct (restyled _ _ _ _) as [[st l]|]; [|right; apply step_refl]. left. exists N. split; [done|].
  apply (S_node h r N); auto.
Qed.
Lemma edge_set_style_step h r a :
  (∃ N, h_edges h !! r = Some N ∧ step h (e_graph N) TNormal (edge_set_style r a h).1) ∨
  step h None TNormal (edge_set_style r a h).1.
Proof.
  destruct (h_edges h !! r) as [N|] eqn:HN.
  2: { right. unfold edge_set_style, sbind, sread, get_e. rewrite HN. apply step_refl. }
  rewrite (edge_set_style_eq h r N) by done. destruct (may_restyle _ _ _) as [[]|] eqn:Hm; [|right; apply step_refl].
  destruct (restyled _ _ _ _) as [[st l]|]; [|right; apply step_refl]. left. exists N. split; [done|].
  apply (S_edge h r N); auto.
Qed.
Lemma disconnect_step h e : WF h →
  (∃ E, h_edges h !! e = Some E ∧ step h (e_graph E) TNormal (disconnect e h).1) ∨ step h None TNormal (disconnect e h).1.
Proof.
  intros W. destruct (h_edges h !! e) as [E|] eqn:HE; [|right; rewrite disconnect_none by done; apply step_refl].
  destruct (e_graph E) as [g|] eqn:Hg.
  - left. exists E. split; [done|]. rewrite (disconnect_run h e E g) by done. rewrite Hg. eapply S_unlink; eauto.
  - right. destruct (disconnect_dead h e E) as (x & Hx & _); [done..|]. rewrite Hx. apply step_refl.
Qed.
Lemma remove_self_step h e : WF h →
  (∃ E, h_edges h !! e = Some E ∧ step h (e_graph E) TNormal (remove_self e h).1) ∨ step h None TNormal (remove_self e h).1.
Proof.
  intros W. destruct (h_edges h !! e) as [E|] eqn:HE; [|right; rewrite remove_self_none by done; apply step_refl].
  destruct (e_graph E) as [g|] eqn:Hg.
  - left. exists E. split; [done|]. rewrite (remove_self_run h e E g) by done. rewrite Hg. eapply S_unlink; eauto.
  - right. destruct (remove_self_dead h e E) as (x & Hx & _); [done..|]. rewrite Hx. apply step_refl.
Qed.

(** * Lifting to calls *)
Record kept (K : heap → Prop) (okg : option gref → Prop) (okt : tag → Prop) : Prop := {
  kp_none : okg None;
  kp_normal : okt TNormal;
  kp_fresh : ∀ h, K h → okg (Some (length (h_graphs h)));
  kp_step : ∀ h h' og t, WF h → K h → okg og → okt t → step h og t h' → K h' }.

Lemma kept_one K okg okt {A} og h (c : M A) : kept K okg okt → WF h → K h → okg og → one_step og h c → K (c h).1.
Proof.
  intros HK W Hk Ho [Hs|Hs].
  - exact (kp_step _ _ _ HK h _ og TNormal W Hk Ho (kp_normal _ _ _ HK) Hs).
  - by rewrite Hs.
Qed.
Lemma kept_closed K okg okt : kept K okg okt → closed K (λ g, okg (Some g)).
Proof.
  intros HK. split.
  - exact (kp_fresh _ _ _ HK).
  - intros. apply (kept_one K okg okt None); [done..|exact (kp_none _ _ _ HK)|]. left. by apply S_new_graph.
  - intros. eapply kept_one; try done. by apply add_node_step.
  - intros. eapply kept_one; try done. by apply connect_step.
  - intros. eapply kept_one; try done. by apply remove_node_step.
  - intros. apply (kept_one K okg okt None); [done..|exact (kp_none _ _ _ HK)|]. left. by apply copy_step.
  - intros. eapply kept_one; try done. by apply upd_disp_step.
  - intros. eapply kept_one; try done. by apply upd_g_step.
  - intros. eapply kept_one; try done. by apply upd_g_step.
Qed.
Lemma kept_sclosed K okt : kept K (λ _, True) okt → okt TRestyle → sclosed K.
Proof.
  intros HK Ht. pose proof (kp_normal _ _ _ HK). split.
  - intros h r a W Hk _. destruct (node_set_style_step h r a) as [(? & _ & ?)|?]; by eapply (kp_step _ _ _ HK).
  - intros h r a W Hk _. destruct (edge_set_style_step h r a) as [(? & _ & ?)|?]; by eapply (kp_step _ _ _ HK).
  - intros h l W Hk. apply (kp_step _ _ _ HK h _ None TNormal); [done..|]. pose proof (S_warns h l []) as Hs.
    assert (h <| h_ns := h_ns h ++ l |> <| h_warns := h_warns h ++ [] |> = h <| h_ns := h_ns h ++ l |>) as <-; [|done].
    apply heap_eq; simpl; rewrite ?app_nil_r; done.
  - intros h l W Hk. apply (kp_step _ _ _ HK h _ None TNormal); [done..|]. apply S_es.
  - intros h s f W Hk. unfold upd_ns. destruct (h_ns h !! s) as [sty|]; [|done]. destruct (f sty); [|done].
    apply (kp_step _ _ _ HK h _ None TRestyle); [done..|]. apply S_ns_put. by rewrite insert_length.
  - intros h s f W Hk. unfold upd_es. destruct (h_es h !! s) as [sty|]; [|done]. destruct (f sty); [|done].
    apply (kp_step _ _ _ HK h _ None TRestyle); [done..|]. apply S_es_put. by rewrite insert_length.
Qed.

(** the kinds of step a call makes *)
Definition tags_of (c : call) (t : tag) : Prop :=
  match t with
  | TNormal | TRestyle => True
  | TFreeze => ∃ x, c = CNodeFrozen x true ∨ c = CEdgeFrozen x true
  | TUnfreeze (inl x) => c = CNodeFrozen x false
  | TUnfreeze (inr x) => c = CEdgeFrozen x false
  | TParam (inl x) k => ∃ v, c = CNodeParam x k v
  | TParam (inr x) k => ∃ v, c = CEdgeParam x k v
  | TCtor => ∃ g n a i, c = CNodeCtor g n a i
  end.

Lemma put_node_plain h r N : h <| h_nodes := <[r := N]> (h_nodes h) |> = put_node h r N [] [].
Proof. apply heap_eq; simpl; rewrite ?app_nil_r; done. Qed.
Lemma put_edge_plain h r N : h <| h_edges := <[r := N]> (h_edges h) |> = put_edge h r N [] [].
Proof. apply heap_eq; simpl; rewrite ?app_nil_r; done. Qed.

(** the graph a setter works on *)
Definition setter_graph (h : heap) (c : call) : option gref :=
  match c with
  | CNodeValue r _ | CNodeLabel r _ | CNodeFrozen r _ | CNodeParam r _ _ => N ← h_nodes h !! r; n_graph N
  | CEdgeValue e _ | CEdgeLabel e _ | CEdgeFrozen e _ | CEdgeParam e _ _ => E ← h_edges h !! e; e_graph E
  | CNodeCtor g _ _ _ | CEdgeCtor g _ _ _ => Some g
  | _ => None
  end.
Lemma setter_step h c : WF h → allowed h c → is_setter c = true →
  ∃ t, t ≠ TRestyle ∧ tags_of c t ∧ (step h (setter_graph h c) t (after c h) ∨ step h None TNormal (after c h)).
Proof.
  intros W Hal Hc. destruct c; try done; simpl in *.
  - exists TNormal. split; [done|]. split; [done|]. unfold node_set_value, sbind, sread, get_n.
    destruct (h_nodes h !! r) as [N|] eqn:HN; [|right; apply step_refl]. simpl.
    destruct (n_frozen N) eqn:Hf; [right; apply step_refl|]. left. rewrite (upd_n_run _ _ N) by done. simpl.
    rewrite put_node_plain. apply (S_node h r N); auto.
  - exists TNormal. split; [done|]. split; [done|]. unfold node_set_label, upd_n.
    destruct (h_nodes h !! r) as [N|] eqn:HN; [|right; apply step_refl]. left. simpl.
    rewrite put_node_plain. apply (S_node h r N); auto.
  - exists (if b then TFreeze else TUnfreeze (inl r)). split; [by destruct b|]. split; [destruct b; simpl; eauto|]. unfold node_set_frozen, upd_n.
    destruct (h_nodes h !! r) as [N|] eqn:HN; [|right; apply step_refl].
    left. simpl. rewrite put_node_plain. apply (S_node h r N); auto. right. destruct b; auto.
  - exists (TParam (inl r) k). split; [done|]. split; [by exists v|]. unfold node_set_param, upd_n.
    destruct (h_nodes h !! r) as [N|] eqn:HN; [|right; apply step_refl]. left. simpl.
    rewrite put_node_plain. apply (S_node h r N); eauto.
  - exists TNormal. split; [done|]. split; [done|]. unfold edge_set_value, sbind, sread, get_e.
    destruct (h_edges h !! e) as [N|] eqn:HN; [|right; apply step_refl]. simpl.
    destruct (e_frozen N) eqn:Hf; [right; apply step_refl|]. left. rewrite (upd_e_run _ _ N) by done. simpl.
    rewrite put_edge_plain. apply (S_edge h e N); auto.
  - exists TNormal. split; [done|]. split; [done|]. unfold edge_set_label, upd_e.
    destruct (h_edges h !! e) as [N|] eqn:HN; [|right; apply step_refl]. left. simpl.
    rewrite put_edge_plain. apply (S_edge h e N); auto.
  - exists (if b then TFreeze else TUnfreeze (inr e)). split; [by destruct b|]. split; [destruct b; simpl; eauto|]. unfold edge_set_frozen, upd_e.
    destruct (h_edges h !! e) as [N|] eqn:HN; [|right; apply step_refl].
    left. simpl. rewrite put_edge_plain. apply (S_edge h e N); auto. right. destruct b; auto.
  - exists (TParam (inr e) k). split; [done|]. split; [by exists v|]. unfold edge_set_param, upd_e.
    destruct (h_edges h !! e) as [N|] eqn:HN; [|right; apply step_refl]. left. simpl.
    rewrite put_edge_plain. apply (S_edge h e N); eauto.
  - destruct Hal as [Hst (G & HG & Hn)].
    destruct (node_ctor_run h g G n a index HG) as (l & ost & Hres & ->).
    exists TCtor. split; [done|]. split; [by exists g, n, a, index|]. destruct ost as [st|x]; [|right; apply step_refl]. left. simpl.
    apply (S_new_node h g G _ (MkNode (Some g) n (a_value a) (a_label a) (a_tooltip a) st false (a_params a) [] [] index) l TCtor);
      simpl; try done; [by apply dset_fresh|by left].
  - destruct Hal as [Hst (Ns & Nt & HNs & HNt & Hgs & Hgt & Hi)]. exists TNormal. split; [done|]. split; [done|].
    assert ((n_id Ns, n_id Nt, RId (c_id a)) ∉ dkeys (n_in Nt)) as Hi'.
    { rewrite <-(WF_mirror_keys h s t Ns Nt); [done..|congruence|eauto]. }
    rewrite (edge_ctor_eq h g s t Ns Nt a) by done. destruct (restyled _ _ _ _) as [[st l]|x]; [|right; apply step_refl].
    left. by apply (S_new_edge h g s t Ns Nt a st l).
Qed.

Lemma kept_after K okt h c : kept K (λ _, True) okt → (∀ t, tags_of c t → okt t) →
  WF h → K h → allowed h c → K (after c h).
Proof.
  intros HK Ht W Hk Hal. apply K_after; try done.
  - by eapply (kept_closed _ _ _ HK).
  - eapply kept_sclosed; [done|]. by apply Ht.
  - clear - HK. intros h e W Hk. pose proof (kp_normal _ _ _ HK).
    destruct (disconnect_step h e W) as [(? & _ & ?)|?]; by eapply (kp_step _ _ _ HK).
  - clear - HK. intros h e W Hk. pose proof (kp_normal _ _ _ HK).
    destruct (remove_self_step h e W) as [(? & _ & ?)|?]; by eapply (kp_step _ _ _ HK).
  - intros Hc. destruct (setter_step h c W Hal Hc) as (t & _ & Htt & [Hs|Hs]).
    + eapply (kp_step _ _ _ HK); [done..|by apply Ht|done].
    + eapply (kp_step _ _ _ HK); [done..|exact (kp_normal _ _ _ HK)|done].
Qed.

(** * Histories *)
Lemma history_reachable P h h' : reachable h → history P h h' → reachable h'.
Proof. intros Hr. induction 1; [done|]. constructor; auto. Qed.
Lemma history_mono (P Q : call → Prop) h h' : (∀ c, P c → Q c) → history P h h' → history Q h h'.
Proof. intros HPQ. induction 1; [constructor|]. econstructor; eauto. Qed.
Lemma reachable_history h : reachable h ↔ history (λ _, True) empty_heap h.
Proof.
  split.
  - induction 1; [constructor|]. by econstructor.
  - apply history_reachable. constructor.
Qed.
Lemma kept_history K okt (P : call → Prop) h h' : kept K (λ _, True) okt → (∀ c t, P c → tags_of c t → okt t) →
  WF h → K h → history P h h' → K h'.
Proof.
  intros HK Ht W Hk Hh. assert (WF h' ∧ K h') as [_ ?]; [|done].
  induction Hh as [|h h' c Hh IH Hal HP]; [done|]. destruct IH as [W' K']; [done..|].
  split; [by apply WF_after|]. eapply kept_after; eauto.
Qed.
