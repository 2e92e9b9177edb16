(** Parameters over histories, identity over histories: C77, C78. *)
From Verif Require Export ProofC16.
From Verif Require Import Samples.
Local Open Scope string_scope.
Local Open Scope list_scope.

(** The parameters of [x] under [k] are as in [h0]. *)
Definition params_of (h : heap) (x : nref + eref) : option (dict string pv) :=
  match x with inl r => n_params <$> h_nodes h !! r | inr e => e_params <$> h_edges h !! e end.
Definition same_param (x : nref + eref) (k : string) (o : option pv) (h : heap) : Prop :=
  ∃ d, params_of h x = Some d ∧ dget d k = o.

Lemma params_step h og t h' x k o : step h og t h' → t ≠ TParam x k → same_param x k o h → same_param x k o h'.
Proof.
  intros Hs Ht (d & Hd & Hk). unfold same_param. destruct Hs.
  all: try (exists d; split; [|done]; destruct x; by simpl in * ).
  - destruct x as [r0|e0]; [|by exists d]. simpl in *. destruct (decide (r0 = r)) as [->|].
    + rewrite H in Hd. injection Hd as <-. rewrite list_lookup_insert by (by eapply lookup_lt_Some). simpl.
      exists (n_params N'). split; [done|]. destruct H9 as [->|(k0 & v & -> & ->)]; [done|].
      rewrite dget_dset, decide_False; [done|]. by intros ->.
    + rewrite list_lookup_insert_ne by done. by exists d.
  - destruct x as [r0|e0]; [by exists d|]. simpl in *. destruct (decide (e0 = e)) as [->|].
    + rewrite H in Hd. injection Hd as <-. rewrite list_lookup_insert by (by eapply lookup_lt_Some). simpl.
      exists (e_params E'). split; [done|]. destruct H8 as [->|(k0 & v & -> & ->)]; [done|].
      rewrite dget_dset, decide_False; [done|]. by intros ->.
    + rewrite list_lookup_insert_ne by done. by exists d.
  - exists d. split; [|done]. destruct x as [r|e]; simpl in *; [|done].
    destruct (h_nodes h !! r) as [N0|] eqn:HN; [|done]. by rewrite (lookup_app_l_Some _ _ _ _ HN).
  - exists d. split; [|done]. destruct x as [r|e]; simpl in *.
    + rewrite list_lookup_imap. by destruct (h_nodes h !! r).
    + destruct (h_edges h !! e) as [N0|] eqn:HN; [|done]. by rewrite (lookup_app_l_Some _ _ _ _ HN).
  - exists d. split; [|done]. destruct x as [r|e0]; unfold params_of in *.
    + rewrite unlink_node. by destruct (h_nodes h !! r).
    + rewrite unlink_edge. destruct (h_edges h !! e0) as [E0|]; [|done]. simpl in *. rewrite <-Hd. f_equal.
      destruct (decide _); [|done]. by destruct H as [->| ->].
  - exists d. split; [|done]. destruct x as [r0|e0]; unfold params_of, removed in *; cbv zeta; simpl.
    + destruct (decide (r0 = r)) as [->|].
      * rewrite list_lookup_insert by (rewrite fmap_length; by eapply lookup_lt_Some). rewrite H0 in Hd. exact Hd.
      * rewrite list_lookup_insert_ne by done. rewrite list_lookup_fmap. by destruct (h_nodes h !! r0).
    + rewrite list_lookup_imap. destruct (h_edges h !! e0) as [E0|]; [|done]. simpl in *. rewrite <-Hd. f_equal. by destruct (decide _).
  - exists d. split; [|done]. destruct x as [r0|e0]; unfold params_of in *.
    + destruct (h_nodes h !! r0) as [N0|] eqn:HN; [|done]. by rewrite (copied_old_node h G r0 N0 HN).
    + destruct (h_edges h !! e0) as [N0|] eqn:HN; [|done]. by rewrite (copied_old_edge h G e0 N0 HN).
Qed.
Lemma params_history (P : call → Prop) x k o h h' : WF h → (∀ c, P c → ¬ tags_of c (TParam x k)) → same_param x k o h → history P h h' →
  same_param x k o h'.
Proof.
  intros W HP Hk Hh. eapply (kept_history (same_param x k o) (λ t, t ≠ TParam x k)); [|..]; try done.
  - split; [done|done|done|]. intros h1 h2 og t _ H1 _ Ht Hs. by eapply params_step.
  - intros c t Hc Ht ->. by eapply HP.
Qed.
Lemma get_param_is h x k : (match x with inl r => node_get_param h r k | inr e => edge_get_param h e k end) =
  match params_of h x with Some d => dgetR d k | None => match x with inl r => let! N := get_n h r in Err KeyError | inr e => let! N := get_e h e in Err KeyError end end.
Proof.
  destruct x as [r|e]; simpl; unfold node_get_param, edge_get_param, get_n, get_e.
  - by destruct (h_nodes h !! r).
  - by destruct (h_edges h !! e).
Qed.
Lemma dgetR_same (d d' : dict string pv) k : dget d k = dget d' k → dgetR d k = dgetR d' k.
Proof. unfold dgetR. by intros ->. Qed.

(** C77.  What is read under a key of a node stays the same, whatever calls are made, until
    that key of that node is assigned. *)
Lemma C77_node_history_proof : ∀ h h' r N k, reachable h → h_nodes h !! r = Some N →
  history (λ c, ∀ v, c ≠ CNodeParam r k v) h h' → node_get_param h' r k = node_get_param h r k.
Proof.
  intros h h' r N k W%reachable_WF HN Hh.
  assert (Hs : same_param (inl r) k (dget (n_params N) k) h) by (exists (n_params N); simpl; by rewrite HN).
  assert (Hs' : same_param (inl r) k (dget (n_params N) k) h').
  { eapply params_history; [done| |done|done]. intros c Hc [v ->]. by apply (Hc v). }
  destruct Hs' as (d & Hd & Hk). pose proof (get_param_is h' (inl r) k) as E1. pose proof (get_param_is h (inl r) k) as E2.
  simpl in *. rewrite E1, E2, HN, Hd. by apply dgetR_same.
Qed.
(** C77.  The same for edges. *)
Lemma C77_edge_history_proof : ∀ h h' e E k, reachable h → h_edges h !! e = Some E →
  history (λ c, ∀ v, c ≠ CEdgeParam e k v) h h' → edge_get_param h' e k = edge_get_param h e k.
Proof.
  intros h h' r N k W%reachable_WF HN Hh.
  assert (Hs : same_param (inr r) k (dget (e_params N) k) h) by (exists (e_params N); simpl; by rewrite HN).
  assert (Hs' : same_param (inr r) k (dget (e_params N) k) h').
  { eapply params_history; [done| |done|done]. intros c Hc [v ->]. by apply (Hc v). }
  destruct Hs' as (d & Hd & Hk). pose proof (get_param_is h' (inr r) k) as E1. pose proof (get_param_is h (inr r) k) as E2.
  simpl in *. rewrite E1, E2, HN, Hd. by apply dgetR_same.
Qed.
(** C77.  A value assigned under a key is what is read under it, right after and at any
    later time before the next assignment; assigning never fails. *)
Lemma C77_set_get_proof : ∀ h h' k v, reachable h →
  (∀ r N, h_nodes h !! r = Some N → (node_set_param r k v h).2 = Ok tt ∧
     (history (λ c, ∀ v, c ≠ CNodeParam r k v) (after (CNodeParam r k v) h) h' → node_get_param h' r k = Ok v)) ∧
  (∀ e E, h_edges h !! e = Some E → (edge_set_param e k v h).2 = Ok tt ∧
     (history (λ c, ∀ v, c ≠ CEdgeParam e k v) (after (CEdgeParam e k v) h) h' → edge_get_param h' e k = Ok v)).
Proof.
  intros h h' k v Hr. split.
  - intros r N HN. unfold node_set_param. rewrite (upd_n_run _ _ N) by done. split; [done|]. intros Hh.
    assert (Hl : h_nodes (after (CNodeParam r k v) h) !! r = Some (N <| n_params := dset (n_params N) k v |>)).
    { simpl. unfold node_set_param. rewrite (upd_n_run _ _ N) by done. simpl. rewrite list_lookup_insert by (by eapply lookup_lt_Some). done. }
    assert (Hr' : reachable (after (CNodeParam r k v) h)) by (by constructor).
    rewrite (C77_node_history_proof _ h' r _ k Hr' Hl Hh). unfold node_get_param, get_n. rewrite Hl. simpl. unfold dgetR.
    by rewrite dget_dset, decide_True.
  - intros r N HN. unfold edge_set_param. rewrite (upd_e_run _ _ N) by done. split; [done|]. intros Hh.
    assert (Hl : h_edges (after (CEdgeParam r k v) h) !! r = Some (N <| e_params := dset (e_params N) k v |>)).
    { simpl. unfold edge_set_param. rewrite (upd_e_run _ _ N) by done. simpl. rewrite list_lookup_insert by (by eapply lookup_lt_Some). done. }
    assert (Hr' : reachable (after (CEdgeParam r k v) h)) by (by constructor).
    rewrite (C77_edge_history_proof _ h' r _ k Hr' Hl Hh). unfold edge_get_param, get_e. rewrite Hl. simpl. unfold dgetR.
    by rewrite dget_dset, decide_True.
Qed.
(** C77.  Example: a parameter of node a survives other assignments, a removal of the node and
    styling; a key that was never assigned raises KeyError all along. *)
Lemma C77_ex_proof : let h := after (CNodeParam 0 "size" (PInt 7)) sample in
  let h' := run [CNodeParam 0 "other" (PInt 1); CNodeParam 1 "size" (PInt 2); CRemoveNode 0 (an "a"); CStylize 0 id] h in
  reachable sample ∧ history (λ c, ∀ v, c ≠ CNodeParam 0 "size" v) h h' ∧ is_Some (h_nodes sample !! 0) ∧
  node_get_param h' 0 "size" = Ok (PInt 7) ∧ node_get_param h' 0 "other" = Ok (PInt 1) ∧
  node_get_param sample 0 "size" = Err KeyError.
Proof.
  split; [apply sample_reachable|]. split.
  { apply run_history; [constructor|vm_compute; repeat (split; [by repeat split|]); done|].
    repeat (apply Forall_cons_2; [by intros ? [=]|]). apply Forall_nil_2. }
  split; [by eexists|]. by vm_compute.
Qed.

(** C78.  A node object keeps its name, its index and its tooltip for ever; it belongs to the
    graph it was made in or, once removed, to none, and then never to any graph again. *)
Lemma C78_node_proof : ∀ P h h' r N, reachable h → history P h h' → h_nodes h !! r = Some N →
  ∃ N', h_nodes h' !! r = Some N' ∧ n_id N' = n_id N ∧ n_index N' = n_index N ∧ n_tooltip N' = n_tooltip N ∧
    (n_graph N' = n_graph N ∨ n_graph N' = None).
Proof.
  intros P h h' r N W%reachable_WF Hh HN. destruct (ev_node _ _ _ _ (evo_any P h h' W Hh) r N HN) as (N' & HN' & []).
  by exists N'.
Qed.
(** C78.  An edge object keeps its start, its end, its extra id and its graph as long as it is
    in a graph; once it is out, it never gets into any graph again. *)
Lemma C78_edge_proof : ∀ P h h' e E, reachable h → history P h h' → h_edges h !! e = Some E →
  ∃ E', h_edges h' !! e = Some E' ∧ e_tooltip E' = e_tooltip E ∧
    (e_graph E' = None ∨
     e_graph E' = e_graph E ∧ e_start E' = e_start E ∧ e_end E' = e_end E ∧ e_raw E' = e_raw E).
Proof.
  intros P h h' e E W%reachable_WF Hh HE. destruct (ev_edge _ _ _ _ (evo_any P h h' W Hh) e E HE) as (E' & HE' & []).
  exists E'. split; [done|]. split; [done|]. destruct (e_graph E') as [g|] eqn:Hg; [|by left]. right.
  destruct (ek_same ltac:(by eexists)) as (? & ? & ?). destruct ek_graph as [?|?]; [|congruence]. done.
Qed.
(** C78.  So a name denotes the same node object, and an edge joins the same nodes under the
    same id, until they are removed; *)
Lemma C78_lookup_proof : ∀ P h h' g, reachable h → history P h h' →
  (∀ k r, named h g k r → named h' g k r ∨ ∃ N, h_nodes h' !! r = Some N ∧ n_graph N = None) ∧
  (∀ e s t i, joins h g e s t → has_id h g e i →
     joins h' g e s t ∧ has_id h' g e i ∨ ∃ E, h_edges h' !! e = Some E ∧ e_graph E = None).
Proof.
  intros P h h' g Hr Hh. pose proof (reachable_WF _ Hr) as W. pose proof (reachable_WF _ (history_reachable _ _ _ Hr Hh)) as W'. split.
  - intros k r (G & HG & Hin). destruct (wf_gnodes _ W g G k r HG Hin) as (N & HN & Hk & Hg).
    destruct (C78_node_proof P h h' r N Hr Hh HN) as (N' & HN' & Hid & _ & _ & [Hg'|Hg']); [left|right; by exists N'].
    rewrite Hg in Hg'. destruct (wf_ngraph _ W' r N' g HN' Hg') as (G' & HG' & Hin'). exists G'. split; [done|].
    by rewrite <-Hk, <-Hid.
  - intros e s t i (E & HE & Hg & Hs & Ht) Hi. destruct (C78_edge_proof P h h' e E Hr Hh HE) as (E' & HE' & _ & [Hg'|(Hg' & Hs' & Ht' & Hu')]); [right; by exists E'|left].
    assert (Hj : joins h' g e s t) by (exists E'; split_and!; congruence). split; [done|].
    destruct Hi as (x & y & E0 & Nx & Ny & (E1 & HE1 & _ & Hx & Hy) & HE0 & HNx & HNy & ->).
    assert (E0 = E) as -> by congruence. assert (E1 = E) as -> by congruence.
    assert (x = s) as -> by congruence. assert (y = t) as -> by congruence.
    destruct (C78_node_proof P h h' s Nx Hr Hh HNx) as (Nx' & HNx' & Hkx & _).
    destruct (C78_node_proof P h h' t Ny Hr Hh HNy) as (Ny' & HNy' & Hky & _).
    exists s, t, E', Nx', Ny'. rewrite Hkx, Hky, Hu'. done.
Qed.
(** C78.  and afterwards the removed objects never come back: no name denotes the removed node
    in any graph, no edge has it as an end, and the removed edge joins nothing. *)
Lemma C78_gone_proof : ∀ P h h' , reachable h → history P h h' →
  (∀ r N, h_nodes h !! r = Some N → n_graph N = None →
     (∀ g k, ¬ named h' g k r) ∧ (∀ g e x, ¬ joins h' g e r x ∧ ¬ joins h' g e x r)) ∧
  (∀ e E, h_edges h !! e = Some E → e_graph E = None → ∀ g s t, ¬ joins h' g e s t).
Proof.
  intros P h h' Hr Hh. pose proof (reachable_WF _ (history_reachable _ _ _ Hr Hh)) as W'. split.
  - intros r N HN Hg. destruct (C78_node_proof P h h' r N Hr Hh HN) as (N' & HN' & _ & _ & _ & Hg').
    assert (Hno : n_graph N' = None) by (rewrite Hg in Hg'; by destruct Hg'). split.
    + intros g k (G & HG & Hin). destruct (wf_gnodes _ W' g G k r HG Hin) as (N1 & HN1 & _ & Hg1). congruence.
    + intros g e x. split; intros (E & HE & Hge & Hs & Ht);
        destruct (wf_live _ W' e E g HE Hge) as (s & t & Ns & Nt & u & Hs' & Ht' & HNs & HNt & Hgs & Hgt & _); congruence.
  - intros e E HE Hg g s t (E1 & HE1 & Hg1 & _). destruct (C78_edge_proof P h h' e E Hr Hh HE) as (E' & HE' & _ & [?|(Hg' & _)]); congruence.
Qed.
(** C78.  Example: node b of the sample is removed and a new node of the same name is added;
    the name then denotes the new object. *)
Lemma C78_ex_proof : let h := after (CRemoveNode 0 (an "b")) sample in
  let h' := after (CAddNode 0 (an "b") nargs0) h in
  reachable sample ∧ history (λ _, True) sample h' ∧ named sample 0 (NStr "b") 1 ∧
  (∃ N, h_nodes h !! 1 = Some N ∧ n_graph N = None) ∧ (∃ r, named h' 0 (NStr "b") r ∧ r ≠ 1).
Proof.
  split; [apply sample_reachable|]. split.
  { apply (hist_cons _ _ _ (CAddNode 0 (an "b") nargs0)); [apply (hist_cons _ _ _ (CRemoveNode 0 (an "b")));
      [apply hist_nil|done|done]|by split|done]. }
  split; [eexists; split; [by vm_compute|dec]|]. split; [eexists; split; by vm_compute|].
  exists 6. split; [|done]. eexists. split; [by vm_compute|dec].
Qed.
