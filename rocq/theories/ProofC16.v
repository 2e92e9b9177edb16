(** Hashes, lists of styles, raw_id, what styling changes, saved drawings, the header:
    C61-C66. *)
From Verif Require Export ProofStyOnly ModelMore SpecStyle ProofC3 ProofC4.
Local Open Scope string_scope.
Local Open Scope list_scope.

Lemma evo_any (P : call → Prop) h h' : WF h → history P h h' → evo (λ _, False) false h h'.
Proof. intros W Hh. eapply evo_history; [done| |done]. intros c t _ _. split; [intros ? _ []|done]. Qed.

(** C61.  The hash of a node object never changes, whatever calls are made. *)
Lemma C61_node_proof : ∀ P h h' r N, reachable h → history P h h' → h_nodes h !! r = Some N →
  node_hash_key h r = Ok (n_id N) ∧ node_hash_key h' r = Ok (n_id N).
Proof.
  intros P h h' r N Hr Hh HN. apply reachable_WF in Hr as W. destruct (ev_node _ _ _ _ (evo_any P h h' W Hh) r N HN) as (N' & HN' & K).
  unfold node_hash_key, get_n. rewrite HN, HN'. cbn [rbind]. by rewrite (nk_id _ _ _ _ K).
Qed.
Lemma edge_key_live h g e i : has_id h g e i → edge_hash_key h e = Ok (Some g, i).
Proof.
  intros H. unfold edge_hash_key. rewrite (has_id_get h g e i H). destruct H as (x & y & E & Nx & Ny & (E' & HE' & Hg & _) & HE & _).
  unfold get_e. rewrite HE'. cbn [rbind]. by rewrite Hg.
Qed.
(** C61.  An edge of a graph hashes by the graph and its id, and the hash stays the same
    as long as the edge is in the graph. *)
Lemma C61_edge_proof : ∀ P h h' g e i, reachable h → history P h h' → has_id h g e i →
  edge_hash_key h e = Ok (Some g, i) ∧
  (∀ E', h_edges h' !! e = Some E' → e_graph E' ≠ None → edge_hash_key h' e = Ok (Some g, i)).
Proof.
  intros P h h' g e i Hr Hh Hi. split; [by apply edge_key_live|]. intros E' HE' Hg'. apply edge_key_live.
  apply reachable_WF in Hr as W. pose proof (evo_any P h h' W Hh) as Hev.
  destruct Hi as (x & y & E & Nx & Ny & Hj & HE & HNx & HNy & ->). destruct (ev_edge _ _ _ _ Hev e E HE) as (E'' & HE'' & K).
  assert (E'' = E') as -> by congruence. destruct (ev_node _ _ _ _ Hev x Nx HNx) as (Nx' & HNx' & Kx).
  destruct (ev_node _ _ _ _ Hev y Ny HNy) as (Ny' & HNy' & Ky). destruct Hj as (E0 & HE0 & Hg & Hs & Ht). assert (E0 = E) as -> by congruence.
  destruct (ek_same _ _ _ _ K) as (A & B & C); [by destruct (e_graph E')|].
  exists x, y, E', Nx', Ny'. rewrite A, (nk_id _ _ _ _ Kx), (nk_id _ _ _ _ Ky). split_and!; try done.
  exists E'. split_and!; [done| |congruence..]. destruct (ek_graph _ _ _ _ K) as [->|]; [done|contradiction].
Qed.
(** C61.  Different edges of a graph, and edges of different graphs, have different keys. *)
Lemma C61_distinct_proof : ∀ h g1 g2 e1 e2 i1 i2, reachable h → has_id h g1 e1 i1 → has_id h g2 e2 i2 →
  edge_hash_key h e1 = edge_hash_key h e2 ↔ e1 = e2.
Proof.
  intros h g1 g2 e1 e2 i1 i2 Hr H1 H2. rewrite (edge_key_live h g1 e1 i1 H1), (edge_key_live h g2 e2 i2 H2). split.
  - intros [= <- <-]. apply reachable_WF in Hr. by eapply has_id_inj.
  - intros ->. destruct H1 as (? & ? & E1 & Na & Nb & (E & HE & Hg & Hs & Ht) & HE1 & Hx1 & Hy1 & ->), H2 as (? & ? & E2 & Nc & Nd & (E' & HE' & Hg' & Hs' & Ht') & HE2 & Hx2 & Hy2 & ->).
    simplify_eq. done.
Qed.
(** C61.  The law ends with the membership: an edge that was removed cannot be hashed (it
    raises), so it cannot be looked up in a set or dict that holds it. *)
Lemma C61_removed_refuted_proof : ∃ h g e i, reachable h ∧ has_id h g e i ∧
  (remove_self e h).2 = Ok tt ∧ edge_hash_key (after (CRemoveSelf e) h) e = Err ValueError.
Proof.
  exists sample, 0, 0, (nm "a", nm "b", RId None). split; [apply sample_reachable|]. split; [|by vm_compute].
  exists 0, 1. do 3 eexists. split_and!; try by vm_compute. eexists. by vm_compute.
Qed.
(** C61.  Disconnecting instead of removing changes the hash without an exception. *)
Lemma C61_disconnected_refuted_proof : ∃ h g e i k, reachable h ∧ has_id h g e i ∧
  (disconnect e h).2 = Ok tt ∧ edge_hash_key (after (CDisconnect e) h) e = Ok k ∧ k ≠ (Some g, i).
Proof.
  exists sample, 0, 0, (nm "a", nm "b", RId None). eexists. split; [apply sample_reachable|]. split; [|by vm_compute].
  exists 0, 1. do 3 eexists. split_and!; try by vm_compute. eexists. by vm_compute.
Qed.
(** Edge 3 of the sample (the one with the extra id x) keeps its key when edge 0 between
    the same nodes is removed. *)
Lemma C61_edge_ex_proof : history (λ _, True) sample (run [CRemoveSelf 0] sample) ∧
  has_id sample 0 3 (nm "a", nm "b", RId (Some (nm "x"))) ∧
  edge_hash_key (run [CRemoveSelf 0] sample) 3 = Ok (Some 0, (nm "a", nm "b", RId (Some (nm "x")))).
Proof.
  split; [apply run_history; [constructor|by repeat split|by repeat constructor]|]. split; [|by vm_compute].
  exists 0, 1. do 3 eexists. split_and!; try by vm_compute. eexists. by vm_compute.
Qed.

Lemma rfold_dset_omap {A K V} `{EqDecision K} (f : dict K V → A → res (dict K V)) (p : A → option (K * V)) l d :
  (∀ d x, x ∈ l → f d x = Ok (match p x with Some kv => dset d kv.1 kv.2 | None => d end)) →
  NoDup (dkeys d ++ (omap p l).*1) → rfold f d l = Ok (d ++ omap p l).
Proof.
  revert d. induction l as [|x l IH]; intros d Hf Hn; [by rewrite app_nil_r|]. simpl. rewrite Hf by left. cbn [rbind].
  simpl in Hn. destruct (p x) as [[k v]|] eqn:Hp; simpl in *.
  - rewrite dset_fresh. 2:{ apply NoDup_app in Hn as (_ & Hn & _). intros Hin. apply (Hn k Hin). left. }
    rewrite IH; [by rewrite <-app_assoc|by intros; apply Hf; right|]. rewrite dkeys_app. simpl. by rewrite <-app_assoc.
  - rewrite IH; [done|by intros; apply Hf; right|done].
Qed.
(** C62.  graph.node_styles lists, in node order and under their names, exactly the nodes
    that have a style, each with it. *)
Lemma C62_nodes_proof : ∀ h g G, reachable h → h_graphs h !! g = Some G →
  ∃ d, node_styles h g = Ok d ∧ NoDup d.*1 ∧ d.*1 `sublist_of` (g_nodes G).*1 ∧
    ∀ k s, (k, s) ∈ d ↔ ∃ r N, named h g k r ∧ h_nodes h !! r = Some N ∧ n_style N = Some s.
Proof.
  intros h g G Hr HG. apply reachable_WF in Hr as W. pose (p := λ kv : name * nref, N ← h_nodes h !! kv.2; s ← n_style N; Some (kv.1, s)).
  assert ((omap p (g_nodes G)).*1 `sublist_of` (g_nodes G).*1) as Hsub.
  { generalize (g_nodes G) as l. induction l as [|[k r] l IH]; [done|]. simpl. unfold p at 1. simpl. destruct (h_nodes h !! r) as [N|]; simpl; [|by apply sublist_cons].
    destruct (n_style N); simpl; [by apply sublist_skip|by apply sublist_cons]. }
  assert (NoDup (g_nodes G).*1) as Hnd by (by eapply wf_gkeys).
  exists (omap p (g_nodes G)). split_and!.
  - unfold node_styles, get_g. rewrite HG. cbn [rbind]. erewrite (rfold_dset_omap _ p); [done| |].
    + intros d [k r] Hin. destruct (wf_gnodes _ W g G k r HG Hin) as (N & HN & _). unfold p, get_n. cbn [snd fst]. rewrite HN. cbn.
      by destruct (n_style N).
    + simpl. by eapply sublist_NoDup.
  - by eapply sublist_NoDup.
  - done.
  - intros k s. rewrite elem_of_list_omap. unfold p, named. split.
    + intros ([k' r] & Hin & Hp). cbn in Hp. destruct (h_nodes h !! r) as [N|] eqn:HN; [|done]. cbn in Hp.
      destruct (n_style N) eqn:Hs; [|done]. cbn in Hp. simplify_eq. exists r, N. split; [by exists G|done].
    + intros (r & N & (G' & HG' & Hin) & HN & Hs). assert (G' = G) as -> by congruence. exists (k, r). split; [done|].
      cbn. rewrite HN. cbn. by rewrite Hs.
Qed.
Lemma rfold_nest {A B C} (f : C → B → res C) (o : A → res (list B)) (p : A → list B) l c : (∀ x, x ∈ l → o x = Ok (p x)) →
  rfold (λ c x, let! ys := o x in rfold f c ys) c l = rfold f c (l ≫= p).
Proof.
  revert c. induction l as [|x l IH]; intros c Ho; [done|]. cbn [rfold]. rewrite Ho by left. cbn [rbind].
  change ((x :: l) ≫= p) with (p x ++ (l ≫= p)). assert (∀ ys c, (let! c' := rfold f c ys in rfold (λ c x, let! ys := o x in rfold f c ys) c' l) = rfold f c (ys ++ (l ≫= p))) as H; [|apply H].
  intros ys. induction ys as [|y ys IHy]; intros c'; simpl; [apply IH; intros; apply Ho; by right|].
  destruct (f c' y); simpl; [apply IHy|done].
Qed.
Lemma NoDup_omap_keys {A K V} (p : A → option (K * V)) l : NoDup l →
  (∀ x y k v w, x ∈ l → y ∈ l → p x = Some (k, v) → p y = Some (k, w) → x = y) → NoDup (omap p l).*1.
Proof.
  induction l as [|x l IH]; intros Hn Hi; [constructor|]. apply NoDup_cons in Hn as [Hx Hn]. cbn [omap list_omap].
  destruct (p x) as [[k v]|] eqn:Hp.
  - cbn [fmap list_fmap fst]. apply NoDup_cons. split; [|apply IH; [done|intros; eapply Hi; [by right|by right|done|done]]].
    intros ([k' w] & Hk & (y & Hy & Hq)%elem_of_list_omap)%elem_of_list_fmap. simpl in Hk. subst k'. apply Hx.
    rewrite (Hi x y k v w); [done|left|by right|done|done].
  - apply IH; [done|]. intros. eapply Hi; [by right|by right|done|done].
Qed.
(** C62.  graph.edge_styles lists under their ids exactly the edges that have a style. *)
Lemma C62_edges_proof : ∀ h g G, reachable h → h_graphs h !! g = Some G →
  ∃ d, edge_styles h g = Ok d ∧ NoDup d.*1 ∧
    ∀ i s, (i, s) ∈ d ↔ ∃ e E, has_id h g e i ∧ h_edges h !! e = Some E ∧ e_style E = Some s.
Proof.
  intros h g G Hr HG. apply reachable_WF in Hr as W.
  pose (p := λ e : eref, E ← h_edges h !! e; s ← e_style E; i ← id_of h e; Some (i, s)).
  assert (∀ e i s, e ∈ out_all h G → p e = Some (i, s) ↔ ∃ E, has_id h g e i ∧ h_edges h !! e = Some E ∧ e_style E = Some s) as Hp.
  { intros e i s (x & y & Hj)%(elem_of_out_all h g); [|done..]. destruct (joins_id h g e x y W Hj) as (E & Nx & Ny & HE & HNx & HNy & Hid).
    unfold p, id_of. rewrite HE, Hid. cbn. split.
    - destruct (e_style E) eqn:Hs; [|done]. cbn. intros [= <- <-]. exists E. split; [|done]. by exists x, y, E, Nx, Ny.
    - intros (E' & Hi & HE' & Hs). apply has_id_get in Hi. assert (E' = E) as -> by congruence. rewrite Hs. cbn. congruence. }
  assert (NoDup (omap p (out_all h G)).*1) as Hnd.
  { apply NoDup_omap_keys; [by eapply NoDup_out_all|]. intros e1 e2 k v w H1 H2 (? & ? & _)%Hp (? & ? & _)%Hp; [|done..]. by eapply has_id_inj. }
  exists (omap p (out_all h G)). split_and!.
  - unfold edge_styles. rewrite (nodes_run _ _ _ HG). cbn [rbind]. rewrite (rfold_nest _ _ (outs h)).
    + erewrite (rfold_dset_omap _ p); [done| |done]. intros d e He. apply (elem_of_out_all h g) in He as (x & y & Hj); [|done..].
      destruct (joins_id h g e x y W Hj) as (E & Nx & Ny & HE & HNx & HNy & Hid). unfold add_edge_style, p, id_of, get_e. rewrite HE, Hid. cbn.
      by destruct (e_style E).
    + intros r Hr'. apply (elem_of_nodes h g) in Hr'; [|done]. apply in_graph_node in Hr' as (N & HN & _); [|done].
      rewrite (outward_edges_run h r N W HN). unfold outs. by rewrite HN.
  - done.
  - intros i s. rewrite elem_of_list_omap. split.
    + intros (e & He & Hpe). apply Hp in Hpe as (E & ?); [|done]. by exists e, E.
    + intros (e & E & Hi & HE & Hs). assert (e ∈ out_all h G).
      { apply (elem_of_out_all h g); [done..|]. destruct Hi as (x & y & _ & _ & _ & Hj & _). eauto. }
      exists e. split; [done|]. apply Hp; [done|]. by exists E.
Qed.
(** After styling the edge from a to z of graph 1 of the sample and node z. *)
Definition styled_sample : heap := run [CNodeStyle 5 (SDict []); CEdgeStyle 6 (SDict [])] sample.
Lemma styled_sample_reachable : reachable styled_sample.
Proof. apply run_reachable; [apply sample_reachable|]. vm_compute. repeat (split; [by repeat split|]). done. Qed.
(** One of the two nodes and the only edge have a style. *)
Lemma C62_ex_proof : reachable styled_sample ∧ node_styles styled_sample 1 = Ok [(nm "z", 0)] ∧
  edge_styles styled_sample 1 = Ok [((nm "a", nm "z", RId None), 0)] ∧ node_styles styled_sample 0 = Ok [].
Proof. split; [apply styled_sample_reachable|]. by vm_compute. Qed.

(** C64.  stylize() changes nothing but styles, and only in its own graph - whether it
    returns or raises. *)
Lemma C64_stylize_proof : ∀ h g shuffle, reachable h → allowed h (CStylize g shuffle) → styles_only g h (after (CStylize g shuffle) h).
Proof.
  intros h g sh Hr Hal. apply reachable_WF in Hr as W. apply (O_stylize h g sh Hal h). split; [done|apply so_refl].
Qed.
Lemma render_heap env g dir pad sh h : (render env g dir pad sh h).1 = (stylize g sh h).1.
Proof. unfold render, sbind, sread. by destruct (stylize g sh h) as [h1 []]. Qed.
(** C64.  So does render(). *)
Lemma C64_render_proof : ∀ env h g dir pad shuffle, reachable h → allowed h (CRender env g dir pad shuffle) →
  styles_only g h (after (CRender env g dir pad shuffle) h).
Proof. intros env h g dir pad sh Hr Hal. cbn [after]. rewrite render_heap. by apply (C64_stylize_proof h g sh). Qed.
(** Styling graph 1 of the sample. *)
Lemma C64_ex_proof : reachable sample ∧ (stylize 1 (λ l, l) sample).2 = Ok tt ∧ ¬ node_styled sample 5 ∧ node_styled (after (CStylize 1 (λ l, l)) sample) 5.
Proof.
  split; [apply sample_reachable|]. split_and!; [by vm_compute| |].
  - intros (N & HN & Hs). vm_compute in HN. by simplify_eq.
  - eexists. by vm_compute.
Qed.

