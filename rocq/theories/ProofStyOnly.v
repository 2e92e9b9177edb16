(** Styling changes nothing but styles. *)
From Verif Require Export ProofStyFrame SpecMore.
From Verif Require Import ProofCompl.

Lemma so_refl g h : styles_only g h h.
Proof.
  split; [done..| |].
  - intros r N HN. exists (n_style N). split; [by destruct N|by left].
  - intros r N HN. exists (e_style N). split; [by destruct N|by left].
Qed.

Section only.
  Context (h0 : heap) (g : gref).
  Definition nof (r : nref) : Prop := ∀ N, h_nodes h0 !! r = Some N → n_graph N = Some g.
  Definition eof (e : eref) : Prop := ∀ E, h_edges h0 !! e = Some E → e_graph E = Some g.
  Definition SO (h : heap) : Prop := WF h ∧ styles_only g h0 h.

  Lemma SO_of {A} (c : M A) : dpres c → (∀ h, SO h → styles_only g h0 (c h).1) → pres SO c.
  Proof. intros H1 H2 h HF. split; [eapply WF_data_only; [apply HF|apply H1]|by apply H2]. Qed.
  Lemma SO_node_back h r N : SO h → h_nodes h !! r = Some N → ∃ N0, h_nodes h0 !! r = Some N0 ∧ N = N0 <| n_style := n_style N |> ∧
    (n_style N = n_style N0 ∨ n_graph N0 = Some g ∧ ∃ s, n_style N = Some s ∧ length (h_ns h0) ≤ s).
  Proof.
    intros [_ S] HN. assert (is_Some (h_nodes h0 !! r)) as [N0 HN0].
    { apply lookup_lt_is_Some. rewrite <-(so_nlen _ _ _ S). by eapply lookup_lt_Some. }
    exists N0. split; [done|]. destruct (so_node _ _ _ S r N0 HN0) as (st & HN' & Hst).
    assert (N = N0 <| n_style := st |>) as -> by congruence. done.
  Qed.
  Lemma SO_edge_back h r N : SO h → h_edges h !! r = Some N → ∃ N0, h_edges h0 !! r = Some N0 ∧ N = N0 <| e_style := e_style N |> ∧
    (e_style N = e_style N0 ∨ e_graph N0 = Some g ∧ ∃ s, e_style N = Some s ∧ length (h_es h0) ≤ s).
  Proof.
    intros [_ S] HN. assert (is_Some (h_edges h0 !! r)) as [N0 HN0].
    { apply lookup_lt_is_Some. rewrite <-(so_elen _ _ _ S). by eapply lookup_lt_Some. }
    exists N0. split; [done|]. destruct (so_edge _ _ _ S r N0 HN0) as (st & HN' & Hst).
    assert (N = N0 <| e_style := st |>) as -> by congruence. done.
  Qed.
  Lemma SO_put_node h r N st l : SO h → nof r → h_nodes h !! r = Some N →
    (st = n_style N ∨ ∃ s, st = Some s ∧ length (h_ns h0) ≤ s) → styles_only g h0 (put_node h r (N <| n_style := st |>) l []).
  Proof.
    intros HS Hr HN Hst. pose proof HS as [W []]. split; simpl; rewrite ?app_nil_r, ?insert_length, ?app_length; try done; [lia|].
    intros r1 N1 HN1. destruct (decide (r1 = r)) as [->|].
    - rewrite list_lookup_insert by (by eapply lookup_lt_Some). exists st.
      destruct (SO_node_back h r N HS HN) as (N0 & HN0 & HN' & Ho). assert (N1 = N0) as -> by congruence.
      rewrite HN'. split; [by destruct N0|]. destruct Hst as [->|Hst]; [done|]. right. split; [by apply Hr|done].
    - rewrite list_lookup_insert_ne by done. eauto.
  Qed.
  Lemma SO_put_edge h r N st l : SO h → eof r → h_edges h !! r = Some N →
    (st = e_style N ∨ ∃ s, st = Some s ∧ length (h_es h0) ≤ s) → styles_only g h0 (put_edge h r (N <| e_style := st |>) l []).
  Proof.
    intros HS Hr HN Hst. pose proof HS as [W []]. split; simpl; rewrite ?app_nil_r, ?insert_length, ?app_length; try done; [lia|].
    intros r1 N1 HN1. destruct (decide (r1 = r)) as [->|].
    - rewrite list_lookup_insert by (by eapply lookup_lt_Some). exists st.
      destruct (SO_edge_back h r N HS HN) as (N0 & HN0 & HN' & Ho). assert (N1 = N0) as -> by congruence.
      rewrite HN'. split; [by destruct N0|]. destruct Hst as [->|Hst]; [done|]. right. split; [by apply Hr|done].
    - rewrite list_lookup_insert_ne by done. eauto.
  Qed.
  Lemma SO_nstyle h r a : SO h → nof r → young (length (h_ns h0)) a → styles_only g h0 (node_set_style r a h).1.
  Proof.
    intros HF Hr Ha. pose proof HF as (_ & S). destruct (h_nodes h !! r) as [N|] eqn:HN.
    2: { unfold node_set_style, sbind, sread, get_n. by rewrite HN. }
    rewrite (node_set_style_eq h r N) by done. destruct (may_restyle _ _ _); [|done].
    destruct (restyled _ _ _ _) as [[st l]|] eqn:Hs; [|done]. simpl. eapply SO_put_node; [done..|].
    pose proof (so_nslen _ _ _ S). destruct a; simpl in *; [|destruct (nstyle_ctor _)|..]; simplify_eq; eauto.
  Qed.
  Lemma SO_estyle h r a : SO h → eof r → young (length (h_es h0)) a → styles_only g h0 (edge_set_style r a h).1.
  Proof.
    intros HF Hr Ha. pose proof HF as (_ & S). destruct (h_edges h !! r) as [N|] eqn:HN.
    2: { unfold edge_set_style, sbind, sread, get_e. by rewrite HN. }
    rewrite (edge_set_style_eq h r N) by done. destruct (may_restyle _ _ _); [|done].
    destruct (restyled _ _ _ _) as [[st l]|] eqn:Hs; [|done]. simpl. eapply SO_put_edge; [done..|].
    pose proof (so_eslen _ _ _ S). destruct a; simpl in *; [|destruct (estyle_ctor _)|..]; simplify_eq; eauto.
  Qed.
  Lemma O_nstyle r d : nof r → pres SO (node_set_style r (SDict d)).
  Proof. intros Hr. apply SO_of; [apply dpres_node_style|]. intros h HF. by apply SO_nstyle. Qed.
  Lemma O_estyle r d : eof r → pres SO (edge_set_style r (SDict d)).
  Proof. intros Hr. apply SO_of; [apply dpres_edge_style|]. intros h HF. by apply SO_estyle. Qed.
  Lemma O_estyle_none r : eof r → pres SO (edge_set_style r SNone).
  Proof. intros Hr. apply SO_of; [apply dpres_edge_style_none|]. intros h HF. by apply SO_estyle. Qed.
  Lemma SO_ns h l : SO h → length (h_ns h) ≤ length l → SO (h <| h_ns := l |>).
  Proof.
    intros (W & []) Hl. split; [|by split; simpl; try done; lia].
    eapply WF_data_only; [done|]. apply data_only_same; simpl; done.
  Qed.
  Lemma SO_es h l : SO h → length (h_es h) ≤ length l → SO (h <| h_es := l |>).
  Proof.
    intros (W & []) Hl. split; [|by split; simpl; try done; lia].
    eapply WF_data_only; [done|]. apply data_only_same; simpl; done.
  Qed.
  Lemma O_assign_n r sty : nof r → pres SO (assign_nstyle r sty).
  Proof.
    intros Hr. apply SO_of; [apply dpres_assign_nstyle|]. intros h HF. unfold assign_nstyle, sbind, new_ns.
    apply SO_nstyle; [apply SO_ns; [done|rewrite app_length; lia]|done|]. simpl. apply HF.
  Qed.
  Lemma O_assign_e {A} e sty (x : A) : eof e → pres SO (let* k := new_es sty in do* edge_set_style e (SObj k) in sret x).
  Proof.
    intros He h HF.
    assert (SO ((let* k := new_es sty in edge_set_style e (SObj k)) h).1) as H.
    { apply SO_of; [apply dpres_assign_estyle|..|done]; clear h HF; intros h HF; unfold sbind, new_es.
      apply SO_estyle; [apply SO_es; [done|rewrite app_length; lia]|done|]. simpl. apply HF. }
    unfold sbind, new_es in *. destruct (edge_set_style _ _ _) as [h1 [[]|y]]; exact H.
  Qed.
  Lemma O_assign_e' e sty : eof e → pres SO (let* k := new_es sty in edge_set_style e (SObj k)).
  Proof.
    intros He h HF. pose proof (O_assign_e e sty tt He h HF) as H.
    unfold sbind, new_es in *. destruct (edge_set_style _ _ _) as [h1 [[]|y]]; exact H.
  Qed.
  Lemma O_ncomplement r d : pres SO (node_complement r d).
  Proof.
    intros h HF. unfold node_complement, sbind, sread, get_n. destruct (h_nodes h !! r) as [N|] eqn:HN; [|done].
    destruct (n_style N) as [s|] eqn:Hs; [|done].
    destruct (complement_ns_left h s d) as [->|(sty & d1 & sty' & _ & _ & _ & ->)]; [done|].
    apply SO_ns; [done|by rewrite insert_length].
  Qed.
  Lemma O_ecomplement r d : pres SO (edge_complement r d).
  Proof.
    intros h HF. unfold edge_complement, sbind, sread, get_e. destruct (h_edges h !! r) as [N|] eqn:HN; [|done].
    destruct (e_style N) as [s|] eqn:Hs; [|done].
    destruct (complement_es_left h s d) as [->|(sty & d1 & sty' & _ & _ & _ & ->)]; [done|].
    apply SO_es; [done|by rewrite insert_length].
  Qed.

  Lemma in_graph_nof h r : SO h → in_graph h g r → nof r.
  Proof.
    intros HS (N & HN & Hg)%in_graph_node N0 HN0; [|apply HS].
    destruct (SO_node_back h r N HS HN) as (N1 & HN1 & HN' & _). assert (N1 = N0) as -> by congruence.
    rewrite HN' in Hg. exact Hg.
  Qed.
  Lemma joins_eof h e x y : SO h → joins h g e x y → eof e.
  Proof.
    intros HS (N & HN & Hg & _) N0 HN0.
    destruct (SO_edge_back h e N HS HN) as (N1 & HN1 & HN' & _). assert (N1 = N0) as -> by congruence.
    rewrite HN' in Hg. exact Hg.
  Qed.
  Lemma OQ_nodes : presQ SO (λ ns, ∀ r, r ∈ ns → nof r) (sread (λ h, nodes h g)).
  Proof.
    apply presQ_read. intros h ns HF Hns r Hr. destruct (h_graphs h !! g) as [G|] eqn:HG.
    - rewrite (nodes_run h g G HG) in Hns. injection Hns as <-. eapply in_graph_nof; [done|]. by eapply elem_of_nodes.
    - unfold nodes, get_g in Hns. by rewrite HG in Hns.
  Qed.
  Lemma OQ_edges : presQ SO (λ es, ∀ e, e ∈ es → eof e) (sread (λ h, graph_edges h g)).
  Proof.
    apply presQ_read. intros h es HF Hes e He. destruct (h_graphs h !! g) as [G|] eqn:HG.
    - assert (W : WF h) by apply HF. rewrite (graph_edges_run h g G W HG) in Hes. injection Hes as <-.
      apply (elem_of_all_edges h g G) in He as (x & y & Hj); [|done..]. by eapply joins_eof.
    - unfold graph_edges, nodes, get_g in Hes. by rewrite HG in Hes.
  Qed.
  Lemma OQ_edges_dict : presQ SO (λ d, ∀ k e, (k, e) ∈ d → eof e) (sread (λ h, edges_dict h g)).
  Proof.
    apply presQ_read. intros h d HF Hd k e He. destruct (h_graphs h !! g) as [G|] eqn:HG.
    - assert (W : WF h) by apply HF. destruct (edges_dict_run h g G W HG) as (d' & Hd' & _ & _ & Hid).
      assert (d' = d) as -> by congruence. destruct (Hid k e He) as (x & y & E & Nx & Ny & Hj & _). by eapply joins_eof.
    - unfold edges_dict, nodes, get_g in Hd. by rewrite HG in Hd.
  Qed.

  Hint Resolve O_nstyle O_estyle O_estyle_none O_assign_n O_assign_e O_assign_e' O_ncomplement O_ecomplement : pres.
  Ltac ostep :=
    match goal with
    | |- pres _ (sbind (sread (λ h, nodes h g)) _) => eapply presQ_bind; [apply OQ_nodes|intros ? ?]
    | |- pres _ (sbind (sread (λ h, graph_edges h g)) _) => eapply presQ_bind; [apply OQ_edges|intros ? ?]
    | |- pres _ (sbind (new_es _) _) => fail 1
    | _ => pstep
    end.
  Ltac presO := repeat first [solve [eauto with pres] | ostep].

  Lemma O_style_edge carry e : eof e → pres SO (style_edge carry e).
  Proof. intros He. unfold style_edge. presO. Qed.
  Lemma O_style_edges : pres SO (stylize_edges_based_on_nodes g).
  Proof.
    unfold stylize_edges_based_on_nodes. ostep. ostep; [|presO]. apply pres_fold. intros. apply O_style_edge. auto.
  Qed.
  Lemma O_style_root used r : nof r → pres SO (style_root used r).
  Proof. intros Hr. unfold style_root. presO. Qed.
  Lemma O_style_branch r : nof r → pres SO (style_branch r).
  Proof. intros Hr. unfold style_branch. presO. Qed.
  Lemma O_pensieve scheme : pres SO (stylize_with_pensieve g scheme).
  Proof.
    unfold stylize_with_pensieve. ostep. ostep; [apply pres_fold; intros; apply O_style_root; auto|].
    ostep; [apply pres_iter; intros; apply O_style_branch; auto|]. apply O_style_edges.
  Qed.
  Lemma O_random scheme shuffle : (∀ l, shuffle l ≡ₚ l) → pres SO (stylize_randomly g scheme shuffle).
  Proof.
    intros Hs. unfold stylize_randomly. ostep. ostep; [|apply O_style_edges].
    apply pres_fold. intros used r Hr. rewrite Hs in Hr. presO.
  Qed.
  Lemma O_named {A} (G : graph) k (f : nref → M A) : (∀ k r, (k, r) ∈ g_nodes G → nof r) → (∀ r, nof r → pres SO (f r)) →
    pres SO (let* r := sread (λ _, dgetR (g_nodes G) k) in f r).
  Proof.
    intros HG Hf. eapply (presQ_bind _ nof); [|done]. apply presQ_read. intros h r _ Hr.
    unfold dgetR in Hr. destruct (dget _ _) eqn:Hd; [|done]. injection Hr as <-. apply dget_Some_in in Hd. eauto.
  Qed.
  Lemma O_edge_named {A} (d : dict edge_id eref) k (f : eref → M A) : (∀ k r, (k, r) ∈ d → eof r) → (∀ r, eof r → pres SO (f r)) →
    pres SO (let* r := sread (λ _, dgetR d k) in f r).
  Proof.
    intros HG Hf. eapply (presQ_bind _ eof); [|done]. apply presQ_read. intros h r _ Hr.
    unfold dgetR in Hr. destruct (dget _ _) eqn:Hd; [|done]. injection Hr as <-. apply dget_Some_in in Hd. eauto.
  Qed.
  Lemma OQ_graph : presQ SO (λ G, ∀ k r, (k, r) ∈ g_nodes G → nof r) (sread (λ h, get_g h g)).
  Proof.
    apply presQ_read. intros h G HF HG k r Hr. eapply in_graph_nof; [done|]. exists G, k. split; [|done].
    unfold get_g in HG. destruct (h_graphs h !! g); congruence.
  Qed.
  Lemma O_ncolour kv : pres SO (overwrite_node_colour g kv).
  Proof. unfold overwrite_node_colour. eapply presQ_bind; [apply OQ_graph|intros G HG]. apply O_named; [done|]. intros r Hr. presO. Qed.
  Lemma O_ecolour kv : pres SO (overwrite_edge_colour g kv).
  Proof.
    unfold overwrite_edge_colour. eapply presQ_bind; [apply OQ_edges_dict|intros G HG]. apply O_edge_named; [done|].
    intros r Hr. presO.
  Qed.
  Lemma O_stylize shuffle : (∀ l, shuffle l ≡ₚ l) → pres SO (stylize g shuffle).
  Proof.
    intros Hs. unfold stylize, when_dict. ostep; [presO|].
    ostep. { destruct (d_gnode _); [|presO]. ostep; [presO|]. ostep. apply pres_iter. intros. apply O_nstyle. auto. }
    ostep. { destruct (d_gedge _); [|presO]. ostep. apply pres_iter. intros. apply O_estyle. auto. }
    ostep. { destruct (eqb _ _); [apply O_pensieve|]. destruct (eqb _ _); [by apply O_random|presO]. }
    ostep. { apply pres_iter. intros kv _. eapply presQ_bind; [apply OQ_graph|intros G HG]. apply O_named; [done|].
             intros r Hr. presO. }
    ostep. { apply pres_iter. intros kv _. eapply presQ_bind; [apply OQ_edges_dict|intros G HG]. apply O_edge_named; [done|].
             intros r Hr. presO. }
    ostep. { apply pres_iter. intros kv _. apply O_ncolour. }
    ostep. { apply pres_iter. intros kv _. apply O_ecolour. }
    ostep. { destruct (d_gnode _); [|presO]. ostep; [presO|]. ostep. apply pres_iter. intros. apply O_ncomplement. }
    destruct (d_gedge _); [|presO]. ostep. apply pres_iter. intros. apply O_ecomplement.
  Qed.
End only.
