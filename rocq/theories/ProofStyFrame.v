(** Styling one graph leaves the others alone. *)
From Verif Require Export ProofFrame ProofC2.
From Verif Require Import ProofCompl.

Lemma presQ_read {A} (I : heap → Prop) (Q : A → Prop) (f : heap → res A) :
  (∀ h a, I h → f h = Ok a → Q a) → presQ I Q (sread f).
Proof. intros Hf h HI. unfold sread. destruct (f h) as [a|x] eqn:Ha; simpl; split; try done. intros ? [= <-]. by eapply Hf. Qed.

Section frame.
  Context (h0 : heap) (g g0 : gref) (Hne : g ≠ g0) (W0 : WF h0) (Hex0 : is_Some (h_graphs h0 !! g0)).
  Definition nin (r : nref) : Prop := ∀ N, h_nodes h0 !! r = Some N → n_graph N ≠ Some g0.
  Definition ein (e : eref) : Prop := ∀ E, h_edges h0 !! e = Some E → e_graph E ≠ Some g0.
  (** style objects that only [g0] uses *)
  Definition PI (h : heap) : Prop :=
    (∀ s, own_nstyle h0 g0 s → h_ns h !! s = h_ns h0 !! s ∧
       ∀ r N, nin r → h_nodes h !! r = Some N → n_style N ≠ Some s) ∧
    (∀ s, own_estyle h0 g0 s → h_es h !! s = h_es h0 !! s ∧
       ∀ r N, ein r → h_edges h !! r = Some N → e_style N ≠ Some s).
  Definition FI (h : heap) : Prop := WF h ∧ (data_only h0 h ∧ PI h) ∧ unchanged g0 h0 h.

  Lemma FI_of {A} (c : M A) : dpres c → (∀ h, FI h → unchanged g0 h (c h).1) → (∀ h, FI h → PI (c h).1) → pres FI c.
  Proof.
    intros H1 H2 H3 h HF. pose proof HF as (W & [Hd Hp] & Hu). split; [by eapply WF_data_only|].
    split; [split; [by eapply data_only_trans|by apply H3]|]. eapply unchanged_trans; [done|]. by apply H2.
  Qed.
  Lemma FI_node h r N : FI h → nin r → h_nodes h !! r = Some N → n_graph N ≠ Some g0.
  Proof.
    intros (_ & [Hd _] & _) Hr HN. destruct (do_node_back _ _ _ _ Hd HN) as (N0 & HN0 & Hg & _). rewrite Hg. by apply Hr.
  Qed.
  Lemma FI_edge h e E : FI h → ein e → h_edges h !! e = Some E → e_graph E ≠ Some g0.
  Proof.
    intros (_ & [Hd _] & _) Hr HN. destruct (do_edge_back _ _ _ _ Hd HN) as (N0 & HN0 & Hg & _). rewrite Hg. by apply Hr.
  Qed.
  Lemma FI_graph h : FI h → is_Some (h_graphs h !! g0).
  Proof. intros (_ & _ & Hu). by rewrite (un_graph _ _ _ Hu). Qed.

  Lemma un_nstyle h r a : FI h → nin r → unchanged g0 h (node_set_style r a h).1.
  Proof.
    intros HF Hr. destruct (node_set_style_step h r a) as [(N & HN & Hs)|Hs].
    - eapply step_unchanged; [apply HF|by apply FI_graph| |exact Hs]. by eapply FI_node.
    - eapply step_unchanged; [apply HF|by apply FI_graph| |exact Hs]. done.
  Qed.
  Lemma un_estyle h r a : FI h → ein r → unchanged g0 h (edge_set_style r a h).1.
  Proof.
    intros HF Hr. destruct (edge_set_style_step h r a) as [(N & HN & Hs)|Hs].
    - eapply step_unchanged; [apply HF|by apply FI_graph| |exact Hs]. by eapply FI_edge.
    - eapply step_unchanged; [apply HF|by apply FI_graph| |exact Hs]. done.
  Qed.
  (** [r] gets a style object younger than [h0] *)
  Lemma PI_put_node h r N N' l w : FI h → h_nodes h !! r = Some N →
    (n_style N' = n_style N ∨ ∃ s, n_style N' = Some s ∧ length (h_ns h0) ≤ s) → PI (put_node h r N' l w).
  Proof.
    intros (W & [Hd [Hp1 Hp2]] & Hu) HN HN'. split; [|apply Hp2]. intros s Hs. destruct (Hp1 s Hs) as [A B].
    destruct Hs as [Hlt Hs]. split.
    - simpl. rewrite lookup_app_l; [done|]. pose proof (do_ns _ _ Hd). lia.
    - intros r1 N1 Hr1. simpl. destruct (decide (r1 = r)) as [->|].
      + rewrite list_lookup_insert by (by eapply lookup_lt_Some). intros [= <-].
        destruct HN' as [->|(s' & -> & Hs')]; [by apply (B r N)|]. intros [= ->]. lia.
      + rewrite list_lookup_insert_ne by done. by apply B.
  Qed.
  Lemma PI_put_edge h r N N' l w : FI h → h_edges h !! r = Some N →
    (e_style N' = e_style N ∨ ∃ s, e_style N' = Some s ∧ length (h_es h0) ≤ s) → PI (put_edge h r N' l w).
  Proof.
    intros (W & [Hd [Hp1 Hp2]] & Hu) HN HN'. split; [apply Hp1|]. intros s Hs. destruct (Hp2 s Hs) as [A B].
    destruct Hs as [Hlt Hs]. split.
    - simpl. rewrite lookup_app_l; [done|]. pose proof (do_es _ _ Hd). lia.
    - intros r1 N1 Hr1. simpl. destruct (decide (r1 = r)) as [->|].
      + rewrite list_lookup_insert by (by eapply lookup_lt_Some). intros [= <-].
        destruct HN' as [->|(s' & -> & Hs')]; [by apply (B r N)|]. intros [= ->]. lia.
      + rewrite list_lookup_insert_ne by done. by apply B.
  Qed.
  Definition young (n : nat) (a : sarg) : Prop := match a with SObj s => n ≤ s | _ => True end.
  Lemma PI_nstyle h r a : FI h → young (length (h_ns h0)) a → PI (node_set_style r a h).1.
  Proof.
    intros HF Ha. pose proof HF as (_ & [Hd Hp] & _).
    destruct (h_nodes h !! r) as [N|] eqn:HN.
    2: { unfold node_set_style, sbind, sread, get_n. by rewrite HN. }
    rewrite (node_set_style_eq h r N) by done. destruct (may_restyle _ _ _); [|done].
    destruct (restyled _ _ _ _) as [[st l]|] eqn:Hr; [|done]. simpl. eapply PI_put_node; [done|done|]. simpl.
    pose proof (do_ns _ _ Hd). destruct a; simpl in *; [|destruct (nstyle_ctor _)|..]; simplify_eq; eauto.
  Qed.
  Lemma PI_estyle h r a : FI h → young (length (h_es h0)) a → PI (edge_set_style r a h).1.
  Proof.
    intros HF Ha. pose proof HF as (_ & [Hd Hp] & _).
    destruct (h_edges h !! r) as [N|] eqn:HN.
    2: { unfold edge_set_style, sbind, sread, get_e. by rewrite HN. }
    rewrite (edge_set_style_eq h r N) by done. destruct (may_restyle _ _ _); [|done].
    destruct (restyled _ _ _ _) as [[st l]|] eqn:Hr; [|done]. simpl. eapply PI_put_edge; [done|done|]. simpl.
    pose proof (do_es _ _ Hd). destruct a; simpl in *; [|destruct (estyle_ctor _)|..]; simplify_eq; eauto.
  Qed.
  Lemma F_nstyle r d : nin r → pres FI (node_set_style r (SDict d)).
  Proof.
    intros Hr. apply FI_of; [apply dpres_node_style|intros h HF; by apply un_nstyle|]. intros h HF. by apply PI_nstyle.
  Qed.
  Lemma F_estyle r d : ein r → pres FI (edge_set_style r (SDict d)).
  Proof.
    intros Hr. apply FI_of; [apply dpres_edge_style|intros h HF; by apply un_estyle|]. intros h HF. by apply PI_estyle.
  Qed.
  Lemma F_estyle_none r : ein r → pres FI (edge_set_style r SNone).
  Proof.
    intros Hr. apply FI_of; [apply dpres_edge_style_none|intros h HF; by apply un_estyle|]. intros h HF. by apply PI_estyle.
  Qed.
  Lemma FI_ns h l : FI h → length (h_ns h) ≤ length l → (∀ s, own_nstyle h0 g0 s → l !! s = h_ns h !! s) → FI (h <| h_ns := l |>).
  Proof.
    intros (W & [Hd Hp] & Hu) Hl Hs. assert (data_only h (h <| h_ns := l |>)) as Hd'.
    { apply data_only_same; simpl; done. }
    split; [by eapply WF_data_only|]. split; [|by destruct Hu]. split; [by eapply data_only_trans|].
    destruct Hp as [Hp1 Hp2]. split; [|done]. intros s Ho. destruct (Hp1 s Ho). simpl. by rewrite Hs.
  Qed.
  Lemma FI_es h l : FI h → length (h_es h) ≤ length l → (∀ s, own_estyle h0 g0 s → l !! s = h_es h !! s) → FI (h <| h_es := l |>).
  Proof.
    intros (W & [Hd Hp] & Hu) Hl Hs. assert (data_only h (h <| h_es := l |>)) as Hd'.
    { apply data_only_same; simpl; done. }
    split; [by eapply WF_data_only|]. split; [|by destruct Hu]. split; [by eapply data_only_trans|].
    destruct Hp as [Hp1 Hp2]. split; [done|]. intros s Ho. destruct (Hp2 s Ho). simpl. by rewrite Hs.
  Qed.
  Lemma FI_new_ns h l : FI h → FI (h <| h_ns := h_ns h ++ l |>).
  Proof.
    intros HF. apply FI_ns; [done|rewrite app_length; lia|]. intros s [Hlt _]. rewrite lookup_app_l; [done|].
    destruct HF as (_ & [Hd _] & _). pose proof (do_ns _ _ Hd). lia.
  Qed.
  Lemma FI_new_es h l : FI h → FI (h <| h_es := h_es h ++ l |>).
  Proof.
    intros HF. apply FI_es; [done|rewrite app_length; lia|]. intros s [Hlt _]. rewrite lookup_app_l; [done|].
    destruct HF as (_ & [Hd _] & _). pose proof (do_es _ _ Hd). lia.
  Qed.
  Lemma F_assign_n r sty : nin r → pres FI (assign_nstyle r sty).
  Proof.
    intros Hr. apply FI_of; [apply dpres_assign_nstyle|..]; intros h HF; unfold assign_nstyle, sbind, new_ns.
    - eapply unchanged_trans; [|apply un_nstyle; [|done]]; [by split|]. by apply FI_new_ns.
    - apply PI_nstyle; [by apply FI_new_ns|]. simpl. destruct HF as (_ & [Hd _] & _). by pose proof (do_ns _ _ Hd).
  Qed.
  Lemma F_assign_e {A} e sty (x : A) : ein e → pres FI (let* k := new_es sty in do* edge_set_style e (SObj k) in sret x).
  Proof.
    intros He h HF.
    assert (FI ((let* k := new_es sty in edge_set_style e (SObj k)) h).1) as H.
    { apply FI_of; [apply dpres_assign_estyle|..|done]; clear h HF; intros h HF; unfold sbind, new_es.
      - eapply unchanged_trans; [|apply un_estyle; [|done]]; [by split|]. by apply FI_new_es.
      - apply PI_estyle; [by apply FI_new_es|]. simpl. destruct HF as (_ & [Hd _] & _). by pose proof (do_es _ _ Hd). }
    unfold sbind, new_es in *. destruct (edge_set_style _ _ _) as [h1 [[]|y]]; exact H.
  Qed.
  Lemma F_assign_e' e sty : ein e → pres FI (let* k := new_es sty in edge_set_style e (SObj k)).
  Proof.
    intros He h HF. pose proof (F_assign_e e sty tt He h HF) as H.
    unfold sbind, new_es in *. destruct (edge_set_style _ _ _) as [h1 [[]|y]]; exact H.
  Qed.
  Lemma F_ncomplement r d : nin r → pres FI (node_complement r d).
  Proof.
    intros Hr h HF. unfold node_complement, sbind, sread, get_n. destruct (h_nodes h !! r) as [N|] eqn:HN; [|done].
    destruct (n_style N) as [s|] eqn:Hs; [|done].
    destruct (complement_ns_left h s d) as [->|(sty & d1 & sty' & _ & _ & _ & ->)]; [done|].
    apply FI_ns; [done|by rewrite insert_length|]. intros s' Ho. rewrite list_lookup_insert_ne; [done|]. intros ->.
    destruct HF as (_ & [_ [Hp _]] & _). destruct (Hp s' Ho) as [_ Hp']. by apply (Hp' r N).
  Qed.
  Lemma F_ecomplement r d : ein r → pres FI (edge_complement r d).
  Proof.
    intros Hr h HF. unfold edge_complement, sbind, sread, get_e. destruct (h_edges h !! r) as [N|] eqn:HN; [|done].
    destruct (e_style N) as [s|] eqn:Hs; [|done].
    destruct (complement_es_left h s d) as [->|(sty & d1 & sty' & _ & _ & _ & ->)]; [done|].
    apply FI_es; [done|by rewrite insert_length|]. intros s' Ho. rewrite list_lookup_insert_ne; [done|]. intros ->.
    destruct HF as (_ & [_ [_ Hp]] & _). destruct (Hp s' Ho) as [_ Hp']. by apply (Hp' r N).
  Qed.

  (** what the stylist reads off the graph *)
  Lemma in_graph_nin h r : FI h → in_graph h g r → nin r.
  Proof.
    intros (W & [Hd _] & _) (N & HN & Hg)%in_graph_node N0 HN0; [|done].
    destruct (do_node_fwd _ _ _ _ Hd HN0) as (N1 & HN1 & Hg1 & _). congruence.
  Qed.
  Lemma joins_ein h e x y : FI h → joins h g e x y → ein e.
  Proof.
    intros (W & [Hd _] & _) (E & HE & Hg & _) E0 HE0.
    destruct (do_edge_fwd _ _ _ _ Hd HE0) as (N1 & HN1 & Hg1 & _). congruence.
  Qed.
  Lemma FQ_nodes : presQ FI (λ ns, ∀ r, r ∈ ns → nin r) (sread (λ h, nodes h g)).
  Proof.
    apply presQ_read. intros h ns HF Hns r Hr. destruct (h_graphs h !! g) as [G|] eqn:HG.
    - rewrite (nodes_run h g G HG) in Hns. injection Hns as <-. eapply in_graph_nin; [done|]. by eapply elem_of_nodes.
    - unfold nodes, get_g in Hns. by rewrite HG in Hns.
  Qed.
  Lemma FQ_edges : presQ FI (λ es, ∀ e, e ∈ es → ein e) (sread (λ h, graph_edges h g)).
  Proof.
    apply presQ_read. intros h es HF Hes e He. destruct (h_graphs h !! g) as [G|] eqn:HG.
    - assert (W : WF h) by apply HF. rewrite (graph_edges_run h g G W HG) in Hes. injection Hes as <-.
      apply (elem_of_all_edges h g G) in He as (x & y & Hj); [|done..]. by eapply joins_ein.
    - unfold graph_edges, nodes, get_g in Hes. by rewrite HG in Hes.
  Qed.
  Lemma FQ_edges_dict : presQ FI (λ d, ∀ k e, (k, e) ∈ d → ein e) (sread (λ h, edges_dict h g)).
  Proof.
    apply presQ_read. intros h d HF Hd k e He. destruct (h_graphs h !! g) as [G|] eqn:HG.
    - assert (W : WF h) by apply HF. destruct (edges_dict_run h g G W HG) as (d' & Hd' & _ & _ & Hid).
      assert (d' = d) as -> by congruence. destruct (Hid k e He) as (x & y & E & Nx & Ny & Hj & _). by eapply joins_ein.
    - unfold edges_dict, nodes, get_g in Hd. by rewrite HG in Hd.
  Qed.

  Hint Resolve F_nstyle F_estyle F_estyle_none F_assign_n F_assign_e F_assign_e' F_ncomplement F_ecomplement : pres.
  Ltac fstep :=
    match goal with
    | |- pres _ (sbind (sread (λ h, nodes h g)) _) => eapply presQ_bind; [apply FQ_nodes|intros ? ?]
    | |- pres _ (sbind (sread (λ h, graph_edges h g)) _) => eapply presQ_bind; [apply FQ_edges|intros ? ?]
    | |- pres _ (sbind (new_es _) _) => fail 1
    | _ => pstep
    end.
  Ltac presF := repeat first [solve [eauto with pres] | fstep].

  Lemma F_style_edge carry e : ein e → pres FI (style_edge carry e).
  Proof. intros He. unfold style_edge. presF. Qed.
  Lemma F_style_edges : pres FI (stylize_edges_based_on_nodes g).
  Proof.
    unfold stylize_edges_based_on_nodes. fstep. fstep; [|presF]. apply pres_fold. intros. apply F_style_edge. auto.
  Qed.
  Lemma F_style_root used r : nin r → pres FI (style_root used r).
  Proof. intros Hr. unfold style_root. presF. Qed.
  Lemma F_style_branch r : nin r → pres FI (style_branch r).
  Proof. intros Hr. unfold style_branch. presF. Qed.
  Hint Resolve F_style_edges F_style_root F_style_branch : pres.
  Lemma F_pensieve scheme : pres FI (stylize_with_pensieve g scheme).
  Proof.
    unfold stylize_with_pensieve. fstep. fstep; [apply pres_fold; intros; apply F_style_root; auto|].
    fstep; [apply pres_iter; intros; apply F_style_branch; auto|]. apply F_style_edges.
  Qed.
  Lemma F_random scheme shuffle : (∀ l, shuffle l ≡ₚ l) → pres FI (stylize_randomly g scheme shuffle).
  Proof.
    intros Hs. unfold stylize_randomly. fstep. fstep; [|apply F_style_edges].
    apply pres_fold. intros used r Hr. rewrite Hs in Hr. presF.
  Qed.
  (** a node looked up by name *)
  Lemma F_named {A} (G : graph) k (f : nref → M A) : (∀ k r, (k, r) ∈ g_nodes G → nin r) → (∀ r, nin r → pres FI (f r)) →
    pres FI (let* r := sread (λ _, dgetR (g_nodes G) k) in f r).
  Proof.
    intros HG Hf. eapply (presQ_bind _ nin); [|done]. apply presQ_read. intros h r _ Hr.
    unfold dgetR in Hr. destruct (dget _ _) eqn:Hd; [|done]. injection Hr as <-. apply dget_Some_in in Hd. eauto.
  Qed.
  Lemma F_edge_named {A} (d : dict edge_id eref) k (f : eref → M A) : (∀ k r, (k, r) ∈ d → ein r) → (∀ r, ein r → pres FI (f r)) →
    pres FI (let* r := sread (λ _, dgetR d k) in f r).
  Proof.
    intros HG Hf. eapply (presQ_bind _ ein); [|done]. apply presQ_read. intros h r _ Hr.
    unfold dgetR in Hr. destruct (dget _ _) eqn:Hd; [|done]. injection Hr as <-. apply dget_Some_in in Hd. eauto.
  Qed.
  Lemma FQ_graph : presQ FI (λ G, ∀ k r, (k, r) ∈ g_nodes G → nin r) (sread (λ h, get_g h g)).
  Proof.
    apply presQ_read. intros h G HF HG k r Hr. eapply in_graph_nin; [done|]. exists G, k. split; [|done].
    unfold get_g in HG. destruct (h_graphs h !! g); congruence.
  Qed.
  Lemma F_ncolour kv : pres FI (overwrite_node_colour g kv).
  Proof. unfold overwrite_node_colour. eapply presQ_bind; [apply FQ_graph|intros G HG]. apply F_named; [done|]. intros r Hr. presF. Qed.
  Lemma F_ecolour kv : pres FI (overwrite_edge_colour g kv).
  Proof.
    unfold overwrite_edge_colour. eapply presQ_bind; [apply FQ_edges_dict|intros G HG]. apply F_edge_named; [done|].
    intros r Hr. presF.
  Qed.
  Lemma F_stylize shuffle : (∀ l, shuffle l ≡ₚ l) → pres FI (stylize g shuffle).
  Proof.
    intros Hs. unfold stylize, when_dict. fstep; [presF|].
    fstep. { destruct (d_gnode _); [|presF]. fstep; [presF|]. fstep. apply pres_iter. intros. apply F_nstyle. auto. }
    fstep. { destruct (d_gedge _); [|presF]. fstep. apply pres_iter. intros. apply F_estyle. auto. }
    fstep. { destruct (eqb _ _); [apply F_pensieve|]. destruct (eqb _ _); [by apply F_random|presF]. }
    fstep. { apply pres_iter. intros kv _. eapply presQ_bind; [apply FQ_graph|intros G HG]. apply F_named; [done|].
             intros r Hr. presF. }
    fstep. { apply pres_iter. intros kv _. eapply presQ_bind; [apply FQ_edges_dict|intros G HG]. apply F_edge_named; [done|].
             intros r Hr. presF. }
    fstep. { apply pres_iter. intros kv _. apply F_ncolour. }
    fstep. { apply pres_iter. intros kv _. apply F_ecolour. }
    fstep. { destruct (d_gnode _); [|presF]. fstep; [presF|]. fstep. apply pres_iter. intros. presF. }
    destruct (d_gedge _); [|presF]. fstep. apply pres_iter. intros. presF.
  Qed.
End frame.

Lemma FI_start h g0 : WF h → FI h g0 h.
Proof.
  intros W. split; [done|]. split; [|apply unchanged_refl]. split; [apply data_only_refl|].
  split; intros s [Hlt Ho]; (split; [done|]); intros r N Hr HN Hs; by apply (Hr N HN), (Ho r N).
Qed.
Lemma stylize_unchanged h g g0 shuffle : WF h → is_Some (h_graphs h !! g0) → g ≠ g0 → (∀ l, shuffle l ≡ₚ l) →
  unchanged g0 h (stylize g shuffle h).1.
Proof.
  intros W Hex Hne Hs. destruct (F_stylize h g g0 Hne Hex shuffle Hs h) as (_ & _ & ?); [by apply FI_start|done].
Qed.
Lemma stylize_own_styles h g g0 shuffle : WF h → is_Some (h_graphs h !! g0) → g ≠ g0 → (∀ l, shuffle l ≡ₚ l) →
  own_styles_kept g0 h (stylize g shuffle h).1.
Proof.
  intros W Hex Hne Hs. destruct (F_stylize h g g0 Hne Hex shuffle Hs h) as (_ & [_ [Hp1 Hp2]] & _); [by apply FI_start|].
  split; intros s Ho; [by destruct (Hp1 s Ho)|by destruct (Hp2 s Ho)].
Qed.

(** Every call whose target is another graph. *)
Lemma writes_cases c : (∃ g' sh, c = CStylize g' sh) ∨ (∃ v g' d p sh, c = CRender v g' d p sh) ∨
  (∃ s d, c = CNStyleSet s d) ∨ (∃ s d, c = CEStyleSet s d) ∨ writes_styles c = false.
Proof.
  destruct c; try (by do 4 right); [left|right; left|do 2 right; left|do 3 right; left]; by repeat eexists.
Qed.
Lemma put_ns_unchanged h g s d : unchanged g h (complement_ns s d h).1.
Proof. destruct (complement_ns_left h s d) as [->|(sty & d1 & sty' & _ & _ & _ & ->)]; [apply unchanged_refl|]. by split. Qed.
Lemma put_es_unchanged h g s d : unchanged g h (complement_es s d h).1.
Proof. destruct (complement_es_left h s d) as [->|(sty & d1 & sty' & _ & _ & _ & ->)]; [apply unchanged_refl|]. by split. Qed.
Lemma call_unchanged h c g : WF h → allowed h c → is_Some (h_graphs h !! g) → target h c ≠ Some g → unchanged g h (after c h).
Proof.
  intros W Hal Hex Ht.
  destruct (writes_cases c) as [(g' & sh & ->)|[(v & g' & d & p & sh & ->)|[(s & d & ->)|[(s & d & ->)|Hws]]]].
  - apply stylize_unchanged; try done. simpl in Ht. congruence.
  - simpl in *. unfold render, sbind. assert (g' ≠ g) as Hg by congruence.
    pose proof (stylize_unchanged h g' g sh W Hex Hg Hal) as Hu.
    destruct (stylize g' sh h) as [h1 [a|x]]; simpl in Hu; [|done]. unfold sread. by destruct graphviz_str.
  - apply put_ns_unchanged.
  - apply put_es_unchanged.
  - assert (kept (λ h', unchanged g h h' ∧ is_Some (h_graphs h' !! g)) (λ og, og ≠ Some g) (λ t, t ≠ TRestyle)) as HK.
    { split; [done|done|..].
      - intros h' [_ Hx%lookup_lt_is_Some] [= Heq]. lia.
      - intros h1 h2 og t W1 [Hu Hx] Hog Hr Hs. split; [|by eapply step_graphs_some].
        eapply unchanged_trans; [done|]. by eapply step_unchanged. }
    apply (kept_after_on _ _ _ h c HK); try done.
Qed.
(** Style objects are written on only by the stylist and by assignments to them. *)
Lemma call_styles h c : WF h → allowed h c → writes_styles c = false → styles_kept h (after c h).
Proof.
  intros W Hal Hws.
  assert (kept (λ h', styles_kept h h') (λ og, True) (λ t, t ≠ TRestyle)) as HK.
  { split; [done|done|done|]. intros h3 h4 og t W1 Hu _ Hr Hs. eapply styles_trans; [done|]. by eapply step_styles. }
  apply (kept_after_on _ _ _ h c HK); try done.
Qed.
Lemma call_own_styles h c g : WF h → allowed h c → is_Some (h_graphs h !! g) → target h c ≠ Some g → ¬ restyles_own h g c →
  own_styles_kept g h (after c h).
Proof.
  intros W Hal Hex Ht Hro.
  destruct (writes_cases c) as [(g' & sh & ->)|[(v & g' & d & p & sh & ->)|[(s & d & ->)|[(s & d & ->)|Hws]]]].
  - apply stylize_own_styles; try done. simpl in Ht. congruence.
  - simpl in *. unfold render, sbind. assert (g' ≠ g) as Hg by congruence.
    pose proof (stylize_own_styles h g' g sh W Hex Hg Hal) as Hu.
    destruct (stylize g' sh h) as [h1 [a|x]]; simpl in Hu; [|done]. unfold sread. by destruct graphviz_str.
  - simpl in *. unfold set_nstyle. destruct (complement_ns_left h s d) as [->|(sty & d1 & sty' & _ & _ & _ & ->)]; [done|].
    split; [|done]. intros s' Hs'. simpl. rewrite list_lookup_insert_ne; [done|]. by intros ->.
  - simpl in *. unfold set_estyle. destruct (complement_es_left h s d) as [->|(sty & d1 & sty' & _ & _ & _ & ->)]; [done|].
    split; [done|]. intros s' Hs'. simpl. rewrite list_lookup_insert_ne; [done|]. by intros ->.
  - destruct (call_styles h c W Hal Hws) as [A B].
    split; intros s [Hlt _]; apply lookup_lt_is_Some in Hlt as [S HS]; rewrite HS; auto.
Qed.
Lemma after_graphs_some h c (g : gref) : WF h → allowed h c → is_Some (h_graphs h !! g) → is_Some (h_graphs (after c h) !! g).
Proof.
  intros W Hal Hex.
  assert (kept (λ h', is_Some (h_graphs h' !! g)) (λ _, True) (λ _, True)) as HK.
  { split; try done. intros h1 h2 og t W1 Hx _ _ Hs. by eapply step_graphs_some. }
  by apply (kept_after _ _ h c HK).
Qed.
Lemma aside_reachable g h h' : reachable h → aside g h h' → reachable h'.
Proof. intros Hr. induction 1; [done|]. constructor; auto. Qed.
Lemma aside_unchanged g h h' : WF h → is_Some (h_graphs h !! g) → aside g h h' → unchanged g h h'.
Proof.
  intros W Hex Ha. assert (WF h' ∧ is_Some (h_graphs h' !! g) ∧ unchanged g h h') as (_ & _ & ?); [|done].
  induction Ha as [|h h' c Ha IH Hal Ht]; [split_and!; [done..|apply unchanged_refl]|].
  destruct IH as (W' & Hex' & Hu); [done..|]. split_and!; [by apply WF_after|by apply after_graphs_some|].
  eapply unchanged_trans; [done|]. by apply call_unchanged.
Qed.
