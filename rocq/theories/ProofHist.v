(** Reasoning about whole histories: a property of heaps that the primitive calls
    keep is kept by every call, including the builders and the stylist. *)
From Verif Require Export ProofOps ProofSet.

(** [c] keeps [I], and its result satisfies [Q]. *)
Definition presQ {A} (I : heap → Prop) (Q : A → Prop) (c : M A) : Prop :=
  ∀ h, I h → I (c h).1 ∧ ∀ a, (c h).2 = Ok a → Q a.
Lemma presQ_bind {A B} (I : heap → Prop) (Q : A → Prop) (c : M A) (k : A → M B) :
  presQ I Q c → (∀ a, Q a → pres I (k a)) → pres I (sbind c k).
Proof.
  intros Hc Hk h HI. unfold sbind. destruct (Hc h HI) as [H1 H2].
  destruct (c h) as [h1 [a|x]]; simpl in *; [|done]. by apply Hk; [apply H2|].
Qed.

(** [K] is kept by the calls that change the structure of a graph in [okg]. *)
Record closed (K : heap → Prop) (okg : gref → Prop) : Prop := {
  k_fresh : ∀ h, K h → okg (length (h_graphs h));
  k_new : ∀ h s o d, WF h → K h → K (new_graph s o d h).1;
  k_add : ∀ h g k a, WF h → K h → okg g → nsarg_ok h (a_style a) → K (add_node g (AName k) a h).1;
  k_connect : ∀ h g x y a, WF h → K h → okg g → esarg_ok h (c_style a) → K (connect g x y a h).1;
  k_remove : ∀ h g x, WF h → K h → okg g → K (remove_node g x h).1;
  k_copy : ∀ h g, WF h → K h → K (copy g h).1;
  k_disp : ∀ h g f, WF h → K h → okg g → (∀ D, d_overwrite (f D) = d_overwrite D) → K (upd_disp g f h).1;
  k_strict : ∀ h g b, WF h → K h → okg g → K (upd_g g (λ G, G <| g_strict := b |>) h).1;
  k_ordering : ∀ h g b, WF h → K h → okg g → K (upd_g g (λ G, G <| g_ordering := b |>) h).1 }.

Section builders.
  Context (K : heap → Prop) (okg : gref → Prop) (HK : closed K okg).

  Definition J (n m : nat) (h : heap) : Prop := Inv n m h ∧ K h.

  Lemma J_pres {A} n m (c : M A) : pres (Inv n m) c → (∀ h, Inv n m h → K h → K (c h).1) → pres (J n m) c.
  Proof. intros H1 H2 h [HI HKh]. split; [by apply H1|by apply H2]. Qed.

  Lemma J_add n m g k a : okg g → nsarg_lt n (a_style a) → pres (J n m) (add_node g (AName k) a).
  Proof.
    intros Hg Ha. apply J_pres; [by apply Inv_add_node|]. intros h [W S] Hk.
    eapply k_add; try done. by eapply nsarg_lt_ok.
  Qed.
  Lemma J_connect n m g x y a : okg g → nsarg_lt m (c_style a) → pres (J n m) (connect g x y a).
  Proof.
    intros Hg Ha. apply J_pres; [by apply Inv_connect|]. intros h [W S] Hk.
    eapply k_connect; try done. by eapply esarg_lt_ok.
  Qed.
  Lemma J_remove n m g x : okg g → pres (J n m) (remove_node g x).
  Proof. intros Hg. apply J_pres; [by apply Inv_remove_node|]. intros h [W S] Hk. by eapply k_remove. Qed.
  Lemma J_new n m s o d : presQ (J n m) okg (new_graph s o d).
  Proof.
    intros h [HI Hk]. split.
    - split; [by apply Inv_new_graph|]. eapply k_new; [done|apply HI|done].
    - intros g [= <-]. by eapply k_fresh.
  Qed.
  Lemma J_disp n m g f : okg g → (∀ D, d_overwrite (f D) = d_overwrite D) → pres (J n m) (upd_disp g f).
  Proof. intros Hg Hf. apply J_pres; [by apply Inv_upd_disp|]. intros h [W S] Hk. by eapply k_disp. Qed.
  Lemma J_strict n m g b : okg g → pres (J n m) (upd_g g (λ G, G <| g_strict := b |>)).
  Proof. intros Hg. apply J_pres; [by apply Inv_upd_strict|]. intros h [W S] Hk. by eapply k_strict. Qed.
  Lemma J_ordering n m g b : okg g → pres (J n m) (upd_g g (λ G, G <| g_ordering := b |>)).
  Proof. intros Hg. apply J_pres; [by apply Inv_upd_ordering|]. intros h [W S] Hk. by eapply k_ordering. Qed.
  Hint Resolve J_add J_connect J_remove J_strict J_ordering : pres.
  Hint Extern 1 (pres (J _ _) (upd_disp _ _)) => (apply J_disp; [assumption|intros ?; reflexivity]) : pres.
  Ltac jstep :=
    match goal with
    | |- pres (J ?n ?m) (sbind (new_graph _ _ _) _) => eapply presQ_bind; [apply J_new|intros ? ?]
    | _ => pstep
    end.
  Ltac presJ := repeat first [solve [eauto with pres] | jstep].

  Lemma J_from_lists n m d s t e strict : pres (J n m) (from_lists d s t e strict).
  Proof. unfold from_lists, from_lists_row. presJ. Qed.
  Lemma J_from_object n m `{EqDecision Obj} (children parents : Obj → list Obj) hash ostr fuel d o strict md mh :
    pres (J n m) (from_object children parents hash ostr fuel d o strict md mh).
  Proof. unfold from_object. presJ. Qed.
  Lemma J_from_text n m d root lines indent : pres (J n m) (from_indented_text d root lines indent).
  Proof. unfold from_indented_text, indented_row. presJ. Qed.
  Lemma J_random n m d k strict cycle si p ord draws : pres (J n m) (random_graph d k strict cycle si p ord draws).
  Proof. unfold random_graph. presJ. Qed.

  Lemma J_append_repr n m g d : okg g → repr_styles n m d → pres (J n m) (append_repr g d).
  Proof.
    intros Hg [Hn He]. unfold append_repr.
    repeat (apply pres_bind; [apply pres_when_some; intros ?; presJ|intros _]).
    apply pres_bind; [|intros _].
    { destruct (r_nodes d) as [nd|ns] eqn:Hd.
      - apply pres_iter. intros kv Hkv. presM. apply J_add; [done|]. by eapply Hn.
      - presJ. }
    apply pres_bind; [|intros ed].
    { apply pres_fold. intros b s Hs. specialize (He s Hs). destruct s; simpl in *; presJ. }
    repeat (apply pres_bind; [apply pres_when_some; intros ?; presJ|intros _]).
    apply pres_when_some; intros ?; presJ.
  Qed.

  Lemma J_append n m g o : okg g → gobj_styles n m o → pres (J n m) (graph_append g o).
  Proof.
    intros Hg Ho h [[W S] Hk]. unfold graph_append, sbind, sread. destruct (obj_dict h o) as [d|x] eqn:Hd; [|done].
    assert (repr_styles (length (h_ns h)) (length (h_es h)) d) as Hs.
    { eapply obj_dict_styles; [done| |done]. destruct o; simpl in *; try done. by eapply repr_styles_mono; try apply S. }
    destruct (J_append_repr _ _ g d Hg Hs h) as [[W' S'] Hk']; [split; [split; [done|split; lia]|done]|].
    split; [|done]. split; [done|]. destruct S, S'. split; lia.
  Qed.
  Lemma J_append_all n m g os : okg g → (∀ o, o ∈ os → gobj_styles n m o) → pres (J n m) (append_all g os).
  Proof. intros Hg Hos. apply pres_iter. intros o Ho. apply J_append; auto. Qed.
  Lemma J_graph_of n m s o d ob : gobj_styles n m ob → pres (J n m) (graph_of s o d ob).
  Proof.
    intros Ho. unfold graph_of. eapply presQ_bind; [apply J_new|]. intros g Hg.
    apply pres_bind; [by apply J_append|]. intros _. apply pres_ret.
  Qed.
  Lemma J_from_dict n m d r : repr_styles n m r → pres (J n m) (from_dict d r).
  Proof.
    intros Ho. unfold from_dict. eapply presQ_bind; [apply J_new|]. intros g Hg.
    apply pres_bind; [by apply J_append|]. intros _. apply pres_ret.
  Qed.

  Lemma K_add_graphs h dflt f order g1 g2 : WF h → K h → okg g1 → K (add_graphs dflt f order g1 g2 h).1.
  Proof.
    intros W Hk Hg1. unfold add_graphs, sbind, sread.
    destruct (graph_repr h g1) as [d1|x1] eqn:H1; [|done].
    destruct (graph_repr h g2) as [d2|x2] eqn:H2; [|done].
    destruct (get_g h g2) as [G2|x] eqn:HG2; [|done].
    pose proof (graph_repr_styles _ _ _ W H1) as S1. pose proof (graph_repr_styles _ _ _ W H2) as S2.
    set (c := when_some _ _).
    assert (HI : J (length (h_ns h)) (length (h_es h)) (c h).1).
    { assert (pres (J (length (h_ns h)) (length (h_es h))) c) as Hc.
      { apply pres_when_some. intros a. by apply J_disp. }
      apply Hc. split; [|done]. split; [done|split; lia]. }
    destruct (c h) as [h1 [[]|x]]; simpl in *; [|apply HI].
    destruct (add_repr f order d1 d2) as [d|x] eqn:Hd; [|apply HI].
    apply (J_graph_of _ _ false true dflt (ODict d)) in HI; [by apply HI|]. simpl.
    eapply add_repr_styles; [exact S1|exact S2|exact Hd].
  Qed.

  Lemma copy_result h g g' : WF h → (copy g h).2 = Ok g' → g' = length (h_graphs h).
  Proof.
    intros W. destruct (h_graphs h !! g) as [G|] eqn:HG.
    - destruct (copy_cases h g G W HG) as [[_ ->]|[(_ & _ & ->)|(_ & _ & ->)]]; simpl; congruence.
    - unfold copy, sbind, sread at 1, get_g. by rewrite HG.
  Qed.
  Lemma J_filter n m g xs d ft : pres (J n m) (filter_graph g xs d ft).
  Proof.
    unfold filter_graph. apply pres_bind; [apply pres_read|intros rel]. apply pres_bind; [apply pres_read|intros G].
    eapply (presQ_bind _ okg).
    { intros h [[W S] Hk]. split.
      - split; [|by eapply k_copy]. split; [by apply WF_copy|].
        destruct (h_graphs h !! g) as [G0|] eqn:HG; [|by rewrite copy_none].
        destruct (copy_cases h g G0 W HG) as [[_ ->]|[(_ & _ & ->)|(_ & _ & ->)]]; [done..|].
        destruct S. split; simpl; rewrite ?app_length; lia.
      - intros g' ->%copy_result; [|done]. by eapply k_fresh. }
    intros g' Hg'. presJ.
  Qed.
End builders.

(** [K] is kept by what the stylist does. *)
Record sclosed (K : heap → Prop) : Prop := {
  k_nstyle : ∀ h r a, WF h → K h → nsarg_ok h a → K (node_set_style r a h).1;
  k_estyle : ∀ h e a, WF h → K h → esarg_ok h a → K (edge_set_style e a h).1;
  k_new_ns : ∀ h l, WF h → K h → K (h <| h_ns := h_ns h ++ l |>);
  k_new_es : ∀ h l, WF h → K h → K (h <| h_es := h_es h ++ l |>);
  k_upd_ns : ∀ h s f, WF h → K h → K (upd_ns s f h).1;
  k_upd_es : ∀ h s f, WF h → K h → K (upd_es s f h).1 }.

Section stylist.
  Context (K : heap → Prop) (HK : sclosed K).
  Definition WK (h : heap) : Prop := WF h ∧ K h.

  Lemma WK_d {A} (c : M A) : dpres c → (∀ h, WF h → K h → K (c h).1) → pres WK c.
  Proof. intros H1 H2 h [W Hk]. split; [by eapply WF_data_only|by apply H2]. Qed.
  Lemma WK_nstyle r d : pres WK (node_set_style r (SDict d)).
  Proof. apply WK_d; [apply dpres_node_style|]. intros h W Hk. by apply k_nstyle. Qed.
  Lemma WK_estyle r d : pres WK (edge_set_style r (SDict d)).
  Proof. apply WK_d; [apply dpres_edge_style|]. intros h W Hk. by apply k_estyle. Qed.
  Lemma WK_estyle_none r : pres WK (edge_set_style r SNone).
  Proof. apply WK_d; [apply dpres_edge_style_none|]. intros h W Hk. by apply k_estyle. Qed.
  Lemma WF_new_ns h l : WF h → WF (h <| h_ns := h_ns h ++ l |>).
  Proof. intros W. eapply WF_data_only; [done|]. apply data_only_same; simpl; try done. apply app_length_le. Qed.
  Lemma WF_new_es h l : WF h → WF (h <| h_es := h_es h ++ l |>).
  Proof. intros W. eapply WF_data_only; [done|]. apply data_only_same; simpl; try done. apply app_length_le. Qed.
  Lemma WK_assign_n r sty : pres WK (assign_nstyle r sty).
  Proof.
    apply WK_d; [apply dpres_assign_nstyle|]. intros h W Hk. unfold assign_nstyle, sbind, new_ns.
    apply k_nstyle; [done|by apply WF_new_ns|by apply k_new_ns|]. simpl. rewrite app_length. simpl. lia.
  Qed.
  Lemma WK_assign_e e sty : pres WK (let* k := new_es sty in edge_set_style e (SObj k)).
  Proof.
    apply WK_d; [apply dpres_assign_estyle|]. intros h W Hk. unfold sbind, new_es.
    apply k_estyle; [done|by apply WF_new_es|by apply k_new_es|]. simpl. rewrite app_length. simpl. lia.
  Qed.
  Lemma WK_upd_ns s f : pres WK (upd_ns s f).
  Proof. apply WK_d; [apply dpres_upd_ns|]. intros h W Hk. by apply k_upd_ns. Qed.
  Lemma WK_upd_es s f : pres WK (upd_es s f).
  Proof. apply WK_d; [apply dpres_upd_es|]. intros h W Hk. by apply k_upd_es. Qed.
  Lemma WK_complement_ns s d : pres WK (complement_ns s d).
  Proof. unfold complement_ns. apply pres_bind; [apply pres_read|]. intros _. apply pres_iter. intros kv Hkv. apply WK_upd_ns. Qed.
  Lemma WK_complement_es s d : pres WK (complement_es s d).
  Proof. unfold complement_es. apply pres_bind; [apply pres_read|]. intros _. apply pres_iter. intros kv Hkv. apply WK_upd_es. Qed.
  Hint Resolve WK_complement_ns WK_complement_es WK_nstyle WK_estyle WK_estyle_none WK_assign_n WK_assign_e WK_upd_ns WK_upd_es : pres.
  Ltac wstep :=
    match goal with
    | |- pres _ (sbind (new_es _) _) => apply WK_assign_e
    | _ => pstep
    end.
  Ltac presW := repeat first [solve [auto with pres] | wstep].

  Lemma WK_assign_e' {A} e sty (x : A) : pres WK (let* k := new_es sty in do* edge_set_style e (SObj k) in sret x).
  Proof.
    intros h HW. pose proof (WK_assign_e e sty h HW) as H. unfold sbind, new_es in *.
    destruct (edge_set_style _ _ _) as [h1 [[]|y]]; exact H.
  Qed.
  Lemma WK_style_edge carry e : pres WK (style_edge carry e).
  Proof.
    unfold style_edge. apply pres_bind; [apply pres_read|intros E]. destruct (e_style E); [apply pres_ret|].
    do 4 (apply pres_bind; [apply pres_read|intros ?]). apply WK_assign_e'.
  Qed.
  Hint Resolve WK_style_edge : pres.
  Lemma WK_style_root used r : pres WK (style_root used r).
  Proof. unfold style_root. presW. Qed.
  Lemma WK_style_branch r : pres WK (style_branch r).
  Proof. unfold style_branch. presW. Qed.
  Hint Resolve WK_style_root WK_style_branch : pres.
  Lemma WK_stylize g shuffle : pres WK (stylize g shuffle).
  Proof.
    unfold stylize, when_dict, stylize_with_pensieve, stylize_randomly, stylize_edges_based_on_nodes,
      node_complement, edge_complement, overwrite_node_colour, overwrite_edge_colour. presW.
  Qed.
End stylist.

(** The setters and constructors, whose effect depends on the property at hand. *)
Definition is_setter (c : call) : bool :=
  match c with
  | CNodeValue _ _ | CNodeLabel _ _ | CNodeFrozen _ _ | CNodeParam _ _ _
  | CEdgeValue _ _ | CEdgeLabel _ _ | CEdgeFrozen _ _ | CEdgeParam _ _ _
  | CNodeCtor _ _ _ _ | CEdgeCtor _ _ _ _ => true
  | _ => false
  end.

Lemma K_after (K : heap → Prop) h c :
  closed K (λ _, True) → sclosed K →
  (∀ h e, WF h → K h → K (disconnect e h).1) → (∀ h e, WF h → K h → K (remove_self e h).1) →
  WF h → K h → allowed h c → (is_setter c = true → K (after c h)) → K (after c h).
Proof.
  intros HK HS Hdis Hrem W Hk Hal Hset.
  assert (HJ : J K (length (h_ns h)) (length (h_es h)) h) by (split; [split; [done|split; lia]|done]).
  assert (HW : WK K h) by done.
  destruct c; simpl in Hal; try (by apply Hset); unfold after.
  - by eapply k_new.
  - destruct x as [k|r|]; [by eapply k_add, style_exists_n, Hal| |done].
    destruct Hal as [_ Hal]. destruct (h_nodes h !! r) as [N|] eqn:HN.
    + specialize (Hal r N eq_refl HN). unfold add_node, sbind, sread, get_n. rewrite HN.
      destruct (get_g h g) as [G|]; [|done]. destruct (dget (g_nodes G) (n_id N)); [by destruct (_ && _)|].
      by destruct (n_graph N).
    + unfold add_node, sbind, sread, get_n. by rewrite HN.
  - by eapply k_connect, style_exists_e.
  - unfold connect_to, sbind, sread. destruct (node_graph h r); [|done]. by eapply k_connect, style_exists_e.
  - unfold connect_from, sbind, sread. destruct (node_graph h r); [|done]. by eapply k_connect, style_exists_e.
  - by apply Hdis.
  - by apply Hrem.
  - apply (pres_bind (WK K)); [apply pres_read| |done]. intros es. apply pres_iter. intros e _ h1 [W1 K1].
    split; [by apply WF_remove_self|by apply Hrem].
  - by eapply k_remove.
  - apply k_nstyle; [done..|by apply style_exists_n].
  - apply k_estyle; [done..|by apply style_exists_e].
  - by eapply k_copy.
  - by eapply (J_filter K _ HK) in HJ as [_ ?].
  - by eapply (J_from_lists K _ HK) in HJ as [_ ?].
  - by eapply (J_from_object K _ HK) in HJ as [_ ?].
  - by eapply (J_from_text K _ HK) in HJ as [_ ?].
  - by eapply (J_random K _ HK) in HJ as [_ ?].
  - exact (proj2 (J_append K _ HK _ _ g o I (obj_exists_styles _ _ _ Hal) h HJ)).
  - refine (proj2 (J_append_all K _ HK _ _ g os I _ h HJ)). intros o Ho. by apply obj_exists_styles, Hal.
  - exact (proj2 (J_graph_of K _ HK _ _ strict ordering d o (obj_exists_styles _ _ _ Hal) h HJ)).
  - exact (proj2 (J_from_dict K _ HK _ _ d r (repr_exists_styles _ _ _ Hal) h HJ)).
  - by eapply K_add_graphs.
  - by apply (WK_stylize K HS g shuffle) in HW as [_ ?].
  - unfold render, sbind. pose proof (WK_stylize K HS g shuffle h HW) as [_ H].
    destruct (stylize g shuffle h) as [h1 [a|x]]; simpl in H; [|done]. unfold sread. by destruct graphviz_str.
  - unfold set_background, sbind, sread. destruct (to_colour v); [|done]. by eapply k_disp.
  - unfold make_nstyle, sbind, sread. destruct (nstyle_ctor d); [|done]. exact (k_new_ns K HS h [_] W Hk).
  - unfold derive_nstyle, sbind, sread. destruct (rbind _ _); [|done]. exact (k_new_ns K HS h [_] W Hk).
  - exact (proj2 (WK_complement_ns K HS s d h HW)).
  - unfold make_estyle, sbind, sread. destruct (estyle_ctor d); [|done]. exact (k_new_es K HS h [_] W Hk).
  - unfold derive_estyle, sbind, sread. destruct (rbind _ _); [|done]. exact (k_new_es K HS h [_] W Hk).
  - exact (proj2 (WK_complement_es K HS s d h HW)).
Qed.
