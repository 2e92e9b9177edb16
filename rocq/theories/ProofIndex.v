(** Node indices along histories without direct [Node(...)] calls. *)
From Verif Require Export ProofEvo.
From stdpp Require Export sorting.

Record IX (h : heap) : Prop := {
  ix_sorted : ∀ g G, h_graphs h !! g = Some G → StronglySorted lt (dvals (g_nodes G));
  ix_mono : ∀ r r' N N' g, r < r' → h_nodes h !! r = Some N → h_nodes h !! r' = Some N' →
    n_graph N = Some g → n_graph N' = Some g → (n_index N < n_index N')%Z;
  ix_lt : ∀ r N g G, h_nodes h !! r = Some N → n_graph N = Some g → h_graphs h !! g = Some G →
    (n_index N < g_counter G)%Z }.

Lemma StronglySorted_sublist {A} (R : relation A) l l' : l `sublist_of` l' → StronglySorted R l' → StronglySorted R l.
Proof.
  induction 1 as [|x l l' Hl IH|x l l' Hl IH]; intros Hs; [constructor| |].
  - inversion Hs; subst. constructor; [by apply IH|]. rewrite Forall_forall in H2 |- *. intros y Hy. apply H2.
    eapply elem_of_submseteq; [done|]. by apply sublist_submseteq.
  - inversion Hs; subst. by apply IH.
Qed.
Lemma dvals_sublist {K V} (d d' : list (K * V)) : d `sublist_of` d' → d.*2 `sublist_of` d'.*2.
Proof. induction 1; simpl; by constructor. Qed.
Lemma StronglySorted_snoc {A} (R : relation A) l x : StronglySorted R l → (∀ y, y ∈ l → R y x) → StronglySorted R (l ++ [x]).
Proof.
  induction 1 as [|z l Hs IH Hz]; intros Hx; simpl; [repeat constructor|].
  constructor; [apply IH; intros; apply Hx; by right|]. apply Forall_app. split; [done|].
  constructor; [apply Hx; by left|constructor].
Qed.

(** nothing new, some things removed *)
Lemma IX_keep h h' : IX h →
  (∀ r N', h_nodes h' !! r = Some N' → ∃ N, h_nodes h !! r = Some N ∧ n_index N' = n_index N ∧
     (n_graph N' = n_graph N ∨ n_graph N' = None)) →
  (∀ g G', h_graphs h' !! g = Some G' → (g_nodes G' = [] ∧ h_graphs h !! g = None) ∨
     ∃ G, h_graphs h !! g = Some G ∧ (g_nodes G' : list (name * nref)) `sublist_of` g_nodes G ∧ (g_counter G ≤ g_counter G')%Z) →
  (∀ r N g, h_nodes h !! r = Some N → n_graph N = Some g → is_Some (h_graphs h !! g)) →
  IX h'.
Proof.
  intros [I1 I2 I3] Hn Hg Hw. split.
  - intros g G' HG'. destruct (Hg g G' HG') as [[H _]|(G & HG & Hsub & _)].
    + unfold dvals. rewrite H. constructor.
    + eapply StronglySorted_sublist; [by apply dvals_sublist|]. by eapply I1.
  - intros r r' N N' g Hlt HN HN' Hgn Hgn'.
    destruct (Hn r N HN) as (N0 & HN0 & -> & [Hg0|Hg0]); [|congruence].
    destruct (Hn r' N' HN') as (N0' & HN0' & -> & [Hg0'|Hg0']); [|congruence].
    by apply (I2 r r' N0 N0' g); [| | |congruence|congruence].
  - intros r N g G' HN Hgn HG'. destruct (Hn r N HN) as (N0 & HN0 & -> & [Hg0|Hg0]); [|congruence].
    destruct (Hw r N0 g) as [G HG]; [done|congruence|].
    destruct (Hg g G' HG') as [[_ H]|(G1 & HG1 & _ & Hc)]; [congruence|].
    pose proof (I3 r N0 g G1 HN0 ltac:(congruence) HG1). lia.
Qed.
Lemma IX_same_graphs h h' : IX h → h_graphs h' = h_graphs h → WF h →
  (∀ r N', h_nodes h' !! r = Some N' → ∃ N, h_nodes h !! r = Some N ∧ n_index N' = n_index N ∧
     (n_graph N' = n_graph N ∨ n_graph N' = None)) → IX h'.
Proof.
  intros HI Hg W Hn. eapply IX_keep; [done|done| |by intros; eapply graph_of_node].
  rewrite Hg. intros g G HG. right. exists G. split_and!; [done|done|lia].
Qed.
Lemma nodes_refl h : ∀ r N', h_nodes h !! r = Some N' → ∃ N, h_nodes h !! r = Some N ∧ n_index N' = n_index N ∧
     (n_graph N' = n_graph N ∨ n_graph N' = None).
Proof. eauto. Qed.

Lemma pos_sorted r r' l : StronglySorted lt l → r ∈ l → r' ∈ l → pos r l < pos r' l ↔ r < r'.
Proof.
  induction 1 as [|x l Hs IH Hx]; intros Hr Hr'; [by apply elem_of_nil in Hr|].
  rewrite Forall_forall in Hx. simpl.
  destruct (decide (r = x)) as [->|Hrx], (decide (r' = x)) as [->|Hrx'].
  - lia.
  - apply elem_of_cons in Hr' as [->|Hr']; [done|]. specialize (Hx r' Hr'). lia.
  - apply elem_of_cons in Hr as [->|Hr]; [done|]. specialize (Hx r Hr). lia.
  - apply elem_of_cons in Hr as [->|Hr]; [done|]. apply elem_of_cons in Hr' as [->|Hr']; [done|].
    specialize (IH Hr Hr'). lia.
Qed.

Lemma SS_fmap (f : nat → nat) l : StronglySorted lt l → (∀ r r', r ∈ l → r' ∈ l → r < r' → f r < f r') →
  StronglySorted lt (f <$> l).
Proof.
  induction 1 as [|x l HS IH Hx]; intros Hm; simpl; [constructor|].
  constructor; [apply IH; intros; apply Hm; [by right..|done]|]. apply Forall_fmap. rewrite Forall_forall in Hx |- *.
  intros y Hy. simpl. apply Hm; [by left|by right|by apply Hx].
Qed.

Lemma IX_step h og t h' : WF h → IX h → t ≠ TCtor → step h og t h' → IX h'.
Proof.
  intros W HI Ht Hs. destruct Hs.
  - apply (IX_same_graphs h); [done..|]. simpl. intros r0 N0 HN0. destruct (decide (r0 = r)) as [->|].
    + rewrite list_lookup_insert in HN0 by (by eapply lookup_lt_Some). injection HN0 as <-. exists N. auto.
    + rewrite list_lookup_insert_ne in HN0 by done. eauto.
  - apply (IX_same_graphs h); [done..|]. simpl. eauto.
  - eapply (IX_keep h); [done|simpl; eauto| |by intros; eapply graph_of_node]. simpl.
    intros g0 G0 HG0. right. destruct (decide (g0 = g)) as [->|].
    + rewrite list_lookup_insert in HG0 by (by eapply lookup_lt_Some). injection HG0 as <-. exists G. rewrite H0. done.
    + rewrite list_lookup_insert_ne in HG0 by done. exists G0. split_and!; [done|done|lia].
  - eapply (IX_keep h); [done|simpl; eauto| |by intros; eapply graph_of_node]. simpl.
    intros g0 G0 [HG0|[Hge HG0]]%lookup_app_Some.
    + right. exists G0. split_and!; [done|done|lia].
    + left. apply list_lookup_singleton_Some in HG0 as [_ <-]. split; [done|]. by apply lookup_ge_None.
  - destruct H9 as [[? _]|(_ & Hi & Hc)]; [done|]. destruct HI as [I1 I2 I3]. split; simpl.
    + intros g0 G0 HG0. destruct (decide (g0 = g)) as [->|].
      * rewrite list_lookup_insert in HG0 by (by eapply lookup_lt_Some). injection HG0 as <-.
        rewrite H5, dvals_app. simpl. apply StronglySorted_snoc; [by eapply I1|]. intros y Hy.
        apply elem_of_dvals in Hy as [k Hy]. destruct (wf_gnodes _ W g G k y) as (Ny & HNy & _); [done..|].
        by eapply lookup_lt_Some.
      * rewrite list_lookup_insert_ne in HG0 by done. by eapply I1.
    + intros r r' N1 N2 g0 Hlt HN1 HN2 Hg1 Hg2.
      apply lookup_app_Some in HN2 as [HN2|[Hge HN2]].
      * apply lookup_app_Some in HN1 as [HN1|[Hge HN1]]; [by eapply (I2 r r')|].
        apply lookup_lt_Some in HN2. lia.
      * apply list_lookup_singleton_Some in HN2 as [Hr' <-]. assert (g0 = g) as -> by congruence.
        rewrite lookup_app_l in HN1 by lia. rewrite Hi. by eapply (I3 r N1 g G).
    + intros r N1 g0 G0 HN1 Hg1 HG0. apply lookup_app_Some in HN1 as [HN1|[Hge HN1]].
      * destruct (decide (g0 = g)) as [->|].
        -- rewrite list_lookup_insert in HG0 by (by eapply lookup_lt_Some). injection HG0 as <-.
           pose proof (I3 r N1 g G HN1 Hg1 H). lia.
        -- rewrite list_lookup_insert_ne in HG0 by done. by eapply I3.
      * apply list_lookup_singleton_Some in HN1 as [_ <-]. assert (g0 = g) as -> by congruence.
        rewrite list_lookup_insert in HG0 by (by eapply lookup_lt_Some). injection HG0 as <-. lia.
  - apply (IX_same_graphs h); [done..|]. simpl. intros r N. rewrite list_lookup_imap.
    destruct (h_nodes h !! r) as [N0|] eqn:HN0; [|done]. simpl. intros [= <-]. exists N0. auto.
  - apply (IX_same_graphs h); [done..|]. intros r N. rewrite unlink_node.
    destruct (h_nodes h !! r) as [N0|] eqn:HN0; [|done]. simpl. intros [= <-]. exists N0. auto.
  - eapply (IX_keep h); [done| | |by intros; eapply graph_of_node]; unfold removed; cbv zeta; simpl.
    + intros r0 N0. destruct (decide (r0 = r)) as [->|].
      * rewrite list_lookup_insert by (rewrite fmap_length; by eapply lookup_lt_Some). intros [= <-]. exists N. auto.
      * rewrite list_lookup_insert_ne by done. rewrite list_lookup_fmap.
        destruct (h_nodes h !! r0) as [N1|] eqn:HN1; [|done]. simpl. intros [= <-]. exists N1. auto.
    + intros g0 G0 HG0. right. destruct (decide (g0 = g)) as [->|].
      * rewrite list_lookup_insert in HG0 by (by eapply lookup_lt_Some). injection HG0 as <-. exists G. simpl.
        split_and!; [done|apply ddel_sublist|lia].
      * rewrite list_lookup_insert_ne in HG0 by done. exists G0. split_and!; [done|done|lia].
  - pose proof HI as [I1 I2 I3]. assert (Hrs : g_refs G = dvals (g_nodes G)) by done. split.
    + intros g0 G0 HG0. eapply (copied_graph_inv h G) in HG0 as [HG0|[-> ->]]; [by eapply I1| ].
      unfold copied_graph. simpl. unfold dvals. rewrite <-list_fmap_compose.
      change (StronglySorted lt ((λ kv, nmap h G kv.2) <$> g_nodes G)).
      assert (HS := I1 g G H). unfold dvals in HS.
      assert (((λ kv : name * nref, nmap h G kv.2) <$> g_nodes G) = nmap h G <$> (g_nodes G).*2) as ->.
      { by rewrite <-list_fmap_compose. }
      assert (∀ r r', r ∈ (g_nodes G).*2 → r' ∈ (g_nodes G).*2 → r < r' → nmap h G r < nmap h G r') as Hm.
      { intros r r' Hr Hr' Hlt. unfold nmap, g_refs. apply Nat.add_lt_mono_l. by apply pos_sorted. }
      by apply SS_fmap.
    + intros r r' N N' g0 Hlt HN HN' Hg Hg'.
      eapply (copied_node_inv h g G) in HN as [HN|(r1 & N1 & HN1 & Hg1 & -> & ->)]; [|..|done|done];
      eapply (copied_node_inv h g G) in HN' as [HN'|(r2 & N2 & HN2 & Hg2 & -> & ->)]; try done.
      * by eapply (I2 r r').
      * simpl in Hg'. injection Hg' as <-. destruct (graph_of_node h r N (length (h_graphs h)) W HN Hg) as [? Hx%lookup_lt_Some]. lia.
      * simpl in Hg. injection Hg as <-. destruct (graph_of_node h r' N' (length (h_graphs h)) W HN' Hg') as [? Hx%lookup_lt_Some]. lia.
      * simpl. eapply (I2 r1 r2); [|done..]. unfold nmap in Hlt.
        apply (pos_sorted r1 r2 (g_refs G)); [by eapply I1| | |lia]; rewrite Hrs, elem_of_dvals.
        -- destruct (wf_ngraph _ W r1 N1 g) as (G1 & HG1 & ?); [done..|]. assert (G1 = G) as -> by congruence. eauto.
        -- destruct (wf_ngraph _ W r2 N2 g) as (G1 & HG1 & ?); [done..|]. assert (G1 = G) as -> by congruence. eauto.
    + intros r N g0 G0 HN Hg HG0.
      eapply (copied_node_inv h g G) in HN as [HN|(r1 & N1 & HN1 & Hg1 & -> & ->)]; [|..|done|done].
      * eapply (copied_graph_inv h G) in HG0 as [HG0|[-> ->]]; [by eapply I3|].
        destruct (graph_of_node h r N (length (h_graphs h)) W HN Hg) as [? Hx%lookup_lt_Some]. lia.
      * simpl in Hg. injection Hg as <-. eapply (copied_graph_inv h G) in HG0 as [HG0|[_ ->]].
        -- apply lookup_lt_Some in HG0. lia.
        -- simpl. by eapply I3.
  - apply (IX_same_graphs h); [done..|]. simpl. eauto.
  - apply (IX_same_graphs h); [done..|]. simpl. eauto.
  - apply (IX_same_graphs h); [done..|]. simpl. eauto.
  - apply (IX_same_graphs h); [done..|]. simpl. eauto.
Qed.

Lemma IX_empty : IX empty_heap.
Proof. split; intros *; rewrite ?lookup_nil; done. Qed.
Lemma kept_IX : kept IX (λ _, True) (λ t, t ≠ TCtor).
Proof. split; [done..|]. intros h h' og t W HI _ Ht Hs. by eapply IX_step. Qed.
Lemma IX_history (P : call → Prop) h : (∀ c, P c → ¬ tags_of c TCtor) → history P empty_heap h → IX h.
Proof.
  intros HP Hh. eapply kept_history; [apply kept_IX| |apply WF_empty|apply IX_empty|done].
  simpl. intros c t Hc Ht ->. by eapply HP.
Qed.
