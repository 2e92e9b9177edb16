(** Values and labels change only when assigned: C82. *)
From Verif Require Export ProofC32 ProofC40.
From Verif Require Import ProofC1 Samples.
Local Open Scope string_scope.
Local Open Scope list_scope.

Definition node_gives (g : gref) (k : name) (r : nref) (c : call) (set : nref → pv → call) (arg : nargs → pv) (v : pv) : Prop :=
  c = set r v ∨ (∃ a, c = CAddNode g (AName k) a ∧ arg a = v) ∨ (∃ o, c = CAppend g o) ∨ (∃ os, c = CAppendAll g os).
Definition edge_gives (h : heap) (g : gref) (e : eref) (s t : nref) (c : call) (set : eref → pv → call) (arg : eargs → pv) (v : pv) : Prop :=
  c = set e v ∨
  (∃ x y a, c = CConnect g x y a ∧ denotes h g x s ∧ denotes h g y t ∧ arg a = v) ∨
  (∃ y a, c = CConnectTo s y a ∧ denotes h g y t ∧ arg a = v) ∨
  (∃ x a, c = CConnectFrom t x a ∧ denotes h g x s ∧ arg a = v) ∨
  (∃ o, c = CAppend g o) ∨ (∃ os, c = CAppendAll g os).
Definition nvl (h h' : heap) (r : nref) (PV PL : pv → Prop) : Prop :=
  ∀ N, h_nodes h !! r = Some N → ∃ N', h_nodes h' !! r = Some N' ∧
    (n_value N' = n_value N ∨ PV (n_value N')) ∧ (n_label N' = n_label N ∨ PL (n_label N')).
Definition evl (h h' : heap) (e : eref) (PV PL : pv → Prop) : Prop :=
  ∀ E, h_edges h !! e = Some E → ∃ E', h_edges h' !! e = Some E' ∧
    (e_value E' = e_value E ∨ PV (e_value E')) ∧ (e_label E' = e_label E ∨ PL (e_label E')).
Lemma nvl_map h h' r PV PL : (∀ N, h_nodes h !! r = Some N → ∃ N', h_nodes h' !! r = Some N' ∧ n_value N' = n_value N ∧ n_label N' = n_label N) →
  nvl h h' r PV PL.
Proof. intros H N HN. destruct (H N HN) as (N' & HN' & ? & ?). exists N'. auto. Qed.
Lemma evl_map h h' r PV PL : (∀ N, h_edges h !! r = Some N → ∃ N', h_edges h' !! r = Some N' ∧ e_value N' = e_value N ∧ e_label N' = e_label N) →
  evl h h' r PV PL.
Proof. intros H N HN. destruct (H N HN) as (N' & HN' & ? & ?). exists N'. auto. Qed.
Lemma nvl_refl h h' r PV PL : h_nodes h' = h_nodes h → nvl h h' r PV PL.
Proof. intros H. apply nvl_map. intros N HN. exists N. by rewrite H. Qed.
Lemma evl_refl h h' r PV PL : h_edges h' = h_edges h → evl h h' r PV PL.
Proof. intros H. apply evl_map. intros N HN. exists N. by rewrite H. Qed.
Lemma nvl_extends h h' r PV PL : extends h h' → nvl h h' r PV PL.
Proof. intros H. apply nvl_map. intros N HN. exists N. split; [by apply (ex_nodes _ _ H)|done]. Qed.
Lemma evl_extends h h' r PV PL : extends h h' → evl h h' r PV PL.
Proof. intros H. apply evl_map. intros N HN. exists N. split; [by apply (ex_edges _ _ H)|done]. Qed.
Lemma nvl_put h r N N' l w r0 (PV PL : pv → Prop) : h_nodes h !! r = Some N →
  (r0 = r → (n_value N' = n_value N ∨ PV (n_value N')) ∧ (n_label N' = n_label N ∨ PL (n_label N'))) → nvl h (put_node h r N' l w) r0 PV PL.
Proof.
  intros HN H N0 HN0. simpl. destruct (decide (r0 = r)) as [->|].
  - rewrite list_lookup_insert by (by eapply lookup_lt_Some). assert (N0 = N) as -> by congruence. exists N'. split; [done|by apply H].
  - rewrite list_lookup_insert_ne by done. exists N0. auto.
Qed.
Lemma evl_put h r N N' l w r0 (PV PL : pv → Prop) : h_edges h !! r = Some N →
  (r0 = r → (e_value N' = e_value N ∨ PV (e_value N')) ∧ (e_label N' = e_label N ∨ PL (e_label N'))) → evl h (put_edge h r N' l w) r0 PV PL.
Proof.
  intros HN H N0 HN0. simpl. destruct (decide (r0 = r)) as [->|].
  - rewrite list_lookup_insert by (by eapply lookup_lt_Some). assert (N0 = N) as -> by congruence. exists N'. split; [done|by apply H].
  - rewrite list_lookup_insert_ne by done. exists N0. auto.
Qed.
Lemma keep_or_cases v old : keep_or v old = old ∨ keep_or v old = v.
Proof. destruct v; auto. Qed.
Lemma nvl_updated h r N a w r0 (PV PL : pv → Prop) : h_nodes h !! r = Some N → (r0 = r → PV (a_value a) ∧ PL (a_label a)) →
  nvl h (node_updated h r N a w).1 r0 PV PL.
Proof.
  intros HN H. unfold node_updated. destruct (optional_style _ _ _ _ _ _) as [[st l]|x]; simpl; [|eapply nvl_put; eauto].
  destruct (n_frozen N && _); (eapply nvl_put; [done|]); intros Hr; destruct (H Hr); simpl;
    destruct (keep_or_cases (a_value a) (n_value N)) as [Hv|Hv], (keep_or_cases (a_label a) (n_label N)) as [Hl|Hl]; rewrite ?Hv, ?Hl; auto.
Qed.
Lemma evl_updated h r N a w r0 (PV PL : pv → Prop) : h_edges h !! r = Some N → (r0 = r → PV (c_value a) ∧ PL (c_label a)) →
  evl h (edge_updated h r N a w).1 r0 PV PL.
Proof.
  intros HN H. unfold edge_updated. destruct (optional_style _ _ _ _ _ _) as [[st l]|x]; simpl; [|eapply evl_put; eauto].
  destruct (e_frozen N && _); (eapply evl_put; [done|]); intros Hr; destruct (H Hr); simpl;
    destruct (keep_or_cases (c_value a) (e_value N)) as [Hv|Hv], (keep_or_cases (c_label a) (e_label N)) as [Hl|Hl]; rewrite ?Hv, ?Hl; auto.
Qed.
Lemma nvl_unlink f es h r PV PL : nvl h (unlink f es h) r PV PL.
Proof. apply nvl_map. intros N HN. rewrite unlink_node, HN. simpl. eexists. split; [done|]. by destruct N. Qed.
Lemma evl_unlink f es h r PV PL : f = cleared ∨ f = deadened → evl h (unlink f es h) r PV PL.
Proof.
  intros Hf. apply evl_map. intros N HN. rewrite unlink_edge, HN. simpl. eexists. split; [done|].
  destruct (decide _); [|done]. by destruct Hf as [->| ->].
Qed.
Lemma connect_nvl h g x y a r PV PL : WF h → nvl h (connect g x y a h).1 r PV PL.
Proof.
  intros W.
  destruct (get_node h g x) as [s|e] eqn:Hs; [|erewrite connect_fail by eauto; by apply nvl_refl].
  destruct (get_node h g y) as [t|e] eqn:Ht; [|erewrite connect_fail by eauto; by apply nvl_refl].
  destruct (get_node_Ok h g x s) as (G & Ns & HG & HNs & Hgs & _); [done..|].
  destruct (get_node_Ok h g y t) as (G' & Nt & HG' & HNt & Hgt & _); [done..|].
  rewrite (connect_eq h g x y a s t Ns Nt) by done. cbv zeta.
  destruct (dget _ _) as [e|] eqn:He.
  - destruct (h_edges h !! e) as [E|] eqn:HE; [|by apply nvl_refl].
    destruct (lenient _); [|by apply nvl_refl]. apply nvl_refl. unfold edge_updated.
    destruct (optional_style _ _ _ _ _ _) as [[st l]|]; [destruct (e_frozen E && _)|]; done.
  - destruct (restyled _ _ _ _) as [[st l]|x']; [|by apply nvl_refl]. apply nvl_map. intros N HN. simpl.
    rewrite list_lookup_imap, HN. simpl. by eexists.
Qed.
Lemma connect_evl h g x y a e s t (PV PL : pv → Prop) : WF h → joins h g e s t →
  (denotes h g x s → denotes h g y t → PV (c_value a) ∧ PL (c_label a)) → evl h (connect g x y a h).1 e PV PL.
Proof.
  intros W Hj H.
  destruct (get_node h g x) as [s'|err] eqn:Hs; [|erewrite connect_fail by eauto; by apply evl_refl].
  destruct (get_node h g y) as [t'|err] eqn:Ht; [|erewrite connect_fail by eauto; by apply evl_refl].
  destruct (get_node_Ok h g x s') as (G & Ns & HG & HNs & Hgs & _); [done..|].
  destruct (get_node_Ok h g y t') as (G' & Nt & HG' & HNt & Hgt & _); [done..|].
  rewrite (connect_eq h g x y a s' t' Ns Nt) by done. cbv zeta.
  destruct (dget _ _) as [e'|] eqn:He.
  - destruct (h_edges h !! e') as [E|] eqn:HE; [|by apply evl_refl].
    destruct (lenient _); [|by apply evl_refl]. apply evl_updated; [done|]. intros ->.
    apply get_node_denotes in Hs, Ht; [|done..].
    apply dget_Some_in in He. destruct (WF_out_entry h s' Ns _ e' W HNs He) as (g1 & E' & t1 & Nt1 & u & HE' & Hg1 & Hs1 & Ht1 & HNt1 & Hx).
    destruct Hj as (E0 & HE0 & Hg0 & Hs0 & Ht0). assert (E' = E0) as -> by congruence.
    assert (s' = s) as -> by congruence.
    assert (Hid : n_id Nt1 = n_id Nt) by (destruct_and!; congruence).
    assert (t1 = t) as -> by congruence.
    assert (t' = t) as ->. { eapply (WF_name_inj h g t' t Nt Nt1); try done; destruct_and?; congruence. }
    by apply H.
  - destruct (restyled _ _ _ _) as [[st l]|x']; [|by apply evl_refl]. apply evl_map. intros N HN. simpl.
    rewrite (lookup_app_l_Some _ _ _ _ HN). by eexists.
Qed.

Lemma self_denotes' h g r N : WF h → h_nodes h !! r = Some N → n_graph N = Some g → denotes h g (ANode r) r.
Proof.
  intros W HN Hg. destruct (wf_ngraph _ W r N g HN Hg) as (G & HG & Hin). exists (n_id N). split; [by exists G|]. right. by exists r, N.
Qed.

Lemma call_nvl h c g k r : WF h → allowed h c → named h g k r →
  nvl h (after c h) r (node_gives g k r c CNodeValue a_value) (node_gives g k r c CNodeLabel a_label).
Proof.
  intros W Hal Hn. pose proof Hn as (G & HG & Hin). destruct (wf_gnodes _ W g G k r HG Hin) as (N & HN & Hk & Hg).
  destruct (decide (target h c = Some g)) as [Ht|Ht].
  2: { apply nvl_map. intros N0 HN0. assert (N0 = N) as -> by congruence. exists N. split; [|done].
       apply (un_nodes _ _ _ (call_unchanged h c g W Hal ltac:(by eexists) Ht) r N Hg), HN. }
  destruct c; simpl in Ht; try done; cbn [after].
  - injection Ht as ->. destruct Hal as [_ Hal]. destruct x as [k0|r0|]; [| |by apply nvl_refl].
    + destruct k0 as [s|z]; [|by apply nvl_refl]. destruct (dget (g_nodes G) (NStr s)) as [r1|] eqn:Hr.
      * pose proof Hr as Hin1. apply dget_Some_in in Hin1.
        destruct (wf_gnodes _ W g G _ r1 HG Hin1) as (N1 & HN1 & Hk1 & HgN).
        rewrite (add_node_existing_eq h g G s r1 N1) by done. destruct (lenient _); [|by apply nvl_refl].
        apply nvl_updated; [done|]. intros ->. assert (N1 = N) as -> by congruence. assert (k = NStr s) as -> by congruence.
        split; right; left; by exists a.
      * rewrite (add_node_fresh_eq h g G s a) by done. cbv zeta. destruct (restyled _ _ _ _) as [[st l]|x]; [|by apply nvl_refl].
        apply nvl_map. intros N0 HN0. simpl. rewrite (lookup_app_l_Some _ _ _ _ HN0). by eexists.
    + apply nvl_refl. destruct (h_nodes h !! r0) as [N0|] eqn:HN0.
      * specialize (Hal r0 N0 eq_refl HN0). unfold add_node, sbind, sread, get_n. rewrite HN0.
        destruct (get_g h g) as [G0|]; [|done]. destruct (dget (g_nodes G0) (n_id N0)); [by destruct (_ && _)|].
        by destruct (n_graph N0).
      * unfold add_node, sbind, sread, get_n. by rewrite HN0.
  - by apply connect_nvl.
  - unfold connect_to, sbind, sread. destruct (node_graph h r0); [|by apply nvl_refl]. by apply connect_nvl.
  - unfold connect_from, sbind, sread. destruct (node_graph h r0); [|by apply nvl_refl]. by apply connect_nvl.
  - destruct (h_edges h !! e) as [E|] eqn:HE; [|done]. rewrite (disconnect_run h e E g) by done. apply nvl_unlink.
  - destruct (h_edges h !! e) as [E|] eqn:HE; [|done]. rewrite (remove_self_run h e E g) by done. apply nvl_unlink.
  - destruct (h_nodes h !! r0) as [N0|] eqn:HN0; [|done]. destruct (remove_edges_run h r0 N0 W HN0) as [-> _]. apply nvl_unlink.
  - injection Ht as ->. destruct (get_node h g x) as [r0|er] eqn:Hr.
    2: { rewrite (remove_node_fail h g x er) by done. by apply nvl_refl. }
    destruct (get_node_Ok h g x r0) as (G0 & N0 & HG0 & HN0 & Hg0 & Hin0); [done..|]. assert (G0 = G) as -> by congruence. 
    destruct (remove_node_run h g x r0 N0 G W Hr HN0 HG) as [-> _]. apply nvl_map. intros N1 HN1. unfold removed. cbv zeta. simpl.
    destruct (decide (r = r0)) as [->|].
    + rewrite list_lookup_insert by (rewrite fmap_length; by eapply lookup_lt_Some). assert (N1 = N0) as -> by congruence. eexists. split; [done|]. by destruct N0.
    + rewrite list_lookup_insert_ne by done. rewrite list_lookup_fmap, HN1. simpl. eexists. split; [done|]. by destruct N1.
  - destruct (h_nodes h !! r0) as [N0|] eqn:HN0; [|done]. rewrite (node_set_style_eq h r0 N0) by done.
    destruct (may_restyle _ _ _) as [[]|]; [|by apply nvl_refl].
    destruct (restyled _ _ _ _) as [[st l]|]; [|by apply nvl_refl]. eapply nvl_put; [done|]. intros _. by split; left.
  - destruct (h_nodes h !! r0) as [N0|] eqn:HN0; [|done]. unfold node_set_value. rewrite (sread_Ok _ _ _ N0) by (by apply get_n_Ok).
    destruct (n_frozen N0); [by apply nvl_refl|]. rewrite (upd_n_run _ _ N0) by done. cbn [fst]. rewrite put_node_plain.
    eapply nvl_put; [done|]. intros ->. split; [right; by left|by left].
  - destruct (h_nodes h !! r0) as [N0|] eqn:HN0; [|done]. unfold node_set_label. rewrite (upd_n_run _ _ N0) by done. cbn [fst]. rewrite put_node_plain.
    eapply nvl_put; [done|]. intros ->. split; [by left|right; by left].
  - destruct (h_nodes h !! r0) as [N0|] eqn:HN0; [|done]. unfold node_set_frozen. rewrite (upd_n_run _ _ N0) by done. cbn [fst]. rewrite put_node_plain.
    eapply nvl_put; [done|]. intros ->. by split; left.
  - destruct (h_nodes h !! r0) as [N0|] eqn:HN0; [|done]. unfold node_set_param. rewrite (upd_n_run _ _ N0) by done. cbn [fst]. rewrite put_node_plain.
    eapply nvl_put; [done|]. intros ->. by split; left.
  - destruct (h_edges h !! e) as [E0|] eqn:HE0; [|done]. rewrite (edge_set_style_eq h e E0) by done. apply nvl_refl.
    destruct (may_restyle _ _ _) as [[]|]; [|done]. by destruct (restyled _ _ _ _) as [[st l]|].
  - apply nvl_refl. unfold edge_set_value, sbind, sread, get_e. destruct (h_edges h !! e) as [E0|] eqn:HE; [|done]. destruct (e_frozen E0); [done|]. unfold upd_e. by rewrite HE.
  - apply nvl_refl. unfold edge_set_label, upd_e. by destruct (h_edges h !! e).
  - apply nvl_refl. unfold edge_set_frozen, upd_e. by destruct (h_edges h !! e).
  - apply nvl_refl. unfold edge_set_param, upd_e. by destruct (h_edges h !! e).
  - injection Ht as ->. destruct (node_ctor_run h g G n a index HG) as (l & [st|x] & _ & ->); [|by apply nvl_refl].
    apply nvl_map. intros N0 HN0. simpl. rewrite (lookup_app_l_Some _ _ _ _ HN0). by eexists.
  - injection Ht as ->. destruct Hal as [_ (Ns & Nt & HNs & HNt & Hgs & Hgt & Hi)].
    rewrite (edge_ctor_eq h g s t Ns Nt a); [|done..|].
    2: { rewrite <-(WF_mirror_keys h s t Ns Nt); [done..|congruence|eauto]. }
    destruct (restyled _ _ _ _) as [[st l]|x']; [|by apply nvl_refl]. apply nvl_map. intros N0 HN0. simpl.
    rewrite list_lookup_imap, HN0. simpl. by eexists.
  - injection Ht as ->. intros N0 HN0. 
    destruct (ev_node _ _ _ _ (evo_any (λ _, True) h (after (CAppend g o) h) W (hist_cons _ _ _ (CAppend g o) (hist_nil _ h) Hal I)) r N0 HN0) as (N' & HN' & _).
    exists N'. split; [exact HN'|]. split; right; right; right; left; by exists o.
  - injection Ht as ->. intros N0 HN0.
    destruct (ev_node _ _ _ _ (evo_any (λ _, True) h (after (CAppendAll g os) h) W (hist_cons _ _ _ (CAppendAll g os) (hist_nil _ h) Hal I)) r N0 HN0) as (N' & HN' & _).
    exists N'. split; [exact HN'|]. split; right; right; right; right; by exists os.
  - injection Ht as ->. destruct (h_graphs h !! g2) as [G2|] eqn:HG2.
    2: { apply nvl_refl. unfold add_graphs, sbind, sread. destruct (graph_repr h g); [|done]. unfold graph_repr, get_g. by rewrite HG2. }
    destruct (add_graphs_shape h d f order g g2 G G2 W HG HG2) as (h1 & Hx & [->|(D1 & D2 & HD1 & HD2 & ->)]); [by apply nvl_extends|].
    apply nvl_map. intros N0 HN0. exists N0. split; [|done]. by apply (ex_nodes _ _ Hx).
  - injection Ht as ->. apply nvl_map. intros N0 HN0. destruct (so_node _ _ _ (proj2 (O_stylize h g shuffle Hal h (conj W (so_refl g h)))) r N0 HN0) as (st & HN' & _).
    eexists. split; [exact HN'|done].
  - injection Ht as ->. rewrite render_heap. apply nvl_map. intros N0 HN0. destruct (so_node _ _ _ (proj2 (O_stylize h g shuffle Hal h (conj W (so_refl g h)))) r N0 HN0) as (st & HN' & _).
    eexists. split; [exact HN'|done].
  - apply nvl_refl. unfold set_background, sbind, sread. destruct (to_colour v); [|done]. unfold upd_disp, sbind, sread, get_g, upd_g.
    destruct (h_graphs h !! g0) as [G0|] eqn:HG0; [|done]. destruct (g_disp G0); [|done]. by rewrite HG0.
Qed.

Lemma call_evl h c g e s t : WF h → allowed h c → joins h g e s t →
  evl h (after c h) e (edge_gives h g e s t c CEdgeValue c_value) (edge_gives h g e s t c CEdgeLabel c_label).
Proof.
  intros W Hal Hj. pose proof Hj as (E & HE & HgE & HsE & HtE).
  destruct (wf_live _ W e E g HE HgE) as (s' & t' & Ns & Nt & u & Hs' & Ht' & HNs & HNt & Hgs & Hgt & _).
  assert (s' = s) as -> by congruence. assert (t' = t) as -> by congruence.
  destruct (wf_ngraph _ W s Ns g HNs Hgs) as (G & HG & _).
  destruct (decide (target h c = Some g)) as [Ht|Ht].
  2: { apply evl_map. intros E0 HE0. assert (E0 = E) as -> by congruence. exists E. split; [|done].
       apply (un_edges _ _ _ (call_unchanged h c g W Hal ltac:(by eexists) Ht) e E HgE), HE. }
  destruct c; simpl in Ht; try done; cbn [after].
  - injection Ht as ->. apply evl_refl. destruct Hal as [_ Hal]. destruct x as [k0|r0|]; [| |done].
    + destruct k0 as [z|z]; [|done]. destruct (dget (g_nodes G) (NStr z)) as [r1|] eqn:Hr.
      * pose proof Hr as Hin1. apply dget_Some_in in Hin1.
        destruct (wf_gnodes _ W g G _ r1 HG Hin1) as (N1 & HN1 & Hk1 & HgN).
        rewrite (add_node_existing_eq h g G z r1 N1) by done. destruct (lenient _); [|done]. unfold node_updated.
        destruct (optional_style _ _ _ _ _ _) as [[st l]|]; [destruct (n_frozen N1 && _)|]; done.
      * rewrite (add_node_fresh_eq h g G z a) by done. cbv zeta. by destruct (restyled _ _ _ _) as [[st l]|x].
    + destruct (h_nodes h !! r0) as [N0|] eqn:HN0.
      * specialize (Hal r0 N0 eq_refl HN0). unfold add_node, sbind, sread, get_n. rewrite HN0.
        destruct (get_g h g) as [G0|]; [|done]. destruct (dget (g_nodes G0) (n_id N0)); [by destruct (_ && _)|].
        by destruct (n_graph N0).
      * unfold add_node, sbind, sread, get_n. by rewrite HN0.
  - injection Ht as ->. eapply connect_evl; [done..|]. intros Hx Hy. split; right; left; by exists x, y, a.
  - destruct (h_nodes h !! r) as [N|] eqn:HN; [|done]. unfold connect_to, sbind, sread, node_graph, get_n. rewrite HN. simpl. rewrite Ht.
    eapply connect_evl; [done..|]. intros Hx Hy. assert (s = r) as -> by (by eapply self_denotes). split; right; right; left; by exists x, a.
  - destruct (h_nodes h !! r) as [N|] eqn:HN; [|done]. unfold connect_from, sbind, sread, node_graph, get_n. rewrite HN. simpl. rewrite Ht.
    eapply connect_evl; [done..|]. intros Hx Hy. assert (t = r) as -> by (by eapply self_denotes). split; right; right; right; left; by exists x, a.
  - destruct (h_edges h !! e0) as [E0|] eqn:HE0; [|done]. rewrite (disconnect_run h e0 E0 g) by done. apply evl_unlink. by right.
  - destruct (h_edges h !! e0) as [E0|] eqn:HE0; [|done]. rewrite (remove_self_run h e0 E0 g) by done. apply evl_unlink. by left.
  - destruct (h_nodes h !! r) as [N0|] eqn:HN0; [|done]. destruct (remove_edges_run h r N0 W HN0) as [-> _]. apply evl_unlink. by left.
  - injection Ht as ->. destruct (get_node h g x) as [r0|er] eqn:Hr.
    2: { rewrite (remove_node_fail h g x er) by done. by apply evl_refl. }
    destruct (get_node_Ok h g x r0) as (G0 & N0 & HG0 & HN0 & Hg0 & Hin0); [done..|]. assert (G0 = G) as -> by congruence.
    destruct (remove_node_run h g x r0 N0 G W Hr HN0 HG) as [-> _]. apply evl_map. intros N1 HN1. unfold removed. cbv zeta. simpl.
    rewrite list_lookup_imap, HN1. simpl. eexists. split; [done|]. by destruct (decide _).
  - destruct (h_nodes h !! r) as [N0|] eqn:HN0; [|done]. rewrite (node_set_style_eq h r N0) by done. apply evl_refl.
    destruct (may_restyle _ _ _) as [[]|]; [|done]. by destruct (restyled _ _ _ _) as [[st l]|].
  - apply evl_refl. unfold node_set_value, sbind, sread, get_n. destruct (h_nodes h !! r) as [N0|] eqn:HN0; [|done]. destruct (n_frozen N0); [done|]. unfold upd_n. by rewrite HN0.
  - apply evl_refl. unfold node_set_label, upd_n. by destruct (h_nodes h !! r).
  - apply evl_refl. unfold node_set_frozen, upd_n. by destruct (h_nodes h !! r).
  - apply evl_refl. unfold node_set_param, upd_n. by destruct (h_nodes h !! r).
  - destruct (h_edges h !! e0) as [N0|] eqn:HN0; [|done]. rewrite (edge_set_style_eq h e0 N0) by done.
    destruct (may_restyle _ _ _) as [[]|]; [|by apply evl_refl].
    destruct (restyled _ _ _ _) as [[st l]|]; [|by apply evl_refl]. eapply evl_put; [done|]. intros _. by split; left.
  - destruct (h_edges h !! e0) as [N0|] eqn:HN0; [|done]. unfold edge_set_value. rewrite (sread_Ok _ _ _ N0) by (by apply get_e_Ok).
    destruct (e_frozen N0); [by apply evl_refl|]. rewrite (upd_e_run _ _ N0) by done. cbn [fst]. rewrite put_edge_plain.
    eapply evl_put; [done|]. intros ->. split; [right; by left|by left].
  - destruct (h_edges h !! e0) as [N0|] eqn:HN0; [|done]. unfold edge_set_label. rewrite (upd_e_run _ _ N0) by done. cbn [fst]. rewrite put_edge_plain.
    eapply evl_put; [done|]. intros ->. split; [by left|right; by left].
  - destruct (h_edges h !! e0) as [N0|] eqn:HN0; [|done]. unfold edge_set_frozen. rewrite (upd_e_run _ _ N0) by done. cbn [fst]. rewrite put_edge_plain.
    eapply evl_put; [done|]. intros ->. by split; left.
  - destruct (h_edges h !! e0) as [N0|] eqn:HN0; [|done]. unfold edge_set_param. rewrite (upd_e_run _ _ N0) by done. cbn [fst]. rewrite put_edge_plain.
    eapply evl_put; [done|]. intros ->. by split; left.
  - injection Ht as ->. destruct (node_ctor_run h g G n a index HG) as (l & [st|x] & _ & ->); by apply evl_refl.
  - injection Ht as ->. destruct Hal as [_ (Ns' & Nt' & HNs' & HNt' & Hgs' & Hgt' & Hi)].
    rewrite (edge_ctor_eq h g s0 t0 Ns' Nt' a); [|done..|].
    2: { rewrite <-(WF_mirror_keys h s0 t0 Ns' Nt'); [done..|congruence|eauto]. }
    destruct (restyled _ _ _ _) as [[st l]|x']; [|by apply evl_refl]. apply evl_map. intros N0 HN0. simpl.
    rewrite (lookup_app_l_Some _ _ _ _ HN0). by eexists.
  - injection Ht as ->. intros N0 HN0.
    destruct (ev_edge _ _ _ _ (evo_any (λ _, True) h (after (CAppend g o) h) W (hist_cons _ _ _ (CAppend g o) (hist_nil _ h) Hal I)) e N0 HN0) as (N' & HN' & _).
    exists N'. split; [exact HN'|]. unfold edge_gives. split; right; do 4 right; left; by exists o.
  - injection Ht as ->. intros N0 HN0.
    destruct (ev_edge _ _ _ _ (evo_any (λ _, True) h (after (CAppendAll g os) h) W (hist_cons _ _ _ (CAppendAll g os) (hist_nil _ h) Hal I)) e N0 HN0) as (N' & HN' & _).
    exists N'. split; [exact HN'|]. unfold edge_gives. split; right; do 5 right; by exists os.
  - injection Ht as ->. destruct (h_graphs h !! g2) as [G2|] eqn:HG2.
    2: { apply evl_refl. unfold add_graphs, sbind, sread. destruct (graph_repr h g); [|done]. unfold graph_repr, get_g. by rewrite HG2. }
    destruct (add_graphs_shape h d f order g g2 G G2 W HG HG2) as (h1 & Hx & [->|(D1 & D2 & HD1 & HD2 & ->)]); [by apply evl_extends|].
    apply evl_map. intros N0 HN0. exists N0. split; [|done]. by apply (ex_edges _ _ Hx).
  - injection Ht as ->. apply evl_map. intros N0 HN0. destruct (so_edge _ _ _ (proj2 (O_stylize h g shuffle Hal h (conj W (so_refl g h)))) e N0 HN0) as (st & HN' & _).
    eexists. split; [exact HN'|done].
  - injection Ht as ->. rewrite render_heap. apply evl_map. intros N0 HN0. destruct (so_edge _ _ _ (proj2 (O_stylize h g shuffle Hal h (conj W (so_refl g h)))) e N0 HN0) as (st & HN' & _).
    eexists. split; [exact HN'|done].
  - apply evl_refl. unfold set_background, sbind, sread. destruct (to_colour v); [|done]. unfold upd_disp, sbind, sread, get_g, upd_g.
    destruct (h_graphs h !! g0) as [G0|] eqn:HG0; [|done]. destruct (g_disp G0); [|done]. by rewrite HG0.
Qed.

(** C82.  The value and the label of a node of a graph change only through an assignment to
    them, which gives the value assigned, through add_node naming the node, which gives the
    value passed, and through append on the graph.  Whatever else is called, and whether it
    returns or raises, they stay. *)
Lemma C82_node_proof : ∀ h c g k r N, reachable h → allowed h c → named h g k r → h_nodes h !! r = Some N →
  ∃ N', h_nodes (after c h) !! r = Some N' ∧
    (n_value N' = n_value N ∨ c = CNodeValue r (n_value N') ∨ (∃ a, c = CAddNode g (AName k) a ∧ a_value a = n_value N') ∨
     (∃ o, c = CAppend g o) ∨ (∃ os, c = CAppendAll g os)) ∧
    (n_label N' = n_label N ∨ c = CNodeLabel r (n_label N') ∨ (∃ a, c = CAddNode g (AName k) a ∧ a_label a = n_label N') ∨
     (∃ o, c = CAppend g o) ∨ (∃ os, c = CAppendAll g os)).
Proof. intros h c g k r N W%reachable_WF Hal Hn HN. exact (call_nvl h c g k r W Hal Hn N HN). Qed.
(** C82.  The same for an edge; the calls that may name it are connect, connect_to and
    connect_from, given its two ends. *)
Lemma C82_edge_proof : ∀ h c g e s t E, reachable h → allowed h c → joins h g e s t → h_edges h !! e = Some E →
  ∃ E', h_edges (after c h) !! e = Some E' ∧
    (e_value E' = e_value E ∨ c = CEdgeValue e (e_value E') ∨
     (∃ x y a, c = CConnect g x y a ∧ denotes h g x s ∧ denotes h g y t ∧ c_value a = e_value E') ∨
     (∃ y a, c = CConnectTo s y a ∧ denotes h g y t ∧ c_value a = e_value E') ∨
     (∃ x a, c = CConnectFrom t x a ∧ denotes h g x s ∧ c_value a = e_value E') ∨
     (∃ o, c = CAppend g o) ∨ (∃ os, c = CAppendAll g os)) ∧
    (e_label E' = e_label E ∨ c = CEdgeLabel e (e_label E') ∨
     (∃ x y a, c = CConnect g x y a ∧ denotes h g x s ∧ denotes h g y t ∧ c_label a = e_label E') ∨
     (∃ y a, c = CConnectTo s y a ∧ denotes h g y t ∧ c_label a = e_label E') ∨
     (∃ x a, c = CConnectFrom t x a ∧ denotes h g x s ∧ c_label a = e_label E') ∨
     (∃ o, c = CAppend g o) ∨ (∃ os, c = CAppendAll g os)).
Proof. intros h c g e s t E W%reachable_WF Hal Hn HE. exact (call_evl h c g e s t W Hal Hn E HE). Qed.
(** C82.  So what was assigned is what is read, until the next such call, as long as the node
    (the edge) is in the graph: for calls of any kind, an assignment gives exactly the value
    unless the object is frozen, and a history without assigning calls keeps it. *)
Lemma C82_set_get_proof : ∀ h h' g v, reachable h →
  (∀ k r N N', named h g k r → h_nodes h !! r = Some N →
     history (λ c, (∀ v, c ≠ CNodeValue r v) ∧ (∀ a, c ≠ CAddNode g (AName k) a) ∧ (∀ o, c ≠ CAppend g o) ∧ (∀ os, c ≠ CAppendAll g os))
       (after (CNodeValue r v) h) h' → named h' g k r → h_nodes h' !! r = Some N' →
     n_value N' = if n_frozen N then n_value N else v) ∧
  (∀ e s t E E', joins h g e s t → h_edges h !! e = Some E →
     history (λ c, (∀ v, c ≠ CEdgeValue e v) ∧ (∀ x y a, c ≠ CConnect g x y a) ∧ (∀ y a, c ≠ CConnectTo s y a) ∧
                   (∀ x a, c ≠ CConnectFrom t x a) ∧ (∀ o, c ≠ CAppend g o) ∧ (∀ os, c ≠ CAppendAll g os))
       (after (CEdgeValue e v) h) h' → joins h' g e s t → h_edges h' !! e = Some E' →
     e_value E' = if e_frozen E then e_value E else v).
Proof.
  intros h h' g v Hr. split.
  - intros k r N N' Hn HN Hh Hn' HN'.
    assert (H0 : ∃ N0, h_nodes (after (CNodeValue r v) h) !! r = Some N0 ∧ n_value N0 = if n_frozen N then n_value N else v).
    { simpl. unfold node_set_value. rewrite (sread_Ok _ _ _ N) by (by apply get_n_Ok). destruct (n_frozen N); [by exists N|].
      rewrite (upd_n_run _ _ N) by done. simpl. rewrite list_lookup_insert by (by eapply lookup_lt_Some). by eexists. }
    assert (Hr0 : reachable (after (CNodeValue r v) h)) by (by constructor).
    destruct H0 as (N0 & HN0 & <-). clear HN Hn. revert N' HN' Hn'.
    induction Hh as [h1|h1 h2 c Hh IH Hal Hc]; intros N' HN' Hn'; [congruence|].
    assert (Hr2 : reachable h2) by (by eapply history_reachable).
    destruct (C78_node_proof (λ _, True) h1 h2 r N0) as (N2 & HN2 & Hid2 & _ & _ & Hg2); [done|by eapply history_mono|done|].
    destruct (C78_node_proof (λ _, True) h2 (after c h2) r N2) as (N3 & HN3 & Hid3 & _ & _ & Hg3); [done|by econstructor; [constructor|..]|done|].
    assert (N3 = N') as -> by congruence.
    assert (Hn2 : named h2 g k r).
    { pose proof (reachable_WF _ (reach_call _ _ Hr2 Hal)) as W3. destruct Hn' as (G' & HG' & Hin').
      destruct (wf_gnodes _ W3 g G' k r HG' Hin') as (N4 & HN4 & Hk4 & Hg4). assert (N4 = N') as -> by congruence.
      pose proof (reachable_WF _ Hr2) as W2. destruct Hg3 as [Hg3|Hg3]; [|congruence]. rewrite Hg4 in Hg3.
      destruct (wf_ngraph _ W2 r N2 g HN2) as (G2 & HG2 & Hin2); [done|]. exists G2. split; [done|]. congruence. }
    rewrite <-(IH HN0 Hr0 N2 HN2 Hn2).
    destruct (C82_node_proof h2 c g k r N2 Hr2 Hal Hn2 HN2) as (N5 & HN5 & HV & _). assert (N5 = N') as -> by congruence.
    destruct Hc as (C1 & C2 & C3 & C4).
    destruct HV as [?|[->|[(a & -> & _)|[(o & ->)|(os & ->)]]]]; [done|..]; exfalso; naive_solver.
  - intros e s t E E' Hn HN Hh Hn' HN'.
    assert (H0 : ∃ N0, h_edges (after (CEdgeValue e v) h) !! e = Some N0 ∧ e_value N0 = if e_frozen E then e_value E else v).
    { simpl. unfold edge_set_value. rewrite (sread_Ok _ _ _ E) by (by apply get_e_Ok). destruct (e_frozen E); [by exists E|].
      rewrite (upd_e_run _ _ E) by done. simpl. rewrite list_lookup_insert by (by eapply lookup_lt_Some). by eexists. }
    assert (Hr0 : reachable (after (CEdgeValue e v) h)) by (by constructor).
    destruct H0 as (N0 & HN0 & <-). clear HN Hn. revert E' HN' Hn'.
    induction Hh as [h1|h1 h2 c Hh IH Hal Hc]; intros E' HN' Hn'; [congruence|].
    assert (Hr2 : reachable h2) by (by eapply history_reachable).
    destruct (C78_edge_proof (λ _, True) h1 h2 e N0) as (N2 & HN2 & _ & _); [done|by eapply history_mono|done|].
    destruct (C78_edge_proof (λ _, True) h2 (after c h2) e N2) as (N3 & HN3 & _ & Hx); [done|by econstructor; [constructor|..]|done|].
    assert (N3 = E') as -> by congruence.
    assert (Hn2 : joins h2 g e s t).
    { destruct Hn' as (E4 & HE4 & Hg4 & Hs4 & Ht4). assert (E4 = E') as -> by congruence.
      destruct Hx as [?|(? & ? & ? & _)]; [congruence|]. exists N2. split_and!; congruence. }
    rewrite <-(IH HN0 Hr0 N2 HN2 Hn2).
    destruct (C82_edge_proof h2 c g e s t N2 Hr2 Hal Hn2 HN2) as (N5 & HN5 & HV & _). assert (N5 = E') as -> by congruence.
    destruct Hc as (C1 & C2 & C3 & C4 & C5 & C6).
    destruct HV as [?|[->|[(x & y & a & -> & _)|[(y & a & -> & _)|[(x & a & -> & _)|[(o & ->)|(os & ->)]]]]]]; [done|..]; exfalso; naive_solver.
Qed.
(** C82.  Example: node a of the sample gets the value 7, keeps it while other nodes and edges
    are changed, a call fails and the graph is styled; frozen, it keeps it when assigned. *)
Lemma C82_ex_proof : let h := after (CNodeValue 0 (PInt 7)) sample in
  let h' := run [CAddNode 0 (an "new") (nargs0 <| a_value := PInt 1 |>); CRemoveNode 0 (an "zz"); CRemoveNode 0 (an "c"); CNodeLabel 0 (PStr "l"); CStylize 0 id] h in
  reachable sample ∧ named sample 0 (NStr "a") 0 ∧
  history (λ c, (∀ v, c ≠ CNodeValue 0 v) ∧ (∀ a, c ≠ CAddNode 0 (AName (NStr "a")) a) ∧ (∀ o, c ≠ CAppend 0 o) ∧ (∀ os, c ≠ CAppendAll 0 os)) h h' ∧
  named h' 0 (NStr "a") 0 ∧ n_value <$> h_nodes h' !! 0 = Some (PInt 7) ∧ n_label <$> h_nodes h' !! 0 = Some (PStr "l") ∧
  n_value <$> h_nodes sample !! 0 ≠ Some (PInt 7) ∧
  n_value <$> h_nodes (run [CNodeFrozen 0 true; CNodeValue 0 (PInt 8)] h') !! 0 = Some (PInt 7).
Proof.
  split; [apply sample_reachable|]. split; [eexists; split; [by vm_compute|dec]|]. split.
  { apply run_history; [constructor|vm_compute; repeat (split; [by repeat split|]); done|].
    repeat (apply Forall_cons_2; [by split_and!; intros ? [=]|]). apply Forall_nil_2. }
  split; [eexists; split; [by vm_compute|dec]|]. by vm_compute.
Qed.
