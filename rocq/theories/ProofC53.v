(** More about similar graphs: C92. *)
From Verif Require Export SpecSim SpecRows SpecFrame SpecCopy ModelBuild ModelQuery Samples.
From Verif Require Import ProofAdj ProofDfs ProofC6 ProofC7 ProofC12 ProofC51.
Local Open Scope string_scope.
Local Open Scope list_scope.

Lemma same_value_trans u v w : same_value u v → same_value v w → same_value u w.
Proof.
  intros [->|(p & q & Hu & Hv & Hpq)] [->|(q' & r & Hv' & Hw & Hqr)]; [by left|right; eauto..|].
  right. exists p, r. split_and!; [done..|]. assert (q' = q) as -> by congruence. by rewrite Hpq.
Qed.
Lemma same_dict_trans a b c : same_dict a b → same_dict b c → same_dict a c.
Proof.
  intros [K1 V1] [K2 V2]. split; [intros k; by rewrite K1, K2|]. intros k u w Hu Hw.
  assert (k ∈ b.*1) as Hb by (apply K1; apply elem_of_list_fmap; by exists (k, u)). apply elem_of_list_fmap in Hb as ([k' v] & -> & Hv).
  eapply same_value_trans; [by apply (V1 k')|by apply (V2 k')].
Qed.
Lemma same_dict_refl (d : sdict) : NoDup d.*1 → same_dict d d.
Proof. intros Hnd. split; [done|]. intros k v w Hv Hw. left. eapply (dget_in_Some d k v) in Hv; [|done]. eapply (dget_in_Some d k w) in Hw; [|done]. congruence. Qed.
Lemma has_id_edge h g e i : has_id h g e i → ∃ E, h_edges h !! e = Some E.
Proof. intros (x & y & E & _ & _ & _ & HE & _). by exists E. Qed.
Lemma linked_id h g a b : WF h → linked h g a b ↔ ∃ e i, has_id h g e i ∧ i.1 = (a, b).
Proof.
  intros W. split.
  - intros (e & x & y & Hj & Hx & Hy). apply (proj1 (ProofAdj.named_node _ _ _ _ W)) in Hx as (X & HX & _ & <-), Hy as (Y & HY & _ & <-).
    pose proof Hj as (E & HE & _). exists e, (n_id X, n_id Y, e_raw E). split; [|done]. by exists x, y, E, X, Y.
  - intros (e & i & (x & y & E & X & Y & Hj & HE & HX & HY & ->) & [= <- <-]). exists e, x, y. split; [done|].
    destruct (joins_in_graph h g e x y W Hj) as [(G1 & k1 & HG1 & Hk1) (G2 & k2 & HG2 & Hk2)].
    destruct (wf_gnodes _ W _ _ _ _ HG1 Hk1) as (? & ? & <- & _), (wf_gnodes _ W _ _ _ _ HG2 Hk2) as (? & ? & <- & _). simplify_eq. split; by eexists.
Qed.
(** C92.  is_similar_to is transitive (for reflexive and symmetric see C37). *)
Lemma C92_transitive_proof : ∀ h g1 g2 g3 G1 G2 G3, reachable h → params_ok h → h_graphs h !! g1 = Some G1 → h_graphs h !! g2 = Some G2 → h_graphs h !! g3 = Some G3 →
  graph_similar h g1 g2 = Ok true → graph_similar h g2 g3 = Ok true → graph_similar h g1 g3 = Ok true.
Proof.
  intros h g1 g2 g3 G1 G2 G3 Hr Hp HG1 HG2 HG3 H12 H23. pose proof (reachable_WF _ Hr) as W.
  apply (C37_true_partial_proof h g1 g2 G1 G2 Hr Hp HG1 HG2) in H12. apply (C37_true_partial_proof h g2 g3 G2 G3 Hr Hp HG2 HG3) in H23.
  apply (C37_true_partial_proof h g1 g3 G1 G3 Hr Hp HG1 HG3). destruct H12 as [F1 N1 V1 I1 E1], H23 as [F2 N2 V2 I2 E2]. split.
  - intros ? ? ? ?. simplify_eq. destruct (F1 G1 G2 HG1 HG2), (F2 G2 G3 HG2 HG3). split; congruence.
  - intros k. by rewrite N1, N2.
  - intros k r1 r3 X1 X3 H1 H3 HX1 HX3. destruct (proj1 (N1 k)) as [r2 H2]; [by exists r1|]. destruct (named_some h g2 k r2 W H2) as [X2 HX2].
    destruct (V1 k r1 r2 X1 X2 H1 H2 HX1 HX2) as (? & ? & ?), (V2 k r2 r3 X2 X3 H2 H3 HX2 HX3) as (? & ? & ?).
    split_and!; [by eapply same_value_trans|congruence|by eapply same_dict_trans].
  - intros i. by rewrite I1, I2.
  - intros i e1 e3 Y1 Y3 H1 H3 HY1 HY3. destruct (proj1 (I1 i)) as [e2 H2]; [by exists e1|]. destruct (has_id_edge _ _ _ _ H2) as [Y2 HY2].
    destruct (E1 i e1 e2 Y1 Y2 H1 H2 HY1 HY2) as (? & ? & ?), (E2 i e2 e3 Y2 Y3 H2 H3 HY2 HY3) as (? & ? & ?).
    split_and!; [by eapply same_value_trans|congruence|by eapply same_dict_trans].
Qed.
(** C92.  Similar graphs have walks of the same lengths between the same names, so the same
    relatives at the same distances, and cycles only together. *)
Lemma C92_paths_proof : ∀ h g1 g2 G1 G2, reachable h → params_ok h → h_graphs h !! g1 = Some G1 → h_graphs h !! g2 = Some G2 →
  graph_similar h g1 g2 = Ok true →
  (∀ n a b, 1 ≤ n → strides h g1 n a b ↔ strides h g2 n a b) ∧ (acyclic h g1 ↔ acyclic h g2).
Proof.
  intros h g1 g2 G1 G2 Hr Hp HG1 HG2 Hs. pose proof (reachable_WF _ Hr) as W. apply (C37_true_partial_proof h g1 g2 G1 G2 Hr Hp HG1 HG2) in Hs.
  assert (HS : ∀ n a b, 1 ≤ n → strides h g1 n a b ↔ strides h g2 n a b).
  { intros n a b Hn. rewrite !(strides_linked _ _ _ _ _ W Hn). apply nsteps_ext. intros a' b'. rewrite !(linked_id _ _ _ _ W).
    split; intros (e & i & Hi & Hab).
    - destruct (proj1 (sim_ids _ _ _ Hs i)) as [e' He']; [by exists e|]. by exists e', i.
    - destruct (proj2 (sim_ids _ _ _ Hs i)) as [e' He']; [by exists e|]. by exists e', i. }
  split; [exact HS|]. rewrite !(acyclic_strides _ _ W). split; intros H n a Hn Hst; apply (H n a Hn); by apply HS.
Qed.

Lemma copy_named h g G h' g' nu ep k r' : h_graphs h !! g = Some G → copy_of h g h' g' nu ep → named h' g' k r' ↔ ∃ r, named h g k r ∧ r' = nu r.
Proof.
  intros HG C. pose proof (cp_graph _ _ _ _ _ _ C G HG) as HG'. split.
  - intros (G1 & HG1 & Hin). rewrite HG' in HG1. injection HG1 as <-. simpl in Hin. apply elem_of_list_fmap in Hin as ([k0 r] & [= -> ->] & Hin). exists r. split; [by exists G|done].
  - intros (r & (G1 & HG1 & Hin) & ->). assert (G1 = G) as -> by congruence. eexists. split; [exact HG'|]. simpl. apply elem_of_list_fmap. by exists (k, r).
Qed.
Lemma copy_has_id h g G h' g' nu ep e' i : WF h → WF h' → h_graphs h !! g = Some G → copy_of h g h' g' nu ep →
  has_id h' g' e' i ↔ ∃ e, has_id h g e i ∧ e' = ep e.
Proof.
  intros W W' HG C.
  assert (Up : ∀ e E, h_edges h !! e = Some E → e_graph E = Some g → ∃ i, has_id h g e i ∧ has_id h' g' (ep e) i).
  { intros e E HE Hg. destruct (wf_live _ W _ _ _ HE Hg) as (s & t & S & T & u & Hs & Ht & HS & HT & HgS & HgT & Hraw & _).
    exists (n_id S, n_id T, e_raw E). split; [exists s, t, E, S, T; split_and!; [by exists E|done..]|].
    destruct (cp_edges _ _ _ _ _ _ C e E HE Hg) as (_ & E' & HE' & Hg' & Hraw' & _ & _ & _ & _ & _ & Hs' & Ht' & _).
    destruct (cp_nodes _ _ _ _ _ _ C s S HS HgS) as [_ HS'], (cp_nodes _ _ _ _ _ _ C t T HT HgT) as [_ HT'].
    eexists (nu s), (nu t), E', _, _. split_and!; [exists E'; rewrite Hs', Ht', Hs, Ht; done|done|exact HS'|exact HT'|simpl; by rewrite Hraw']. }
  split.
  - intros Hi. pose proof Hi as (x & y & E' & _ & _ & (E1 & HE1 & Hg1 & _) & _). destruct (cp_edges_onto _ _ _ _ _ _ C e' E1 HE1 Hg1) as (e & E & HE & Hg & ->).
    destruct (Up e E HE Hg) as (i' & Hi1 & Hi2). exists e. split; [|done]. apply has_id_get in Hi, Hi2; [|done..]. assert (i' = i) as -> by congruence. done.
  - intros (e & Hi & ->). pose proof Hi as (x & y & E & _ & _ & (E1 & HE1 & Hg1 & _) & _). destruct (Up e E1 HE1 Hg1) as (i' & Hi1 & Hi2).
    apply has_id_get in Hi, Hi1; [|done..]. assert (i' = i) as -> by congruence. done.
Qed.
Lemma copy_parts h g G h' g' : reachable h → h_graphs h !! g = Some G → copy g h = (h', Ok g') →
  ∃ nu ep, copy_of h g h' g' nu ep ∧ reachable h' ∧ unchanged g h h' ∧ extends h h'.
Proof.
  intros Hr HG Hc. destruct (C25_structure_partial_proof h g h' g' Hr) as (nu & ep & C & _); [by eexists|done|].
  pose proof (reach_call h (CCopy g) Hr I) as Hr'. pose proof (C53_frame_proof h (CCopy g) g Hr I) as [Hu _]; [by eexists|done|].
  pose proof (C53_builders_proof h (CCopy g) Hr I eq_refl) as He. simpl in Hr', Hu, He. rewrite Hc in Hr', Hu, He. by exists nu, ep.
Qed.
Lemma unchanged_has_id h h' g e i : WF h → WF h' → unchanged g h h' → has_id h' g e i ↔ has_id h g e i.
Proof.
  intros W W' [Ug Un Ue]. split.
  - intros (x & y & E & X & Y & (E1 & HE1 & Hg & Hx & Hy) & HE & HX & HY & ->). assert (E1 = E) as -> by congruence. clear HE1.
    destruct (wf_live _ W' _ _ _ HE Hg) as (s & t & S & T & u & Hs & Ht & HS & HT & HgS & HgT & _). simplify_eq.
    exists x, y, E, X, Y. apply Ue in HE; [|done]. apply Un in HX, HY; [|done..]. split_and!; [by exists E|done..].
  - intros (x & y & E & X & Y & (E1 & HE1 & Hg & Hx & Hy) & HE & HX & HY & ->). assert (E1 = E) as -> by congruence. clear HE1.
    destruct (wf_live _ W _ _ _ HE Hg) as (s & t & S & T & u & Hs & Ht & HS & HT & HgS & HgT & _). simplify_eq.
    exists x, y, E, X, Y. apply Ue in HE; [|done]. apply Un in HX, HY; [|done..]. split_and!; [by exists E|done..].
Qed.
Lemma unchanged_named h h' g k r : unchanged g h h' → named h' g k r ↔ named h g k r.
Proof. intros [Ug _ _]. unfold named. by rewrite Ug. Qed.
(** C92.  A copy is similar to the graph, if no edge of it has a style. *)
Lemma C92_copy_partial_proof : ∀ h g G h' g', reachable h → h_graphs h !! g = Some G → copy g h = (h', Ok g') → params_ok h' →
  (∀ e E, h_edges h !! e = Some E → e_graph E = Some g → e_style E = None) → graph_similar h' g g' = Ok true.
Proof.
  intros h g G h' g' Hr HG Hc Hp Hst. destruct (copy_parts h g G h' g' Hr HG Hc) as (nu & ep & C & Hr' & U & Hex).
  pose proof (reachable_WF _ Hr) as W. pose proof (reachable_WF _ Hr') as W'. pose proof (cp_graph _ _ _ _ _ _ C G HG) as HG'.
  assert (HGh' : h_graphs h' !! g = Some G) by (by rewrite (un_graph _ _ _ U)).
  apply (C37_true_partial_proof h' g g' G _ Hr' Hp HGh' HG'). split.
  - intros G1 G2 H1 H2. simplify_eq. done.
  - intros k. setoid_rewrite (copy_named h g G h' g' nu ep k _ HG C). setoid_rewrite (unchanged_named h h' g k _ U). naive_solver.
  - intros k r1 r2 N1 N2 H1 H2 HN1 HN2. apply (unchanged_named _ _ _ _ _ U) in H1. apply (copy_named h g G h' g' nu ep k _ HG C) in H2 as (r & Hr2 & ->).
    assert (r = r1) as -> by exact (uniq_named h g k r r1 W Hr2 H1). pose proof (proj1 (ProofAdj.named_node _ _ _ _ W) H1) as (N & HN & Hg & Hid).
    assert (h_nodes h' !! r1 = Some N) by (by apply (un_nodes _ _ _ U)). destruct (cp_nodes _ _ _ _ _ _ C r1 N HN Hg) as [_ HN']. simplify_eq. simpl.
    split_and!; [by left|done|]. apply same_dict_refl. by apply (proj1 Hp r1).
  - intros i. setoid_rewrite (copy_has_id h g G h' g' nu ep _ i W W' HG C). setoid_rewrite (unchanged_has_id h h' g _ i W W' U). naive_solver.
  - intros i e1 e2 E1 E2 H1 H2 HE1 HE2. apply (unchanged_has_id _ _ _ _ _ W W' U) in H1. apply (copy_has_id h g G h' g' nu ep _ _ W W' HG C) in H2 as (e & He & ->).
    rewrite <-(has_id_inj h g e1 e i W H1 He) in *. pose proof H1 as (x & y & _ & _ & _ & (E & HE & Hg & _) & _).
    assert (h_edges h' !! e1 = Some E) as HE' by (by apply (un_edges _ _ _ U)). destruct (cp_edges _ _ _ _ _ _ C e1 E HE Hg) as (_ & E' & HEE & _ & _ & Hv & _ & _ & _ & Hpp & _ & _ & Hs & _).
    assert (E1 = E) as -> by congruence. assert (E2 = E') as -> by congruence. rewrite Hv, Hpp, (Hs (Hst e1 E HE Hg)), (Hst e1 E HE Hg).
    split_and!; [by left|done|]. apply same_dict_refl. by apply (proj2 Hp e1).
Qed.
(** C92.  A copy is never similar to a graph that has an edge with a style: the copy has style
    objects of its own, and these are compared as objects. *)
Lemma C92_styled_copy_partial_proof : ∀ h g G h' g' e E s, reachable h → h_graphs h !! g = Some G → copy g h = (h', Ok g') → params_ok h' →
  h_edges h !! e = Some E → e_graph E = Some g → e_style E = Some s → graph_similar h' g g' = Ok false.
Proof.
  intros h g G h' g' e E s Hr HG Hc Hp HE Hg Hs. destruct (copy_parts h g G h' g' Hr HG Hc) as (nu & ep & C & Hr' & U & Hex).
  pose proof (reachable_WF _ Hr) as W. pose proof (reachable_WF _ Hr') as W'. pose proof (cp_graph _ _ _ _ _ _ C G HG) as HG'.
  assert (HGh' : h_graphs h' !! g = Some G) by (by rewrite (un_graph _ _ _ U)).
  destruct (C37_total_partial_proof h' g g' G _ Hr' Hp HGh' HG') as [b Hb].
  { right. split.
    - intros k r Hk. apply (unchanged_named _ _ _ _ _ U) in Hk. exists (nu r). apply (copy_named h g G h' g' nu ep k _ HG C). by exists r.
    - intros i e1 Hi. apply (unchanged_has_id _ _ _ _ _ W W' U) in Hi. exists (ep e1). apply (copy_has_id h g G h' g' nu ep _ _ W W' HG C). by exists e1. }
  destruct b; [|done]. apply (C37_true_partial_proof h' g g' G _ Hr' Hp HGh' HG') in Hb.
  destruct (wf_live _ W _ _ _ HE Hg) as (x & y & X & Y & u & Hx & Hy & HX & HY & _).
  assert (has_id h g e (n_id X, n_id Y, e_raw E)) as Hi by (exists x, y, E, X, Y; split_and!; [by exists E|done..]).
  destruct (cp_edges _ _ _ _ _ _ C e E HE Hg) as (_ & E' & HE' & Him). assert (h_edges h' !! e = Some E) as HE2 by (by apply (un_edges _ _ _ U)).
  destruct (sim_edges _ _ _ Hb _ e (ep e) E E' ltac:(by apply (unchanged_has_id _ _ _ _ _ W W' U)) ltac:(apply (copy_has_id h g G h' g' nu ep _ _ W W' HG C); by exists e) HE2 HE') as (_ & Heq & _).
  destruct (lookup_lt_is_Some_2 (h_es h) s) as [sty Hsty]; [by eapply wf_estyle|]. destruct Him as (_ & _ & _ & _ & _ & _ & _ & _ & _ & _ & Him). destruct (Him s sty Hs Hsty) as (s' & sty' & Hs' & Hn & _).
  congruence.
Qed.
(** C92 refuted for copies: a graph with one styled edge. *)
Lemma C92_copy_refuted_proof : ∃ h g h' g', reachable h ∧ is_Some (h_graphs h !! g) ∧ copy g h = (h', Ok g') ∧ params_ok h' ∧ graph_similar h' g g' = Ok false.
Proof.
  assert (reachable (run (graph_calls ["a"; "b"] [("a", "b")] ++ [CEStyleNew [("colour", PStr "red")]; CEdgeStyle 0 (SObj 0)]) empty_heap)) as Hr by reach.
  eexists _, 0, _, _. split; [exact Hr|]. split; [by vm_compute; eexists|]. split; [vm_compute; reflexivity|]. split; [|vm_compute; reflexivity].
  split.
  - intros r N HN. destruct r as [|[|[|[|r]]]]; vm_compute in HN; try discriminate; injection HN as <-; constructor.
  - intros e E HE. destruct e as [|[|e]]; vm_compute in HE; try discriminate; injection HE as <-; constructor.
Qed.
(** The sample graph without styles, its copy and the copy of that meet the hypotheses. *)
Lemma C92_ex_proof : ∃ h1 h2, reachable h2 ∧ copy 0 sample = (h1, Ok 2) ∧ copy 2 h1 = (h2, Ok 3) ∧ params_ok h2 ∧ graph_similar h2 0 2 = Ok true ∧ graph_similar h2 2 3 = Ok true ∧
  strides sample 0 2 (nm "a") (nm "c").
Proof.
  eexists _, _. split; [|split; [vm_compute; reflexivity|split; [vm_compute; reflexivity|]]].
  - pose proof (reach_call _ (CCopy 2) (reach_call _ (CCopy 0) sample_reachable I) I) as H. vm_compute in H. exact H.
  - split; [|split; [vm_compute; reflexivity|split; [vm_compute; reflexivity|]]].
    + split.
      * intros r N HN. repeat (destruct r as [|r]; [vm_compute in HN; injection HN as <-; constructor|]). destruct r; vm_compute in HN; discriminate.
      * intros e E HE. repeat (destruct e as [|e]; [vm_compute in HE; injection HE as <-; constructor|]). destruct e; vm_compute in HE; discriminate.
    + exists 0, 2. split; [eexists; split; [vm_compute; reflexivity|]; left|]. split; [eexists; split; [vm_compute; reflexivity|]; vm_compute; set_solver|].
      apply nsteps_l with 1; [exists 0|apply nsteps_once; exists 1]; (eexists; split; [vm_compute; reflexivity|by vm_compute]).
Qed.
