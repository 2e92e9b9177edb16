(** The roots of a graph with loops, exactly: C18. *)
From Verif Require Export ProofC2b.
From Verif Require Import ProofC37 Samples.
Local Open Scope string_scope.
Local Open Scope list_scope.

Section first.
  Context (h : heap) (W : WF h) (g : gref) (ns : list nref) (Hns : ∀ x, x ∈ ns ↔ in_graph h g x) (Hnd : NoDup ns).
  Definition bef (x y : nref) : Prop := ∃ i j, ns !! i = Some x ∧ ns !! j = Some y ∧ i < j.
  Definition first_source (r : nref) : Prop := in_graph h g r ∧ ∀ y, path h g y r → y ≠ r → path h g r y ∧ bef r y.

  Lemma bef_prefix pre r l x : ns = pre ++ r :: l → bef x r → x ∈ pre.
  Proof.
    intros He (i & j & Hi & Hj & Hlt). assert (j = length pre) as ->.
    { eapply NoDup_lookup; [done..|]. rewrite He. by rewrite list_lookup_middle. }
    rewrite He, lookup_app_l in Hi by done. by eapply elem_of_list_lookup_2.
  Qed.
  Lemma roots_keep l : ∀ pre p, ns = pre ++ l → all_in h g l → p `sublist_of` ns → (∀ r, first_source r → r ∈ p) →
    (∀ r x, r ∈ pre → r ∈ p → x ∈ p → path h g r x → x = r) →
    ∀ p', rfold (roots_step h g) p l = Ok p' → ∀ r, first_source r → r ∈ p'.
  Proof.
    induction l as [|x l IH]; intros pre p He Hl Hsub HC HB p' Hrun; cbn [rfold] in Hrun; [by injection Hrun as <-|].
    apply all_in_cons in Hl as [Hx Hl]. assert (Hin : all_in h g p) by (by eapply sub_in).
    unfold roots_step at 1 in Hrun. rewrite (node_in_run h W g) in Hrun by done. destruct (obj_in x p) eqn:Hxp.
    - apply obj_in_true in Hxp. destruct (get_descendants_spec h W g (ANode x) x) as (ds & Hds & Hdn & Hdi); [by apply denotes_get, denotes_self|].
      rewrite Hds in Hrun. cbn [rbind] in Hrun.
      rewrite (fold_remove_run h W g) in Hrun; [|intros y [Hy _]%Hdi; by apply path_in_graph in Hy as [_ ?]|done|by eapply sublist_NoDup].
      eapply (IH (pre ++ [x])); [by rewrite <-app_assoc|done|refine (transitivity (filter_sublist' _ p) Hsub)| | |exact Hrun].
      + intros r Hr. apply elem_of_list_filter. split; [|by apply HC]. intros [Hxr Hne]%Hdi.
        assert (Hxne : x ≠ r) by congruence. destruct (proj2 Hr x Hxr Hxne) as [Hrx Hb]. apply Hxne.
        apply (HB r x); [by eapply bef_prefix|by apply HC|done|done].
      + intros r y [Hr| ->%elem_of_list_singleton]%elem_of_app [_ Hrp]%elem_of_list_filter [Hyd Hyp]%elem_of_list_filter Hp.
        * by apply HB.
        * destruct (decide (y = x)); [done|]. exfalso. apply Hyd, Hdi. done.
    - apply obj_in_false in Hxp. cbn [rbind] in Hrun. eapply (IH (pre ++ [x])); [by rewrite <-app_assoc|done|done|done| |done].
      intros r y [Hr| ->%elem_of_list_singleton]%elem_of_app Hrp Hyp Hp; [by apply HB|done].
  Qed.
  (** the first of the nodes that reach [r] *)
  Lemma first_above r : in_graph h g r → (∀ y, path h g y r → y ≠ r → path h g r y) →
    ∃ c, first_source c ∧ path0 h g c r ∧ path0 h g r c ∧ ∀ y, path h g y r → y ≠ c → bef c y.
  Proof.
    intros Hr Hs. destruct (get_ancestors_spec h W g (ANode r) r) as (as_ & _ & _ & Has); [by apply denotes_get, denotes_self|].
    set (l := filter (λ x, x = r ∨ x ∈ as_) ns).
    assert (Hl : ∀ x, x ∈ l ↔ x = r ∨ path h g x r).
    { intros x. unfold l. rewrite elem_of_list_filter, Has. split; [tauto|]. intros Hx. split; [done|]. apply Hns.
      destruct Hx as [->|Hx]; [done|]. by apply path_in_graph in Hx as [? _]. }
    destruct l as [|c l'] eqn:El; [assert (Hx : r ∈ []) by (apply Hl; by left); by apply elem_of_nil in Hx|].
    assert (Hbef : ∀ y, y ∈ c :: l' → y ≠ c → bef c y).
    { intros y Hy Hne. apply elem_of_cons in Hy as [?|Hy]; [done|]. clear - El Hy.
      assert (∀ k : list nref, filter (λ x, x = r ∨ x ∈ as_) k = c :: l' → ∃ i j, k !! i = Some c ∧ k !! j = Some y ∧ i < j) as Hk; [|by apply Hk].
      induction k as [|z k IH]; [done|]. rewrite filter_cons. destruct (decide (z = r ∨ z ∈ as_)).
      - intros [= -> Hk]. rewrite <-Hk in Hy. apply elem_of_list_filter in Hy as [_ (j & Hj)%elem_of_list_lookup].
        exists 0, (S j). split_and!; [done|done|lia].
      - intros Hk. destruct (IH Hk) as (i & j & ? & ? & ?). exists (S i), (S j). split_and!; [done|done|lia]. }
    assert (Hc : c = r ∨ path h g c r) by (apply Hl; left).
    assert (Hcr : path0 h g c r) by (destruct Hc as [->|?]; [apply rtc_refl|by apply tc_rtc]).
    assert (Hrc : path0 h g r c).
    { destruct (decide (c = r)) as [->|Hne]; [apply rtc_refl|]. destruct Hc as [?|Hc]; [done|]. by apply tc_rtc, Hs. }
    exists c. split_and!; [|done|done|].
    - split; [destruct Hc as [->|Hc]; [done|]; by apply path_in_graph in Hc as [? _]|]. intros y Hy Hne.
      assert (Hyr : path h g y r) by (eapply tc_rtc_r; done). split.
      + assert (path0 h g c y) as Hcy; [|apply rtc_tc in Hcy as [->|?]; done].
        etrans; [exact Hcr|]. destruct (decide (y = r)) as [->|Hyn]; [apply rtc_refl|]. by apply tc_rtc, Hs.
      + apply Hbef; [|done]. apply Hl. by right.
    - intros y Hy Hne. apply Hbef; [|done]. apply Hl. by right.
  Qed.
End first.

(** C18.  Exactly which nodes are roots, also when there are loops: those that reach every
    other node that reaches them and come before each of these in the list of nodes.  In
    other words, of every set of nodes that reach each other and are reached by no other
    node, the one that was added first. *)
Lemma C18_exact_proof : ∀ h g G, reachable h → h_graphs h !! g = Some G →
  ∃ rs, roots h g = Ok rs ∧ rs `sublist_of` (g_nodes G).*2 ∧
    ∀ r, r ∈ rs ↔ in_graph h g r ∧ ∀ y, path h g y r → y ≠ r →
      path h g r y ∧ ∃ i j, (g_nodes G).*2 !! i = Some r ∧ (g_nodes G).*2 !! j = Some y ∧ i < j.
Proof.
  intros h g G Hre HG. destruct (C18_roots_proof h g G Hre HG) as (rs & Hrs & Hsub & Hnr & Hcov & Hno & _).
  exists rs. split; [done|]. split; [done|]. pose proof (reachable_WF _ Hre) as W.
  pose proof (NoDup_nodes h g G W HG) as Hnd.
  assert (Hns : ∀ x, x ∈ dvals (g_nodes G) ↔ in_graph h g x) by (intros; by apply elem_of_nodes).
  assert (Hkeep : ∀ r, first_source h g (dvals (g_nodes G)) r → r ∈ rs).
  { unfold roots in Hrs. rewrite (nodes_run _ _ _ HG) in Hrs. cbn [rbind] in Hrs.
    eapply (roots_keep h W g _ Hns Hnd (dvals (g_nodes G)) [] (dvals (g_nodes G))); [done| |done| | |done].
    - intros x. apply Hns.
    - intros r [Hr _]. by apply Hns.
    - by intros r x ?%elem_of_nil. }
  assert (Hin : ∀ r, r ∈ rs → in_graph h g r) by (intros r Hr; by eapply sub_in).
  intros r. split; [|apply Hkeep]. intros Hr.
  assert (Hup : ∀ y, path h g y r → y ≠ r → path h g r y).
  { intros y Hy Hne. destruct (path_in_graph _ W _ _ _ Hy) as [Hgy _]. destruct (Hcov y Hgy) as [Hyr|(r0 & Hr0 & Hne0 & Hp)].
    - exfalso. apply Hne. symmetry. by apply (Hno y r).
    - assert (r = r0) as -> by (apply (Hno r0 r); [done..|]; by etrans). done. }
  destruct (first_above h W g _ Hns r (Hin r Hr) Hup) as (c & Hc & Hcr & _ & Hb).
  assert (c = r) as ->.
  { apply rtc_tc in Hcr as [->|Hp]; [done|]. symmetry. apply (Hno c r); [by apply Hkeep|done..]. }
  split; [by apply Hin|]. intros y Hy Hne. split; [by apply Hup|]. exact (Hb y Hy Hne).
Qed.

(** C18 is not vacuous: with edges a->b, b->a, a->c the nodes a and b reach each other and
    nothing else reaches them; a, which was added first, is the only root. *)
Lemma C18_exact_ex_proof : ∃ h g a b c, reachable h ∧ in_graph h g c ∧ path h g a b ∧ path h g b a ∧ path h g b c ∧ roots h g = Ok [a].
Proof.
  exists rho, 0, 0, 1, 2. split; [exact rho_reachable|].
  assert (Hab : adj rho 0 0 1) by (eexists 0, _; split; [vm_compute; reflexivity|done]).
  assert (Hba : adj rho 0 1 0) by (eexists 1, _; split; [vm_compute; reflexivity|done]).
  assert (Hac : adj rho 0 0 2) by (eexists 2, _; split; [vm_compute; reflexivity|done]).
  split; [eexists _, (nm "c"); split; [vm_compute; reflexivity|]; do 2 right; left|]. split; [by apply tc_once|]. split; [by apply tc_once|]. split; [|by vm_compute].
  eapply tc_l; [exact Hba|]. by apply tc_once.
Qed.
