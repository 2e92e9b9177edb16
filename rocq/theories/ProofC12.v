(** is_similar_to. *)
From Verif Require Export SpecSim ProofBuild ProofRepr Samples.
Local Open Scope list_scope.

Lemma py_eqb_same v w : py_eqb v w = true ↔ same_value v w.
Proof.
  unfold same_value. split.
  - destruct v, w; cbn; try (intros H%eqb_is; by left).
    + intros ->%Z.eqb_eq. by left.
    + intros ?%Qeq_bool_iff. right. eauto.
    + intros ?%Qeq_bool_iff. right. eexists _, _. split; [done|]. split; [done|]. by symmetry.
    + intros ?%Qeq_bool_iff. right. eauto.
  - intros [->|(p & q & Hp & Hq & Heq)].
    + destruct w; cbn; try (by apply eqb_same); [apply Z.eqb_refl|]. by apply Qeq_bool_iff.
    + destruct v, w; cbn in *; simplify_eq; try (by apply Qeq_bool_iff); try (apply Qeq_bool_iff; by symmetry).
      apply Z.eqb_eq. unfold Qeq, inject_Z in Heq. cbn in Heq. lia.
Qed.
Lemma sim_perm {A} (l1 l2 : list A) : NoDup l1 → NoDup l2 → length l1 = length l2 → (∀ x, x ∈ l1 → x ∈ l2) → ∀ x, x ∈ l1 ↔ x ∈ l2.
Proof.
  intros H1 H2 Hlen Hsub x. assert (l1 ≡ₚ l2) as Hp; [|by rewrite Hp].
  apply submseteq_Permutation_length_eq; [done|by apply NoDup_submseteq].
Qed.
Lemma dict_sim {K V} `{EqDecision K} (d1 d2 : dict K V) (P : V → V → Prop) : NoDup (dkeys d1) → NoDup (dkeys d2) →
  (length d1 = length d2 ∧ ∀ k v, (k, v) ∈ d1 → ∃ w, dget d2 k = Some w ∧ P v w) ↔
  (∀ k, k ∈ dkeys d1 ↔ k ∈ dkeys d2) ∧ ∀ k v w, (k, v) ∈ d1 → (k, w) ∈ d2 → P v w.
Proof.
  intros H1 H2. split.
  - intros [Hlen Hall]. split.
    + apply sim_perm; [done|done|by unfold dkeys; rewrite !fmap_length|]. intros k [v Hv]%elem_of_dkeys.
      destruct (Hall k v Hv) as (w & Hw & _). apply elem_of_dkeys. exists w. by apply dget_Some_in.
    + intros k v w Hv Hw. destruct (Hall k v Hv) as (w' & Hw' & HP). rewrite (dget_in_Some _ _ _ H2 Hw) in Hw'. by simplify_eq.
  - intros [Hk HP]. split.
    + assert (dkeys d1 ≡ₚ dkeys d2) as Hp by (by apply NoDup_Permutation). apply Permutation_length in Hp. unfold dkeys in Hp. by rewrite !fmap_length in Hp.
    + intros k v Hv. assert (k ∈ dkeys d2) as [w Hw]%elem_of_dkeys by (apply Hk, elem_of_dkeys; eauto).
      exists w. split; [by apply dget_in_Some|]. by eapply HP.
Qed.
Lemma sdict_eqb_same d1 d2 : NoDup d1.*1 → NoDup d2.*1 → sdict_eqb d1 d2 = true ↔ same_dict d1 d2.
Proof.
  intros H1 H2. unfold sdict_eqb, same_dict. rewrite <-(dict_sim d1 d2 same_value H1 H2), andb_true_iff, Nat.eqb_eq, forallb_forall.
  split; intros [Hlen Hall]; (split; [done|]).
  - intros k v Hkv. specialize (Hall (k, v) (proj1 (elem_of_list_In _ _) Hkv)). cbn in Hall. destruct (dget d2 k) as [w|]; [|done].
    exists w. split; [done|]. by apply py_eqb_same.
  - intros [k v] Hkv. apply elem_of_list_In in Hkv. destruct (Hall k v Hkv) as (w & Hg & Hw). cbn. rewrite Hg. by apply py_eqb_same.
Qed.

Definition edge_like (E1 E2 : edge) : Prop :=
  same_value (e_value E1) (e_value E2) ∧ e_style E1 = e_style E2 ∧ same_dict (e_params E1) (e_params E2).
Lemma has_id_get h g e i : WF h → has_id h g e i → get_edge_id h e = Ok i.
Proof.
  intros W (x & y & E & Nx & Ny & (E' & HE' & Hg & Hs & Ht) & HE & HNx & HNy & ->). assert (E' = E) as -> by congruence.
  destruct (get_edge_id_live h e E g W HE Hg) as (s & t & Ns & Nt & u & ? & ? & ? & ? & _ & _ & Hu & Hid & _). simplify_eq. by rewrite Hid, Hu.
Qed.
Lemma edge_similar_like h g1 g2 e1 e2 E1 E2 i : WF h → params_ok h → has_id h g1 e1 i → has_id h g2 e2 i →
  h_edges h !! e1 = Some E1 → h_edges h !! e2 = Some E2 →
  ∃ b, edge_similar h e1 e2 = Ok b ∧ (b = true ↔ edge_like E1 E2).
Proof.
  intros W [_ Hp] H1 H2 HE1 HE2. unfold edge_similar. rewrite (has_id_get h g1 e1 i W H1), (has_id_get h g2 e2 i W H2). cbn [rbind].
  rewrite (get_e_Ok _ _ _ HE1), (get_e_Ok _ _ _ HE2). cbn [rbind].
  assert (e_raw E1 = i.2 ∧ e_raw E2 = i.2) as [-> ->].
  { destruct H1 as (? & ? & ? & ? & ? & _ & ? & _ & _ & ->). destruct H2 as (? & ? & ? & ? & ? & _ & ? & _ & _ & [= _ _ ?]). simplify_eq. cbn. split; congruence. }
  rewrite !eqb_same. cbn [andb]. 
  assert (Hl : edge_like E1 E2 ↔ py_eqb (e_value E1) (e_value E2) = true ∧ e_style E1 = e_style E2 ∧ sdict_eqb (e_params E1) (e_params E2) = true).
  { unfold edge_like. rewrite py_eqb_same, sdict_eqb_same by (by eapply Hp). done. }
  setoid_rewrite Hl. clear Hl.
  destruct (py_eqb (e_value E1) (e_value E2)); cbn [andb]; [|exists false; split; [done|]; split; [done|by intros [? _]]].
  destruct (eqb (e_style E1) (e_style E2)) eqn:Hst; cbn [andb].
  - apply eqb_is in Hst. destruct (sdict_eqb (e_params E1) (e_params E2)); eexists; (split; [reflexivity|]); split; try done. by intros (_ & _ & ?).
  - apply eqb_isnt in Hst. exists false. split; [done|]. split; [done|]. by intros (_ & ? & _).
Qed.

(** The two loops never do anything but return a boolean or raise KeyError. *)
Definition tame (r : res bool) : Prop := (∃ b, r = Ok b) ∨ r = Err KeyError.
Section loop.
  Context {K V : Type} `{EqDecision K} (sim : V → V → res bool).
  Fixpoint loop (d1 d2 : dict K V) : res bool :=
    match d1 with
    | [] => Ok true
    | (i, e) :: d1' =>
        let! e2 := dgetR d2 i in
        let! b := sim e e2 in
        if (b : bool) then loop d1' d2 else Ok false
    end.
  Lemma loop_true d1 d2 : loop d1 d2 = Ok true ↔ ∀ k v, (k, v) ∈ d1 → ∃ w, dget d2 k = Some w ∧ sim v w = Ok true.
  Proof.
    induction d1 as [|[k v] d1 IH]; cbn; [split; [by intros _ ? ? ?%elem_of_nil|done]|]. split.
    - intros (w & Hw & Hb)%rbind_Ok. apply rbind_Ok in Hb as ([] & Hb & Hl); [|done].
      intros k' v' [[= -> ->]|Hin]%elem_of_cons; [|by apply IH]. exists w. split; [|done].
      unfold dgetR in Hw. destruct (dget d2 k) as [w'|]; by simplify_eq.
    - intros Hall. destruct (Hall k v (elem_of_list_here _ _)) as (w & Hw & Hs). unfold dgetR. rewrite Hw. cbn. rewrite Hs. cbn.
      apply IH. intros k' v' Hin. apply Hall. by right.
  Qed.
  Lemma loop_tame d1 d2 : (∀ k v w, (k, v) ∈ d1 → (k, w) ∈ d2 → tame (sim v w)) → tame (loop d1 d2).
  Proof.
    induction d1 as [|[k v] d1 IH]; cbn; intros Ht; [left; eauto|]. unfold dgetR. destruct (dget d2 k) as [w|] eqn:Hw; cbn; [|by right].
    destruct (Ht k v w (elem_of_list_here _ _)) as [[[] ->]| ->]; [by apply dget_Some_in|..]; cbn.
    - apply IH. intros. eapply Ht; [by right|done].
    - left. eauto.
    - by right.
  Qed.
  Lemma loop_bool d1 d2 : (∀ k, k ∈ dkeys d1 → k ∈ dkeys d2) → (∀ k v w, (k, v) ∈ d1 → (k, w) ∈ d2 → ∃ b, sim v w = Ok b) → ∃ b, loop d1 d2 = Ok b.
  Proof.
    induction d1 as [|[k v] d1 IH]; cbn; intros Hk Ht; [eauto|]. unfold dgetR. destruct (dget d2 k) as [w|] eqn:Hw; cbn.
    - destruct (Ht k v w (elem_of_list_here _ _)) as [[] ->]; [by apply dget_Some_in| |eauto]. cbn.
      apply IH; [intros; apply Hk; by right|]. intros. eapply Ht; [by right|done].
    - apply dget_None in Hw. destruct Hw. apply Hk. left.
  Qed.
End loop.
Lemma edge_dict_loop h d1 d2 : edge_dict_similar h d1 d2 = loop (edge_similar h) d1 d2.
Proof. induction d1 as [|[i e] d1 IH]; [done|]. cbn. destruct (dgetR d2 i); [|done]. cbn. destruct (edge_similar h e _) as [[]|]; [apply IH|done|done]. Qed.
Lemma nodes_loop h d1 d2 : nodes_similar h d1 d2 = loop (node_similar h) d1 d2.
Proof. induction d1 as [|[i e] d1 IH]; [done|]. cbn. destruct (dgetR d2 i); [|done]. cbn. destruct (node_similar h e _) as [[]|]; [apply IH|done|done]. Qed.

(** the entries of the edge dictionaries *)
Lemma out_id h g k r N i e : WF h → named h g k r → h_nodes h !! r = Some N → (i, e) ∈ n_out N ↔ has_id h g e i ∧ i.1.1 = k.
Proof.
  intros W Hk HN. destruct (named_id h g k r N W Hk HN) as [Hid Hg]. split.
  - intros Hin. destruct (WF_out_entry h r N i e W HN Hin) as (g1 & E & t & Nt & u & HE & Hge & Hs & Ht & Hu & HNt & HgN & HgNt & -> & _).
    assert (g1 = g) as -> by congruence. split; [|done]. exists r, t, E, N, Nt. split; [by exists E|]. by rewrite Hu.
  - intros [(x & y & E & Nx & Ny & Hj & HE & HNx & HNy & ->) Heq]. cbn in Heq.
    destruct (joins_in_graph h g e x y W Hj) as [(G & k1 & HG & Hk1) _].
    destruct (named_id h g k1 x Nx W) as [Hx _]; [by exists G|done|].
    assert (x = r) as ->. { eapply (named_inj h g k x r); [done| |done]. exists G. split; [done|]. by rewrite <-Heq, Hx. }
    destruct Hj as (E1 & HE1 & HgE & Hs & Ht). assert (E1 = E) as -> by congruence.
    destruct (get_edge_id_live h e E g W HE HgE) as (s' & t' & Ns & Nt & u & ? & ? & HNs & HNt & _ & _ & Hu & _ & Ho & _). simplify_eq. by rewrite Hu.
Qed.
Lemma in_id h g k r N i e : WF h → named h g k r → h_nodes h !! r = Some N → (i, e) ∈ n_in N ↔ has_id h g e i ∧ i.1.2 = k.
Proof.
  intros W Hk HN. destruct (named_id h g k r N W Hk HN) as [Hid Hg]. split.
  - intros Hin. destruct (WF_in_entry h r N i e W HN Hin) as (g1 & E & t & Nt & u & HE & Hge & Hs & Ht & Hu & HNt & HgN & HgNt & -> & _).
    assert (g1 = g) as -> by congruence. split; [|done]. exists t, r, E, Nt, N. split; [by exists E|]. by rewrite Hu.
  - intros [(x & y & E & Nx & Ny & Hj & HE & HNx & HNy & ->) Heq]. cbn in Heq.
    destruct (joins_in_graph h g e x y W Hj) as [_ (G & k1 & HG & Hk1)].
    destruct (named_id h g k1 y Ny W) as [Hx _]; [by exists G|done|].
    assert (y = r) as ->. { eapply (named_inj h g k y r); [done| |done]. exists G. split; [done|]. by rewrite <-Heq, Hx. }
    destruct Hj as (E1 & HE1 & HgE & Hs & Ht). assert (E1 = E) as -> by congruence.
    destruct (get_edge_id_live h e E g W HE HgE) as (s' & t' & Ns & Nt & u & ? & ? & HNs & HNt & _ & _ & Hu & _ & _ & Ho). simplify_eq. by rewrite Hu.
Qed.
(** what is_similar_to of two nodes of the same name means *)
Definition node_like (h : heap) (g1 g2 : gref) (k : name) (N1 N2 : node) : Prop :=
  (same_value (n_value N1) (n_value N2) ∧ n_style N1 = n_style N2 ∧ same_dict (n_params N1) (n_params N2)) ∧
  (∀ i, i.1.1 = k ∨ i.1.2 = k → ((∃ e, has_id h g1 e i) ↔ (∃ e, has_id h g2 e i)) ∧
     ∀ e1 e2 E1 E2, has_id h g1 e1 i → has_id h g2 e2 i → h_edges h !! e1 = Some E1 → h_edges h !! e2 = Some E2 → edge_like E1 E2).
Lemma node_similar_true h g1 g2 k r1 r2 N1 N2 : WF h → params_ok h → named h g1 k r1 → named h g2 k r2 →
  h_nodes h !! r1 = Some N1 → h_nodes h !! r2 = Some N2 → node_similar h r1 r2 = Ok true ↔ node_like h g1 g2 k N1 N2.
Proof.
  intros W Hp Hk1 Hk2 HN1 HN2. unfold node_similar. rewrite (get_n_Ok _ _ _ HN1), (get_n_Ok _ _ _ HN2). cbn [rbind].
  destruct (named_id h g1 k r1 N1 W Hk1 HN1) as [Hid1 _]. destruct (named_id h g2 k r2 N2 W Hk2 HN2) as [Hid2 _].
  assert (node_obj_similar N1 N2 = true ↔ same_value (n_value N1) (n_value N2) ∧ n_style N1 = n_style N2 ∧ same_dict (n_params N1) (n_params N2)) as Hobj.
  { unfold node_obj_similar. rewrite !andb_true_iff, !eqb_true, py_eqb_same, sdict_eqb_same by (by eapply (proj1 Hp)). rewrite Hid1, Hid2. tauto. }
  unfold node_like. rewrite <-Hobj. clear Hobj.
  destruct (node_obj_similar N1 N2); cbn [negb]; [|split; [done|by intros [? _]]].
  assert (Hedge : ∀ i e1 e2, has_id h g1 e1 i → has_id h g2 e2 i → edge_similar h e1 e2 = Ok true ↔
     ∀ E1 E2, h_edges h !! e1 = Some E1 → h_edges h !! e2 = Some E2 → edge_like E1 E2).
  { intros i e1 e2 H1 H2. pose proof H1 as (? & ? & E1 & ? & ? & _ & HE1 & _). pose proof H2 as (? & ? & E2 & ? & ? & _ & HE2 & _).
    destruct (edge_similar_like h g1 g2 e1 e2 E1 E2 i W Hp H1 H2 HE1 HE2) as (b & -> & Hb). split.
    - intros [= ->]. intros E1' E2' ? ?. simplify_eq. by apply Hb.
    - intros Hl. specialize (Hl E1 E2 HE1 HE2). by apply Hb in Hl as ->. }
  pose proof (wf_nout _ W r1 N1 HN1) as Ho1. pose proof (wf_nout _ W r2 N2 HN2) as Ho2.
  pose proof (wf_nin _ W r1 N1 HN1) as Hi1. pose proof (wf_nin _ W r2 N2 HN2) as Hi2.
  assert (Hout : (length (n_out N1) = length (n_out N2) ∧ edge_dict_similar h (n_out N1) (n_out N2) = Ok true) ↔
    ∀ i, i.1.1 = k → ((∃ e, has_id h g1 e i) ↔ (∃ e, has_id h g2 e i)) ∧
     ∀ e1 e2 E1 E2, has_id h g1 e1 i → has_id h g2 e2 i → h_edges h !! e1 = Some E1 → h_edges h !! e2 = Some E2 → edge_like E1 E2).
  { rewrite edge_dict_loop, loop_true, (dict_sim (n_out N1) (n_out N2) (λ e1 e2, edge_similar h e1 e2 = Ok true) Ho1 Ho2). split.
    - intros [Hk HP] i Hi. split.
      + split; intros [e He].
        * assert (i ∈ dkeys (n_out N2)) as [e2 He2]%elem_of_dkeys by (apply Hk, elem_of_dkeys; exists e; by apply (out_id h g1 k r1 N1)).
          exists e2. by eapply (out_id h g2 k r2 N2).
        * assert (i ∈ dkeys (n_out N1)) as [e2 He2]%elem_of_dkeys by (apply Hk, elem_of_dkeys; exists e; by apply (out_id h g2 k r2 N2)).
          exists e2. by eapply (out_id h g1 k r1 N1).
      + intros e1 e2 E1 E2 H1 H2 HE1 HE2. apply (Hedge i e1 e2 H1 H2); [|done|done].
        apply (HP i); [by apply (out_id h g1 k r1 N1)|by apply (out_id h g2 k r2 N2)].
    - intros Hall. split.
      + intros i. rewrite !elem_of_dkeys. split; intros [e He].
        * apply (out_id h g1 k r1 N1 i e W Hk1 HN1) in He as [He Hi]. destruct (Hall i Hi) as [Hii _]. destruct (proj1 Hii (ex_intro _ e He)) as [e' He'].
          exists e'. by apply (out_id h g2 k r2 N2).
        * apply (out_id h g2 k r2 N2 i e W Hk2 HN2) in He as [He Hi]. destruct (Hall i Hi) as [Hii _]. destruct (proj2 Hii (ex_intro _ e He)) as [e' He'].
          exists e'. by apply (out_id h g1 k r1 N1).
      + intros i e1 e2 H1 H2. apply (out_id h g1 k r1 N1 i e1 W Hk1 HN1) in H1 as [H1 Hi]. apply (out_id h g2 k r2 N2 i e2 W Hk2 HN2) in H2 as [H2 _].
        apply (Hedge i e1 e2 H1 H2). intros. eapply (Hall i Hi); eauto. }
  assert (Hin : (length (n_in N1) = length (n_in N2) ∧ edge_dict_similar h (n_in N1) (n_in N2) = Ok true) ↔
    ∀ i, i.1.2 = k → ((∃ e, has_id h g1 e i) ↔ (∃ e, has_id h g2 e i)) ∧
     ∀ e1 e2 E1 E2, has_id h g1 e1 i → has_id h g2 e2 i → h_edges h !! e1 = Some E1 → h_edges h !! e2 = Some E2 → edge_like E1 E2).
  { rewrite edge_dict_loop, loop_true, (dict_sim (n_in N1) (n_in N2) (λ e1 e2, edge_similar h e1 e2 = Ok true) Hi1 Hi2). split.
    - intros [Hk HP] i Hi. split.
      + split; intros [e He].
        * assert (i ∈ dkeys (n_in N2)) as [e2 He2]%elem_of_dkeys by (apply Hk, elem_of_dkeys; exists e; by apply (in_id h g1 k r1 N1)).
          exists e2. by eapply (in_id h g2 k r2 N2).
        * assert (i ∈ dkeys (n_in N1)) as [e2 He2]%elem_of_dkeys by (apply Hk, elem_of_dkeys; exists e; by apply (in_id h g2 k r2 N2)).
          exists e2. by eapply (in_id h g1 k r1 N1).
      + intros e1 e2 E1 E2 H1 H2 HE1 HE2. apply (Hedge i e1 e2 H1 H2); [|done|done].
        apply (HP i); [by apply (in_id h g1 k r1 N1)|by apply (in_id h g2 k r2 N2)].
    - intros Hall. split.
      + intros i. rewrite !elem_of_dkeys. split; intros [e He].
        * apply (in_id h g1 k r1 N1 i e W Hk1 HN1) in He as [He Hi]. destruct (Hall i Hi) as [Hii _]. destruct (proj1 Hii (ex_intro _ e He)) as [e' He'].
          exists e'. by apply (in_id h g2 k r2 N2).
        * apply (in_id h g2 k r2 N2 i e W Hk2 HN2) in He as [He Hi]. destruct (Hall i Hi) as [Hii _]. destruct (proj2 Hii (ex_intro _ e He)) as [e' He'].
          exists e'. by apply (in_id h g1 k r1 N1).
      + intros i e1 e2 H1 H2. apply (in_id h g1 k r1 N1 i e1 W Hk1 HN1) in H1 as [H1 Hi]. apply (in_id h g2 k r2 N2 i e2 W Hk2 HN2) in H2 as [H2 _].
        apply (Hedge i e1 e2 H1 H2). intros. eapply (Hall i Hi); eauto. }
  transitivity ((length (n_out N1) = length (n_out N2) ∧ edge_dict_similar h (n_out N1) (n_out N2) = Ok true) ∧
                (length (n_in N1) = length (n_in N2) ∧ edge_dict_similar h (n_in N1) (n_in N2) = Ok true)).
  - destruct (Nat.eqb_spec (length (n_out N1)) (length (n_out N2))); cbn [negb]; [|split; [done|tauto]].
    destruct (Nat.eqb_spec (length (n_in N1)) (length (n_in N2))); cbn [negb]; [|split; [done|tauto]].
    destruct (edge_dict_similar h (n_out N1) (n_out N2)) as [[]|]; cbn; [tauto|split; [done|intros [[_ ?] _]; done]..].
  - rewrite Hout, Hin. clear. split; [intros [H1 H2]; split; [done|]; intros i [?|?]; auto|]. intros [_ H]. split; intros; apply H; auto.
Qed.
Lemma named_some h g k r : WF h → named h g k r → ∃ N, h_nodes h !! r = Some N.
Proof. intros W (G & HG & Hk). destruct (wf_gnodes _ W g G k r HG Hk) as (N & HN & _). eauto. Qed.
Lemma node_similar_tame h g1 g2 k r1 r2 : WF h → params_ok h → named h g1 k r1 → named h g2 k r2 → tame (node_similar h r1 r2).
Proof.
  intros W Hp Hk1 Hk2. destruct (named_some h g1 k r1 W Hk1) as (N1 & HN1). destruct (named_some h g2 k r2 W Hk2) as (N2 & HN2).
  unfold node_similar. rewrite (get_n_Ok _ _ _ HN1), (get_n_Ok _ _ _ HN2). cbn [rbind].
  assert (He : ∀ i e1 e2, has_id h g1 e1 i → has_id h g2 e2 i → tame (edge_similar h e1 e2)).
  { intros i e1 e2 H1 H2. pose proof H1 as (? & ? & E1 & ? & ? & _ & HE1 & _). pose proof H2 as (? & ? & E2 & ? & ? & _ & HE2 & _).
    destruct (edge_similar_like h g1 g2 e1 e2 E1 E2 i W Hp H1 H2 HE1 HE2) as (b & -> & _). left. eauto. }
  destruct (negb _); [left; eauto|]. destruct (negb _); [left; eauto|]. destruct (negb _); [left; eauto|]. rewrite !edge_dict_loop.
  assert (tame (loop (edge_similar h) (n_out N1) (n_out N2))) as [[[] ->]| ->]; cbn; [|..|left; eauto|by right].
  { apply loop_tame. intros i e1 e2 H1 H2. apply (out_id h g1 k r1 N1 i e1 W Hk1 HN1) in H1 as [H1 _]. apply (out_id h g2 k r2 N2 i e2 W Hk2 HN2) in H2 as [H2 _]. eauto. }
  apply loop_tame. intros i e1 e2 H1 H2. apply (in_id h g1 k r1 N1 i e1 W Hk1 HN1) in H1 as [H1 _]. apply (in_id h g2 k r2 N2 i e2 W Hk2 HN2) in H2 as [H2 _]. eauto.
Qed.
Lemma node_similar_bool h g1 g2 k r1 r2 : WF h → params_ok h → named h g1 k r1 → named h g2 k r2 →
  (∀ i, (∃ e, has_id h g1 e i) → (∃ e, has_id h g2 e i)) → ∃ b, node_similar h r1 r2 = Ok b.
Proof.
  intros W Hp Hk1 Hk2 Hids. destruct (named_some h g1 k r1 W Hk1) as (N1 & HN1). destruct (named_some h g2 k r2 W Hk2) as (N2 & HN2).
  unfold node_similar. rewrite (get_n_Ok _ _ _ HN1), (get_n_Ok _ _ _ HN2). cbn [rbind].
  assert (He : ∀ i e1 e2, has_id h g1 e1 i → has_id h g2 e2 i → ∃ b, edge_similar h e1 e2 = Ok b).
  { intros i e1 e2 H1 H2. pose proof H1 as (? & ? & E1 & ? & ? & _ & HE1 & _). pose proof H2 as (? & ? & E2 & ? & ? & _ & HE2 & _).
    destruct (edge_similar_like h g1 g2 e1 e2 E1 E2 i W Hp H1 H2 HE1 HE2) as (b & -> & _). eauto. }
  destruct (negb _); [eauto|]. destruct (negb _); [eauto|]. destruct (negb _); [eauto|]. rewrite !edge_dict_loop.
  assert (∃ b, loop (edge_similar h) (n_out N1) (n_out N2) = Ok b) as [[] ->]; cbn; [|..|eauto].
  { apply loop_bool.
    - intros i [e He1]%elem_of_dkeys. apply (out_id h g1 k r1 N1 i e W Hk1 HN1) in He1 as [He1 Hi]. destruct (Hids i (ex_intro _ e He1)) as [e' He'].
      apply elem_of_dkeys. exists e'. by apply (out_id h g2 k r2 N2).
    - intros i e1 e2 H1 H2. apply (out_id h g1 k r1 N1 i e1 W Hk1 HN1) in H1 as [H1 _]. apply (out_id h g2 k r2 N2 i e2 W Hk2 HN2) in H2 as [H2 _]. eauto. }
  apply loop_bool.
  - intros i [e He1]%elem_of_dkeys. apply (in_id h g1 k r1 N1 i e W Hk1 HN1) in He1 as [He1 Hi]. destruct (Hids i (ex_intro _ e He1)) as [e' He'].
    apply elem_of_dkeys. exists e'. by apply (in_id h g2 k r2 N2).
  - intros i e1 e2 H1 H2. apply (in_id h g1 k r1 N1 i e1 W Hk1 HN1) in H1 as [H1 _]. apply (in_id h g2 k r2 N2 i e2 W Hk2 HN2) in H2 as [H2 _]. eauto.
Qed.
Lemma has_id_names h g e i : WF h → has_id h g e i → (∃ r, named h g i.1.1 r) ∧ (∃ r, named h g i.1.2 r).
Proof.
  intros W (x & y & E & Nx & Ny & Hj & HE & HNx & HNy & ->). destruct (joins_in_graph h g e x y W Hj) as [(G & k1 & HG & Hk1) (G' & k2 & HG' & Hk2)]. cbn.
  destruct (named_id h g k1 x Nx W) as [-> _]; [by exists G|done|]. destruct (named_id h g k2 y Ny W) as [-> _]; [by exists G'|done|].
  split; eexists; eexists; eauto.
Qed.

Lemma graph_similar_true h g1 g2 G1 G2 : WF h → params_ok h → h_graphs h !! g1 = Some G1 → h_graphs h !! g2 = Some G2 →
  graph_similar h g1 g2 = Ok true ↔ similar h g1 g2.
Proof.
  intros W Hp HG1 HG2. unfold graph_similar. rewrite (get_g_Ok _ _ _ HG1), (get_g_Ok _ _ _ HG2). cbn [rbind]. rewrite nodes_loop.
  transitivity ((length (g_nodes G1) = length (g_nodes G2) ∧ loop (node_similar h) (g_nodes G1) (g_nodes G2) = Ok true) ∧
    g_strict G1 = g_strict G2 ∧ g_ordering G1 = g_ordering G2).
  { destruct (Nat.eqb_spec (length (g_nodes G1)) (length (g_nodes G2))); cbn [negb]; [|split; [done|tauto]].
    destruct (loop (node_similar h) (g_nodes G1) (g_nodes G2)) as [[]|]; cbn [rbind negb]; [|split; [done|intros [[_ ?] _]; done]..].
    destruct (eqb (g_strict G1) (g_strict G2)) eqn:Hs; cbn [negb]; [apply eqb_is in Hs|apply eqb_isnt in Hs; split; [done|tauto]].
    destruct (eqb (g_ordering G1) (g_ordering G2)) eqn:Ho; cbn [negb]; [apply eqb_is in Ho|apply eqb_isnt in Ho; split; [done|tauto]]. tauto. }
  assert (Hn1 : ∀ k r, (k, r) ∈ g_nodes G1 ↔ named h g1 k r). { intros k r. split; [by exists G1|]. intros (G & ? & ?). by simplify_eq. }
  assert (Hn2 : ∀ k r, (k, r) ∈ g_nodes G2 ↔ named h g2 k r). { intros k r. split; [by exists G2|]. intros (G & ? & ?). by simplify_eq. }
  assert ((length (g_nodes G1) = length (g_nodes G2) ∧ loop (node_similar h) (g_nodes G1) (g_nodes G2) = Ok true) ↔
    (∀ k, (∃ r, named h g1 k r) ↔ (∃ r, named h g2 k r)) ∧
    ∀ k r1 r2 N1 N2, named h g1 k r1 → named h g2 k r2 → h_nodes h !! r1 = Some N1 → h_nodes h !! r2 = Some N2 → node_like h g1 g2 k N1 N2) as ->.
  { rewrite loop_true, (dict_sim _ _ (λ r1 r2, node_similar h r1 r2 = Ok true) (wf_gkeys _ W _ _ HG1) (wf_gkeys _ W _ _ HG2)). split; intros [Hk HP]; split.
    - intros k. specialize (Hk k). rewrite !elem_of_dkeys in Hk. setoid_rewrite Hn1 in Hk. by setoid_rewrite Hn2 in Hk.
    - intros k r1 r2 N1 N2 H1 H2 HN1 HN2. apply (node_similar_true h g1 g2 k r1 r2); [done..|]. apply (HP k); [by apply Hn1|by apply Hn2].
    - intros k. specialize (Hk k). rewrite !elem_of_dkeys. setoid_rewrite Hn1. by setoid_rewrite Hn2.
    - intros k r1 r2 H1%Hn1 H2%Hn2. destruct (named_some h g1 k r1 W H1) as (N1 & HN1). destruct (named_some h g2 k r2 W H2) as (N2 & HN2).
      apply (node_similar_true h g1 g2 k r1 r2 N1 N2); eauto. }
  split.
  - intros [[Hk HP] Hfl]. split.
    + intros ? ? ? ?. by simplify_eq.
    + done.
    + intros k r1 r2 N1 N2 H1 H2 HN1 HN2. by apply (HP k r1 r2).
    + intros i. split; intros [e He].
      * destruct (has_id_names h g1 e i W He) as [[r1 H1] _]. destruct (proj1 (Hk _) (ex_intro _ r1 H1)) as [r2 H2].
        destruct (named_some h g1 _ r1 W H1) as (N1 & HN1). destruct (named_some h g2 _ r2 W H2) as (N2 & HN2).
        destruct (HP _ r1 r2 N1 N2 H1 H2 HN1 HN2) as [_ Hl]. apply (Hl i); eauto.
      * destruct (has_id_names h g2 e i W He) as [[r2 H2] _]. destruct (proj2 (Hk _) (ex_intro _ r2 H2)) as [r1 H1].
        destruct (named_some h g1 _ r1 W H1) as (N1 & HN1). destruct (named_some h g2 _ r2 W H2) as (N2 & HN2).
        destruct (HP _ r1 r2 N1 N2 H1 H2 HN1 HN2) as [_ Hl]. apply (Hl i); eauto.
    + intros i e1 e2 E1 E2 He1 He2 HE1 HE2. destruct (has_id_names h g1 e1 i W He1) as [[r1 H1] _]. destruct (has_id_names h g2 e2 i W He2) as [[r2 H2] _].
      destruct (named_some h g1 _ r1 W H1) as (N1 & HN1). destruct (named_some h g2 _ r2 W H2) as (N2 & HN2).
      destruct (HP _ r1 r2 N1 N2 H1 H2 HN1 HN2) as [_ Hl]. destruct (Hl i (or_introl eq_refl)) as [_ Hq]. by eapply Hq.
  - intros [Hfl Hk Hno Hids Hed]. split; [|by apply Hfl]. split; [done|]. intros k r1 r2 N1 N2 H1 H2 HN1 HN2. split; [by apply (Hno k r1 r2)|].
    intros i _. split; [done|]. intros. by apply (Hed i e1 e2).
Qed.

(** C37, what True means: is_similar_to returns True exactly for graphs with the
    same names, edge ids and flags, whose nodes and edges have equal values and
    parameters and the same style objects. *)
Lemma C37_true_partial_proof : ∀ h g1 g2 G1 G2, reachable h → params_ok h → h_graphs h !! g1 = Some G1 → h_graphs h !! g2 = Some G2 →
  graph_similar h g1 g2 = Ok true ↔ similar h g1 g2.
Proof. intros h g1 g2 G1 G2 W%reachable_WF. by apply graph_similar_true. Qed.
(** C37: every graph is similar to itself. *)
Lemma C37_reflexive_partial_proof : ∀ h g G, reachable h → params_ok h → h_graphs h !! g = Some G → graph_similar h g g = Ok true.
Proof.
  intros h g G W%reachable_WF Hp HG. apply (graph_similar_true h g g G G W Hp HG HG).
  assert (Hd : ∀ d : sdict, NoDup d.*1 → same_dict d d).
  { intros d Hnd. split; [done|]. intros k v w Hv Hw. left. eapply (dget_in_Some d k v) in Hv; [|done]. eapply (dget_in_Some d k w) in Hw; [|done]. congruence. }
  split.
  - intros. by simplify_eq.
  - done.
  - intros k r1 r2 N1 N2 H1 H2 HN1 HN2. rewrite (named_inj h g k r1 r2 W H1 H2) in HN1. simplify_eq. split; [by left|]. split; [done|]. apply Hd. by eapply (proj1 Hp).
  - done.
  - intros i e1 e2 E1 E2 H1 H2 HE1 HE2. rewrite (has_id_inj h g e1 e2 i W H1 H2) in HE1. simplify_eq. split; [by left|]. split; [done|]. apply Hd. by eapply (proj2 Hp).
Qed.
(** C37: True in one direction is True in the other. *)
Lemma C37_symmetric_partial_proof : ∀ h g1 g2 G1 G2, reachable h → params_ok h → h_graphs h !! g1 = Some G1 → h_graphs h !! g2 = Some G2 →
  graph_similar h g1 g2 = Ok true → graph_similar h g2 g1 = Ok true.
Proof.
  intros h g1 g2 G1 G2 W%reachable_WF Hp HG1 HG2. rewrite (graph_similar_true h g1 g2 G1 G2), (graph_similar_true h g2 g1 G2 G1) by done.
  assert (Hv : ∀ v w, same_value v w → same_value w v).
  { intros v w [->|(p & q & ? & ? & ?)]; [by left|]. right. exists q, p. split; [done|]. split; [done|]. by symmetry. }
  assert (Hd : ∀ d1 d2, same_dict d1 d2 → same_dict d2 d1).
  { intros d1 d2 [Hk HP]. split; [done|]. intros k v w ? ?. apply Hv. by apply (HP k). }
  intros [Hfl Hk Hno Hids Hed]. split.
  - intros G G' ? ?. destruct (Hfl G' G) as [? ?]; done.
  - done.
  - intros k r1 r2 N1 N2 ? ? ? ?. destruct (Hno k r2 r1 N2 N1) as (? & ? & ?); auto.
  - done.
  - intros i e1 e2 E1 E2 ? ? ? ?. destruct (Hed i e2 e1 E2 E1) as (? & ? & ?); auto.
Qed.
(** C37: whatever the graphs, the answer is True, False or a KeyError. *)
Lemma C37_outcomes_partial_proof : ∀ h g1 g2 G1 G2, reachable h → params_ok h → h_graphs h !! g1 = Some G1 → h_graphs h !! g2 = Some G2 →
  (∃ b, graph_similar h g1 g2 = Ok b) ∨ graph_similar h g1 g2 = Err KeyError.
Proof.
  intros h g1 g2 G1 G2 W%reachable_WF Hp HG1 HG2. unfold graph_similar. rewrite (get_g_Ok _ _ _ HG1), (get_g_Ok _ _ _ HG2). cbn [rbind]. rewrite nodes_loop.
  destruct (negb _); [left; eauto|]. assert (tame (loop (node_similar h) (g_nodes G1) (g_nodes G2))) as [[b ->]| ->]; [| |by right].
  - apply loop_tame. intros k r1 r2 H1 H2. apply (node_similar_tame h g1 g2 k); [done|done|by exists G1|by exists G2].
  - left. cbn [rbind]. destruct (negb b); [eauto|]. destruct (negb _); [eauto|]. destruct (negb _); eauto.
Qed.
(** C37: there is no KeyError if the names and the edge ids of the first graph occur
    in the second, or if the numbers of nodes differ. *)
Lemma C37_total_partial_proof : ∀ h g1 g2 G1 G2, reachable h → params_ok h → h_graphs h !! g1 = Some G1 → h_graphs h !! g2 = Some G2 →
  length (g_nodes G1) ≠ length (g_nodes G2) ∨
  ((∀ k r, named h g1 k r → ∃ r', named h g2 k r') ∧ ∀ i e, has_id h g1 e i → ∃ e', has_id h g2 e' i) → ∃ b, graph_similar h g1 g2 = Ok b.
Proof.
  intros h g1 g2 G1 G2 W%reachable_WF Hp HG1 HG2 Hc. unfold graph_similar. rewrite (get_g_Ok _ _ _ HG1), (get_g_Ok _ _ _ HG2). cbn [rbind]. rewrite nodes_loop.
  destruct (Nat.eqb_spec (length (g_nodes G1)) (length (g_nodes G2))) as [Hl|]; cbn [negb]; [|eauto]. destruct Hc as [|[Hk Hi]]; [done|].
  assert (∃ b, loop (node_similar h) (g_nodes G1) (g_nodes G2) = Ok b) as [b ->].
  - apply loop_bool.
    + intros k [r Hr]%elem_of_dkeys. destruct (Hk k r) as [r' (G' & ? & ?)]; [by exists G1|]. simplify_eq. apply elem_of_dkeys. eauto.
    + intros k r1 r2 H1 H2. apply (node_similar_bool h g1 g2 k); [done|done|by exists G1|by exists G2|]. intros i [e He]. eauto.
  - cbn [rbind]. destruct (negb b); [eauto|]. destruct (negb _); [eauto|]. destruct (negb _); eauto.
Qed.

(** C37 refuted: two graphs with one node each, of different names. *)
Lemma C37_similar_refuted_proof : ∃ h g1 g2, reachable h ∧ params_ok h ∧ graph_similar h g1 g2 = Err KeyError.
Proof.
  exists (run [CNew false true disp0; CNew false true disp0; CAddNode 0 (an "a") nargs0; CAddNode 1 (an "b") nargs0] empty_heap), 0, 1.
  split; [|split; [|by vm_compute]].
  - apply run_reachable; [constructor|]. vm_compute. repeat (split; [by repeat split|]). done.
  - vm_compute. split; [|by intros []]. intros [|[|[]]] N [= <-]; constructor.
Qed.
(** Two graphs with equal nodes and edges, added in different orders, one value being
    1 in the one and 1.0 in the other; and a third one whose edge has another value. *)
Definition similar_calls : list call :=
  [CNew false true disp0; CNew false true disp0; CNew false true disp0;
   CAddNode 0 (an "a") (nargs0 <| a_value := PInt 1 |>); CAddNode 0 (an "b") nargs0;
   CAddNode 1 (an "b") nargs0; CAddNode 1 (an "a") (nargs0 <| a_value := PFlt 1 |>);
   CAddNode 2 (an "a") (nargs0 <| a_value := PInt 1 |>); CAddNode 2 (an "b") nargs0;
   CConnect 0 (an "a") (an "b") eargs0; CConnect 1 (an "a") (an "b") eargs0;
   CConnect 2 (an "a") (an "b") (eargs0 <| c_value := PInt 3 |>)].
Definition similar_heap : heap := Eval vm_compute in run similar_calls empty_heap.
(** What is_similar_to says about them. *)
Lemma C37_similar_ex_proof : reachable similar_heap ∧ params_ok similar_heap ∧ length (h_graphs similar_heap) = 3 ∧
  graph_similar similar_heap 0 1 = Ok true ∧ graph_similar similar_heap 0 2 = Ok false.
Proof.
  split; [|split].
  - assert (similar_heap = run similar_calls empty_heap) as -> by (by vm_compute). apply run_reachable; [constructor|].
    vm_compute. repeat (split; [by repeat split|]). done.
  - vm_compute. split; [intros [|[|[|[|[|[|[]]]]]]] N [= <-]; constructor|intros [|[|[|[]]]] N [= <-]; constructor].
  - by vm_compute.
Qed.
