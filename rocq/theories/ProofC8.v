(** filter: C26. *)
From Verif Require Export ProofC7 ProofC2b ProofC1.
Local Open Scope string_scope.
Local Open Scope list_scope.

Lemma filter_of_fmap {A B} (f : A → B) (P : B → Prop) `{!∀ x, Decision (P x)} (l : list A) :
  filter P (f <$> l) = f <$> filter (λ x, P (f x)) l.
Proof.
  induction l as [|x l IH]; [done|]. cbn [fmap list_fmap]. rewrite !filter_cons. fold (f <$> l).
  destruct (decide (P (f x))); cbn [fmap list_fmap]; by rewrite IH.
Qed.
Lemma filter_twice {A} (P Q : A → Prop) `{!∀ x, Decision (P x), !∀ x, Decision (Q x)} (l : list A) :
  filter P (filter Q l) = filter (λ x, P x ∧ Q x) l.
Proof.
  induction l as [|x l IH]; [done|]. rewrite !filter_cons. destruct (decide (Q x)) as [HQ|HQ].
  - rewrite filter_cons. destruct (decide (P x)).
    + rewrite decide_True by done. by rewrite IH.
    + rewrite decide_False by tauto. done.
  - rewrite decide_False by tauto. done.
Qed.

Lemma part_of_ext h g h' g' nu ep kept kept' : (∀ k, k ∈ kept ↔ k ∈ kept') →
  part_of h g h' g' nu ep kept → part_of h g h' g' nu ep kept'.
Proof.
  intros Hk [P1 P2 P3 P4 P5 P6 P7]. split; try done.
  - intros G HG. rewrite (P1 G HG). do 3 f_equal. apply filter_iff_in. intros ? _. apply Hk.
  - intros r N HN Hg Hin%Hk. destruct (P2 r N HN Hg Hin) as [? HN']. split; [done|]. rewrite HN'. do 2 f_equal.
    + f_equal. apply filter_iff_in. intros ? _. by rewrite !Hk.
    + f_equal. apply filter_iff_in. intros ? _. by rewrite !Hk.
  - intros e E s t Ns Nt ? ? ? ? Hs%Hk Ht%Hk. by eapply P3.
  - intros r' N' ? ?. destruct (P4 r' N') as (r & N & ? & ? & Hin%Hk & ?); [done..|]. eauto 10.
  - intros e' s' t' ?. destruct (P5 e' s' t') as (e & s & t & Ns & Nt & ? & ? & ? & Hs%Hk & Ht%Hk & ?); [done..|]. by exists e, s, t, Ns, Nt.
Qed.
Lemma joins_nodes h g e s t : WF h → joins h g e s t → ∃ Ns Nt u, h_nodes h !! s = Some Ns ∧ h_nodes h !! t = Some Nt ∧
  n_graph Ns = Some g ∧ n_graph Nt = Some g ∧ ((n_id Ns, n_id Nt, RId u), e) ∈ n_out Ns ∧ ((n_id Ns, n_id Nt, RId u), e) ∈ n_in Nt.
Proof.
  intros W (E & HE & Hg & Hs & Ht). destruct (get_edge_id_live h e E g W HE Hg) as (s' & t' & Ns & Nt & u & ? & ? & ? & ? & ? & ? & ? & _ & ? & ?).
  simplify_eq. by exists Ns, Nt, u.
Qed.
Lemma copy_of_part h g h' g' nu ep G : WF h → h_graphs h !! g = Some G → copy_of h g h' g' nu ep →
  part_of h g h' g' nu ep (dkeys (g_nodes G)).
Proof.
  intros W HG [P1 P2 P3 P4 P5 P6 P7].
  assert (Hin : ∀ r N, h_nodes h !! r = Some N → n_graph N = Some g → n_id N ∈ dkeys (g_nodes G)).
  { intros r N HN Hg. destruct (wf_ngraph _ W r N g HN Hg) as (G' & HG' & Hr). assert (G' = G) as -> by congruence.
    apply elem_of_dkeys. eauto. }
  split; try done.
  - intros G' HG'. assert (G' = G) as -> by congruence. rewrite (P1 G HG). do 3 f_equal. rewrite filter_all; [done|].
    intros [k r] Hk. apply elem_of_dkeys. eauto.
  - intros r N HN Hg _. destruct (P2 r N HN Hg) as [? HN']. split; [done|]. rewrite HN'. do 2 f_equal.
    + f_equal. rewrite filter_all; [done|]. intros [i e] Hi.
      destruct (WF_out_entry h r N i e W HN Hi) as (g1 & E & t & Nt & u & _ & _ & _ & _ & _ & HNt & HgN & HgNt & -> & _). simpl.
      assert (g1 = g) as -> by congruence. eauto.
    + f_equal. rewrite filter_all; [done|]. intros [i e] Hi.
      destruct (WF_in_entry h r N i e W HN Hi) as (g1 & E & t & Nt & u & _ & _ & _ & _ & _ & HNt & HgN & HgNt & -> & _). simpl.
      assert (g1 = g) as -> by congruence. eauto.
  - intros e E s t Ns Nt HE (E1 & HE1 & Hg & _) _ _ _ _. assert (E1 = E) as -> by congruence. by apply P3.
  - intros r' N' ? ?. destruct (P4 r' N') as (r & N & ? & ? & ?); [done..|]. exists r, N. eauto.
  - intros e' s' t' Hj. destruct (copy_joins_inv h g h' g' nu ep W) with (e' := e') (x' := s') (y' := t') as (e & x & y & Hj0 & ? & ? & ?); [done..|].
    destruct (joins_nodes h g e x y W Hj0) as (Ns & Nt & u & ? & ? & ? & ? & _). exists e, x, y, Ns, Nt. eauto 20.
Qed.

(** removing one more node from the copy *)
Lemma part_of_remove h g h1 g' nu ep kept G r N k : WF h → WF h1 → h_graphs h !! g = Some G →
  part_of h g h1 g' nu ep kept → h_nodes h !! r = Some N → n_graph N = Some g → n_id N = k → k ∈ kept →
  ∃ h2, remove_node g' (AName k) h1 = (h2, Ok tt) ∧ WF h2 ∧
    part_of h g h2 g' nu ep (filter (λ x, x ≠ k) kept).
Proof.
  intros W W1 HG [P1 P2 P3 P4 P5 P6 P7] HN Hg Hid Hk.
  pose proof (P1 G HG) as HG1. destruct (P2 r N HN Hg) as [Hnew HN1]; [congruence|].
  destruct (wf_ngraph _ W r N g HN Hg) as (G0 & HG0 & Hr). assert (G0 = G) as -> by congruence. clear HG0.
  assert (Hing : ∀ r N, h_nodes h !! r = Some N → n_graph N = Some g → in_graph h g r).
  { intros r0 N0 HN0 Hg0. destruct (wf_ngraph _ W r0 N0 g HN0 Hg0) as (G0 & HG0 & Hr0). by exists G0, (n_id N0). }
  assert (Hden : denotes h1 g' (AName k) (nu r)).
  { exists k. split; [|by left]. eexists. split; [exact HG1|]. simpl. apply elem_of_list_fmap. exists (k, r). split; [done|].
    apply elem_of_list_filter. split; [done|]. by rewrite <-Hid. }
  destruct (remove_node_spec h1 g' (AName k) (nu r) _ _ W1 Hden HN1 HG1) as (h2 & es & Hrm & Hes & Hns & Hesd & Hgs & _ & Hst & _).
  exists h2. split; [done|].
  assert (W2 : WF h2) by (pose proof (WF_remove_node h1 g' (AName k) W1) as H2; by rewrite Hrm in H2).
  split; [done|].
  assert (Hname : ∀ r0 N0, h_nodes h !! r0 = Some N0 → n_graph N0 = Some g → n_id N0 = k → r0 = r).
  { intros r0 N0 ? ? ?. eapply (WF_name_inj h g r0 r N0 N); congruence. }
  assert (Hkey : ∀ e s t Ns Nt, joins h g e s t → h_nodes h !! s = Some Ns → h_nodes h !! t = Some Nt →
    (ep e ∉ es ∧ n_id Ns ∈ kept ∧ n_id Nt ∈ kept) ↔
    (n_id Ns ∈ filter (λ x, x ≠ k) kept ∧ n_id Nt ∈ filter (λ x, x ≠ k) kept)).
  { intros e s t Ns Nt Hj HNs HNt. destruct (joins_nodes h g e s t W Hj) as (Ns1 & Nt1 & u & HNs1 & HNt1 & Hgs1 & Hgt1 & _).
    assert (Ns1 = Ns) as -> by congruence. assert (Nt1 = Nt) as -> by congruence.
    rewrite !elem_of_list_filter. pose proof Hj as (E & HE & HgE & Hs & Ht). split.
    - intros (Hno & Hks & Hkt). destruct (P3 e E s t Ns Nt) as (_ & E' & HE' & Him); [done..|].
      assert (joins h1 g' (ep e) (nu s) (nu t)) as Hj1.
      { exists E'. split; [done|]. destruct Him as (? & _ & _ & _ & _ & _ & _ & -> & -> & _). by rewrite Hs, Ht. }
      rewrite Hes in Hno. split; split; try done; intros Heq.
      + assert (s = r) as -> by (by eapply Hname). apply Hno. eauto.
      + assert (t = r) as -> by (by eapply Hname). apply Hno. eauto.
    - intros [[Hns1 Hks] [Hnt Hkt]]. split; [|done]. destruct (P3 e E s t Ns Nt) as (_ & E' & HE' & Him); [done..|].
      destruct Him as (_ & _ & _ & _ & _ & _ & _ & Hs' & Ht' & _). rewrite Hs in Hs'. rewrite Ht in Ht'. simpl in *.
      rewrite Hes. intros [y [(E1 & HE1 & _ & Hs1 & Ht1)|(E1 & HE1 & _ & Hs1 & Ht1)]]; assert (E1 = E') as -> by congruence.
      + assert (s = r) as -> by (apply P6; [eauto..|congruence]). congruence.
      + assert (t = r) as -> by (apply P6; [eauto..|congruence]). congruence. }
  split; try done.
  - intros G' HG'. assert (G' = G) as -> by congruence. rewrite Hgs. rewrite list_lookup_insert by (by eapply lookup_lt_Some).
    match goal with |- Some (_ <| g_nodes := ?l |>) = Some (MkGraph ?l' _ _ _ _) => assert (l = l') as Heql; [|rewrite Heql; reflexivity] end.
    cbn [g_nodes]. rewrite filter_of_fmap, filter_twice. f_equal. apply filter_iff_in. intros [k0 r0] Hin. simpl.
    rewrite elem_of_list_filter. destruct (wf_gnodes _ W g G k0 r0 HG Hin) as (N0 & HN0 & Hid0 & Hg0). split.
    + intros [Hne ?]. split; [|done]. intros ->. apply Hne. f_equal. by eapply Hname.
    + intros [Hne ?]. split; [|done]. intros Heq. apply P6 in Heq as ->; eauto. congruence.
  - intros r0 N0 HN0 Hg0 [Hne Hk0]%elem_of_list_filter. destruct (P2 r0 N0) as [Hnew0 HN01]; [done..|]. split; [done|].
    rewrite Hns. rewrite list_lookup_insert_ne; [|intros Heq; apply P6 in Heq; [congruence|eauto..]].
    rewrite list_lookup_fmap, HN01. cbn [fmap option_fmap option_map].
    assert (∀ l, l = n_out N0 ∨ l = n_in N0 →
      filter (λ kv, kv.2 ∉ es) ((λ ke, (ke.1, ep ke.2)) <$> filter (λ ke, ke.1.1.1 ∈ kept ∧ ke.1.1.2 ∈ kept) (l : list (edge_id * eref))) =
      (λ ke, (ke.1, ep ke.2)) <$> filter (λ ke, ke.1.1.1 ∈ filter (λ x, x ≠ k) kept ∧ ke.1.1.2 ∈ filter (λ x, x ≠ k) kept) (l : list (edge_id * eref))) as Hl.
    { intros l Hl. rewrite filter_of_fmap, filter_twice. f_equal. apply filter_iff_in. intros [i e] Hin. cbn. destruct Hl as [->| ->].
      - destruct (WF_out_entry h r0 N0 i e W HN0 Hin) as (g1 & E & t & Nt & u & HE & Hge & Hs & Ht & _ & HNt & HgN & HgNt & -> & _). cbn.
        apply (Hkey e r0 t N0 Nt); [exists E; split_and!; try done; congruence|done..].
      - destruct (WF_in_entry h r0 N0 i e W HN0 Hin) as (g1 & E & t & Nt & u & HE & Hge & Hs & Ht & _ & HNt & HgN & HgNt & -> & _). cbn.
        apply (Hkey e t r0 Nt N0); [exists E; split_and!; try done; congruence|done..]. }
    unfold without_edges. cbn [n_out n_in]. rewrite <-(Hl (n_out N0)), <-(Hl (n_in N0)) by tauto. reflexivity.
  - intros e E s t Ns Nt HE Hj HNs HNt Hks Hkt. pose proof (proj2 (Hkey e s t Ns Nt Hj HNs HNt) (conj Hks Hkt)) as (Hno & Hks' & Hkt').
    destruct (P3 e E s t Ns Nt) as (Hfr & E' & HE' & Him); [done..|]. split; [done|]. exists E'. split.
    + rewrite Hesd, list_lookup_imap, HE'. simpl. by rewrite decide_False.
    + unfold edge_image in *. by rewrite Hst.
  - intros r' N' HN' Hg'. destruct (decide (r' = nu r)) as [->|Hne].
    { rewrite Hns, list_lookup_insert in HN'; [by injection HN' as <-|]. rewrite fmap_length. by eapply lookup_lt_Some. }
    rewrite Hns, list_lookup_insert_ne, list_lookup_fmap in HN' by done.
    destruct (h_nodes h1 !! r') as [N1|] eqn:HN1'; [|done]. simpl in HN'. injection HN' as <-.
    destruct (P4 r' N1) as (r0 & N0 & HN0 & Hg0 & Hk0 & ->); [done..|]. exists r0, N0. split_and!; try done.
    apply elem_of_list_filter. split; [|done]. intros Heq. apply Hne. f_equal. by eapply Hname.
  - intros e' s' t' Hj. apply (remove_node_joins h1 g' (AName k) (nu r) h2 W1 Hden Hrm) in Hj as (Hj & Hs & Ht).
    destruct (P5 e' s' t' Hj) as (e & s & t & Ns & Nt & Hj0 & HNs & HNt & Hks & Hkt & -> & -> & ->).
    destruct (joins_nodes h g e s t W Hj0) as (Ns1 & Nt1 & u & HNs1 & HNt1 & Hgs1 & Hgt1 & _).
    assert (Ns1 = Ns) as -> by congruence. assert (Nt1 = Nt) as -> by congruence.
    exists e, s, t, Ns, Nt. rewrite !elem_of_list_filter. split_and!; try done; intros Heq.
    + apply Hs. f_equal. by eapply Hname.
    + apply Ht. f_equal. by eapply Hname.
Qed.
Lemma part_of_remove_all h g g' nu ep G gone : WF h → h_graphs h !! g = Some G → NoDup gone →
  ∀ h1 kept, WF h1 → part_of h g h1 g' nu ep kept → (∀ k, k ∈ gone → k ∈ kept ∧ k ∈ dkeys (g_nodes G)) →
  ∃ h2, siter (λ n, remove_node g' (AName n)) gone h1 = (h2, Ok tt) ∧ part_of h g h2 g' nu ep (filter (λ x, x ∉ gone) kept).
Proof.
  intros W HG Hnd. induction Hnd as [|k gone Hnk Hnd IH]; intros h1 kept W1 HP Hin.
  - exists h1. split; [done|]. eapply part_of_ext; [|done]. intros k. rewrite elem_of_list_filter. split; [|tauto].
    intros. split; [apply not_elem_of_nil|done].
  - destruct (Hin k) as [Hk (r & Hr)%elem_of_dkeys]; [left|]. destruct (wf_gnodes _ W g G k r HG Hr) as (N & HN & Hid & Hg).
    destruct (part_of_remove h g h1 g' nu ep kept G r N k) as (h2 & Hrm & W2 & HP2); [done..|].
    destruct (IH h2 _ W2 HP2) as (h3 & Hit & HP3).
    { intros k' Hk'. destruct (Hin k'); [by right|]. split; [|done]. apply elem_of_list_filter. split; [|done]. by intros ->. }
    exists h3. split.
    + cbn [siter]. by rewrite (sbind_step _ _ _ _ _ Hrm).
    + eapply part_of_ext; [|done]. intros k'. rewrite !elem_of_list_filter, elem_of_cons. tauto.
Qed.

(** the names of the relatives *)
Definition relative_name (h : heap) (g : gref) (xs : list narg) (k : name) : Prop :=
  ∃ x r r', x ∈ xs ∧ denotes h g x r ∧ named h g k r' ∧ (r' = r ∨ path h g r r' ∨ path h g r' r).
Lemma named_node h g k r : WF h → named h g k r → ∃ N, h_nodes h !! r = Some N ∧ n_id N = k ∧ n_graph N = Some g.
Proof. intros W (G & HG & Hk). by eapply wf_gnodes. Qed.
Lemma in_graph_name h g r : WF h → in_graph h g r → ∃ N, h_nodes h !! r = Some N ∧ named h g (n_id N) r.
Proof. intros W (G & k & HG & Hk). destruct (wf_gnodes _ W g G k r HG Hk) as (N & ? & <- & ?). exists N. split; [done|]. by exists G. Qed.
Lemma names_of h g l : WF h → (∀ r, r ∈ l → in_graph h g r) →
  ∃ ns, rmap (node_name h) l = Ok ns ∧ ∀ k, k ∈ ns ↔ ∃ r, r ∈ l ∧ named h g k r.
Proof.
  intros W. induction l as [|r l IH]; intros Hl.
  - exists []. split; [done|]. intros k. split; [by intros ?%elem_of_nil|]. by intros (r & ?%elem_of_nil & _).
  - destruct IH as (ns & Hns & Hin); [intros; apply Hl; by right|].
    destruct (in_graph_name h g r W) as (N & HN & Hnm); [apply Hl; left|].
    exists (n_id N :: ns). cbn [rmap]. unfold node_name at 1. rewrite (get_n_Ok _ _ _ HN). cbn [rbind]. rewrite Hns. split; [done|].
    intros k. rewrite elem_of_cons, Hin. split.
    + intros [->|(r' & ? & ?)]; [exists r; split; [left|done]|exists r'; split; [by right|done]].
    + intros (r' & [->|Hr']%elem_of_cons & Hk); [|eauto]. left. destruct (named_node _ _ _ _ W Hk) as (N' & ? & ? & _). congruence.
Qed.
Lemma filter_relatives_run h g dir xs : reachable h → (∀ x, x ∈ xs → ∃ r, denotes h g x r) →
  ∃ rel, filter_relatives h g dir xs = Ok rel ∧ NoDup rel ∧ ∀ k, k ∈ rel ↔ relative_name h g xs k.
Proof.
  intros Hr Hxs. pose proof (reachable_WF _ Hr) as W. unfold filter_relatives.
  match goal with |- context [rfold ?f _ _] => set (F := f) end.
  assert (Hstep : ∀ acc x r, denotes h g x r → NoDup acc → ∃ acc', F acc x = Ok acc' ∧ NoDup acc' ∧
    ∀ k, k ∈ acc' ↔ k ∈ acc ∨ ∃ r', named h g k r' ∧ (r' = r ∨ path h g r r' ∨ path h g r' r)).
  { intros acc x r Hx Hnd. pose proof (denotes_in_graph _ _ _ _ Hx) as Hin.
    destruct (in_graph_name h g r W Hin) as (N & HN & Hnm).
    destruct (C14_ancestors_proof h g x r Hr Hx) as (La & _ & HLa & _ & HinA).
    destruct (C15_descendants_proof h g x r Hr Hx) as (Ld & _ & HLd & _ & _ & HinD).
    destruct (names_of h g La W) as (na & Hna & HinNa). { intros y Hy. apply (path_in_graph h W g y r). by apply HinA. }
    destruct (names_of h g Ld W) as (nd & Hnd' & HinNd). { intros y Hy. apply HinD in Hy as [Hy _]. apply (path_in_graph h W g r y). done. }
    unfold F. rewrite (denotes_get h g x r) by done. cbn [rbind]. unfold node_name at 1. rewrite (get_n_Ok _ _ _ HN). cbn [rbind].
    rewrite !orb_true_r, HLa, HLd. cbn [rbind]. rewrite Hna, Hnd'. cbn [rbind]. eexists. split; [reflexivity|]. split.
    { by apply NoDup_fold_add_new, NoDup_fold_add_new, NoDup_add_new. }
    intros k. rewrite !elem_of_fold_add_new, elem_of_add_new, HinNa, HinNd. split.
    - intros [[[?| ->]|(r' & Hr' & ?)]|(r' & Hr' & ?)]; [by left|right..].
      + exists r. tauto.
      + exists r'. apply HinA in Hr'. tauto.
      + exists r'. apply HinD in Hr'. tauto.
    - intros [?|(r' & Hk & Hd)]; [tauto|]. destruct (decide (r' = r)) as [->|Hne].
      + left. left. right. destruct (named_node _ _ _ _ W Hk) as (N' & ? & ? & _). congruence.
      + destruct Hd as [?|[?|?]]; [done|..].
        * right. exists r'. split; [|done]. by apply HinD.
        * left. right. exists r'. split; [|done]. by apply HinA. }
  assert (∀ xs acc, (∀ x, x ∈ xs → ∃ r, denotes h g x r) → NoDup acc → ∃ rel, rfold F acc xs = Ok rel ∧ NoDup rel ∧
    ∀ k, k ∈ rel ↔ k ∈ acc ∨ relative_name h g xs k) as Hall.
  { clear xs Hxs. induction xs as [|x xs IH]; intros acc Hxs Hnd.
    - exists acc. split; [done|]. split; [done|]. intros k. split; [by left|]. intros [?|(x & r & r' & ?%elem_of_nil & _)]; done.
    - destruct (Hxs x) as [r Hx]; [left|]. destruct (Hstep acc x r Hx Hnd) as (acc1 & Hf & Hnd1 & H1).
      destruct (IH acc1) as (rel & Hf2 & Hnd2 & H2); [intros; apply Hxs; by right|done|].
      exists rel. cbn [rfold]. rewrite Hf. cbn [rbind]. split; [done|]. split; [done|]. intros k. rewrite H2, H1. split.
      + intros [[?|(r' & ? & ?)]|(y & r1 & r' & ? & ? & ? & ?)]; [by left|right..].
        * exists x, r, r'. split; [left|done].
        * exists y, r1, r'. split; [by right|done].
      + intros [?|(y & r1 & r' & [->|Hy]%elem_of_cons & Hd & Hk & Hp)]; [tauto|..].
        * left. right. exists r'. split; [done|].
          assert (r1 = r) as -> by (pose proof (denotes_get h g x r W Hx); pose proof (denotes_get h g x r1 W Hd); congruence). done.
        * right. by exists y, r1, r'. }
  destruct (Hall xs []) as (rel & ? & ? & Hin); [done|constructor|]. exists rel. split; [done|]. split; [done|].
  intros k. rewrite Hin. split; [intros [?%elem_of_nil|?]|]; tauto.
Qed.

(** C26, what filter really does: whatever the direction, the relatives in both
    directions are taken; 'include' keeps exactly them, every other filter type
    exactly the rest.  The result is a new graph: the image of the kept part, with
    all the edges between kept nodes; everything that existed is left as it was.
    Partial: the property claims that the direction is observed, and that there is
    no condition on styles (see C24). *)
Lemma C26_exact_partial_proof : ∀ h g G xs direction filter_type, reachable h → h_graphs h !! g = Some G →
  unstyled h g → no_methods h g → (∀ x, x ∈ xs → ∃ r, denotes h g x r) →
  ∃ h' g' nu ep kept, filter_graph g xs direction filter_type h = (h', Ok g') ∧
    extends h h' ∧ h_graphs h !! g' = None ∧ part_of h g h' g' nu ep kept ∧
    ∀ k, k ∈ kept ↔ k ∈ dkeys (g_nodes G) ∧
      (if decide (filter_type = "include") then relative_name h g xs k else ¬ relative_name h g xs k).
Proof.
  intros h g G xs dir ft Hr HG Hu Hm Hxs. pose proof (reachable_WF _ Hr) as W.
  destruct (filter_relatives_run h g dir xs Hr Hxs) as (rel & Hrel & Hndr & Hinr).
  destruct (C23_copy_proof h g G) as (h1 & g' & nu & ep & Hc & Hfresh & Hex & Hcp); [done..|].
  pose proof (makes_extends h (CFilter g xs dir ft) W I eq_refl) as Hx. simpl in Hx.
  assert (W1 : WF h1). { pose proof (reachable_WF _ (reach_call h (CCopy g) Hr I)) as H. simpl in H. by rewrite Hc in H. }
  assert (Hrn : ∀ k, relative_name h g xs k → k ∈ dkeys (g_nodes G)).
  { intros k (x & r & r' & _ & _ & (G' & HG' & Hk) & _). assert (G' = G) as -> by congruence. apply elem_of_dkeys. eauto. }
  set (gone := if eqb ft "include" then List.filter (λ n, negb (bool_decide (n ∈ rel))) (dkeys (g_nodes G)) else rel).
  assert (Hgone : ∀ k, k ∈ gone ↔ k ∈ dkeys (g_nodes G) ∧ if decide (ft = "include") then ¬ relative_name h g xs k else relative_name h g xs k).
  { intros k. unfold gone. destruct (decide (ft = "include")) as [->|Hft].
    - rewrite eqb_same. rewrite elem_of_list_In, filter_In, <-elem_of_list_In, negb_true_iff, bool_decide_eq_false, Hinr. done.
    - rewrite (proj2 (eqb_false _ _) Hft), Hinr. naive_solver. }
  destruct (part_of_remove_all h g g' nu ep G gone W HG) with (h1 := h1) (kept := dkeys (g_nodes G)) as (h2 & Hit & HP).
  - unfold gone. destruct (eqb ft "include"); [|done]. apply NoDup_ListNoDup, List.NoDup_filter, NoDup_ListNoDup. by apply (wf_gkeys _ W g).
  - done.
  - by apply copy_of_part.
  - intros k Hk. apply Hgone in Hk as [? _]. done.
  - assert (Hf : filter_graph g xs dir ft h = (h2, Ok g')).
    { unfold filter_graph. rewrite (sread_Ok _ _ _ _ Hrel). rewrite (sread_Ok _ _ _ _ (get_g_Ok _ _ _ HG)).
      rewrite (sbind_step _ _ _ _ _ Hc). fold gone. by rewrite (sbind_step _ _ _ _ _ Hit). }
    rewrite Hf in Hx. exists h2, g', nu, ep, (filter (λ x, x ∉ gone) (dkeys (g_nodes G))). split_and!; try done.
    intros k. rewrite elem_of_list_filter, Hgone.
    assert (relative_name h g xs k ∨ ¬ relative_name h g xs k) by (destruct (decide (k ∈ rel)) as [Hk|Hk]; rewrite Hinr in Hk; tauto).
    destruct (decide (ft = "include")); tauto.
Qed.
(** C26 for the default direction: exactly as claimed, if no node has a style. *)
Lemma C26_both_partial_proof : ∀ h g G xs, reachable h → h_graphs h !! g = Some G →
  unstyled h g → no_methods h g → (∀ x, x ∈ xs → ∃ r, denotes h g x r) →
  ∃ h' g' nu ep kept, filter_graph g xs "to_and_from" "include" h = (h', Ok g') ∧
    extends h h' ∧ h_graphs h !! g' = None ∧ part_of h g h' g' nu ep kept ∧
    ∀ k, k ∈ kept ↔ ∃ x r r', x ∈ xs ∧ denotes h g x r ∧ named h g k r' ∧ (r' = r ∨ path h g r r' ∨ path h g r' r).
Proof.
  intros h g G xs Hr HG Hu Hm Hxs.
  destruct (C26_exact_partial_proof h g G xs "to_and_from" "include") as (h' & g' & nu & ep & kept & ? & ? & ? & ? & Hk); [done..|].
  exists h', g', nu, ep, kept. split_and!; try done. intros k. rewrite Hk. rewrite decide_True by done. unfold relative_name. split; [tauto|].
  intros Hrn. split; [|done]. destruct Hrn as (x & r & r' & _ & _ & (G' & HG' & Hin) & _).
  assert (G' = G) as -> by congruence. apply elem_of_dkeys. eauto.
Qed.
(** A name that is not in the graph makes filter fail, and nothing changes. *)
Lemma C26_unknown_partial_proof : ∀ h g xs ys x direction filter_type, reachable h →
  (∀ x, x ∈ xs → ∃ r, denotes h g x r) → unknown h g x →
  filter_graph g (xs ++ x :: ys) direction filter_type h = (h, Err KeyError).
Proof.
  intros h g xs ys x dir ft Hr Hxs Hx. destruct (filter_relatives_run h g dir xs Hr Hxs) as (rel & Hrel & _).
  assert (get_node h g x = Err KeyError) as Hg.
  { destruct Hx as (G & k & HG & Hk & Hd). unfold get_node. rewrite (get_g_Ok _ _ _ HG). cbn [rbind].
    destruct Hd as [->|(r0 & N0 & -> & HN0 & Hid)].
    - apply dgetR_Err. split; [|done]. by apply dget_None.
    - rewrite (get_n_Ok _ _ _ HN0). cbn [rbind]. apply dgetR_Err. split; [|done]. apply dget_None. by rewrite Hid. }
  assert (filter_relatives h g dir (xs ++ x :: ys) = Err KeyError) as Hf.
  { unfold filter_relatives in *. revert Hrel. generalize ([] : list name). clear Hxs.
    induction xs as [|y xs IH]; intros acc Hrel.
    - cbn [app rfold]. by rewrite Hg.
    - cbn [app rfold] in *. match type of Hrel with (let! b := ?f in _) = _ => destruct f as [acc'|] eqn:Hfx end; [|done].
      cbn [rbind] in *. by apply IH. }
  unfold filter_graph. by rewrite (sread_Err _ _ _ _ Hf).
Qed.
(** C26 is false: with direction 'to', a descendant that is no ancestor is kept. *)
Lemma C26_refuted_proof : ∃ h g h' g' r, reachable h ∧ filter_graph g [an "a"] "to" "include" h = (h', Ok g') ∧
  denotes h g (an "a") 0 ∧ named h g (nm "b") 1 ∧ ¬ path h g 1 0 ∧ named h' g' (nm "b") r.
Proof.
  assert (reachable (run (graph_calls ["a"; "b"] [("a", "b")]) empty_heap)) as Hr by reach.
  eexists (run (graph_calls ["a"; "b"] [("a", "b")]) empty_heap), 0, _, _, 3.
  split; [done|]. split; [vm_compute; reflexivity|]. split; [|split; [|split]].
  - exists (nm "a"). split; [|by left]. eexists. split; [vm_compute; reflexivity|]. left.
  - eexists. split; [vm_compute; reflexivity|]. right. left.
  - destruct (C14_ancestors_proof _ 0 (ANode 0) 0 Hr) as (L & _ & HL & _ & Hin).
    { exists (nm "a"). split; [eexists; split; [vm_compute; reflexivity|left]|]. right. eexists 0, _. split; [done|]. by vm_compute. }
    intros Hp%Hin. vm_compute in HL. injection HL as <-. by apply elem_of_nil in Hp.
  - eexists. split; [vm_compute; reflexivity|]. right. left.
Qed.
(** The sample graph 0, filtered by c: all but the isolated d is kept. *)
Lemma C26_filter_ex_proof : reachable sample ∧ unstyled sample 0 ∧ no_methods sample 0 ∧
  (∃ r, denotes sample 0 (an "c") r) ∧ (∃ h', filter_graph 0 [an "c"] "to_and_from" "include" sample = (h', Ok 2) ∧
  dkeys <$> (g_nodes <$> h_graphs h' !! 2) = Some [nm "a"; nm "b"; nm "c"]) ∧
  (∃ h', filter_graph 0 [an "c"] "to_and_from" "exclude" sample = (h', Ok 2) ∧
  dkeys <$> (g_nodes <$> h_graphs h' !! 2) = Some [nm "d"]).
Proof.
  destruct C23_copy_ex_proof as (H1 & _ & H2 & H3 & _). split; [done|]. split; [done|]. split; [done|]. split.
  - exists 2, (nm "c"). split; [|by left]. eexists. split; [done|]. by do 2 right; left.
  - split; eexists; (split; [vm_compute; reflexivity|vm_compute; reflexivity]).
Qed.
(** C26, instance for unknown names: b is known, z is not. *)
Lemma C26_unknown_ex_proof : reachable sample ∧ (∃ r, denotes sample 0 (an "b") r) ∧ unknown sample 0 (an "z") ∧
  (filter_graph 0 [an "b"; an "z"] "to" "include" sample).2 = Err KeyError.
Proof.
  split; [apply sample_reachable|]. split_and!.
  - exists 1, (nm "b"). split; [|by left]. eexists. split; [by vm_compute|right; left].
  - eexists _, (nm "z"). split; [by vm_compute|]. split; [|by left]. dec.
  - by vm_compute.
Qed.
