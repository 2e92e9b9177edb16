(** append: growth of a graph. *)
From Verif Require Export ProofBuild ProofPres.
Local Open Scope list_scope.

Lemma grown_same h g G h' G' : h_graphs h !! g = Some G → h_graphs h' !! g = Some G' → g_nodes G' = g_nodes G →
  (∀ r, out_of h' r = out_of h r ∧ in_of h' r = in_of h r) → length (h_nodes h) ≤ length (h_nodes h') → grown h g h' [] [].
Proof.
  intros HG HG' Heq Hn Hlen. split; [|..|done].
  - exists G, G', []. rewrite app_nil_r. split_and!; try done. by intros ? ? ?%elem_of_nil.
  - intros k r _. exists []. by rewrite (proj1 (Hn r)), app_nil_r.
  - intros k r _. exists []. by rewrite (proj2 (Hn r)), app_nil_r.
  - by intros i ?%elem_of_nil.
Qed.
Lemma grown_refl h g G : h_graphs h !! g = Some G → grown h g h [] [].
Proof. intros HG. by apply (grown_same h g G h G). Qed.
Lemma grown_named h g h' ks ids k r : grown h g h' ks ids → named h g k r → named h' g k r.
Proof.
  intros [(G & G' & new & HG & HG' & Heq & _) _ _ _ _] (G1 & HG1 & Hk). assert (G1 = G) as -> by congruence.
  exists G'. split; [done|]. rewrite Heq. apply elem_of_app. by left.
Qed.
Lemma grown_trans h g h1 h2 ks1 is1 ks2 is2 : WF h2 → grown h g h1 ks1 is1 → grown h1 g h2 ks2 is2 → grown h g h2 (ks1 ++ ks2) (is1 ++ is2).
Proof.
  intros W2 H1 H2. pose proof H1 as [(G & G1 & new1 & HG & HG1 & Heq1 & Hk1 & Hnew1) Hout1 Hin1 Hends1 Hlen1].
  pose proof H2 as [(G1' & G2 & new2 & HG1' & HG2 & Heq2 & Hk2 & Hnew2) Hout2 Hin2 Hends2 Hlen2].
  assert (G1' = G1) as -> by congruence. clear HG1'.
  assert (Hnone : ∀ r, h_nodes h1 !! r = None → h_nodes h !! r = None).
  { intros r ?%lookup_ge_None. apply lookup_ge_None. lia. }
  (* a name that is new in the second phase occurs in no id of the first *)
  assert (Hdis : ∀ k r, (k, r) ∈ new2 → ∀ r', ¬ named h1 g k r').
  { intros k r Hkr r' (G' & HG' & Hr'). assert (G' = G1) as -> by congruence.
    pose proof (wf_gkeys _ W2 g G2 HG2) as Hnd. rewrite Heq2, dkeys_app in Hnd. apply NoDup_app in Hnd as (_ & Hnd & _).
    apply (Hnd k); apply elem_of_dkeys; eauto. }
  split; [|..|lia].
  - exists G, G2, (new1 ++ new2). split; [done|]. split; [done|]. split; [by rewrite Heq2, Heq1, app_assoc|].
    split; [by rewrite fmap_app, Hk1, Hk2|]. intros k r [?|?]%elem_of_app; [by eapply Hnew1|]. eapply Hnone. by eapply Hnew2.
  - intros k r Hn2. destruct (Hout2 k r Hn2) as (o2 & Ho2 & Hf2). destruct Hn2 as (G' & HG' & Hr). assert (G' = G2) as -> by congruence.
    rewrite Heq2 in Hr. apply elem_of_app in Hr as [Hr|Hr].
    + destruct (Hout1 k r) as (o1 & Ho1 & Hf1); [by exists G1|]. exists (o1 ++ o2). split; [by rewrite Ho2, Ho1, app_assoc|].
      by rewrite fmap_app, filter_app, Hf1, Hf2.
    + exists o2. pose proof (Hnew2 k r Hr) as Hno. unfold out_of in *. rewrite Hno in Ho2. rewrite (Hnone r Hno). split; [done|].
      rewrite filter_app, (filter_none _ is1); [done|]. intros i Hi <-. destruct (Hends1 i Hi) as [[r' Hr'] _]. by apply (Hdis _ _ Hr r').
  - intros k r Hn2. destruct (Hin2 k r Hn2) as (o2 & Ho2 & Hf2). destruct Hn2 as (G' & HG' & Hr). assert (G' = G2) as -> by congruence.
    rewrite Heq2 in Hr. apply elem_of_app in Hr as [Hr|Hr].
    + destruct (Hin1 k r) as (o1 & Ho1 & Hf1); [by exists G1|]. exists (o1 ++ o2). split; [by rewrite Ho2, Ho1, app_assoc|].
      by rewrite fmap_app, filter_app, Hf1, Hf2.
    + exists o2. pose proof (Hnew2 k r Hr) as Hno. unfold in_of in *. rewrite Hno in Ho2. rewrite (Hnone r Hno). split; [done|].
      rewrite filter_app, (filter_none _ is1); [done|]. intros i Hi <-. destruct (Hends1 i Hi) as [_ [r' Hr']]. by apply (Hdis _ _ Hr r').
  - intros i [Hi|Hi]%elem_of_app; [|by apply Hends2]. destruct (Hends1 i Hi) as [[r1 ?] [r2 ?]].
    split; [exists r1|exists r2]; by eapply grown_named.
Qed.

(** * the steps *)
Lemma grown_upd_g h g f : (∀ G, g_nodes (f G) = g_nodes G) → ∀ h', upd_g g f h = (h', Ok tt) → grown h g h' [] [].
Proof.
  intros Hf h' Heq. unfold upd_g in Heq. destruct (h_graphs h !! g) as [G|] eqn:HG; [|done]. injection Heq as <-.
  apply (grown_same h g G _ (f G)); [done| |by rewrite Hf|done|done]. simpl. apply list_lookup_insert. by eapply lookup_lt_Some.
Qed.
Lemma upd_disp_Ok h g f h' : upd_disp g f h = (h', Ok tt) → ∃ G D, h_graphs h !! g = Some G ∧ g_disp G = Some D ∧
  upd_g g (λ G, G <| g_disp := Some (f D) |>) h = (h', Ok tt).
Proof.
  unfold upd_disp, sbind, sread, get_g. destruct (h_graphs h !! g) as [G|]; [|done]. destruct (g_disp G) as [D|] eqn:HD; [|done]. eauto.
Qed.
Lemma grown_upd_disp h g f h' : upd_disp g f h = (h', Ok tt) → grown h g h' [] [].
Proof. intros (G & D & _ & _ & Hu)%upd_disp_Ok. eapply grown_upd_g; [|exact Hu]. done. Qed.

Lemma node_updated_Ok h r N a w h' o : node_updated h r N a w = (h', Ok o) → ∃ N' l, h' = put_node h r N' l w ∧
  n_out N' = n_out N ∧ n_in N' = n_in N ∧ n_id N' = n_id N ∧ n_frozen N' = n_frozen N ∧ n_graph N' = n_graph N.
Proof.
  unfold node_updated. destruct (optional_style _ _ _ _ _ _) as [[st l]|]; [|done]. destruct (n_frozen N && _); [done|].
  intros [= <- <-]. eexists _, l. split; [reflexivity|done].
Qed.
Lemma edge_updated_Ok h r N a w h' o : edge_updated h r N a w = (h', Ok o) → ∃ N' l, h' = put_edge h r N' l w ∧ e_frozen N' = e_frozen N.
Proof.
  unfold edge_updated. destruct (optional_style _ _ _ _ _ _) as [[st l]|]; [|done]. destruct (e_frozen N && _); [done|].
  intros [= <- <-]. eexists _, l. split; [reflexivity|done].
Qed.
Lemma put_node_outs h r N N' l w : h_nodes h !! r = Some N → n_out N' = n_out N → n_in N' = n_in N → ∀ r', out_of (put_node h r N' l w) r' = out_of h r' ∧ in_of (put_node h r N' l w) r' = in_of h r'.
Proof.
  intros HN Ho Hi r'. unfold out_of, in_of, put_node. cbn. destruct (decide (r' = r)) as [->|].
  - rewrite list_lookup_insert by (by eapply lookup_lt_Some). by rewrite HN, Ho, Hi.
  - by rewrite list_lookup_insert_ne by done.
Qed.

Lemma grown_add h g G k a h' o : WF h → h_graphs h !! g = Some G → add_node g (AName k) a h = (h', Ok o) →
  grown h g h' (if decide (k ∈ dkeys (g_nodes G)) then [] else [k]) [].
Proof.
  intros W HG Heq. destruct k as [s|z]; [|done]. destruct (decide (NStr s ∈ dkeys (g_nodes G))) as [Hin|Hin].
  - apply elem_of_dkeys in Hin as [r Hr]. destruct (wf_gnodes _ W g G _ r HG Hr) as (N & HN & Hid & HgN).
    rewrite (add_node_existing_spec h g s a r N W) in Heq by (done || by exists G). destruct (lenient (a_mode a)); [|done].
    apply node_updated_Ok in Heq as (N' & l & -> & Ho & Hi & _). apply (grown_same h g G _ G); try done.
    + by apply put_node_outs with N.
    + unfold put_node. simpl. by rewrite insert_length.
  - destruct (restyled nstyle_ctor (length (h_ns h)) None (a_style a)) as [[st l]|x] eqn:Hst.
    + destruct (add_fresh_facts h g G s a st l HG Hin Hst) as (h1 & Heq1 & Hn' & _ & Hg' & _). rewrite Heq in Heq1. injection Heq1 as <- _.
      assert (Hnone : h_nodes h !! length (h_nodes h) = None) by (by apply lookup_ge_None).
      assert (Hsame : ∀ r, out_of h' r = out_of h r ∧ in_of h' r = in_of h r).
      { intros r. unfold out_of, in_of. rewrite Hn'. destruct (decide (r < length (h_nodes h))) as [Hlt|Hge].
        - by rewrite lookup_app_l.
        - rewrite lookup_app_r by lia. rewrite (lookup_ge_None_2 (h_nodes h)) by lia.
          destruct (r - length (h_nodes h)) as [|n]; [done|]. by rewrite (lookup_ge_None_2 _ (Datatypes.S n)) by (cbn; lia). }
      split.
      * eexists G, _, [(NStr s, length (h_nodes h))]. split; [done|]. split; [exact Hg'|]. split; [done|]. split; [done|].
        intros k r [= -> ->]%elem_of_list_singleton. done.
      * intros k r _. exists []. by rewrite (proj1 (Hsame r)), app_nil_r.
      * intros k r _. exists []. by rewrite (proj2 (Hsame r)), app_nil_r.
      * by intros i ?%elem_of_nil.
      * rewrite Hn', app_length. lia.
    + rewrite (add_node_fresh_eq h g G s a HG (proj2 (dget_None _ _) Hin)), Hst in Heq. done.
Qed.

Lemma has_id_named h g e p c u s t : WF h → named h g p s → named h g c t →
  has_id h g e (p, c, u) ↔ joins h g e s t ∧ e_raw <$> h_edges h !! e = Some u.
Proof.
  intros W Hp Hc. split.
  - intros (x & y & E & Nx & Ny & Hj & HE & HNx & HNy & [= Hpx Hcy Hu]).
    destruct (joins_in_graph h g e x y W Hj) as [(G & k1 & HG & Hk1) (G' & k2 & HG' & Hk2)].
    destruct (named_id h g k1 x Nx W) as [<- _]; [by exists G|done|]. destruct (named_id h g k2 y Ny W) as [<- _]; [by exists G'|done|].
    assert (x = s) as -> by (eapply named_inj; [done| |exact Hp]; exists G; by rewrite Hpx).
    assert (y = t) as -> by (eapply named_inj; [done| |exact Hc]; exists G'; by rewrite Hcy).
    split; [done|]. rewrite HE. by rewrite Hu.
  - intros [Hj Hu]. pose proof Hj as (E & HE & Hg & Hs & Ht). rewrite HE in Hu. injection Hu as Hu.
    pose proof Hp as (G & HG & Hk). destruct (wf_gnodes _ W g G _ _ HG Hk) as (Ns & HNs & Hids & _).
    pose proof Hc as (G1 & HG1 & Hk1). destruct (wf_gnodes _ W g G1 _ _ HG1 Hk1) as (Nt & HNt & Hidt & _).
    exists s, t, E, Ns, Nt. split_and!; try done. by rewrite Hids, Hidt, Hu.
Qed.
Lemma connect_named h g p c a h' e : WF h → connect g (AName p) (AName c) a h = (h', Ok e) → ∃ s t, named h g p s ∧ named h g c t.
Proof.
  intros W Heq. unfold connect in Heq.
  assert (∃ s t, get_node h g (AName p) = Ok s ∧ get_node h g (AName c) = Ok t) as (s & t & Hs & Ht).
  { unfold sbind, sread in Heq. destruct (get_node h g (AName p)) as [s|] eqn:Hs; [|done]. destruct (get_node h g (AName c)) as [t|] eqn:Ht; [|done]. eauto. }
  apply get_node_denotes in Hs as (k1 & Hk1 & [[= ->]|(? & ? & ? & _)]); [|done|done].
  apply get_node_denotes in Ht as (k2 & Hk2 & [[= ->]|(? & ? & ? & _)]); [|done|done]. eauto.
Qed.
Lemma grown_connect h g p c a h' e : WF h → connect g (AName p) (AName c) a h = (h', Ok e) →
  ∃ b : bool, (b = true ↔ ∃ e0, has_id h g e0 (p, c, RId (c_id a))) ∧ grown h g h' [] (if b then [] else [(p, c, RId (c_id a))]).
Proof.
  intros W Heq. destruct (connect_named h g p c a h' e W Heq) as (s & t & Hp & Hc).
  pose proof Hp as (G & HG & Hk). destruct (wf_gnodes _ W g G _ _ HG Hk) as (Ns & HNs & Hids & HgNs).
  pose proof Hc as (G1 & HG1 & Hk1). assert (G1 = G) as -> by congruence. destruct (wf_gnodes _ W g G _ _ HG Hk1) as (Nt & HNt & Hidt & HgNt).
  assert (denotes h g (AName p) s) as Hdp by (exists p; split; [done|by left]).
  assert (denotes h g (AName c) t) as Hdc by (exists c; split; [done|by left]).
  destruct (dget (n_out Ns) (n_id Ns, n_id Nt, RId (c_id a))) as [e0|] eqn:Hd.
  - exists true. apply (out_entry_joins h g s t e0 Ns Nt) in Hd as [Hj Hu]; [|done..].
    split; [split; [|done]; intros _; exists e0; by apply (has_id_named h g e0 p c _ s t)|].
    destruct (h_edges h !! e0) as [E|] eqn:HE; [|done]. injection Hu as Hu.
    rewrite (connect_existing_spec h g (AName p) (AName c) a s t Ns Nt e0 E W Hdp Hdc HNs HNt Hj HE Hu) in Heq.
    destruct (lenient (c_mode a)); [|done]. apply edge_updated_Ok in Heq as (E' & l & -> & _). by apply (grown_same h g G _ G).
  - exists false.
    assert (Hno : ∀ e0, ¬ (joins h g e0 s t ∧ e_raw <$> h_edges h !! e0 = Some (RId (c_id a)))).
    { intros e0 Hj. apply (out_entry_joins h g s t e0 Ns Nt _ W HNs HNt HgNs HgNt) in Hj. congruence. }
    split; [split; [done|]; intros [e0 Hh]; apply (has_id_named h g e0 p c _ s t W Hp Hc) in Hh; by destruct (Hno e0)|].
    destruct (restyled estyle_ctor (length (h_es h)) None (c_style a)) as [[st l]|x] eqn:Hst.
    + destruct (connect_new_facts h g (AName p) (AName c) a s t Ns Nt st l W Hdp Hdc HNs HNt) as (h1 & Heq1 & Hn' & He' & Hg' & _); [|done|].
      { intros e0 E HE Hraw Hj. apply (Hno e0). split; [done|]. rewrite HE. simpl. by rewrite Hraw. }
      rewrite Heq in Heq1. injection Heq1 as <- ->. rewrite Hids, Hidt in Hn'.
      assert (Hnm : ∀ k r, named h' g k r ↔ named h g k r) by (intros k r; unfold named; by rewrite Hg').
      assert (Hlen : length (h_nodes h') = length (h_nodes h)) by (by rewrite Hn', imap_length).
      split.
      * exists G, G, []. rewrite Hg', app_nil_r. split_and!; try done. by intros ? ? ?%elem_of_nil.
      * intros k r Hr. apply Hnm in Hr. pose proof Hr as (G2 & HG2 & Hk2). assert (G2 = G) as -> by congruence.
        destruct (wf_gnodes _ W g G _ _ HG Hk2) as (N & HN & Hid & _). unfold out_of. rewrite Hn', list_lookup_imap, HN. cbn.
        eexists. split; [reflexivity|]. destruct (decide (r = s)) as [->|Hne].
        -- assert (N = Ns) as -> by congruence. rewrite decide_True by congruence. done.
        -- rewrite decide_False; [done|]. intros ->. apply Hne. by eapply named_inj.
      * intros k r Hr. apply Hnm in Hr. pose proof Hr as (G2 & HG2 & Hk2). assert (G2 = G) as -> by congruence.
        destruct (wf_gnodes _ W g G _ _ HG Hk2) as (N & HN & Hid & _). unfold in_of. rewrite Hn', list_lookup_imap, HN. cbn.
        eexists. split; [reflexivity|]. destruct (decide (r = t)) as [->|Hne].
        -- assert (N = Nt) as -> by congruence. rewrite decide_True by congruence. done.
        -- rewrite decide_False; [done|]. intros ->. apply Hne. by eapply named_inj.
      * intros i ->%elem_of_list_singleton. cbn. split; eexists; by apply Hnm.
      * lia.
    + exfalso. rewrite (connect_new_spec h g (AName p) (AName c) a s t Ns Nt W Hdp Hdc HNs HNt) in Heq; [|]. 
      * cbv zeta in Heq. by rewrite Hst in Heq.
      * intros e0 E HE Hraw Hj. apply (Hno e0). split; [done|]. rewrite HE. simpl. by rewrite Hraw.
Qed.
(** the ids after growing *)
Lemma out_id_elem h g i : WF h → (∃ e, has_id h g e i) ↔ ∃ r, named h g i.1.1 r ∧ i ∈ (out_of h r).*1.
Proof.
  intros W. split.
  - intros (e & x & y & E & Nx & Ny & Hj & HE & HNx & HNy & ->). destruct (joins_in_graph h g e x y W Hj) as [(G & k1 & HG & Hk1) _].
    destruct (named_id h g k1 x Nx W) as [<- Hgx]; [by exists G|done|]. exists x. split; [by exists G|].
    destruct Hj as (E1 & HE1 & HgE & Hs & Ht). assert (E1 = E) as -> by congruence.
    destruct (get_edge_id_live h e E g W HE HgE) as (s' & t' & Ns & Nt & u & ? & ? & HNs & HNt & _ & _ & Hu & _ & Ho & _). simplify_eq.
    unfold out_of. rewrite HNx. apply elem_of_list_fmap. eexists. split; [|exact Ho]. cbn. by rewrite Hu.
  - intros (r & Hr & Hi). unfold out_of in Hi. destruct (h_nodes h !! r) as [N|] eqn:HN; [|by apply elem_of_nil in Hi].
    apply elem_of_list_fmap in Hi as ([i' e] & -> & Hi). cbn in *.
    destruct (WF_out_entry h r N i' e W HN Hi) as (g1 & E & t & Nt & u & HE & Hge & Hs & Ht & Hu & HNt & HgN & HgNt & Hk & _).
    destruct (named_id h g _ r N W Hr HN) as [_ Hg]. assert (g1 = g) as -> by congruence.
    exists e, r, t, E, N, Nt. split_and!; try done; [by exists E|]. by rewrite Hu.
Qed.
Lemma grown_ids h g h' ks ids i : WF h → WF h' → grown h g h' ks ids → (∃ e, has_id h' g e i) ↔ (∃ e, has_id h g e i) ∨ i ∈ ids.
Proof.
  intros W W' Hgr. rewrite !out_id_elem by done. split.
  - intros (r & Hr & Hi). destruct (gr_out _ _ _ _ _ Hgr _ r Hr) as (new & Ho & Hf). rewrite Ho, fmap_app in Hi.
    apply elem_of_app in Hi as [Hi|Hi]; [|right; rewrite Hf in Hi; apply elem_of_list_filter in Hi as [_ Hi]; done].
    left. exists r. split; [|done]. destruct (gr_nodes _ _ _ _ _ Hgr) as (G & G' & nw & HG & HG' & Heq & _ & Hnew).
    destruct Hr as (G1 & HG1 & Hk). assert (G1 = G') as -> by congruence. rewrite Heq in Hk. apply elem_of_app in Hk as [Hk|Hk]; [by exists G|].
    unfold out_of in Hi. rewrite (Hnew _ _ Hk) in Hi. by apply elem_of_nil in Hi.
  - intros [(r & Hr & Hi)|Hi].
    + exists r. pose proof (grown_named _ _ _ _ _ _ _ Hgr Hr) as Hr'. split; [done|].
      destruct (gr_out _ _ _ _ _ Hgr _ r Hr') as (new & -> & _). rewrite fmap_app. apply elem_of_app. by left.
    + destruct (gr_ends _ _ _ _ _ Hgr i Hi) as [[r Hr] _]. exists r. split; [done|].
      destruct (gr_out _ _ _ _ _ Hgr _ r Hr) as (new & -> & Hf). rewrite fmap_app, Hf. apply elem_of_app. right. by apply elem_of_list_filter.
Qed.

(** * the whole of append *)
Lemma new_cons {A} `{EqDecision A} (old : list A) x l :
  filter (λ y, y ∉ old) (distinct (x :: l)) =
  (if decide (x ∈ old) then [] else [x]) ++ filter (λ y, y ∉ (old ++ (if decide (x ∈ old) then [] else [x]))) (distinct l).
Proof.
  cbn [distinct]. rewrite filter_cons, list_filter_filter. destruct (decide (x ∈ old)) as [Hin|Hin].
  - rewrite decide_False by (intros H; by apply H). rewrite app_nil_r. cbn. apply list_filter_iff. intros y.
    split; [tauto|]. intros Hy. split; [done|]. by intros ->.
  - rewrite decide_True by done. cbn. f_equal. apply list_filter_iff. intros y. rewrite elem_of_app, elem_of_list_singleton. tauto.
Qed.

(** Steps that leave nodes and edges alone. *)
Definition live (n m : nat) (g : gref) (h : heap) : Prop := Inv n m h ∧ ∃ G, h_graphs h !! g = Some G.
Definition neutral {A} (n m : nat) (g : gref) (c : M A) : Prop :=
  ∀ h h' a, live n m g h → c h = (h', Ok a) → live n m g h' ∧ grown h g h' [] [].
Lemma live_grown n m g h h' ks ids : Inv n m h' → grown h g h' ks ids → live n m g h'.
Proof. intros HI [(G & G' & ? & _ & ? & _) _ _ _ _]. split; [done|eauto]. Qed.
Lemma neutral_ret {A} n m g (a : A) : neutral n m g (sret a).
Proof. intros h h' b Hl [= <- _]. split; [done|]. destruct Hl as [_ [G HG]]. by eapply grown_refl. Qed.
Lemma neutral_bind {A B} n m g (c : M A) (k : A → M B) : neutral n m g c → (∀ a, neutral n m g (k a)) → neutral n m g (sbind c k).
Proof.
  intros Hc Hk h h' b Hl (h1 & a & H1 & H2)%sbind_Ok. destruct (Hc _ _ _ Hl H1) as [Hl1 Hg1].
  destruct (Hk a _ _ _ Hl1 H2) as [Hl2 Hg2]. split; [done|]. apply (grown_trans h g h1 h' [] [] [] []); [|done..]. apply Hl2.
Qed.
Lemma neutral_sread {A} n m g (f : heap → res A) : neutral n m g (sread f).
Proof.
  intros h h' a Hl Heq. unfold sread in Heq. injection Heq as <- _. split; [done|]. destruct Hl as [_ [G HG]]. by eapply grown_refl.
Qed.
Lemma neutral_when_some {A} n m g (o : option A) f : (∀ a, neutral n m g (f a)) → neutral n m g (when_some o f).
Proof. intros Hf. destruct o; [apply Hf|apply neutral_ret]. Qed.
Lemma neutral_siter {A} n m g (f : A → M unit) l : (∀ a, neutral n m g (f a)) → neutral n m g (siter f l).
Proof. intros Hf. induction l as [|x l IH]; [apply neutral_ret|]. cbn. apply neutral_bind; [apply Hf|done]. Qed.
Lemma neutral_upd_disp n m g f : neutral n m g (upd_disp g f).
Proof.
  intros h h' [] [HI _] Heq. pose proof (grown_upd_disp _ _ _ _ Heq) as Hg. split; [|done]. eapply live_grown; [|done].
  pose proof (Inv_upd_disp n m g f h HI) as H. by rewrite Heq in H.
Qed.
Lemma neutral_upd_strict n m g b : neutral n m g (upd_g g (λ G, G <| g_strict := b |>)).
Proof.
  intros h h' [] [HI _] Heq. assert (Hg : grown h g h' [] []) by (by eapply grown_upd_g, Heq). split; [|done]. eapply live_grown; [|done].
  assert (h' = (upd_g g (λ G, G <| g_strict := b |>) h).1) as -> by (by rewrite Heq). by apply Inv_upd_strict.
Qed.
Lemma neutral_upd_ordering n m g b : neutral n m g (upd_g g (λ G, G <| g_ordering := b |>)).
Proof.
  intros h h' [] [HI _] Heq. assert (Hg : grown h g h' [] []) by (by eapply grown_upd_g, Heq). split; [|done]. eapply live_grown; [|done].
  assert (h' = (upd_g g (λ G, G <| g_ordering := b |>) h).1) as -> by (by rewrite Heq). by apply Inv_upd_ordering.
Qed.
Ltac neut := repeat first [apply neutral_when_some; intros ?|apply neutral_upd_disp|apply neutral_upd_strict|apply neutral_upd_ordering
  |apply neutral_siter; intros ?|apply neutral_bind; [|intros ?]|apply neutral_sread|apply neutral_ret].

Lemma grown_add_all n m g l : (∀ ka, ka ∈ l → nsarg_lt n (a_style ka.2)) → ∀ h h' G, Inv n m h → h_graphs h !! g = Some G →
  siter (λ ka : name * nargs, do* add_node g (AName ka.1) ka.2 in sret tt) l h = (h', Ok tt) →
  Inv n m h' ∧ grown h g h' (filter (λ k, k ∉ dkeys (g_nodes G)) (distinct l.*1)) [].
Proof.
  induction l as [|[k a] l IH]; intros Hs h h' G HI HG Heq.
  - cbn in Heq. injection Heq as <-. split; [done|]. by eapply grown_refl.
  - cbn [siter] in Heq. apply sbind_Ok in Heq as (h1 & [] & H1 & H2). apply sbind_Ok in H1 as (h1' & o & H1 & [= <-]). cbn [fst snd] in *.
    pose proof (grown_add h g G k a h1' o (proj1 HI) HG H1) as Hg1.
    assert (Inv n m h1') as HI1.
    { pose proof (Inv_add_node n m g k a (Hs (k, a) (elem_of_list_here _ _)) h HI) as H. by rewrite H1 in H. }
    destruct (gr_nodes _ _ _ _ _ Hg1) as (G0 & G1 & new & HG0 & HG1 & Hnew & Hk & _). assert (G0 = G) as -> by congruence.
    destruct (IH (λ ka Hka, Hs ka (elem_of_list_further _ _ _ Hka)) h1' h' G1 HI1 HG1 H2) as [HI2 Hg2]. split; [done|].
    assert (dkeys (g_nodes G1) = dkeys (g_nodes G) ++ (if decide (k ∈ dkeys (g_nodes G)) then [] else [k])) as Hkeys.
    { rewrite Hnew, dkeys_app. f_equal. by rewrite <-Hk. }
    rewrite Hkeys in Hg2. rewrite fmap_cons, new_cons. apply (grown_trans h g h1' h' _ [] _ []); [apply HI2|done|done].
Qed.

Lemma grown_edges n m g l : (∀ s, s ∈ l → espec_styles m s) → ∀ h h' (old : list edge_id) ed ed', live n m g h →
  (∀ i, i ∈ old ↔ ∃ e, has_id h g e i) → sfold (append_edge g) ed l h = (h', Ok ed') →
  Inv n m h' ∧ grown h g h' [] (filter (λ i, i ∉ old) (distinct (l ≫= spec_id))).
Proof.
  induction l as [|s l IH]; intros Hs h h' old ed ed' [HI [G HG]] Hold Heq.
  - cbn in Heq. injection Heq as <- _. split; [done|]. by eapply grown_refl.
  - cbn [sfold] in Heq. apply sbind_Ok in Heq as (h1 & ed1 & H1 & H2).
    assert (∃ p c a, nsarg_lt m (c_style a) ∧ spec_id s = [(p, c, RId (c_id a))] ∧ ∃ e, connect g (AName p) (AName c) a h = (h1, Ok e))
      as (p & c & a & Ha & Hid & e & Hc).
    { pose proof (Hs s (elem_of_list_here _ _)) as Hst. destruct s as [p c|p c a| |]; try done; cbn [append_edge] in H1;
        apply sbind_Ok in H1 as (h2 & e & H1 & H3); apply sbind_Ok in H3 as (h3 & i & H3 & [= <- _]);
        unfold sread in H3; injection H3 as <- _; [exists p, c, eargs0|exists p, c, a]; (split; [done|]); (split; [done|]); by exists e. }
    destruct (grown_connect h g p c a h1 e (proj1 HI) Hc) as (b & Hb & Hg1).
    assert (Inv n m h1) as HI1. { pose proof (Inv_connect n m g (AName p) (AName c) a Ha h HI) as H. by rewrite Hc in H. }
    assert (Hg1' : grown h g h1 [] (if decide ((p, c, RId (c_id a)) ∈ old) then [] else [(p, c, RId (c_id a))])).
    { destruct (decide (_ ∈ old)) as [Hin|Hin]; rewrite Hold in Hin; destruct b; try done; [by apply Hb in Hin|by destruct Hin; apply Hb]. }
    clear Hb Hg1. rename Hg1' into Hg1.
    destruct (IH (λ s' Hs', Hs s' (elem_of_list_further _ _ _ Hs')) h1 h' (old ++ (if decide ((p, c, RId (c_id a)) ∈ old) then [] else [(p, c, RId (c_id a))])) ed1 ed')
      as [HI2 Hg2]; [by eapply live_grown| |done|].
    { intros i. rewrite (grown_ids h g h1 _ _ i (proj1 HI) (proj1 HI1) Hg1), elem_of_app, Hold. done. }
    split; [done|]. rewrite bind_cons, Hid. cbn [app]. rewrite new_cons.
    apply (grown_trans h g h1 h' [] _ [] _); [apply HI2|done|done].
Qed.

Lemma siter_fmap {A C} (f : A → M unit) (u : C → A) l h : siter f (u <$> l) h = siter (λ x, f (u x)) l h.
Proof. revert h. induction l as [|x l IH]; intros h; [done|]. cbn. unfold sbind. destruct (f (u x) h) as [h1 [[]|]]; [apply IH|done]. Qed.
Lemma grown_append n m h g G d h' (old : list edge_id) : Inv n m h → repr_styles n m d → h_graphs h !! g = Some G →
  (∀ i, i ∈ old ↔ ∃ e, has_id h g e i) → append_repr g d h = (h', Ok tt) →
  grown h g h' (filter (λ k, k ∉ dkeys (g_nodes G)) (distinct (given_names d))) (filter (λ i, i ∉ old) (distinct (given_ids d))).
Proof.
  intros HI [Hsn Hse] HG Hold Heq. assert (live n m g h) as Hl by (split; eauto).
  assert (∀ h1, live n m g h1 ∧ grown h g h1 [] [] → (do* (match r_nodes d with
       | inl nd => siter (λ kv, do* add_node g (AName kv.1) kv.2 in sret tt) nd
       | inr ns => siter (λ n, do* add_node g (AName n) nargs0 in sret tt) ns
       end) in
    let* ed := sfold (append_edge g) [] (r_edges d) in
    do* when_some (r_node_styles d) (λ l,
          siter (λ kv, upd_disp g (λ x, x <| d_node_styles := dset (d_node_styles x) kv.1 kv.2 |>)) l) in
    do* when_some (r_edge_styles d) (λ l,
          siter (λ kv, let* i := sread (λ _, edge_key ed kv.1) in
                       upd_disp g (λ x, x <| d_edge_colours := dset (d_edge_colours x) i (OvStyle kv.2) |>)) l) in
    do* when_some (r_node_colours d) (λ l,
          siter (λ kv, upd_disp g (λ x, x <| d_node_colours := dset (d_node_colours x) kv.1 kv.2 |>)) l) in
    when_some (r_edge_colours d) (λ l,
          siter (λ kv, let* i := sread (λ _, edge_key ed kv.1) in
                       upd_disp g (λ x, x <| d_edge_colours := dset (d_edge_colours x) i (OvColour kv.2) |>)) l)) h1 = (h', Ok tt) →
    grown h g h' (filter (λ k, k ∉ dkeys (g_nodes G)) (distinct (given_names d))) (filter (λ i, i ∉ old) (distinct (given_ids d)))) as Hmain.
  { intros h1 [Hl1 Hg1] H. apply sbind_Ok in H as (h2 & [] & Hnodes & H). apply sbind_Ok in H as (h3 & ed & Hedges & H).
    destruct (gr_nodes _ _ _ _ _ Hg1) as (G0 & G1 & new & HG0 & HG1 & Hnew & Hk & _). assert (G0 = G) as -> by congruence.
    apply fmap_nil_inv in Hk as ->. rewrite app_nil_r in Hnew.
    assert (Inv n m h2 ∧ grown h1 g h2 (filter (λ k, k ∉ dkeys (g_nodes G1)) (distinct (given_names d))) []) as [HI2 Hg2].
    { unfold given_names. destruct (r_nodes d) as [nd|ns].
      - apply (grown_add_all n m g nd (λ ka Hka, Hsn nd ka eq_refl Hka) h1 h2 G1 (proj1 Hl1) HG1 Hnodes).
      - replace ns with ((λ k, (k, nargs0)) <$> ns).*1 by (rewrite <-list_fmap_compose; apply list_fmap_id).
        refine (grown_add_all n m g _ _ h1 h2 G1 (proj1 Hl1) HG1 _).
        + intros ka (k & -> & _)%elem_of_list_fmap. done.
        + rewrite siter_fmap. exact Hnodes. }
    pose proof (grown_trans h g h1 h2 [] [] _ [] (proj1 HI2) Hg1 Hg2) as Hg12. rewrite Hnew in Hg12.
    destruct (grown_edges n m g (r_edges d) Hse h2 h3 old [] ed) as [HI3 Hg3]; [by eapply live_grown| |done|].
    { intros i. rewrite Hold, (grown_ids _ _ _ _ _ i (proj1 HI) (proj1 HI2) Hg12), elem_of_nil. tauto. }
    pose proof (grown_trans _ _ _ _ _ _ _ _ (proj1 HI3) Hg12 Hg3) as Hg123.
    revert H. intros H.
    assert (neutral n m g (do* when_some (r_node_styles d) (λ l,
          siter (λ kv, upd_disp g (λ x, x <| d_node_styles := dset (d_node_styles x) kv.1 kv.2 |>)) l) in
    do* when_some (r_edge_styles d) (λ l,
          siter (λ kv, let* i := sread (λ _, edge_key ed kv.1) in
                       upd_disp g (λ x, x <| d_edge_colours := dset (d_edge_colours x) i (OvStyle kv.2) |>)) l) in
    do* when_some (r_node_colours d) (λ l,
          siter (λ kv, upd_disp g (λ x, x <| d_node_colours := dset (d_node_colours x) kv.1 kv.2 |>)) l) in
    when_some (r_edge_colours d) (λ l,
          siter (λ kv, let* i := sread (λ _, edge_key ed kv.1) in
                       upd_disp g (λ x, x <| d_edge_colours := dset (d_edge_colours x) i (OvColour kv.2) |>)) l))) as Hneut by neut.
    destruct (Hneut h3 h' tt) as [[HI4 _] Hg4]; [by eapply live_grown|exact H|].
    pose proof (grown_trans _ _ _ _ _ _ _ _ (proj1 HI4) Hg123 Hg4) as Hg. rewrite !app_nil_r, !app_nil_l in Hg. exact Hg. }
  unfold append_repr in Heq.
  repeat (let h1 := fresh "h" in let H1 := fresh "Hstep" in
    match type of Heq with sbind (when_some _ _) _ _ = _ => apply sbind_Ok in Heq as (h1 & [] & H1 & Heq) end).
  eapply Hmain; [|exact Heq]. clear Heq Hmain.
  assert (Hgo : ∀ u1 u2 (c : M unit), neutral n m g c → live n m g u1 ∧ grown h g u1 [] [] → c u1 = (u2, Ok tt) → live n m g u2 ∧ grown h g u2 [] []).
  { intros u1 u2 c Hc [Hl1 Hg1] H. destruct (Hc _ _ _ Hl1 H) as [Hl2 Hg2]. split; [done|].
    apply (grown_trans h g u1 u2 [] [] [] [] (proj1 (proj1 Hl2)) Hg1 Hg2). }
  repeat (eapply Hgo; [| |eassumption]; [neut|]). split; [done|]. by eapply grown_refl.
Qed.
