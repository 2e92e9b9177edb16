(** append succeeds on acceptable representations. *)
From Verif Require Export ProofGrow.
Local Open Scope list_scope.

Definition fit (n m : nat) (g : gref) (ks : list name) (h : heap) : Prop :=
  Inv n m h ∧ (∃ G D, h_graphs h !! g = Some G ∧ g_disp G = Some D) ∧ unfrozen h g ∧ ∀ k, k ∈ ks → ∃ r, named h g k r.
Definition works {A} (P Q : heap → Prop) (R : A → Prop) (c : M A) : Prop := ∀ h, P h → ∃ h' a, c h = (h', Ok a) ∧ Q h' ∧ R a.
Lemma works_bind {A B} P Q S (R : A → Prop) (T : B → Prop) c k : works P Q R c → (∀ a, R a → works Q S T (k a)) → works P S T (sbind c k).
Proof.
  intros Hc Hk h HP. destruct (Hc h HP) as (h1 & a & H1 & HQ & HR). destruct (Hk a HR h1 HQ) as (h2 & b & H2 & HS & HT).
  exists h2, b. split; [|done]. by rewrite (sbind_step _ _ _ _ _ H1).
Qed.
Lemma works_ret {A} P (R : A → Prop) a : R a → works P P R (sret a).
Proof. intros HR h HP. exists h, a. done. Qed.
Lemma works_when_some {A} P (o : option A) f : (∀ a, o = Some a → works P P (λ _, True) (f a)) → works P P (λ _ : unit, True) (when_some o f).
Proof. intros Hf. destruct o; [by apply Hf|by apply works_ret]. Qed.
Lemma works_siter {A} P (f : A → M unit) l : (∀ a, a ∈ l → works P P (λ _, True) (f a)) → works P P (λ _ : unit, True) (siter f l).
Proof.
  induction l as [|x l IH]; intros Hf; [by apply works_ret|]. cbn. apply (works_bind _ P _ (λ _, True)); [apply Hf; left|].
  intros _ _. apply IH. intros a Ha. apply Hf. by right.
Qed.
Lemma works_upd_g n m g ks f : (∀ G, g_nodes (f G) = g_nodes G ∧ (is_Some (g_disp G) → is_Some (g_disp (f G)))) → pres (Inv n m) (upd_g g f) →
  works (fit n m g ks) (fit n m g ks) (λ _, True) (upd_g g f).
Proof.
  intros Hf HpI h (HI & (G & D & HG & HD) & Hu & Hk). pose proof (HpI h HI) as HI'. unfold upd_g in *. rewrite HG in *. cbn in HI'.
  eexists _, tt. split; [reflexivity|]. split; [|done].
  assert (h_graphs (h <| h_graphs := <[g := f G]> (h_graphs h) |>) !! g = Some (f G)) as HG'.
  { cbn. apply list_lookup_insert. by eapply lookup_lt_Some. }
  destruct (Hf G) as [Hn [D' HD']]; [by rewrite HD|]. split; [done|]. split; [by exists (f G), D'|]. split; [exact Hu|].
  intros k Hin. destruct (Hk k Hin) as (r & G1 & HG1 & Hr). assert (G1 = G) as -> by congruence. exists r, (f G). by rewrite Hn.
Qed.
Lemma works_upd_disp n m g ks f : works (fit n m g ks) (fit n m g ks) (λ _, True) (upd_disp g f).
Proof.
  intros h Hfit. pose proof Hfit as (HI & (G & D & HG & HD) & _). unfold upd_disp, sbind, sread, get_g. rewrite HG. cbn. rewrite HD.
  eapply (works_upd_g n m g ks); [done| |done]. apply Inv_data_only. intros h0. by apply upd_g_data_only.
Qed.
Lemma fit_more n m g ks1 ks2 h : (∀ k, k ∈ ks2 → k ∈ ks1) → fit n m g ks1 h → fit n m g ks2 h.
Proof. intros Hs (HI & HD & Hu & Hk). split_and!; try done. intros k Hin. by apply Hk, Hs. Qed.

Lemma works_add n m g ks s a : lenient (a_mode a) = true → a_style a = SNone →
  works (fit n m g ks) (fit n m g (NStr s :: ks)) (λ _, True) (add_node g (AName (NStr s)) a).
Proof.
  intros Hm Hst h (HI & (G & D & HG & HD) & [Hun Hue] & Hk). pose proof (proj1 HI) as W.
  assert (∃ h' o, add_node g (AName (NStr s)) a h = (h', Ok o) ∧
    (∃ G' D', h_graphs h' !! g = Some G' ∧ g_disp G' = Some D') ∧ unfrozen h' g ∧ ∃ r, named h' g (NStr s) r) as (h' & o & Heq & HD' & Hu' & Hs').
  { destruct (decide (NStr s ∈ dkeys (g_nodes G))) as [Hin|Hin].
    - apply elem_of_dkeys in Hin as [r Hr]. destruct (wf_gnodes _ W g G _ r HG Hr) as (N & HN & Hid & HgN).
      rewrite (add_node_existing_spec h g s a r N W) by (done || by exists G). rewrite Hm. unfold node_updated. rewrite Hst. cbn [optional_style].
      rewrite (Hun r N HN HgN). cbn [andb]. eexists _, _. split; [reflexivity|]. split; [by exists G, D|]. split.
      + split; [|exact Hue]. intros r' N'. cbn. intros [(-> & <- & _)|[? ?]]%list_lookup_insert_Some.
        * intros _. cbn. by eapply Hun.
        * by eapply Hun.
      + by exists r, G.
    - destruct (add_fresh_facts h g G s a None []) as (h1 & Heq1 & Hn' & He' & Hg' & _); [done|done|by rewrite Hst|].
      exists h1, (Some (length (h_nodes h))). split; [done|]. split; [by eexists _, D|]. split.
      + split; [|by rewrite He']. intros r' N'. rewrite Hn'. intros [?|(_ & [_ <-]%list_lookup_singleton_Some)]%lookup_app_Some; [by eapply Hun|done].
      + eexists _, _. split; [exact Hg'|]. cbn. apply elem_of_app. right. left. }
  exists h', o. split; [done|]. split; [|done].
  assert (Inv n m h') as HI'.
  { pose proof (Inv_add_node n m g (NStr s) a) as H. rewrite Hst in H. specialize (H ltac:(done) h HI). by rewrite Heq in H. }
  split; [done|]. split; [done|]. split; [done|]. pose proof (grown_add h g G (NStr s) a h' o W HG Heq) as Hgr.
  intros k [->|Hin]%elem_of_cons; [done|]. destruct (Hk k Hin) as [r Hr]. exists r. by eapply grown_named.
Qed.
Lemma works_connect n m g ks p c a : p ∈ ks → c ∈ ks → lenient (c_mode a) = true → c_style a = SNone →
  works (fit n m g ks) (fit n m g ks) (λ _, True) (let* e := connect g (AName p) (AName c) a in sread (λ h, get_edge_id h e)).
Proof.
  intros Hp Hc Hm Hst h (HI & (G & D & HG & HD) & [Hun Hue] & Hk). pose proof (proj1 HI) as W.
  destruct (Hk p Hp) as [s Hs]. destruct (Hk c Hc) as [t Ht].
  pose proof Hs as (G1 & HG1 & Hs1). assert (G1 = G) as -> by congruence. destruct (wf_gnodes _ W g G _ _ HG Hs1) as (Ns & HNs & Hids & HgNs).
  pose proof Ht as (G1 & HG1' & Ht1). assert (G1 = G) as -> by congruence. destruct (wf_gnodes _ W g G _ _ HG Ht1) as (Nt & HNt & Hidt & HgNt).
  assert (denotes h g (AName p) s) as Hdp by (exists p; split; [done|by left]).
  assert (denotes h g (AName c) t) as Hdc by (exists c; split; [done|by left]).
  assert (∃ h' e, connect g (AName p) (AName c) a h = (h', Ok e) ∧ h_graphs h' !! g = Some G ∧ unfrozen h' g ∧
    ∃ E, h_edges h' !! e = Some E ∧ e_graph E = Some g) as (h' & e & Heq & HG' & Hu' & E & HE & HgE).
  { destruct (dget (n_out Ns) (n_id Ns, n_id Nt, RId (c_id a))) as [e0|] eqn:Hd.
    - apply (out_entry_joins h g s t e0 Ns Nt) in Hd as [Hj Hu]; [|done..]. destruct (h_edges h !! e0) as [E|] eqn:HE; [|done]. injection Hu as Hu.
      assert (e_graph E = Some g) as HgE by (destruct Hj as (E1 & HE1 & ? & _); congruence).
      rewrite (connect_existing_spec h g (AName p) (AName c) a s t Ns Nt e0 E W Hdp Hdc HNs HNt Hj HE Hu), Hm.
      unfold edge_updated. rewrite Hst. cbn [optional_style]. rewrite (Hue e0 E HE HgE). cbn [andb].
      eexists _, e0. split; [reflexivity|]. split; [done|]. split.
      + split; [exact Hun|]. intros e1 E1. cbn. intros [(-> & <- & _)|[? ?]]%list_lookup_insert_Some.
        * intros _. cbn. by eapply Hue.
        * by eapply Hue.
      + eexists. split; [cbn; apply list_lookup_insert; by eapply lookup_lt_Some|]. done.
    - destruct (connect_new_facts h g (AName p) (AName c) a s t Ns Nt None [] W Hdp Hdc HNs HNt) as (h1 & Heq1 & Hn' & He' & Hg' & _).
      { intros e0 E HE Hraw Hj. assert (dget (n_out Ns) (n_id Ns, n_id Nt, RId (c_id a)) = Some e0); [|congruence].
        apply (out_entry_joins h g s t e0 Ns Nt _ W HNs HNt HgNs HgNt). split; [done|]. rewrite HE. cbn. by rewrite Hraw. }
      { by rewrite Hst. }
      eexists h1, _. split; [done|]. split; [by rewrite Hg'|]. split.
      + split.
        * intros r N. rewrite Hn', list_lookup_imap. destruct (h_nodes h !! r) as [N0|] eqn:HN0; [|done]. intros [= <-]. cbn. by eapply Hun.
        * intros e1 E1. rewrite He'. intros [?|(_ & [_ <-]%list_lookup_singleton_Some)]%lookup_app_Some; [by eapply Hue|done].
      + eexists. split; [rewrite He', lookup_app_r, Nat.sub_diag by lia; reflexivity|]. done. }
  assert (Inv n m h') as HI'.
  { pose proof (Inv_connect n m g (AName p) (AName c) a) as H. rewrite Hst in H. specialize (H ltac:(done) h HI). by rewrite Heq in H. }
  destruct (get_edge_id_live h' e E g (proj1 HI') HE HgE) as (s' & t' & Ns' & Nt' & u & _ & _ & _ & _ & _ & _ & _ & Hid & _).
  eexists h', _. split; [rewrite (sbind_step _ _ _ _ _ Heq); unfold sread; by rewrite Hid|]. split; [|done].
  split; [done|]. split; [by exists G, D|]. split; [done|].
  destruct (grown_connect h g p c a h' e W Heq) as (b & _ & Hgr). intros k Hin. destruct (Hk k Hin) as [r Hr]. exists r. by eapply grown_named.
Qed.

Lemma works_weaken {A} (P P' Q Q' : heap → Prop) (R : A → Prop) c : (∀ h, P' h → P h) → (∀ h, Q h → Q' h) → works P Q R c → works P' Q' R c.
Proof. intros HP HQ Hc h H. destruct (Hc h (HP h H)) as (h' & a & ? & ? & ?). exists h', a. split_and!; auto. Qed.
Lemma works_add_all n m g l : (∀ ka, ka ∈ l → (∃ s, ka.1 = NStr s) ∧ lenient (a_mode ka.2) = true ∧ a_style ka.2 = SNone) → ∀ ks,
  works (fit n m g ks) (fit n m g (ks ++ l.*1)) (λ _, True) (siter (λ ka : name * nargs, do* add_node g (AName ka.1) ka.2 in sret tt) l).
Proof.
  induction l as [|[k a] l IH]; intros Hl ks.
  - rewrite app_nil_r. by apply works_ret.
  - destruct (Hl (k, a) (elem_of_list_here _ _)) as ((s & Hk) & Hm & Hst). cbn in Hk. subst k. cbn [siter].
    apply (works_bind _ (fit n m g (NStr s :: ks)) _ (λ _, True)).
    + apply (works_bind _ (fit n m g (NStr s :: ks)) _ (λ _, True)); [by apply works_add|]. intros ? _. by apply works_ret.
    + intros _ _. eapply works_weaken; [done| |apply (IH (λ ka Hka, Hl ka (elem_of_list_further _ _ _ Hka)))].
      intros h. apply fit_more. intros k. rewrite fmap_cons. set_solver.
Qed.
Lemma sbind_assoc' {A B C} (x : M A) (f : A → M B) (k : B → M C) h : sbind (sbind x f) k h = sbind x (λ a, sbind (f a) k) h.
Proof. unfold sbind. by destruct (x h) as [? [?|?]]. Qed.
Lemma elem_of_dkeys_dset {K V} `{EqDecision K} (d : dict K V) k v x : x ∈ dkeys (dset d k v) ↔ x = k ∨ x ∈ dkeys d.
Proof.
  destruct (decide (k ∈ dkeys d)) as [Hin|Hin]; [rewrite dkeys_dset_old by done; split; [by right|intros [->|?]; done]|].
  rewrite dset_fresh, dkeys_app by done. cbn. set_solver.
Qed.
Lemma works_edges n m g ks l : (∀ s, s ∈ l → ∃ p c, p ∈ ks ∧ c ∈ ks ∧ (s = E2 p c ∨ ∃ a, s = E3 p c a ∧ lenient (c_mode a) = true ∧ c_style a = SNone)) →
  ∀ ed : dict (name * name) edge_id, works (fit n m g ks) (fit n m g ks)
    (λ ed', ∀ p c, (p, c) ∈ dkeys ed ∨ (∃ i, (p, c, i) ∈ l ≫= spec_id) → (p, c) ∈ dkeys ed') (sfold (append_edge g) ed l).
Proof.
  induction l as [|s l IH]; intros Hl ed.
  - apply works_ret. intros p c [?|[i Hi]]; [done|]. by apply elem_of_nil in Hi.
  - cbn [sfold]. destruct (Hl s (elem_of_list_here _ _)) as (p & c & Hp & Hc & Hs).
    assert (∃ a, lenient (c_mode a) = true ∧ c_style a = SNone ∧ spec_id s = [(p, c, RId (c_id a))] ∧
      ∀ h, append_edge g ed s h = sbind (let* e := connect g (AName p) (AName c) a in sread (λ h, get_edge_id h e)) (λ i, sret (dset ed (p, c) i)) h)
      as (a & Hm & Hst & Hid & Happ).
    { destruct Hs as [->|(a & -> & Hm & Hst)]; [exists eargs0|exists a]; (split; [done|]); (split; [done|]); (split; [done|]); intros h; cbn [append_edge];
        by rewrite sbind_assoc'. }
    apply (works_bind _ (fit n m g ks) _ (λ ed1, ∃ i, ed1 = dset ed (p, c) i)).
    + intros h Hf. destruct (works_connect n m g ks p c a Hp Hc Hm Hst h Hf) as (h' & i & Heq & Hf' & _).
      exists h', (dset ed (p, c) i). split; [|by eauto]. by rewrite Happ, (sbind_step _ _ _ _ _ Heq).
    + intros ed1 [i ->]. intros h Hf. destruct (IH (λ s' Hs', Hl s' (elem_of_list_further _ _ _ Hs')) (dset ed (p, c) i) h Hf) as (h' & ed' & Heq & Hf' & Hk).
      exists h', ed'. split; [done|]. split; [done|]. intros p' c' Hor. apply Hk. rewrite elem_of_dkeys_dset.
      rewrite bind_cons, Hid in Hor. destruct Hor as [Hin|[i' [Hi|Hi]%elem_of_app]].
      * left. by right.
      * apply elem_of_list_singleton in Hi. left. left. congruence.
      * right. eauto.
Qed.
Lemma works_append n m h g d : Inv n m h → (∃ G D, h_graphs h !! g = Some G ∧ g_disp G = Some D) → unfrozen h g → acceptable h g d →
  ∃ h', append_repr g d h = (h', Ok tt).
Proof.
  intros HI HD Hu [Hlab Hnames Hnodes Hedges Hst Hcol].
  set (ks := names_of h g).
  assert (fit n m g ks h) as Hfit.
  { split; [done|]. split; [done|]. split; [done|]. intros k Hk. destruct HD as (G & D & HG & _). unfold ks, names_of in Hk. rewrite HG in Hk.
    apply elem_of_list_fmap in Hk as ([k' r] & -> & Hr). by exists r, G. }
  enough (works (fit n m g ks) (fit n m g (ks ++ given_names d)) (λ _, True) (append_repr g d)) as Hw.
  { destruct (Hw h Hfit) as (h' & [] & Heq & _). by exists h'. }
  assert (Hdisp : ∀ ks f, works (fit n m g ks) (fit n m g ks) (λ _, True) (upd_disp g f)) by (intros; apply works_upd_disp).
  assert (Hkey : ∀ (l : list ekey) (ed : dict (name * name) edge_id), (∀ p c, (∃ i, (p, c, i) ∈ given_ids d) → (p, c) ∈ dkeys ed) →
     (∀ k, k ∈ l → ∃ p c i, k = K2 p c ∧ (p, c, i) ∈ given_ids d) → ∀ k, k ∈ l → ∃ i, edge_key ed k = Ok i).
  { intros l ed Hed Hl k Hk. destruct (Hl k Hk) as (p & c & i & -> & Hi). cbn. unfold dgetR.
    destruct (dget ed (p, c)) as [j|] eqn:Hj; [by exists j|]. apply dget_None in Hj. destruct Hj. apply Hed. eauto. }
  unfold append_repr. set (K := fit n m g ks).
  assert (Hdisp0 : ∀ f, works K K (λ _, True) (upd_disp g f)) by (intros; apply works_upd_disp).
  apply (works_bind _ K _ (λ _, True)); [apply works_when_some; intros b _; apply works_upd_g; [done|apply Inv_upd_strict]|intros _ _].
  apply (works_bind _ K _ (λ _, True)); [apply works_when_some; intros b _; apply works_upd_g; [done|apply Inv_upd_ordering]|intros _ _].
  apply (works_bind _ K _ (λ _, True)).
  { apply works_when_some. intros v Hv. destruct (Hlab v Hv) as [s ->].
    apply (works_bind _ K _ (λ _, True)); [|intros; apply Hdisp0]. intros h0 H0. eexists h0, _. split; [reflexivity|done]. }
  intros _ _. do 5 (apply (works_bind _ K _ (λ _, True)); [apply works_when_some; intros ? _; apply Hdisp0|intros _ _]).
  set (K' := fit n m g (ks ++ given_names d)).
  apply (works_bind _ K' _ (λ _, True)).
  { unfold K', K, given_names in *. destruct (r_nodes d) as [nd|ns] eqn:Hrn.
    - apply works_add_all. intros [k a] Hin. split; [apply Hnames; apply elem_of_list_fmap; by exists (k, a)|]. by apply (Hnodes nd k a).
    - intros h0 H0. destruct (works_add_all n m g ((λ k, (k, nargs0)) <$> ns)) with (ks := ks) (h := h0) as (h1 & [] & Heq & Hf & _); [|done|].
      + intros ka (k & -> & Hk)%elem_of_list_fmap. split; [by apply Hnames|done].
      + exists h1, tt. rewrite siter_fmap in Heq. split; [exact Heq|]. split; [|done].
        rewrite <-list_fmap_compose in Hf. replace (fst ∘ (λ k : name, (k, nargs0)) <$> ns) with ns in Hf; [done|]. symmetry. apply list_fmap_id. }
  intros _ _. assert (Hdisp1 : ∀ f, works K' K' (λ _, True) (upd_disp g f)) by (intros; apply works_upd_disp).
  eapply (works_bind _ K'); [by apply works_edges|]. intros ed Hed. cbn beta in Hed.
  assert (Hed' : ∀ p c, (∃ i, (p, c, i) ∈ given_ids d) → (p, c) ∈ dkeys ed) by (intros; apply Hed; by right).
  apply (works_bind _ K' _ (λ _, True)); [apply works_when_some; intros ? _; apply works_siter; intros; apply Hdisp1|intros _ _].
  apply (works_bind _ K' _ (λ _, True)).
  { apply works_when_some. intros l Hl. apply works_siter. intros [k v] Hin. apply (works_bind _ K' _ (λ _, True)); [|intros; apply Hdisp1].
    destruct (Hkey [k] ed Hed') with (k := k) as [i Hi]; [|left|].
    - intros k' ->%elem_of_list_singleton. by eapply Hst.
    - intros h0 H0. exists h0, i. unfold sread. cbn [fst snd]. by rewrite Hi. }
  intros _ _. apply (works_bind _ K' _ (λ _, True)); [apply works_when_some; intros ? _; apply works_siter; intros; apply Hdisp1|intros _ _].
  { apply works_when_some. intros l Hl. apply works_siter. intros [k v] Hin. apply (works_bind _ K' _ (λ _, True)); [|intros; apply Hdisp1].
    destruct (Hkey [k] ed Hed') with (k := k) as [i Hi]; [|left|].
    - intros k' ->%elem_of_list_singleton. by eapply Hcol.
    - intros h0 H0. exists h0, i. unfold sread. cbn [fst snd]. by rewrite Hi. }
Qed.
