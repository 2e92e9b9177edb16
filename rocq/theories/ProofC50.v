(** Laws of filter: C89. *)
From Verif Require Export SpecCopy SpecFrame SpecFilter ModelBuild Samples.
From Verif Require Import ProofAdj ProofDfs ProofC8.
Local Open Scope string_scope.
Local Open Scope list_scope.

Lemma named_has h g G k : h_graphs h !! g = Some G → has_name h g k ↔ k ∈ (g_nodes G).*1.
Proof.
  intros HG. split.
  - intros (r & G' & HG' & Hin). assert (G' = G) as -> by congruence. apply elem_of_list_fmap. by exists (k, r).
  - intros ([k' r] & -> & Hin)%elem_of_list_fmap. by exists r, G.
Qed.
Lemma named_unique h g k r r' : WF h → named h g k r → named h g k r' → r = r'.
Proof.
  intros W (G & HG & H1) (G' & HG' & H2). assert (G' = G) as -> by congruence.
  apply dget_in_Some in H1, H2; [congruence|by apply (wf_gkeys _ W g)..].
Qed.
Lemma relative_related h g ks k : WF h → relative_name h g (AName <$> ks) k ↔ related h g ks k.
Proof.
  intros W. split.
  - intros (x & r & r' & Hx & (k0 & Hk0 & Hxk) & Hk & Hrel). apply elem_of_list_fmap in Hx as (k1 & -> & Hk1).
    destruct Hxk as [[= <-]|(? & ? & ? & _)]; [|done]. split; [by exists r'|]. exists k1. split; [done|]. destruct Hrel as [->|[Hp|Hp]].
    + left. apply (proj1 (ProofAdj.named_node _ _ _ _ W)) in Hk0 as (? & ? & _ & ?), Hk as (? & ? & _ & ?). congruence.
    + right; left. by exists r, r'.
    + right; right. by exists r', r.
  - intros ((r' & Hk) & k0 & Hin & Hrel). destruct Hrel as [->|[(r & r2 & H1 & H2 & Hp)|(r2 & r & H2 & H1 & Hp)]].
    + exists (AName k), r', r'. split_and!; [apply elem_of_list_fmap; by exists k|exists k; split; [done|by left]|done|by left].
    + assert (r2 = r') as -> by (by eapply named_unique). exists (AName k0), r, r'. split_and!; [apply elem_of_list_fmap; by exists k0|exists k0; split; [done|by left]|done|by right; left].
    + assert (r2 = r') as -> by (by eapply named_unique). exists (AName k0), r, r'. split_and!; [apply elem_of_list_fmap; by exists k0|exists k0; split; [done|by left]|done|by right; right].
Qed.
Lemma names_denote h g (ks : list name) : (∀ k, k ∈ ks → has_name h g k) → ∀ x, x ∈ AName <$> ks → ∃ r, denotes h g x r.
Proof. intros H x (k & -> & Hk)%elem_of_list_fmap. destruct (H k Hk) as (r & Hr). exists r, k. split; [done|by left]. Qed.

Lemma kept_include h g G (ks kept : list name) : WF h → h_graphs h !! g = Some G →
  (∀ k, k ∈ kept ↔ k ∈ dkeys (g_nodes G) ∧ (if decide ("include" = "include") then relative_name h g (AName <$> ks) k else ¬ relative_name h g (AName <$> ks) k)) →
  ∀ k, k ∈ kept ↔ related h g ks k.
Proof.
  intros W HG H k. rewrite H. destruct (decide ("include" = "include")) as [_|]; [|done]. change (dkeys (g_nodes G)) with (g_nodes G).*1.
  rewrite <-(named_has h g G k HG), (relative_related h g ks k W). split; [tauto|]. intros Hk. split; [by destruct Hk|done].
Qed.
Lemma kept_exclude h g G (ks kept : list name) : WF h → h_graphs h !! g = Some G →
  (∀ k, k ∈ kept ↔ k ∈ dkeys (g_nodes G) ∧ (if decide ("exclude" = "include") then relative_name h g (AName <$> ks) k else ¬ relative_name h g (AName <$> ks) k)) →
  ∀ k, k ∈ kept ↔ has_name h g k ∧ ¬ related h g ks k.
Proof.
  intros W HG H k. rewrite H. destruct (decide ("exclude" = "include")) as [|_]; [done|]. change (dkeys (g_nodes G)) with (g_nodes G).*1.
  rewrite <-(named_has h g G k HG), (relative_related h g ks k W). done.
Qed.

Section part.
  Context {h h1 : heap} {g g1 : gref} {nu : nref → nref} {ep : eref → eref} {kept : list name}.
  Context (W : WF h) (W1 : WF h1) (P : part_of h g h1 g1 nu ep kept) (G : graph) (HG : h_graphs h !! g = Some G).
  Lemma part_named k r1 : named h1 g1 k r1 ↔ ∃ r, named h g k r ∧ k ∈ kept ∧ r1 = nu r.
  Proof.
    pose proof (pt_graph _ _ _ _ _ _ _ P G HG) as HG1. split.
    - intros (G1 & HG1' & Hin). rewrite HG1 in HG1'. injection HG1' as <-. simpl in Hin. apply elem_of_list_fmap in Hin as ([k' r] & [= -> ->] & Hin).
      apply elem_of_list_filter in Hin as [Hk Hin]. simpl in Hk. exists r. split; [by exists G|done].
    - intros (r & (G' & HG' & Hin) & Hk & ->). assert (G' = G) as -> by congruence. eexists. split; [done|]. simpl. apply elem_of_list_fmap. exists (k, r). split; [done|].
      apply elem_of_list_filter. done.
  Qed.
  Lemma part_name k : has_name h1 g1 k ↔ has_name h g k ∧ k ∈ kept.
  Proof. unfold has_name. setoid_rewrite part_named. naive_solver. Qed.
  Lemma part_adj_down a b : adj h1 g1 a b → ∃ s t, adj h g s t ∧ a = nu s ∧ b = nu t.
  Proof. intros (e' & Hj). destruct (pt_edges_onto _ _ _ _ _ _ _ P _ _ _ Hj) as (e & s & t & _ & _ & Hj' & _ & _ & _ & _ & _ & -> & ->). exists s, t. split; [by exists e|done]. Qed.
  Lemma part_path_down a b : path h1 g1 a b → ∃ s t, path h g s t ∧ in_graph h g s ∧ in_graph h g t ∧ a = nu s ∧ b = nu t.
  Proof.
    intros Hp. induction Hp as [a b Hadj|a b c Hadj _ IH].
    - destruct (part_adj_down _ _ Hadj) as (s & t & Hst & -> & ->). destruct (adj_in_graph _ _ _ _ W Hst) as [Hs Ht]. exists s, t. split; [by apply tc_once|done].
    - destruct (part_adj_down _ _ Hadj) as (s & t & Hst & -> & ->). destruct IH as (s' & t' & Hp & Hs' & Ht' & He & ->). destruct (adj_in_graph _ _ _ _ W Hst) as [Hs Ht].
      apply (pt_nodes_inj _ _ _ _ _ _ _ P) in He; [|done..]. subst s'. exists s, t'. split; [by eapply tc_l|done].
  Qed.
  Lemma part_adj_up s t ks kt : adj h g s t → named h g ks s → named h g kt t → ks ∈ kept → kt ∈ kept → adj h1 g1 (nu s) (nu t).
  Proof.
    intros (e & Hj) Hs Ht Hks Hkt. apply (proj1 (ProofAdj.named_node _ _ _ _ W)) in Hs as (Ns & HNs & _ & <-), Ht as (Nt & HNt & _ & <-).
    pose proof Hj as (E & HE & Hg & Hst & Htt). destruct (pt_edges _ _ _ _ _ _ _ P e E s t Ns Nt HE Hj HNs HNt Hks Hkt) as (_ & E' & HE' & Hg' & _ & _ & _ & _ & _ & _ & Hs' & Ht' & _).
    exists (ep e), E'. rewrite Hs', Ht', Hst, Htt. done.
  Qed.
  Lemma part_path_from s t : (∀ u k, (u = s ∨ path h g s u) → named h g k u → k ∈ kept) → path h g s t → path h1 g1 (nu s) (nu t).
  Proof.
    intros Hcl Hp. revert Hcl. induction Hp as [s t Hadj|s u t Hadj Hp IH]; intros Hcl; destruct (adj_in_graph _ _ _ _ W Hadj) as [(G1 & k1 & HG1 & Hk1) (G2 & k2 & HG2 & Hk2)].
    - apply tc_once. apply (part_adj_up s t k1 k2); [done|by exists G1|by exists G2|apply (Hcl s); [by left|by exists G1]|apply (Hcl t); [right; by apply tc_once|by exists G2]].
    - eapply tc_l; [|apply IH].
      + apply (part_adj_up s u k1 k2); [done|by exists G1|by exists G2|apply (Hcl s); [by left|by exists G1]|apply (Hcl u); [right; by apply tc_once|by exists G2]].
      + intros v k Hv. apply Hcl. right. destruct Hv as [->|Hv]; [by apply tc_once|by eapply tc_l].
  Qed.
  Lemma part_path_to s t : (∀ u k, (u = t ∨ path h g u t) → named h g k u → k ∈ kept) → path h g s t → path h1 g1 (nu s) (nu t).
  Proof.
    intros Hcl Hp. induction Hp as [s t Hadj|s u t Hadj Hp IH]; destruct (adj_in_graph _ _ _ _ W Hadj) as [(G1 & k1 & HG1 & Hk1) (G2 & k2 & HG2 & Hk2)].
    - apply tc_once. apply (part_adj_up s t k1 k2); [done|by exists G1|by exists G2|apply (Hcl s); [right; by apply tc_once|by exists G1]|apply (Hcl t); [by left|by exists G2]].
    - eapply tc_l; [|by apply IH].
      apply (part_adj_up s u k1 k2); [done|by exists G1|by exists G2|apply (Hcl s); [right; by eapply tc_l|by exists G1]|apply (Hcl u); [by right|by exists G2]].
  Qed.
End part.

(** C89.  The nodes that filter with 'include' and 'exclude' keep are complementary: every name
    of the graph is in exactly one of the two results, no other name is. *)
Lemma C89_partition_proof : ∀ h g G (ks : list name) d1 d2, reachable h → h_graphs h !! g = Some G → unstyled h g → no_methods h g → (∀ k, k ∈ ks → has_name h g k) →
  ∃ h1 g1 h2 g2, filter_graph g (AName <$> ks) d1 "include" h = (h1, Ok g1) ∧ filter_graph g (AName <$> ks) d2 "exclude" h = (h2, Ok g2) ∧
    (∀ k, has_name h1 g1 k ↔ related h g ks k) ∧
    (∀ k, has_name h g k ↔ has_name h1 g1 k ∨ has_name h2 g2 k) ∧ (∀ k, ¬ (has_name h1 g1 k ∧ has_name h2 g2 k)).
Proof.
  intros h g G ks d1 d2 Hr HG Hu Hm Hks. pose proof (reachable_WF _ Hr) as W. pose proof (names_denote h g ks Hks) as Hd.
  destruct (C26_exact_partial_proof h g G (AName <$> ks) d1 "include" Hr HG Hu Hm Hd) as (h1 & g1 & nu1 & ep1 & kept1 & F1 & _ & _ & P1 & K1).
  destruct (C26_exact_partial_proof h g G (AName <$> ks) d2 "exclude" Hr HG Hu Hm Hd) as (h2 & g2 & nu2 & ep2 & kept2 & F2 & _ & _ & P2 & K2).
  pose proof (kept_include h g G ks kept1 W HG K1) as K1'. pose proof (kept_exclude h g G ks kept2 W HG K2) as K2'. clear K1 K2. exists h1, g1, h2, g2. split; [done|]. split; [done|].
  assert (N1 : ∀ k, has_name h1 g1 k ↔ related h g ks k).
  { intros k. rewrite (part_name P1 G HG), K1'. split; [tauto|]. intros Hk. split; [by destruct Hk|done]. }
  assert (N2 : ∀ k, has_name h2 g2 k ↔ has_name h g k ∧ ¬ related h g ks k).
  { intros k. rewrite (part_name P2 G HG), K2'. tauto. }
  split; [exact N1|]. split; intros k; rewrite N1, N2; [|tauto]. split; [|by intros [[? _]|[? _]]].
  intros Hk. destruct (decide (k ∈ kept1)) as [Hin|Hin].
  - left. apply N1. apply (part_name P1 G HG). done.
  - right. split; [done|]. intros Hrel. apply N1 in Hrel. by apply (part_name P1 G HG) in Hrel as [_ ?].
Qed.
(** C89.  In the graph that filter gives for 'include', the nodes asked for have the same
    ancestors and descendants as before. *)
Lemma C89_relatives_proof : ∀ h g G (ks : list name) d, reachable h → h_graphs h !! g = Some G → unstyled h g → no_methods h g → (∀ k, k ∈ ks → has_name h g k) →
  ∃ h1 g1, filter_graph g (AName <$> ks) d "include" h = (h1, Ok g1) ∧
    ∀ k k', k ∈ ks → (leads h1 g1 k k' ↔ leads h g k k') ∧ (leads h1 g1 k' k ↔ leads h g k' k).
Proof.
  intros h g G ks d Hr HG Hu Hm Hks. pose proof (reachable_WF _ Hr) as W. pose proof (names_denote h g ks Hks) as Hd.
  destruct (C26_exact_partial_proof h g G (AName <$> ks) d "include" Hr HG Hu Hm Hd) as (h1 & g1 & nu & ep & kept & F1 & _ & _ & P & K1).
  pose proof (kept_include h g G ks kept W HG K1) as K1'. clear K1. exists h1, g1. split; [done|]. intros k k' Hk.
  assert (Kept : ∀ k', related h g ks k' → k' ∈ kept).
  { intros k2 Hk2. by apply K1'. }
  assert (Down : ∀ a b, leads h1 g1 a b → leads h g a b).
  { intros a b (r1 & r2 & H1 & H2 & Hp). apply (part_named P G HG) in H1 as (s & Hs & _ & ->), H2 as (t & Ht & _ & ->).
    destruct (part_path_down W P _ _ Hp) as (s' & t' & Hp' & Hs' & Ht' & E1 & E2).
    apply (pt_nodes_inj _ _ _ _ _ _ _ P) in E1; [|destruct Hs as (G' & ? & ?); by exists G', a|done].
    apply (pt_nodes_inj _ _ _ _ _ _ _ P) in E2; [|destruct Ht as (G' & ? & ?); by exists G', b|done]. subst. by exists s', t'. }
  split; (split; [apply Down|]).
  - intros (s & t & Hs & Ht & Hp). exists (nu s), (nu t). split_and!.
    + apply (part_named P G HG). exists s. split_and!; [done| |done]. apply Kept. split; [by exists s|]. exists k. split; [done|by left].
    + apply (part_named P G HG). exists t. split_and!; [done| |done]. apply Kept. split; [by exists t|]. exists k. split; [done|]. right; left. by exists s, t.
    + apply (part_path_from W P); [|done]. intros u ku Hu' Hku. apply Kept. split; [by exists u|]. exists k. split; [done|]. destruct Hu' as [->|Hp'].
      * left. apply (proj1 (ProofAdj.named_node _ _ _ _ W)) in Hs as (? & ? & _ & ?), Hku as (? & ? & _ & ?). congruence.
      * right; left. by exists s, u.
  - intros (s & t & Hs & Ht & Hp). exists (nu s), (nu t). split_and!.
    + apply (part_named P G HG). exists s. split_and!; [done| |done]. apply Kept. split; [by exists s|]. exists k. split; [done|]. right; right. by exists s, t.
    + apply (part_named P G HG). exists t. split_and!; [done| |done]. apply Kept. split; [by exists t|]. exists k. split; [done|by left].
    + apply (part_path_to W P); [|done]. intros u ku Hu' Hku. apply Kept. split; [by exists u|]. exists k. split; [done|]. destruct Hu' as [->|Hp'].
      * left. apply (proj1 (ProofAdj.named_node _ _ _ _ W)) in Ht as (? & ? & _ & ?), Hku as (? & ? & _ & ?). congruence.
      * right; right. by exists u, t.
Qed.
Lemma part_unstyled h g h1 g1 nu ep kept : part_of h g h1 g1 nu ep kept → unstyled h g → unstyled h1 g1.
Proof.
  intros P Hu r1 N1 HN1 Hg1. destruct (pt_nodes_onto _ _ _ _ _ _ _ P _ _ HN1 Hg1) as (r & N & HN & Hg & Hk & ->).
  destruct (pt_nodes _ _ _ _ _ _ _ P _ _ HN Hg Hk) as [_ HN']. rewrite HN' in HN1. injection HN1 as <-. simpl. by apply (Hu r).
Qed.
Lemma part_no_methods h g h1 g1 nu ep kept : WF h1 → part_of h g h1 g1 nu ep kept → no_methods h g → no_methods h1 g1.
Proof.
  intros W1 P [Hn He]. split.
  - intros r1 N1 m HN1 Hg1. destruct (pt_nodes_onto _ _ _ _ _ _ _ P _ _ HN1 Hg1) as (r & N & HN & Hg & Hk & ->).
    destruct (pt_nodes _ _ _ _ _ _ _ P _ _ HN Hg Hk) as [_ HN']. rewrite HN' in HN1. injection HN1 as <-. simpl. by apply (Hn r).
  - intros e1 E1 m HE1 Hg1. destruct (wf_live _ W1 _ _ _ HE1 Hg1) as (s1 & t1 & _ & _ & _ & Hs1 & Ht1 & _).
    destruct (pt_edges_onto _ _ _ _ _ _ _ P e1 s1 t1) as (e & s & t & Ns & Nt & Hj & HNs & HNt & Hks & Hkt & -> & _ & _); [by exists E1|].
    pose proof Hj as (E & HE & Hg & _ & _). destruct (pt_edges _ _ _ _ _ _ _ P e E s t Ns Nt HE Hj HNs HNt Hks Hkt) as (_ & E' & HE' & _ & _ & Hv & Hl & Ht & _ & Hp & _).
    assert (E' = E1) as -> by congruence. rewrite Hv, Hl, Ht, Hp. by apply (He e).
Qed.
(** C89.  Filtering the result again, with the same nodes and 'include', keeps all of it. *)
Lemma C89_again_proof : ∀ h g G (ks : list name) d d', reachable h → h_graphs h !! g = Some G → unstyled h g → no_methods h g → (∀ k, k ∈ ks → has_name h g k) →
  ∃ h1 g1 h2 g2 nu ep kept, filter_graph g (AName <$> ks) d "include" h = (h1, Ok g1) ∧ filter_graph g1 (AName <$> ks) d' "include" h1 = (h2, Ok g2) ∧
    part_of h1 g1 h2 g2 nu ep kept ∧ ∀ k, k ∈ kept ↔ has_name h1 g1 k.
Proof.
  intros h g G ks d d' Hr HG Hu Hm Hks. pose proof (reachable_WF _ Hr) as W. pose proof (names_denote h g ks Hks) as Hd.
  destruct (C26_exact_partial_proof h g G (AName <$> ks) d "include" Hr HG Hu Hm Hd) as (h1 & g1 & nu & ep & kept & F1 & _ & _ & P & K1).
  pose proof (kept_include h g G ks kept W HG K1) as K1'. clear K1.
  destruct (C89_relatives_proof h g G ks d Hr HG Hu Hm Hks) as (h1' & g1' & F1' & Hrel). rewrite F1 in F1'. injection F1' as <- <-.
  pose proof (reach_call h (CFilter g (AName <$> ks) d "include") Hr I) as Hr1. simpl in Hr1. rewrite F1 in Hr1. simpl in Hr1. pose proof (reachable_WF _ Hr1) as W1.
  assert (Hks1 : ∀ k, k ∈ ks → has_name h1 g1 k).
  { intros k Hk. apply (part_name P G HG). split; [by apply Hks|]. apply K1'. split; [by apply Hks|]. exists k. split; [done|by left]. }
  destruct (C26_exact_partial_proof h1 g1 _ (AName <$> ks) d' "include" Hr1 (pt_graph _ _ _ _ _ _ _ P G HG) (part_unstyled _ _ _ _ _ _ _ P Hu)
    (part_no_methods _ _ _ _ _ _ _ W1 P Hm) (names_denote h1 g1 ks Hks1)) as (h2 & g2 & nu2 & ep2 & kept2 & F2 & _ & _ & P2 & K2).
  pose proof (kept_include h1 g1 _ ks kept2 W1 (pt_graph _ _ _ _ _ _ _ P G HG) K2) as K2'. clear K2.
  exists h1, g1, h2, g2, nu2, ep2, kept2. split_and!; [done..|]. intros k. rewrite K2'. split; [by intros [? _]|].
  intros Hk. split; [done|]. apply (part_name P G HG) in Hk as [_ Hk]. apply K1' in Hk as (_ & k0 & Hk0 & Hl). exists k0. split; [done|].
  destruct Hl as [?|[Hl|Hl]]; [by left|right; left; by apply (proj1 (Hrel k0 k Hk0))|right; right; by apply (proj2 (Hrel k0 k Hk0))].
Qed.
(** C89.  More nodes asked for keep more. *)
Lemma C89_monotone_proof : ∀ h g G (ks ks' : list name) d d', reachable h → h_graphs h !! g = Some G → unstyled h g → no_methods h g →
  ks ⊆ ks' → (∀ k, k ∈ ks' → has_name h g k) →
  ∃ h1 g1 h2 g2, filter_graph g (AName <$> ks) d "include" h = (h1, Ok g1) ∧ filter_graph g (AName <$> ks') d' "include" h = (h2, Ok g2) ∧
    ∀ k, has_name h1 g1 k → has_name h2 g2 k.
Proof.
  intros h g G ks ks' d d' Hr HG Hu Hm Hsub Hks.
  destruct (C89_partition_proof h g G ks d d Hr HG Hu Hm) as (h1 & g1 & _ & _ & F1 & _ & N1 & _); [by intros k Hk; apply Hks, Hsub|].
  destruct (C89_partition_proof h g G ks' d' d' Hr HG Hu Hm Hks) as (h2 & g2 & _ & _ & F2 & _ & N2 & _).
  exists h1, g1, h2, g2. split_and!; [done..|]. intros k. rewrite N1, N2. intros (Hk & k0 & Hk0 & Hl). split; [done|]. exists k0. split; [by apply Hsub|done].
Qed.
(** C89.  Without nodes asked for, 'include' gives an empty graph and 'exclude' a copy. *)
Lemma C89_nothing_proof : ∀ h g G d1 d2, reachable h → h_graphs h !! g = Some G → unstyled h g → no_methods h g →
  ∃ h1 g1 h2 g2, filter_graph g [] d1 "include" h = (h1, Ok g1) ∧ filter_graph g [] d2 "exclude" h = (h2, Ok g2) ∧
    (∀ k, ¬ has_name h1 g1 k) ∧ (∀ k, has_name h2 g2 k ↔ has_name h g k).
Proof.
  intros h g G d1 d2 Hr HG Hu Hm.
  destruct (C89_partition_proof h g G [] d1 d2 Hr HG Hu Hm) as (h1 & g1 & h2 & g2 & F1 & F2 & N1 & N2 & N3); [by intros k ?%elem_of_nil|].
  exists h1, g1, h2, g2. split_and!; [done..| |].
  - intros k (_ & k0 & ?%elem_of_nil & _)%N1. done.
  - intros k. rewrite N2. split; [by right|]. intros [(_ & k0 & ?%elem_of_nil & _)%N1|?]; done.
Qed.
(** The graph a -> b -> c, d meets the hypotheses; b and c are kept with a, d is not. *)
Lemma C89_ex_proof : reachable sample ∧ unstyled sample 0 ∧ no_methods sample 0 ∧ (∀ k, k ∈ [nm "b"] → has_name sample 0 k) ∧
  (∃ h', filter_graph 0 [an "b"] "to" "include" sample = (h', Ok 2) ∧ dkeys <$> (g_nodes <$> h_graphs h' !! 2) = Some [nm "a"; nm "b"; nm "c"] ∧
    leads sample 0 (nm "a") (nm "b") ∧ leads h' 2 (nm "a") (nm "b")).
Proof.
  destruct C26_filter_ex_proof as (Hr & Hu & Hm & _). split; [done|]. split; [done|]. split; [done|]. split.
  { intros k ->%elem_of_list_singleton. eexists _, _. split; [vm_compute; reflexivity|]. right. left. }
  eexists. split; [vm_compute; reflexivity|]. split; [by vm_compute|]. split.
  - exists 0, 1. split; [eexists; split; [vm_compute; reflexivity|]; left|]. split; [eexists; split; [vm_compute; reflexivity|]; right; left|].
    apply tc_once. exists 0. eexists. split; [vm_compute; reflexivity|]. by vm_compute.
  - eexists _, _. split; [eexists; split; [vm_compute; reflexivity|]; left|]. split; [eexists; split; [vm_compute; reflexivity|]; right; left|].
    apply tc_once. exists 7. eexists. split; [vm_compute; reflexivity|]. by vm_compute.
Qed.
