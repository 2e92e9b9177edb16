(** Graphs made from rows: C90. *)
From Verif Require Export SpecRows SpecFrame ModelBuild Samples.
From Verif Require Import ProofAdj ProofDfs ProofBuild ProofC9.
Local Open Scope string_scope.
Local Open Scope list_scope.

Lemma uniq_named h g k r r' : WF h → named h g k r → named h g k r' → r = r'.
Proof.
  intros W (G & HG & H1) (G' & HG' & H2). assert (G' = G) as -> by congruence.
  apply dget_in_Some in H1, H2; [congruence|by apply (wf_gkeys _ W g)..].
Qed.
Lemma strides_linked h g n a b : WF h → 1 ≤ n → strides h g n a b ↔ nsteps (linked h g) n a b.
Proof.
  intros W Hn. destruct n as [|n]; [lia|]. clear Hn. revert a b. induction n as [|n IH]; intros a b; split.
  - intros (x & y & Hx & Hy & Hw). apply nsteps_once_inv in Hw as (e & Hj). apply nsteps_once. by exists e, x, y.
  - intros (e & x & y & Hj & Hx & Hy)%nsteps_once_inv. exists x, y. split_and!; [done..|]. apply nsteps_once. by exists e.
  - intros (x & y & Hx & Hy & Hw). inversion Hw as [|m x' z y' Hxz Hw']; subst. pose proof Hxz as (e & Hj). destruct (adj_in_graph _ _ _ _ W Hxz) as [_ (G & c & HG & Hc)].
    apply nsteps_l with c; [exists e, x, z; split_and!; [done..|by exists G]|]. apply IH. exists z, y. split_and!; [by exists G|done..].
  - intros Hs. inversion Hs as [|m a' c b' (e & x & z & Hj & Hx & Hz) Hs']; subst. apply IH in Hs' as (z' & y & Hz' & Hy & Hw).
    assert (z' = z) as -> by (by eapply uniq_named). exists x, y. split_and!; [done..|]. apply nsteps_l with z; [by exists e|done].
Qed.
Lemma acyclic_strides h g : WF h → acyclic h g ↔ ∀ n a, 1 ≤ n → ¬ strides h g n a a.
Proof.
  intros W. split.
  - intros Ha n a Hn (x & y & Hx & Hy & Hw). assert (y = x) as -> by (by eapply uniq_named). apply (Ha x). apply tc_nsteps. by exists n.
  - intros Hs x Hx. apply tc_nsteps in Hx as (n & Hn & Hw). assert (in_graph h g x) as (G & a & HG & Ha).
    { destruct n as [|n]; [lia|]. inversion Hw as [|m x' z y' Hxz Hw']; subst. by apply (adj_in_graph _ _ _ _ W Hxz). }
    apply (Hs n a); [lia|]. exists x, x. split_and!; [by exists G..|done].
Qed.
Lemma nsteps_ext {A} (R R' : A → A → Prop) n a b : (∀ a b, R a b ↔ R' a b) → nsteps R n a b ↔ nsteps R' n a b.
Proof.
  intros H. split.
  - induction 1 as [|n x y z Hxy _ IH]; [constructor|]. apply nsteps_l with y; [by apply H|done].
  - induction 1 as [|n x y z Hxy _ IH]; [constructor|]. apply nsteps_l with y; [by apply H|done].
Qed.
Lemma row_cons s t l start end_ labels a b : row (s :: start) (t :: end_) (l :: labels) a b ↔ (a = NStr s ∧ b = NStr t) ∨ row start end_ labels a b.
Proof.
  split.
  - intros ([|i] & s' & t' & l' & H1 & H2 & H3 & -> & ->); simpl in *; [left; by simplify_eq|right; by exists i, s', t', l'].
  - intros [[-> ->]|(i & s' & t' & l' & H1 & H2 & H3 & -> & ->)]; [by exists 0, s, t, l|by exists (S i), s', t', l'].
Qed.
Lemma row_edges_in start end_ labels i a b : (∃ w, w ∈ row_edges i start end_ labels ∧ w_from w = a ∧ w_to w = b) ↔ row start end_ labels a b.
Proof.
  revert end_ labels i. induction start as [|s start IH]; intros [|t end_] [|l labels] i;
    try (split; [by intros (w & ?%elem_of_nil & _)|intros (j & ? & ? & ? & H1 & H2 & H3 & _); by destruct j; simpl in *]).
  rewrite row_cons, <-(IH end_ labels (i + 1)%Z). simpl. split.
  - intros (w & [->|Hw]%elem_of_cons & <- & <-); [by left|right; by exists w].
  - intros [[-> ->]|(w & Hw & <- & <-)]; [eexists; split; [left|done]|exists w; split; [by right|done]].
Qed.
Lemma row_names_in start end_ labels k : NStr k ∈ NStr <$> row_names start end_ labels ↔ ∃ b, row start end_ labels (NStr k) b ∨ row start end_ labels b (NStr k).
Proof.
  revert end_ labels. induction start as [|s start IH]; intros [|t end_] [|l labels];
    try (split; [by intros ?%elem_of_nil|intros (b & [(j & ? & ? & ? & H1 & H2 & H3 & _)|(j & ? & ? & ? & H1 & H2 & H3 & _)]); by destruct j; simpl in *]).
  setoid_rewrite row_cons. simpl. rewrite !elem_of_cons, (IH end_ labels). split.
  - intros [->|[->|(b & Hb)]]; [exists (NStr t); auto|exists (NStr s); auto|exists b; tauto].
  - intros (b & [[[H1 ->]|H]|[[-> H1]|H]]); [by left|right; right; eauto|by right; left|right; right; eauto].
Qed.
Lemma distinct_in {A} `{EqDecision A} (l : list A) x : x ∈ distinct l ↔ x ∈ l.
Proof.
  induction l as [|y l IH]; [done|]. simpl. rewrite !elem_of_cons, elem_of_list_filter, IH. destruct (decide (x = y)); tauto.
Qed.

(** C90.  from_lists: a node for each name in a row, an edge between two nodes exactly where
    there is a row for it, and walks of every length as the rows compose. *)
Lemma C90_rows_proof : ∀ h d start end_ labels strict h' g', reachable h → from_lists d start end_ labels strict h = (h', Ok g') →
  (∀ a, has_name h' g' a ↔ ∃ b, row start end_ labels a b ∨ row start end_ labels b a) ∧
  (∀ a b, linked h' g' a b ↔ row start end_ labels a b) ∧
  (∀ n a b, 1 ≤ n → strides h' g' n a b ↔ nsteps (row start end_ labels) n a b).
Proof.
  intros h d start end_ labels strict h' g' Hr HF.
  destruct (C27_from_lists_proof h d start end_ labels strict Hr) as (h2 & F & Hs & _). rewrite F in HF. injection HF as <- <-.
  pose proof (reach_call h (CFromLists d start end_ labels strict) Hr I) as Hr2. simpl in Hr2. rewrite F in Hr2. simpl in Hr2. pose proof (reachable_WF _ Hr2) as W.
  set (g2 := length (h_graphs h)) in *. assert (HL : ∀ a b, linked h2 g2 a b ↔ row start end_ labels a b).
  { intros a b. rewrite <-(row_edges_in start end_ labels 0). split.
    - intros (e & x & y & Hj & Hx & Hy). destruct (shows_joins _ _ _ _ _ _ _ W Hs Hj) as (w & Hw & Hx' & Hy'). exists w. split; [done|].
      split; by eapply named_name.
    - intros (w & Hw & <- & <-). destruct (shows_edge _ _ _ _ _ Hs Hw) as (e & E & x & y & _ & Hj & Hx & Hy & _). by exists e, x, y. }
  split; [|split; [exact HL|]].
  - intros a. unfold has_name. rewrite <-(shows_named _ _ _ _ a Hs). rewrite <-list_fmap_compose. split.
    + intros (s & -> & Hin)%elem_of_list_fmap. simpl. apply row_names_in. apply elem_of_list_fmap. exists s. split; [done|]. by apply distinct_in.
    + intros Hb. assert (∃ s, a = NStr s) as [s ->]. { destruct Hb as (b & [(? & ? & ? & ? & _ & _ & _ & -> & _)|(? & ? & ? & ? & _ & _ & _ & _ & ->)]); eauto. }
      apply row_names_in in Hb. apply elem_of_list_fmap in Hb as (s' & [= <-] & Hb). apply elem_of_list_fmap. exists s. split; [done|]. by apply distinct_in.
  - intros n a b Hn. rewrite (strides_linked _ _ _ _ _ W Hn). by apply nsteps_ext.
Qed.
(** C90.  If the rows are the edges of some graph, the graph that from_lists makes of them has
    the nodes that have an edge, and the same walks: so the same relatives, at the same distances,
    and cycles only if that graph has. *)
Lemma C90_rebuild_proof : ∀ h g d start end_ labels strict h' g', reachable h → (∀ a b, row start end_ labels a b ↔ linked h g a b) →
  from_lists d start end_ labels strict h = (h', Ok g') →
  (∀ a, has_name h' g' a ↔ ∃ b, linked h g a b ∨ linked h g b a) ∧
  (∀ n a b, 1 ≤ n → strides h' g' n a b ↔ strides h g n a b) ∧ (acyclic h' g' ↔ acyclic h g).
Proof.
  intros h g d start end_ labels strict h' g' Hr Hrow HF. pose proof (reachable_WF _ Hr) as W.
  destruct (C90_rows_proof _ _ _ _ _ _ _ _ Hr HF) as (H1 & H2 & H3).
  pose proof (reach_call h (CFromLists d start end_ labels strict) Hr I) as Hr2. simpl in Hr2. rewrite HF in Hr2. simpl in Hr2. pose proof (reachable_WF _ Hr2) as W2.
  assert (HS : ∀ n a b, 1 ≤ n → strides h' g' n a b ↔ strides h g n a b).
  { intros n a b Hn. rewrite (H3 n a b Hn), (strides_linked _ _ _ _ _ W Hn). by apply nsteps_ext. }
  split; [|split; [exact HS|]].
  - intros a. rewrite H1. by setoid_rewrite Hrow.
  - rewrite (acyclic_strides _ _ W), (acyclic_strides _ _ W2). split; intros H n a Hn Hs; apply (H n a Hn); by apply HS.
Qed.
Lemma rows_listed h g es start end_ labels : WF h → (∀ e, e ∈ es ↔ ∃ x y, joins h g e x y) → Forall2 (starts h g) es start → Forall2 (ends h g) es end_ → length labels = length es →
  ∀ a b, row start end_ labels a b ↔ linked h g a b.
Proof.
  intros W Hes Hs He Hl a b. split.
  - intros (i & s & t & l & H1 & H2 & _ & -> & ->). destruct (Forall2_lookup_r _ _ _ _ _ Hs H1) as (e & Hi & x & y & Hj & Hx). destruct (Forall2_lookup_r _ _ _ _ _ He H2) as (e' & Hi' & x' & y' & Hj' & Hy).
    assert (e' = e) as -> by congruence. exists e, x, y. split; [done|]. split; [done|]. destruct Hj as (E & HE & _ & _ & Hy1), Hj' as (E' & HE' & _ & _ & Hy2). by simplify_eq.
  - intros (e & x & y & Hj & Hx & Hy). assert (e ∈ es) as Hin by (apply Hes; eauto). apply elem_of_list_lookup in Hin as (i & Hi).
    destruct (Forall2_lookup_l _ _ _ _ _ Hs Hi) as (s & H1 & x1 & y1 & Hj1 & Hx1). destruct (Forall2_lookup_l _ _ _ _ _ He Hi) as (t & H2 & x2 & y2 & Hj2 & Hy2).
    destruct (lookup_lt_is_Some_2 labels i) as [l H3]; [rewrite Hl; by eapply lookup_lt_Some|]. exists i, s, t, l.
    destruct Hj as (E & HE & _ & Hx' & Hy'), Hj1 as (E1 & HE1 & _ & Hx1' & Hy1'), Hj2 as (E2 & HE2 & _ & Hx2' & Hy2'). simplify_eq.
    split_and!; [done..|by eapply named_name|by eapply named_name].
Qed.
Lemma row_edges_ids start end_ labels i w : w ∈ row_edges i start end_ labels → ∃ j, (i ≤ j)%Z ∧ w_id w = Some (NInt j).
Proof.
  revert end_ labels i. induction start as [|s start IH]; intros [|t end_] [|l labels] i; simpl; try by intros ?%elem_of_nil.
  intros [->|Hw]%elem_of_cons; [exists i; split; [lia|done]|]. destruct (IH _ _ _ Hw) as (j & Hj & ?). exists j. split; [lia|done].
Qed.
Lemma row_edges_NoDup start end_ labels i : NoDup (w_key <$> row_edges i start end_ labels).
Proof.
  revert end_ labels i. induction start as [|s start IH]; intros [|t end_] [|l labels] i; simpl; try constructor; [|apply IH].
  intros (w & Hk & Hw)%elem_of_list_fmap. destruct (row_edges_ids _ _ _ _ _ Hw) as (j & Hj & Hid). unfold w_key in Hk. rewrite Hid in Hk. simpl in Hk. injection Hk as _ _ Hk. lia.
Qed.
Lemma row_edges_length start end_ labels i : length start = length end_ → length labels = length end_ → length (row_edges i start end_ labels) = length end_.
Proof.
  revert end_ labels i. induction start as [|s start IH]; intros [|t end_] [|l labels] i; simpl; intros; simplify_eq; try done. by rewrite IH.
Qed.
Lemma shows_count h g ns es els : reachable h → shows h g ns es → NoDup (w_key <$> es) → graph_edges h g = Ok els → length els = length es.
Proof.
  intros Hr Hs Hnd Hels. pose proof (reachable_WF _ Hr) as W. pose proof Hs as (G & HG & _ & _).
  destruct (C12_edges_dict_proof h g G Hr HG) as (dd & els' & _ & Hels' & Hndd & Hperm & Hid). assert (els' = els) as -> by congruence.
  rewrite <-Hperm, fmap_length. rewrite <-(fmap_length fst dd), <-(fmap_length w_key es). apply Permutation_length. apply NoDup_Permutation; [done..|].
  intros k. rewrite !elem_of_list_fmap. split.
  - intros ([k' e] & -> & Hin). apply Hid in Hin as (x & y & E & Nx & Ny & Hj & HE & HNx & HNy & ->). destruct (shows_all_edges _ _ _ _ _ _ _ W Hs Hj) as (w & Hw & Hsh).
    destruct (edge_shows_key _ _ _ _ _ _ _ W Hsh Hj HE) as (Hx & Hy & Hraw). exists w. split; [|done]. unfold w_key. simpl. rewrite Hraw.
    apply (proj1 (ProofAdj.named_node _ _ _ _ W)) in Hx as (? & ? & _ & ?), Hy as (? & ? & _ & ?). simplify_eq. congruence.
  - intros (w & -> & Hw). destruct (shows_edge _ _ _ _ _ Hs Hw) as (e & E & x & y & HE & Hj & Hx & Hy & Hraw & _). exists (w_key w, e). split; [done|]. apply Hid.
    apply (proj1 (ProofAdj.named_node _ _ _ _ W)) in Hx as (Nx & HNx & _ & Hx), Hy as (Ny & HNy & _ & Hy). exists x, y, E, Nx, Ny. split_and!; [done..|]. unfold w_key. congruence.
Qed.
(** C90.  Exporting graph.edges of any graph with string names as lists of the names of the
    starts and ends, and making a graph of them, whatever the labels: it succeeds, and gives the
    nodes that have an edge, the same walks, and one edge per edge. *)
Lemma C90_export_proof : ∀ h g G d es start end_ labels strict, reachable h → h_graphs h !! g = Some G → graph_edges h g = Ok es →
  Forall2 (starts h g) es start → Forall2 (ends h g) es end_ → length labels = length es →
  ∃ h' g' es', from_lists d start end_ labels strict h = (h', Ok g') ∧ graph_edges h' g' = Ok es' ∧ length es' = length es ∧
    (∀ a, has_name h' g' a ↔ ∃ b, linked h g a b ∨ linked h g b a) ∧
    (∀ n a b, 1 ≤ n → strides h' g' n a b ↔ strides h g n a b) ∧ (acyclic h' g' ↔ acyclic h g).
Proof.
  intros h g G d es start end_ labels strict Hr HG Hes Hs He Hl. pose proof (reachable_WF _ Hr) as W.
  destruct (C12_edges_proof h g G Hr HG) as (es0 & Hes0 & Hnd & Hin). assert (es0 = es) as -> by congruence.
  destruct (C27_from_lists_proof h d start end_ labels strict Hr) as (h2 & F & Hsh & _).
  pose proof (reach_call h (CFromLists d start end_ labels strict) Hr I) as Hr2. simpl in Hr2. rewrite F in Hr2. simpl in Hr2. pose proof (reachable_WF _ Hr2) as W2.
  set (g2 := length (h_graphs h)) in *. pose proof Hsh as (G2 & HG2 & _ & _). destruct (C12_edges_proof h2 g2 G2 Hr2 HG2) as (es2 & Hes2 & Hnd2 & Hin2).
  exists h2, g2, es2. split; [done|]. split; [done|]. split; [|by apply (C90_rebuild_proof h g d start end_ labels strict); [done|by eapply rows_listed|]].
  apply Forall2_length in Hs, He. rewrite (shows_count _ _ _ _ _ Hr2 Hsh (row_edges_NoDup _ _ _ _) Hes2), row_edges_length; congruence.
Qed.
(** The sample graph, with a loop, a cycle and parallel edges, can be exported. *)
Lemma C90_export_ex_proof : reachable sample ∧ graph_edges sample 0 = Ok [0; 3; 1; 2; 4] ∧
  Forall2 (starts sample 0) [0; 3; 1; 2; 4] ["a"; "a"; "b"; "c"; "c"] ∧ Forall2 (ends sample 0) [0; 3; 1; 2; 4] ["b"; "b"; "c"; "b"; "c"] ∧
  (∀ a b, row ["a"; "a"; "b"; "c"; "c"] ["b"; "b"; "c"; "b"; "c"] (repeat PNone 5) a b ↔ linked sample 0 a b) ∧
  (∃ h', from_lists disp0 ["a"; "a"; "b"; "c"; "c"] ["b"; "b"; "c"; "b"; "c"] (repeat PNone 5) false sample = (h', Ok 2)).
Proof.
  split; [exact sample_reachable|]. split; [by vm_compute|].
  assert (Forall2 (starts sample 0) [0; 3; 1; 2; 4] ["a"; "a"; "b"; "c"; "c"]) as Hs.
  { repeat constructor; (eexists _, _; split; [eexists; split; [vm_compute; reflexivity|vm_compute; split; [reflexivity|split; reflexivity]]|eexists; split; [vm_compute; reflexivity|]; vm_compute; set_solver]). }
  assert (Forall2 (ends sample 0) [0; 3; 1; 2; 4] ["b"; "b"; "c"; "b"; "c"]) as He.
  { repeat constructor; (eexists _, _; split; [eexists; split; [vm_compute; reflexivity|vm_compute; split; [reflexivity|split; reflexivity]]|eexists; split; [vm_compute; reflexivity|]; vm_compute; set_solver]). }
  split; [done|]. split; [done|]. split; [|eexists; vm_compute; reflexivity].
  apply (rows_listed sample 0 [0; 3; 1; 2; 4]); [apply reachable_WF, sample_reachable| |done..].
  assert (∃ G, h_graphs sample !! 0 = Some G) as (G & HG) by (eexists; vm_compute; reflexivity).
  destruct (C12_edges_proof sample 0 G sample_reachable HG) as (es & Hes & _ & Hin). assert (graph_edges sample 0 = Ok [0; 3; 1; 2; 4]) as H by (by vm_compute).
  assert (es = [0; 3; 1; 2; 4]) as -> by congruence. exact Hin.
Qed.
