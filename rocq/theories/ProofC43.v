(** What adding and removing edges and nodes does to ancestors, descendants and loops: C83. *)
From Verif Require Export ProofC40.
From Verif Require Import ProofC2b ProofC1 ProofC20 Samples.
Local Open Scope string_scope.
Local Open Scope list_scope.

Section closure.
  Context {A : Type} (R R' : A → A → Prop) (s t : A).
  Lemma tc_add : (∀ x y, R' x y ↔ R x y ∨ x = s ∧ y = t) → ∀ x y, tc R' x y ↔ tc R x y ∨ rtc R x s ∧ rtc R t y.
  Proof.
    intros H x y. split.
    - intros Hp. induction Hp as [x y [Hxy|[-> ->]]%H|x y z [Hxy|[-> ->]]%H _ IH].
      + left. by apply tc_once.
      + right. split; apply rtc_refl.
      + destruct IH as [?|[??]]; [left; by eapply tc_l|right]. split; [by eapply rtc_l|done].
      + right. split; [apply rtc_refl|]. destruct IH as [?|[??]]; [by apply tc_rtc|done].
    - assert (Hm : ∀ x y, tc R x y → tc R' x y) by (intros x' y' Hp; eapply tc_congruence with (f := id); [|exact Hp]; intros; apply H; by left).
      assert (Hm0 : ∀ x y, rtc R x y → rtc R' x y) by (intros x' y' Hp; eapply rtc_congruence with (f := id); [|exact Hp]; intros; apply H; by left).
      intros [Hp|[H1 H2]]; [by apply Hm|]. eapply tc_rtc_l; [by apply Hm0|]. eapply tc_rtc_r; [|by apply Hm0].
      apply tc_once, H. by right.
  Qed.
  Lemma tc_replace : (∀ x y, R' x y → R x y) → (∀ x y, R x y → R' x y ∨ x = s ∧ y = t) → tc R' s t → ∀ x y, tc R' x y ↔ tc R x y.
  Proof.
    intros H1 H2 Hst x y. split; [intros Hp; eapply tc_congruence with (f := id); [|exact Hp]; intros; by apply H1|].
    assert (Hone : ∀ x y, R x y → tc R' x y) by (intros u v [?|[-> ->]]%H2; [by apply tc_once|done]).
    intros Hp. induction Hp as [x y Hxy|x y z Hxy _ IH]; [by apply Hone|]. etrans; [by apply Hone|done].
  Qed.
End closure.

Lemma path0_either h g x y : path0 h g x y ↔ y = x ∨ path h g x y ∧ y ≠ x.
Proof.
  split; [|intros [->|[? _]]; [apply rtc_refl|by apply tc_rtc]]. intros Hp. apply rtc_tc in Hp as [->|Hp]; [by left|].
  destruct (decide (y = x)); [by left|by right].
Qed.
Lemma path0_or h g x y : path0 h g x y ↔ x = y ∨ path h g x y.
Proof. split; [intros Hp; by apply rtc_tc in Hp|intros [->|?]; [apply rtc_refl|by apply tc_rtc]]. Qed.

Lemma connect_adj h g x y a s t h' e : reachable h → denotes h g x s → denotes h g y t → connect g x y a h = (h', Ok e) →
  (∀ k r, named h' g k r ↔ named h g k r) ∧ ∀ u v, adj h' g u v ↔ adj h g u v ∨ u = s ∧ v = t.
Proof.
  intros Hre Hs Ht Hrun. pose proof (reachable_WF _ Hre) as W. destruct (connect_adds g h g x y a W) as ([A B] & C & D). rewrite Hrun in A, B, C, D. cbn [fst] in *.
  split; [intros; split; [apply C|apply A]|]. intros u v. split.
  - intros [e' He]. destruct (D e' u v He) as [?|(_ & H1 & H2)]; [left; by exists e'|right].
    apply denotes_get in Hs, Ht, H1, H2; try done. split; congruence.
  - intros [[e' He]|[-> ->]]; [exists e'; by apply B|]. exists e. by eapply connect_joins.
Qed.
Lemma named_in_graph h h' g r : (∀ k r, named h' g k r ↔ named h g k r) → in_graph h' g r ↔ in_graph h g r.
Proof.
  intros Hn. split; intros (G & k & HG & Hin).
  - destruct (proj1 (Hn k r)) as (G' & HG' & ?); [by exists G|]. by exists G', k.
  - destruct (proj2 (Hn k r)) as (G' & HG' & ?); [by exists G|]. by exists G', k.
Qed.

(** C83.  connect adds to the descendants of a node exactly this: a node that is the start
    of the edge or an ancestor of it gains the end of the edge and its descendants.  All
    other lists of descendants stay the same. *)
Lemma C83_connect_proof : ∀ h g x y a s t h' e z, reachable h → allowed h (CConnect g x y a) →
  denotes h g x s → denotes h g y t → connect g x y a h = (h', Ok e) → in_graph h g z →
  ∃ A B D D', get_ancestors h g x = Ok A ∧ get_descendants h g y = Ok B ∧
    get_descendants h g (ANode z) = Ok D ∧ get_descendants h' g (ANode z) = Ok D' ∧
    ∀ w, w ∈ D' ↔ w ∈ D ∨ (z = s ∨ z ∈ A) ∧ (w = t ∨ w ∈ B) ∧ w ≠ z.
Proof.
  intros h g x y a s t h' e z Hre Hal Hs Ht Hrun Hz.
  assert (Hre' : reachable h') by (replace h' with (after (CConnect g x y a) h) by (simpl; by rewrite Hrun); by apply reach_call).
  destruct (connect_adj h g x y a s t h' e Hre Hs Ht Hrun) as [Hn Hadj].
  destruct (C14_ancestors_proof h g x s Hre Hs) as (A & HA & _ & _ & HAi).
  destruct (C15_descendants_proof h g y t Hre Ht) as (B & HB & _ & _ & _ & HBi).
  destruct (C15_descendants_proof h g (ANode z) z Hre) as (D & HD & _ & _ & _ & HDi); [apply denotes_self; [by apply reachable_WF|done]|].
  destruct (C15_descendants_proof h' g (ANode z) z Hre') as (D' & HD' & _ & _ & _ & HDi').
  { apply denotes_self; [by apply reachable_WF|]. by eapply named_in_graph. }
  exists A, B, D, D'. do 4 (split; [done|]). intros w. unfold path in *. rewrite HDi', (tc_add (adj h g) (adj h' g) s t Hadj), HDi, HAi, HBi.
  fold (path0 h g z s) (path0 h g t w) (path h g z w) (path h g z s) (path h g t w). rewrite path0_or, path0_either. tauto.
Qed.
(** C83.  The same seen from below: ancestors. *)
Lemma C83_connect_up_proof : ∀ h g x y a s t h' e z, reachable h → allowed h (CConnect g x y a) →
  denotes h g x s → denotes h g y t → connect g x y a h = (h', Ok e) → in_graph h g z →
  ∃ A B U U', get_ancestors h g x = Ok A ∧ get_descendants h g y = Ok B ∧
    get_ancestors h g (ANode z) = Ok U ∧ get_ancestors h' g (ANode z) = Ok U' ∧
    ∀ w, w ∈ U' ↔ w ∈ U ∨ (w = s ∨ w ∈ A) ∧ (z = t ∨ z ∈ B).
Proof.
  intros h g x y a s t h' e z Hre Hal Hs Ht Hrun Hz.
  assert (Hre' : reachable h') by (replace h' with (after (CConnect g x y a) h) by (simpl; by rewrite Hrun); by apply reach_call).
  destruct (connect_adj h g x y a s t h' e Hre Hs Ht Hrun) as [Hn Hadj].
  destruct (C14_ancestors_proof h g x s Hre Hs) as (A & HA & _ & _ & HAi).
  destruct (C15_descendants_proof h g y t Hre Ht) as (B & HB & _ & _ & _ & HBi).
  destruct (C14_ancestors_proof h g (ANode z) z Hre) as (D & HD & _ & _ & HDi); [apply denotes_self; [by apply reachable_WF|done]|].
  destruct (C14_ancestors_proof h' g (ANode z) z Hre') as (D' & HD' & _ & _ & HDi').
  { apply denotes_self; [by apply reachable_WF|]. by eapply named_in_graph. }
  exists A, B, D, D'. do 4 (split; [done|]). intros w. unfold path in *. rewrite HDi', (tc_add (adj h g) (adj h' g) s t Hadj), HDi, HAi, HBi.
  fold (path0 h g w s) (path0 h g t z) (path h g w z) (path h g w s) (path h g t z). rewrite path0_or, path0_either. tauto.
Qed.
(** C83.  The loops that connect closes: on a loop afterwards are the nodes that were on one
    and those that lie on the way from the end of the new edge back to its start.  So a
    graph without loops stays without iff the start is neither the end nor a descendant of
    the end. *)
Lemma C83_connect_loops_proof : ∀ h g x y a s t h' e, reachable h → allowed h (CConnect g x y a) →
  denotes h g x s → denotes h g y t → connect g x y a h = (h', Ok e) →
  ∃ A B L L', get_ancestors h g x = Ok A ∧ get_descendants h g y = Ok B ∧ loop_nodes h g = Ok L ∧ loop_nodes h' g = Ok L' ∧
    (∀ w, w ∈ L' ↔ w ∈ L ∨ (w = s ∨ w ∈ A) ∧ (w = t ∨ w ∈ B)) ∧
    (L' = [] ↔ L = [] ∧ s ≠ t ∧ s ∉ B).
Proof.
  intros h g x y a s t h' e Hre Hal Hs Ht Hrun.
  assert (Hre' : reachable h') by (replace h' with (after (CConnect g x y a) h) by (simpl; by rewrite Hrun); by apply reach_call).
  destruct (connect_adj h g x y a s t h' e Hre Hs Ht Hrun) as [Hn Hadj].
  destruct (C14_ancestors_proof h g x s Hre Hs) as (A & HA & _ & _ & HAi).
  destruct (C15_descendants_proof h g y t Hre Ht) as (B & HB & _ & _ & _ & HBi).
  pose proof (denotes_in_graph h g x s Hs) as Hgs. pose proof (proj2 (named_in_graph h h' g s Hn) Hgs) as Hgs'.
  destruct Hgs as (G & ? & HG & _), Hgs' as (G' & ? & HG' & _).
  destruct (C17_loop_nodes_proof h g G Hre HG) as (L & HL & _ & _ & HLi).
  destruct (C17_loop_nodes_proof h' g G' Hre' HG') as (L' & HL' & _ & _ & HLi').
  assert (Hw : ∀ w, w ∈ L' ↔ w ∈ L ∨ (w = s ∨ w ∈ A) ∧ (w = t ∨ w ∈ B)).
  { intros w. rewrite HLi'. unfold on_cycle, path. rewrite (tc_add (adj h g) (adj h' g) s t Hadj), HLi, HAi, HBi.
    fold (path0 h g w s) (path0 h g t w). rewrite path0_or, path0_either. done. }
  exists A, B, L, L'. do 5 (split; [done|]). split.
  - intros ->. assert (Hno : ∀ w, ¬ (w ∈ L ∨ (w = s ∨ w ∈ A) ∧ (w = t ∨ w ∈ B))) by (intros w Hx%Hw; by apply elem_of_nil in Hx).
    split; [|split]; [|intros ->|intros Hin].
    + destruct L as [|w L]; [done|]. destruct (Hno w). left. left.
    + destruct (Hno t). right. split; by left.
    + destruct (Hno s). right. split; [by left|by right].
  - intros (-> & Hne & Hnb). destruct L' as [|w L']; [done|]. exfalso.
    destruct (proj1 (Hw w)) as [Hx|[H1 H2]]; [left|by apply elem_of_nil in Hx|].
    assert (Hp : path0 h g t s).
    { rewrite HAi in H1. rewrite HBi in H2. etrans; [apply path0_either; exact H2|]. apply path0_or. destruct H1 as [->|?]; [by left|by right]. }
    apply path0_either in Hp as [?|Hp]; [done|]. by apply Hnb, HBi.
Qed.
(** C83.  Removing an edge that another path bypasses (its end is still a descendant of its
    start afterwards) changes no list of ancestors or descendants; in general it adds
    nothing to them. *)
Lemma C83_disconnect_proof : ∀ h g e s t z (c : call), reachable h → joins h g e s t → c = CDisconnect e ∨ c = CRemoveSelf e → in_graph h g z →
  ∃ Ds U U' D D', get_descendants (after c h) g (ANode s) = Ok Ds ∧
    get_ancestors h g (ANode z) = Ok U ∧ get_ancestors (after c h) g (ANode z) = Ok U' ∧
    get_descendants h g (ANode z) = Ok D ∧ get_descendants (after c h) g (ANode z) = Ok D' ∧
    (∀ w, w ∈ U' → w ∈ U) ∧ (∀ w, w ∈ D' → w ∈ D) ∧
    (t ∈ Ds → (∀ w, w ∈ U' ↔ w ∈ U) ∧ (∀ w, w ∈ D' ↔ w ∈ D)).
Proof.
  intros h g e s t z c Hre Hj Hc Hz. pose proof (reachable_WF _ Hre) as W.
  assert (Hal : allowed h c) by (destruct Hj as (E & HE & _); destruct Hc as [->| ->]; simpl; split; try done; by eapply lookup_lt_Some).
  assert (Hre' : reachable (after c h)) by (by apply reach_call). pose proof (reachable_WF _ Hre') as W'.
  assert (Hex : ∃ E, h_edges h !! e = Some E ∧ e_graph E = Some g) by (destruct Hj as (E & ? & ? & _); eauto). destruct Hex as (E & HE & Hg).
  assert (Hjj : ∀ g' e' u v, joins (after c h) g' e' u v ↔ joins h g' e' u v ∧ e' ≠ e).
  { destruct Hc as [->| ->]; cbn [after].
    - destruct (C09_remove_live_joins_proof h e E g disconnect) as (h' & Hr & ?); [done..|by left|]. by rewrite Hr.
    - destruct (C09_remove_live_joins_proof h e E g remove_self) as (h' & Hr & ?); [done..|by right|]. by rewrite Hr. }
  assert (Hn : ∀ k r, named h g k r → named (after c h) g k r).
  { intros k r Hk. destruct (C81_node_lost_proof h c g k r Hre Hal Hk) as [?|(x & -> & _)]; [done|]. by destruct Hc. }
  assert (Hgr : ∀ r, in_graph h g r → in_graph (after c h) g r).
  { intros r (G & k & HG & Hin). destruct (Hn k r) as (G' & ? & ?); [by exists G|]. by exists G', k. }
  assert (H1 : ∀ u v, adj (after c h) g u v → adj h g u v) by (intros u v [e' [? _]%Hjj]; by exists e').
  assert (H2 : ∀ u v, adj h g u v → adj (after c h) g u v ∨ u = s ∧ v = t).
  { intros u v [e' He]. destruct (decide (e' = e)) as [->|Hne]; [right|left; exists e'; by apply Hjj].
    by destruct (joins_fun _ _ _ _ _ _ _ He Hj). }
  destruct (joins_in_graph h g e s t W Hj) as [Hgs _].
  destruct (C15_descendants_proof (after c h) g (ANode s) s Hre') as (Ds & HDs & _ & _ & _ & HDsi); [apply denotes_self; [done|by apply Hgr]|].
  destruct (C14_ancestors_proof h g (ANode z) z Hre) as (U & HU & _ & _ & HUi); [by apply denotes_self|].
  destruct (C14_ancestors_proof (after c h) g (ANode z) z Hre') as (U' & HU' & _ & _ & HUi'); [apply denotes_self; [done|by apply Hgr]|].
  destruct (C15_descendants_proof h g (ANode z) z Hre) as (D & HD & _ & _ & _ & HDi); [by apply denotes_self|].
  destruct (C15_descendants_proof (after c h) g (ANode z) z Hre') as (D' & HD' & _ & _ & _ & HDi'); [apply denotes_self; [done|by apply Hgr]|].
  assert (Hm : ∀ u v, path (after c h) g u v → path h g u v).
  { intros u v Hp. eapply tc_congruence with (f := id); [|exact Hp]. done. }
  exists Ds, U, U', D, D'. do 5 (split; [done|]). split; [intros w; rewrite HUi, HUi'; apply Hm|].
  split; [intros w; rewrite HDi, HDi'; intros [??]; split; [by apply Hm|done]|].
  intros [Hst _]%HDsi. pose proof (tc_replace _ _ s t H1 H2 Hst) as Heq. fold (path h g) in Heq.
  split; intros w; [rewrite HUi, HUi'|rewrite HDi, HDi']; unfold path; by rewrite Heq.
Qed.
(** C83.  After remove_node a node reaches another iff it did so before along nodes other
    than the one removed. *)
Lemma C83_remove_node_proof : ∀ h g x r h' z, reachable h → allowed h (CRemoveNode g x) → denotes h g x r →
  remove_node g x h = (h', Ok tt) → in_graph h g z → z ≠ r →
  ∃ U D, get_ancestors h' g (ANode z) = Ok U ∧ get_descendants h' g (ANode z) = Ok D ∧
    (∀ w, w ∈ U ↔ tc (λ u v, adj h g u v ∧ u ≠ r ∧ v ≠ r) w z) ∧
    (∀ w, w ∈ D ↔ tc (λ u v, adj h g u v ∧ u ≠ r ∧ v ≠ r) z w ∧ w ≠ z).
Proof.
  intros h g x r h' z Hre Hal Hr Hrun Hz Hne. pose proof (reachable_WF _ Hre) as W.
  assert (Hh' : h' = after (CRemoveNode g x) h) by (simpl; by rewrite Hrun).
  assert (Hre' : reachable h') by (rewrite Hh'; by apply reach_call). pose proof (reachable_WF _ Hre') as W'.
  assert (Hz' : in_graph h' g z).
  { destruct Hz as (G & k & HG & Hin). destruct (C81_node_lost_proof h (CRemoveNode g x) g k z Hre Hal) as [(G' & ? & ?)|(x' & [= <-] & Hx')]; [by exists G| |].
    - rewrite Hh'. by exists G', k.
    - apply denotes_get in Hx', Hr; try done. congruence. }
  assert (Hadj : ∀ u v, adj h' g u v ↔ adj h g u v ∧ u ≠ r ∧ v ≠ r).
  { pose proof (C08_surviving_edges_proof h g x r h' Hre Hr Hrun) as Hj. intros u v. split.
    - intros [e [He ?]%Hj]. split; [by exists e|done].
    - intros [[e He] ?]. exists e. by apply Hj. }
  assert (Hp : ∀ u v, path h' g u v ↔ tc (λ u v, adj h g u v ∧ u ≠ r ∧ v ≠ r) u v).
  { intros u v. split; intros Hp; (eapply tc_congruence with (f := id); [|exact Hp]); intros; by apply Hadj. }
  destruct (C14_ancestors_proof h' g (ANode z) z Hre') as (U & HU & _ & _ & HUi); [by apply denotes_self|].
  destruct (C15_descendants_proof h' g (ANode z) z Hre') as (D & HD & _ & _ & _ & HDi); [by apply denotes_self|].
  exists U, D. do 2 (split; [done|]). split; intros w; [by rewrite HUi|by rewrite HDi, Hp].
Qed.
(** C83.  Along any sequence of calls without removals, failing calls included, ancestors and
    descendants stay ancestors and descendants and loops stay loops. *)
Lemma C83_grow_proof : ∀ h h' g z, reachable h →
  history (λ c, (∀ x, c ≠ CRemoveNode g x) ∧ (∀ e, c ≠ CDisconnect e ∧ c ≠ CRemoveSelf e) ∧ (∀ r, c ≠ CRemoveEdges r)) h h' →
  in_graph h g z →
  ∃ U U' D D' b b', get_ancestors h g (ANode z) = Ok U ∧ get_ancestors h' g (ANode z) = Ok U' ∧
    get_descendants h g (ANode z) = Ok D ∧ get_descendants h' g (ANode z) = Ok D' ∧
    is_node_in_loop h g (ANode z) = Ok b ∧ is_node_in_loop h' g (ANode z) = Ok b' ∧
    U ⊆ U' ∧ D ⊆ D' ∧ (b = true → b' = true).
Proof.
  intros h h' g z Hre Hh Hz. destruct (C81_history_proof h h' g Hre) as [Hn Hj]. specialize (Hj Hh).
  assert (Hre' : reachable h') by (by eapply history_reachable).
  assert (Hz' : in_graph h' g z).
  { destruct Hz as (G & k & HG & Hin). destruct (Hn) with (k := k) (r := z) as (G' & ? & ?); [|by exists G|by exists G', k].
    clear - Hh. induction Hh as [|h h' c Hh IH Hal [Hc _]]; [constructor|by apply hist_cons]. }
  assert (Hp : ∀ u v, path h g u v → path h' g u v).
  { intros u v Hp. eapply tc_congruence with (f := id); [|exact Hp]. intros u' v' [e He]. exists e. by apply Hj. }
  assert (Hd : denotes h g (ANode z) z) by (apply denotes_self; [by apply reachable_WF|done]).
  assert (Hd' : denotes h' g (ANode z) z) by (apply denotes_self; [by apply reachable_WF|done]).
  destruct (C14_ancestors_proof h g _ z Hre Hd) as (U & HU & _ & _ & HUi). destruct (C14_ancestors_proof h' g _ z Hre' Hd') as (U' & HU' & _ & _ & HUi').
  destruct (C15_descendants_proof h g _ z Hre Hd) as (D & HD & _ & _ & _ & HDi). destruct (C15_descendants_proof h' g _ z Hre' Hd') as (D' & HD' & _ & _ & _ & HDi').
  destruct (C17_is_in_loop_proof h g _ z Hre Hd) as (b & Hb & _ & Hbi). destruct (C17_is_in_loop_proof h' g _ z Hre' Hd') as (b' & Hb' & _ & Hbi').
  exists U, U', D, D', b, b'. do 6 (split; [done|]). split_and!.
  - intros w. rewrite HUi, HUi'. apply Hp.
  - intros w. rewrite HDi, HDi'. intros [??]. split; [by apply Hp|done].
  - rewrite Hbi, Hbi'. apply Hp.
Qed.
(** The graph a -> b -> c, a -> c with a node d aside. *)
Definition chain3 : heap := Eval vm_compute in run (graph_calls ["a"; "b"; "c"; "d"] [("a", "b"); ("b", "c"); ("a", "c")]) empty_heap.
Lemma chain3_reachable : reachable chain3.
Proof. change chain3 with (run (graph_calls ["a"; "b"; "c"; "d"] [("a", "b"); ("b", "c"); ("a", "c")]) empty_heap). reach. Qed.
(** C83 is not vacuous: the graph a -> b -> c, a -> c with d aside.  Connecting c to a closes
    a loop through all three; connecting d to b gives d two descendants; the edge a -> c is
    bypassed, so removing it changes no descendants. *)
Lemma C83_ex_proof : reachable chain3 ∧ denotes chain3 0 (an "c") 2 ∧ denotes chain3 0 (an "a") 0 ∧ joins chain3 0 2 0 2 ∧
  allowed chain3 (CConnect 0 (an "c") (an "a") eargs0) ∧
  loop_nodes chain3 0 = Ok [] ∧ loop_nodes (connect 0 (an "c") (an "a") eargs0 chain3).1 0 = Ok [0; 1; 2] ∧
  get_descendants chain3 0 (an "d") = Ok [] ∧ get_descendants (connect 0 (an "d") (an "b") eargs0 chain3).1 0 (an "d") = Ok [1; 2] ∧
  get_descendants chain3 0 (an "a") = Ok [1; 2] ∧ get_descendants (disconnect 2 chain3).1 0 (an "a") = Ok [1; 2] ∧
  get_ancestors chain3 0 (an "c") = Ok [1; 0] ∧ get_ancestors (remove_node 0 (an "b") chain3).1 0 (an "c") = Ok [0].
Proof.
  split; [apply chain3_reachable|]. split; [exists (nm "c"); split; [|by left]; eexists; split; [done|]; do 2 right; left|].
  split; [exists (nm "a"); split; [|by left]; eexists; split; [done|]; left|].
  split; [eexists; by vm_compute|]. split; [dec|]. by vm_compute.
Qed.
