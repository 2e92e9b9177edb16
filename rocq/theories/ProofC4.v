(** Order of nodes: C04, C38, C54. *)
From Verif Require Export ProofIndex ProofC2 SpecOrder.
From Verif Require Import Samples.
From Coq Require Import Permutation.
Local Open Scope string_scope.
Local Open Scope list_scope.

(** * The order of strings *)
Lemma acompare_Lt a b : Ascii.compare a b = Lt ↔ (Ascii.N_of_ascii a < Ascii.N_of_ascii b)%N.
Proof. unfold Ascii.compare. apply N.compare_lt_iff. Qed.
Lemma acompare_Eq a b : Ascii.compare a b = Eq ↔ a = b.
Proof.
  unfold Ascii.compare. rewrite N.compare_eq_iff. split; [|by intros ->].
  intros H. rewrite <-(Ascii.ascii_N_embedding a), <-(Ascii.ascii_N_embedding b). by f_equal.
Qed.
Lemma scompare_trans a b c : String.compare a b = Lt → String.compare b c = Lt → String.compare a c = Lt.
Proof.
  revert b c. induction a as [|x a IH]; intros [|y b] [|z c]; simpl; try done.
  destruct (Ascii.compare x y) eqn:Hxy; [|intros _|done].
  - apply acompare_Eq in Hxy as ->. destruct (Ascii.compare y z); [|done..]. apply IH.
  - destruct (Ascii.compare y z) eqn:Hyz; [intros _|intros _|done].
    + apply acompare_Eq in Hyz as ->. by rewrite Hxy.
    + assert (Ascii.compare x z = Lt) as ->; [|done]. rewrite acompare_Lt in Hxy, Hyz |- *. lia.
Qed.
Lemma scompare_refl a : String.compare a a = Eq.
Proof.
  induction a as [|x a IH]; [done|]. simpl. assert (Ascii.compare x x = Eq) as -> by (by apply acompare_Eq). done.
Qed.
Lemma scompare_flip a b : String.compare a b = CompOpp (String.compare b a).
Proof. apply String.compare_antisym. Qed.

(** * Keys *)
Lemma ncompare_Eq a b : name_compare a b = Ok Eq ↔ a = b.
Proof.
  destruct a as [a|a], b as [b|b]; simpl; try done; (split; [intros [= H]|intros [= ->]]); f_equal.
  - by apply String.compare_eq_iff.
  - apply scompare_refl.
  - by apply Z.compare_eq_iff.
  - apply Z.compare_refl.
Qed.
Lemma ncompare_Lt a b : name_compare a b = Ok Lt ↔ name_before a b.
Proof.
  destruct a as [a|a], b as [b|b]; simpl; try done; split; try by intros [= H].
  - by intros ->.
  - intros ?. f_equal. by apply Z.compare_lt_iff.
Qed.
Lemma ncompare_Gt a b : name_compare a b = Ok Gt ↔ name_before b a.
Proof.
  destruct a as [a|a], b as [b|b]; simpl; try done.
  - rewrite (scompare_flip a b). destruct (String.compare b a); split; simpl; congruence.
  - split; [intros [= H]; by apply Z.compare_gt_iff|]. intros ?. f_equal. by apply Z.compare_gt_iff.
Qed.
Lemma name_before_irrefl a : ¬ name_before a a.
Proof. destruct a; simpl; [by rewrite scompare_refl|lia]. Qed.
Lemma name_before_trans a b c : name_before a b → name_before b c → name_before a c.
Proof. destruct a, b, c; simpl; try done; [apply scompare_trans|lia]. Qed.
Lemma before_irrefl k : ¬ key_before k k.
Proof. intros [?|[_ H]]; [lia|]. by apply name_before_irrefl in H. Qed.
Lemma before_trans k1 k2 k3 : key_before k1 k2 → key_before k2 k3 → key_before k1 k3.
Proof.
  intros [H1|[E1 H1]] [H2|[E2 H2]]; try (left; lia).
  right. split; [congruence|]. by eapply name_before_trans.
Qed.
Lemma before_asym k1 k2 : key_before k1 k2 → ¬ key_before k2 k1.
Proof. intros H1 H2. eapply before_irrefl, before_trans; done. Qed.

Definition nkey (N : node) : Z * name := (n_index N, n_id N).
Definition keys_ok (k1 k2 : Z * name) : Prop := k1.1 = k2.1 → same_kind k1.2 k2.2.
Lemma keys_ok_sym k1 k2 : keys_ok k1 k2 → keys_ok k2 k1.
Proof. unfold keys_ok. intros H E. specialize (H (eq_sym E)). by destruct k1.2, k2.2. Qed.
Lemma compare_run h r1 r2 N1 N2 : h_nodes h !! r1 = Some N1 → h_nodes h !! r2 = Some N2 → keys_ok (nkey N1) (nkey N2) →
  ∃ c, node_compare h r1 r2 = Ok c ∧ match c with
    | Lt => key_before (nkey N1) (nkey N2) | Eq => nkey N1 = nkey N2 | Gt => key_before (nkey N2) (nkey N1) end.
Proof.
  intros H1 H2 Hk. unfold node_compare, get_n. rewrite H1, H2. cbn [rbind].
  destruct (Z.compare_spec (n_index N1) (n_index N2)) as [E|E|E].
  - specialize (Hk E). simpl in Hk.
    destruct (name_compare (n_id N1) (n_id N2)) as [c|x] eqn:Hc.
    + exists c. split; [done|]. unfold nkey. destruct c.
      * apply ncompare_Eq in Hc. by f_equal.
      * apply ncompare_Lt in Hc. by right.
      * apply ncompare_Gt in Hc. by right.
    + exfalso. by destruct (n_id N1), (n_id N2).
  - exists Lt. split; [done|by left].
  - exists Gt. split; [done|by left].
Qed.
Lemma key_total N1 N2 : keys_ok (nkey N1) (nkey N2) →
  key_before (nkey N1) (nkey N2) ∨ nkey N1 = nkey N2 ∨ key_before (nkey N2) (nkey N1).
Proof.
  intros Hk. destruct (compare_run (empty_heap <| h_nodes := [N1; N2] |>) 0 1 N1 N2) as ([] & _ & ?); auto.
Qed.

(** * Sorting *)
Section sort.
  Context (h : heap) (W : WF h) (g : gref) (Hc : comparable h g).

  Lemma lookup_in x : in_graph h g x → ∃ X, h_nodes h !! x = Some X ∧ n_graph X = Some g.
  Proof. intros Hx. by apply in_graph_node. Qed.
  Lemma lt_run x y : in_graph h g x → in_graph h g y → node_lt h x y = Ok (bool_decide (precedes h x y)).
  Proof.
    intros Hx Hy. destruct (lookup_in x Hx) as (X & HX & _), (lookup_in y Hy) as (Y & HY & _).
    destruct (compare_run h x y X Y HX HY) as (c & Hcmp & Hk).
    { intros E. by apply (Hc x y X Y). }
    unfold node_lt. rewrite Hcmp. cbn [rbind]. f_equal. destruct c.
    - rewrite bool_decide_false; [done|]. intros (X' & Y' & HX' & HY' & Hb).
      assert (X' = X) as -> by congruence. assert (Y' = Y) as -> by congruence.
      change (key_before (nkey X) (nkey Y)) in Hb. rewrite Hk in Hb. by apply before_irrefl in Hb.
    - rewrite bool_decide_true; [done|]. by exists X, Y.
    - rewrite bool_decide_false; [done|]. intros (X' & Y' & HX' & HY' & Hb).
      assert (X' = X) as -> by congruence. assert (Y' = Y) as -> by congruence.
      by apply before_asym in Hk.
  Qed.
  Lemma precedes_total x y : in_graph h g x → in_graph h g y → x ≠ y → precedes h x y ∨ precedes h y x.
  Proof.
    intros Hx Hy Hne. destruct (lookup_in x Hx) as (X & HX & HgX), (lookup_in y Hy) as (Y & HY & HgY).
    destruct (key_total X Y) as [?|[E|?]].
    { intros E. by apply (Hc x y X Y). }
    - left. by exists X, Y.
    - destruct Hne. unfold nkey in E. injection E as _ E. by apply (WF_name_inj h g x y X Y).
    - right. by exists Y, X.
  Qed.
  Lemma precedes_irrefl x : ¬ precedes h x x.
  Proof. intros (X & Y & HX & HY & Hb). assert (X = Y) as -> by congruence. by apply before_irrefl in Hb. Qed.
  Lemma precedes_trans x y z : precedes h x y → precedes h y z → precedes h x z.
  Proof.
    intros (X & Y & HX & HY & Hb) (Y' & Z & HY' & HZ & Hb'). assert (Y' = Y) as -> by congruence.
    exists X, Z. split_and!; [done..|]. by eapply before_trans.
  Qed.

  Lemma insert_run x s : in_graph h g x → all_in h g s → StronglySorted (λ a b, ¬ precedes h b a) s →
    ∃ s', node_insert h x s = Ok s' ∧ Permutation s' (x :: s) ∧ StronglySorted (λ a b, ¬ precedes h b a) s'.
  Proof.
    intros Hx. induction s as [|y s IH]; intros Hs HS.
    - exists [x]. split_and!; [done..|]. repeat constructor.
    - apply all_in_cons in Hs as [Hy Hs]. inversion HS as [|? ? HS1 Hall]; subst. rewrite Forall_forall in Hall.
      cbn [node_insert]. rewrite lt_run by done. cbn [rbind]. case_bool_decide as Hyx.
      + destruct (IH Hs HS1) as (s' & -> & HP & HS'). cbn [rbind]. exists (y :: s'). split_and!; [done|rewrite HP; constructor|].
        constructor; [done|]. rewrite Forall_forall. intros z. rewrite HP. intros [->|Hz]%elem_of_cons; [|by apply Hall].
        intros Hxy. by apply (precedes_irrefl x), (precedes_trans x y x).
      + exists (x :: y :: s). split_and!; [done|done|]. constructor; [done|]. rewrite Forall_forall.
        intros z [->|Hz]%elem_of_cons; [done|]. intros Hzx. apply (Hall z Hz).
        destruct (decide (x = y)) as [->|Hne]; [done|].
        destruct (precedes_total x y) as [Hxy|?]; [done..| |done]. by eapply precedes_trans.
  Qed.
  Lemma sorted_run l : all_in h g l →
    ∃ s, node_sorted h l = Ok s ∧ Permutation s l ∧ StronglySorted (λ a b, ¬ precedes h b a) s.
  Proof.
    induction l as [|x l IH]; intros Hl; [exists []; split_and!; [done..|constructor]|].
    apply all_in_cons in Hl as [Hx Hl]. destruct (IH Hl) as (s & Hs & HP & HS).
    destruct (insert_run x s) as (s' & Hs' & HP' & HS'); [done| |done|].
    { intros z Hz. apply Hl. by rewrite <-HP. }
    exists s'. cbn [node_sorted]. rewrite Hs. cbn [rbind]. split_and!; [done| |done]. rewrite HP'. by constructor.
  Qed.
  Lemma sorted_same l : all_in h g l → StronglySorted (precedes h) l → node_sorted h l = Ok l.
  Proof.
    intros Hl HS. induction HS as [|x l HS IH Hx]; [done|]. apply all_in_cons in Hl as [Hgx Hl].
    cbn [node_sorted]. rewrite IH by done. cbn [rbind]. destruct l as [|y l]; [done|]. cbn [node_insert].
    apply all_in_cons in Hl as [Hgy Hl]. rewrite lt_run by done. cbn [rbind]. rewrite Forall_forall in Hx.
    rewrite bool_decide_false; [done|]. intros Hyx. eapply precedes_irrefl, precedes_trans; [apply Hyx|]. apply Hx. left.
  Qed.

  Lemma index_of_run r s : in_graph h g r → all_in h g s → r ∈ s → StronglySorted (λ a b, ¬ precedes h b a) s →
    node_index_of h r s = Ok (length (filter (λ x, precedes h x r) s)).
  Proof.
    intros Hr. induction s as [|y s IH]; intros Hs Hin HS; [by apply elem_of_nil in Hin|].
    apply all_in_cons in Hs as [Hy Hs]. inversion HS as [|? ? HS1 Hall]; subst. rewrite Forall_forall in Hall.
    cbn [node_index_of]. rewrite (node_eqb_run h W g) by done. rewrite filter_cons. case_bool_decide as Hry.
    - subst y. rewrite decide_False by apply precedes_irrefl.
      assert (filter (λ x, precedes h x r) s = []) as ->; [|done].
      destruct (filter (λ x, precedes h x r) s) as [|z l] eqn:Hf; [done|].
      assert (z ∈ filter (λ x, precedes h x r) s) as [Hz Hzs]%elem_of_list_filter by (rewrite Hf; left).
      by destruct (Hall z Hzs).
    - apply elem_of_cons in Hin as [?|Hin]; [done|]. rewrite IH by done. cbn [rbind].
      rewrite decide_True; [done|]. destruct (precedes_total r y) as [?|?]; [done..| |done]. by destruct (Hall r Hin).
  Qed.

  Lemma child_rank_run r p : in_graph h g r → in_graph h g p →
    get_child_rank h r p = if decide (r ∈ kids h p) then Ok (length (filter (λ x, precedes h x r) (kids h p))) else Err ValueError.
  Proof.
    intros Hr Hp. unfold get_child_rank. rewrite (node_children_run h W g) by done. cbn [rbind].
    assert (all_in h g (kids h p)) as Hk by (intros x; by apply kids_in).
    rewrite (node_in_run h W g) by done. unfold obj_in.
    destruct (decide (r ∈ kids h p)) as [Ha|Ha].
    - rewrite bool_decide_true by done.
      destruct (sorted_run (kids h p) Hk) as (s & -> & HP & HS). cbn [rbind].
      rewrite index_of_run; [|done| |by rewrite HP|done].
      + by rewrite HP.
      + intros x Hx. apply Hk. by rewrite <-HP.
    - by rewrite bool_decide_false.
  Qed.
End sort.

Lemma by_add_IX h : history by_add empty_heap h → WF h ∧ IX h.
Proof.
  intros Hh. split.
  - eapply reachable_WF, reachable_history. eapply history_mono; [|done]. done.
  - eapply IX_history; [|done]. intros c Hc (g & n & a & i & ->). by eapply Hc.
Qed.
Lemma IX_comparable h g : WF h → IX h → comparable h g.
Proof.
  intros W HI x y X Y (X1 & HX1 & HgX)%in_graph_node (Y1 & HY1 & HgY)%in_graph_node HX HY E; [|done..].
  assert (X1 = X) as -> by congruence. assert (Y1 = Y) as -> by congruence.
  assert (x = y) as ->.
  { destruct (lt_eq_lt_dec x y) as [[Hlt|]|Hlt]; [|done|].
    - pose proof (ix_mono _ HI x y X Y g Hlt HX HY HgX HgY). lia.
    - pose proof (ix_mono _ HI y x Y X g Hlt HY HX HgY HgX). lia. }
  assert (X = Y) as -> by congruence. by destruct (n_id Y).
Qed.
Lemma IX_precedes h g : WF h → IX h → ∀ G, h_graphs h !! g = Some G → StronglySorted (precedes h) (dvals (g_nodes G)).
Proof.
  intros W HI G HG. pose proof (ix_sorted _ HI g G HG) as HS.
  assert (∀ x, x ∈ dvals (g_nodes G) → in_graph h g x) as Hin by (intros x; by apply (elem_of_nodes h g)).
  revert HS Hin. generalize (dvals (g_nodes G)) as l0. induction 1 as [|x l HS IH Hx]; intros Hin; [constructor|].
  constructor; [apply IH; intros; apply Hin; by right|]. rewrite Forall_forall in Hx |- *. intros y Hy.
  destruct (lookup_in h W g x (Hin x ltac:(left))) as (X & HX & HgX).
  destruct (lookup_in h W g y (Hin y ltac:(by right))) as (Y & HY & HgY).
  exists X, Y. split_and!; [done..|]. left. simpl. eapply (ix_mono _ HI x y); [by apply Hx|done..].
Qed.

(** C04.  Names are pairwise distinct in every reachable graph. *)
Lemma C04_names_proof : ∀ h g G, reachable h → h_graphs h !! g = Some G → NoDup (g_nodes G).*1.
Proof. intros h g G Hr HG. apply reachable_WF in Hr as W. by apply (wf_gkeys _ W g). Qed.
(** C04.  In histories without the direct constructor Node(graph, ...): along
    graph.nodes, each node precedes every later one because its index is smaller,
    and sorted(graph.nodes) == graph.nodes. *)
Lemma C04_increasing_proof : ∀ h g G, history by_add empty_heap h → h_graphs h !! g = Some G →
  ∃ l, nodes h g = Ok l ∧ NoDup l ∧ (∀ r, r ∈ l ↔ in_graph h g r) ∧ node_sorted h l = Ok l ∧
    (∀ i j x y X Y, i < j → l !! i = Some x → l !! j = Some y → h_nodes h !! x = Some X → h_nodes h !! y = Some Y →
      (n_index X < n_index Y)%Z).
Proof.
  intros h g G [W HI]%by_add_IX HG. exists (dvals (g_nodes G)). split_and!.
  - by apply nodes_run.
  - by eapply NoDup_nodes.
  - intros r. by apply elem_of_nodes.
  - apply (sorted_same h W g); [by apply IX_comparable|intros x; by apply elem_of_nodes|by apply (IX_precedes h g)].
  - intros i j x y X Y Hij Hx Hy HX HY. pose proof (ix_sorted _ HI g G HG) as HS.
    destruct (lookup_in h W g x) as (X' & HX' & HgX). { apply (elem_of_nodes h g G); [done|]. by eapply elem_of_list_lookup_2. }
    destruct (lookup_in h W g y) as (Y' & HY' & HgY). { apply (elem_of_nodes h g G); [done|]. by eapply elem_of_list_lookup_2. }
    eapply (ix_mono _ HI x y X Y g); [|done|done|congruence|congruence].
    assert (∃ l1 l2, dvals (g_nodes G) = l1 ++ l2 ∧ x ∈ l1 ∧ y ∈ l2) as (l1 & l2 & Heq & H1 & H2).
    { exists (take j (dvals (g_nodes G))), (drop j (dvals (g_nodes G))). rewrite take_drop. split_and!; [done|..].
      - eapply elem_of_list_lookup_2 with i. by rewrite lookup_take by done.
      - eapply elem_of_list_lookup_2 with 0. by rewrite lookup_drop, Nat.add_0_r. }
    rewrite Heq in HS. by eapply elem_of_StronglySorted_app.
Qed.
(** C04.  An index is never reused: between two moments of such a history, equal
    index in the same graph means the same node object, and a node never changes
    its index. *)
Lemma C04_not_reused_proof : ∀ h h' g r r' N N', history by_add empty_heap h → history by_add h h' →
  in_graph h g r → in_graph h' g r' → h_nodes h !! r = Some N → h_nodes h' !! r' = Some N' →
  n_index N = n_index N' ↔ r = r'.
Proof.
  intros h h' g r r' N N' Hh Hh' Hr Hr' HN HN'. pose proof (by_add_IX h Hh) as [W HI].
  assert (evo (λ _, False) true h h') as He.
  { eapply evo_history; [done| |done]. intros c t Hc Ht. split; [by intros ? _ []|]. intros ->. destruct Ht as (? & ? & ? & ? & ->). by edestruct Hc. }
  assert (W' : WF h').
  { eapply reachable_WF, history_reachable; [|done]. eapply reachable_history, history_mono; [|done]. done. }
  destruct (lookup_in h W g r Hr) as (N0 & HN0 & HgN). assert (N0 = N) as -> by congruence.
  destruct (lookup_in h' W' g r' Hr') as (N0' & HN0' & HgN'). assert (N0' = N') as -> by congruence. clear HN0 HN0'.
  split.
  - intros E. destruct (h_nodes h !! r') as [M|] eqn:HM.
    + destruct (ev_node _ _ _ _ He r' M HM) as (M' & HM' & Hk). assert (M' = N') as -> by congruence.
      destruct (nk_graph _ _ _ _ Hk) as [Hg|Hg]; [|congruence]. rewrite (nk_index _ _ _ _ Hk) in E.
      destruct (lt_eq_lt_dec r r') as [[Hlt|]|Hlt]; [|done|].
      * pose proof (ix_mono _ HI r r' N M g Hlt HN HM HgN ltac:(congruence)). lia.
      * pose proof (ix_mono _ HI r' r M N g Hlt HM HN ltac:(congruence) HgN). lia.
    + pose proof Hr as (G & _ & HG & _). pose proof (ev_fresh _ _ _ _ He eq_refl r' N' g G HN' HM HgN' HG).
      pose proof (ix_lt _ HI r N g G HN HgN HG). lia.
  - intros ->. destruct (ev_node _ _ _ _ He r' N HN) as (M' & HM' & Hk). assert (M' = N') as -> by congruence.
    symmetry. apply Hk.
Qed.
(** Three nodes, the second removed, another added: index 1 is not given again. *)
Definition removal : heap := run (graph_calls ["a"; "b"; "c"] [("a", "b")] ++ [CRemoveNode 0 (an "b"); CAddNode 0 (an "b") nargs0]) empty_heap.
Lemma removal_history : history by_add empty_heap removal.
Proof. apply run_history; [constructor|vm_compute; repeat (split; [by repeat split|]); done|repeat constructor; done]. Qed.
(** The second b has index 3. *)
Lemma C04_increasing_ex_proof : history by_add empty_heap removal ∧ nodes removal 0 = Ok [0; 2; 3] ∧
  (n_index <$> h_nodes removal) = [0; 1; 2; 3]%Z ∧ (n_id <$> h_nodes removal) = [nm "a"; nm "b"; nm "c"; nm "b"].
Proof. split; [apply removal_history|]. by vm_compute. Qed.

(** C38.  Nodes with str names: the comparisons agree with the order of (index,
    name) pairs; exactly one of <, ==, > holds; <= and >= are < or == and > or ==;
    > is the converse of <; != is the negation of ==. *)
Lemma C38_comparison_proof : ∀ h x y X Y a b, h_nodes h !! x = Some X → h_nodes h !! y = Some Y →
  n_id X = NStr a → n_id Y = NStr b → ∃ lt eq gt,
    node_lt h x y = Ok lt ∧ node_eq h x y = Ok eq ∧ node_gt h x y = Ok gt ∧
    node_le h x y = Ok (lt || eq) ∧ node_ge h x y = Ok (gt || eq) ∧ node_ne h x y = Ok (negb eq) ∧ node_lt h y x = Ok gt ∧
    (lt, eq, gt) ∈ [(true, false, false); (false, true, false); (false, false, true)] ∧
    (lt = true ↔ precedes h x y) ∧ (gt = true ↔ precedes h y x) ∧ (eq = true ↔ (n_index X, a) = (n_index Y, b)).
Proof.
  intros h x y X Y a b HX HY Ha Hb.
  assert (keys_ok (nkey X) (nkey Y)) as Hk by (intros _; unfold nkey; simpl; by rewrite Ha, Hb).
  destruct (compare_run h x y X Y HX HY Hk) as (c & Hc & Hord).
  destruct (compare_run h y x Y X HY HX (keys_ok_sym _ _ Hk)) as (c' & Hc' & Hord').
  assert (Hp1 : precedes h x y ↔ key_before (nkey X) (nkey Y)).
  { split; [|by exists X, Y]. intros (X' & Y' & ? & ? & ?). by assert (X' = X) as <- by congruence; assert (Y' = Y) as <- by congruence. }
  assert (Hp2 : precedes h y x ↔ key_before (nkey Y) (nkey X)).
  { split; [|by exists Y, X]. intros (X' & Y' & ? & ? & ?). by assert (X' = Y) as <- by congruence; assert (Y' = X) as <- by congruence. }
  assert (Heq : nkey X = nkey Y ↔ (n_index X, a) = (n_index Y, b)).
  { unfold nkey. rewrite Ha, Hb. split; intros [= -> ->]; done. }
  assert (He : node_eq h x y = Ok (bool_decide (nkey X = nkey Y)) ∧ node_ne h x y = Ok (negb (bool_decide (nkey X = nkey Y)))).
  { unfold node_eq, node_ne, get_n. rewrite HX, HY. cbn [rbind]. unfold nkey, eqb. done. }
  destruct He as [He1 He2].
  exists (match c with Lt => true | _ => false end), (bool_decide (nkey X = nkey Y)), (match c with Gt => true | _ => false end).
  unfold node_lt, node_gt, node_le, node_ge. rewrite Hc, Hc', He1, He2, Hp1, Hp2, <-Heq. cbn [rbind].
  destruct c; simpl in Hord.
  - rewrite bool_decide_true by done. rewrite Hord in Hord' |- *. assert (c' = Eq) as -> by (destruct c'; [done|by apply before_irrefl in Hord'..]).
    pose proof (before_irrefl (nkey Y)). split_and!; try done. right. left.
  - rewrite bool_decide_false by (intros E; rewrite E in Hord; by apply before_irrefl in Hord).
    assert (c' = Gt) as ->.
    { destruct c'; [rewrite Hord' in Hord; by apply before_irrefl in Hord|by apply before_asym in Hord'|done]. }
    pose proof (before_asym _ _ Hord). assert (nkey X ≠ nkey Y) by (intros E; rewrite E in Hord; by apply before_irrefl in Hord).
    split_and!; try done. left.
  - rewrite bool_decide_false by (intros E; rewrite E in Hord; by apply before_irrefl in Hord).
    assert (c' = Lt) as ->.
    { destruct c'; [rewrite Hord' in Hord; by apply before_irrefl in Hord|done|by apply before_asym in Hord']. }
    pose proof (before_asym _ _ Hord). assert (nkey X ≠ nkey Y) by (intros E; rewrite E in Hord; by apply before_irrefl in Hord).
    split_and!; try done. right. right. left.
Qed.
(** C38.  < is transitive; == is an equivalence compatible with <. *)
Lemma C38_laws_proof : ∀ h x y z X Y Z a b c, h_nodes h !! x = Some X → h_nodes h !! y = Some Y → h_nodes h !! z = Some Z →
  n_id X = NStr a → n_id Y = NStr b → n_id Z = NStr c →
  (node_lt h x y = Ok true → node_lt h y z = Ok true → node_lt h x z = Ok true) ∧
  (node_eq h x y = Ok true → node_eq h y z = Ok true → node_eq h x z = Ok true) ∧
  (node_eq h x y = Ok true → node_lt h y z = Ok true → node_lt h x z = Ok true) ∧
  (node_lt h x y = Ok true → node_eq h y z = Ok true → node_lt h x z = Ok true) ∧
  node_eq h x x = Ok true ∧ (node_eq h x y = Ok true → node_eq h y x = Ok true).
Proof.
  intros h x y z X Y Z a b c HX HY HZ Ha Hb Hc.
  assert (Hlt : ∀ x y X Y a b, h_nodes h !! x = Some X → h_nodes h !! y = Some Y → n_id X = NStr a → n_id Y = NStr b →
    node_lt h x y = Ok true ↔ key_before (nkey X) (nkey Y)).
  { clear. intros x y X Y a b HX HY Ha Hb. destruct (C38_comparison_proof h x y X Y a b) as (lt & eq & gt & -> & _ & _ & _ & _ & _ & _ & _ & H & _ & _); [done..|].
    split.
    - intros [= ->]. destruct H as [H _]. destruct (H eq_refl) as (X' & Y' & ? & ? & ?). by assert (X' = X) as <- by congruence; assert (Y' = Y) as <- by congruence.
    - intros ?. f_equal. apply H. by exists X, Y. }
  assert (Heq : ∀ x y X Y, h_nodes h !! x = Some X → h_nodes h !! y = Some Y → node_eq h x y = Ok true ↔ nkey X = nkey Y).
  { clear. intros x y X Y HX HY. unfold node_eq, get_n. rewrite HX, HY. cbn [rbind]. split.
    - intros [= H]. by apply bool_decide_eq_true in H.
    - intros H. f_equal. by apply bool_decide_eq_true. }
  rewrite !(Heq x y X Y), !(Heq y z Y Z), (Heq x z X Z), (Heq x x X X), (Heq y x Y X) by done.
  rewrite (Hlt x y X Y a b), (Hlt y z Y Z b c), (Hlt x z X Z a c) by done.
  split_and!; [apply before_trans|congruence|by intros ->|by intros ? <-|done|done].
Qed.
(** C38.  Equal nodes have equal hashes (the hash is a function of the name). *)
Lemma C38_hash_proof : ∀ h x y, node_eq h x y = Ok true → ∃ k, node_hash_key h x = Ok k ∧ node_hash_key h y = Ok k.
Proof.
  intros h x y. unfold node_eq, node_hash_key, get_n. destruct (h_nodes h !! x) as [X|]; [|done]. destruct (h_nodes h !! y) as [Y|]; [|done].
  cbn [rbind]. intros [= H]. apply bool_decide_eq_true in H. injection H as _ ->. eauto.
Qed.
(** C38.  For edges the law fails: two edges without extra id between different
    nodes are neither equal nor different. *)
Lemma C38_edge_ne_refuted_proof : ∃ h e1 e2, reachable h ∧ edge_eq h e1 e2 = Ok false ∧ edge_ne h e1 e2 = Ok false.
Proof.
  exists (run (graph_calls ["a"; "b"; "c"] [("a", "b"); ("b", "c")]) empty_heap), 0, 1.
  split; [reach|]. by vm_compute.
Qed.
(** C38.  What the two operators do on two edges of one reachable graph: == compares
    (start, end, id), != only the id; they disagree exactly when the ids are equal
    and the ends are not. *)
Lemma C38_edges_partial_proof : ∀ h g e1 e2 x1 y1 x2 y2 E1 E2, reachable h → joins h g e1 x1 y1 → joins h g e2 x2 y2 →
  h_edges h !! e1 = Some E1 → h_edges h !! e2 = Some E2 →
  edge_eq h e1 e2 = Ok (bool_decide (e1 = e2)) ∧
  edge_ne h e1 e2 = Ok (negb (bool_decide (e_raw E1 = e_raw E2))) ∧
  (e1 = e2 ↔ x1 = x2 ∧ y1 = y2 ∧ e_raw E1 = e_raw E2).
Proof.
  intros h g e1 e2 x1 y1 x2 y2 E1 E2 W%reachable_WF J1 J2 H1 H2.
  pose proof (joins_id h g e1 x1 y1 W J1) as (E1' & X1 & Y1 & HE1 & HX1 & HY1 & Hi1).
  pose proof (joins_id h g e2 x2 y2 W J2) as (E2' & X2 & Y2 & HE2 & HX2 & HY2 & Hi2).
  assert (E1' = E1) as -> by congruence. assert (E2' = E2) as -> by congruence.
  assert (Hg1 : e_graph E1 = Some g) by (destruct J1 as (? & ? & ? & _); congruence).
  assert (Hg2 : e_graph E2 = Some g) by (destruct J2 as (? & ? & ? & _); congruence).
  assert (Hid : e1 = e2 ↔ (n_id X1, n_id Y1, e_raw E1) = (n_id X2, n_id Y2, e_raw E2)).
  { split; [intros ->; congruence|]. intros E. apply (has_id_inj h g e1 e2 (n_id X2, n_id Y2, e_raw E2) W).
    - rewrite <-E. by exists x1, y1, E1, X1, Y1.
    - by exists x2, y2, E2, X2, Y2. }
  split_and!.
  - unfold edge_eq. destruct (eqb e1 e2) eqn:He.
    + apply eqb_is in He. by rewrite bool_decide_true.
    + apply eqb_isnt in He. rewrite bool_decide_false by done. rewrite (get_e_Ok _ _ _ H1), (get_e_Ok _ _ _ H2). cbn [rbind].
      rewrite Hg1, Hg2, eqb_same, Hi1, Hi2. cbn [rbind]. f_equal. apply bool_decide_eq_false. by rewrite <-Hid.
  - unfold edge_ne. rewrite (get_e_Ok _ _ _ H1), (get_e_Ok _ _ _ H2). cbn [rbind]. by rewrite Hg1, Hg2, eqb_same.
  - split.
    + intros ->. destruct J1 as (? & ? & _ & ? & ?), J2 as (? & ? & _ & ? & ?). split_and!; congruence.
    + intros (-> & -> & Hraw). apply Hid. congruence.
Qed.
(** Nodes 0 and 2 of the removal example compare by index; its two nodes called b
    are different but have the same hash. *)
Lemma C38_comparison_ex_proof : node_lt removal 0 2 = Ok true ∧ node_ge removal 0 2 = Ok false ∧ node_eq removal 1 3 = Ok false ∧
  node_ne removal 1 3 = Ok true ∧ node_hash_key removal 1 = node_hash_key removal 3 ∧ precedes removal 1 3 ∧ ¬ precedes removal 3 1.
Proof. split_and!; [by vm_compute..|dec|dec]. Qed.

(** C54.  For two nodes of a reachable graph whose nodes can be compared with each
    other: if n is a child of p the rank is the number of entries of p.children that
    precede n, which is below the number of children; otherwise ValueError. *)
Lemma C54_rank_proof : ∀ h g n p, reachable h → comparable h g → in_graph h g n → in_graph h g p →
  ∃ cs, node_children h p = Ok cs ∧ (∀ x, x ∈ cs ↔ adj h g p x) ∧
    (adj h g p n → get_child_rank h n p = Ok (length (filter (λ x, precedes h x n) cs)) ∧
                   length (filter (λ x, precedes h x n) cs) < length cs) ∧
    (¬ adj h g p n → get_child_rank h n p = Err ValueError).
Proof.
  intros h g n p W%reachable_WF Hc Hn Hp. exists (kids h p).
  assert (Hk : ∀ x, x ∈ kids h p ↔ adj h g p x) by (intros; by apply elem_of_kids).
  rewrite (child_rank_run h W g Hc) by done. split_and!; [by apply (node_children_run h W g)|done|..].
  - intros Ha. apply Hk in Ha. rewrite decide_True by done. split; [done|].
    apply elem_of_list_split in Ha as (l1 & l2 & ->). rewrite filter_app, filter_cons, decide_False by apply precedes_irrefl.
    rewrite !app_length. simpl. pose proof (filter_length (λ x, precedes h x n) l1). pose proof (filter_length (λ x, precedes h x n) l2). lia.
  - intros Ha. rewrite decide_False; [done|]. by rewrite Hk.
Qed.
(** C54.  Different children have different ranks, in their order. *)
Lemma C54_distinct_proof : ∀ h g n n' p, reachable h → comparable h g → adj h g p n → adj h g p n' → n ≠ n' →
  ∃ i j, get_child_rank h n p = Ok i ∧ get_child_rank h n' p = Ok j ∧ i ≠ j ∧ (i < j ↔ precedes h n n').
Proof.
  intros h g n n' p W%reachable_WF Hc Ha Ha' Hne.
  assert (in_graph h g p ∧ in_graph h g n) as [Hp Hn] by (by apply adj_in_graph).
  assert (in_graph h g p ∧ in_graph h g n') as [_ Hn'] by (by apply adj_in_graph).
  rewrite !(child_rank_run h W g Hc) by done. rewrite !decide_True by (by apply (elem_of_kids h W g)).
  eexists _, _. split; [done|]. split; [done|].
  assert (Hlt : ∀ a b, a ∈ kids h p → precedes h a b →
    length (filter (λ x, precedes h x a) (kids h p)) < length (filter (λ x, precedes h x b) (kids h p))).
  { intros a b Hin Hab. revert Hin. assert (∀ l, length (filter (λ x, precedes h x a) l) ≤ length (filter (λ x, precedes h x b) l)) as Hle.
    { induction l as [|y l IH]; [done|]. rewrite !filter_cons. destruct (decide (precedes h y a)) as [H1|H1].
      - rewrite decide_True by (by eapply precedes_trans). simpl. lia.
      - destruct (decide (precedes h y b)); simpl; lia. }
    intros (l1 & l2 & ->)%elem_of_list_split. rewrite !filter_app, !filter_cons, !app_length.
    rewrite decide_False by apply precedes_irrefl. rewrite decide_True by done. simpl. pose proof (Hle l1). pose proof (Hle l2). lia. }
  apply (elem_of_kids h W g) in Ha; [|done]. apply (elem_of_kids h W g) in Ha'; [|done].
  destruct (precedes_total h W g Hc n n') as [Hb|Hb]; [done..| |].
  - pose proof (Hlt n n' Ha Hb). split; [lia|]. split; [done|lia].
  - pose proof (Hlt n' n Ha' Hb). split; [lia|]. split; [lia|]. intros Hb'.
    exfalso. by apply (precedes_irrefl h n), (precedes_trans h n n' n).
Qed.
(** C54.  Nodes with str names can always be compared; so can, in histories without
    the direct constructor Node(graph, ...), all nodes of one graph. *)
Lemma C54_comparable_proof : ∀ h g,
  (∀ x X, in_graph h g x → h_nodes h !! x = Some X → ∃ s, n_id X = NStr s) ∨ history by_add empty_heap h → comparable h g.
Proof.
  intros h g [Hs|[W HI]%by_add_IX]; [|by apply IX_comparable].
  intros x y X Y Hx Hy HX HY _. destruct (Hs x X Hx HX) as [a ->], (Hs y Y Hy HY) as [b ->]. done.
Qed.
(** Without that, the call may fail: two children, both with index 0, named 'x' and 1. *)
Lemma C54_incomparable_ex_proof : ∃ h n p, reachable h ∧ adj h 0 p n ∧ get_child_rank h n p = Err TypeError.
Proof.
  exists (run (graph_calls ["p"] [] ++ [CNodeCtor 0 (NStr "x") nargs0 0; CNodeCtor 0 (NInt 1) nargs0 0;
    CConnect 0 (an "p") (an "x") eargs0; CConnect 0 (an "p") (AName (NInt 1)) eargs0]) empty_heap), 1, 0.
  split; [reach_ctor|]. split; [|by vm_compute]. exists 0. eexists. split; [by vm_compute|]. by vm_compute.
Qed.
(** p has the children c, a and b, a by two edges; the ranks follow the indices. *)
Lemma C54_rank_ex_proof : ∃ h, history by_add empty_heap h ∧ node_children h 0 = Ok [3; 1; 1; 2] ∧
  get_child_rank h 1 0 = Ok 0 ∧ get_child_rank h 2 0 = Ok 2 ∧ get_child_rank h 3 0 = Ok 3 ∧ get_child_rank h 0 3 = Err ValueError.
Proof.
  exists (run (graph_calls ["p"; "a"; "b"; "c"] [("p", "c"); ("p", "a")] ++
    [CConnect 0 (an "p") (an "a") (eargs0 <| c_id := Some (nm "x") |>); CConnect 0 (an "p") (an "b") eargs0]) empty_heap).
  split; [|by vm_compute]. apply run_history; [constructor|vm_compute; repeat (split; [by repeat split|]); done|repeat constructor; done].
Qed.

(** C04, instance of the theorem on reuse: node 1 (the first b) before the removal,
    node 3 (the second b) after it. *)
Lemma C04_not_reused_ex_proof : let h := run (graph_calls ["a"; "b"; "c"] [("a", "b")]) empty_heap in
  history by_add empty_heap h ∧ history by_add h removal ∧ in_graph h 0 1 ∧ in_graph removal 0 3 ∧
  n_index <$> h_nodes h !! 1 = Some 1%Z ∧ n_index <$> h_nodes removal !! 3 = Some 3%Z.
Proof.
  intros h. split_and!; [| |by vm_compute; eexists _, (nm "b"); split; [reflexivity|right; left]|by vm_compute; eexists _, (nm "b"); split; [reflexivity|do 2 right; left]|by vm_compute..].
  - apply run_history; [constructor|vm_compute; repeat (split; [by repeat split|]); done|repeat constructor; done].
  - assert (removal = run [CRemoveNode 0 (an "b"); CAddNode 0 (an "b") nargs0] h) as -> by (by vm_compute).
    apply (run_history by_add [CRemoveNode 0 (an "b"); CAddNode 0 (an "b") nargs0]); [constructor|vm_compute; repeat (split; [by repeat split|]); done|repeat constructor; done].
Qed.
(** C38, instance of the laws: three nodes in a row; and nodes a of the two graphs of
    the sample, which are equal though different objects, with the same hash. *)
Lemma C38_laws_ex_proof : node_lt removal 0 2 = Ok true ∧ node_lt removal 2 3 = Ok true ∧ node_lt removal 0 3 = Ok true ∧
  node_eq sample 0 4 = Ok true ∧ node_lt sample 4 1 = Ok true ∧ node_lt sample 0 1 = Ok true ∧
  node_hash_key sample 0 = node_hash_key sample 4.
Proof. by vm_compute. Qed.
(** C38, instance for edges: a -> b and b -> c have no extra id; a -> b with id x has one. *)
Lemma C38_edges_ex_proof : reachable sample ∧ joins sample 0 0 0 1 ∧ joins sample 0 1 1 2 ∧ joins sample 0 3 0 1 ∧
  edge_eq sample 0 1 = Ok false ∧ edge_ne sample 0 1 = Ok false ∧ edge_eq sample 0 3 = Ok false ∧ edge_ne sample 0 3 = Ok true.
Proof. split; [apply sample_reachable|]. split_and!; try (by vm_compute); eexists; (split; [by vm_compute|by vm_compute]). Qed.
(** C54, instance: two children of p that have different ranks. *)
Lemma C54_distinct_ex_proof : let h := run (graph_calls ["p"; "a"; "b"] [("p", "b"); ("p", "a")]) empty_heap in
  reachable h ∧ comparable h 0 ∧ adj h 0 0 1 ∧ adj h 0 0 2 ∧ get_child_rank h 1 0 = Ok 0 ∧ get_child_rank h 2 0 = Ok 1.
Proof.
  intros h. split; [reach|]. split.
  - apply (C54_comparable_proof h 0). right. apply run_history; [constructor|vm_compute; repeat (split; [by repeat split|]); done|repeat constructor; done].
  - split_and!; try (by vm_compute); [exists 1|exists 0]; eexists; (split; [by vm_compute|by vm_compute]).
Qed.
