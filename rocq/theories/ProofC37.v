(** Properties C21 and C49 where they do hold: chains and forests. *)
From Verif Require Export ProofForest.
Local Open Scope string_scope.
Local Open Scope list_scope.

(** C21, partial.  Missing: nodes with several relatives on the way, and loops above the
    node.  If every node below has at most one child, the dict of descendants has exactly
    the other nodes below, each under its distance; if every node above has at most one
    parent and lies on no loop (in a forest, say), the dict of ancestors has exactly the
    nodes above, each under its distance. *)
Lemma C21_chain_partial_proof : ∀ h g x r, reachable h → denotes h g x r →
  ((∀ y c c', path0 h g r y → adj h g y c → adj h g y c' → c = c') →
   ∃ D, get_descendants_dist h g x = Ok D ∧
     ∀ k y, (∃ l, (k, l) ∈ D ∧ y ∈ l) ↔ y ≠ r ∧ distance h g k r y) ∧
  ((∀ y, path0 h g y r → ¬ on_cycle h g y ∧ ∀ p p', adj h g p y → adj h g p' y → p = p') →
   ∃ D, get_ancestors_dist h g x = Ok D ∧
     ∀ k y, (∃ l, (k, l) ∈ D ∧ y ∈ l) ↔ distance h g k y r).
Proof.
  intros h g x r W%reachable_WF Hx. pose proof (denotes_in_graph _ _ _ _ Hx) as Hr.
  pose proof (denotes_get h g x r W Hx) as Ha. split.
  - intros Hc. destruct (get_desc_spec h W g x r Ha) as (L & D & T & Hrun & _ & HL & _).
    exists D. unfold get_descendants_dist. rewrite Hrun. split; [done|].
    rewrite (get_desc_arg h W g _ x r) in Hrun by done.
    destruct (get_desc_run h W g (graph_fuel h g) r []) as [Hrun' _]; [done|apply all_in_nil|].
    rewrite Hrun' in Hrun. clear Hrun'.
    assert (Hin : ∀ y, rtc (λ x y, y ∈ kids h x) r y → in_graph h g y ∧ path0 h g r y).
    { apply rtc_ind_r; [split; [done|constructor]|]. intros y z _ Hyz [Hy Hp].
      apply (elem_of_kids h W g) in Hyz; [|done]. split; [by destruct (adj_in_graph h g y z)|by eapply rtc_r]. }
    assert (Hu : ∀ y z z', rtc (λ x y, y ∈ kids h x) r y → z ∈ kids h y → z' ∈ kids h y → z = z').
    { intros y z z' (Hy & Hp)%Hin Hz Hz'. apply (elem_of_kids h W g) in Hz, Hz'; [|done..]. by eapply Hc. }
    destruct (chain_dfs (kids h) false r) with (fuel := graph_fuel h g) (o := r) (T := @nil nref) (out := (L, D, T))
      as (Hch & Hnd & _ & _ & HD); [| |constructor|done|apply not_elem_of_nil|done|].
    { exact Hu. }
    { done. }
    apply NoDup_cons in Hnd as [HrL Hnd].
    assert (Hwalk : ∀ i y, L !! i = Some y → distance h g (S i) r y).
    { intros i y Hi. pose proof (chained_step (kids h) r L i y Hch Hi) as Hs. apply (nsteps_kids h W g) in Hs; [|done].
      split_and!; [lia|done|]. intros m Hm Hw. destruct (decide (S i ≤ m)) as [?|Hlt]; [done|]. exfalso.
      destruct m as [|m]; [lia|]. assert (is_Some (L !! m)) as [z Hz] by (apply lookup_lt_is_Some; apply lookup_lt_Some in Hi; lia).
      assert (z = y) as ->.
      { apply (chained_walk (kids h) r Hu r L m z y); [constructor|done|done|]. by apply (nsteps_kids h W g). }
      pose proof (NoDup_lookup _ _ _ _ Hnd Hi Hz). lia. }
    intros k y. split.
    + intros (l & Hk & Hy). destruct HD as [->|[_ ->]].
      * apply elem_chain_dict in Hk as (i & z & Hi & -> & ->). apply elem_of_list_singleton in Hy as ->.
        split; [|by apply Hwalk]. intros ->. apply HrL. by eapply elem_of_list_lookup_2.
      * apply elem_of_list_singleton in Hk. simplify_eq. by apply elem_of_nil in Hy.
    + intros [Hne Hd]. assert (y ∈ L) as Hy.
      { apply HL. split; [|done]. destruct Hd as (? & Hw & _). apply tc_nsteps. exists k. split; [lia|done]. }
      apply elem_of_list_lookup in Hy as (i & Hi). pose proof (Hwalk i y Hi) as Hd'. exists [y]. split; [|by left].
      destruct HD as [->|[-> _]]; [|done]. apply elem_chain_dict. exists i, y. split_and!; [done| |done].
      destruct Hd as (? & ? & Hd), Hd' as (? & ? & Hd'). apply Nat.le_antisymm; [by apply Hd|by apply Hd'].
  - intros Hc. destruct (get_anc_spec h W g x r Ha) as (L & D & T & Hrun & _ & HL & _).
    exists D. unfold get_ancestors_dist. rewrite Hrun. split; [done|].
    rewrite (get_anc_arg h W g _ x r) in Hrun by done.
    destruct (get_anc_run h W g (graph_fuel h g) r []) as [Hrun' _]; [done|apply all_in_nil|].
    rewrite Hrun' in Hrun. clear Hrun'.
    assert (Hin : ∀ y, rtc (λ x y, y ∈ pars h x) r y → in_graph h g y ∧ path0 h g y r).
    { apply rtc_ind_r; [split; [done|constructor]|]. intros y z _ Hyz [Hy Hp].
      apply (elem_of_pars h W g) in Hyz; [|done]. split; [by destruct (adj_in_graph h g z y)|by eapply rtc_l]. }
    assert (Hu : ∀ y z z', rtc (λ x y, y ∈ pars h x) r y → z ∈ pars h y → z' ∈ pars h y → z = z').
    { intros y z z' (Hy & Hp)%Hin Hz Hz'. apply (elem_of_pars h W g) in Hz, Hz'; [|done..]. by eapply Hc. }
    destruct (chain_dfs (pars h) true r) with (fuel := graph_fuel h g) (o := r) (T := @nil nref) (out := (L, D, T))
      as (Hch & Hnd & _ & _ & HD).
    { exact Hu. }
    { intros _ y (Hy & Hp)%Hin Hcy. apply (tc_pars h W g) in Hcy; [|done]. by destruct (Hc y Hp) as [? _]. }
    { constructor. }
    { intros _ y _. apply not_elem_of_nil. }
    { apply not_elem_of_nil. }
    { done. }
    apply NoDup_cons in Hnd as [HrL Hnd].
    assert (Hwalk : ∀ i y, L !! i = Some y → distance h g (S i) y r).
    { intros i y Hi. pose proof (chained_step (pars h) r L i y Hch Hi) as Hs. apply (nsteps_pars h W g) in Hs; [|done].
      split_and!; [lia|done|]. intros m Hm Hw. destruct (decide (S i ≤ m)) as [?|Hlt]; [done|]. exfalso.
      destruct m as [|m]; [lia|]. assert (is_Some (L !! m)) as [z Hz] by (apply lookup_lt_is_Some; apply lookup_lt_Some in Hi; lia).
      assert (z = y) as ->.
      { apply (chained_walk (pars h) r Hu r L m z y); [constructor|done|done|]. by apply (nsteps_pars h W g). }
      pose proof (NoDup_lookup _ _ _ _ Hnd Hi Hz). lia. }
    intros k y. split.
    + intros (l & Hk & Hy). destruct HD as [->|[_ ->]].
      * apply elem_chain_dict in Hk as (i & z & Hi & -> & ->). apply elem_of_list_singleton in Hy as ->. by apply Hwalk.
      * apply elem_of_list_singleton in Hk. simplify_eq. by apply elem_of_nil in Hy.
    + intros Hd. assert (y ∈ L) as Hy.
      { apply HL. destruct Hd as (? & Hw & _). apply tc_nsteps. exists k. split; [lia|done]. }
      apply elem_of_list_lookup in Hy as (i & Hi). pose proof (Hwalk i y Hi) as Hd'. exists [y]. split; [|by left].
      destruct HD as [->|[-> _]]; [|done]. apply elem_chain_dict. exists i, y. split_and!; [done| |done].
      destruct Hd as (? & ? & Hd), Hd' as (? & ? & Hd'). apply Nat.le_antisymm; [by apply Hd|by apply Hd'].
Qed.
(** The graph with edges a->b, b->a, a->c. *)
Definition rho : heap := Eval vm_compute in run (graph_calls ["a"; "b"; "c"] [("a", "b"); ("b", "a"); ("a", "c")]) empty_heap.
Lemma rho_reachable : reachable rho.
Proof. change rho with (run (graph_calls ["a"; "b"; "c"] [("a", "b"); ("b", "a"); ("a", "c")]) empty_heap). reach. Qed.
(** C21 is false with a loop above the node, even if every node has one parent: with
    edges a->b, b->a, a->c the dict of ancestors of c has a at distance 1 and at 3. *)
Lemma C21_distance_loop_refuted_proof : ∃ h g r y D, reachable h ∧ in_graph h g r ∧
  (∀ z p p', adj h g p z → adj h g p' z → p = p') ∧
  get_ancestors_dist h g (ANode r) = Ok D ∧ distance h g 1 y r ∧ (1, [y]) ∈ D ∧ (3, [y]) ∈ D.
Proof.
  exists rho, 0, 2, 0, [(1, [0]); (2, [1]); (3, [0])].
  split; [apply rho_reachable|].
  assert (Hadj : ∀ x y, adj rho 0 x y → (x, y) ∈ [(0, 1); (1, 0); (0, 2)]).
  { intros x y (e & E & HE & _ & Hx & Hy). destruct e as [|[|[|e]]]; [| | |done]; injection HE as <-; vm_compute in Hx, Hy; simplify_eq; dec. }
  split_and!.
  - eexists _, (nm "c"). split; [vm_compute; reflexivity|]. do 2 right. left.
  - intros z p p' Hc%Hadj Hc'%Hadj.
    repeat (apply elem_of_cons in Hc as [[= -> ->]|Hc]; [repeat (apply elem_of_cons in Hc' as [Hq|Hc']; [by simplify_eq|]); by apply elem_of_nil in Hc'|]).
    by apply elem_of_nil in Hc.
  - by vm_compute.
  - split; [lia|]. split; [|intros; lia]. apply nsteps_once. eexists 2, _. split; [vm_compute; reflexivity|done].
  - left.
  - do 2 right. left.
Qed.
(** The tree a -> b -> d, a -> c -> e: the ancestors of d and the descendants of b. *)
Lemma C21_chain_ex_proof : reachable vee ∧ denotes vee 0 (an "d") 3 ∧ denotes vee 0 (an "b") 1 ∧
  (∀ y c c', path0 vee 0 1 y → adj vee 0 y c → adj vee 0 y c' → c = c') ∧
  (∀ y, path0 vee 0 y 3 → ¬ on_cycle vee 0 y ∧ ∀ p p', adj vee 0 p y → adj vee 0 p' y → p = p') ∧
  get_descendants_dist vee 0 (an "b") = Ok [(1, [3])] ∧ get_ancestors_dist vee 0 (an "d") = Ok [(1, [1]); (2, [0])].
Proof.
  assert (Hadj : ∀ x y, adj vee 0 x y → (x, y) ∈ [(0, 1); (0, 2); (1, 3); (2, 4)]).
  { intros x y (e & E & HE & _ & Hx & Hy). destruct e as [|[|[|[|e]]]]; [| | | |done]; injection HE as <-; vm_compute in Hx, Hy; simplify_eq; dec. }
  assert (Hlt : ∀ x y, adj vee 0 x y → x < y).
  { intros x y Hxy%Hadj. repeat (apply elem_of_cons in Hxy as [[= -> ->]|Hxy]; [lia|]). by apply elem_of_nil in Hxy. }
  assert (Hp : ∀ x y, path vee 0 x y → x < y) by (intros x y Hp; induction Hp; [by apply Hlt|]; apply Hlt in H; lia).
  split; [apply vee_reachable|]. split_and!; [| | | |by vm_compute..].
  - exists (nm "d"). split; [|by left]. eexists. split; [done|]. do 3 right. left.
  - exists (nm "b"). split; [|by left]. eexists. split; [done|]. do 1 right. left.
  - intros y c c' Hy. assert (1 ≤ y) as Hy1 by (apply rtc_tc in Hy as [->|?%Hp]; lia). intros Hc%Hadj Hc'%Hadj.
    repeat (apply elem_of_cons in Hc as [[= -> ->]|Hc]; [lia || (repeat (apply elem_of_cons in Hc' as [Hq|Hc']; [by simplify_eq|]); by apply elem_of_nil in Hc')|]).
    by apply elem_of_nil in Hc.
  - intros y _. split; [intros ?%Hp; lia|]. intros p p' Hc%Hadj Hc'%Hadj.
    repeat (apply elem_of_cons in Hc as [[= -> ->]|Hc]; [repeat (apply elem_of_cons in Hc' as [Hq|Hc']; [by simplify_eq|]); by apply elem_of_nil in Hc'|]).
    by apply elem_of_nil in Hc.
Qed.

(** C49, partial.  Missing: objects that are reached in several ways.  If no object below
    [o] except [o] itself is the child of two objects below, the limit is exact: listed
    are exactly the other objects at most [d] steps away. *)
Lemma C49_forest_partial_proof : ∀ (Obj : Type) (dec_eq : EqDecision Obj) (next : Obj → list Obj) (o : Obj) d fuel,
  (∀ x y z, rtc (λ x y, y ∈ next x) o x → rtc (λ x y, y ∈ next x) o y → z ∈ next x → z ∈ next y → z ≠ o → x = y) →
  (0 <= d)%Z → Z.to_nat d < fuel →
  ∃ L, obj_relatives fuel next (Some d) o = Ok L ∧ NoDup L ∧
    ∀ x, x ∈ L ↔ x ≠ o ∧ ∃ k, 1 ≤ k ≤ Z.to_nat d ∧ nsteps (λ x y, y ∈ next x) k o x.
Proof.
  intros Obj dec_eq next o d fuel Hu Hd Hf.
  destruct (lim_dfs next fuel d o [] Hd Hf) as ([[L D] T] & Hrun & HL & _ & _ & HLi & _ & _); [apply not_elem_of_nil|].
  destruct (forest_dfs next o Hu fuel d 0 o [] Hd Hf) as ([[L' D'] T'] & Hrun' & _ & _ & Hcov);
    [constructor|intros; apply not_elem_of_nil|by left|].
  rewrite Hrun in Hrun'. injection Hrun' as <- <- <-.
  exists L. unfold obj_relatives. rewrite Hrun. split_and!; [done..|]. intros x. split.
  - intros (_ & ? & ?)%HLi. done.
  - intros (Hx & k & Hk & Hw). destruct (below_walk next o k x Hw Hx) as (k' & ? & ?). eapply (Hcov k'); [lia|done].
Qed.
(** The tree 0 -> 1, 2; 1 -> 3, 4; 3 -> 0 with a loop through the root. *)
Definition next_tree (n : nat) : list nat := match n with 0 => [1; 2] | 1 => [3; 4] | 3 => [0; 5] | _ => [] end.
(** Two steps from the root of a tree with a loop back to it. *)
Lemma C49_forest_ex_proof : (∀ x y z, rtc (λ x y, y ∈ next_tree x) 0 x → rtc (λ x y, y ∈ next_tree x) 0 y →
    z ∈ next_tree x → z ∈ next_tree y → z ≠ 0 → x = y) ∧
  obj_relatives 9 next_tree (Some 2%Z) 0 = Ok [1; 3; 4; 2].
Proof.
  split; [|by vm_compute]. intros x y z _ _ Hx Hy Hz.
  destruct x as [|[|[|[|x]]]], y as [|[|[|[|y]]]]; vm_compute in Hx, Hy; try done;
  repeat (apply elem_of_cons in Hx as [->|Hx]; [repeat (apply elem_of_cons in Hy as [Hy|Hy]; [done|]); by apply elem_of_nil in Hy|]); by apply elem_of_nil in Hx.
Qed.
