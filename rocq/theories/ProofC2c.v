(** Properties C19, C21, C48-C50: siblings, distances, plain objects, membership. *)
From Verif Require Export ProofC2b.
Local Open Scope string_scope.
Local Open Scope list_scope.

Section relatives.
  Context (h : heap) (W : WF h) (g : gref) (self : nref) (Hself : in_graph h g self).
  (** the elements of [l] other than [self] *)
  Definition others (l : list nref) : list nref := filter (λ x, x ≠ self) l.

  Lemma add_relative_run l acc : all_in h g l → all_in h g acc →
    fold_left (add_relative h self) l acc = fold_left add_new (others l) acc ∧ all_in h g (fold_left add_new (others l) acc).
  Proof.
    revert acc. induction l as [|x l IH]; intros acc Hl Hacc; [done|]. apply all_in_cons in Hl as [Hx Hl]. cbn [fold_left].
    unfold others. rewrite filter_cons. unfold add_relative at 2.
    rewrite (node_in_run h W g), (node_eqb_run h W g x self) by done.
    destruct (decide (x ≠ self)) as [Hne|Heq].
    - rewrite bool_decide_false by done. cbn [fold_left]. unfold add_new at 2 4. unfold obj_in.
      destruct (decide (x ∈ acc)).
      + rewrite bool_decide_true by done. by apply IH.
      + rewrite bool_decide_false by done. apply IH; [done|]. apply all_in_app; [done|by apply all_in_one].
    - apply dec_stable in Heq as ->. rewrite (bool_decide_true (self = self)) by done.
      destruct (obj_in self acc); by apply IH.
  Qed.
  Lemma relatives_run (f : nref → res (list nref)) (p : nref → list nref) l acc :
    (∀ x, x ∈ l → f x = Ok (p x) ∧ all_in h g (p x)) → all_in h g acc →
    rfold (λ acc x, let! cs := f x in Ok (fold_left (add_relative h self) cs acc)) acc l =
      Ok (fold_left add_new (others (l ≫= p)) acc).
  Proof.
    revert acc. induction l as [|x l IH]; intros acc Hf Hacc; [done|]. cbn [rfold].
    destruct (Hf x) as [-> Hp]; [left|]. cbn [rbind]. destruct (add_relative_run (p x) acc Hp Hacc) as [-> Hin].
    rewrite IH; [|intros; apply Hf; by right|done]. f_equal.
    change ((x :: l) ≫= p) with (p x ++ (l ≫= p)). unfold others. by rewrite filter_app, fold_left_app.
  Qed.

  (** the dict variant *)
  Definition keyed (d : dict name nref) : Prop :=
    ∀ k r, (k, r) ∈ d → in_graph h g r ∧ ∃ N, h_nodes h !! r = Some N ∧ n_id N = k.
  Lemma keyed_mem d x N : keyed d → in_graph h g x → h_nodes h !! x = Some N → dmem d (n_id N) = bool_decide (x ∈ dvals d).
  Proof.
    intros Hd Hx HN. destruct (dmem d (n_id N)) eqn:Hm; symmetry.
    - apply bool_decide_true. apply dmem_true in Hm. apply elem_of_dkeys in Hm as (r & Hr). apply elem_of_dvals.
      destruct (Hd _ _ Hr) as (Hrg & N' & HN' & Hid).
      assert (r = x) as ->; [|eauto]. destruct (in_graph_lookup h W g x Hx) as (N0 & HN0 & Hg0). destruct (in_graph_lookup h W g r Hrg) as (N1 & HN1 & Hg1).
      apply (WF_name_inj h g r x N1 N0); congruence || done.
    - apply bool_decide_false. apply dmem_false in Hm. intros (k & Hk)%elem_of_dvals. destruct (Hd _ _ Hk) as (_ & N' & ? & ?).
      apply Hm. apply elem_of_dkeys. assert (N' = N) as -> by congruence. subst k. eauto.
  Qed.
  Lemma add_relative_dict_run l d : all_in h g l → keyed d →
    ∃ d', rfold (add_relative_dict h self) d l = Ok d' ∧ keyed d' ∧ dvals d' = fold_left add_new (others l) (dvals d).
  Proof.
    revert d. induction l as [|x l IH]; intros d Hl Hd; [by exists d|]. apply all_in_cons in Hl as [Hx Hl]. cbn [rfold].
    unfold add_relative_dict at 1. destruct (in_graph_lookup h W g x Hx) as (N & HN & Hg). rewrite (get_n_Ok _ _ _ HN). cbn [rbind].
    rewrite (keyed_mem d x N) by done. rewrite (node_eqb_run h W g x self) by done. unfold others. rewrite filter_cons.
    destruct (decide (x ≠ self)) as [Hne|Heq].
    - rewrite (bool_decide_false (x = self)) by done. cbn [fold_left]. unfold add_new at 2. destruct (decide (x ∈ dvals d)) as [Hxd|Hxd].
      + rewrite bool_decide_true by done. cbn [rbind]. by apply IH.
      + rewrite bool_decide_false by done. cbn [rbind].
        assert (n_id N ∉ dkeys d) as Hf by (apply dmem_false; rewrite (keyed_mem d x N) by done; by apply bool_decide_false).
        rewrite dset_fresh by done. destruct (IH (d ++ [(n_id N, x)])) as (d' & Hd' & ? & Hv); [done| |].
        * intros k r [?|[= -> ->]%elem_of_list_singleton]%elem_of_app; [by apply Hd|]. eauto.
        * exists d'. split_and!; [done..|]. rewrite Hv, dvals_app. done.
    - apply dec_stable in Heq as ->. rewrite (bool_decide_true (self = self)) by done.
      destruct (bool_decide (self ∈ dvals d)); cbn [rbind]; by apply IH.
  Qed.
  Lemma relatives_dict_run (f : nref → res (list nref)) (p : nref → list nref) l d :
    (∀ x, x ∈ l → f x = Ok (p x) ∧ all_in h g (p x)) → keyed d →
    ∃ d', rfold (λ acc x, let! cs := f x in rfold (add_relative_dict h self) acc cs) d l = Ok d' ∧
      dvals d' = fold_left add_new (others (l ≫= p)) (dvals d).
  Proof.
    revert d. induction l as [|x l IH]; intros d Hf Hd; [by exists d|]. cbn [rfold].
    destruct (Hf x) as [-> Hp]; [left|]. cbn [rbind]. destruct (add_relative_dict_run (p x) d Hp Hd) as (d1 & -> & Hd1 & Hv1).
    cbn [rbind]. destruct (IH d1) as (d' & Hd' & Hv); [intros; apply Hf; by right|done|].
    exists d'. split; [done|]. rewrite Hv, Hv1.
    change ((x :: l) ≫= p) with (p x ++ (l ≫= p)). unfold others. by rewrite filter_app, fold_left_app.
  Qed.
End relatives.

(** C19.  siblings: exactly the other nodes with a common parent, listed once; the
    two implementations give the same list. *)
Lemma C19_siblings_proof : ∀ h g x r, reachable h → denotes h g x r →
  ∃ L, get_siblings h g x = Ok L ∧ node_siblings h r = Ok L ∧
    num_siblings h g x = Ok (length L) ∧ has_siblings h g x = Ok (bool_decide (L ≠ [])) ∧ NoDup L ∧
    ∀ y, y ∈ L ↔ y ≠ r ∧ ∃ p, adj h g p r ∧ adj h g p y.
Proof.
  intros h g x r W%reachable_WF Hx. pose proof (denotes_in_graph _ _ _ _ Hx) as Hr.
  set (L := nub (others r (pars h r ≫= kids h))).
  assert (Hp : ∀ p, p ∈ pars h r → in_graph h g p) by (intros p; by apply pars_in).
  assert (H1 : get_siblings h g x = Ok L).
  { unfold get_siblings. rewrite (denotes_get h g x r) by done. cbn [rbind]. rewrite (get_parents_node h W) by done. cbn [rbind].
    apply (relatives_run h W g r Hr); [|apply all_in_nil]. intros p Hpp. split; [apply get_children_node; auto|]. intros c. apply (kids_in h W); auto. }
  assert (H2 : num_siblings h g x = Ok (length L)) by (unfold num_siblings; by rewrite H1).
  exists L. split_and!.
  - done.
  - unfold node_siblings. rewrite (node_parents_run h W g) by done. cbn [rbind].
    destruct (relatives_dict_run h W g r Hr (node_children h) (kids h) (pars h r) []) as (d & -> & Hd).
    + intros p Hpp. split; [apply (node_children_run h W g); auto|]. intros c. apply (kids_in h W); auto.
    + by intros ? ? ?%elem_of_nil.
    + cbn [rbind]. by rewrite Hd.
  - done.
  - unfold has_siblings. rewrite H2. cbn [rbind]. f_equal. destruct L; [by rewrite bool_decide_false; [|naive_solver]|by rewrite bool_decide_true].
  - apply NoDup_nub.
  - intros y. unfold L. rewrite elem_of_nub. unfold others. rewrite elem_of_list_filter, elem_of_list_bind.
    apply and_iff_compat_l. split.
    + intros (p & Hy & Hpp). exists p. split; [by apply (elem_of_pars h W g)|]. apply (elem_of_kids h W g); auto.
    + intros (p & Hpr & Hpy). exists p. assert (in_graph h g p) by (by destruct (adj_in_graph h g p r)).
      split; [by apply (elem_of_kids h W g)|by apply (elem_of_pars h W g)].
Qed.
(** C19.  co-parents (spouses): exactly the other nodes with a common child. *)
Lemma C19_co_parents_proof : ∀ h g x r, reachable h → denotes h g x r →
  ∃ L, get_spouses h g x = Ok L ∧ node_co_parents h r = Ok L ∧
    num_spouses h g x = Ok (length L) ∧ has_spouses h g x = Ok (bool_decide (L ≠ [])) ∧ NoDup L ∧
    ∀ y, y ∈ L ↔ y ≠ r ∧ ∃ c, adj h g r c ∧ adj h g y c.
Proof.
  intros h g x r W%reachable_WF Hx. pose proof (denotes_in_graph _ _ _ _ Hx) as Hr.
  set (L := nub (others r (kids h r ≫= pars h))).
  assert (Hp : ∀ p, p ∈ kids h r → in_graph h g p) by (intros p; by apply kids_in).
  assert (H1 : get_spouses h g x = Ok L).
  { unfold get_spouses. rewrite (denotes_get h g x r) by done. cbn [rbind]. rewrite (get_children_node h W) by done. cbn [rbind].
    apply (relatives_run h W g r Hr); [|apply all_in_nil]. intros p Hpp. split; [apply get_parents_node; auto|]. intros c. apply (pars_in h W); auto. }
  assert (H2 : num_spouses h g x = Ok (length L)) by (unfold num_spouses; by rewrite H1).
  exists L. split_and!.
  - done.
  - unfold node_co_parents. rewrite (node_children_run h W g) by done. cbn [rbind].
    destruct (relatives_dict_run h W g r Hr (node_parents h) (pars h) (kids h r) []) as (d & -> & Hd).
    + intros p Hpp. split; [apply (node_parents_run h W g); auto|]. intros c. apply (pars_in h W); auto.
    + by intros ? ? ?%elem_of_nil.
    + cbn [rbind]. by rewrite Hd.
  - done.
  - unfold has_spouses. rewrite H2. cbn [rbind]. f_equal. destruct L; [by rewrite bool_decide_false; [|naive_solver]|by rewrite bool_decide_true].
  - apply NoDup_nub.
  - intros y. unfold L. rewrite elem_of_nub. unfold others. rewrite elem_of_list_filter, elem_of_list_bind.
    apply and_iff_compat_l. split.
    + intros (p & Hy & Hpp). exists p. split; [by apply (elem_of_kids h W g)|]. apply (elem_of_pars h W g); auto.
    + intros (p & Hpr & Hpy). exists p. assert (in_graph h g p) by (by destruct (adj_in_graph h g r p)).
      split; [by apply (elem_of_pars h W g)|by apply (elem_of_kids h W g)].
Qed.
(** In the sample, b and c are siblings (parent c), a and c are co-parents of b. *)
Lemma C19_siblings_ex_proof : reachable sample ∧ denotes sample 0 (an "c") 2 ∧
  get_siblings sample 0 (an "c") = Ok [1] ∧ get_spouses sample 0 (an "c") = Ok [0; 1].
Proof.
  split; [apply sample_reachable|]. split_and!; [|by vm_compute..].
  exists (nm "c"). split; [|by left]. eexists. split; [done|]. by do 2 right; left.
Qed.

(** * distances *)
(** C21, partial.  Missing: an entry need not be at the shortest distance, and a
    relative may be missing from the dict.  What holds: every entry [y] under [k] is
    a relative at the end of a walk of exactly [k] edges. *)
Lemma C21_distance_partial_proof : ∀ h g x r, reachable h → denotes h g x r →
  (∃ D, get_descendants_dist h g x = Ok D ∧
     ∀ k l y, (k, l) ∈ D → y ∈ l → 1 ≤ k ∧ walk h g k r y ∧ y ≠ r) ∧
  (∃ D, get_ancestors_dist h g x = Ok D ∧
     ∀ k l y, (k, l) ∈ D → y ∈ l → 1 ≤ k ∧ walk h g k y r).
Proof.
  intros h g x r W%reachable_WF Hx. split.
  - destruct (get_desc_spec h W g x r) as (L & D & T & Hrun & _ & HL & HD); [by apply denotes_get|].
    exists D. unfold get_descendants_dist. rewrite Hrun. split; [done|]. intros k l y Hk Hy.
    destruct (HD k l y Hk Hy) as (? & ? & Hy'). by apply HL in Hy' as [_ ?].
  - destruct (get_anc_spec h W g x r) as (L & D & T & Hrun & _ & HL & HD); [by apply denotes_get|].
    exists D. unfold get_ancestors_dist. rewrite Hrun. split; [done|]. intros k l y Hk Hy.
    by destruct (HD k l y Hk Hy) as (? & ? & Hy').
Qed.
Definition triangle : heap := Eval vm_compute in run (graph_calls ["a"; "b"; "c"] [("a", "b"); ("b", "c"); ("a", "c")]) empty_heap.
Lemma triangle_reachable : reachable triangle.
Proof. change triangle with (run (graph_calls ["a"; "b"; "c"] [("a", "b"); ("b", "c"); ("a", "c")]) empty_heap). reach. Qed.
Definition vee : heap := Eval vm_compute in run (graph_calls ["a"; "b"; "c"; "d"; "e"] [("a", "b"); ("a", "c"); ("b", "d"); ("c", "e")]) empty_heap.
Lemma vee_reachable : reachable vee.
Proof. change vee with (run (graph_calls ["a"; "b"; "c"; "d"; "e"] [("a", "b"); ("a", "c"); ("b", "d"); ("c", "e")]) empty_heap). reach. Qed.
(** C21 is false: with edges a->b, b->c, a->c the child c of a is reported at
    distance 2 and not at 1. *)
Lemma C21_distance_refuted_proof : ∃ h g r y D, reachable h ∧ in_graph h g r ∧
  get_descendants_dist h g (ANode r) = Ok D ∧ distance h g 1 r y ∧ (2, [y]) ∈ D ∧ (∀ l, (1, l) ∈ D → y ∉ l).
Proof.
  exists triangle, 0, 0, 2, [(1, [1]); (2, [2])]. split_and!.
  - apply triangle_reachable.
  - eexists _, (nm "a"). split; [done|]. left.
  - by vm_compute.
  - split_and!; [done| |lia]. apply nsteps_once. by exists 2; eexists.
  - right. left.
  - intros l [[= ->]|[[=]|[]%elem_of_nil]%elem_of_cons]%elem_of_cons. dec.
Qed.
(** C21 is false on a tree too: with edges a->b, a->c, b->d, c->e the grandchild d
    of a is not in the dict at all. *)
Lemma C21_distance_tree_refuted_proof : ∃ h g r y D, reachable h ∧ in_graph h g r ∧
  get_descendants_dist h g (ANode r) = Ok D ∧ walk h g 2 r y ∧ ∀ k l, (k, l) ∈ D → y ∉ l.
Proof.
  exists vee, 0, 0, 3, [(1, [1; 2]); (2, [4])]. split_and!.
  - apply vee_reachable.
  - eexists _, (nm "a"). split; [done|]. left.
  - by vm_compute.
  - apply nsteps_l with 1; [by exists 0; eexists|]. apply nsteps_once. by exists 2; eexists.
  - intros k l [[= -> ->]|[[= -> ->]|[]%elem_of_nil]%elem_of_cons]%elem_of_cons; dec.
Qed.
(** The dicts of the sample. *)
Lemma C21_distance_ex_proof : reachable sample ∧ denotes sample 0 (an "a") 0 ∧
  get_descendants_dist sample 0 (an "a") = Ok [(1, [1]); (2, [2])].
Proof.
  split; [apply sample_reachable|]. split_and!; [|by vm_compute..].
  exists (nm "a"). split; [|by left]. eexists. split; [done|]. left.
Qed.

(** * plain objects *)
(** C48.  get_descendants (with [next] = __children__) and get_ancestors (with
    [next] = __parents__) on objects: with a finite set [U] of objects closed under
    [next], every recursion depth from the size of [U] on gives a result, and it
    lists exactly the other objects that can be reached. *)
Lemma C48_objects_proof : ∀ (Obj : Type) (dec_eq : EqDecision Obj) (next : Obj → list Obj) (U : list Obj) (o : Obj) fuel,
  o ∈ U → (∀ x y, x ∈ U → y ∈ next x → y ∈ U) → length U ≤ fuel →
  ∃ L D, obj_relatives fuel next None o = Ok L ∧ obj_relatives_dist fuel next None o = Ok D ∧ NoDup L ∧
    (∀ x, x ∈ L ↔ tc (λ x y, y ∈ next x) o x ∧ x ≠ o) ∧
    (∀ k l x, (k, l) ∈ D → x ∈ l → 1 ≤ k ∧ nsteps (λ x y, y ∈ next x) k o x ∧ x ≠ o).
Proof.
  intros Obj dec_eq next U o fuel Ho HU Hf.
  destruct (gdfs_top next false U HU fuel o Ho Hf) as (L & D & T & Hrun & HL & _ & HLi & HD).
  exists L, D. unfold obj_relatives, obj_relatives_dist. rewrite obj_dfs_gdfs, Hrun. split_and!; try done.
  intros k l x Hk Hx. destruct (HD k l x Hk Hx) as (? & ? & Hxl). by apply HLi in Hxl as [_ ?].
Qed.
(** The numbers 0..9 with 0 -> 1 -> 2 -> 0 and 1 -> 3. *)
Definition next_ex (n : nat) : list nat := match n with 0 => [1; 1] | 1 => [2; 3] | 2 => [0] | _ => [] end.
(** A cyclic object graph. *)
Lemma C48_objects_ex_proof : (0 ∈ [0; 1; 2; 3] ∧ ∀ x y, x ∈ [0; 1; 2; 3] → y ∈ next_ex x → y ∈ [0; 1; 2; 3]) ∧
  obj_relatives 4 next_ex None 0 = Ok [1; 2; 3].
Proof.
  split; [|by vm_compute]. split; [left|]. intros x y Hx.
  repeat (apply elem_of_cons in Hx as [->|Hx]; [revert y; apply (Forall_forall (λ y, y ∈ [0; 1; 2; 3])); dec|]).
  by apply elem_of_nil in Hx.
Qed.

(** C49, partial.  Missing: completeness, an object within reach may be left out.
    What holds: every listed object is another object at most [d] steps away, listed
    once; with [d] at least 1 all children are listed; the distance entries are
    within [d] too. *)
Lemma C49_max_depth_partial_proof : ∀ (Obj : Type) (dec_eq : EqDecision Obj) (next : Obj → list Obj) (o : Obj) d fuel,
  (0 <= d)%Z → Z.to_nat d < fuel →
  ∃ L D, obj_relatives fuel next (Some d) o = Ok L ∧ obj_relatives_dist fuel next (Some d) o = Ok D ∧ NoDup L ∧
    (∀ x, x ∈ L → x ≠ o ∧ ∃ k, 1 ≤ k ≤ Z.to_nat d ∧ nsteps (λ x y, y ∈ next x) k o x) ∧
    (∀ x, 1 ≤ Z.to_nat d → x ∈ next o → x ≠ o → x ∈ L) ∧
    (∀ k l x, (k, l) ∈ D → x ∈ l → 1 ≤ k ≤ Z.to_nat d ∧ nsteps (λ x y, y ∈ next x) k o x ∧ x ∈ L).
Proof.
  intros Obj dec_eq next o d fuel Hd Hf.
  destruct (lim_dfs next fuel d o [] Hd Hf) as ([[L D] T] & Hrun & HL & _ & _ & HLi & Hcov & HD); [apply not_elem_of_nil|].
  exists L, D. unfold obj_relatives, obj_relatives_dist. rewrite Hrun. split_and!; try done.
  - intros x Hx. by destruct (HLi x Hx) as (_ & ? & ?).
  - intros x H1 Hx Hne. destruct (Hcov x H1 Hx) as [?%elem_of_nil|[?|?]]; done.
Qed.
(** C49.  A limit of at least the number of objects is no limit; a limit of 0 or
    less gives nothing. *)
Lemma C49_extreme_limits_proof : ∀ (Obj : Type) (dec_eq : EqDecision Obj) (next : Obj → list Obj) (U : list Obj) (o : Obj) d fuel,
  (o ∈ U → (∀ x y, x ∈ U → y ∈ next x → y ∈ U) → (Z.of_nat (length U) <= d)%Z →
    obj_relatives fuel next (Some d) o = obj_relatives fuel next None o) ∧
  ((d <= 0)%Z → obj_relatives (S fuel) next (Some d) o = Ok []).
Proof.
  intros Obj dec_eq next U o d fuel. split.
  - intros Ho HU Hd. unfold obj_relatives. rewrite (lim_big next U HU); [done..|apply not_elem_of_nil|].
    etrans; [apply filter_length|]. lia.
  - intros Hd. unfold obj_relatives. cbn [obj_dfs]. rewrite (proj2 (Z.leb_le _ _)) by done. done.
Qed.
(** The chain 0 -> 1 -> 2 -> 3 -> 4 with the shortcut 0 -> 2. *)
Definition next_short (n : nat) : list nat := match n with 0 => [1; 2] | 1 => [2] | 2 => [3] | 3 => [4] | _ => [] end.
(** C49 is false: in 0 -> 1 -> 2 -> 3 -> 4 with the shortcut 0 -> 2, the object 4 is
    3 steps away and is not returned with max_depth=3. *)
Lemma C49_max_depth_refuted_proof : ∃ (next : nat → list nat) (U : list nat) (o x : nat) d L,
  o ∈ U ∧ (∀ x y, x ∈ U → y ∈ next x → y ∈ U) ∧
  (∀ fuel, length U ≤ fuel → obj_relatives fuel next (Some (Z.of_nat d)) o = Ok L) ∧
  x ≠ o ∧ nsteps (λ x y, y ∈ next x) d o x ∧ x ∉ L.
Proof.
  exists next_short, [0; 1; 2; 3; 4], 0, 4, 3, [1; 2; 3]. split_and!; [left| | |done| |dec].
  - intros x y Hx.
    repeat (apply elem_of_cons in Hx as [->|Hx]; [revert y; apply (Forall_forall (λ y, y ∈ [0; 1; 2; 3; 4])); dec|]).
    by apply elem_of_nil in Hx.
  - intros fuel Hf. simpl in Hf. do 5 (destruct fuel as [|fuel]; [lia|]). by vm_compute.
  - apply nsteps_l with 2; [dec|]. apply nsteps_l with 3; [dec|]. apply nsteps_once. dec.
Qed.
(** A limit that cuts: 2 steps from 0. *)
Lemma C49_max_depth_ex_proof : (0 <= 2)%Z ∧ Z.to_nat 2 < 9 ∧ obj_relatives 9 next_short (Some 2%Z) 0 = Ok [1; 2; 3].
Proof. split_and!; [done|lia|by vm_compute]. Qed.

(** * membership *)
(** C50, partial.  Missing: nodes.  What holds: names are decided; an object that is
    neither gives False. *)
Lemma C50_contains_partial_proof : ∀ h g G, reachable h → h_graphs h !! g = Some G →
  (∀ n, ∃ b, contains h g (AName n) = Ok b ∧ (b = true ↔ ∃ r, named h g n r)) ∧
  contains h g AOther = Ok false.
Proof.
  intros h g G _ HG. unfold contains. rewrite (get_g_Ok _ _ _ HG). cbn [rbind]. split; [|done].
  intros n. eexists. split; [done|]. rewrite dmem_true, elem_of_dkeys. split.
  - intros [r Hr]. by exists r, G.
  - intros (r & G' & HG' & Hr). assert (G' = G) as -> by congruence. eauto.
Qed.
(** C50 for nodes: [node in graph] is never True; it raises TypeError iff the
    graph has a node of that name, in particular for its own nodes. *)
Lemma C50_contains_nodes_proof : ∀ h g G r N, reachable h → h_graphs h !! g = Some G → h_nodes h !! r = Some N →
  contains h g (ANode r) ≠ Ok true ∧
  (contains h g (ANode r) = Err TypeError ↔ ∃ r', named h g (n_id N) r') ∧
  (in_graph h g r → contains h g (ANode r) = Err TypeError).
Proof.
  intros h g G r N W%reachable_WF HG HN. unfold contains. rewrite (get_g_Ok _ _ _ HG), (get_n_Ok _ _ _ HN). cbn [rbind].
  assert (Hiff : (if dmem (g_nodes G) (n_id N) then Err TypeError else Ok false) = Err TypeError ↔ ∃ r', named h g (n_id N) r').
  { destruct (dmem (g_nodes G) (n_id N)) eqn:Hm.
    - apply dmem_true, elem_of_dkeys in Hm as [r' Hr']. split; [|done]. intros _. by exists r', G.
    - apply dmem_false in Hm. split; [done|]. intros (r' & G' & HG' & Hr'). destruct Hm. apply elem_of_dkeys.
      assert (G' = G) as -> by congruence. eauto. }
  split_and!; [by destruct (dmem _ _)|done|]. intros (G' & k & HG' & Hk). apply Hiff. assert (G' = G) as -> by congruence.
  destruct (wf_gnodes _ W g G k r) as (N' & ? & Hid & _); [done..|]. assert (N' = N) as -> by congruence. exists r, G. by rewrite Hid.
Qed.
(** C50 is false of nodes. *)
Lemma C50_contains_refuted_proof : ∃ h g r, reachable h ∧ in_graph h g r ∧ contains h g (ANode r) = Err TypeError.
Proof.
  exists sample, 0, 0. split_and!; [apply sample_reachable| |by vm_compute]. eexists _, (nm "a"). split; [done|]. left.
Qed.
(** Name a, and node a of the sample. *)
Lemma C50_contains_ex_proof : reachable sample ∧ in_graph sample 0 0 ∧ contains sample 0 (an "a") = Ok true ∧
  contains sample 0 (an "z") = Ok false ∧ contains sample 0 (ANode 0) = Err TypeError.
Proof.
  split; [apply sample_reachable|]. split_and!; [|by vm_compute..]. eexists _, (nm "a"). split; [done|]. left.
Qed.
(** C49, instance for the extreme limits. *)
Lemma C49_extreme_limits_ex_proof : 0 ∈ [0; 1; 2; 3] ∧ (∀ x y, x ∈ [0; 1; 2; 3] → y ∈ next_ex x → y ∈ [0; 1; 2; 3]) ∧
  obj_relatives 9 next_ex (Some 4%Z) 0 = Ok [1; 2; 3] ∧ obj_relatives 9 next_ex (Some 0%Z) 0 = Ok [].
Proof. destruct C48_objects_ex_proof as ((H1 & H2) & _). split; [done|]. split; [done|]. by vm_compute. Qed.
