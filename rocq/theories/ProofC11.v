(** append, Graph(obj), addition, from_object. *)
From Verif Require Export ProofGrow2 ProofRepr Samples.
Local Open Scope list_scope.

Lemma repr_exists_styles n m d : repr_exists n m d → repr_styles n m d.
Proof.
  intros [Hn He]. split.
  - intros nd [k a] Hd Hin. rewrite Hd in Hn. cbn. specialize (Hn k a Hin). by destruct (a_style a); intros s' ?; simplify_eq.
  - intros s Hs. destruct s as [|p c a| |]; try done. specialize (He p c a Hs). cbn. by destruct (c_style a); intros s' ?; simplify_eq.
Qed.
Lemma edgeless_ids h g : WF h → edgeless h g → ids_of h g = [].
Proof.
  intros W Hno. unfold ids_of. destruct (h_graphs h !! g) as [G|] eqn:HG; [|done].
  assert (∀ l, (∀ kr, kr ∈ l → kr ∈ g_nodes G) → (l ≫= λ kr, (out_of h kr.2).*1) = []) as H; [|by apply H].
  induction l as [|[k r] l IH]; intros Hl; [done|]. rewrite bind_cons, IH by (intros; apply Hl; by right). rewrite app_nil_r. cbn.
  destruct ((out_of h r).*1) as [|i o] eqn:Ho; [done|]. exfalso.
  destruct (wf_gnodes _ W g G k r HG (Hl _ (elem_of_list_here _ _))) as (N & HN & Hid & Hg).
  assert (∃ e, has_id h g e i) as (e & x & y & ? & ? & ? & Hj & _).
  { apply out_id_elem; [done|]. exists r. split; [|rewrite Ho; left]. exists G. split; [done|].
    unfold out_of in Ho. rewrite HN in Ho. assert (i ∈ (n_out N).*1) as Hi by (rewrite Ho; left).
    apply elem_of_list_fmap in Hi as ([i' e] & -> & Hi). destruct (WF_out_entry h r N i' e W HN Hi) as (? & ? & ? & ? & ? & _ & _ & _ & _ & _ & _ & _ & _ & -> & _).
    cbn. rewrite Hid. apply Hl. left. }
  by eapply Hno.
Qed.
Lemma obj_dict_given h o d : WF h → obj_dict h o = Ok d → given_names d = obj_names h o ∧ given_ids d = obj_ids h o.
Proof.
  intros W. destruct o as [g|d'|]; cbn; [|by intros [= ->]|done].
  destruct (h_graphs h !! g) as [G|] eqn:HG.
  - destruct (edgeless_dec h g G W HG) as [Hno|(e & x & y & Hj)].
    + rewrite (graph_repr_edgeless h g G W HG Hno). destruct (g_disp G) as [D|]; [|done]. intros [= <-].
      rewrite (edgeless_ids h g W Hno). unfold names_of. rewrite HG. cbn. split; [|done]. by rewrite <-list_fmap_compose.
    + by rewrite (graph_repr_edges h g G e x y W HG Hj).
  - unfold graph_repr, get_g. rewrite HG. done.
Qed.
Lemma obj_exists_styles n m o : obj_exists n m o → gobj_styles n m o.
Proof. destruct o; try done. apply repr_exists_styles. Qed.

(** C32.  Whenever append succeeds, the graph has grown by exactly the missing
    nodes, in the given order, and exactly the edges whose id was missing, in the
    given order; what was there is untouched and still comes first.  Partial
    because append of a Graph with an edge does not succeed, see
    [C32_append_graph_refuted]. *)
Lemma C32_append_partial_proof : ∀ h g o h' (present : list edge_id), reachable h →
  obj_exists (length (h_ns h)) (length (h_es h)) o → g < length (h_graphs h) →
  (∀ i, i ∈ present ↔ ∃ e, has_id h g e i) →
  graph_append g o h = (h', Ok tt) →
  grown h g h' (filter (λ k, k ∉ names_of h g) (distinct (obj_names h o))) (filter (λ i, i ∉ present) (distinct (obj_ids h o))).
Proof.
  intros h g o h' present Hr Ho Hg Hp Heq. pose proof (reachable_WF h Hr) as W.
  apply lookup_lt_is_Some in Hg as [G HG]. unfold graph_append in Heq. apply sbind_Ok in Heq as (h1 & d & H1 & Heq).
  unfold sread in H1. injection H1 as <- Hd. destruct (obj_dict_given h o d W Hd) as [<- <-].
  unfold names_of. rewrite HG. eapply grown_append; [|by eapply obj_dict_styles; [|apply obj_exists_styles|]|done..].
  split; [done|split; lia].
Qed.

Lemma grown_shaped h g G h' ks ids : WF h → grown h g h' ks ids → h_graphs h !! g = Some G → g_nodes G = [] → shaped h' g ks ids.
Proof.
  intros W Hgr HG HGe. pose proof Hgr as [(G0 & G' & new & HG0 & HG' & Heq & Hk & Hnew) Hout Hin Hends _].
  assert (G0 = G) as -> by congruence. rewrite HGe in Heq. cbn in Heq.
  split; [|split].
  - unfold names_of. rewrite HG', Heq. exact Hk.
  - intros i Hi. destruct (Hends i Hi) as [(r1 & G1 & HG1 & H1) (r2 & G2 & HG2 & H2)].
    assert (G1 = G') as -> by congruence. assert (G2 = G') as -> by congruence. rewrite <-Hk, <-Heq. split; apply elem_of_list_fmap; [by exists (i.1.1, r1)|by exists (i.1.2, r2)].
  - intros k r Hr. pose proof Hr as (G1 & HG1 & Hr1). assert (G1 = G') as -> by congruence. rewrite Heq in Hr1.
    pose proof (Hnew k r Hr1) as Hno. destruct (Hout k r Hr) as (o & Ho & Hfo). destruct (Hin k r Hr) as (i & Hi & Hfi).
    unfold out_of, in_of in *. rewrite Hno in *. cbn in *. rewrite Ho, Hi. done.
Qed.
Lemma filter_all {A} (P : A → Prop) `{∀ x, Decision (P x)} (l : list A) : (∀ x, P x) → filter P l = l.
Proof. intros HP. induction l as [|x l IH]; [done|]. rewrite filter_cons, decide_True by done. by rewrite IH. Qed.
Lemma graph_of_shaped h strict ordering D o h' g : WF h → gobj_styles (length (h_ns h)) (length (h_es h)) o → 
  (∀ g0, o = OGraph g0 → g0 < length (h_graphs h)) →
  graph_of strict ordering D o h = (h', Ok g) → shaped h' g (distinct (obj_names h o)) (distinct (obj_ids h o)).
Proof.
  intros W Ho Hex Heq. unfold graph_of in Heq. cbv zeta in Heq.
  set (D' := match o with ODict r => _ | _ => D end) in Heq. clearbody D'.
  apply sbind_Ok in Heq as (h1 & g1 & Hn & Heq). apply sbind_Ok in Heq as (h2 & [] & Ha & Heq). injection Heq as <- <-.
  destruct (built_new h strict ordering D' W) as (h1' & Hn' & W1 & Hs1 & _). rewrite Hn in Hn'. injection Hn' as <- ->.
  assert (h1 = h <| h_graphs := h_graphs h ++ [MkGraph [] strict ordering 0 (Some D')] |>) as Hh1 by (by injection Hn as <-).
  assert (h_graphs h1 !! length (h_graphs h) = Some (MkGraph [] strict ordering 0 (Some D'))) as HG1.
  { rewrite Hh1. cbn. by rewrite lookup_app_r, Nat.sub_diag by lia. }
  unfold graph_append in Ha. apply sbind_Ok in Ha as (h1' & d & Hd & Ha). unfold sread in Hd. injection Hd as <- Hd.
  assert (obj_names h1 o = obj_names h o ∧ obj_ids h1 o = obj_ids h o) as [Hon Hoi].
  { destruct o as [g0|d'|]; try done. cbn. unfold names_of, ids_of. rewrite Hh1. cbn. rewrite lookup_app_l by (by apply Hex). done. }
  assert (gobj_styles (length (h_ns h1)) (length (h_es h1)) o) as Ho1 by (by rewrite Hh1).
  destruct (obj_dict_given h1 o d W1 Hd) as [Hgn Hgi].
  eassert (Hgr : grown h1 (length (h_graphs h)) h2 _ _).
  { eapply (grown_append (length (h_ns h1)) (length (h_es h1)) h1 (length (h_graphs h)) _ d h2 []); [|by eapply obj_dict_styles|done| |done].
    - split; [done|split; lia].
    - intros i. rewrite elem_of_nil. split; [done|]. intros (e & x & y & E & Nx & Ny & Hj & _).
      destruct (joins_in_graph h1 _ e x y W1 Hj) as [(G & k & HG & Hk) _]. rewrite HG1 in HG. injection HG as <-. by apply elem_of_nil in Hk. }
  cbn [g_nodes dkeys fmap list_fmap map] in Hgr. rewrite !filter_all in Hgr by (intros ? ?%elem_of_nil; done).
  rewrite Hgn, Hgi, Hon, Hoi in Hgr. by eapply grown_shaped.
Qed.

(** C32, Graph(obj=o): whenever it succeeds, the new graph has exactly the names
    and edge ids of [o], in the order of [o]. *)
Lemma C32_graph_of_partial_proof : ∀ h strict ordering D o h' g, reachable h →
  obj_exists (length (h_ns h)) (length (h_es h)) o → (∀ g0, o = OGraph g0 → g0 < length (h_graphs h)) →
  graph_of strict ordering D o h = (h', Ok g) →
  g = length (h_graphs h) ∧ shaped h' g (distinct (obj_names h o)) (distinct (obj_ids h o)).
Proof.
  intros h strict ordering D o h' g Hr Ho Hex Heq. split; [|eapply graph_of_shaped; [by apply reachable_WF|by apply obj_exists_styles|done|done]].
  unfold graph_of in Heq. cbv zeta in Heq. apply sbind_Ok in Heq as (h1 & g1 & Hn & Heq). apply sbind_Ok in Heq as (h2 & [] & _ & Heq).
  injection Heq as _ <-. by injection Hn as _ <-.
Qed.

(** C32: append of a representation with string names, known ends, without styles,
    to a graph without frozen objects does succeed. *)
Lemma C32_append_succeeds_partial_proof : ∀ h g G D d, reachable h → h_graphs h !! g = Some G → g_disp G = Some D →
  repr_exists (length (h_ns h)) (length (h_es h)) d → unfrozen h g → acceptable h g d →
  ∃ h', graph_append g (ODict d) h = (h', Ok tt).
Proof.
  intros h g G D d Hr HG HD Hd Hu Ha.
  destruct (works_append (length (h_ns h)) (length (h_es h)) h g d) as [h' Heq]; [|eauto|done|done|by exists h'].
  split; [by apply reachable_WF|split; lia].
Qed.

(** C32: appending a Graph with at least one edge raises TypeError, and nothing
    changes. *)
Lemma C32_append_graph_fails_partial_proof : ∀ h g g2 e x y, reachable h → joins h g2 e x y →
  graph_append g (OGraph g2) h = (h, Err TypeError).
Proof.
  intros h g g2 e x y Hr Hj. pose proof (reachable_WF h Hr) as W.
  destruct (joins_in_graph h g2 e x y W Hj) as [(G & k & HG & _) _].
  unfold graph_append, sbind, sread, obj_dict. by rewrite (graph_repr_edges h g2 G e x y W HG Hj).
Qed.

Local Open Scope string_scope.
Definition labelled : display := disp0 <| d_label := PStr "x" |>.
Definition two_calls : list call := [CNew false true labelled; CNew false true labelled;
  CAddNode 0 (an "a") nargs0; CAddNode 0 (an "c") nargs0; CConnect 0 (an "a") (an "c") eargs0;
  CAddNode 1 (an "a") nargs0; CAddNode 1 (an "b") nargs0; CConnect 1 (an "a") (an "b") eargs0].
Definition two_graphs : heap := Eval vm_compute in run two_calls empty_heap.
Lemma two_graphs_reachable : reachable two_graphs.
Proof. assert (two_graphs = run two_calls empty_heap) as -> by (by vm_compute). reach. Qed.
(** C32 refuted: a reachable heap and two graphs such that appending the second to
    the first raises. *)
Lemma C32_append_graph_refuted_proof : ∃ h g1 g2, reachable h ∧ g1 < length (h_graphs h) ∧ g2 < length (h_graphs h) ∧
  (graph_append g1 (OGraph g2) h).2 = Err TypeError.
Proof.
  exists two_graphs, 0, 1. split; [apply two_graphs_reachable|]. split; [vm_compute; lia|]. split; [vm_compute; lia|].
  by vm_compute.
Qed.
Definition some_repr : grepr :=
  MkRepr (Some true) None (Some (PStr "t")) None None None None None None None None
    (inl [(NStr "b", nargs0); (NStr "c", nargs0 <| a_label := PStr "new" |>)])
    [E2 (NStr "a") (NStr "c"); E3 (NStr "c") (NStr "b") (eargs0 <| c_id := Some (NStr "i") |>); E2 (NStr "b") (NStr "b"); E2 (NStr "b") (NStr "b")]
    None None None (Some [(K2 (NStr "a") (NStr "c"), PStr "red")]).
(** A concrete append: the first graph has the nodes a and c and an edge between
    them; the representation has b, c and three different edges. *)
Lemma C32_append_ex_proof : reachable two_graphs ∧ obj_exists (length (h_ns two_graphs)) (length (h_es two_graphs)) (ODict some_repr) ∧
  acceptable two_graphs 0 some_repr ∧ unfrozen two_graphs 0 ∧
  (∀ i, i ∈ [(NStr "a", NStr "c", RId None)] ↔ ∃ e, has_id two_graphs 0 e i) ∧
  ∃ h', graph_append 0 (ODict some_repr) two_graphs = (h', Ok tt) ∧
  grown two_graphs 0 h' [NStr "b"] [(NStr "c", NStr "b", RId (Some (NStr "i"))); (NStr "b", NStr "b", RId None)].
Proof.
  pose proof two_graphs_reachable as Hr. pose proof (reachable_WF _ Hr) as W.
  assert (Ho : obj_exists (length (h_ns two_graphs)) (length (h_es two_graphs)) (ODict some_repr)).
  { split; [intros k a; cbn; rewrite !elem_of_cons; intros [[= -> ->]|[[= -> ->]|?%elem_of_nil]]; done|].
    intros p c a. cbn. rewrite !elem_of_cons. intros [?|[[= -> -> ->]|[?|[?|?%elem_of_nil]]]]; done. }
  assert (Ha : acceptable two_graphs 0 some_repr).
  { split.
    - intros v [= <-]. eauto.
    - intros k. cbn. rewrite !elem_of_cons. intros [->|[->|?%elem_of_nil]]; [eauto|eauto|done].
    - intros nd k a [= <-]. rewrite !elem_of_cons. intros [[= -> ->]|[[= -> ->]|?%elem_of_nil]]; done.
    - intros s. cbn. rewrite !elem_of_cons. intros [->|[->|[->|[->|?%elem_of_nil]]]]; [..|done]; eexists _, _;
        (split; [|split; [|first [by left|by right; eexists]]]); apply elem_of_list_In; vm_compute; tauto.
    - done.
    - intros l k v [= <-]. rewrite elem_of_list_singleton. intros [= -> ->]. eexists _, _, _. split; [reflexivity|]. vm_compute. left. }
  assert (Hu : unfrozen two_graphs 0).
  { split.
    - intros r N HN _. assert (Forall (λ N, n_frozen N = false) (h_nodes two_graphs)) as H by (vm_compute; repeat constructor).
      rewrite Forall_forall in H. apply H. by eapply elem_of_list_lookup_2.
    - intros r N HN _. assert (Forall (λ N, e_frozen N = false) (h_edges two_graphs)) as H by (vm_compute; repeat constructor).
      rewrite Forall_forall in H. apply H. by eapply elem_of_list_lookup_2. }
  assert (Hp : ∀ i, i ∈ [(NStr "a", NStr "c", RId None)] ↔ ∃ e, has_id two_graphs 0 e i).
  { intros i. rewrite elem_of_list_singleton. split.
    - intros ->. exists 0. eexists 0, 1, _, _, _. split; [|vm_compute; done]. eexists. split; [by vm_compute|]. by vm_compute.
    - intros (e & x & y & E & Nx & Ny & (E' & HE' & Hg & Hs & Ht) & HE & HNx & HNy & ->). assert (E' = E) as -> by congruence.
      destruct e as [|[|e]]; vm_compute in HE; simplify_eq; vm_compute in Hg; simplify_eq. vm_compute in Hs, Ht. simplify_eq. vm_compute in HNx, HNy. by simplify_eq. }
  split; [done|]. split; [done|]. split; [done|]. split; [done|]. split; [done|].
  destruct (C32_append_succeeds_partial_proof two_graphs 0 _ _ some_repr Hr eq_refl eq_refl Ho Hu Ha) as [h' Heq].
  exists h'. split; [done|]. exact (C32_append_partial_proof two_graphs 0 (ODict some_repr) h' _ Hr Ho ltac:(vm_compute; lia) Hp Heq).
Qed.

Local Close Scope string_scope.
(** * What the nodes of the new graph look like *)
Definition calm {A} (c : M A) : Prop := ∀ h h' a, c h = (h', Ok a) →
  h_nodes h' = h_nodes h ∧ h_edges h' = h_edges h ∧ ∀ g k r, named h' g k r ↔ named h g k r.
Lemma calm_ret {A} (a : A) : calm (sret a).
Proof. by intros h h' b [= <- _]. Qed.
Lemma calm_sread {A} (f : heap → res A) : calm (sread f).
Proof. intros h h' b H. unfold sread in H. by injection H as <- _. Qed.
Lemma calm_bind {A B} (c : M A) (k : A → M B) : calm c → (∀ a, calm (k a)) → calm (sbind c k).
Proof.
  intros Hc Hk h h' b (h1 & a & H1 & H2)%sbind_Ok. destruct (Hc _ _ _ H1) as (Hn1 & He1 & Hg1). destruct (Hk a _ _ _ H2) as (Hn2 & He2 & Hg2).
  rewrite Hn2, He2. split; [done|]. split; [done|]. intros g k' r. by rewrite Hg2.
Qed.
Lemma calm_when_some {A} (o : option A) f : (∀ a, calm (f a)) → calm (when_some o f).
Proof. intros Hf. destruct o; [apply Hf|apply calm_ret]. Qed.
Lemma calm_siter {A} (f : A → M unit) l : (∀ a, calm (f a)) → calm (siter f l).
Proof. intros Hf. induction l as [|x l IH]; [apply calm_ret|]. cbn. apply calm_bind; [apply Hf|done]. Qed.
Lemma calm_upd_g g f : (∀ G, g_nodes (f G) = g_nodes G) → calm (upd_g g f).
Proof.
  intros Hf h h' a H. unfold upd_g in H. destruct (h_graphs h !! g) as [G|] eqn:HG; [|done]. injection H as <- _. split; [done|]. split; [done|].
  intros g' k r. unfold named. cbn. destruct (decide (g' = g)) as [->|].
  - rewrite list_lookup_insert by (by eapply lookup_lt_Some). split.
    + intros (G1 & [= <-] & Hk). exists G. by rewrite <-Hf.
    + intros (G1 & HG1 & Hk). assert (G1 = G) as -> by congruence. exists (f G). by rewrite Hf.
  - by rewrite list_lookup_insert_ne.
Qed.
Lemma calm_upd_disp g f : calm (upd_disp g f).
Proof. intros h h' [] (G & D & _ & _ & H)%upd_disp_Ok. by apply (calm_upd_g g) in H. Qed.
Ltac calms := repeat first [apply calm_when_some; intros ?|apply calm_upd_disp|apply calm_upd_g; done
  |apply calm_siter; intros ?|apply calm_bind; [|intros ?]|apply calm_sread|apply calm_ret].

(** node [k] of the graph was made with the arguments [a] *)
Definition made_with (h : heap) (g : gref) (k : name) (a : nargs) : Prop :=
  ∃ r N, named h g k r ∧ h_nodes h !! r = Some N ∧ n_label N = a_label a ∧ n_value N = a_value a ∧ style_arg (n_style N) = a_style a.
Lemma made_calm {A} (c : M A) h h' b g k a : calm c → c h = (h', Ok b) → made_with h g k a → made_with h' g k a.
Proof.
  intros Hc Heq (r & N & Hr & HN & Ha). destruct (Hc _ _ _ Heq) as (Hn & _ & Hg). exists r, N. rewrite Hn, Hg. done.
Qed.
Definition plain_style (a : sarg) : Prop := a = SNone ∨ ∃ s, a = SObj s.
Lemma made_add_all n m g l : (∀ ka, ka ∈ l → nsarg_lt n (a_style ka.2) ∧ plain_style (a_style ka.2)) → ∀ h h' G, Inv n m h → h_graphs h !! g = Some G →
  NoDup (dkeys (g_nodes G) ++ l.*1) → siter (λ ka : name * nargs, do* add_node g (AName ka.1) ka.2 in sret tt) l h = (h', Ok tt) →
  (∀ k a, made_with h g k a → made_with h' g k a) ∧ ∀ k a, (k, a) ∈ l → made_with h' g k a.
Proof.
  induction l as [|[k a] l IH]; intros Hs h h' G HI HG Hnd Heq.
  - cbn in Heq. injection Heq as <-. split; [done|]. by intros ? ? ?%elem_of_nil.
  - cbn [siter] in Heq. apply sbind_Ok in Heq as (h1 & [] & H1 & H2). apply sbind_Ok in H1 as (h1' & o & H1 & [= <-]). cbn [fst snd] in *.
    destruct (Hs (k, a) (elem_of_list_here _ _)) as [Hlt Hpl]. cbn in Hlt, Hpl.
    assert (Inv n m h1') as HI1. { pose proof (Inv_add_node n m g k a Hlt h HI) as H. by rewrite H1 in H. }
    destruct k as [s|z]; [|done]. rewrite fmap_cons in Hnd. cbn in Hnd.
    assert (NStr s ∉ dkeys (g_nodes G)) as Hfr.
    { intros Hin. apply NoDup_app in Hnd as (_ & Hnd & _). apply (Hnd _ Hin). left. }
    assert (∃ st, restyled nstyle_ctor (length (h_ns h)) None (a_style a) = Ok (st, []) ∧ style_arg st = a_style a) as (st & Hst & Hsa).
    { destruct Hpl as [->|[s' ->]]; [by exists None|by exists (Some s')]. }
    destruct (add_fresh_facts h g G s a st [] HG Hfr Hst) as (h2 & Heq2 & Hn' & He' & Hg' & _). rewrite H1 in Heq2. injection Heq2 as <- _.
    destruct (IH (λ ka Hka, Hs ka (elem_of_list_further _ _ _ Hka)) h1' h' _ HI1 Hg') as [IH1 IH2]; [|done|].
    { cbn [g_nodes]. change (NoDup (dkeys (g_nodes G ++ [(NStr s, length (h_nodes h))]) ++ l.*1)). rewrite dkeys_app, <-app_assoc. exact Hnd. }
    assert (Hold : ∀ k' a', made_with h g k' a' → made_with h1' g k' a').
    { intros k' a' (r & N & (G1 & HG1 & Hr) & HN & Ha). assert (G1 = G) as -> by congruence. exists r, N. split_and!; try apply Ha.
      - eexists. split; [exact Hg'|]. cbn. apply elem_of_app. by left.
      - rewrite Hn', lookup_app_l; [done|]. by eapply lookup_lt_Some. }
    split; [by intros; apply IH1, Hold|]. intros k' a' [[= -> ->]|Hin]%elem_of_cons; [|by apply IH2].
    apply IH1. eexists (length (h_nodes h)), _. split; [|split; [by rewrite Hn', lookup_app_r, Nat.sub_diag by lia|done]].
    eexists. split; [exact Hg'|]. cbn. apply elem_of_app. right. left.
Qed.
Lemma graph_of_made h strict ordering D d nd h' g : WF h → repr_styles (length (h_ns h)) (length (h_es h)) d →
  r_nodes d = inl nd → r_edges d = [] → NoDup nd.*1 → (∀ k a, (k, a) ∈ nd → plain_style (a_style a)) →
  (let* g := new_graph strict ordering D in do* append_repr g d in sret g) h = (h', Ok g) → ∀ k a, (k, a) ∈ nd → made_with h' g k a.
Proof.
  intros W Hst Hd Hed Hnd Hpl Heq k a Hka. 
  apply sbind_Ok in Heq as (h1 & g1 & Hn & Heq). apply sbind_Ok in Heq as (h2 & [] & Ha & Heq). injection Heq as <- <-.
  destruct (built_new h strict ordering D W) as (h1' & Hn' & W1 & _). rewrite Hn in Hn'. injection Hn' as <- ->.
  assert (h1 = h <| h_graphs := h_graphs h ++ [MkGraph [] strict ordering 0 (Some D)] |>) as Hh1 by (by injection Hn as <-).
  assert (h_graphs h1 !! length (h_graphs h) = Some (MkGraph [] strict ordering 0 (Some D))) as HG1.
  { rewrite Hh1. cbn. by rewrite lookup_app_r, Nat.sub_diag by lia. }
  set (g := length (h_graphs h)) in *. set (n := length (h_ns h)) in *. set (m := length (h_es h)) in *.
  assert (live n m g h1) as Hl1. { split; [|eauto]. split; [done|]. rewrite Hh1. split; cbn; lia. }
  unfold append_repr in Ha. rewrite Hd, Hed in Ha. clear Hn.
  assert (Hgo : ∀ u1 u2 (c : M unit), neutral n m g c → live n m g u1 ∧ grown h1 g u1 [] [] → c u1 = (u2, Ok tt) → live n m g u2 ∧ grown h1 g u2 [] []).
  { intros u1 u2 c Hc [Hl Hg] H. destruct (Hc _ _ _ Hl H) as [Hl2 Hg2]. split; [done|].
    apply (grown_trans h1 g u1 u2 [] [] [] [] (proj1 (proj1 Hl2)) Hg Hg2). }
  assert (live n m g h1 ∧ grown h1 g h1 [] []) as H0 by (split; [done|by eapply grown_refl]).
  repeat (let u := fresh "u" in let H1 := fresh "Hstep" in
    match type of Ha with sbind (when_some _ _) _ _ = _ => apply sbind_Ok in Ha as (u & [] & H1 & Ha); eapply Hgo in H0; [|clear H0|exact H1]; [|neut]; clear H1 end).
  apply sbind_Ok in Ha as (v & [] & Hnodes & Ha). destruct H0 as [Hlu Hgu].
  destruct (gr_nodes _ _ _ _ _ Hgu) as (G0 & G1 & new & HG0 & HG1' & Hnew & Hk & _). rewrite HG1 in HG0. injection HG0 as <-.
  apply fmap_nil_inv in Hk as ->. cbn in Hnew.
  destruct (made_add_all n m g nd) with (h := u6) (h' := v) (G := G1) as [_ Hmade]; [|apply Hlu|done|by rewrite Hnew|exact Hnodes|].
  { intros [k' a'] Hin. split; [by apply (proj1 Hst nd)|by apply (Hpl k')]. }
  cbn [sfold] in Ha. eapply made_calm; [|exact Ha|by apply Hmade]. calms.
Qed.

(** * Graph(obj=g): values, styles and labels *)
Lemma repr_of_nodes h G D : r_nodes (repr_of h G D) = inl ((λ kr, (kr.1, node_entry h kr.2)) <$> g_nodes G).
Proof. done. Qed.
Lemma graph_of_copies h strict ordering D g2 h' g : WF h → g2 < length (h_graphs h) → graph_of strict ordering D (OGraph g2) h = (h', Ok g) →
  ∀ k r N, named h g2 k r → h_nodes h !! r = Some N → ∃ r' N', named h' g k r' ∧ h_nodes h' !! r' = Some N' ∧
    n_label N' = PMeth r ∧ n_value N' = n_value N ∧ n_style N' = n_style N.
Proof.
  intros W Hlt Heq k r N Hr HN. apply lookup_lt_is_Some in Hlt as [G2 HG2].
  unfold graph_of in Heq. cbv zeta in Heq. apply sbind_Ok in Heq as (h1 & g1 & Hn & Heq).
  destruct (built_new h strict ordering D W) as (h1' & Hn' & W1 & _). rewrite Hn in Hn'. injection Hn' as <- ->.
  assert (h1 = h <| h_graphs := h_graphs h ++ [MkGraph [] strict ordering 0 (Some D)] |>) as Hh1 by (by injection Hn as <-).
  assert (h_graphs h1 !! g2 = Some G2) as HG2'. { rewrite Hh1. cbn. rewrite lookup_app_l; [done|]. by eapply lookup_lt_Some. }
  apply sbind_Ok in Heq as (h2 & [] & Ha & Heq). injection Heq as <- <-.
  unfold graph_append in Ha. apply sbind_Ok in Ha as (h1' & d & Hd & Ha). unfold sread in Hd. injection Hd as <- Hd. cbn in Hd.
  assert (graph_repr h1 g2 = Ok d) as Hd' by (by destruct (graph_repr h1 g2) as [|[]]). clear Hd. rename Hd' into Hd.
  pose proof (graph_repr_styles h1 g2 d W1 Hd) as Hsty. rewrite Hh1 in Hsty. cbn [h_ns h_es] in Hsty.
  destruct (edgeless_dec h1 g2 G2 W1 HG2') as [Hno|(e & x & y & Hj)]; [|by rewrite (graph_repr_edges h1 g2 G2 e x y W1 HG2' Hj) in Hd].
  rewrite (graph_repr_edgeless h1 g2 G2 W1 HG2' Hno) in Hd. destruct (g_disp G2) as [D2|]; [|done]. injection Hd as <-.
  destruct Hr as (G & HG & Hr). assert (G = G2) as -> by congruence.
  destruct (graph_of_made h strict ordering D (repr_of h1 G2 D2) _ h2 (length (h_graphs h)) W Hsty eq_refl eq_refl) with (k := k) (a := node_entry h1 r)
    as (r' & N' & Hr' & HN' & Hl & Hv & Hs).
  - rewrite <-list_fmap_compose. pose proof (wf_gkeys _ W g2 G2 HG2) as Hnd. exact Hnd.
  - intros k' a'. intros ([k0 r0] & [= -> ->] & _)%elem_of_list_fmap. unfold node_entry. destruct (h_nodes h1 !! r0) as [N0|]; cbn; [|by left].
    destruct (n_style N0); cbn; [right; eauto|by left].
  - rewrite (sbind_step _ _ _ _ _ Hn), (sbind_step _ _ _ _ _ Ha). done.
  - apply elem_of_list_fmap. by exists (k, r).
  - exists r', N'. split; [done|]. split; [done|]. assert (h_nodes h1 !! r = Some N) as HN1 by (by rewrite Hh1).
    unfold node_entry in Hl, Hv, Hs. rewrite HN1 in Hl, Hv, Hs. cbn in Hl, Hv, Hs. split; [done|]. split; [done|].
    by destruct (n_style N'), (n_style N); cbn in Hs; simplify_eq.
Qed.

(** C33, partial: whenever Graph(obj=g) succeeds, each node has the value and the
    very style object of the node of that name in g; but its label is always the
    bound method display_label_or_value of that node, and not a label. *)
Lemma C33_contents_partial_proof : ∀ h strict ordering D g2 h' g, reachable h → g2 < length (h_graphs h) →
  graph_of strict ordering D (OGraph g2) h = (h', Ok g) →
  ∀ k r N, named h g2 k r → h_nodes h !! r = Some N →
  ∃ r' N', named h' g k r' ∧ h_nodes h' !! r' = Some N' ∧
    n_value N' = n_value N ∧ n_style N' = n_style N ∧ n_label N' = PMeth r.
Proof.
  intros h strict ordering D g2 h' g Hr Hlt Heq k r N Hk HN.
  destruct (graph_of_copies h strict ordering D g2 h' g (reachable_WF h Hr) Hlt Heq k r N Hk HN) as (r' & N' & ? & ? & ? & ? & ?).
  by exists r', N'.
Qed.
Local Open Scope string_scope.
Definition edge_free_calls : list call := [CNew false true labelled; CNew false true labelled;
  CAddNode 0 (an "a") (nargs0 <| a_label := PStr "A" |> <| a_value := PInt 1 |>); CAddNode 0 (an "b") (nargs0 <| a_value := PInt 5 |>);
  CAddNode 1 (an "a") (nargs0 <| a_value := PInt 10 |>); CAddNode 1 (an "c") (nargs0 <| a_value := PInt 7 |>)].
Definition edge_free : heap := Eval vm_compute in run edge_free_calls empty_heap.
Lemma edge_free_reachable : reachable edge_free.
Proof. assert (edge_free = run edge_free_calls empty_heap) as -> by (by vm_compute). reach. Qed.
(** C33 refuted: a node labelled A, whose namesake in Graph(obj=g) displays
    another text, whatever the functions of the environment print. *)
Lemma C33_labels_refuted_proof : ∃ h g r g' h' r' t, reachable h ∧ graph_of false true disp0 (OGraph g) h = (h', Ok g') ∧
  named h g (NStr "a") r ∧ named h' g' (NStr "a") r' ∧ t ≠ "A" ∧
  ∀ env, node_display_label env h r = Ok (PStr "A") ∧ node_display_label env h' r' = Ok (PStr t).
Proof.
  exists edge_free, 0, 0. eexists _, _, 4, _.
  split; [apply edge_free_reachable|]. split; [vm_compute; reflexivity|].
  split; [eexists; split; [by vm_compute|left]|]. split; [eexists; split; [by vm_compute|left]|].
  apply and_comm. split; [intros env; split; vm_compute; reflexivity|done].
Qed.
(** A case where Graph(obj=g) succeeds. *)
Lemma C33_contents_ex_proof : reachable edge_free ∧ 0 < length (h_graphs edge_free) ∧
  (∃ h' g', graph_of false true disp0 (OGraph 0) edge_free = (h', Ok g')) ∧ named edge_free 0 (NStr "a") 0.
Proof.
  split; [apply edge_free_reachable|]. split; [vm_compute; lia|]. split; [eexists _, _; vm_compute; reflexivity|].
  eexists; split; [by vm_compute|left].
Qed.
Local Close Scope string_scope.

(** * g1 + g2 *)
Lemma add_run h dflt f order g1 g2 h' g : WF h → add_graphs dflt f order g1 g2 h = (h', Ok g) →
  ∃ G1 G2 D1 D2 d h1, h_graphs h !! g1 = Some G1 ∧ h_graphs h !! g2 = Some G2 ∧ edgeless h g1 ∧ edgeless h g2 ∧
    add_repr f order (repr_of h G1 D1) (repr_of h G2 D2) = Ok d ∧ WF h1 ∧ h_ns h1 = h_ns h ∧ h_es h1 = h_es h ∧ h_nodes h1 = h_nodes h ∧
    length (h_graphs h1) = length (h_graphs h) ∧
    graph_of false true dflt (ODict d) h1 = (h', Ok g) ∧ repr_styles (length (h_ns h)) (length (h_es h)) d.
Proof.
  intros W Heq. unfold add_graphs in Heq. apply sbind_Ok in Heq as (u & d1 & Hd1 & Heq). unfold sread in Hd1. injection Hd1 as <- Hd1.
  apply sbind_Ok in Heq as (u & d2 & Hd2 & Heq). unfold sread in Hd2. injection Hd2 as <- Hd2.
  apply sbind_Ok in Heq as (u & G2 & HG2 & Heq). unfold sread in HG2. injection HG2 as <- HG2. apply get_g_inv in HG2.
  apply sbind_Ok in Heq as (h1 & [] & Hu & Heq). apply sbind_Ok in Heq as (u & d & Hd & Heq). unfold sread in Hd. injection Hd as <- Hd.
  assert (∃ G1, h_graphs h !! g1 = Some G1) as [G1 HG1].
  { unfold graph_repr, get_g in Hd1. destruct (h_graphs h !! g1); [eauto|done]. }
  assert (edgeless h g1) as Hno1.
  { destruct (edgeless_dec h g1 G1 W HG1) as [?|(e & x & y & Hj)]; [done|]. by rewrite (graph_repr_edges h g1 G1 e x y W HG1 Hj) in Hd1. }
  assert (edgeless h g2) as Hno2.
  { destruct (edgeless_dec h g2 G2 W HG2) as [?|(e & x & y & Hj)]; [done|]. by rewrite (graph_repr_edges h g2 G2 e x y W HG2 Hj) in Hd2. }
  pose proof (graph_repr_styles h g1 d1 W Hd1) as Hs1. pose proof (graph_repr_styles h g2 d2 W Hd2) as Hs2.
  rewrite (graph_repr_edgeless h g1 G1 W HG1 Hno1) in Hd1. rewrite (graph_repr_edgeless h g2 G2 W HG2 Hno2) in Hd2.
  destruct (g_disp G1) as [D1|] eqn:HD1; [|done]. destruct (g_disp G2) as [D2|] eqn:HD2; [|done]. injection Hd1 as <-. injection Hd2 as <-.
  exists G1, G2, D1, D2, d, h1. rewrite HG1, HG2. pose proof (add_repr_styles _ _ _ _ _ _ _ Hs1 Hs2 Hd) as Hsd.
  cbn in Hu. unfold upd_disp, sbind, sread, get_g in Hu. rewrite HG1 in Hu. cbn in Hu. rewrite HD1 in Hu.
  assert (WF h1) as W1.
  { assert (Inv (length (h_ns h)) (length (h_es h)) h1) as [? _]; [|done].
    match type of Hu with ?c = _ => replace h1 with c.1 by (by rewrite Hu) end.
    apply Inv_data_only; [|split; [done|split; lia]]. intros h0. by apply upd_g_data_only. }
  unfold upd_g in Hu. rewrite HG1 in Hu. injection Hu as <-. split_and!; try done. cbn. by rewrite insert_length.
Qed.
Lemma add_repr_run h G1 G2 D1 D2 f order d : add_repr f order (repr_of h G1 D1) (repr_of h G2 D2) = Ok d →
  r_edges d = [] ∧ r_overwrite d = None ∧ ∃ nds, r_nodes d = inl nds ∧
    nds.*1 = order (nub (dkeys (g_nodes G1) ++ dkeys (g_nodes G2))) ∧
    ∀ k a, (k, a) ∈ nds → add_node_entry f ((λ kr, (kr.1, node_entry h kr.2)) <$> g_nodes G1) ((λ kr, (kr.1, node_entry h kr.2)) <$> g_nodes G2) k = Ok a.
Proof.
  unfold add_repr. cbn [repr_nodes r_nodes repr_of r_edges app rfold rbind]. intros (nds & Hn & Hd)%rbind_Ok. injection Hd as <-.
  split; [done|]. split; [done|]. exists nds. split; [done|].
  assert (∀ l : dict name nref, dkeys ((λ kr, (kr.1, node_entry h kr.2)) <$> l) = dkeys l) as Hk by (intros l; unfold dkeys; by rewrite <-list_fmap_compose).
  rewrite !Hk in Hn. revert Hn. generalize (order (nub (dkeys (g_nodes G1) ++ dkeys (g_nodes G2)))). intros l Hn%rmap_Ok.
  induction Hn as [|k [k' a'] l nds He Hn [IH1 IH2]]; [split; [done|]; by intros ? ? ?%elem_of_nil|].
  apply rbind_Ok in He as (a & He & [= <- <-]). split; [by rewrite fmap_cons, IH1|].
  intros k' a' [[= -> ->]|?]%elem_of_cons; [done|by apply IH2].
Qed.
Lemma distinct_nub {A} `{EqDecision A} (l : list A) : distinct l ≡ₚ nub l.
Proof. apply NoDup_Permutation; [apply NoDup_distinct|apply NoDup_nub|]. intros x. by rewrite elem_of_distinct, elem_of_nub. Qed.
Lemma distinct_NoDup {A} `{EqDecision A} (l : list A) : NoDup l → distinct l = l.
Proof.
  induction 1 as [|x l Hx Hl IH]; [done|]. cbn. rewrite IH. f_equal. clear IH Hl.
  induction l as [|y l IH]; [done|]. rewrite filter_cons, decide_True by (intros ->; apply Hx; left). f_equal. apply IH. intros ?. apply Hx. by right.
Qed.

(** C34, partial: whenever g1 + g2 succeeds, and whatever the iteration order of the
    set of names, the new graph has exactly the names of g1 and g2, each once, and
    exactly their edges.  Partial because it does not succeed when there is an edge,
    see [C34_fails_partial]. *)
Lemma C34_union_partial_proof : ∀ h dflt f order g1 g2 h' g, reachable h → (∀ l, order l ≡ₚ l) →
  add_graphs dflt f order g1 g2 h = (h', Ok g) →
  g = length (h_graphs h) ∧ names_of h' g ≡ₚ distinct (names_of h g1 ++ names_of h g2)%list ∧
  shaped h' g (names_of h' g) (distinct (ids_of h g1 ++ ids_of h g2)%list).
Proof.
  intros h dflt f order g1 g2 h' g Hr Hord Heq. pose proof (reachable_WF h Hr) as W.
  destruct (add_run h dflt f order g1 g2 h' g W Heq) as (G1 & G2 & D1 & D2 & d & h1 & HG1 & HG2 & Hno1 & Hno2 & Hd & W1 & Hns & Hes & _ & Hlen & Hof & Hst).
  destruct (add_repr_run h G1 G2 D1 D2 f order d Hd) as (Hed & _ & nds & Hn & Hnk & _).
  assert (g = length (h_graphs h)) as ->.
  { unfold graph_of in Hof. cbv zeta in Hof. apply sbind_Ok in Hof as (u1 & gg & Hnew & Hof). apply sbind_Ok in Hof as (u2 & [] & _ & Hof).
    injection Hof as _ <-. injection Hnew as _ <-. done. }
  split; [done|].
  pose proof (graph_of_shaped h1 false true dflt (ODict d) h' (length (h_graphs h)) W1) as Hsh. rewrite Hns, Hes in Hsh. specialize (Hsh Hst ltac:(done) Hof).
  cbn [obj_names obj_ids] in Hsh. unfold given_names, given_ids in Hsh. rewrite Hn, Hed in Hsh. cbn in Hsh.
  assert (distinct nds.*1 ≡ₚ distinct (names_of h g1 ++ names_of h g2)) as Hp.
  { unfold names_of. rewrite HG1, HG2. transitivity (nub (dkeys (g_nodes G1) ++ dkeys (g_nodes G2))); [|symmetry; apply distinct_nub].
    rewrite distinct_NoDup; rewrite Hnk; [apply Hord|]. rewrite Hord. apply NoDup_nub. }
  rewrite (edgeless_ids h g1 W Hno1), (edgeless_ids h g2 W Hno2). cbn. pose proof (proj1 Hsh) as Hnm. rewrite Hnm. split; [exact Hp|exact Hsh].
Qed.
(** C34: with an edge in either graph, g1 + g2 raises AttributeError (or, if the
    other graph is a copy without display attributes, the same), and nothing
    changes. *)
Lemma C34_fails_partial_proof : ∀ h dflt f order g1 g2 e x y, reachable h → g1 < length (h_graphs h) → g2 < length (h_graphs h) →
  joins h g1 e x y ∨ joins h g2 e x y →
  add_graphs dflt f order g1 g2 h = (h, Err AttributeError).
Proof.
  intros h dflt f order g1 g2 e x y Hr [G1 HG1]%lookup_lt_is_Some [G2 HG2]%lookup_lt_is_Some Hj. pose proof (reachable_WF h Hr) as W.
  unfold add_graphs, sbind, sread. destruct Hj as [Hj|Hj]; [by rewrite (graph_repr_edges h g1 G1 e x y W HG1 Hj)|].
  rewrite (graph_repr_edges h g2 G2 e x y W HG2 Hj). destruct (edgeless_dec h g1 G1 W HG1) as [Hno|(e1 & x1 & y1 & Hj1)].
  - rewrite (graph_repr_edgeless h g1 G1 W HG1 Hno). by destruct (g_disp G1).
  - by rewrite (graph_repr_edges h g1 G1 e1 x1 y1 W HG1 Hj1).
Qed.
(** C34 refuted: two graphs whose sum is an exception. *)
Lemma C34_union_refuted_proof : ∃ h g1 g2, reachable h ∧ g1 < length (h_graphs h) ∧ g2 < length (h_graphs h) ∧
  (add_graphs disp0 default_add id g1 g2 h).2 = Err AttributeError.
Proof.
  exists two_graphs, 0, 1. split; [apply two_graphs_reachable|]. split; [vm_compute; lia|]. split; [vm_compute; lia|].
  by vm_compute.
Qed.
(** The sum of two graphs without edges, with a set order that is not the order of
    insertion. *)
Lemma C34_union_ex_proof : reachable edge_free ∧ (∀ l : list name, reverse l ≡ₚ l) ∧
  ∃ h', add_graphs disp0 default_add reverse 0 1 edge_free = (h', Ok 2) ∧ names_of h' 2 = [NStr "c"; NStr "b"; NStr "a"].
Proof.
  split; [apply edge_free_reachable|]. split; [intros; apply reverse_Permutation|]. eexists. split; [vm_compute; reflexivity|]. by vm_compute.
Qed.

Lemma entry_get h (l : dict name nref) k : dget ((λ kr, (kr.1, node_entry h kr.2)) <$> l) k = node_entry h <$> dget l k.
Proof. induction l as [|[k' r] l IH]; [done|]. cbn. by destruct (decide (k = k')). Qed.
(** C35, partial: whenever g1 + g2 succeeds, a node of only one of the graphs keeps
    its value; a node of both gets the sum of the second value with itself (and not
    with the first value). *)
Lemma C35_values_partial_proof : ∀ h dflt f order g1 g2 h' g, reachable h → (∀ l, order l ≡ₚ l) →
  add_graphs dflt f order g1 g2 h = (h', Ok g) →
  ∀ k r N, named h' g k r → h_nodes h' !! r = Some N →
  (∀ r1 N1, named h g1 k r1 → h_nodes h !! r1 = Some N1 → (∀ r2, ¬ named h g2 k r2) → n_value N = n_value N1) ∧
  (∀ r2 N2, named h g2 k r2 → h_nodes h !! r2 = Some N2 → (∀ r1, ¬ named h g1 k r1) → n_value N = n_value N2) ∧
  (∀ r1 r2 N2, named h g1 k r1 → named h g2 k r2 → h_nodes h !! r2 = Some N2 → f (n_value N2) (n_value N2) = Ok (n_value N)).
Proof.
  intros h dflt f order g1 g2 h' g Hr Hord Heq k r N Hk HN. pose proof (reachable_WF h Hr) as W.
  assert (reachable (add_graphs dflt f order g1 g2 h).1) as Hr' by (exact (reach_call h (CAdd dflt f order g1 g2) Hr I)).
  rewrite Heq in Hr'. pose proof (reachable_WF h' Hr') as W'. clear Hr'.
  destruct (C34_union_partial_proof h dflt f order g1 g2 h' g Hr Hord Heq) as (_ & Hnames & _).
  destruct (add_run h dflt f order g1 g2 h' g W Heq) as (G1 & G2 & D1 & D2 & d & h1 & HG1 & HG2 & Hno1 & Hno2 & Hd & W1 & Hns & Hes & _ & Hlen & Hof & Hst).
  destruct (add_repr_run h G1 G2 D1 D2 f order d Hd) as (Hed & Hov & nds & Hn & Hnk & Hent).
  assert (∃ a, (k, a) ∈ nds) as [a Ha].
  { assert (k ∈ names_of h' g) as Hin. { destruct Hk as (G & HG & Hk). unfold names_of. rewrite HG. apply elem_of_list_fmap. by exists (k, r). }
    rewrite Hnames, elem_of_distinct in Hin. unfold names_of in Hin. rewrite HG1, HG2 in Hin.
    assert (k ∈ nds.*1) as ([k' a] & -> & ?)%elem_of_list_fmap; [|eauto]. rewrite Hnk, Hord. by apply elem_of_nub. }
  pose proof (Hent k a Ha) as He.
  assert (made_with h' g k a) as (r' & N' & Hr' & HN' & _ & Hv & _).
  { unfold graph_of in Hof. cbv zeta in Hof. rewrite Hov in Hof.
    rewrite <-Hns, <-Hes in Hst. eapply (graph_of_made h1 false true dflt d nds h' g); try done.
    - rewrite Hnk, Hord. apply NoDup_nub.
    - intros k' a' Hin. apply Hent in Hin. revert Hin. unfold add_node_entry. rewrite !entry_get.
      assert (Hpl : ∀ r0, plain_style (a_style (node_entry h r0))).
      { intros r0. unfold node_entry. destruct (h_nodes h !! r0) as [N0|]; cbn; [|by left]. destruct (n_style N0); cbn; [right; eauto|by left]. }
      destruct (dget (g_nodes G1) k') as [ra|], (dget (g_nodes G2) k') as [rb|]; cbn; [|intros [= <-]; apply Hpl|intros [= <-]; apply Hpl|done].
      intros (v & _ & [= <-])%rbind_Ok. cbn. destruct (Hpl ra) as [->|[s ->]]; [apply Hpl|right; by exists s]. }
  assert (r' = r) as -> by (exact (named_inj h' g k r' r W' Hr' Hk)). assert (N' = N) as -> by congruence. rewrite Hv. clear Hv.
  unfold add_node_entry in He. rewrite !entry_get in He.
  assert (Hget : ∀ g0 G0 r0, h_graphs h !! g0 = Some G0 → named h g0 k r0 → dget (g_nodes G0) k = Some r0).
  { intros g0 G0 r0 HG0 (G & HG & Hin). assert (G = G0) as -> by congruence. apply dget_in_Some; [by apply (wf_gkeys _ W g0)|done]. }
  assert (Hnot : ∀ g0 G0, h_graphs h !! g0 = Some G0 → (∀ r0, ¬ named h g0 k r0) → dget (g_nodes G0) k = None).
  { intros g0 G0 HG0 Hno. apply dget_None. intros [r0 Hin]%elem_of_dkeys. apply (Hno r0). by exists G0. }
  split_and!.
  - intros r1 N1 H1 HN1 H2. rewrite (Hget _ _ _ HG1 H1), (Hnot _ _ HG2 H2) in He. cbn in He. injection He as <-. unfold node_entry. by rewrite HN1.
  - intros r2 N2 H2 HN2 H1. rewrite (Hget _ _ _ HG2 H2), (Hnot _ _ HG1 H1) in He. cbn in He. injection He as <-. unfold node_entry. by rewrite HN2.
  - intros r1 r2 N2 H1 H2 HN2. rewrite (Hget _ _ _ HG1 H1), (Hget _ _ _ HG2 H2) in He. cbn in He. apply rbind_Ok in He as (v & Hf & [= <-]).
    unfold node_entry in Hf at 1 2. rewrite HN2 in Hf. done.
Qed.
(** C35 refuted: the value of a is 1 in the first graph and 10 in the second, and 20
    in the sum. *)
Lemma C35_values_refuted_proof : ∃ h g1 g2 h' g r1 N1 r2 N2 r N, reachable h ∧ add_graphs disp0 default_add id g1 g2 h = (h', Ok g) ∧
  named h g1 (NStr "a") r1 ∧ h_nodes h !! r1 = Some N1 ∧ named h g2 (NStr "a") r2 ∧ h_nodes h !! r2 = Some N2 ∧
  named h' g (NStr "a") r ∧ h_nodes h' !! r = Some N ∧ default_add (n_value N1) (n_value N2) ≠ Ok (n_value N).
Proof.
  exists edge_free, 0, 1. eexists _, 2, 0, _, 2, _, 4, _. split; [apply edge_free_reachable|]. split; [vm_compute; reflexivity|].
  split; [eexists; split; [by vm_compute|left]|]. split; [vm_compute; reflexivity|]. split; [eexists; split; [by vm_compute|left]|]. split; [vm_compute; reflexivity|].
  split; [eexists; split; [by vm_compute|left]|]. split; [vm_compute; reflexivity|]. by vm_compute.
Qed.
(** The values of the three nodes in the sum of the two graphs. *)
Lemma C35_values_ex_proof : reachable edge_free ∧ ∃ h', add_graphs disp0 default_add id 0 1 edge_free = (h', Ok 2) ∧
  names_of h' 2 = [NStr "a"; NStr "b"; NStr "c"] ∧ n_value <$> drop 4 (h_nodes h') = [PInt 20; PInt 5; PInt 7].
Proof. split; [apply edge_free_reachable|]. eexists. split; [vm_compute; reflexivity|]. by vm_compute. Qed.

(** * from_object *)
(** C28, partial: if __hash__ of the object gives an integer, as hash does,
    from_object raises UnboundLocalError; all it did is making an empty graph. *)
Lemma C28_from_object_partial_proof : ∀ (Obj : Type) (dec : EqDecision Obj) (children parents : Obj → list Obj) (hash : Obj → name)
  (ostr : Obj → string) (h : heap) (fuel : nat) (d : display) (obj : Obj) (strict : bool) (depth height : option Z) (z : Z), hash obj = NInt z →
  (from_object children parents hash ostr fuel d obj strict depth height h).2 = Err UnboundLocalError ∧
  h_nodes (from_object children parents hash ostr fuel d obj strict depth height h).1 = h_nodes h ∧
  h_edges (from_object children parents hash ostr fuel d obj strict depth height h).1 = h_edges h ∧
  h_graphs (from_object children parents hash ostr fuel d obj strict depth height h).1 = (h_graphs h ++ [MkGraph [] strict true 0 (Some d)])%list.
Proof.
  intros Obj dec children parents hash ostr h fuel d obj strict depth height z Hz. unfold from_object, sbind, new_graph, new_g. rewrite Hz. done.
Qed.
(** C28 refuted: an object without relatives, with hash 5. *)
Lemma C28_from_object_refuted_proof : ∃ (children parents : nat → list nat) hash ostr h obj, reachable h ∧
  (from_object children parents hash ostr 10 disp0 obj false None None h).2 = Err UnboundLocalError.
Proof.
  exists (λ _, []), (λ _, []), (λ _, NInt 5), (λ _, "o"%string), empty_heap, 0. split; [constructor|]. by vm_compute.
Qed.
(** C28, instance: an object with two children, hashed by number. *)
Lemma C28_from_object_ex_proof : (λ n : nat, NInt (Z.of_nat n)) 7 = NInt 7 ∧
  (from_object (λ n, if decide (n = 7) then [8; 9] else []) (λ _, []) (λ n, NInt (Z.of_nat n)) (λ _, "o"%string) 10 disp0 7 true None None sample).2 = Err UnboundLocalError.
Proof. by vm_compute. Qed.
(** C32 and C34, instance: graph 1 of the sample has an edge. *)
Lemma C34_fails_ex_proof : reachable sample ∧ 0 < length (h_graphs sample) ∧ 1 < length (h_graphs sample) ∧ joins sample 1 6 4 5 ∧
  (add_graphs disp0 default_add id 0 1 sample).2 = Err AttributeError ∧ (graph_append 0 (OGraph 1) sample).2 = Err TypeError.
Proof. split; [apply sample_reachable|]. split_and!; try (vm_compute; lia); [|by vm_compute..]. eexists. by vm_compute. Qed.
(** A dictionary with two nodes and
    an edge. *)
Definition edge_repr : grepr :=
  MkRepr None None None None None None None None None None None (inr [NStr "b"; NStr "c"]) [E2 (NStr "b") (NStr "c")] None None None None.
(** C32, instance for Graph(obj): the two nodes of the first graph of the example, and a
    dictionary with two nodes and an edge. *)
Lemma C32_graph_of_ex_proof : reachable edge_free ∧ 0 < length (h_graphs edge_free) ∧
  (∃ h', graph_of true false disp0 (OGraph 0) edge_free = (h', Ok 2) ∧ names_of h' 2 = names_of edge_free 0) ∧
  ∃ h', graph_of true false disp0 (ODict edge_repr) edge_free = (h', Ok 2) ∧ names_of h' 2 = [NStr "b"; NStr "c"] ∧
    ids_of h' 2 = [(NStr "b", NStr "c", RId None)].
Proof.
  split; [apply edge_free_reachable|]. split; [vm_compute; lia|]. split.
  - eexists. split; [vm_compute; reflexivity|]. by vm_compute.
  - eexists. split; [vm_compute; reflexivity|]. by vm_compute.
Qed.
