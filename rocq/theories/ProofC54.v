(** Theorems added after seeded bugs had shown gaps: C22, C38, C46, C58, C77, C79. *)
From Verif Require Export SpecTight SpecOver Samples ModelQuery ModelObj ProofC3.
From Verif Require Import ProofC1 ProofC4 ProofC13 ProofC14 ProofC25 ProofC33.
Local Open Scope string_scope.
Local Open Scope list_scope.

Lemma escape_escaped s : escaped s (escape s).
Proof.
  induction s as [|c s IH]; cbn; [constructor|]. unfold eqb. destruct (decide (c = quote)) as [->|Hc].
  - rewrite bool_decide_eq_true_2 by done. by constructor.
  - rewrite bool_decide_eq_false_2 by done. by constructor.
Qed.
(** C22.  The text that stands for a node in the trees: its label, or its name if the label is
    None, 0 or empty, with a backslash before each double quote. *)
Lemma C22_label_proof : ∀ env h r N, h_nodes h !! r = Some N →
  ∃ t, node_label env h r = Ok t ∧ escaped (label_text env h N) t.
Proof.
  intros env h r N HN. unfold node_label. rewrite (get_n_Ok _ _ _ HN). cbn [rbind]. eexists. split; [reflexivity|]. apply escape_escaped.
Qed.
(** C22.  Example: an empty label, and one with quotes. *)
Lemma C22_label_ex_proof : ∃ h N0 N1, reachable h ∧ h_nodes h !! 0 = Some N0 ∧ h_nodes h !! 1 = Some N1 ∧
  label_text env0 h N0 = "a" ∧ node_label env0 h 0 = Ok "a" ∧ node_label env0 h 1 = Ok ("x\" +:+ Qt).
Proof.
  exists (run [CNew false true disp0; CAddNode 0 (an "a") (nargs0 <| a_label := PStr "" |>);
    CAddNode 0 (an "b") (nargs0 <| a_label := PStr ("x" +:+ Qt) |>)] empty_heap).
  eexists _, _. split; [reach|]. repeat (split; [vm_compute; reflexivity|]). vm_compute; reflexivity.
Qed.

(** C38.  Nodes whose names are both str or both int, or whose indices differ: the comparisons
    agree with the order of (index, name) pairs as in C38_comparison; ints are ordered by size. *)
Lemma C38_kinds_proof : ∀ h x y X Y, h_nodes h !! x = Some X → h_nodes h !! y = Some Y →
  (n_index X = n_index Y → same_kind (n_id X) (n_id Y)) → ∃ lt eq gt,
    node_lt h x y = Ok lt ∧ node_eq h x y = Ok eq ∧ node_gt h x y = Ok gt ∧
    node_le h x y = Ok (lt || eq) ∧ node_ge h x y = Ok (gt || eq) ∧ node_ne h x y = Ok (negb eq) ∧ node_lt h y x = Ok gt ∧
    (lt, eq, gt) ∈ [(true, false, false); (false, true, false); (false, false, true)] ∧
    (lt = true ↔ precedes h x y) ∧ (gt = true ↔ precedes h y x) ∧ (eq = true ↔ (n_index X, n_id X) = (n_index Y, n_id Y)).
Proof.
  intros h x y X Y HX HY Hk0.
  assert (keys_ok (nkey X) (nkey Y)) as Hk by exact Hk0.
  destruct (compare_run h x y X Y HX HY Hk) as (c & Hc & Hord).
  destruct (compare_run h y x Y X HY HX (keys_ok_sym _ _ Hk)) as (c' & Hc' & Hord').
  assert (Hp1 : precedes h x y ↔ key_before (nkey X) (nkey Y)).
  { split; [|by exists X, Y]. intros (X' & Y' & ? & ? & ?). by assert (X' = X) as <- by congruence; assert (Y' = Y) as <- by congruence. }
  assert (Hp2 : precedes h y x ↔ key_before (nkey Y) (nkey X)).
  { split; [|by exists Y, X]. intros (X' & Y' & ? & ? & ?). by assert (X' = Y) as <- by congruence; assert (Y' = X) as <- by congruence. }
  assert (He : node_eq h x y = Ok (bool_decide (nkey X = nkey Y)) ∧ node_ne h x y = Ok (negb (bool_decide (nkey X = nkey Y)))).
  { unfold node_eq, node_ne, get_n. rewrite HX, HY. cbn [rbind]. unfold nkey, eqb. done. }
  destruct He as [He1 He2]. fold (nkey X) (nkey Y).
  exists (match c with Lt => true | _ => false end), (bool_decide (nkey X = nkey Y)), (match c with Gt => true | _ => false end).
  unfold node_lt, node_gt, node_le, node_ge. rewrite Hc, Hc', He1, He2, Hp1, Hp2. cbn [rbind].
  destruct c; simpl in Hord.
  - rewrite bool_decide_true by done. rewrite Hord in Hord' |- *. assert (c' = Eq) as -> by (destruct c'; [done|by apply before_irrefl in Hord'..]).
    pose proof (before_irrefl (nkey Y)). split_and!; try done. right. left.
  - rewrite bool_decide_false by (intros E; rewrite E in Hord; by apply before_irrefl in Hord).
    assert (c' = Gt) as ->.
    { destruct c'; [rewrite Hord' in Hord; by apply before_irrefl in Hord|by apply before_asym in Hord'|done]. }
    pose proof (before_asym _ _ Hord). assert (nkey X ≠ nkey Y) by (intros E; rewrite E in Hord; by apply before_irrefl in Hord).
    split_and!; try done. left.
  - rewrite bool_decide_false by (intros E; rewrite E in Hord; by apply before_irrefl in Hord).
    assert (c' = Lt) as ->.
    { destruct c'; [rewrite Hord' in Hord; by apply before_irrefl in Hord|done|by apply before_asym in Hord']. }
    pose proof (before_asym _ _ Hord). assert (nkey X ≠ nkey Y) by (intros E; rewrite E in Hord; by apply before_irrefl in Hord).
    split_and!; try done. right. right. left.
Qed.
(** C38.  A node with a str name and one with an int name and the same index cannot be ordered:
    <, >, <= and >= raise TypeError; they are not equal. *)
Lemma C38_mixed_proof : ∀ h x y X Y, h_nodes h !! x = Some X → h_nodes h !! y = Some Y → n_index X = n_index Y →
  ¬ same_kind (n_id X) (n_id Y) →
  node_lt h x y = Err TypeError ∧ node_gt h x y = Err TypeError ∧ node_le h x y = Err TypeError ∧ node_ge h x y = Err TypeError ∧
  node_eq h x y = Ok false ∧ node_ne h x y = Ok true.
Proof.
  intros h x y X Y HX HY Hi Hk. unfold node_lt, node_gt, node_le, node_ge, node_eq, node_ne, node_compare, get_n.
  rewrite HX, HY. cbn [rbind]. rewrite Hi, Z.compare_refl. unfold eqb. rewrite bool_decide_false.
  - destruct (n_id X), (n_id Y); cbn in Hk |- *; try tauto; done.
  - intros [=H]. rewrite H in Hk. apply Hk. by destruct (n_id Y).
Qed.
(** C38.  Example: the nodes 9 and 10 with the same index, and a node with a str name and that
    index (made by calling Node directly). *)
Lemma C38_kinds_ex_proof : ∃ h X Y Z, reachable h ∧ h_nodes h !! 0 = Some X ∧ h_nodes h !! 1 = Some Y ∧ h_nodes h !! 2 = Some Z ∧
  (n_id X, n_index X) = (NInt 9, 7%Z) ∧ (n_id Y, n_index Y) = (NInt 10, 7%Z) ∧ (n_id Z, n_index Z) = (nm "a", 7%Z) ∧
  node_lt h 0 1 = Ok true ∧ node_ge h 0 1 = Ok false ∧ node_lt h 0 2 = Err TypeError ∧ node_eq h 0 2 = Ok false.
Proof.
  exists (run [CNew false true disp0; CNodeCtor 0 (NInt 9) nargs0 7; CNodeCtor 0 (NInt 10) nargs0 7; CNodeCtor 0 (nm "a") nargs0 7] empty_heap).
  eexists _, _, _. split; [reach_ctor|]. repeat (split; [vm_compute; reflexivity|]). vm_compute; reflexivity.
Qed.

(** C46.  With a label converter, the label attribute of a node statement holds what the
    converter makes of the text that Node.label gives: the label or name with a backslash
    before each double quote. *)
Lemma C46_converted_proof : ∀ env h g G D f r N, reachable h → h_graphs h !! g = Some G → g_disp G = Some D → d_node_conv D = Some f →
  h_nodes h !! r = Some N → n_graph N = Some g →
  ∃ t rest, escaped (label_text env h N) t ∧
    node_graphviz env h r = Ok (Qt +:+ name_str (n_id N) +:+ Qt +:+ " [label=" +:+ Qt +:+ pv_str env h (f (PStr t)) +:+ Qt +:+ rest).
Proof.
  intros env h g G D f r N Hr HG HD Hc HN Hg. destruct (node_graphviz_run env h g G D r N) as [attrs Ha]; [by apply reachable_WF|done..|].
  rewrite Hc in Ha. eexists _, _. split; [apply escape_escaped|]. rewrite Ha. unfold quoted. rewrite !append_assoc. reflexivity.
Qed.
(** C46.  Example: a converter that puts a text in front. *)
Lemma C46_converted_ex_proof : ∃ h, reachable h ∧ (∃ G D f, h_graphs h !! 0 = Some G ∧ g_disp G = Some D ∧ d_node_conv D = Some f) ∧
  node_graphviz env0 h 0 = Ok (Qt +:+ "a" +:+ Qt +:+ " [label=" +:+ Qt +:+ "*A" +:+ Qt +:+ "]").
Proof.
  exists (run [CNew false true (disp0 <| d_node_conv := Some (λ v, match v with PStr s => PStr ("*" +:+ s) | v => v end) |>);
    CAddNode 0 (an "a") (nargs0 <| a_label := PStr "A" |>)] empty_heap).
  split; [reach|]. split; [eexists _, _, _; repeat (split; [vm_compute; reflexivity|]); vm_compute; reflexivity|]. vm_compute; reflexivity.
Qed.
(** C58.  With a label converter for edges, the label attribute of an edge statement holds what
    the converter makes of the label; there is none if that is None.  An edge without label
    shows its value, which is not converted. *)
Lemma C58_converted_partial_proof : ∀ env h g G D f e x y E X Y, reachable h → h_graphs h !! g = Some G → g_disp G = Some D → d_edge_conv D = Some f →
  joins h g e x y → h_edges h !! e = Some E → h_nodes h !! x = Some X → h_nodes h !! y = Some Y →
  let v := match e_label E with PNone => e_value E | l => f l end in v ≠ PNone →
  ∃ rest, edge_graphviz env h e = Ok (Qt +:+ name_str (n_id X) +:+ Qt +:+ " -> " +:+ Qt +:+ name_str (n_id Y) +:+ Qt +:+
    "[label=" +:+ Qt +:+ pv_str env h v +:+ Qt +:+ rest).
Proof.
  intros env h g G D f e x y E X Y Hr HG HD Hc (E' & HE' & Hg & Hs & Ht) HE HNx HNy v Hv. pose proof (reachable_WF h Hr) as W. assert (E' = E) as -> by congruence.
  assert (edge_display_label h e = Ok v) as Hd.
  { unfold edge_display_label, v. rewrite (get_e_Ok _ _ _ HE). cbn [rbind]. unfold obj_display, get_display. rewrite Hg. cbn iota. rewrite (get_g_Ok _ _ _ HG). cbn [rbind].
    rewrite HD. cbn [rbind]. rewrite Hc. by destruct (e_label E). }
  unfold edge_graphviz. rewrite Hd. unfold edge_start, edge_end. rewrite !(get_e_Ok _ _ _ HE). cbn [rbind]. rewrite Hs, Ht. cbn [rbind].
  assert (∃ l, (match e_style E with None => Ok [] | Some s => match h_es h !! s with
      Some sty => Ok [es_graphviz env h sty] | None => Err Unmodelled end end) = Ok l) as [l ->].
  { destruct (e_style E) as [k|] eqn:Hst; [|eauto].
    destruct (lookup_lt_is_Some_2 (h_es h) k) as [sty Hsty]; [by eapply wf_estyle|]. rewrite Hsty. eauto. }
  cbn [rbind]. rewrite (get_n_Ok _ _ _ HNx), (get_n_Ok _ _ _ HNy). cbn [rbind]. clearbody v. clear Hd.
  assert (opt_part env h "label" v = [("label" +:+ "=" +:+ quoted (pv_str env h v))%string]) as -> by (by destruct v).
  cbn [app]. destruct (ProofC14.concat_cons " " ("label" +:+ "=" +:+ quoted (pv_str env h v)) (opt_part env h "tooltip" (e_tooltip E) ++ l)) as [t Htt].
  rewrite Htt. unfold quoted. rewrite !append_assoc. eexists. reflexivity.
Qed.
(** C58.  Example: a converted label, and a value that is not converted. *)
Lemma C58_converted_ex_proof : ∃ h, reachable h ∧ joins h 0 0 0 0 ∧ joins h 0 1 0 0 ∧ (∃ G D f, h_graphs h !! 0 = Some G ∧ g_disp G = Some D ∧ d_edge_conv D = Some f) ∧
  edge_graphviz env0 h 0 = Ok (Qt +:+ "a" +:+ Qt +:+ " -> " +:+ Qt +:+ "a" +:+ Qt +:+ "[label=" +:+ Qt +:+ "*A" +:+ Qt +:+ "]") ∧
  edge_graphviz env0 h 1 = Ok (Qt +:+ "a" +:+ Qt +:+ " -> " +:+ Qt +:+ "a" +:+ Qt +:+ "[label=" +:+ Qt +:+ "B" +:+ Qt +:+ "]").
Proof.
  exists (run [CNew false true (disp0 <| d_edge_conv := Some (λ v, match v with PStr s => PStr ("*" +:+ s) | v => v end) |>);
    CAddNode 0 (an "a") nargs0; CConnect 0 (an "a") (an "a") (eargs0 <| c_label := PStr "A" |>);
    CConnect 0 (an "a") (an "a") (eargs0 <| c_id := Some (nm "1") |> <| c_value := PStr "B" |>)] empty_heap).
  split; [reach|]. split; [eexists; split; [vm_compute; reflexivity|done]|]. split; [eexists; split; [vm_compute; reflexivity|done]|].
  split; [eexists _, _, _; repeat (split; [vm_compute; reflexivity|]); vm_compute; reflexivity|]. split; vm_compute; reflexivity.
Qed.

Lemma params_read (d : sdict) k : NoDup d.*1 → (∀ v, (k, v) ∈ d → dgetR d k = Ok v) ∧ (k ∉ d.*1 → dgetR d k = Err KeyError).
Proof.
  intros Hn. unfold dgetR. split.
  - intros v Hv. by rewrite (dget_in_Some d k v Hn Hv).
  - intros Hk. by rewrite (proj2 (dget_None d k) Hk).
Qed.
(** C77.  The keyword arguments that a new node or edge is made with are its first parameters:
    they are read back under their keys, and other keys raise KeyError. *)
Lemma C77_new_proof : ∀ h g k h', reachable h →
  (∀ G s a r, h_graphs h !! g = Some G → NStr s ∉ (g_nodes G).*1 → add_node g (AName (NStr s)) a h = (h', Ok (Some r)) → NoDup (a_params a).*1 →
     (∀ v, (k, v) ∈ a_params a → node_get_param h' r k = Ok v) ∧ (k ∉ (a_params a).*1 → node_get_param h' r k = Err KeyError)) ∧
  (∀ x y a s t e, denotes h g x s → denotes h g y t → (∀ e E, h_edges h !! e = Some E → e_raw E = RId (c_id a) → ¬ joins h g e s t) →
     connect g x y a h = (h', Ok e) → NoDup (c_params a).*1 →
     (∀ v, (k, v) ∈ c_params a → edge_get_param h' e k = Ok v) ∧ (k ∉ (c_params a).*1 → edge_get_param h' e k = Err KeyError)).
Proof.
  intros h g k h' Hr. pose proof (reachable_WF h Hr) as W. split.
  - intros G s a r HG Hf Ha Hn. rewrite (C02_add_node_fresh_proof h g G s a Hr HG Hf) in Ha.
    destruct (restyled _ _ _ _) as [[st l]|]; [|done]. injection Ha as <- <-. unfold node_get_param, get_n. cbn.
    rewrite lookup_app_r, Nat.sub_diag by lia. cbn. by apply params_read.
  - intros x y a s t e Hx Hy Hf Ha Hn.
    destruct (denotes_in_graph h g x s Hx) as (Gs & ks & HGs & Hks). destruct (wf_gnodes h W g Gs ks s HGs Hks) as (Ns & HNs & _).
    destruct (denotes_in_graph h g y t Hy) as (Gt & kt & HGt & Hkt). destruct (wf_gnodes h W g Gt kt t HGt Hkt) as (Nt & HNt & _).
    rewrite (C05_connect_new_proof h g x y a s t Ns Nt Hr Hx Hy HNs HNt Hf) in Ha.
    destruct (restyled _ _ _ _) as [[st l]|]; [|done]. injection Ha as <- <-. unfold edge_get_param, get_e. cbn.
    rewrite lookup_app_r, Nat.sub_diag by lia. cbn. by apply params_read.
Qed.
(** C77.  Example: a node and an edge with a parameter. *)
Lemma C77_new_ex_proof : ∃ h, reachable h ∧
  (let a := nargs0 <| a_params := [("size", PInt 7)] |> in let h' := (add_node 0 (an "z") a h).1 in
   (add_node 0 (an "z") a h).2 = Ok (Some 2) ∧ node_get_param h' 2 "size" = Ok (PInt 7) ∧ node_get_param h' 2 "x" = Err KeyError) ∧
  (let a := eargs0 <| c_params := [("size", PInt 7)] |> in let h' := (connect 0 (an "b") (an "a") a h).1 in
   (connect 0 (an "b") (an "a") a h).2 = Ok 1 ∧ edge_get_param h' 1 "size" = Ok (PInt 7) ∧ edge_get_param h' 1 "x" = Err KeyError).
Proof.
  exists (run (graph_calls ["a"; "b"] [("a", "b")]) empty_heap). split; [reach|].
  repeat split; vm_compute; reflexivity.
Qed.

(** C79.  NodeStyle and EdgeStyle called with a keyword argument that they do not know raise
    TypeError and make no object. *)
Lemma C79_keywords_proof : ∀ h (d : sdict),
  ((∃ k, k ∈ d.*1 ∧ k ∉ node_keywords) → make_nstyle d h = (h, Err TypeError)) ∧
  ((∃ k, k ∈ d.*1 ∧ k ∉ edge_keywords) → make_estyle d h = (h, Err TypeError)).
Proof.
  assert (Hc : ∀ (keys l : list string) (d : sdict), (∀ k, k ∈ keys ↔ k ∈ l) → (∃ k, k ∈ d.*1 ∧ k ∉ l) → check_kwargs keys d = Err TypeError).
  { intros keys l d Hk (k & H1 & H2). unfold check_kwargs. destruct (forallb _ _) eqn:E; [|done]. exfalso. rewrite forallb_forall in E.
    apply H2, Hk. eapply bool_decide_eq_true_1. apply (E k). by apply elem_of_list_In. }
  intros h d. split; intros H; unfold make_nstyle, make_estyle, sbind, sread, nstyle_ctor, estyle_ctor.
  - rewrite (Hc nstyle_keys node_keywords); [done| |done]. intros k. unfold nstyle_keys, node_keywords, node_attr_names. set_unfold. tauto.
  - rewrite (Hc estyle_keys edge_keywords); [done| |done]. intros k. unfold estyle_keys, edge_keywords, edge_attr_names. set_unfold. tauto.
Qed.
(** C79.  Example: a misspelt keyword. *)
Lemma C79_keywords_ex_proof : (∃ k, k ∈ ([("colour", PStr "red"); ("color", PStr "red")] : sdict).*1 ∧ k ∉ node_keywords) ∧
  (make_nstyle [("colour", PStr "red")] empty_heap).2 = Ok 0 ∧
  (make_nstyle [("colour", PStr "red"); ("color", PStr "red")] empty_heap).2 = Err TypeError ∧
  (make_estyle [("arrow_size", PInt 2); ("shape", PStr "box")] empty_heap).2 = Err TypeError.
Proof.
  split; [|vm_compute; done]. exists "color". split; [by right; left|]. unfold node_keywords, node_attr_names. set_unfold. intuition discriminate.
Qed.
(** C79.  style.copy() of a node style object always works and makes an object that looks the
    same and keeps in mind which colours are derived; style.invert_colours() always works and makes one
    with the inverted colours. *)
Lemma C79_derived_proof : ∀ h s t, reachable h → h_ns h !! s = Some t →
  (∃ t1, derive_nstyle false s h = (h <| h_ns := h_ns h ++ [t1] |>, Ok (length (h_ns h))) ∧ node_look t1 = node_look t ∧ derived t1 = derived t) ∧
  (∃ t1, derive_nstyle true s h = (h <| h_ns := h_ns h ++ [t1] |>, Ok (length (h_ns h))) ∧ inverted t t1 ∧ derived t1 = derived t).
Proof.
  intros h s t Hr Ht. destruct C56_coloured_partial_proof as (HC0 & _). destruct (HC0 h Hr) as [HC _]. specialize (HC s t Ht). split.
  - destruct (C56_copy_partial_proof t HC) as (cp & H1 & H2 & H3). exists cp. split_and!; [|done..].
    unfold derive_nstyle, sbind, sread, get_ns. rewrite Ht. cbn [rbind]. by rewrite H1.
  - destruct (ns_invert_run t HC) as (t' & H1 & _ & H2 & H3 & H4 & H5 & H6 & _ & H7). exists t'. split_and!; [| |done].
    + unfold derive_nstyle, sbind, sread, get_ns. rewrite Ht. cbn [rbind]. by rewrite H1.
    + constructor; try done. injection H6 as ->->->->->_. done.
Qed.
(** C79.  The same for edge style objects, unless they come from copying a graph: then both raise
    AttributeError.  The label style is not kept. *)
Lemma C79_edge_derived_proof : ∀ h s t, reachable h → h_es h !! s = Some t →
  match es_text_based t with
  | Some b => (∃ t1, derive_estyle false s h = (h <| h_es := h_es h ++ [t1] |>, Ok (length (h_es h))) ∧
      edge_look t1 = edge_look t ∧ es_text_based t1 = Some b ∧ es_label_style t1 = PStr "below") ∧
    (∃ t1, derive_estyle true s h = (h <| h_es := h_es h ++ [t1] |>, Ok (length (h_es h))) ∧ edge_inverted b t t1)
  | None => derive_estyle false s h = (h, Err AttributeError) ∧ derive_estyle true s h = (h, Err AttributeError)
  end.
Proof.
  intros h s t Hr Ht. destruct C56_coloured_partial_proof as (HC0 & _). destruct (HC0 h Hr) as [_ HC]. specialize (HC s t Ht).
  unfold derive_estyle, sbind, sread, get_es. rewrite Ht. cbn [rbind]. clear Hr HC0 Ht. destruct HC as [tc Htc].
  destruct t as [c tx tb op fo ts ar ls lw ex]. cbn in Htc. subst tx. destruct tb as [b|]; cbn [es_text_based].
  - split; [eexists; split_and!; reflexivity|]. destruct b; (eexists; split; [reflexivity|constructor; reflexivity]).
  - done.
Qed.
(** C79.  Example: the copy and the inverse of a red style, and of an edge style. *)
Lemma C79_derived_ex_proof : ∃ h t t1 t2, reachable h ∧ h_ns h !! 0 = Some t ∧ ns_colour t = CName "red" ∧
  h_ns (derive_nstyle false 0 h).1 !! 1 = Some t1 ∧ ns_colour t1 = CName "red" ∧
  h_ns (derive_nstyle true 0 h).1 !! 1 = Some t2 ∧ ns_colour t2 = CInvert (CName "red") ∧
  (∃ e, h_es h !! 0 = Some e ∧ es_text_based e = Some true ∧ (derive_estyle true 0 h).2 = Ok 1).
Proof.
  exists (run [CNStyleNew [("colour", PStr "red")]; CEStyleNew [("colour", PStr "red")]] empty_heap). eexists _, _, _.
  split; [reach|]. repeat (split; [vm_compute; reflexivity|]). eexists. repeat (split; [vm_compute; reflexivity|]). vm_compute; reflexivity.
Qed.
