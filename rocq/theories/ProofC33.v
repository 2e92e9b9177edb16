(** Style objects in the hands of a program; the background colour: C79, C66. *)
From Verif Require Export SpecObj ProofColour ProofC17.
From Verif Require Import ProofCompl.
From Verif Require Import Samples.
Local Open Scope string_scope.
Local Open Scope list_scope.

Lemma set_n_only h s d h1 x : set_nstyle s d h = (h1, x) → only_nstyle s h h1.
Proof.
  unfold set_nstyle. intros Heq. assert (h1 = (complement_ns s d h).1) as -> by (by rewrite Heq).
  destruct (complement_ns_left h s d) as [->|(sty & d1 & sty' & _ & _ & _ & ->)]; [by split|]. split; try done.
  - simpl. by rewrite insert_length.
  - intros s' Hne. simpl. by rewrite list_lookup_insert_ne.
Qed.
Lemma set_e_only h s d h1 x : set_estyle s d h = (h1, x) → only_estyle s h h1.
Proof.
  unfold set_estyle. intros Heq. assert (h1 = (complement_es s d h).1) as -> by (by rewrite Heq).
  destruct (complement_es_left h s d) as [->|(sty & d1 & sty' & _ & _ & _ & ->)]; [by split|]. split; try done.
  - simpl. by rewrite insert_length.
  - intros s' Hne. simpl. by rewrite list_lookup_insert_ne.
Qed.

Section same_text.
  Context (env : penv) (h h1 : heap) (Hn : h_nodes h1 = h_nodes h) (He : h_edges h1 = h_edges h) (Hg : h_graphs h1 = h_graphs h).
  Lemma pv_str_nodes v : pv_str env h1 v = pv_str env h v.
  Proof. unfold pv_str. by rewrite Hn. Qed.
  Lemma opt_part_nodes k v : opt_part env h1 k v = opt_part env h k v.
  Proof. unfold opt_part. by rewrite pv_str_nodes. Qed.
  Lemma item_nodes o kv : style_item env h1 o kv = style_item env h o kv.
  Proof. destruct kv as [k []]; unfold style_item; rewrite ?pv_str_nodes; done. Qed.
  Lemma items_nodes o l : style_items env h1 o l = style_items env h o l.
  Proof. unfold style_items. f_equal. induction l as [|kv l IH]; [done|]. cbn [omap list_omap]. rewrite item_nodes, IH. done. Qed.
  Lemma node_graphviz_same r : 
    (∀ N, h_nodes h !! r = Some N → match n_style N with None => True | Some s => 
       ns_graphviz env h <$> h_ns h1 !! s = ns_graphviz env h <$> h_ns h !! s end) →
    node_graphviz env h1 r = node_graphviz env h r.
  Proof.
    intros Hs. unfold node_graphviz, node_display_label, node_label, node_style, obj_display, get_display, get_g, get_n. rewrite Hn, Hg.
    destruct (h_nodes h !! r) as [N|] eqn:HN; [|done]. cbn [rbind]. specialize (Hs N eq_refl). rewrite pv_str_nodes.
    destruct (match n_graph N with None => Err AttributeError | Some g => _ end) as [D|]; [|done]. cbn [rbind].
    rewrite !pv_str_nodes, !opt_part_nodes. destruct (n_style N) as [s|]; [|done].
    destruct (h_ns h1 !! s) as [t1|], (h_ns h !! s) as [t|]; try discriminate Hs; [|done]. cbn [rbind].
    assert (ns_graphviz env h1 t1 = ns_graphviz env h t1) as -> by apply items_nodes. injection Hs as ->. done.
  Qed.
  Lemma edge_graphviz_same e :
    (∀ E, h_edges h !! e = Some E → match e_style E with None => True | Some s => 
       es_graphviz env h <$> h_es h1 !! s = es_graphviz env h <$> h_es h !! s end) →
    edge_graphviz env h1 e = edge_graphviz env h e.
  Proof.
    intros Hs. unfold edge_graphviz, edge_display_label, edge_start, edge_end, obj_display, get_display, get_g, get_n, get_e. rewrite Hn, Hg, He.
    destruct (h_edges h !! e) as [E|] eqn:HE; [|done]. cbn [rbind]. specialize (Hs E eq_refl).
    assert (Hsty : match e_style E with None => Ok [] | Some s => match h_es h1 !! s with Some sty => Ok [es_graphviz env h1 sty] | None => Err Unmodelled end end
      = match e_style E with None => Ok [] | Some s => match h_es h !! s with Some sty => Ok [es_graphviz env h sty] | None => Err Unmodelled end end).
    { destruct (e_style E) as [s|]; [|done]. destruct (h_es h1 !! s) as [t1|], (h_es h !! s) as [t|]; try discriminate Hs; [|done].
      assert (es_graphviz env h1 t1 = es_graphviz env h t1) as -> by apply items_nodes. by injection Hs as ->. }
    rewrite Hsty. clear Hsty. destruct (match e_label E with PNone => _ | _ => _ end) as [l|]; [|done]. cbn [rbind].
    by rewrite !opt_part_nodes.
  Qed.
End same_text.

(** C79.  Assigning attributes of a style object changes this object only; nodes that do not
    use it keep their styles and are drawn as before, and so are all edges. *)
Lemma C79_others_proof : ∀ h s d h1 x, set_nstyle s d h = (h1, x) → only_nstyle s h h1 ∧
  (∀ r t, ¬ uses h r s → style_of h1 r t ↔ style_of h r t) ∧
  (∀ env r, ¬ uses h r s → node_graphviz env h1 r = node_graphviz env h r) ∧
  (∀ env e, edge_graphviz env h1 e = edge_graphviz env h e).
Proof.
  intros h s d h1 x H. pose proof (set_n_only _ _ _ _ _ H) as O. split; [done|]. destruct O as [On Oe Og Oes _ _ Ons]. split_and!.
  - intros r t Hu. unfold style_of. rewrite On. split; intros (N & k & HN & Hk & Ht); exists N, k; (split; [done|]; split; [done|]).
    + rewrite <-Ons; [done|]. intros ->. apply Hu. by exists N.
    + rewrite Ons; [done|]. intros ->. apply Hu. by exists N.
  - intros env r Hu. apply node_graphviz_same; try done. intros N HN. destruct (n_style N) as [k|] eqn:Hk; [|done].
    rewrite Ons; [done|]. intros ->. apply Hu. by exists N.
  - intros env e. apply edge_graphviz_same; try done. intros E _. destruct (e_style E); [|done]. by rewrite Oes.
Qed.
(** C79.  The same for edge styles. *)
Lemma C79_edge_others_proof : ∀ h s d h1 x, set_estyle s d h = (h1, x) → only_estyle s h h1 ∧
  (∀ e t, ¬ edge_uses h e s → edge_style_of h1 e t ↔ edge_style_of h e t) ∧
  (∀ env e, ¬ edge_uses h e s → edge_graphviz env h1 e = edge_graphviz env h e) ∧
  (∀ env r, node_graphviz env h1 r = node_graphviz env h r).
Proof.
  intros h s d h1 x H. pose proof (set_e_only _ _ _ _ _ H) as O. split; [done|]. destruct O as [On Oe Og Oes _ _ Ons]. split_and!.
  - intros r t Hu. unfold edge_style_of. rewrite Oe. split; intros (N & k & HN & Hk & Ht); exists N, k; (split; [done|]; split; [done|]).
    + rewrite <-Ons; [done|]. intros ->. apply Hu. by exists N.
    + rewrite Ons; [done|]. intros ->. apply Hu. by exists N.
  - intros env r Hu. apply edge_graphviz_same; try done. intros N HN. destruct (e_style N) as [k|] eqn:Hk; [|done].
    rewrite Ons; [done|]. intros ->. apply Hu. by exists N.
  - intros env e. apply node_graphviz_same; try done. intros E _. destruct (n_style E); [|done]. by rewrite Oes.
Qed.

Lemma ns_at h s : s < length (h_ns h) → ∃ t, h_ns h !! s = Some t.
Proof. apply lookup_lt_is_Some_2. Qed.
Ltac stored Hw := inversion Hw as [s' Hc|c' Hc|v' Hc]; subst;
    try (exfalso; revert Hc; apply (bool_decide_unpack (¬ _)); vm_compute; exact I);
    try (exfalso; apply Hc; apply (bool_decide_unpack _); vm_compute; exact I).
Lemma complement1_n t k v w : coloured t → k ∈ node_attr_names → stores k v w →
  ∃ t1, ns_complement [(k, v)] t = Ok t1 ∧ node_attrs t1 = dset (node_attrs t) k w.
Proof.
  intros ([f Hf] & [b Hb] & [x Hx]) Hks Hw. unfold node_attr_names in Hks.
  destruct t as [tc tf tb tt0 fb bb tb' tl to tfo ts tsh tss tex]. cbn in Hf, Hb, Hx. subst.
  repeat (apply elem_of_cons in Hks as [->|Hks]); [..|by apply elem_of_nil in Hks];
  stored Hw; (eexists; split; reflexivity).
Qed.
Lemma complement1_e t k v w : text_coloured t → k ∈ edge_attr_names → stores k v w →
  ∃ t1, es_complement [(k, v)] t = Ok t1 ∧ edge_attrs t1 = dset (edge_attrs t) k w.
Proof.
  intros [x Hx] Hks Hw. unfold edge_attr_names in Hks.
  destruct t as [tc tt0 tb to tfo ts tar tl tlw tex]. cbn in Hx. subst.
  repeat (apply elem_of_cons in Hks as [->|Hks]); [..|by apply elem_of_nil in Hks];
  stored Hw; (eexists; split; reflexivity).
Qed.

Lemma set_n_ok h s d t t1 : h_ns h !! s = Some t → ns_complement d t = Ok t1 →
  set_nstyle s d h = (h <| h_ns := <[s := t1]> (h_ns h) |>, Ok tt).
Proof. intros Hs Hd. by apply complement_ns_ok with t. Qed.
Lemma set_e_ok h s d t t1 : h_es h !! s = Some t → es_complement d t = Ok t1 →
  set_estyle s d h = (h <| h_es := <[s := t1]> (h_es h) |>, Ok tt).
Proof. intros Hs Hd. by apply complement_es_ok with t. Qed.

(** C79.  Assigning one attribute of a node style object always works, sets this attribute and
    no other one, and all nodes that use the object have the new attributes at once. *)
Lemma C79_assign_proof : ∀ h s t k v w, reachable h → h_ns h !! s = Some t → k ∈ node_attr_names → stores k v w →
  ∃ h1 t1, set_nstyle s [(k, v)] h = (h1, Ok tt) ∧ h_ns h1 !! s = Some t1 ∧
    node_attrs t1 = dset (node_attrs t) k w ∧ (∀ r, uses h r s → style_of h1 r t1).
Proof.
  intros h s t k v w Hr Hs Hk Hw. destruct (reachable_CI _ Hr) as [C _]. rewrite Forall_lookup in C. 
  destruct (complement1_n t k v w (C _ _ Hs) Hk Hw) as (t1 & Ht1 & Ha). 
  assert (Hl : <[s := t1]> (h_ns h) !! s = Some t1) by (apply list_lookup_insert; by eapply lookup_lt_Some).
  eexists _, t1. split; [by eapply set_n_ok|]. split; [done|]. split; [done|].
  intros r (N & HN & Hu). by exists N, s.
Qed.
(** C79.  The same for edge style objects. *)
Lemma C79_edge_assign_proof : ∀ h s t k v w, reachable h → h_es h !! s = Some t → k ∈ edge_attr_names → stores k v w →
  ∃ h1 t1, set_estyle s [(k, v)] h = (h1, Ok tt) ∧ h_es h1 !! s = Some t1 ∧
    edge_attrs t1 = dset (edge_attrs t) k w ∧ (∀ e, edge_uses h e s → edge_style_of h1 e t1).
Proof.
  intros h s t k v w Hr Hs Hk Hw. destruct (reachable_CI _ Hr) as [_ C]. rewrite Forall_lookup in C. 
  destruct (complement1_e t k v w (C _ _ Hs) Hk Hw) as (t1 & Ht1 & Ha). 
  assert (Hl : <[s := t1]> (h_es h) !! s = Some t1) by (apply list_lookup_insert; by eapply lookup_lt_Some).
  eexists _, t1. split; [by eapply set_e_ok|]. split; [done|]. split; [done|].
  intros r (N & HN & Hu). by exists N, s.
Qed.

Lemma ns_graphviz_colour env h t c : ns_graphviz env h (t <| ns_colour := c |>) = ns_graphviz env h t.
Proof. by destruct t. Qed.
Lemma colour_value_inj a b : colour_value a = colour_value b → a = b.
Proof. unfold colour_value. destruct a, b; try done. by intros [= ->]. Qed.
(** C79.  But assigning the main colour of a node style changes the statement of no node and of
    no edge in the DOT text: the colours that are drawn are always set already. *)
Lemma C79_colour_proof : ∀ h s t v w, reachable h → h_ns h !! s = Some t → stores "colour" v w →
  ∃ h1, set_nstyle s [("colour", v)] h = (h1, Ok tt) ∧
    (∀ env r, node_graphviz env h1 r = node_graphviz env h r) ∧ (∀ env e, edge_graphviz env h1 e = edge_graphviz env h e).
Proof.
  intros h s t v w Hr Hs Hw. 
  destruct (C79_assign_proof h s t "colour" v w Hr Hs ltac:(dec) Hw) as (h1 & t1 & Hset & Ht1 & Ha & _). exists h1. split; [done|].
  destruct (C79_others_proof _ _ _ _ _ Hset) as ([On Oe Og Oes _ _ Ons] & _ & _ & He). split; [|done].
  intros env r. apply node_graphviz_same; try done. intros N HN. destruct (n_style N) as [k|] eqn:Hk; [|done].
  destruct (decide (k = s)) as [->|Hne]; [|by rewrite Ons]. rewrite Ht1, Hs. simpl. f_equal.
  assert (t1 = t <| ns_colour := ns_colour t1 |> <| ns_fill_based := ns_fill_based t1 |> <| ns_border_based := ns_border_based t1 |> <| ns_text_based := ns_text_based t1 |>
     <| ns_lighter := ns_lighter t1 |> <| ns_extra := ns_extra t1 |>) as ->.
  { clear -Ha. destruct t, t1. unfold node_attrs in Ha. cbn in *. injection Ha. intros.
    repeat match goal with H : colour_value _ = colour_value _ |- _ => apply colour_value_inj in H end. by subst. }
  by destruct t.
Qed.
(** C79.  New style objects, made or derived from others, are used by no node or edge, and
    nothing else changes. *)
Lemma C79_new_proof : ∀ h s h1, reachable h →
  ((∃ d, make_nstyle d h = (h1, Ok s)) ∨ (∃ b s0, derive_nstyle b s0 h = (h1, Ok s))) →
  (∃ t, h1 = h <| h_ns := h_ns h ++ [t] |>) ∧ s = length (h_ns h) ∧ (∀ r, ¬ uses h1 r s).
Proof.
  intros h s h1 Hr Hm. pose proof (reachable_WF _ Hr) as W.
  assert (∃ t, h1 = h <| h_ns := h_ns h ++ [t] |> ∧ s = length (h_ns h)) as (t & -> & ->).
  { destruct Hm as [(d & Hm)|(b & s0 & Hm)]; revert Hm; unfold make_nstyle, derive_nstyle, sbind, sread, new_ns.
    - destruct (nstyle_ctor d) as [t|]; [|done]. intros [= <- <-]. by exists t.
    - destruct (let! sty := get_ns h s0 in _) as [t|]; [|done]. intros [= <- <-]. by exists t. }
  split; [by exists t|]. split; [done|]. intros r (N & HN & Hs). simpl in HN. pose proof (wf_nstyle _ W r N _ HN Hs). lia.
Qed.
(** C79.  The same for edge styles. *)
Lemma C79_edge_new_proof : ∀ h s h1, reachable h →
  ((∃ d, make_estyle d h = (h1, Ok s)) ∨ (∃ b s0, derive_estyle b s0 h = (h1, Ok s))) →
  (∃ t, h1 = h <| h_es := h_es h ++ [t] |>) ∧ s = length (h_es h) ∧ (∀ e, ¬ edge_uses h1 e s).
Proof.
  intros h s h1 Hr Hm. pose proof (reachable_WF _ Hr) as W.
  assert (∃ t, h1 = h <| h_es := h_es h ++ [t] |> ∧ s = length (h_es h)) as (t & -> & ->).
  { destruct Hm as [(d & Hm)|(b & s0 & Hm)]; revert Hm; unfold make_estyle, derive_estyle, sbind, sread, new_es.
    - destruct (estyle_ctor d) as [t|]; [|done]. intros [= <- <-]. by exists t.
    - destruct (let! sty := get_es h s0 in _) as [t|]; [|done]. intros [= <- <-]. by exists t. }
  split; [by exists t|]. split; [done|]. intros r (N & HN & Hs). simpl in HN. pose proof (wf_estyle _ W r N _ HN Hs). lia.
Qed.

Definition shared_calls : list call :=
  graph_calls ["a"; "b"; "c"] [("a", "b")] ++
  [CNStyleNew [("colour", PStr "red")]; CNodeStyle 0 (SObj 0); CNodeStyle 1 (SObj 0); CNStyleDerive false 0; CNodeStyle 2 (SObj 1)].
Definition shared : heap := Eval vm_compute in run shared_calls empty_heap.
Lemma shared_reachable : reachable shared.
Proof. assert (shared = run shared_calls empty_heap) as -> by (vm_compute; reflexivity). reach. Qed.
(** C79.  Example: a and b share a style object, c has a copy of it; the shape assigned to the
    shared object shows on a and b, not on c. *)
Lemma C79_ex_proof : reachable shared ∧ uses shared 0 0 ∧ uses shared 1 0 ∧ ¬ uses shared 2 0 ∧ stores "shape" (PStr "circle") (PStr "circle") ∧
  (let h1 := (set_nstyle 0 [("shape", PStr "circle")] shared).1 in
   (∃ t, style_of h1 0 t ∧ ns_shape t = PStr "circle") ∧ (∃ t, style_of h1 1 t ∧ ns_shape t = PStr "circle") ∧
   (∃ t, style_of h1 2 t ∧ ns_shape t = PStr "box")).
Proof.
  split; [apply shared_reachable|]. split; [eexists; by vm_compute|]. split; [eexists; by vm_compute|].
  split; [intros (N & HN & Hs); vm_compute in HN; injection HN as <-; vm_compute in Hs; discriminate Hs|].
  split; [apply stores_other; apply (bool_decide_unpack (¬ _)); vm_compute; exact I|].
  split_and!; (eexists; split; [do 2 eexists; by vm_compute|by vm_compute]).
Qed.
(** C79.  Not every attribute shows: node a is drawn the same after the colour of its style is
    set to blue, although the style gives blue as its colour. *)
Lemma C79_colour_refuted_proof : ∃ h s r t, reachable h ∧ uses h r s ∧ h_ns h !! s = Some t ∧ ns_colour t = CName "red" ∧
  ∃ h1 t1, set_nstyle s [("colour", PStr "blue")] h = (h1, Ok tt) ∧ style_of h1 r t1 ∧ ns_colour t1 = CName "blue" ∧
  ∀ env, node_graphviz env h1 r = node_graphviz env h r.
Proof.
  assert (∃ t, h_ns shared !! 0 = Some t ∧ ns_colour t = CName "red") as (t & Ht & Hc) by (eexists; by vm_compute).
  exists shared, 0, 0, t. split; [apply shared_reachable|]. split; [eexists; by vm_compute|].
  split; [exact Ht|]. split; [exact Hc|].
  assert (Hst : stores "colour" (PStr "blue") (PCol (CName "blue"))) by (apply stores_name; dec).
  destruct (C79_colour_proof shared 0 t _ _ shared_reachable Ht Hst) as (h1 & Hset & Hsame & _).
  destruct (C79_assign_proof shared 0 t "colour" _ _ shared_reachable Ht ltac:(dec) Hst) as (h2 & t1 & Hset2 & Ht1 & Ha & Hu).
  assert (h2 = h1) as -> by congruence. exists h1, t1. split; [done|]. split; [apply Hu; eexists; by vm_compute|].
  split; [|intros env; apply Hsame]. revert Ha. unfold node_attrs. destruct t1. cbn. by intros [= ->].
Qed.

(** C66.  The background colour can be changed at any time: it is what the header then shows,
    and nothing else changes. *)
Lemma C66_background_proof : ∀ h g G D v c, h_graphs h !! g = Some G → g_disp G = Some D → stores "colour" v (PCol c) →
  set_background g v h = (h <| h_graphs := <[g := G <| g_disp := Some (D <| d_background := c |>) |>]> (h_graphs h) |>, Ok tt).
Proof.
  intros h g G D v c HG HD Hv. assert (to_colour v = Ok c) as Hc.
  { inversion Hv as [s Hk|c' Hk|v' Hk]; subst; [done|done|]. exfalso. apply Hk. dec. }
  unfold set_background, sbind at 1, sread. rewrite Hc. unfold upd_disp, sbind, sread, get_g. rewrite HG, HD.
  unfold upd_g. by rewrite HG.
Qed.
(** C66.  Example. *)
Lemma C66_background_ex_proof : ∃ G D, h_graphs sample !! 0 = Some G ∧ g_disp G = Some D ∧ stores "colour" (PStr "pink") (PCol (CName "pink")) ∧
  d_background D ≠ CName "pink" ∧ ∃ G' D', h_graphs (set_background 0 (PStr "pink") sample).1 !! 0 = Some G' ∧ g_disp G' = Some D' ∧ d_background D' = CName "pink".
Proof.
  do 2 eexists. split; [by vm_compute|]. split; [by vm_compute|]. split; [apply stores_name; dec|]. split; [by vm_compute|].
  do 2 eexists. by vm_compute.
Qed.
