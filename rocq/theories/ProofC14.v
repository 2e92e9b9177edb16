(** Graphviz output. *)
From Verif Require Export SpecDot ProofBuild Samples ProofC3.
Local Open Scope string_scope.
Local Open Scope list_scope.

Lemma append_assoc (a b c : string) : (a +:+ b) +:+ c = a +:+ (b +:+ c).
Proof. induction a as [|x a IH]; [done|]. change (String x ((a +:+ b) +:+ c) = String x (a +:+ (b +:+ c))). by rewrite IH. Qed.
Lemma String_append c (a b : string) : String c a +:+ b = String c (a +:+ b).
Proof. done. Qed.
Lemma quote_backslash : quote ≠ backslash.
Proof. done. Qed.
Lemma read_escape l rest : safe l → read_str (escape l +:+ Qt +:+ rest) = Some (l, rest).
Proof.
  remember (String.length l) as n eqn:Hn. assert (Hle : String.length l ≤ n) by lia. clear Hn. revert l Hle.
  induction n as [|n IH]; intros l Hle Hs.
  { destruct l; [|cbn in Hle; lia]. cbn. done. }
  destruct l as [|c l]; [done|]. cbn [safe] in Hs. cbn [String.length] in Hle. cbn [escape].
  destruct (decide (c = backslash)) as [->|Hb].
  - change (eqb backslash quote) with false. cbn match. destruct l as [|d l]; [done|]. destruct Hs as (Hd1 & Hd2 & Hs). cbn [escape String.length] in *.
    destruct (eqb d quote) eqn:Hq; [by apply eqb_is in Hq|]. rewrite !String_append. cbn [read_str]. rewrite decide_False by done. rewrite decide_True by done.
    rewrite decide_False by done. rewrite IH by (try done; lia). destruct (decide (d = backslash)) as [->|]; [done|]. by rewrite decide_False by done.
  - destruct (eqb c quote) eqn:Hq.
    + apply eqb_is in Hq as ->. rewrite !String_append. cbn [read_str]. rewrite decide_False by done. rewrite !decide_True by done. rewrite IH by (try done; lia). done.
    + apply eqb_isnt in Hq. rewrite !String_append. cbn [read_str]. rewrite !decide_False by done. rewrite IH by (try done; lia). done.
Qed.
Lemma plain_safe s : plain s → safe s.
Proof. induction s as [|c s IH]; cbn; [done|]. intros (H1 & H2 & H3). rewrite decide_False by done. auto. Qed.
Lemma plain_escape s : plain s → escape s = s.
Proof.
  induction s as [|c s IH]; cbn; [done|]. intros (H1 & H2 & H3). destruct (eqb c quote) eqn:Hq; [by apply eqb_is in Hq|]. by rewrite IH.
Qed.
Lemma read_plain s rest : plain s → read_quoted (Qt +:+ s +:+ Qt +:+ rest) = Some (s, rest).
Proof.
  intros Hp. change (read_quoted (Qt +:+ ?x)) with (read_str x). rewrite <-(plain_escape s) at 1 by done. by apply read_escape, plain_safe.
Qed.
Lemma read_label l rest : safe l → read_quoted (quoted (escape l) +:+ rest) = Some (l, rest).
Proof.
  intros Hs. unfold quoted. rewrite !append_assoc. change (read_quoted (Qt +:+ ?x)) with (read_str x). by apply read_escape.
Qed.

(** * Node statements *)
Lemma concat_cons sep x l : ∃ t, String.concat sep (x :: l) = x +:+ t.
Proof. destruct l as [|y l]; cbn [String.concat]; [|eauto]. exists "". induction x as [|c x IH]; [done|]. rewrite String_append. by rewrite <-IH. Qed.
Lemma node_graphviz_run env h g G D r N : WF h → h_graphs h !! g = Some G → g_disp G = Some D → h_nodes h !! r = Some N → n_graph N = Some g →
  ∃ attrs, node_graphviz env h r = Ok (Qt +:+ name_str (n_id N) +:+ Qt +:+ " [label=" +:+
    quoted (pv_str env h (match d_node_conv D with Some f => f (PStr (escape (label_text env h N))) | None => PStr (escape (label_text env h N)) end)) +:+ attrs +:+ "]").
Proof.
  intros W HG HD HN Hg. unfold node_graphviz, node_display_label, node_label, obj_display, get_display. rewrite (get_n_Ok _ _ _ HN). cbn [rbind].
  rewrite Hg, (get_g_Ok _ _ _ HG). cbn [rbind]. rewrite HD. cbn [rbind]. fold (label_text env h N).
  set (v := match d_node_conv D with Some f => _ | None => _ end).
  assert (∃ l, (match n_style N with None => Ok [] | Some _ => let! sty := node_style h r in Ok [ns_graphviz env h sty] end) = Ok l) as [l ->].
  { destruct (n_style N) as [k|] eqn:Hst; [|eauto]. unfold node_style. rewrite (get_n_Ok _ _ _ HN). cbn [rbind]. rewrite Hst.
    destruct (lookup_lt_is_Some_2 (h_ns h) k) as [sty Hsty]; [by eapply wf_nstyle|]. rewrite Hsty. cbn. eauto. }
  cbn [rbind]. destruct (concat_cons " " ("label=" +:+ quoted (pv_str env h v)) (opt_part env h "tooltip" (n_tooltip N) ++ l)) as [t Ht].
  exists t. f_equal. rewrite Ht. unfold quoted. rewrite !append_assoc. done.
Qed.
Lemma edge_graphviz_run env h g G D e x y E Nx Ny : WF h → h_graphs h !! g = Some G → g_disp G = Some D → joins h g e x y →
  h_edges h !! e = Some E → h_nodes h !! x = Some Nx → h_nodes h !! y = Some Ny →
  ∃ rest, edge_graphviz env h e = Ok (Qt +:+ name_str (n_id Nx) +:+ Qt +:+ " -> " +:+ Qt +:+ name_str (n_id Ny) +:+ Qt +:+ rest) ∧
    (rest = "" ∨ ∃ attrs, rest = "[" +:+ attrs +:+ "]") ∧
    (d_edge_conv D = None → edge_text E ≠ PNone → ∃ t, rest = "[label=" +:+ quoted (pv_str env h (edge_text E)) +:+ t).
Proof.
  intros W HG HD (E' & HE' & Hg & Hs & Ht) HE HNx HNy. assert (E' = E) as -> by congruence.
  assert (∃ v, edge_display_label h e = Ok v ∧ (d_edge_conv D = None → v = edge_text E)) as (v & Hd & Hv).
  { unfold edge_display_label, edge_text. rewrite (get_e_Ok _ _ _ HE). cbn [rbind]. unfold obj_display, get_display. rewrite Hg. cbn iota. rewrite (get_g_Ok _ _ _ HG). cbn [rbind].
    rewrite HD. cbn [rbind]. destruct (e_label E); eexists; (split; [reflexivity|]); try done; by intros ->. }
  unfold edge_graphviz. rewrite Hd. unfold edge_start, edge_end. rewrite !(get_e_Ok _ _ _ HE). cbn [rbind]. rewrite Hs, Ht. cbn [rbind].
  assert (∃ l, (match e_style E with None => Ok [] | Some s => match h_es h !! s with
      Some sty => Ok [es_graphviz env h sty] | None => Err Unmodelled end end) = Ok l) as [l ->].
  { destruct (e_style E) as [k|] eqn:Hst; [|eauto].
    destruct (lookup_lt_is_Some_2 (h_es h) k) as [sty Hsty]; [by eapply wf_estyle|]. rewrite Hsty. eauto. }
  cbn [rbind]. rewrite (get_n_Ok _ _ _ HNx), (get_n_Ok _ _ _ HNy). cbn [rbind].
  set (parts := opt_part env h "label" v ++ _). eexists. split.
  - unfold quoted. rewrite !append_assoc. reflexivity.
  - split; [destruct parts; eauto|]. intros Hc He. specialize (Hv Hc). subst v. unfold opt_part in parts. destruct (edge_text E) eqn:HvE; try done; cbn [app] in parts.
    all: destruct (concat_cons " " ("label" +:+ "=" +:+ quoted (pv_str env h (edge_text E))) (opt_part env h "tooltip" (e_tooltip E) ++ l)) as [t Htt]; rewrite HvE in Htt; unfold opt_part in Htt.
    all: exists (t +:+ "]"); subst parts; rewrite Htt; rewrite !append_assoc; done.
Qed.
Lemma header_run env h g G D dir he wi pad : h_graphs h !! g = Some G → g_disp G = Some D → title_ok D →
  ∃ s, graphviz_header env h g dir he wi pad = Ok s ∧ starts_strict (g_strict G) s.
Proof.
  intros HG HD Ht. unfold graphviz_header, get_display. rewrite (get_g_Ok _ _ _ HG). cbn [rbind]. rewrite HD. cbn [rbind].
  assert (∃ a, header_attributes env h D = Ok a) as [a ->].
  - unfold header_attributes. destruct Ht as [->|(l & c & loc & Hl & Hloc)]; [cbn [rbind]; eauto|].
    assert (∃ a, header_label env h D = Ok a) as [a Ha].
    { unfold header_label. rewrite Hl, Hloc. destruct (_ && _); [eauto|]. destruct (d_label_bg D); cbn [rbind first_char]; eauto. }
    rewrite Hl, Ha, Hloc. cbn [rbind first_char]. eauto.
  - cbn [rbind]. eexists. split; [reflexivity|]. unfold starts_strict. destruct (g_strict G); eexists; rewrite !append_assoc; reflexivity.
Qed.
Lemma rmap_run {A B} (f : A → res B) (P : A → B → Prop) l : (∀ x, x ∈ l → ∃ y, f x = Ok y ∧ P x y) → ∃ ys, rmap f l = Ok ys ∧ Forall2 P l ys.
Proof.
  induction l as [|x l IH]; intros H; [by exists []|]. destruct (H x) as (y & Hy & Hp); [by left|]. destruct IH as (ys & Hys & HP); [intros z Hz; apply H; by right|].
  exists (y :: ys). cbn [rmap]. rewrite Hy. cbn [rbind]. rewrite Hys. split; [done|by constructor].
Qed.
Lemma node_written_read s id : node_written s id → plain id → node_read s id.
Proof. intros (attrs & ->) Hp. exists attrs. by rewrite read_plain. Qed.
Lemma edge_written_read s x y : edge_written s x y → plain x → plain y → edge_read s x y.
Proof. intros (rest & -> & Hr) Hx Hy. eexists _, rest. rewrite read_plain by done. split; [reflexivity|]. by rewrite read_plain. Qed.

(** C46: without a label converter, the label attribute of a node statement reads
    back as the label (or name), if no backslash stands in it before a quote, a line
    end or at the end.  Missing: the other texts, for which it is false. *)
Lemma C46_label_partial_proof : ∀ env h g G D r N, reachable h → h_graphs h !! g = Some G → g_disp G = Some D → d_node_conv D = None →
  h_nodes h !! r = Some N → n_graph N = Some g → safe (label_text env h N) →
  ∃ s rest, node_graphviz env h r = Ok (Qt +:+ name_str (n_id N) +:+ Qt +:+ " [label=" +:+ s) ∧ read_quoted s = Some (label_text env h N, rest).
Proof.
  intros env h g G D r N Hr HG HD Hc HN Hg Hs. destruct (node_graphviz_run env h g G D r N) as [attrs Ha]; [by apply reachable_WF|done..|].
  rewrite Hc in Ha. eexists _, _. split; [exact Ha|]. cbn [pv_str]. by apply read_label.
Qed.
(** A label with quotes and backslashes reads back. *)
Lemma C46_label_ex_proof : ∃ h N, h = run [CNew false true disp0; CAddNode 0 (an "a") (nargs0 <| a_label := PStr ("say " +:+ Qt +:+ "hi" +:+ Qt +:+ " to \n \\") |>)] empty_heap ∧
  reachable h ∧ h_nodes h !! 0 = Some N ∧ label_text env0 h N = "say " +:+ Qt +:+ "hi" +:+ Qt +:+ " to \n \\" ∧ safe (label_text env0 h N) ∧
  node_graphviz env0 h 0 = Ok (Qt +:+ "a" +:+ Qt +:+ " [label=" +:+ Qt +:+ "say \" +:+ Qt +:+ "hi\" +:+ Qt +:+ " to \n \\" +:+ Qt +:+ "]").
Proof.
  eexists _, _. split; [reflexivity|]. split; [reach|]. split; [vm_compute; reflexivity|]. split; [vm_compute; reflexivity|].
  split; [vm_compute; repeat split; discriminate|]. vm_compute; reflexivity.
Qed.
(** C46 refuted: a label that ends in a backslash swallows the closing quote. *)
Lemma C46_label_refuted_proof : ∃ h N s, reachable h ∧ h_nodes h !! 0 = Some N ∧ label_text env0 h N = "x\" ∧
  node_graphviz env0 h 0 = Ok (Qt +:+ name_str (n_id N) +:+ Qt +:+ " [label=" +:+ s) ∧ read_quoted s = None.
Proof.
  exists (run [CNew false true disp0; CAddNode 0 (an "a") (nargs0 <| a_label := PStr "x\" |>)] empty_heap). eexists _, (Qt +:+ "x\" +:+ Qt +:+ "]").
  split; [reach|]. split; [vm_compute; reflexivity|]. split; [vm_compute; reflexivity|]. split; vm_compute; reflexivity.
Qed.

(** C47: get_graphviz_str succeeds if the graph has display options and its label, if
    any, is text with a location; it consists of a header, one statement for each
    node in the order of the nodes, and one for each edge in the order of the edges,
    naming start and end.  Names without quotes and backslashes are read as they are. *)
Lemma C47_statements_proof : ∀ env h g G D dir height width pad, reachable h → h_graphs h !! g = Some G → g_disp G = Some D → title_ok D →
  ∃ ns es header nstrs estrs, graphviz_str env h g dir height width pad = Ok (dot_text header nstrs estrs) ∧ starts_strict (g_strict G) header ∧
  nodes h g = Ok ns ∧ NoDup ns ∧ (∀ r, r ∈ ns ↔ in_graph h g r) ∧ graph_edges h g = Ok es ∧ NoDup es ∧ (∀ e, e ∈ es ↔ ∃ x y, joins h g e x y) ∧
  Forall2 (λ r s, ∃ N, h_nodes h !! r = Some N ∧ node_written s (name_str (n_id N)) ∧ (plain (name_str (n_id N)) → node_read s (name_str (n_id N)))) ns nstrs ∧
  Forall2 (λ e s, ∃ x y X Y, joins h g e x y ∧ h_nodes h !! x = Some X ∧ h_nodes h !! y = Some Y ∧ edge_written s (name_str (n_id X)) (name_str (n_id Y)) ∧
    (plain (name_str (n_id X)) → plain (name_str (n_id Y)) → edge_read s (name_str (n_id X)) (name_str (n_id Y)))) es estrs.
Proof.
  intros env h g G D dir height width pad Hr HG HD Ht. pose proof (reachable_WF h Hr) as W.
  destruct (rmap_run (node_graphviz env h) (λ r s, ∃ N, h_nodes h !! r = Some N ∧ node_written s (name_str (n_id N)) ∧
    (plain (name_str (n_id N)) → node_read s (name_str (n_id N)))) (dvals (g_nodes G))) as (nstrs & Hns & HF).
  { intros r Hin. apply (elem_of_nodes h g) in Hin; [|done]. destruct Hin as (G' & k & HG' & Hk). assert (G' = G) as -> by congruence.
    destruct (wf_gnodes h W g G k r HG Hk) as (N & HN & HNid & HNg).
    destruct (node_graphviz_run env h g G D r N) as [attrs Ha]; [done..|]. eexists. split; [exact Ha|].
    match goal with |- ∃ N, _ ∧ node_written ?s _ ∧ _ => assert (node_written s (name_str (n_id N))) by (eexists (quoted _ +:+ attrs); by rewrite (append_assoc (quoted _))) end.
    exists N. split_and!; [done..|]. by apply node_written_read. }
  destruct (rmap_run (edge_graphviz env h) (λ e s, ∃ x y X Y, joins h g e x y ∧ h_nodes h !! x = Some X ∧ h_nodes h !! y = Some Y ∧ edge_written s (name_str (n_id X)) (name_str (n_id Y)) ∧
    (plain (name_str (n_id X)) → plain (name_str (n_id Y)) → edge_read s (name_str (n_id X)) (name_str (n_id Y)))) (all_edges h G)) as (estrs & Hes & HE).
  { intros e He. apply (elem_of_all_edges h g) in He; [|done..]. destruct He as (x & y & Hj). pose proof Hj as (E & HE' & _ & _ & _).
    destruct (joins_in_graph h g e x y) as [(G1 & k1 & HG1 & Hk1) (G2 & k2 & HG2 & Hk2)]; [done..|].
    destruct (wf_gnodes h W g G1 k1 x HG1 Hk1) as (X & HX & _). destruct (wf_gnodes h W g G2 k2 y HG2 Hk2) as (Y & HY & _).
    destruct (edge_graphviz_run env h g G D e x y E X Y) as (rest & Ha & Hb & _); [done..|]. eexists. split; [exact Ha|].
    match goal with |- ∃ x y X Y, _ ∧ _ ∧ _ ∧ edge_written ?s _ _ ∧ _ => assert (edge_written s (name_str (n_id X)) (name_str (n_id Y))) by (by exists rest) end.
    exists x, y, X, Y. split_and!; [done..|]. by apply edge_written_read. }
  set (dir' := if eqb dir "" then d_direction D else dir).
  destruct (header_run env h g G D dir' height width pad) as (header & Hh & Hst); [done..|].
  exists (dvals (g_nodes G)), (all_edges h G), header, nstrs, estrs. split_and!; try done.
  - unfold graphviz_str, get_display. rewrite (get_g_Ok _ _ _ HG). cbn [rbind]. rewrite HD. cbn [rbind]. fold dir'. rewrite (nodes_run _ _ _ HG). cbn [rbind]. rewrite Hns.
    cbn [rbind]. rewrite (graph_edges_run _ _ _ W HG). cbn [rbind]. rewrite Hes. cbn [rbind]. rewrite Hh. cbn [rbind]. done.
  - by apply nodes_run.
  - by eapply NoDup_nodes.
  - intros r. by apply elem_of_nodes.
  - by apply graph_edges_run.
  - apply NoDup_nub.
  - intros e. by apply elem_of_all_edges.
Qed.
(** A graph of three nodes, one with a style, and two edges, one with a label. *)
Definition dot_sample : heap := Eval vm_compute in run [CNew true true disp0; CAddNode 0 (an "a") nargs0; CAddNode 0 (an "b") (nargs0 <| a_label := PStr "B" |>);
  CAddNode 0 (an "c") nargs0; CConnect 0 (an "a") (an "b") (eargs0 <| c_label := PStr "ab" |>); CConnect 0 (an "b") (an "c") eargs0] empty_heap.
Lemma dot_sample_reachable : reachable dot_sample.
Proof.
  change dot_sample with (run [CNew true true disp0; CAddNode 0 (an "a") nargs0; CAddNode 0 (an "b") (nargs0 <| a_label := PStr "B" |>);
  CAddNode 0 (an "c") nargs0; CConnect 0 (an "a") (an "b") (eargs0 <| c_label := PStr "ab" |>); CConnect 0 (an "b") (an "c") eargs0] empty_heap). reach.
Qed.
(** The text of a graph of three nodes and two edges. *)
Lemma C47_statements_ex_proof : ∃ h G D header, reachable h ∧ h_graphs h !! 0 = Some G ∧ g_disp G = Some D ∧ title_ok D ∧
  graphviz_str env0 h 0 "" PNone PNone PNone = Ok (dot_text header
    [Qt +:+ "a" +:+ Qt +:+ " [label=" +:+ Qt +:+ "a" +:+ Qt +:+ "]"; Qt +:+ "b" +:+ Qt +:+ " [label=" +:+ Qt +:+ "B" +:+ Qt +:+ "]"; Qt +:+ "c" +:+ Qt +:+ " [label=" +:+ Qt +:+ "c" +:+ Qt +:+ "]"]
    [Qt +:+ "a" +:+ Qt +:+ " -> " +:+ Qt +:+ "b" +:+ Qt +:+ "[label=" +:+ Qt +:+ "ab" +:+ Qt +:+ "]"; Qt +:+ "b" +:+ Qt +:+ " -> " +:+ Qt +:+ "c" +:+ Qt]).
Proof.
  eexists dot_sample, _, _, (match graphviz_header env0 dot_sample 0 "" PNone PNone PNone with Ok s => s | Err _ => "" end).
  split; [apply dot_sample_reachable|]. split; [vm_compute; reflexivity|]. split; [vm_compute; reflexivity|]. split; [right; eexists _, _, _; by split|].
  vm_compute; reflexivity.
Qed.

(** C58: a node name without quotes and backslashes reads back from the node
    statement; an edge label (or value) without them reads back from the edge
    statement, if there is no label converter.  Missing: the other texts, and that
    different nodes have different identifiers; both are false. *)
Lemma C58_plain_partial_proof : ∀ env h g G D, reachable h → h_graphs h !! g = Some G → g_disp G = Some D →
  (∀ r N, h_nodes h !! r = Some N → n_graph N = Some g → plain (name_str (n_id N)) →
    ∃ s rest, node_graphviz env h r = Ok s ∧ read_quoted s = Some (name_str (n_id N), rest)) ∧
  (∀ e x y E X Y, joins h g e x y → h_edges h !! e = Some E → h_nodes h !! x = Some X → h_nodes h !! y = Some Y →
    plain (name_str (n_id X)) → plain (name_str (n_id Y)) → ∃ s mid rest, edge_graphviz env h e = Ok s ∧
    read_quoted s = Some (name_str (n_id X), " -> " +:+ mid) ∧ read_quoted mid = Some (name_str (n_id Y), rest) ∧
    (d_edge_conv D = None → edge_text E ≠ PNone → plain (pv_str env h (edge_text E)) →
      ∃ attr rest', rest = "[label=" +:+ attr ∧ read_quoted attr = Some (pv_str env h (edge_text E), rest'))).
Proof.
  intros env h g G D Hr HG HD. pose proof (reachable_WF h Hr) as W. split.
  - intros r N HN Hg Hp. destruct (node_graphviz_run env h g G D r N) as [attrs Ha]; [done..|]. eexists _, _. split; [exact Ha|]. by apply read_plain.
  - intros e x y E X Y Hj HE HX HY HpX HpY. destruct (edge_graphviz_run env h g G D e x y E X Y) as (rest & Ha & _ & Hl); [done..|].
    eexists _, _, rest. split; [exact Ha|]. split; [by apply read_plain|]. split; [by apply read_plain|]. intros Hc Hne Hp. destruct (Hl Hc Hne) as [t ->].
    unfold quoted. rewrite !append_assoc. eexists _, _. split; [reflexivity|]. by apply read_plain.
Qed.
(** The sample above: node b reads back, and so does the label of its edge. *)
Lemma C58_plain_ex_proof : ∃ N E s t, reachable dot_sample ∧ h_nodes dot_sample !! 1 = Some N ∧ n_graph N = Some 0 ∧ plain (name_str (n_id N)) ∧ joins dot_sample 0 0 0 1 ∧
  h_edges dot_sample !! 0 = Some E ∧ edge_text E = PStr "ab" ∧ node_graphviz env0 dot_sample 1 = Ok s ∧ read_quoted s = Some ("b", t).
Proof.
  eexists _, _, _, _. split; [apply dot_sample_reachable|]. split; [vm_compute; reflexivity|]. split; [done|]. split; [vm_compute; repeat split; discriminate|].
  split; [by eexists|]. split; [vm_compute; reflexivity|]. split; [done|]. split; vm_compute; reflexivity.
Qed.
(** C58 refuted: the name of a node with a quote in it is cut short there, so that the
    statement is not that of the node. *)
Lemma C58_quote_refuted_proof : ∃ h N s rest, reachable h ∧ h_nodes h !! 0 = Some N ∧ n_id N = NStr ("a" +:+ Qt +:+ "b") ∧
  node_graphviz env0 h 0 = Ok s ∧ read_quoted s = Some ("a", rest).
Proof.
  eexists (run [CNew false true disp0; CAddNode 0 (an ("a" +:+ Qt +:+ "b")) nargs0] empty_heap), _, _, _.
  split; [reach|]. split; [vm_compute; reflexivity|]. split; [vm_compute; reflexivity|]. split; vm_compute; reflexivity.
Qed.
(** C58 refuted: the label of an edge with a quote in it is cut short there. *)
Lemma C58_edge_label_refuted_proof : ∃ h E pre attr rest, reachable h ∧ h_edges h !! 0 = Some E ∧ e_label E = PStr ("x" +:+ Qt +:+ "y") ∧
  edge_graphviz env0 h 0 = Ok (pre +:+ "[label=" +:+ attr) ∧ read_quoted attr = Some ("x", rest).
Proof.
  eexists (run [CNew false true disp0; CAddNode 0 (an "a") nargs0; CConnect 0 (an "a") (an "a") (eargs0 <| c_label := PStr ("x" +:+ Qt +:+ "y") |>)] empty_heap), _,
    (Qt +:+ "a" +:+ Qt +:+ " -> " +:+ Qt +:+ "a" +:+ Qt), (Qt +:+ "x" +:+ Qt +:+ "y" +:+ Qt +:+ "]"), _.
  split; [reach|]. split; [vm_compute; reflexivity|]. split; [vm_compute; reflexivity|]. split; vm_compute; reflexivity.
Qed.
(** C58 refuted: the nodes 1 and '1' of a graph have the same statement. *)
Lemma C58_distinct_refuted_proof : ∃ h s, reachable h ∧ in_graph h 0 0 ∧ in_graph h 0 1 ∧
  node_graphviz env0 h 0 = Ok s ∧ node_graphviz env0 h 1 = Ok s.
Proof.
  eexists (run [CNew false true disp0; CAddNode 0 (an "1") nargs0; CNodeCtor 0 (NInt 1) nargs0 1] empty_heap), _.
  split; [reach_ctor|]. split; [eexists _, _; split; [vm_compute; reflexivity|]; vm_compute; apply elem_of_list_In; cbn; eauto|].
  split; [eexists _, _; split; [vm_compute; reflexivity|]; vm_compute; apply elem_of_list_In; cbn; eauto|]. split; vm_compute; reflexivity.
Qed.
