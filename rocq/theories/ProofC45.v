(** str of nodes and edges: C85. *)
From Verif Require Export ModelText SpecText2 Ops SpecOps Samples.
From Verif Require Import ProofC1 ProofC2b ProofC40 ProofC44.
Local Open Scope string_scope.
#[local] Arguments String.append !_ _ : simpl nomatch.

(** C85, partial.  Missing: names such as 1 and '1', and parallel edges, see below.  The text
    of a node of a graph is Node: and its name, that of an edge is Edge: and the texts of
    its ends with a dash between. *)
Lemma C85_text_partial_proof : ∀ h g, reachable h →
  (∀ k r, named h g k r → node_str h r = Ok ("Node:" +:+ match k with NStr s => s | NInt z => pretty z end)) ∧
  (∀ e s t, joins h g e s t → ∃ a b, node_str h s = Ok a ∧ node_str h t = Ok b ∧ edge_str h e = Ok ("Edge:" +:+ a +:+ "-" +:+ b)).
Proof.
  intros h g Hre%reachable_WF. split.
  - intros k r (G & HG & Hin). destruct (wf_gnodes _ Hre g G k r HG Hin) as (N & HN & <- & _). unfold node_str, get_n. rewrite HN. done.
  - intros e s t Hj. destruct (joins_in_graph h g e s t Hre Hj) as [(G & k & HG & Hin) (G' & k' & HG' & Hin')].
    destruct (wf_gnodes _ Hre g G k s HG Hin) as (N & HN & _), (wf_gnodes _ Hre g G' k' t HG' Hin') as (N' & HN' & _).
    destruct Hj as (E & HE & _ & Hs & Ht). eexists _, _. unfold edge_str, node_str, edge_start, edge_end, get_n, get_e. rewrite HE. cbn [rbind].
    rewrite Hs, Ht. cbn [rbind]. rewrite HN, HN'. done.
Qed.
(** C85, partial.  Two nodes of a graph whose names are both strings or both integers have
    different texts. *)
Lemma C85_nodes_partial_proof : ∀ h g k1 k2 r1 r2, reachable h → named h g k1 r1 → named h g k2 r2 →
  match k1, k2 with NStr _, NStr _ | NInt _, NInt _ => True | _, _ => False end →
  node_str h r1 = node_str h r2 → r1 = r2.
Proof.
  intros h g k1 k2 r1 r2 Hre H1 H2 Hk Hs. destruct (C85_text_partial_proof h g Hre) as [Hn _].
  rewrite (Hn _ _ H1), (Hn _ _ H2) in Hs. injection Hs as Hs.
  assert (k1 = k2) as <- by (destruct k1, k2; try done; [by f_equal|]; f_equal; by apply (inj pretty)).
  destruct H1 as (G & HG & Hin), H2 as (G' & HG' & Hin'). assert (G' = G) as -> by congruence.
  pose proof (wf_gkeys _ (reachable_WF _ Hre) g G HG) as Hnd. apply (dget_in_Some (g_nodes G)) in Hin, Hin'; try done. congruence.
Qed.
Lemma dash_split a b a' b' : ¬ occurs "-" a → ¬ occurs "-" a' → a +:+ String "-" b = a' +:+ String "-" b' → a = a' ∧ b = b'.
Proof.
  revert a'. induction a as [|x a IH]; intros [|y a'] Ha Ha' H; simpl in H.
  - by injection H.
  - injection H as <- _. destruct Ha'. apply occurs_cons. by left.
  - injection H as -> _. destruct Ha. apply occurs_cons. by left.
  - injection H as -> H. rewrite occurs_cons in Ha, Ha'. destruct (IH a') as [-> ->]; tauto.
Qed.
(** C85, partial.  Two edges with the same text have ends with the same texts, as long as no
    dash occurs in the names of their starts. *)
Lemma C85_edges_partial_proof : ∀ h g e1 e2 s1 t1 s2 t2 a1 a2, reachable h → joins h g e1 s1 t1 → joins h g e2 s2 t2 →
  node_str h s1 = Ok a1 → node_str h s2 = Ok a2 → ¬ occurs "-" a1 → ¬ occurs "-" a2 →
  edge_str h e1 = edge_str h e2 → node_str h s1 = node_str h s2 ∧ node_str h t1 = node_str h t2.
Proof.
  intros h g e1 e2 s1 t1 s2 t2 a1 a2 Hre H1 H2 Ha1 Ha2 Hn1 Hn2 Hs. destruct (C85_text_partial_proof h g Hre) as [_ He].
  destruct (He _ _ _ H1) as (x1 & y1 & Hx1 & Hy1 & Hz1), (He _ _ _ H2) as (x2 & y2 & Hx2 & Hy2 & Hz2).
  rewrite Hz1, Hz2 in Hs. injection Hs as Hs. assert (x1 = a1) as -> by congruence. assert (x2 = a2) as -> by congruence.
  apply dash_split in Hs as [-> Hy]; [|done..]. split; congruence.
Qed.
(** A graph with a node '1', a node 1, made by calling Node, and two edges from '1' to b. *)
Definition ones : heap := Eval vm_compute in run (graph_calls ["1"; "b"] [("1", "b")] ++ [CNodeCtor 0 (NInt 1) nargs0 2; CConnect 0 (an "1") (an "b") (eargs0 <| c_id := Some (nm "x") |>)])%list empty_heap.
Lemma ones_reachable : reachable ones.
Proof. change ones with (run (graph_calls ["1"; "b"] [("1", "b")] ++ [CNodeCtor 0 (NInt 1) nargs0 2; CConnect 0 (an "1") (an "b") (eargs0 <| c_id := Some (nm "x") |>)])%list empty_heap). reach_ctor. Qed.
(** C85 is false: the nodes '1' and 1 of a graph have the same text, and so have two
    parallel edges. *)
Lemma C85_apart_refuted_proof : ∃ h g r1 r2 e1 e2, reachable h ∧ in_graph h g r1 ∧ in_graph h g r2 ∧ r1 ≠ r2 ∧ node_str h r1 = node_str h r2 ∧
  joins h g e1 r1 1 ∧ joins h g e2 r1 1 ∧ e1 ≠ e2 ∧ edge_str h e1 = edge_str h e2 ∧ edge_str h e1 = Ok "Edge:Node:1-Node:b".
Proof.
  exists ones, 0, 0, 2, 0, 1. split; [apply ones_reachable|].
  split; [eexists _, (nm "1"); split; [vm_compute; reflexivity|]; left|].
  split; [eexists _, (NInt 1); split; [vm_compute; reflexivity|]; do 2 right; left|].
  split; [done|]. split; [by vm_compute|]. split; [eexists; by vm_compute|]. split; [eexists; by vm_compute|]. split; [done|]. by vm_compute.
Qed.
(** C85, partial.  Of an edge that was removed: after disconnect it has the text it had before,
    after remove_self str raises ValueError. *)
Lemma C85_removed_partial_proof : ∀ h g e s t, reachable h → joins h g e s t →
  edge_str (after (CDisconnect e) h) e = edge_str h e ∧ edge_str (after (CRemoveSelf e) h) e = Err ValueError.
Proof.
  intros h g e s t Hre Hj. pose proof (reachable_WF _ Hre) as W. destruct (joins_in_graph h g e s t W Hj) as [(G & k & HG & Hin) (G' & k' & HG' & Hin')].
  destruct (wf_gnodes _ W g G k s HG Hin) as (N & HN & _), (wf_gnodes _ W g G' k' t HG' Hin') as (N' & HN' & _).
  destruct Hj as (E & HE & Hg & Hs & Ht). pose proof (lookup_lt_Some _ _ _ HE) as Hlt.
  destruct (C09_remove_live_proof h e E g Hre HE Hg) as [H1 H2]. cbn [after]. rewrite H1, H2. cbn [fst].
  unfold edge_str, node_str, edge_start, edge_end, get_n, get_e. simpl. rewrite !list_lookup_insert by done. rewrite HE. cbn [rbind]. simpl.
  rewrite Hs, Ht. cbn [rbind]. rewrite !list_lookup_fmap, HN, HN'. simpl. done.
Qed.
(** C85 is not vacuous: the texts of the sample. *)
Lemma C85_ex_proof : ∃ s t, reachable sample ∧ joins sample 0 0 s t ∧ node_str sample s = Ok "Node:a" ∧ node_str sample t = Ok "Node:b" ∧
  edge_str sample 0 = Ok "Edge:Node:a-Node:b" ∧ edge_str (after (CRemoveSelf 0) sample) 0 = Err ValueError.
Proof. exists 0, 1. split; [apply sample_reachable|]. split; [eexists; by vm_compute|]. by vm_compute. Qed.
