(** connect_to and connect_from: C05. *)
From Verif Require Export ProofC9.
Local Open Scope list_scope.

Lemma connect_joins h g x y a s t h' e : reachable h → denotes h g x s → denotes h g y t → connect g x y a h = (h', Ok e) → joins h' g e s t.
Proof.
  intros Hr Hx Hy Hc. pose proof (reachable_WF _ Hr) as W.
  destruct (get_node_Ok h g x s) as (G & Ns & HG & HNs & Hgs & _); [done|by apply get_node_denotes|].
  destruct (get_node_Ok h g y t) as (G' & Nt & _ & HNt & Hgt & _); [done|by apply get_node_denotes|].
  destruct (dget (n_out Ns) (n_id Ns, n_id Nt, RId (c_id a))) as [e0|] eqn:He.
  - apply (out_entry_joins h g s t e0) in He as [Hj Hu]; [|done..].
    destruct (h_edges h !! e0) as [E|] eqn:HE; [|done]. injection Hu as Hu.
    rewrite (C06_connect_existing_proof h g x y a s t Ns Nt e0 E) in Hc by done. destruct (lenient _); [|done]. unfold edge_updated in Hc.
    destruct (optional_style _ _ _ _ _ _) as [[st l]|]; [|done]. cbn zeta in Hc. destruct (_ && _); [done|]. injection Hc as <- <-.
    destruct Hj as (E' & HE' & ? & ? & ?). assert (E' = E) as -> by congruence.
    eexists. split; [simpl; apply list_lookup_insert; by eapply lookup_lt_Some|done].
  - assert (∀ e E, h_edges h !! e = Some E → e_raw E = RId (c_id a) → ¬ joins h g e s t) as Hno.
    { intros e1 E HE Hu Hj. assert (dget (n_out Ns) (n_id Ns, n_id Nt, RId (c_id a)) = Some e1); [|congruence].
      apply (out_entry_joins h g s t e1); [done..|]. split; [done|]. rewrite HE. simpl. congruence. }
    eapply (C05_connect_new_joins_proof h g x y a s t Ns Nt h' e); [done..|]. by right.
Qed.
Lemma in_graph_self h g r : WF h → in_graph h g r → denotes h g (ANode r) r ∧ node_graph h r = Ok g.
Proof.
  intros W (G & k & HG & Hk). assert (Hn : named h g k r) by (by exists G). destruct (named_denotes h g k r W Hn) as [_ Hd]. split; [done|].
  destruct (get_node_Ok h g (ANode r) r) as (G' & N & _ & HN & HgN & _); [done|by apply get_node_denotes|]. unfold node_graph, get_n. rewrite HN. cbn. by rewrite HgN.
Qed.
(** C05.  node.connect_to(x) does what graph.connect(node, x) does, and the edge it
    returns goes from the node to x; node.connect_from(x) does what
    graph.connect(x, node) does, and the edge it returns goes from x to the node. *)
Lemma C05_from_node_proof : ∀ h g r x t a, reachable h → in_graph h g r → denotes h g x t →
  connect_to r x a h = connect g (ANode r) x a h ∧ connect_from r x a h = connect g x (ANode r) a h ∧
  (∀ h' e, connect_to r x a h = (h', Ok e) → joins h' g e r t) ∧ (∀ h' e, connect_from r x a h = (h', Ok e) → joins h' g e t r).
Proof.
  intros h g r x t a Hr Hi Hx. destruct (in_graph_self h g r (reachable_WF h Hr) Hi) as [Hd Hg].
  assert (connect_to r x a h = connect g (ANode r) x a h) as E1 by (unfold connect_to; by rewrite (sread_Ok _ _ _ g)).
  assert (connect_from r x a h = connect g x (ANode r) a h) as E2 by (unfold connect_from; by rewrite (sread_Ok _ _ _ g)).
  rewrite E1, E2. split_and!; [done..| |]; intros h' e; by apply connect_joins.
Qed.
(** C05, instance: both calls on node b of the sample, with node c, succeed. *)
Lemma C05_from_node_ex_proof : reachable sample ∧ in_graph sample 0 1 ∧ denotes sample 0 (an "c") 2 ∧
  (∃ h' e, connect_to 1 (an "c") (eargs0 <| c_id := Some (nm "y") |>) sample = (h', Ok e)) ∧ ∃ h' e, connect_from 1 (an "c") (eargs0 <| c_id := Some (nm "y") |>) sample = (h', Ok e).
Proof.
  split; [apply sample_reachable|]. split; [eexists _, _; split; [done|]; by right; left|]. split; [exists (nm "c"); split; [|by left]; eexists; split; [done|]; by do 2 right; left|].
  split; eexists _, _; vm_compute; reflexivity.
Qed.
