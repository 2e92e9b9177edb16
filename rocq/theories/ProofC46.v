(** Which calls issue warnings: C86. *)
From Verif Require Export SpecOps SpecOver SpecWarn.
From Verif Require Export Ops Samples.
From Verif Require Import ProofC1 ProofC9 ProofC40.
Local Open Scope string_scope.
Local Open Scope list_scope.

Definition tells (W : warning → Prop) {A} (m : M A) : Prop := ∀ h, ∃ ws, h_warns (m h).1 = h_warns h ++ ws ∧ Forall W ws.
Section tells.
  Context (W : warning → Prop).
  Lemma tells_same {A} (m : M A) : (∀ h, h_warns (m h).1 = h_warns h) → tells W m.
  Proof. intros H h. exists []. by rewrite H, app_nil_r. Qed.
  Lemma tells_ret {A} (x : A) : tells W (sret x).
  Proof. by apply tells_same. Qed.
  Lemma tells_raise {A} x : tells W (sraise (A := A) x).
  Proof. by apply tells_same. Qed.
  Lemma tells_read {A} (f : heap → res A) : tells W (sread f).
  Proof. by apply tells_same. Qed.
  Lemma tells_bind {A B} (m : M A) (k : A → M B) : tells W m → (∀ x, tells W (k x)) → tells W (sbind m k).
  Proof.
    intros Hm Hk h. unfold sbind. destruct (Hm h) as (ws & H1 & F1). destruct (m h) as [h1 [x|x]]; simpl in *; [|by exists ws].
    destruct (Hk x h1) as (ws' & H2 & F2). exists (ws ++ ws'). split; [by rewrite H2, H1, app_assoc|by apply Forall_app].
  Qed.
  Lemma tells_iter {A} (f : A → M unit) l : (∀ x, x ∈ l → tells W (f x)) → tells W (siter f l).
  Proof.
    induction l as [|x l IH]; intros H; simpl; [apply tells_ret|]. apply tells_bind; [apply H; left|]. intros _. apply IH. intros. apply H. by right.
  Qed.
  Lemma tells_fold {A B} (f : B → A → M B) l : (∀ b x, x ∈ l → tells W (f b x)) → ∀ b, tells W (sfold f b l).
  Proof.
    induction l as [|x l IH]; intros H b; simpl; [apply tells_ret|]. apply tells_bind; [apply H; left|]. intros b'. apply IH. intros. apply H. by right.
  Qed.
  Lemma tells_upd_n r f : tells W (upd_n r f). Proof. apply tells_same. intros h. unfold upd_n. by destruct (h_nodes h !! r). Qed.
  Lemma tells_upd_e r f : tells W (upd_e r f). Proof. apply tells_same. intros h. unfold upd_e. by destruct (h_edges h !! r). Qed.
  Lemma tells_upd_g r f : tells W (upd_g r f). Proof. apply tells_same. intros h. unfold upd_g. by destruct (h_graphs h !! r). Qed.
  Lemma tells_upd_ns r f : tells W (upd_ns r f).
  Proof. apply tells_same. intros h. unfold upd_ns. destruct (h_ns h !! r) as [s|]; [|done]. by destruct (f s). Qed.
  Lemma tells_upd_es r f : tells W (upd_es r f).
  Proof. apply tells_same. intros h. unfold upd_es. destruct (h_es h !! r) as [s|]; [|done]. by destruct (f s). Qed.
  Lemma tells_new_n N : tells W (new_n N). Proof. by apply tells_same. Qed.
  Lemma tells_new_e N : tells W (new_e N). Proof. by apply tells_same. Qed.
  Lemma tells_new_g N : tells W (new_g N). Proof. by apply tells_same. Qed.
  Lemma tells_new_ns N : tells W (new_ns N). Proof. by apply tells_same. Qed.
  Lemma tells_new_es N : tells W (new_es N). Proof. by apply tells_same. Qed.
  Lemma tells_warn w : W w → tells W (warn w). Proof. intros Hw h. exists [w]. split; [done|]. by repeat constructor. Qed.
End tells.
Ltac quiet1 := first
  [ apply tells_ret | apply tells_raise | apply tells_read | apply tells_upd_n | apply tells_upd_e | apply tells_upd_g
  | apply tells_upd_ns | apply tells_upd_es | apply tells_new_n | apply tells_new_e | apply tells_new_g | apply tells_new_ns | apply tells_new_es
  | apply tells_bind; [|intros ?] | apply tells_iter; intros ? ? | apply tells_fold; intros ? ? ?
  | match goal with |- tells _ (match ?x with _ => _ end) => destruct x end
  | match goal with |- tells _ (let '(_, _) := ?x in _) => destruct x end ].
Ltac quiet := repeat quiet1.

Section parts.
  Context (W : warning → Prop).
  Lemma tells_node_style r a : tells W (node_set_style r a). Proof. unfold node_set_style, resolve_nstyle. quiet. Qed.
  Lemma tells_edge_style r a : tells W (edge_set_style r a). Proof. unfold edge_set_style, resolve_estyle. quiet. Qed.
  Lemma tells_node_value r a : tells W (node_set_value r a). Proof. unfold node_set_value. quiet. Qed.
  Lemma tells_edge_value r a : tells W (edge_set_value r a). Proof. unfold edge_set_value. quiet. Qed.
  Lemma tells_node_ctor g n a i : tells W (node_ctor g n a i). Proof. unfold node_ctor, resolve_nstyle. repeat (apply tells_node_style || quiet1). Qed.
  Lemma tells_edge_ctor g s t a : tells W (edge_ctor g s t a). Proof. unfold edge_ctor, resolve_estyle, append_outward, append_inward. repeat (apply tells_edge_style || quiet1). Qed.
  Lemma tells_remove_self e : tells W (remove_self e). Proof. unfold remove_self, remove_outward, remove_inward. quiet. Qed.
  Lemma tells_remove_node g x : tells W (remove_node g x). Proof. unfold remove_node. repeat (apply tells_remove_self || quiet1). Qed.
  Lemma tells_new_graph s o d : tells W (new_graph s o d). Proof. unfold new_graph. quiet. Qed.
  Lemma tells_copy g : tells W (copy g). Proof. unfold copy, update_edges. quiet. Qed.
  Lemma tells_filter g xs d f : tells W (filter_graph g xs d f). Proof. unfold filter_graph. repeat (apply tells_copy || apply tells_remove_node || quiet1). Qed.
  Lemma tells_upd_disp g f : tells W (upd_disp g f). Proof. unfold upd_disp. quiet. Qed.
  Lemma tells_stylize g sh : tells W (stylize g sh).
  Proof.
    unfold stylize, stylize_with_pensieve, stylize_randomly, stylize_edges_based_on_nodes, style_edge, style_branch, style_root, assign_nstyle, overwrite_node_colour, overwrite_edge_colour,
      node_complement, edge_complement, complement_ns, complement_es, when_dict.
    repeat (apply tells_node_style || apply tells_edge_style || quiet1).
  Qed.
  Lemma tells_add_node g x a : (∀ s, x = AName (NStr s) → a_mode a = "warn" → W (WNode (NStr s))) → tells W (add_node g x a).
  Proof.
    intros Hw. unfold add_node, generate_node_index, when_style, when_val, node_set_label.
    repeat first [apply tells_node_ctor | apply tells_node_style | apply tells_node_value
      | match goal with |- tells _ (warn _) => apply tells_warn, Hw; [done|] end
      | match goal with |- tells _ (if ?c then _ else _) => let H := fresh "Hq" in destruct c eqn:H end | quiet1]; by apply eqb_true.
  Qed.
  Lemma tells_connect g x y a : (∀ p c, c_mode a = "warn" → W (WEdge (p, c, RId (c_id a)))) → tells W (connect g x y a).
  Proof.
    intros Hw. unfold connect, when_style, when_val, edge_set_label.
    repeat first [apply tells_edge_ctor | apply tells_edge_style | apply tells_edge_value
      | match goal with |- tells _ (warn _) => apply tells_warn, Hw end
      | match goal with |- tells _ (if ?c then _ else _) => let H := fresh "Hq" in destruct c eqn:H end | quiet1]; by apply eqb_true.
  Qed.
End parts.

Lemma tells_append_repr g d : tells (given_warning d) (append_repr g d).
Proof.
  unfold append_repr. apply tells_bind; [unfold when_some; repeat (apply tells_upd_disp || quiet1)|intros _].
  do 7 (apply tells_bind; [unfold when_some; repeat (apply tells_upd_disp || quiet1)|intros _]).
  apply tells_bind.
  { destruct (r_nodes d) as [nd|ns] eqn:Hn; (apply tells_iter; intros x Hx; apply tells_bind; [|intros _; apply tells_ret]).
    - apply tells_add_node. intros s [= Hs] Hm. unfold given_warning. rewrite Hn. exists x.2. split; [|done]. rewrite <-Hs. by destruct x.
    - apply tells_add_node. intros s [= ->] Hm. unfold given_warning. by rewrite Hn. }
  intros _. apply tells_bind.
  { apply tells_fold. intros ed e He. unfold append_edge. destruct e as [p c|p c a| |]; cbn beta iota.
    - apply tells_bind; [apply tells_connect; intros p' c' _; left; by exists p, c|]. intros. quiet.
    - apply tells_bind; [apply tells_connect; intros p' c' Hm; right; by exists p, c, a|]. intros. quiet.
    - quiet.
    - quiet. }
  intros ed. unfold when_some. repeat (apply tells_upd_disp || quiet1).
Qed.
Lemma tells_weaken (W W' : warning → Prop) {A} (m : M A) : (∀ w, W w → W' w) → tells W m → tells W' m.
Proof. intros Hw Hm h. destruct (Hm h) as (ws & ? & F). exists ws. split; [done|]. eapply Forall_impl; eauto. Qed.
Definition anything (w : warning) : Prop := True.
Lemma tells_append g o : tells anything (graph_append g o).
Proof. unfold graph_append. apply tells_bind; [quiet|]. intros d. eapply tells_weaken; [|apply tells_append_repr]. done. Qed.
Lemma tells_silent {A} (m : M A) h : tells (λ _, False) m → h_warns (m h).1 = h_warns h.
Proof. intros Hm. destruct (Hm h) as ([|w ws] & H & F); [by rewrite H, app_nil_r|]. by apply Forall_cons in F as [[] _]. Qed.

Ltac tells_lemma := first [apply tells_node_style | apply tells_edge_style | apply tells_node_value | apply tells_edge_value | apply tells_node_ctor | apply tells_edge_ctor
  | apply tells_remove_self | apply tells_remove_node | apply tells_new_graph | apply tells_copy | apply tells_filter | apply tells_upd_disp | apply tells_stylize | quiet1].
Ltac unfold_calls := unfold node_set_label, edge_set_label, node_set_frozen, edge_set_frozen, node_set_param, edge_set_param, disconnect, remove_edges, render, set_background,
  make_nstyle, make_estyle, set_nstyle, set_estyle, complement_ns, complement_es, derive_nstyle, derive_estyle.
Lemma tells_silent_call h c : may_repeat c = false → h_warns (after c h) = h_warns h.
Proof.
  intros Hc. destruct c; simpl in Hc; try discriminate Hc; cbn [after]; apply tells_silent.
  all: try (unfold_calls; repeat tells_lemma; fail).
  all: try (apply tells_add_node; intros s ->; done).
Qed.

(** C86.  Every call other than add_node with a name, connect, connect_to, connect_from,
    the constructors of whole graphs, append and add issues no warning, whether it succeeds
    or raises. *)
Lemma C86_quiet_proof : ∀ h c, may_repeat c = false → h_warns (after c h) = h_warns h.
Proof. exact tells_silent_call. Qed.

(** C86.  No call takes back a warning: those issued before stay, in their order, and new
    ones come after them. *)
Lemma C86_kept_proof : ∀ h c, h_warns h `prefix_of` h_warns (after c h).
Proof.
  intros h c. assert (∀ {A} (m : M A), tells anything m → h_warns h `prefix_of` h_warns (m h).1) as Hp.
  { intros A m Hm. destruct (Hm h) as (ws & -> & _). by exists ws. }
  destruct (may_repeat c) eqn:Hc; [|by rewrite tells_silent_call].
  assert (∀ g x a, tells anything (add_node g x a)) as Ha by (intros; by apply tells_add_node).
  assert (∀ g x y a, tells anything (connect g x y a)) as Hcn by (intros; by apply tells_connect).
  destruct c; try discriminate Hc; cbn [after]; apply Hp.
  - apply Ha.
  - apply Hcn.
  - unfold connect_to. apply tells_bind; [quiet|]. intros. apply Hcn.
  - unfold connect_from. apply tells_bind; [quiet|]. intros. apply Hcn.
  - unfold from_lists, from_lists_row. repeat first [apply tells_new_graph | apply Ha | apply Hcn | quiet1].
  - unfold from_object. repeat first [apply tells_new_graph | apply Ha | apply Hcn | quiet1].
  - unfold from_indented_text, indented_row. repeat first [apply tells_new_graph | apply Ha | apply Hcn | quiet1].
  - unfold random_graph. repeat first [apply tells_new_graph | apply Ha | apply Hcn | quiet1].
  - apply tells_append.
  - unfold append_all. apply tells_iter. intros. apply tells_append.
  - unfold graph_of. repeat first [apply tells_new_graph | apply tells_append | quiet1].
  - unfold from_dict. repeat first [apply tells_new_graph | apply tells_append | quiet1].
  - unfold add_graphs, graph_of, when_some. repeat first [apply tells_new_graph | apply tells_append | apply tells_upd_disp | quiet1].
Qed.

(** C86.  add_node with a name warns exactly once, about that name, when the graph has a
    node of that name and the mode is 'warn', and not at all otherwise; this holds also when
    it raises afterwards. *)
Lemma C86_add_node_proof : ∀ h g s a, reachable h →
  ((∃ r, named h g (NStr s) r) → a_mode a = "warn" → h_warns (add_node g (AName (NStr s)) a h).1 = h_warns h ++ [WNode (NStr s)]) ∧
  ((¬ ∃ r, named h g (NStr s) r) ∨ a_mode a ≠ "warn" → h_warns (add_node g (AName (NStr s)) a h).1 = h_warns h).
Proof.
  intros h g s a W%reachable_WF. split.
  - intros (r & Hr) Hm. pose proof Hr as (G & HG & HGr). destruct (wf_gnodes _ W g G (NStr s) r HG HGr) as (N & HN & _).
    rewrite (add_node_existing_spec h g s a r N) by done. unfold lenient, warning_of. rewrite Hm. cbn. unfold node_updated.
    destruct (optional_style _ _ _ _ _ _) as [[st l]|]; [destruct (_ && _)|]; done.
  - intros Hno. destruct (decide (a_mode a = "warn")) as [Hm|Hm].
    + destruct Hno as [Hno|]; [|done]. unfold add_node.
      destruct (h_graphs h !! g) as [G|] eqn:HG; [|unfold sbind, sread, get_g; by rewrite HG].
      rewrite (sread_Ok _ _ _ G) by (unfold get_g; by rewrite HG).
      destruct (dmem (g_nodes G) (NStr s)) eqn:Hd.
      * exfalso. apply Hno. apply dmem_true, elem_of_list_fmap in Hd as ([k r] & Hk & Hd). simpl in Hk. subst k. by exists r, G.
      * apply tells_silent. unfold generate_node_index. repeat first [apply tells_node_ctor | quiet1].
    + apply tells_silent. apply tells_add_node. done.
Qed.

(** C86.  connect warns exactly once, about the edge it names, when that edge exists and the
    mode is 'warn', and not at all otherwise; this holds also when it raises. *)
Lemma C86_connect_proof : ∀ h g x y a, reachable h →
  (∀ s t Ns Nt e E, denotes h g x s → denotes h g y t → h_nodes h !! s = Some Ns → h_nodes h !! t = Some Nt →
     joins h g e s t → h_edges h !! e = Some E → e_raw E = RId (c_id a) → c_mode a = "warn" →
     h_warns (connect g x y a h).1 = h_warns h ++ [WEdge (n_id Ns, n_id Nt, RId (c_id a))]) ∧
  (c_mode a ≠ "warn" ∨ (¬ ∃ s t e E, denotes h g x s ∧ denotes h g y t ∧ joins h g e s t ∧ h_edges h !! e = Some E ∧ e_raw E = RId (c_id a)) →
     h_warns (connect g x y a h).1 = h_warns h).
Proof.
  intros h g x y a W%reachable_WF. split.
  - intros s t Ns Nt e E Hx Hy HNs HNt Hj HE Hu Hm. rewrite (connect_existing_spec h g x y a s t Ns Nt e E) by done.
    unfold lenient, warning_of. rewrite Hm. cbn. unfold edge_updated.
    destruct (optional_style _ _ _ _ _ _) as [[st l]|]; [destruct (_ && _)|]; done.
  - intros [Hm|Hno]; [apply tells_silent; by apply tells_connect|].
    destruct (get_node h g x) as [s|z] eqn:Hx; [|unfold connect, sbind at 1, sread at 1; by rewrite Hx].
    destruct (get_node h g y) as [t|z] eqn:Hy; [|unfold connect; rewrite (sread_Ok _ _ _ s) by done; unfold sbind at 1, sread at 1; by rewrite Hy].
    apply get_node_denotes in Hx, Hy; [|done..].
    destruct Hx as (kx & Hkx & Hx). destruct Hy as (ky & Hky & Hy).
    destruct (proj1 (ProofAdj.named_node h g kx s W) Hkx) as (Ns & HNs & _). destruct (proj1 (ProofAdj.named_node h g ky t W) Hky) as (Nt & HNt & _).
    rewrite (connect_new_spec h g x y a s t Ns Nt); [..|].
    + simpl. by destruct (restyled _ _ _ _) as [[st l]|].
    + done.
    + by exists kx.
    + by exists ky.
    + done.
    + done.
    + intros e E HE Hu Hj. apply Hno. exists s, t, e, E. split_and!; [by exists kx|by exists ky|done..].
Qed.

(** C86.  Appending a dictionary warns only about the nodes it lists, unless their entries
    ask for another mode, and about edges with the ids it lists, likewise. *)
Lemma C86_append_proof : ∀ h g d, ∃ ws,
  h_warns (graph_append g (ODict d) h).1 = h_warns h ++ ws ∧ Forall (given_warning d) ws.
Proof. intros h g d. apply (tells_append_repr g d h). Qed.

(** The hypotheses occur: in the sample, add_node of an existing name warns, connect of the
    existing edge warns, and styling, copying and
    removing do not. *)
Lemma C86_ex_proof : reachable sample ∧
  (∃ r, named sample 0 (NStr "a") r) ∧
  h_warns (add_node 0 (an "a") nargs0 sample).1 = h_warns sample ++ [WNode (NStr "a")] ∧
  h_warns (add_node 0 (an "a") (nargs0 <| a_mode := "ignore" |>) sample).1 = h_warns sample ∧
  h_warns (connect 0 (an "a") (an "b") eargs0 sample).1 = h_warns sample ++ [WEdge (nm "a", nm "b", RId None)] ∧
  may_repeat (CRemoveNode 0 (an "a")) = false ∧ may_repeat (CCopy 0) = false ∧ may_repeat (CStylize 0 id) = false.
Proof. split; [apply sample_reachable|]. split; [by eexists _, _; split; [vm_compute; reflexivity|left]|]. by vm_compute. Qed.
