(** The default stylist: what it does when it succeeds, and when it does. *)
From Verif Require Export ProofC13 ProofC14 ProofC2b ProofC4.
Local Open Scope list_scope.

(** * Adding styles *)
Lemma sa_refl g h : WF h → styles_added g h h.
Proof.
  intros W. split; try done; try (exists []; by rewrite app_nil_r).
  - intros r N N' HN HN'. assert (N' = N) as -> by congruence. split; [by destruct N|by left].
  - intros r N N' HN HN'. assert (N' = N) as -> by congruence. split; [by destruct N|by left].
  - intros r1 r2 N1 N2 k H1 H2 Hk1 Hk2 Hle. pose proof (wf_nstyle h W r1 N1 k H1 Hk1). lia.
  - intros r1 r2 N1 N2 k H1 H2 Hk1 Hk2 Hle. pose proof (wf_estyle h W r1 N1 k H1 Hk1). lia.
Qed.
Lemma sa_node_fwd g h h' r N : styles_added g h h' → h_nodes h !! r = Some N → ∃ N', h_nodes h' !! r = Some N' ∧ N' = N <| n_style := n_style N' |> ∧
    (n_style N' = n_style N ∨ fresh_style n_style n_graph g (length (h_ns h)) (length (h_ns h')) N N').
Proof.
  intros S HN. destruct (lookup_lt_is_Some_2 (h_nodes h') r) as [N' HN']; [rewrite (sa_nlen _ _ _ S); by eapply lookup_lt_Some|].
  exists N'. split; [done|]. by eapply sa_node.
Qed.
Lemma sa_node_bwd g h h' r N' : styles_added g h h' → h_nodes h' !! r = Some N' → ∃ N, h_nodes h !! r = Some N ∧ N' = N <| n_style := n_style N' |> ∧
    (n_style N' = n_style N ∨ fresh_style n_style n_graph g (length (h_ns h)) (length (h_ns h')) N N').
Proof.
  intros S HN. destruct (lookup_lt_is_Some_2 (h_nodes h) r) as [N HN']; [rewrite <-(sa_nlen _ _ _ S); by eapply lookup_lt_Some|].
  exists N. split; [done|]. by eapply sa_node.
Qed.
Lemma sa_edge_fwd g h h' r N : styles_added g h h' → h_edges h !! r = Some N → ∃ N', h_edges h' !! r = Some N' ∧ N' = N <| e_style := e_style N' |> ∧
    (e_style N' = e_style N ∨ fresh_style e_style e_graph g (length (h_es h)) (length (h_es h')) N N').
Proof.
  intros S HN. destruct (lookup_lt_is_Some_2 (h_edges h') r) as [N' HN']; [rewrite (sa_elen _ _ _ S); by eapply lookup_lt_Some|].
  exists N'. split; [done|]. by eapply sa_edge.
Qed.
Lemma sa_edge_bwd g h h' r N' : styles_added g h h' → h_edges h' !! r = Some N' → ∃ N, h_edges h !! r = Some N ∧ N' = N <| e_style := e_style N' |> ∧
    (e_style N' = e_style N ∨ fresh_style e_style e_graph g (length (h_es h)) (length (h_es h')) N N').
Proof.
  intros S HN. destruct (lookup_lt_is_Some_2 (h_edges h) r) as [N HN']; [rewrite <-(sa_elen _ _ _ S); by eapply lookup_lt_Some|].
  exists N. split; [done|]. by eapply sa_edge.
Qed.
Lemma sa_trans g h1 h2 h3 : styles_added g h1 h2 → styles_added g h2 h3 → styles_added g h1 h3.
Proof.
  intros S1 S2. destruct (sa_ns _ _ _ S1) as [l1 Hl1], (sa_ns _ _ _ S2) as [l2 Hl2], (sa_es _ _ _ S1) as [k1 Hk1], (sa_es _ _ _ S2) as [k2 Hk2].
  assert (length (h_ns h1) ≤ length (h_ns h2) ≤ length (h_ns h3)) by (rewrite Hl2, Hl1, !app_length; lia).
  assert (length (h_es h1) ≤ length (h_es h2) ≤ length (h_es h3)) by (rewrite Hk2, Hk1, !app_length; lia).
  split.
  - by rewrite (sa_graphs _ _ _ S2), (sa_graphs _ _ _ S1).
  - by rewrite (sa_warns _ _ _ S2), (sa_warns _ _ _ S1).
  - exists (l1 ++ l2). by rewrite Hl2, Hl1, app_assoc.
  - exists (k1 ++ k2). by rewrite Hk2, Hk1, app_assoc.
  - by rewrite (sa_nlen _ _ _ S2), (sa_nlen _ _ _ S1).
  - by rewrite (sa_elen _ _ _ S2), (sa_elen _ _ _ S1).
  - intros r N N3 HN HN3. destruct (sa_node_fwd _ _ _ _ _ S1 HN) as (N2 & HN2 & E2 & F2). destruct (sa_node _ _ _ S2 r N2 N3 HN2 HN3) as [E3 F3].
    split; [rewrite E3, E2; by destruct N|]. destruct F2 as [F2|(F2 & G2 & k & K2 & L2)], F3 as [F3|(F3 & G3 & k' & K3 & L3)].
    + left. congruence.
    + right. split; [congruence|]. split; [by rewrite E2 in G3|]. exists k'. split; [done|lia].
    + right. split; [done|]. split; [done|]. exists k. split; [congruence|lia].
    + congruence.
  - intros r N N3 HN HN3. destruct (sa_edge_fwd _ _ _ _ _ S1 HN) as (N2 & HN2 & E2 & F2). destruct (sa_edge _ _ _ S2 r N2 N3 HN2 HN3) as [E3 F3].
    split; [rewrite E3, E2; by destruct N|]. destruct F2 as [F2|(F2 & G2 & k & K2 & L2)], F3 as [F3|(F3 & G3 & k' & K3 & L3)].
    + left. congruence.
    + right. split; [congruence|]. split; [by rewrite E2 in G3|]. exists k'. split; [done|lia].
    + right. split; [done|]. split; [done|]. exists k. split; [congruence|lia].
    + congruence.
  - intros r1 r2 N1 N2 k H1 H2 Hk1' Hk2' Hle. destruct (decide (length (h_ns h2) ≤ k)) as [?|?]; [by eapply (sa_node_inj _ _ _ S2)|].
    destruct (sa_node_bwd _ _ _ _ _ S2 H1) as (M1 & HM1 & _ & [F1|(_ & _ & k' & ? & ?)]); [|assert (k' = k) by congruence; lia].
    destruct (sa_node_bwd _ _ _ _ _ S2 H2) as (M2 & HM2 & _ & [F2|(_ & _ & k' & ? & ?)]); [|assert (k' = k) by congruence; lia].
    eapply (sa_node_inj _ _ _ S1); [exact HM1|exact HM2|rewrite <-F1; exact Hk1'|rewrite <-F2; exact Hk2'|done].
  - intros r1 r2 N1 N2 k H1 H2 Hk1' Hk2' Hle. destruct (decide (length (h_es h2) ≤ k)) as [?|?]; [by eapply (sa_edge_inj _ _ _ S2)|].
    destruct (sa_edge_bwd _ _ _ _ _ S2 H1) as (M1 & HM1 & _ & [F1|(_ & _ & k' & ? & ?)]); [|assert (k' = k) by congruence; lia].
    destruct (sa_edge_bwd _ _ _ _ _ S2 H2) as (M2 & HM2 & _ & [F2|(_ & _ & k' & ? & ?)]); [|assert (k' = k) by congruence; lia].
    eapply (sa_edge_inj _ _ _ S1); [exact HM1|exact HM2|rewrite <-F1; exact Hk1'|rewrite <-F2; exact Hk2'|done].
Qed.

Section shape.
  Context (g : gref) (h h' : heap) (S : styles_added g h h').
  Lemma sa_joins g0 e x y : joins h' g0 e x y ↔ joins h g0 e x y.
  Proof.
    split.
    - intros (E & HE & Hg & Hs & Ht). destruct (sa_edge_bwd _ _ _ _ _ S HE) as (E0 & HE0 & Heq & _). rewrite Heq in Hg, Hs, Ht. by exists E0.
    - intros (E & HE & Hg & Hs & Ht). destruct (sa_edge_fwd _ _ _ _ _ S HE) as (E0 & HE0 & Heq & _). exists E0. split; [done|]. by rewrite Heq.
  Qed.
  Lemma sa_adj g0 x y : adj h' g0 x y ↔ adj h g0 x y.
  Proof. unfold adj. by setoid_rewrite sa_joins. Qed.
  Lemma sa_path g0 x y : path h' g0 x y ↔ path h g0 x y.
  Proof. unfold path. split; (induction 1; [apply tc_once; by apply sa_adj|eapply tc_l; [by apply sa_adj|done]]). Qed.
  Lemma sa_rootlike r : rootlike h' g r ↔ rootlike h g r.
  Proof. unfold rootlike, on_cycle. setoid_rewrite sa_adj. by setoid_rewrite sa_path. Qed.
  Lemma sa_on_cycle r : on_cycle h' g r ↔ on_cycle h g r.
  Proof. apply sa_path. Qed.
  Lemma sa_in_graph g0 r : in_graph h' g0 r ↔ in_graph h g0 r.
  Proof. unfold in_graph. by rewrite (sa_graphs _ _ _ S). Qed.
  Lemma sa_comparable : comparable h g → comparable h' g.
  Proof.
    intros Hc x y X Y Hx Hy HX HY. apply sa_in_graph in Hx. apply sa_in_graph in Hy.
    destruct (sa_node_bwd _ _ _ _ _ S HX) as (X0 & HX0 & EX & _). destruct (sa_node_bwd _ _ _ _ _ S HY) as (Y0 & HY0 & EY & _).
    rewrite EX, EY. cbn. by apply (Hc x y).
  Qed.
  Lemma sa_node_styled r : node_styled h r → node_styled h' r.
  Proof.
    intros (N & HN & Hs). destruct (sa_node_fwd _ _ _ _ _ S HN) as (N' & HN' & _ & [E|(? & _)]); [|done]. exists N'. split; [done|congruence].
  Qed.
  Lemma sa_edge_styled r : edge_styled h r → edge_styled h' r.
  Proof.
    intros (N & HN & Hs). destruct (sa_edge_fwd _ _ _ _ _ S HN) as (N' & HN' & _ & [E|(? & _)]); [|done]. exists N'. split; [done|congruence].
  Qed.
  Lemma sa_style_of r s : style_of h r s → style_of h' r s.
  Proof.
    intros (N & k & HN & Hs & Hk). destruct (sa_node_fwd _ _ _ _ _ S HN) as (N' & HN' & _ & [E|(? & _)]); [|congruence]. exists N', k.
    split_and!; [done|congruence|]. destruct (sa_ns _ _ _ S) as [l ->]. by apply lookup_app_l_Some.
  Qed.
  Lemma sa_edge_style_of r s : edge_style_of h r s → edge_style_of h' r s.
  Proof.
    intros (N & k & HN & Hs & Hk). destruct (sa_edge_fwd _ _ _ _ _ S HN) as (N' & HN' & _ & [E|(? & _)]); [|congruence]. exists N', k.
    split_and!; [done|congruence|]. destruct (sa_es _ _ _ S) as [l ->]. by apply lookup_app_l_Some.
  Qed.
  Lemma sa_WF : WF h → WF h'.
  Proof.
    intros W. eapply WF_data_only; [done|]. split.
    - intros r. destruct (h_nodes h !! r) as [N|] eqn:HN.
      + destruct (sa_node_fwd _ _ _ _ _ S HN) as (N' & -> & Heq & Hs). rewrite Heq. cbn. split_and!; try done.
        destruct Hs as [Hs|(_ & _ & k & Hk & Hl)]; [by left|]. right. exists k. split; [done|lia].
      + destruct (h_nodes h' !! r) as [N'|] eqn:HN'; [|done]. destruct (sa_node_bwd _ _ _ _ _ S HN') as (? & ? & _). congruence.
    - intros r. destruct (h_edges h !! r) as [N|] eqn:HN.
      + destruct (sa_edge_fwd _ _ _ _ _ S HN) as (N' & -> & Heq & Hs). rewrite Heq. cbn. split_and!; try done.
        destruct Hs as [Hs|(_ & _ & k & Hk & Hl)]; [by left|]. right. exists k. split; [done|lia].
      + destruct (h_edges h' !! r) as [N'|] eqn:HN'; [|done]. destruct (sa_edge_bwd _ _ _ _ _ S HN') as (? & ? & _). congruence.
    - intros r. rewrite (sa_graphs _ _ _ S). by destruct (h_graphs h !! r).
    - destruct (sa_ns _ _ _ S) as [l ->]. rewrite app_length. lia.
    - destruct (sa_es _ _ _ S) as [l ->]. rewrite app_length. lia.
  Qed.
End shape.

(** * What the styling functions read *)
Lemma loop_read h g r : WF h → in_graph h g r → ∃ b, node_is_in_loop h r = Ok b ∧ (b = true ↔ on_cycle h g r).
Proof.
  intros W Hr. destruct (in_loop_run h W g (ANode r) r) as (b & Hb & Hbi); [by apply denotes_self|].
  exists b. split; [|done]. unfold node_is_in_loop. by rewrite (node_graph_run h W g).
Qed.
Lemma with_read h g r p : WF h → in_graph h g r → in_graph h g p → ∃ b, node_in_loop_with h r (ANode p) = Ok b ∧ (b = true ↔ path h g r p ∧ path h g p r).
Proof.
  intros W Hr Hp. destruct (same_loop_run h W g (ANode r) (ANode p) r p) as (b & Hb & Hbi); [by apply denotes_self..|].
  exists b. split; [|done]. unfold node_in_loop_with. by rewrite (node_graph_run h W g).
Qed.
Lemma root_read h g r : WF h → in_graph h g r → ∃ b, is_root_or_parents_are_in_loop h r = Ok b ∧ (b = true ↔ rootlike h g r) ∧
  (b = false → ∃ p, adj h g p r ∧ ¬ on_cycle h g p).
Proof.
  intros W Hr. unfold is_root_or_parents_are_in_loop. rewrite (node_parents_run h W g) by done. cbn [rbind].
  destruct (rfilter_sublist (λ p, let! b := node_is_in_loop h p in Ok (negb b)) (λ p, ¬ on_cycle h g p) (pars h r)) as (l & -> & Hsub & Hl).
  { intros p Hp%(elem_of_pars h W g); [|done]. destruct (loop_read h g p) as (b & -> & Hb); [done|by apply (adj_in_graph h g p r) in Hp as [? _]|].
    cbn [rbind]. eexists. split; [done|]. rewrite <-Hb. by destruct b. }
  assert (Hdec : ∀ p, adj h g p r → on_cycle h g p ∨ ¬ on_cycle h g p).
  { intros p Hp. destruct (loop_read h g p) as (b & _ & Hb); [done|by apply (adj_in_graph h g p r) in Hp as [? _]|]. destruct b; [left; by apply Hb|right; intros ?%Hb; done]. }
  cbn [rbind]. eexists. split; [done|]. split; [|destruct l as [|p l]; [done|]; intros _; exists p; destruct (proj1 (Hl p)) as [Hp ?]; [left|]; split; [by apply (elem_of_pars h W g)|done]].
  split.
  - destruct l as [|]; [|done]. intros _ p Hp. destruct (Hdec p Hp) as [?|Hn]; [done|]. exfalso. destruct (not_elem_of_nil p). apply Hl. split; [by apply (elem_of_pars h W g)|done].
  - intros H. destruct l as [|p l]; [done|]. exfalso. destruct (proj1 (Hl p)) as [Hp Hc]; [left|]. apply (elem_of_pars h W g) in Hp; [|done]. by apply Hc, H.
Qed.
Lemma node_style_read h r s : style_of h r s → node_style h r = Ok s.
Proof. intros (N & k & HN & Hk & Hs). unfold node_style. rewrite (get_n_Ok _ _ _ HN). cbn [rbind]. by rewrite Hk, Hs. Qed.
Lemma styled_style h r : WF h → node_styled h r → ∃ s, style_of h r s.
Proof.
  intros W (N & HN & Hs). destruct (n_style N) as [k|] eqn:Hk; [|done]. destruct (lookup_lt_is_Some_2 (h_ns h) k) as [s Hsk]; [by eapply wf_nstyle|].
  exists s, N, k. done.
Qed.
Lemma style_coloured h r s : CI h → style_of h r s → coloured s.
Proof. intros [Hc _] (N & k & _ & _ & Hs). rewrite Forall_lookup in Hc. by eapply Hc. Qed.
Lemma styled_dec h r : WF h → ∀ N, h_nodes h !! r = Some N → node_styled h r ↔ n_style N ≠ None.
Proof. intros W N HN. split; [intros (N' & HN' & ?); congruence|]. intros. by exists N. Qed.

(** Giving a node or an edge its first style. *)
Lemma assign_run h g r N sty : WF h → h_nodes h !! r = Some N → n_graph N = Some g → n_style N = None →
  ∃ h', assign_nstyle r sty h = (h', Ok tt) ∧ styles_added g h h' ∧ style_of h' r sty ∧ h_edges h' = h_edges h ∧ h_es h' = h_es h ∧
    ∀ r', r' ≠ r → h_nodes h' !! r' = h_nodes h !! r'.
Proof.
  intros W HN Hg Hs. eexists. unfold assign_nstyle, new_ns, node_set_style, sbind, sread, sret, resolve_nstyle, upd_n. cbn [h_nodes h_ns set].
  unfold get_n. cbn. rewrite HN. cbn. rewrite Hs. cbn. rewrite HN. split; [reflexivity|]. pose proof (lookup_lt_Some _ _ _ HN) as Hlt. split; [|split_and!].
  - split; cbn.
    + done.
    + done.
    + eauto.
    + exists []. by rewrite app_nil_r.
    + by rewrite insert_length.
    + done.
    + intros r' M M' HM HM'. destruct (decide (r' = r)) as [->|Hne].
      * rewrite list_lookup_insert in HM' by done. injection HM' as <-. assert (M = N) as -> by congruence. split; [done|]. right. split; [done|]. split; [done|].
        eexists. split; [done|]. rewrite app_length. cbn. lia.
      * rewrite list_lookup_insert_ne in HM' by done. assert (M' = M) as -> by congruence. split; [by destruct M|by left].
    + intros e E E' HE HE'. assert (E' = E) as -> by congruence. split; [by destruct E|by left].
    + intros r1 r2 N1 N2 k H1 H2 Hk1 Hk2 Hle. destruct (decide (r1 = r)) as [->|Hn1], (decide (r2 = r)) as [->|Hn2]; [done|..].
      * rewrite list_lookup_insert_ne in H2 by done. pose proof (wf_nstyle h W r2 N2 k H2 Hk2). lia.
      * rewrite list_lookup_insert_ne in H1 by done. pose proof (wf_nstyle h W r1 N1 k H1 Hk1). lia.
      * rewrite list_lookup_insert_ne in H1 by done. pose proof (wf_nstyle h W r1 N1 k H1 Hk1). lia.
    + intros r1 r2 N1 N2 k H1 H2 Hk1 Hk2 Hle. pose proof (wf_estyle h W r1 N1 k H1 Hk1). lia.
  - eexists _, _. cbn. rewrite list_lookup_insert by done. split; [done|]. split; [done|]. by apply list_lookup_middle.
  - done.
  - done.
  - intros r' Hne. cbn. by rewrite list_lookup_insert_ne.
Qed.
Lemma assign_edge_run h g e E sty : WF h → h_edges h !! e = Some E → e_graph E = Some g → e_style E = None →
  ∃ h', (let* k := new_es sty in do* edge_set_style e (SObj k) in sret (Some sty)) h = (h', Ok (Some sty)) ∧ styles_added g h h' ∧ edge_style_of h' e sty ∧ h_nodes h' = h_nodes h ∧ h_ns h' = h_ns h ∧
    ∀ e', e' ≠ e → h_edges h' !! e' = h_edges h !! e'.
Proof.
  intros W HN Hg Hs. eexists. unfold new_es, edge_set_style, sbind, sread, sret, resolve_estyle, upd_e. cbn [h_edges h_es set].
  unfold get_e. cbn. rewrite HN. cbn. rewrite Hs. cbn. rewrite HN. split; [reflexivity|]. pose proof (lookup_lt_Some _ _ _ HN) as Hlt. split; [|split_and!].
  - split; cbn.
    + done.
    + done.
    + exists []. by rewrite app_nil_r.
    + eauto.
    + done.
    + by rewrite insert_length.
    + intros e' E0 E' HE HE'. assert (E' = E0) as -> by congruence. split; [by destruct E0|by left].
    + intros r' M M' HM HM'. destruct (decide (r' = e)) as [->|Hne].
      * rewrite list_lookup_insert in HM' by done. injection HM' as <-. assert (M = E) as -> by congruence. split; [done|]. right. split; [done|]. split; [done|].
        eexists. split; [done|]. rewrite app_length. cbn. lia.
      * rewrite list_lookup_insert_ne in HM' by done. assert (M' = M) as -> by congruence. split; [by destruct M|by left].
    + intros r1 r2 N1 N2 k H1 H2 Hk1 Hk2 Hle. pose proof (wf_nstyle h W r1 N1 k H1 Hk1). lia.
    + intros r1 r2 N1 N2 k H1 H2 Hk1 Hk2 Hle. destruct (decide (r1 = e)) as [->|Hn1], (decide (r2 = e)) as [->|Hn2]; [done|..].
      * rewrite list_lookup_insert_ne in H2 by done. pose proof (wf_estyle h W r2 N2 k H2 Hk2). lia.
      * rewrite list_lookup_insert_ne in H1 by done. pose proof (wf_estyle h W r1 N1 k H1 Hk1). lia.
      * rewrite list_lookup_insert_ne in H1 by done. pose proof (wf_estyle h W r1 N1 k H1 Hk1). lia.
  - eexists _, _. cbn. rewrite list_lookup_insert by done. split; [done|]. split; [done|]. by apply list_lookup_middle.
  - done.
  - done.
  - intros r' Hne. cbn. by rewrite list_lookup_insert_ne.
Qed.

(** * Roots *)
Definition root_style (c : colour) (s : nstyle) : Prop := nstyle_ctor [("colour"%string, PCol c)] = Ok s.
Lemma root_style_ex c : ∃ s, root_style c s.
Proof. unfold root_style. eexists. cbv -[ratio]. reflexivity. Qed.
Lemma style_root_run used h g r N : WF h → in_graph h g r → h_nodes h !! r = Some N →
  (n_style N ≠ None ∨ ¬ rootlike h g r) ∧ style_root used r h = (h, Ok used) ∨
  n_style N = None ∧ rootlike h g r ∧
    match get_least_used_colour used with
    | Err x => style_root used r h = (h, Err x)
    | Ok (used', c) => ∃ h' s, style_root used r h = (h', Ok used') ∧ styles_added g h h' ∧ root_style c s ∧ style_of h' r s ∧ h_edges h' = h_edges h ∧ h_es h' = h_es h ∧
        ∀ r', r' ≠ r → h_nodes h' !! r' = h_nodes h !! r'
    end.
Proof.
  intros W Hr HN. unfold style_root. rewrite (sread_Ok _ _ _ N) by (by apply get_n_Ok). destruct (n_style N) as [k|] eqn:Hs; [by left; split; [left|]|].
  destruct (root_read h g r) as (b & Hb & Hbi & _); [done..|]. rewrite (sread_Ok _ _ _ b) by done. destruct b.
  - right. split; [done|]. split; [by apply Hbi|]. destruct (get_least_used_colour used) as [[used' c]|x] eqn:Hu.
    + destruct (root_style_ex c) as [s Hc]. destruct (in_graph_lookup h W g r Hr) as (N' & HN' & Hg). assert (N' = N) as -> by congruence.
      destruct (assign_run h g r N s) as (h' & Ha & Hsa & Hst & He1 & He2 & Ho); [done..|]. exists h', s. split; [|done].
      rewrite (sread_Ok _ _ _ (used', c)) by done. rewrite (sread_Ok _ _ _ s) by done. by rewrite (sbind_step _ _ _ _ _ Ha).
    + by rewrite (sread_Err _ _ _ x).
  - left. split; [|done]. right. intros ?%Hbi. done.
Qed.
Lemma sublist_nil_inv {A} (l : list A) : l `sublist_of` [] → l = [].
Proof. by intros ?%sublist_nil_r. Qed.
Lemma roots_run h0 g ns used : WF h0 → NoDup ns → (∀ r, r ∈ ns → in_graph h0 g r) →
  ∃ rs, rs `sublist_of` ns ∧ (∀ r, r ∈ rs ↔ r ∈ ns ∧ ¬ node_styled h0 r ∧ rootlike h0 g r) ∧
    match pick (length rs) used with
    | Err x => ∃ h', sfold style_root used ns h0 = (h', Err x)
    | Ok (used', cl) => ∃ h', sfold style_root used ns h0 = (h', Ok used') ∧ styles_added g h0 h' ∧ h_edges h' = h_edges h0 ∧ h_es h' = h_es h0 ∧
        Forall2 (λ r c, ∃ s, root_style c s ∧ style_of h' r s) rs cl ∧ ∀ r, r ∉ rs → h_nodes h' !! r = h_nodes h0 !! r
    end.
Proof.
  revert h0 used. induction ns as [|r ns IH]; intros h0 used W Hnd Hin.
  - exists []. split; [done|]. split; [intros r; rewrite elem_of_nil; tauto|]. cbn. exists h0. split_and!; [done|by apply sa_refl|done..].
  - apply NoDup_cons in Hnd as [Hni Hnd]. assert (Hr : in_graph h0 g r) by (apply Hin; left). destruct (in_graph_lookup h0 W g r Hr) as (N & HN & Hg).
    destruct (style_root_run used h0 g r N W Hr HN) as [[Hno Hrun]|(Hs & Hroot & Hrun)].
    + destruct (IH h0 used W Hnd) as (rs & Hsub & Hrs & Hm); [intros; apply Hin; by right|]. exists rs. split; [by constructor|]. split.
      { intros r'. rewrite Hrs, elem_of_cons. split; [tauto|]. intros ([->|?] & Hs1 & Hs2); [|done]. rewrite (styled_dec h0 r W N HN) in Hs1. tauto. }
      cbn [sfold]. rewrite (sbind_step _ _ _ _ _ Hrun). done.
    + destruct (get_least_used_colour used) as [[used' c]|x] eqn:Hu.
      * destruct Hrun as (h1 & s & Hrun & Hsa & Hrs0 & Hst & He1 & He2 & Ho). pose proof (sa_WF _ _ _ Hsa W) as W1.
        destruct (IH h1 used' W1 Hnd) as (rs & Hsub & Hrs & Hm). { intros r' Hr'. apply (sa_in_graph _ _ _ Hsa), Hin. by right. }
        assert (Hrn : r ∉ rs) by (intros Hi; apply Hrs in Hi as [? _]; done).
        exists (r :: rs). split; [by constructor|]. split.
        { intros r'. rewrite !elem_of_cons, Hrs, (sa_rootlike _ _ _ Hsa). unfold node_styled. split.
          - intros [->|(H1 & H2 & H3)]; [split; [by left|]; split; [|done]; intros (N' & HN' & ?); congruence|]. split; [by right|]. split; [|done].
            rewrite <-(Ho r'); [done|]. by intros ->.
          - intros ([->|H1] & H2 & H3); [by left|]. right. split; [done|]. split; [|done]. rewrite (Ho r'); [done|]. by intros ->. }
        cbn [sfold length pick]. rewrite (sbind_step _ _ _ _ _ Hrun), Hu. cbn [rbind]. destruct (pick (length rs) used') as [[used2 cl]|x]; cbn [rbind].
        -- destruct Hm as (h2 & Hrun2 & Hsa2 & He3 & He4 & HF & Ho2). exists h2. split_and!; [done|by eapply sa_trans|congruence|congruence|..].
           ++ constructor; [|done]. exists s. split; [done|]. by eapply sa_style_of.
           ++ intros r' Hni'. apply not_elem_of_cons in Hni' as [Hne Hni']. by rewrite Ho2, Ho.
        -- done.
      * (* an empty table: the first unstyled root fails *)
        destruct used as [|p used]; [|cbn in Hu; by destruct (least_used p used)]. cbn in Hu. injection Hu as <-.
        destruct (IH h0 [] W Hnd) as (rs & Hsub & Hrs & Hm); [intros; apply Hin; by right|].
        exists (r :: rs). split; [by constructor|]. split.
        { intros r'. rewrite !elem_of_cons, Hrs. split; [|intros ([->|?] & ? & ?); tauto]. intros [->|?]; [|tauto]. split; [by left|]. split; [|done]. rewrite (styled_dec h0 r W N HN). intros Hx; by apply Hx. }
        cbn. exists h0. by rewrite (sbind_fail _ _ _ _ _ Hrun).
Qed.

(** * Branches *)
Lemma recolour_total s c : coloured s → ∃ s', recolour s c = Ok s'.
Proof. intros Hs. unfold recolour. rewrite (ns_copy_eq s Hs). cbn [rbind]. eauto. Qed.
Lemma in_graph_lt h g r : WF h → in_graph h g r → r < length (h_nodes h).
Proof. intros W Hr. destruct (in_graph_lookup h W g r Hr) as (N & HN & _). by eapply lookup_lt_Some. Qed.
Lemma inherit_total fuel h g pale div r seen : WF h → CI h → comparable h g → (∀ x, in_graph h g x → rootlike h g x → node_styled h x) →
  in_graph h g r → NoDup seen → (∀ s, s ∈ seen → path h g r s ∧ ¬ path h g s r) → length (h_nodes h) < fuel + length seen →
  ∃ sty, inherit_style fuel h pale div r = Ok sty.
Proof.
  intros W HCI Hc Hroots. revert r div seen. induction fuel as [|fuel IH]; intros r div seen Hr Hnd Hseen Hlen.
  - exfalso. assert (length seen ≤ length (seq 0 (length (h_nodes h)))) as Hle; [|rewrite seq_length in Hle; lia].
    apply submseteq_length, NoDup_submseteq; [done|]. intros s Hs. apply elem_of_seq. split; [lia|]. apply (in_graph_lt h g s W).
    destruct (Hseen s Hs) as [Hp _]. by apply (path_in_graph h W) in Hp as [_ ?].
  - cbn [inherit_style]. destruct (root_read h g r) as (b & -> & Hb & Hnb); [done..|]. cbn [rbind]. destruct b.
    + destruct (styled_style h r W) as [s Hs]; [by apply Hroots, Hb|]. rewrite (node_style_read _ _ _ Hs). cbn [rbind].
      rewrite (ns_copy_eq s); [eauto|]. by eapply style_coloured.
    + destruct (Hnb eq_refl) as (p0 & Hp0 & Hp0c). rewrite (node_parents_run h W g) by done. cbn [rbind].
      assert (Hstep : ∀ p div, p ∈ pars h r → ¬ (path h g r p ∧ path h g p r) → ∃ sty, inherit_style fuel h pale div p = Ok sty).
      { intros p div' Hp Hnl. apply (elem_of_pars h W g) in Hp; [|done]. assert (¬ path h g r p) as Hnp. { intros ?. apply Hnl. split; [done|]. by apply tc_once. }
        apply (IH p div' (r :: seen)).
        - by apply (adj_in_graph h g p r) in Hp as [? _].
        - constructor; [|done]. intros Hs. destruct (Hseen r Hs). done.
        - intros s [->|Hs]%elem_of_cons; [split; [by apply tc_once|done]|]. destruct (Hseen s Hs) as [H1 H2]. split; [by eapply tc_l|].
          intros H3. apply H2. by eapply tc_r.
        - cbn. lia. }
      assert (Hmulti : ∃ sty, (let! ps' := rfilter (λ p, let! b := node_in_loop_with h r (ANode p) in Ok (negb b)) (pars h r) in
            let! stys := rmap (λ p, inherit_style fuel h pale 0%Q p) ps' in
            match stys with
            | [] => Err IndexError
            | sty :: _ => recolour sty (CPale (mix (map ns_colour stys)) pale)
            end) = Ok sty).
      { destruct (rfilter_sublist (λ p, let! b := node_in_loop_with h r (ANode p) in Ok (negb b)) (λ p, ¬ (path h g r p ∧ path h g p r)) (pars h r)) as (l & -> & _ & Hl).
        { intros p Hp%(elem_of_pars h W g); [|done]. destruct (with_read h g r p) as (b & -> & Hb'); [done|done|by apply (adj_in_graph h g p r) in Hp as [? _]|].
          cbn [rbind]. eexists. split; [done|]. rewrite <-Hb'. by destruct b. }
        cbn [rbind]. destruct (rmap_run (λ p, inherit_style fuel h pale 0%Q p) (λ _ s, coloured s) l) as (stys & -> & HF).
        { intros p [Hp Hn]%Hl. destruct (Hstep p 0%Q Hp Hn) as [sty Hsty]. exists sty. split; [done|]. by eapply inherit_coloured. }
        cbn [rbind]. assert (p0 ∈ l) as Hp0l. { apply Hl. split; [by apply (elem_of_pars h W g)|]. intros [H1 H2]. apply Hp0c. by eapply tc_transitive. }
        destruct HF as [|p s l stys Hs HF]; [by apply elem_of_nil in Hp0l|]. by apply recolour_total. }
      destruct (pars h r) as [|p [|p' ps]] eqn:Hps; [done| |done].
      assert (p0 = p) as ->. { apply (elem_of_pars h W g) in Hp0; [|done]. rewrite Hps in Hp0. by apply elem_of_list_singleton in Hp0. }
      assert (Hpg : in_graph h g p) by (by apply (adj_in_graph h g p r) in Hp0 as [? _]).
      rewrite (node_children_run h W g) by done. cbn [rbind]. rewrite (child_rank_run h W g Hc) by done.
      assert (Hrk : r ∈ kids h p) by (by apply (elem_of_kids h W g)). rewrite decide_True by done. cbn [rbind].
      destruct (Hstep p div) as [sty Hsty]; [left|intros [H1 H2]; apply Hp0c; by eapply tc_transitive|]. rewrite Hsty. cbn [rbind].
      assert (∃ c, match kids h p with [] => Ok (ns_colour sty) | _ :: _ => let! d := get_diverging_number (length (filter (λ x, precedes h x r) (kids h p))) (length (kids h p)) false in
                             Ok (CHue (ns_colour sty) (div * d)%Q) end = Ok c) as [c ->].
      { destruct (C44_values_proof (length (kids h p)) (length (filter (λ x, precedes h x r) (kids h p)))) as (Hd & _).
        destruct Hd as (q & Hq & _).
        - apply elem_of_list_split in Hrk as (l1 & l2 & ->). rewrite filter_app, filter_cons, decide_False by apply precedes_irrefl.
          rewrite !app_length. cbn. pose proof (filter_length (λ x, precedes h x r) l1). pose proof (filter_length (λ x, precedes h x r) l2). lia.
        - rewrite Hq. destruct (kids h p); cbn [rbind]; eauto. }
      cbn [rbind]. apply recolour_total. by eapply inherit_coloured.
Qed.

Lemma style_branch_post h g r h' : WF h → in_graph h g r → style_branch r h = (h', Ok tt) →
  styles_added g h h' ∧ h_edges h' = h_edges h ∧ h_es h' = h_es h ∧ (¬ rootlike h g r → ¬ on_cycle h g r → node_styled h' r) ∧
  (h' = h ∨ ¬ node_styled h r ∧ ¬ rootlike h g r ∧ ¬ on_cycle h g r ∧ ∀ r', r' ≠ r → h_nodes h' !! r' = h_nodes h !! r').
Proof.
  intros W Hr. destruct (in_graph_lookup h W g r Hr) as (N & HN & Hg). unfold style_branch.
  destruct (root_read h g r) as (b & Hb & Hbi & _); [done..|]. rewrite (sread_Ok _ _ _ b) by done. destruct b.
  { intros [= <-]. split_and!; [by apply sa_refl|done|done|intros Hn; destruct Hn; by apply Hbi|by left]. }
  destruct (loop_read h g r) as (l & Hl & Hli); [done..|]. rewrite (sread_Ok _ _ _ l) by done. destruct l.
  { intros [= <-]. split_and!; [by apply sa_refl|done|done|intros _ Hn; destruct Hn; by apply Hli|by left]. }
  rewrite (sread_Ok _ _ _ N) by (by apply get_n_Ok). destruct (n_style N) as [k|] eqn:Hs.
  { intros [= <-]. split_and!; [by apply sa_refl|done|done|intros _ _; exists N; by rewrite Hs|by left]. }
  destruct (inherit_style (inherit_fuel h) h pale_ratio divergence_ratio r) as [sty|x] eqn:Hi; [|by rewrite (sread_Err _ _ _ x)]. rewrite (sread_Ok _ _ _ sty) by done.
  destruct (assign_run h g r N sty) as (h1 & Ha & Hsa & Hst & He1 & He2 & Ho); [done..|]. rewrite Ha. intros [= <-]. split_and!; [done..| |].
  - intros _ _. destruct Hst as (N' & k & HN' & Hk & _). exists N'. by rewrite Hk.
  - right. split_and!; [|intros ?%Hbi; done|intros ?%Hli; done|done]. rewrite (styled_dec h r W N HN), Hs. intros Hx. by apply Hx.
Qed.
Lemma style_branch_total h g r : WF h → CI h → comparable h g → (∀ x, in_graph h g x → rootlike h g x → node_styled h x) →
  in_graph h g r → ∃ h', style_branch r h = (h', Ok tt).
Proof.
  intros W HCI Hc Hroots Hr. destruct (in_graph_lookup h W g r Hr) as (N & HN & Hg). unfold style_branch.
  destruct (root_read h g r) as (b & Hb & Hbi & _); [done..|]. rewrite (sread_Ok _ _ _ b) by done. destruct b; [by eexists|].
  destruct (loop_read h g r) as (l & Hl & Hli); [done..|]. rewrite (sread_Ok _ _ _ l) by done. destruct l; [by eexists|].
  rewrite (sread_Ok _ _ _ N) by (by apply get_n_Ok). destruct (n_style N) as [k|] eqn:Hs; [by eexists|].
  destruct (inherit_total (inherit_fuel h) h g pale_ratio divergence_ratio r []) as [sty Hi]; [done..|by constructor|by intros s Hs'%elem_of_nil|unfold inherit_fuel; cbn; lia|].
  rewrite (sread_Ok _ _ _ sty) by done. destruct (assign_run h g r N sty) as (h1 & Ha & _); [done..|]. eauto.
Qed.
Lemma branches_post h g ns h' : WF h → NoDup ns → (∀ r, r ∈ ns → in_graph h g r) → siter style_branch ns h = (h', Ok tt) →
  styles_added g h h' ∧ h_edges h' = h_edges h ∧ h_es h' = h_es h ∧ (∀ r, r ∈ ns → ¬ rootlike h g r → ¬ on_cycle h g r → node_styled h' r) ∧
  (∀ r, ¬ (r ∈ ns ∧ ¬ node_styled h r ∧ ¬ rootlike h g r ∧ ¬ on_cycle h g r) → h_nodes h' !! r = h_nodes h !! r).
Proof.
  revert h. induction ns as [|r ns IH]; intros h W Hnd Hin; cbn [siter].
  - intros [= <-]. split_and!; [by apply sa_refl|done|done|by intros r Hr%elem_of_nil|done].
  - intros (h1 & [] & H1 & H2)%sbind_Ok. apply NoDup_cons in Hnd as [Hni Hnd].
    destruct (style_branch_post h g r h1 W) as (S1 & E1 & E2 & Hst & Hch); [apply Hin; left|done|]. pose proof (sa_WF _ _ _ S1 W) as W1.
    destruct (IH h1 W1 Hnd) as (S2 & E3 & E4 & Hst2 & Hch2); [intros; apply (sa_in_graph _ _ _ S1), Hin; by right|done|].
    split_and!; [by eapply sa_trans|congruence|congruence|..].
    + intros r' [->|Hr']%elem_of_cons Hn1 Hn2; [eapply sa_node_styled; [done|by apply Hst]|].
      apply Hst2; [done|by rewrite (sa_rootlike _ _ _ S1)|by rewrite (sa_on_cycle _ _ _ S1)].
    + intros r' Hn. rewrite (Hch2 r').
      * destruct Hch as [->|(Hc1 & Hc2 & Hc3 & Ho)]; [done|]. apply Ho. intros ->. apply Hn. split; [left|done].
      * rewrite (sa_rootlike _ _ _ S1), (sa_on_cycle _ _ _ S1). intros (Hr' & Hs & ? & ?). apply Hn. split; [by right|]. split; [|done].
        intros Hs'. apply Hs. by eapply sa_node_styled.
Qed.
Lemma branches_total h g ns : WF h → CI h → comparable h g → (∀ x, in_graph h g x → rootlike h g x → node_styled h x) → NoDup ns →
  (∀ r, r ∈ ns → in_graph h g r) → ∃ h', siter style_branch ns h = (h', Ok tt).
Proof.
  revert h. induction ns as [|r ns IH]; intros h W HCI Hc Hroots Hnd Hin; cbn [siter]; [by eexists|]. apply NoDup_cons in Hnd as [Hni Hnd].
  destruct (style_branch_total h g r) as [h1 H1]; [done..|apply Hin; left|]. rewrite (sbind_step _ _ _ _ _ H1).
  destruct (style_branch_post h g r h1 W) as (S1 & E1 & E2 & Hst & Hch); [apply Hin; left|done|].
  apply IH.
  - by eapply sa_WF.
  - pose proof (CI_style_branch r h HCI) as HI. by rewrite H1 in HI.
  - by eapply sa_comparable.
  - intros x Hx Hrx. eapply sa_node_styled; [done|]. apply Hroots; [by apply (sa_in_graph _ _ _ S1)|by apply (sa_rootlike _ _ _ S1)].
  - done.
  - intros r' Hr'. apply (sa_in_graph _ _ _ S1), Hin. by right.
Qed.

(** * Edges *)
Definition carries (c : option estyle) (a : Q) : Prop := c = None ∧ a = (1 # 2)%Q ∨ ∃ c', c = Some (standard_edge c' a).
Lemma edge_base c a col : carries c a → match c with
    | None => estyle_ctor [("colour"%string, PCol col)]
    | Some sty => let! cp := es_copy sty in Ok (es_put_colour col (es_reset cp))
    end = Ok (standard_edge col a).
Proof. intros [[-> ->]|[c' ->]]; cbv; reflexivity. Qed.
Lemma style_edge_skip c h e : edge_styled h e → style_edge c e h = (h, Ok c).
Proof. intros (E & HE & Hs). unfold style_edge. rewrite (sread_Ok _ _ _ E) by (by apply get_e_Ok). by destruct (e_style E). Qed.
Lemma style_edge_bare c h g e x y E : joins h g e x y → h_edges h !! e = Some E → e_style E = None → in_graph h g x → ¬ node_styled h x → WF h →
  style_edge c e h = (h, Err AttributeError).
Proof.
  intros (E' & HE' & Hg & Hst & Ht) HE Hs Hx Hns W. assert (E' = E) as -> by congruence. unfold style_edge. rewrite (sread_Ok _ _ _ E) by (by apply get_e_Ok). rewrite Hs.
  rewrite (sread_Ok _ _ _ x). 2: { unfold edge_start. rewrite (get_e_Ok _ _ _ HE). cbn [rbind]. by rewrite Hst. }
  destruct (in_graph_lookup h W g x Hx) as (N & HN & _). rewrite (sread_Err _ _ _ AttributeError); [done|]. unfold node_style. rewrite (get_n_Ok _ _ _ HN). cbn [rbind].
  rewrite (styled_dec h x W N HN) in Hns. destruct (n_style N); [|done]. by destruct Hns.
Qed.
Lemma style_edge_run c a h g e x y E s : WF h → carries c a → joins h g e x y → h_edges h !! e = Some E → e_style E = None → style_of h x s →
  (numeric (e_value E) → ∃ h' a', let sty := standard_edge (CDarken (ns_colour s) edge_darkness_ratio) a' in
    style_edge c e h = (h', Ok (Some sty)) ∧ (a' == a * factor (e_value E))%Q ∧
    styles_added g h h' ∧ edge_style_of h' e sty ∧ h_nodes h' = h_nodes h ∧ h_ns h' = h_ns h ∧ ∀ e', e' ≠ e → h_edges h' !! e' = h_edges h !! e') ∧
  (¬ numeric (e_value E) → ∃ x, style_edge c e h = (h, Err x) ∧ ((∀ c, e_value E ≠ PCol c) → x = TypeError)).
Proof.
  intros W Hc (E' & HE' & Hg & Hst & Ht) HE Hs Hsx. assert (E' = E) as -> by congruence. unfold style_edge. rewrite (sread_Ok _ _ _ E) by (by apply get_e_Ok). rewrite Hs.
  rewrite (sread_Ok _ _ _ x). 2: { unfold edge_start. rewrite (get_e_Ok _ _ _ HE). cbn [rbind]. by rewrite Hst. }
  rewrite (sread_Ok _ _ _ s) by (by apply node_style_read). cbv zeta. rewrite (sread_Ok _ _ _ (standard_edge (CDarken (ns_colour s) edge_darkness_ratio) a)) by (by apply edge_base).
  split.
  - intros Hn. assert (∃ a', match e_value E with PNone => Ok (standard_edge (CDarken (ns_colour s) edge_darkness_ratio) a)
      | v => let! a1 := py_mul (es_arrow (standard_edge (CDarken (ns_colour s) edge_darkness_ratio) a)) v in Ok (standard_edge (CDarken (ns_colour s) edge_darkness_ratio) a <| es_arrow := a1 |>) end
      = Ok (standard_edge (CDarken (ns_colour s) edge_darkness_ratio) a') ∧ (a' == a * factor (e_value E))%Q) as (a' & Ha & Hq).
    { destruct (e_value E) as [|z|q|?|?|?]; try done; eexists; (split; [reflexivity|]); cbn; [by rewrite Qmult_1_r|done|done]. }
    rewrite (sread_Ok _ _ _ _ Ha). destruct (assign_edge_run h g e E (standard_edge (CDarken (ns_colour s) edge_darkness_ratio) a')) as (h' & Hr & Hsa & Hso & Hn1 & Hn2 & Ho); [done..|].
    exists h', a'. cbv zeta. split_and!; done.
  - intros Hn. destruct (e_value E) as [| | |v|v|v] eqn:Hv; try done.
    1, 3: exists TypeError; split; [by rewrite (sread_Err _ _ _ TypeError)|done].
    exists Unmodelled. split; [by rewrite (sread_Err _ _ _ Unmodelled)|]. intros Hcol. by destruct (Hcol v).
Qed.
Definition good_edge (h : heap) (g : gref) (e : eref) : Prop := ∃ x y E, joins h g e x y ∧ h_edges h !! e = Some E ∧ node_styled h x ∧ numeric (e_value E).
Lemma unstyled_skip h e es : edge_styled h e → unstyled_edges h (e :: es) = unstyled_edges h es.
Proof. intros (E & HE & Hs). unfold unstyled_edges. rewrite filter_cons, decide_False; [done|]. rewrite HE. cbn. done. Qed.
Lemma unstyled_take h e es E : h_edges h !! e = Some E → e_style E = None → unstyled_edges h (e :: es) = e :: unstyled_edges h es.
Proof. intros HE Hs. unfold unstyled_edges. rewrite filter_cons, decide_True; [done|]. rewrite HE. cbn. done. Qed.
Lemma unstyled_other h h' e es : e ∉ es → (∀ e', e' ≠ e → h_edges h' !! e' = h_edges h !! e') → unstyled_edges h' es = unstyled_edges h es.
Proof.
  intros Hn Ho. unfold unstyled_edges. induction es as [|e' es IH]; [done|]. apply not_elem_of_cons in Hn as [Hne Hn]. rewrite !filter_cons, (Ho e') by done. by rewrite IH.
Qed.
Lemma elem_of_unstyled h e es : e ∈ unstyled_edges h es → e ∈ es.
Proof. unfold unstyled_edges. by intros [_ ?]%elem_of_list_filter. Qed.
Lemma values_of_cons h e es E : h_edges h !! e = Some E → values_of h (e :: es) = e_value E :: values_of h es.
Proof. intros HE. unfold values_of. cbn. by rewrite HE. Qed.
Lemma values_of_sa g h h' es : styles_added g h h' → values_of h' es = values_of h es.
Proof.
  intros S. unfold values_of. induction es as [|e es IH]; [done|]. cbn. rewrite IH. destruct (h_edges h !! e) as [E|] eqn:HE.
  - destruct (sa_edge_fwd _ _ _ _ _ S HE) as (E' & -> & Heq & _). rewrite Heq. done.
  - destruct (h_edges h' !! e) as [E'|] eqn:HE'; [|done]. destruct (sa_edge_bwd _ _ _ _ _ S HE') as (? & ? & _). congruence.
Qed.
Lemma good_edge_sa g h h' e : styles_added g h h' → h_nodes h' = h_nodes h → good_edge h' g e ↔ good_edge h g e.
Proof.
  intros S Hn. unfold good_edge, node_styled. rewrite Hn. split.
  - intros (x & y & E & Hj & HE & Hs & Hv). destruct (sa_edge_bwd _ _ _ _ _ S HE) as (E0 & HE0 & Heq & _). exists x, y, E0. split_and!; [by apply (sa_joins _ _ _ S)|done..|]. by rewrite Heq in Hv.
  - intros (x & y & E & Hj & HE & Hs & Hv). destruct (sa_edge_fwd _ _ _ _ _ S HE) as (E0 & HE0 & Heq & _). exists x, y, E0. split_and!; [by apply (sa_joins _ _ _ S)|done..|]. by rewrite Heq.
Qed.
Lemma edges_ok h g es c a : WF h → carries c a → NoDup es → (∀ e, e ∈ es → ∃ x y, joins h g e x y) → (∀ e, e ∈ unstyled_edges h es → good_edge h g e) →
  ∃ h' c', sfold style_edge c es h = (h', Ok c') ∧ styles_added g h h' ∧ h_nodes h' = h_nodes h ∧ h_ns h' = h_ns h ∧
    (∀ e, e ∉ unstyled_edges h es → h_edges h' !! e = h_edges h !! e) ∧
    ∀ i e, unstyled_edges h es !! i = Some e → ∃ x y s a', joins h g e x y ∧ style_of h x s ∧
      edge_style_of h' e (standard_edge (CDarken (ns_colour s) edge_darkness_ratio) a') ∧
      (a' == a * product (factor <$> take (Datatypes.S i) (values_of h (unstyled_edges h es))))%Q.
Proof.
  revert h c a. induction es as [|e es IH]; intros h c a W Hc Hnd Hj Hgood.
  - cbn. exists h, c. split_and!; [done|by apply sa_refl|done..].
  - apply NoDup_cons in Hnd as [Hni Hnd]. destruct (Hj e) as (x & y & Hje); [left|]. pose proof Hje as (E & HE & _). cbn [sfold].
    destruct (e_style E) as [k|] eqn:Hs.
    + assert (edge_styled h e) as He by (exists E; by rewrite Hs). rewrite (sbind_step _ _ _ _ _ (style_edge_skip c h e He)). rewrite (unstyled_skip h e es He) in *.
      apply IH; try done. intros; apply Hj; by right.
    + rewrite (unstyled_take h e es E HE Hs) in *. destruct (Hgood e) as (x' & y' & E' & Hj' & HE' & Hsx & Hnum); [left|].
      assert (E' = E) as -> by congruence. destruct (styled_style h x' W Hsx) as [s Hst].
      destruct (style_edge_run c a h g e x' y' E s) as [Hrun _]; [done..|]. destruct (Hrun Hnum) as (h1 & a1 & Hr & Ha & Hsa & Hso & Hn1 & Hn2 & Ho). cbv zeta in Hr, Hso.
      rewrite (sbind_step _ _ _ _ _ Hr). pose proof (unstyled_other h h1 e es Hni Ho) as Hu.
      destruct (IH h1 (Some (standard_edge (CDarken (ns_colour s) edge_darkness_ratio) a1)) a1) as (h2 & c2 & Hr2 & Hsa2 & Hn3 & Hn4 & Ho2 & Har).
      * by eapply sa_WF.
      * right. by eexists.
      * done.
      * intros e' He'. destruct (Hj e') as (x1 & y1 & ?); [by right|]. exists x1, y1. by apply (sa_joins _ _ _ Hsa).
      * rewrite Hu. intros e' He'. apply (good_edge_sa _ _ _ _ Hsa Hn1), Hgood. by right.
      * rewrite Hu in *. exists h2, c2. split_and!; [done|by eapply sa_trans|congruence|congruence|..].
        -- intros e' He'. apply not_elem_of_cons in He' as [Hne He']. by rewrite Ho2, Ho.
        -- intros [|i] e' Hi; cbn in Hi.
           ++ injection Hi as <-. exists x', y', s, a1. split_and!; [done..|by eapply sa_edge_style_of|]. rewrite (values_of_cons _ _ _ E) by done. cbn. rewrite take_0. cbn.
              by rewrite Qmult_1_r.
           ++ destruct (Har i e' Hi) as (x2 & y2 & s2 & a2 & Hj2 & Hs2 & Hes2 & Ha2). exists x2, y2, s2, a2. split_and!; [by apply (sa_joins _ _ _ Hsa)| |done|].
              { destruct Hs2 as (N & k & HN & Hk1 & Hk2). rewrite Hn1 in HN. rewrite Hn2 in Hk2. by exists N, k. }
              rewrite (values_of_cons _ _ _ E) by done. rewrite (values_of_sa _ _ _ _ Hsa) in Ha2. rewrite Ha2, Ha. cbn [take fmap list_fmap product]. by rewrite Qmult_assoc.
Qed.
Lemma edges_fail h g es c a : WF h → carries c a → NoDup es → (∀ e, e ∈ es → ∃ x y, joins h g e x y) → 
  (∃ e, e ∈ unstyled_edges h es ∧ ¬ good_edge h g e) → ∃ h' x, sfold style_edge c es h = (h', Err x) ∧
  ((∀ e E col, e ∈ es → h_edges h !! e = Some E → e_value E ≠ PCol col) → x = AttributeError ∨ x = TypeError).
Proof.
  revert h c a. induction es as [|e es IH]; intros h c a W Hc Hnd Hj (e0 & He0 & Hbad); [by apply elem_of_nil in He0|].
  apply NoDup_cons in Hnd as [Hni Hnd]. destruct (Hj e) as (x & y & Hje); [left|]. pose proof Hje as (E & HE & _). cbn [sfold].
  assert (Hxg : in_graph h g x) by (by apply (joins_in_graph h g e x y) in Hje as [? _]).
  destruct (e_style E) as [k|] eqn:Hs.
  + assert (edge_styled h e) as He by (exists E; by rewrite Hs). rewrite (sbind_step _ _ _ _ _ (style_edge_skip c h e He)). rewrite (unstyled_skip h e es He) in *.
    destruct (IH h c a) as (h' & x' & Hr & Hx'); [try done..|exists h', x'; split; [done|]; eauto using elem_of_list_further]; eauto using elem_of_list_further.
  + rewrite (unstyled_take h e es E HE Hs) in *. destruct (in_graph_lookup h W g x Hxg) as (N & HN & _).
    destruct (n_style N) as [k|] eqn:Hk.
    2: { exists h, AttributeError. split; [|intros _; by left]. erewrite sbind_fail; [done|]. eapply style_edge_bare; try done. rewrite (styled_dec h x W N HN), Hk. intros Hx. by apply Hx. }
    assert (node_styled h x) as Hsx by (exists N; by rewrite Hk). destruct (styled_style h x W Hsx) as [s Hst].
    destruct (style_edge_run c a h g e x y E s) as [Hrun Hfail]; [done..|].
    assert (numeric (e_value E) ∨ ¬ numeric (e_value E)) as [Hnum|Hnum] by (destruct (e_value E); cbn; tauto).
    2: { destruct (Hfail Hnum) as (x' & Hr & Hx'). exists h, x'. split; [by erewrite sbind_fail|]. intros Hcol. right. apply Hx'. intros col. eapply Hcol; [left|done]. }
    destruct (Hrun Hnum) as (h1 & a1 & Hr & Ha & Hsa & Hso & Hn1 & Hn2 & Ho). cbv zeta in Hr, Hso.
    rewrite (sbind_step _ _ _ _ _ Hr). pose proof (unstyled_other h h1 e es Hni Ho) as Hu.
    destruct (IH h1 (Some (standard_edge (CDarken (ns_colour s) edge_darkness_ratio) a1)) a1) as (h' & x' & Hr' & Hx').
    * by eapply sa_WF.
    * right. by eexists.
    * done.
    * intros e' He'. destruct (Hj e') as (x1 & y1 & ?); [by right|]. exists x1, y1. by apply (sa_joins _ _ _ Hsa).
    * rewrite Hu. exists e0. apply elem_of_cons in He0 as [->|He0].
      -- destruct Hbad. by exists x, y, E.
      -- split; [done|]. by rewrite (good_edge_sa _ _ _ _ Hsa Hn1).
    * exists h', x'. split; [done|]. intros Hcol. apply Hx'. intros e' E' col He' HE'. rewrite Ho in HE' by (by intros ->). eapply Hcol; [by right|done].
Qed.

(** * The whole *)
Lemma stylize_default g sh h G D : h_graphs h !! g = Some G → g_disp G = Some D → default_styling D → stylize g sh h = stylize_with_pensieve g (d_scheme D) h.
Proof.
  intros HG HD (H1 & H2 & H3 & H4 & H5 & H6 & H7). unfold stylize. rewrite (sread_Ok _ _ _ D). 2: { unfold get_display. rewrite (get_g_Ok _ _ _ HG). cbn [rbind]. by rewrite HD. }
  rewrite H1, H2, H3, H4, H5, H6, H7. cbn [when_dict siter]. rewrite eqb_same. unfold sbind, sret. by destruct (stylize_with_pensieve g (d_scheme D) h) as [h1 [[]|x]].
Qed.
(** Nodes that have a style after the default styling. *)
Definition styled_later (h : heap) (g : gref) (r : nref) : Prop := node_styled h r ∨ rootlike h g r ∨ ¬ on_cycle h g r.
Definition later_good (h : heap) (g : gref) (e : eref) : Prop := ∃ x y E, joins h g e x y ∧ h_edges h !! e = Some E ∧ styled_later h g x ∧ numeric (e_value E).
Lemma styled_decide h r : node_styled h r ∨ ¬ node_styled h r.
Proof. unfold node_styled. destruct (h_nodes h !! r) as [N|]; [|right; by intros (? & ? & _)]. destruct (n_style N) as [k|] eqn:Hk; [left; exists N; by rewrite Hk|right; intros (? & ? & ?); congruence]. Qed.
Lemma rootlike_decide h g r : WF h → in_graph h g r → rootlike h g r ∨ ¬ rootlike h g r.
Proof. intros W Hr. destruct (root_read h g r) as (b & _ & Hb & _); [done..|]. destruct b; [left; by apply Hb|right; intros ?%Hb; done]. Qed.
Lemma on_cycle_decide h g r : WF h → in_graph h g r → on_cycle h g r ∨ ¬ on_cycle h g r.
Proof. intros W Hr. destruct (loop_read h g r) as (b & _ & Hb); [done..|]. destruct b; [left; by apply Hb|right; intros ?%Hb; done]. Qed.
Lemma nodes_phase h g G used h2 : WF h → h_graphs h !! g = Some G →
  (let* ns := sread (λ h, nodes h g) in do* sfold style_root used ns in siter style_branch ns) h = (h2, Ok tt) →
  ∃ rs used' cl, rs `sublist_of` dvals (g_nodes G) ∧ (∀ r, r ∈ rs ↔ in_graph h g r ∧ ¬ node_styled h r ∧ rootlike h g r) ∧
    pick (length rs) used = Ok (used', cl) ∧ Forall2 (λ r c, ∃ s, root_style c s ∧ style_of h2 r s) rs cl ∧
    styles_added g h h2 ∧ h_edges h2 = h_edges h ∧ h_es h2 = h_es h ∧ (∀ r, in_graph h g r → node_styled h2 r ↔ styled_later h g r).
Proof.
  intros W HG. rewrite (sread_Ok _ _ _ (dvals (g_nodes G))) by (by apply nodes_run). intros (h1 & used' & H1 & H2)%sbind_Ok.
  assert (Hnd : NoDup (dvals (g_nodes G))) by (by eapply NoDup_nodes).
  destruct (roots_run h g (dvals (g_nodes G)) used W Hnd) as (rs & Hsub & Hrs & Hm); [intros r; by apply elem_of_nodes|].
  destruct (pick (length rs) used) as [[u cl]|x] eqn:Hp; [|destruct Hm as [h' Hm]; congruence].
  destruct Hm as (h' & Hr & S1 & E1 & E2 & HF & Ho). assert (h' = h1) as -> by congruence. pose proof (sa_WF _ _ _ S1 W) as W1.
  destruct (branches_post h1 g (dvals (g_nodes G)) h2 W1 Hnd) as (S2 & E3 & E4 & Hst & Ho2); [intros r ?; apply (sa_in_graph _ _ _ S1); by apply (elem_of_nodes h g G)|done|].
  exists rs, u, cl. split_and!; [done| |done| |by eapply sa_trans|congruence|congruence|].
  - intros r. rewrite Hrs. by rewrite (elem_of_nodes h g G).
  - eapply Forall2_impl; [done|]. intros r c (s & ? & ?). exists s. split; [done|]. by eapply sa_style_of.
  - intros r Hr'. split.
    + intros (N2 & HN2 & Hs2). destruct (styled_decide h r) as [?|Hn]; [by left|]. right. destruct (rootlike_decide h g r W Hr') as [?|Hnr]; [by left|]. right.
      intros Hcyc. assert (h_nodes h1 !! r = h_nodes h !! r) as Heq1. { apply Ho. rewrite Hrs. tauto. }
      rewrite Ho2 in HN2 by (rewrite (sa_on_cycle _ _ _ S1); tauto). rewrite Heq1 in HN2. apply Hn. by exists N2.
    + assert (Hroots : rootlike h g r → node_styled h2 r).
      { intros Hroot. eapply sa_node_styled; [done|]. destruct (styled_decide h r) as [Hs|Hn]; [by eapply sa_node_styled|].
        assert (Hi : r ∈ rs). { apply Hrs. split; [by apply (elem_of_nodes h g G)|done]. }
        apply elem_of_list_lookup in Hi as [i Hi]. destruct (Forall2_lookup_l _ _ _ _ _ HF Hi) as (c & _ & s & _ & N & k & HN & Hk & _). exists N. by rewrite Hk. }
      intros [Hs|[Hs|Hs]]; [by eapply sa_node_styled, sa_node_styled|by apply Hroots|].
      destruct (rootlike_decide h g r W Hr') as [?|Hnr]; [by apply Hroots|].
      apply Hst; [by apply (elem_of_nodes h g G)|by rewrite (sa_rootlike _ _ _ S1)|by rewrite (sa_on_cycle _ _ _ S1)].
Qed.
Lemma nodes_phase_total h g G scheme : WF h → CI h → comparable h g → scheme ≠ [] → h_graphs h !! g = Some G →
  ∃ h2, (let* ns := sread (λ h, nodes h g) in do* sfold style_root (colours_used0 scheme) ns in siter style_branch ns) h = (h2, Ok tt).
Proof.
  intros W HCI Hc Hne HG. rewrite (sread_Ok _ _ _ (dvals (g_nodes G))) by (by apply nodes_run).
  assert (Hnd : NoDup (dvals (g_nodes G))) by (by eapply NoDup_nodes).
  destruct (roots_run h g (dvals (g_nodes G)) (colours_used0 scheme) W Hnd) as (rs & Hsub & Hrs & Hm); [intros r; by apply elem_of_nodes|].
  destruct (C43_rotation_proof scheme (length rs) Hne) as (used & cl & Hp & _). rewrite Hp in Hm. destruct Hm as (h1 & Hr & S1 & E1 & E2 & HF & Ho).
  rewrite (sbind_step _ _ _ _ _ Hr). apply (branches_total h1 g).
  - by eapply sa_WF.
  - assert (HI : ∀ l u h, CI h → CI (sfold style_root u l h).1).
    { clear. induction l as [|r l IH]; intros u h HI; [done|]. cbn [sfold]. pose proof (CI_style_root u r h HI) as H1. unfold sbind. destruct (style_root u r h) as [h' [u'|x]]; [by apply IH|done]. }
    pose proof (HI (dvals (g_nodes G)) (colours_used0 scheme) h HCI) as H1. by rewrite Hr in H1.
  - by eapply sa_comparable.
  - intros x Hx Hroot. apply (sa_in_graph _ _ _ S1) in Hx. apply (sa_rootlike _ _ _ S1) in Hroot. destruct (styled_decide h x) as [Hs|Hn]; [by eapply sa_node_styled|].
    assert (Hi : x ∈ rs). { apply Hrs. split; [by apply (elem_of_nodes h g G)|done]. }
    apply elem_of_list_lookup in Hi as [i Hi]. destruct (Forall2_lookup_l _ _ _ _ _ HF Hi) as (c & _ & s & _ & N & k & HN & Hk & _). exists N. by rewrite Hk.
  - done.
  - intros r Hr'. apply (sa_in_graph _ _ _ S1). by apply (elem_of_nodes h g G).
Qed.
Lemma pensieve_split g scheme h : stylize_with_pensieve g scheme h =
  (do* (let* ns := sread (λ h, nodes h g) in do* sfold style_root (colours_used0 scheme) ns in siter style_branch ns) in stylize_edges_based_on_nodes g) h.
Proof.
  unfold stylize_with_pensieve, sbind, sread. destruct (nodes h g); [|done]. destruct (sfold _ _ _ _) as [h1 [u|x]]; [|done]. by destruct (siter _ _ _) as [h2 [[]|x]].
Qed.
