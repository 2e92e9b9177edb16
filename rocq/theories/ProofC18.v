(** Colours of branches. *)
From Verif Require Export ProofC15.
From Verif Require Export SpecMore.
Local Open Scope list_scope.

Lemma recolour_eq s c : coloured s → recolour s c = Ok (tinted c s).
Proof. intros Hs. unfold recolour. rewrite (ns_copy_eq s Hs). by destruct s. Qed.
Lemma kids_sa g h h' r : styles_added g h h' → kids h' r = kids h r.
Proof.
  intros S. unfold kids. assert (outs h' r = outs h r) as ->.
  { unfold outs. destruct (h_nodes h !! r) as [N|] eqn:HN.
    - destruct (sa_node_fwd _ _ _ _ _ S HN) as (N' & -> & Heq & _). by rewrite Heq.
    - destruct (h_nodes h' !! r) as [N'|] eqn:HN'; [|done]. destruct (sa_node_bwd _ _ _ _ _ S HN') as (? & ? & _). congruence. }
  induction (outs h r) as [|e es IH]; [done|]. cbn. rewrite IH. unfold end_of. destruct (h_edges h !! e) as [N|] eqn:HN.
  - destruct (sa_edge_fwd _ _ _ _ _ S HN) as (N' & -> & Heq & _). by rewrite Heq.
  - destruct (h_edges h' !! e) as [N'|] eqn:HN'; [|done]. destruct (sa_edge_bwd _ _ _ _ _ S HN') as (? & ? & _). congruence.
Qed.
Lemma pars_sa g h h' r : styles_added g h h' → pars h' r = pars h r.
Proof.
  intros S. unfold pars. assert (ins h' r = ins h r) as ->.
  { unfold ins. destruct (h_nodes h !! r) as [N|] eqn:HN.
    - destruct (sa_node_fwd _ _ _ _ _ S HN) as (N' & -> & Heq & _). by rewrite Heq.
    - destruct (h_nodes h' !! r) as [N'|] eqn:HN'; [|done]. destruct (sa_node_bwd _ _ _ _ _ S HN') as (? & ? & _). congruence. }
  induction (ins h r) as [|e es IH]; [done|]. cbn. rewrite IH. unfold start_of. destruct (h_edges h !! e) as [N|] eqn:HN.
  - destruct (sa_edge_fwd _ _ _ _ _ S HN) as (N' & -> & Heq & _). by rewrite Heq.
  - destruct (h_edges h' !! e) as [N'|] eqn:HN'; [|done]. destruct (sa_edge_bwd _ _ _ _ _ S HN') as (? & ? & _). congruence.
Qed.
Lemma rank_sa g h h' r p : WF h → styles_added g h h' → comparable h g → in_graph h g r → in_graph h g p → get_child_rank h' r p = get_child_rank h r p.
Proof.
  intros W S Hc Hr Hp. pose proof (sa_WF _ _ _ S W) as W'. rewrite (child_rank_run h W g Hc), (child_rank_run h' W' g) by (try done; try (by apply (sa_comparable _ _ _ S)); by apply (sa_in_graph _ _ _ S)).
  rewrite (kids_sa g h h' p S). assert (Hf : ∀ x, precedes h' x r ↔ precedes h x r).
  { intros x. unfold precedes. split; intros (X & Y & HX & HY & Hlt).
    - destruct (sa_node_bwd _ _ _ _ _ S HX) as (X0 & HX0 & EX & _). destruct (sa_node_bwd _ _ _ _ _ S HY) as (Y0 & HY0 & EY & _). exists X0, Y0. split_and!; [done..|]. by rewrite EX, EY in Hlt.
    - destruct (sa_node_fwd _ _ _ _ _ S HX) as (X0 & HX0 & EX & _). destruct (sa_node_fwd _ _ _ _ _ S HY) as (Y0 & HY0 & EY & _). exists X0, Y0. split_and!; [done..|]. by rewrite EX, EY. }
  destruct (decide (r ∈ kids h p)); [|done]. f_equal. f_equal. apply list_filter_iff. done.
Qed.
Lemma root_sa g h h' r : WF h → styles_added g h h' → in_graph h g r → is_root_or_parents_are_in_loop h' r = is_root_or_parents_are_in_loop h r.
Proof.
  intros W S Hr. pose proof (sa_WF _ _ _ S W) as W'. destruct (root_read h g r) as (b & -> & Hb & _); [done..|]. destruct (root_read h' g r) as (b' & -> & Hb' & _); [done|by apply (sa_in_graph _ _ _ S)|].
  f_equal. apply eq_true_iff_eq. by rewrite Hb, Hb', (sa_rootlike _ _ _ S).
Qed.
Lemma loop_with_sa g h h' r p : WF h → styles_added g h h' → in_graph h g r → in_graph h g p → node_in_loop_with h' r (ANode p) = node_in_loop_with h r (ANode p).
Proof.
  intros W S Hr Hp. pose proof (sa_WF _ _ _ S W) as W'. destruct (with_read h g r p) as (b & -> & Hb); [done..|]. destruct (with_read h' g r p) as (b' & -> & Hb'); [done|by apply (sa_in_graph _ _ _ S)..|].
  f_equal. apply eq_true_iff_eq. by rewrite Hb, Hb', !(sa_path _ _ _ S).
Qed.
Lemma rfilter_ext {A} (f f' : A → res bool) l : (∀ x, x ∈ l → f' x = f x) → rfilter f' l = rfilter f l.
Proof. induction l as [|x l IH]; intros H; [done|]. cbn. rewrite H by left. rewrite IH; [done|]. intros; apply H; by right. Qed.
Lemma rmap_mono {A B} (f f' : A → res B) l bs : (∀ x b, x ∈ l → f x = Ok b → f' x = Ok b) → rmap f l = Ok bs → rmap f' l = Ok bs.
Proof.
  revert bs. induction l as [|x l IH]; intros bs H; [done|]. cbn. destruct (f x) as [b|] eqn:Hx; [|done]. rewrite (H x b) by (done || left). cbn [rbind].
  destruct (rmap f l) as [bs'|]; [|done]. rewrite (IH bs'); [done| |done]. intros; apply H; [by right|done].
Qed.
Lemma inherit_sa fuel k g h h' pale div r s : WF h → styles_added g h h' → comparable h g → in_graph h g r →
  inherit_style fuel h pale div r = Ok s → inherit_style (fuel + k) h' pale div r = Ok s.
Proof.
  intros W S Hc. pose proof (sa_WF _ _ _ S W) as W'. revert r div s. induction fuel as [|fuel IH]; intros r div s Hr; [done|]. cbn [inherit_style Nat.add].
  assert (Hr' : in_graph h' g r) by (by apply (sa_in_graph _ _ _ S)).
  rewrite (root_sa g h h' r) by done. destruct (is_root_or_parents_are_in_loop h r) as [[]|]; [..|done]; cbn [rbind].
  { unfold node_style, get_n. destruct (h_nodes h !! r) as [N|] eqn:HN; [|done]. cbn [rbind]. destruct (n_style N) as [j|] eqn:Hj; [|done].
    destruct (h_ns h !! j) as [sty|] eqn:Hsty; [|done]. assert (style_of h' r sty) as Hs by (apply (sa_style_of _ _ _ S); by exists N, j).
    apply node_style_read in Hs. unfold node_style, get_n in Hs. rewrite Hs. done. }
  rewrite (node_parents_run h W g), (node_parents_run h' W' g) by done. cbn [rbind]. rewrite (pars_sa g h h' r S).
  assert (Hmul : (let! ps' := rfilter (λ p, let! b := node_in_loop_with h r (ANode p) in Ok (negb b)) (pars h r) in
            let! stys := rmap (λ p, inherit_style fuel h pale 0%Q p) ps' in
            match stys with
            | [] => Err IndexError
            | sty :: _ => recolour sty (CPale (mix (map ns_colour stys)) pale)
            end) = Ok s → (let! ps' := rfilter (λ p, let! b := node_in_loop_with h' r (ANode p) in Ok (negb b)) (pars h r) in
            let! stys := rmap (λ p, inherit_style (fuel + k) h' pale 0%Q p) ps' in
            match stys with
            | [] => Err IndexError
            | sty :: _ => recolour sty (CPale (mix (map ns_colour stys)) pale)
            end) = Ok s).
  { rewrite (rfilter_ext (λ p, let! b := node_in_loop_with h r (ANode p) in Ok (negb b)) (λ p, let! b := node_in_loop_with h' r (ANode p) in Ok (negb b))).
    2: { intros p Hp. rewrite (loop_with_sa g h h' r p); try done. by eapply (pars_in h W). }
    destruct (rfilter_sublist (λ p, let! b := node_in_loop_with h r (ANode p) in Ok (negb b)) (λ p, ¬ (path h g r p ∧ path h g p r)) (pars h r)) as (l & -> & _ & Hl).
    { intros p Hp%(elem_of_pars h W g); [|done]. destruct (with_read h g r p) as (b & -> & Hb'); [done|done|by apply (adj_in_graph h g p r) in Hp as [? _]|].
      cbn [rbind]. eexists. split; [done|]. rewrite <-Hb'. by destruct b. }
    cbn [rbind]. destruct (rmap (λ p, inherit_style fuel h pale 0%Q p) l) as [stys|] eqn:Hm; [|done].
    assert (rmap (λ p, inherit_style (fuel + k) h' pale 0%Q p) l = Ok stys) as ->; [|done].
    eapply rmap_mono; [|exact Hm]. cbn. intros p b Hp. apply IH. apply Hl in Hp as [Hp _]. by eapply (pars_in h W). }
  destruct (pars h r) as [|p [|p' ps]] eqn:Hps; [done| |done].
  assert (Hp : in_graph h g p). { apply (pars_in h W g r); [done|]. rewrite Hps. left. }
  rewrite (node_children_run h W g), (node_children_run h' W' g) by (done || by apply (sa_in_graph _ _ _ S)). cbn [rbind]. rewrite (kids_sa g h h' p S), (rank_sa g h h' r p) by done.
  destruct (get_child_rank h r p) as [i|]; [|done]. cbn [rbind]. destruct (inherit_style fuel h pale div p) as [sty|] eqn:Hi; [|done]. by rewrite (IH p div sty Hp Hi).
Qed.

Lemma branches_value h g ns h' : WF h → comparable h g → NoDup ns → (∀ r, r ∈ ns → in_graph h g r) → siter style_branch ns h = (h', Ok tt) →
  ∀ r, r ∈ ns → ¬ node_styled h r → ¬ rootlike h g r → ¬ on_cycle h g r → ∃ s, style_of h' r s ∧ inherit_style (inherit_fuel h) h' pale_ratio divergence_ratio r = Ok s.
Proof.
  revert h. induction ns as [|x ns IH]; intros h W Hc Hnd Hin; [by intros _ r Hr%elem_of_nil|]. cbn [siter].
  intros (h1 & [] & H1 & H2)%sbind_Ok r Hr Hs Hnr Hnc. apply NoDup_cons in Hnd as [Hni Hnd].
  assert (Hx : in_graph h g x) by (apply Hin; left).
  destruct (style_branch_post h g x h1 W) as (S1 & E1 & E2 & Hst & Hch); [done..|]. pose proof (sa_WF _ _ _ S1 W) as W1.
  assert (Hin1 : ∀ r, r ∈ ns → in_graph h1 g r) by (intros; apply (sa_in_graph _ _ _ S1), Hin; by right).
  destruct (branches_post h1 g ns h' W1 Hnd) as (S2 & E3 & E4 & Hst2 & Hch2); [done..|].
  destruct (decide (r = x)) as [->|Hne].
  - destruct (in_graph_lookup h W g x Hx) as (N & HN & Hg). unfold style_branch in H1.
    destruct (root_read h g x) as (b & Hb & Hbi & _); [done..|]. rewrite (sread_Ok _ _ _ b) in H1 by done. destruct b; [by destruct Hnr; apply Hbi|].
    destruct (loop_read h g x) as (l & Hl & Hli); [done..|]. rewrite (sread_Ok _ _ _ l) in H1 by done. destruct l; [by destruct Hnc; apply Hli|].
    rewrite (sread_Ok _ _ _ N) in H1 by (by apply get_n_Ok). destruct (n_style N) as [k|] eqn:Hk. { destruct Hs. exists N. by rewrite Hk. }
    destruct (inherit_style (inherit_fuel h) h pale_ratio divergence_ratio x) as [sty|z] eqn:Hi; [|by rewrite (sread_Err _ _ _ z) in H1]. rewrite (sread_Ok _ _ _ sty) in H1 by done.
    destruct (assign_run h g x N sty) as (h2 & Ha & Hsa & Hso & _); [done..|]. assert (h2 = h1) as -> by congruence.
    exists sty. split; [by eapply sa_style_of|]. rewrite <-(Nat.add_0_r (inherit_fuel h)). apply (inherit_sa _ 0 g h h'); [done|by apply (sa_trans g h h1 h')|done..].
  - apply elem_of_cons in Hr as [->|Hr]; [done|]. destruct (IH h1 W1) with (r := r) as (s & H3 & H4); try done.
    + by eapply sa_comparable.
    + intros Hs1. apply Hs. destruct Hch as [->|(_ & _ & _ & Ho)]; [done|]. destruct Hs1 as (N & HN & ?). rewrite Ho in HN by done. by exists N.
    + by rewrite (sa_rootlike _ _ _ S1).
    + by rewrite (sa_on_cycle _ _ _ S1).
    + exists s. split; [done|]. unfold inherit_fuel in *. by rewrite (sa_nlen _ _ _ S1) in H4.
Qed.
Lemma branch_style h g G D sh h' : WF h → comparable h g → h_graphs h !! g = Some G → g_disp G = Some D → default_styling D → stylize g sh h = (h', Ok tt) →
  ∀ r, in_graph h g r → ¬ node_styled h r → ¬ rootlike h g r → ¬ on_cycle h g r → ∃ s, style_of h' r s ∧ inherit_style (inherit_fuel h) h' pale_ratio divergence_ratio r = Ok s.
Proof.
  intros W Hc HG HD Hd. rewrite (stylize_default g sh h G D), pensieve_split by done. intros (h2 & [] & H1 & H2)%sbind_Ok r Hr Hs Hnr Hnc.
  rewrite (sread_Ok _ _ _ (dvals (g_nodes G))) in H1 by (by apply nodes_run). apply sbind_Ok in H1 as (h1 & used' & H1 & H3).
  assert (Hnd : NoDup (dvals (g_nodes G))) by (by eapply NoDup_nodes).
  destruct (roots_run h g (dvals (g_nodes G)) (colours_used0 (d_scheme D)) W Hnd) as (rs & Hsub & Hrs & Hm); [intros x; by apply elem_of_nodes|].
  destruct (pick (length rs) (colours_used0 (d_scheme D))) as [[u cl]|x] eqn:Hp; [|destruct Hm as [h3 Hm]; congruence].
  destruct Hm as (h3 & Hrun & S1 & E1 & E2 & HF & Ho). assert (h3 = h1) as -> by congruence. pose proof (sa_WF _ _ _ S1 W) as W1.
  assert (Hc1 : comparable h1 g) by (by eapply sa_comparable).
  destruct (branches_value h1 g (dvals (g_nodes G)) h2 W1) with (r := r) as (s & Hso & Hi); try done.
  - intros x ?. apply (sa_in_graph _ _ _ S1). by apply (elem_of_nodes h g G).
  - by apply (elem_of_nodes h g G).
  - intros (N & HN & Hk). rewrite Ho in HN by (rewrite Hrs; tauto). apply Hs. by exists N.
  - by rewrite (sa_rootlike _ _ _ S1).
  - by rewrite (sa_on_cycle _ _ _ S1).
  - destruct (branches_post h1 g (dvals (g_nodes G)) h2 W1 Hnd) as (S2 & E3 & E4 & Hst2 & Hch2); [intros x ?; apply (sa_in_graph _ _ _ S1); by apply (elem_of_nodes h g G)|done|].
    assert (S12 : styles_added g h h2) by (by eapply sa_trans).
    assert (HG2 : h_graphs h2 !! g = Some G) by (by rewrite (sa_graphs _ _ _ S12)).
    assert (S3 : styles_added g h2 h').
    { destruct (nodes_phase h g G (colours_used0 (d_scheme D)) h2) as (rs' & used & cl' & _ & _ & _ & _ & _ & E5 & E6 & Hst); [done..| |].
      { rewrite (sread_Ok _ _ _ (dvals (g_nodes G))) by (by apply nodes_run). unfold sbind in *. by rewrite H1. }
      destruct (edge_phase h g G h2) as [Hok Hfail]; [done..|].
      assert (Hin : ∀ e, e ∈ all_edges h G → ∃ x y, joins h g e x y) by (intros e; by apply elem_of_all_edges).
      destruct (list_decide (later_good h g) (unstyled_edges h (all_edges h G))) as [Hgood|Hbad].
      { intros e He. apply later_decide; [done|]. apply Hin. by eapply elem_of_unstyled. }
      2: { destruct (Hfail Hbad) as (? & ? & ? & _). congruence. }
      destruct (Hok Hgood) as (h4 & Hr4 & S2' & _). by assert (h4 = h') as -> by congruence. }
    exists s. split; [by eapply sa_style_of|]. replace (inherit_fuel h) with (inherit_fuel h1 + 0). 2: { unfold inherit_fuel. rewrite (sa_nlen _ _ _ S1). lia. }
    apply (inherit_sa _ 0 g h2 h'); [by apply (sa_WF g h h2 S12)|done|by apply (sa_comparable g h h2 S12)|by apply (sa_in_graph _ _ _ S12)|done].
Qed.

Lemma div_positive n i : i < n → ∃ d, get_diverging_number i n false = Ok d ∧ (d == diverging n i)%Q.
Proof. intros Hi. by apply (C44_values_proof n i). Qed.
Lemma rmap_Forall2 {A B} (f : A → res B) (P : A → B → Prop) l bs : (∀ x b, x ∈ l → f x = Ok b → P x b) → rmap f l = Ok bs → Forall2 P l bs.
Proof.
  revert bs. induction l as [|x l IH]; intros bs H; [by intros [= <-]|]. cbn. destruct (f x) as [b|] eqn:Hx; [|done]. cbn [rbind]. destruct (rmap f l) as [bs'|]; [|done]. intros [= <-].
  constructor; [apply H; [left|done]|]. apply IH; [|done]. intros; apply H; [by right|done].
Qed.
Lemma rank_lt h g r p i : WF h → comparable h g → in_graph h g r → in_graph h g p → get_child_rank h r p = Ok i → i < length (kids h p).
Proof.
  intros W Hc Hr Hp. rewrite (child_rank_run h W g Hc) by done. destruct (decide (r ∈ kids h p)) as [Hi|]; [|done]. intros [= <-].
  apply elem_of_list_split in Hi as (l1 & l2 & ->). rewrite filter_app, filter_cons, decide_False by apply precedes_irrefl.
  rewrite !app_length. cbn. pose proof (filter_length (λ x, precedes h x r) l1). pose proof (filter_length (λ x, precedes h x r) l2). lia.
Qed.
(** The two cases of inherit_style that are not a root. *)
Lemma inherit_one fuel h g pale div r p s : WF h → CI h → comparable h g → in_graph h g r → ¬ rootlike h g r → pars h r = [p] →
  inherit_style (Datatypes.S fuel) h pale div r = Ok s → ∃ sp i d, inherit_style fuel h pale div p = Ok sp ∧ get_child_rank h r p = Ok i ∧
    (d == diverging (length (kids h p)) i)%Q ∧ s = tinted (CSat (CHue (ns_colour sp) (div * d)%Q)) sp.
Proof.
  intros W HCI Hc Hr Hnr Hps. cbn [inherit_style]. destruct (root_read h g r) as (b & -> & Hb & Hnb); [done..|]. cbn [rbind]. destruct b; [by destruct Hnr; apply Hb|].
  rewrite (node_parents_run h W g) by done. cbn [rbind]. rewrite Hps. assert (Hp : in_graph h g p). { apply (pars_in h W g r); [done|]. rewrite Hps. left. }
  rewrite (node_children_run h W g) by done. cbn [rbind]. destruct (get_child_rank h r p) as [i|] eqn:Hi; [|done]. cbn [rbind].
  destruct (inherit_style fuel h pale div p) as [sp|] eqn:Hsp; [|done]. cbn [rbind]. pose proof (rank_lt h g r p i W Hc Hr Hp Hi) as Hlt.
  destruct (div_positive _ _ Hlt) as (d & Hd & Hdd). rewrite Hd. cbn [rbind]. destruct (kids h p) as [|k ks] eqn:Hk; [cbn in Hlt; lia|]. rewrite <-Hk. cbn [rbind].
  rewrite recolour_eq by (by eapply inherit_coloured). intros [= <-]. rewrite <-Hk in Hdd. by exists sp, i, d.
Qed.
Lemma inherit_many fuel h g pale div r s : WF h → CI h → in_graph h g r → ¬ rootlike h g r → length (pars h r) ≠ 1 →
  inherit_style (Datatypes.S fuel) h pale div r = Ok s → ∃ (keep : nref → bool) stys sty, (∀ p, p ∈ pars h r → keep p = true ↔ ¬ path h g r p) ∧
    rmap (λ p, inherit_style fuel h pale 0%Q p) (base.filter (λ p, keep p = true) (pars h r)) = Ok stys ∧ head stys = Some sty ∧
    s = tinted (CPale (mix (map ns_colour stys)) pale) sty.
Proof.
  intros W HCI Hr Hnr Hps. cbn [inherit_style]. destruct (root_read h g r) as (b & -> & Hb & Hnb); [done..|]. cbn [rbind]. destruct b; [by destruct Hnr; apply Hb|].
  rewrite (node_parents_run h W g) by done. cbn [rbind]. intros Hm.
  assert ((let! ps' := rfilter (λ p, let! b := node_in_loop_with h r (ANode p) in Ok (negb b)) (pars h r) in
            let! stys := rmap (λ p, inherit_style fuel h pale 0%Q p) ps' in
            match stys with
            | [] => Err IndexError
            | sty :: _ => recolour sty (CPale (mix (map ns_colour stys)) pale)
            end) = Ok s) as Hm'. { destruct (pars h r) as [|p [|p' ps]]; [done|done|exact Hm]. }
  clear Hm. exists (λ p, match node_in_loop_with h r (ANode p) with Ok b => negb b | Err _ => false end).
  assert (Hrd : ∀ p, p ∈ pars h r → ∃ b, node_in_loop_with h r (ANode p) = Ok b ∧ (negb b = true ↔ ¬ path h g r p)).
  { intros p Hp. assert (Ha : adj h g p r) by (by apply (elem_of_pars h W g) in Hp). destruct (with_read h g r p) as (b & Hb' & Hbi); [done|done|by eapply (pars_in h W)|].
    exists b. split; [done|]. rewrite negb_true_iff. destruct b; split; try done.
    - intros Hn. destruct Hn. by apply Hbi.
    - intros _ Hpp. assert (false = true) as [=]. apply Hbi. split; [done|]. by apply tc_once. }
  assert (rfilter (λ p, let! b := node_in_loop_with h r (ANode p) in Ok (negb b)) (pars h r) =
    Ok (base.filter (λ p, match node_in_loop_with h r (ANode p) with Ok b => negb b | Err _ => false end = true) (pars h r))) as Hf.
  { clear Hm' Hps. induction (pars h r) as [|p ps IH]; [done|]. cbn [rfilter]. destruct (Hrd p) as (b & Hb' & _); [left|]. rewrite Hb'. cbn [rbind].
    rewrite IH by (intros; apply Hrd; by right). cbn [rbind]. rewrite filter_cons, Hb'. by destruct b. }
  rewrite Hf in Hm'. cbn [rbind] in Hm'. destruct (rmap (λ p, inherit_style fuel h pale 0%Q p) (base.filter _ (pars h r))) as [stys|] eqn:Hrm; [|done]. cbn [rbind] in Hm'.
  destruct stys as [|sty stys]; [done|]. exists (sty :: stys), sty. split_and!; [|done|done|].
  - intros p Hp. destruct (Hrd p Hp) as (b & -> & ?). done.
  - rewrite recolour_eq in Hm'; [by injection Hm' as <-|]. destruct (base.filter _ (pars h r)) as [|p l]; cbn in Hrm; [done|].
    destruct (inherit_style fuel h pale 0%Q p) as [s1|] eqn:Hs1; [|done]. cbn in Hrm. destruct (rmap _ l); [|done]. injection Hrm as <- <-. by eapply inherit_coloured.
Qed.
Lemma inherit_hands_down fuel h g div r s : WF h → CI h → comparable h g → in_graph h g r → inherit_style fuel h pale_ratio div r = Ok s →
  ∃ s', hands_down h g div r s' ∧ s = s' <| ns_lighter := true |> <| ns_extra := [] |>.
Proof.
  intros W HCI Hc. revert div r s. induction fuel as [|fuel IH]; intros div r s Hr; [done|]. intros Hi.
  destruct (rootlike_decide h g r W Hr) as [Hroot|Hnr].
  - cbn [inherit_style] in Hi. destruct (root_read h g r) as (b & Hb' & Hb & Hnb); [done..|]. rewrite Hb' in Hi. cbn [rbind] in Hi. assert (b = true) as -> by (by apply Hb).
    destruct (node_style h r) as [sty|] eqn:Hs; [|done]. cbn [rbind] in Hi. assert (Hso : style_of h r sty).
    { unfold node_style, get_n in Hs. destruct (h_nodes h !! r) as [N|] eqn:HN; [|done]. cbn [rbind] in Hs. destruct (n_style N) as [j|] eqn:Hj; [|done].
      destruct (h_ns h !! j) as [sty'|] eqn:Hsty; [|done]. injection Hs as ->. by exists N, j. }
    exists sty. split; [by constructor|]. rewrite (ns_copy_eq sty) in Hi; [by injection Hi as <-|]. by eapply style_coloured.
  - destruct (decide (length (pars h r) = 1)) as [H1|H1].
    + destruct (pars h r) as [|p [|? ?]] eqn:Hps; try done. destruct (inherit_one fuel h g pale_ratio div r p s) as (sp & i & d & Hsp & Hrk & Hd & ->); [done..|].
      assert (Hp : in_graph h g p). { apply (pars_in h W g r); [done|]. rewrite Hps. left. }
      destruct (IH div p sp Hp Hsp) as (s' & Hs' & ->). eexists. split.
      * eapply hd_one; [done|by rewrite (node_parents_run h W g), Hps|exact Hs'|by apply (node_children_run h W g)|exact Hrk|]. apply Qmult_comp; [reflexivity|exact Hd].
      * done.
    + destruct (inherit_many fuel h g pale_ratio div r s) as (keep & stys & sty & Hk & Hm & Hhd & ->); [done..|].
      assert (HF : Forall2 (λ p s, ∃ s', hands_down h g 0%Q p s' ∧ s = s' <| ns_lighter := true |> <| ns_extra := [] |>) (base.filter (λ p, keep p = true) (pars h r)) stys).
      { eapply rmap_Forall2; [|exact Hm]. cbn. intros p b [_ Hp]%elem_of_list_filter. apply IH. by eapply (pars_in h W). }
      assert (∃ stys', Forall2 (hands_down h g 0%Q) (base.filter (λ p, keep p = true) (pars h r)) stys' ∧ stys = (λ s, s <| ns_lighter := true |> <| ns_extra := [] |>) <$> stys') as (stys' & HF' & ->).
      { clear - HF. induction HF as [|p s l stys (s' & ? & ->) HF (stys' & ? & ->)]; [by exists []|]. exists (s' :: stys'). split; [by constructor|done]. }
      destruct stys' as [|s1 stys']; [done|]. injection Hhd as <-. eexists. split.
      * eapply hd_many; [done|by apply (node_parents_run h W g)|done|exact Hk|exact HF'|done].
      * assert (map ns_colour ((λ s, s <| ns_lighter := true |> <| ns_extra := [] |>) <$> s1 :: stys') = map ns_colour (s1 :: stys')) as -> by (unfold fmap; by rewrite map_map). done.
Qed.

Lemma styled_state h g sh h' G D : reachable h → h_graphs h !! g = Some G → g_disp G = Some D → default_styling D → stylize g sh h = (h', Ok tt) → WF h' ∧ CI h' ∧ styles_added g h h'.
Proof.
  intros Hr HG HD Hd Hrun. pose proof (reachable_WF h Hr) as W. destruct (styling_post h g G D sh h') as [S _ _ _ _ _]; [done..|]. split_and!; [by eapply sa_WF| |done].
  pose proof (CI_stylize g sh h (reachable_CI h Hr)) as HI. by rewrite Hrun in HI.
Qed.

(** * The properties *)

(** C67.  A node without style that has a parent not on a cycle and is on no cycle
    itself gets the style that its ancestors hand down, all starting from the styles
    of the nearest ancestors that are roots (or have all parents on cycles).  Missing:
    that this agrees with the styles of the parents (C67_styled_parent_refuted,
    C67_mixed_refuted). *)
Lemma C67_handed_down_partial_proof : ∀ h g G D sh h' r, reachable h → h_graphs h !! g = Some G → g_disp G = Some D → default_styling D → comparable h g →
  stylize g sh h = (h', Ok tt) → in_graph h g r → ¬ node_styled h r → ¬ rootlike h g r → ¬ on_cycle h g r → ∃ s, style_of h' r s ∧ hands_down h' g (1 # 20) r s.
Proof.
  intros h g G D sh h' r Hr HG HD Hd Hc Hrun Hi Hs Hnr Hnc. destruct (styled_state h g sh h' G D) as (W' & HCI' & S); [done..|].
  destruct (branch_style h g G D sh h' (reachable_WF h Hr) Hc HG HD Hd Hrun r) as (s & Hso & Hin); [done..|]. exists s. split; [done|].
  destruct (inherit_hands_down (inherit_fuel h) h' g divergence_ratio r s) as (s' & Hhd & ->); [done|done|by eapply sa_comparable|by apply (sa_in_graph _ _ _ S)|done|].
  assert (¬ rootlike h' g r) as Hnr' by (by rewrite (sa_rootlike _ _ _ S)).
  assert (s' <| ns_lighter := true |> <| ns_extra := [] |> = s') as ->; [|done]. clear - Hhd Hnr'. by destruct Hhd.
Qed.
(** C67.  If it has one parent edge, from p, and p had no style before either, or is a
    root, or has only parents on cycles: the colour of p with its hue turned by a
    twentieth of the diverging number for its rank among the children of p, then
    saturated; fill, border and text colours derived from it; everything else as in the
    style of p. *)
Lemma C67_single_partial_proof : ∀ h g G D sh h' r p, reachable h → h_graphs h !! g = Some G → g_disp G = Some D → default_styling D → comparable h g →
  stylize g sh h = (h', Ok tt) → in_graph h g r → ¬ node_styled h r → ¬ rootlike h g r → ¬ on_cycle h g r → node_parents h r = Ok [p] → ¬ node_styled h p ∨ rootlike h g p →
  ∃ sp cs i q, style_of h' p sp ∧ node_children h p = Ok cs ∧ get_child_rank h r p = Ok i ∧ (q == (1 # 20) * diverging (length cs) i)%Q ∧
    style_of h' r (tinted (CSat (CHue (ns_colour sp) q)) sp).
Proof.
  intros h g G D sh h' r p Hr HG HD Hd Hc Hrun Hi Hs Hnr Hnc Hps Hor. pose proof (reachable_WF h Hr) as W. destruct (styled_state h g sh h' G D) as (W' & HCI' & S); [done..|].
  assert (Hc' : comparable h' g) by (by eapply sa_comparable). assert (Hi' : in_graph h' g r) by (by apply (sa_in_graph _ _ _ S)).
  rewrite (node_parents_run h W g) in Hps by done. injection Hps as Hps. assert (Hps' : pars h' r = [p]) by (by rewrite (pars_sa g h h' r S)).
  assert (Hp : in_graph h g p). { apply (pars_in h W g r); [done|]. rewrite Hps. left. } assert (Hp' : in_graph h' g p) by (by apply (sa_in_graph _ _ _ S)).
  destruct (branch_style h g G D sh h' W Hc HG HD Hd Hrun r) as (s & Hso & Hin); [done..|]. unfold inherit_fuel in Hin.
  destruct (inherit_one (length (h_nodes h)) h' g pale_ratio divergence_ratio r p s) as (sp' & i & d & Hsp & Hrk & Hdd & ->); [done|done|done|done|by rewrite (sa_rootlike _ _ _ S)|done|done|].
  rewrite (rank_sa g h h' r p) in Hrk by done. rewrite (kids_sa g h h' p S) in Hdd.
  assert (∃ sp, style_of h' p sp ∧ ns_colour sp' = ns_colour sp ∧ ∀ c, tinted c sp' = tinted c sp) as (sp & Hspo & Hcol & Ht).
  { destruct (rootlike_decide h g p W Hp) as [Hroot|Hnroot].
    - destruct (length (h_nodes h)) as [|n]; [done|]. cbn [inherit_style] in Hsp. destruct (root_read h' g p) as (b & Hb' & Hb & _); [done..|]. rewrite Hb' in Hsp. cbn [rbind] in Hsp.
      assert (b = true) as -> by (by apply Hb, (sa_rootlike _ _ _ S)). destruct (node_style h' p) as [sty|] eqn:Hst; [|done]. cbn [rbind] in Hsp. exists sty.
      assert (Hsty : style_of h' p sty).
      { unfold node_style, get_n in Hst. destruct (h_nodes h' !! p) as [N|] eqn:HN; [|done]. cbn [rbind] in Hst. destruct (n_style N) as [j|] eqn:Hj; [|done].
        destruct (h_ns h' !! j) as [sty'|] eqn:Hsty; [|done]. injection Hst as ->. by exists N, j. }
      rewrite (ns_copy_eq sty) in Hsp by (by eapply style_coloured). injection Hsp as <-. done.
    - destruct Hor as [Hns|?]; [|done]. assert (Hncp : ¬ on_cycle h g p).
      { intros Hcyc. apply Hnr. intros p' Hp2%(elem_of_pars h W g); [|done]. rewrite Hps in Hp2. by apply elem_of_list_singleton in Hp2 as ->. }
      destruct (branch_style h g G D sh h' W Hc HG HD Hd Hrun p) as (sp & Hspo & Hinp); [done..|]. unfold inherit_fuel in Hinp. exists sp. split; [done|].
      pose proof (inherit_sa _ 1 g h' h' _ _ p sp' W' (sa_refl g h' W') Hc' Hp' Hsp) as Hm. rewrite Nat.add_1_r, Hinp in Hm. by injection Hm as ->. }
  exists sp, (kids h p), i, (divergence_ratio * d)%Q. split_and!; [done|by apply (node_children_run h W g)|done|by apply Qmult_comp|]. rewrite <-Ht, <-Hcol. done.
Qed.
(** C67.  If it has several parent edges, all from roots or nodes with only parents on
    cycles: the mixture of the colours of the parents, in the order of node.parents, a
    twentieth paler; everything else as in the style of the first parent. *)
Lemma C67_several_partial_proof : ∀ h g G D sh h' r ps, reachable h → h_graphs h !! g = Some G → g_disp G = Some D → default_styling D → comparable h g →
  stylize g sh h = (h', Ok tt) → in_graph h g r → ¬ node_styled h r → ¬ rootlike h g r → ¬ on_cycle h g r → node_parents h r = Ok ps → length ps ≠ 1 → (∀ p, p ∈ ps → rootlike h g p) →
  ∃ sty stys, Forall2 (style_of h') ps (sty :: stys) ∧ style_of h' r (tinted (CPale (mix (map ns_colour (sty :: stys))) (1 # 20)) sty).
Proof.
  intros h g G D sh h' r ps Hr HG HD Hd Hc Hrun Hi Hs Hnr Hnc Hps Hlen Hroot. pose proof (reachable_WF h Hr) as W. destruct (styled_state h g sh h' G D) as (W' & HCI' & S); [done..|].
  destruct (C67_handed_down_partial_proof h g G D sh h' r) as (s & Hso & Hhd); [done..|]. rewrite (node_parents_run h W g) in Hps by done. injection Hps as <-.
  assert (Hi' : in_graph h' g r) by (by apply (sa_in_graph _ _ _ S)). rewrite <-(pars_sa g h h' r S) in Hlen, Hroot |- *.
  remember (1 # 20)%Q as d0 eqn:Hd0 in Hhd. destruct Hhd as [d r s Hx _|d r p sp cs i q _ Hx|d r ps keep stys s _ Hx _ Hk HF Hhd].
  - by destruct Hnr; apply (sa_rootlike _ _ _ S).
  - rewrite (node_parents_run h' W' g) in Hx by done. injection Hx as Hx. by rewrite Hx in Hlen.
  - rewrite (node_parents_run h' W' g) in Hx by done. injection Hx as <-. assert (base.filter (λ p, keep p = true) (pars h' r) = pars h' r) as Hall.
    { assert (∀ p, p ∈ pars h' r → keep p = true) as Hkp.
      { intros p Hp. apply Hk; [done|]. intros Hpath. apply Hnc. apply (sa_on_cycle _ _ _ S). eapply tc_r; [exact Hpath|]. by apply (elem_of_pars h' W' g). }
      clear - Hkp. induction (pars h' r) as [|p l IH]; [done|]. rewrite filter_cons, decide_True by (apply Hkp; left). f_equal. apply IH. intros; apply Hkp; by right. }
    rewrite Hall in HF. destruct stys as [|sty stys]; [done|]. injection Hhd as ->. exists s, stys. split; [|done].
    assert (Hall2 : ∀ p, p ∈ pars h' r → rootlike h' g p) by (intros p ?%Hroot; by apply (sa_rootlike _ _ _ S)).
    revert HF Hall2. clear. generalize (s :: stys). intros l2 HF Hall2. induction HF as [|p s' l stys' Hp HF IH]; [done|]. constructor; [|apply IH; intros; apply Hall2; by right].
    assert (rootlike h' g p) as Hrp by (apply Hall2; left). by destruct Hp.
Qed.
Ltac by_adding := apply (C54_comparable_proof _ 0); right; apply run_history; [constructor|vm_compute; repeat (split; [by repeat split|]); done|repeat constructor; done].
Ltac style_read := eexists _, _; split; [vm_compute; reflexivity|]; split; vm_compute; reflexivity.
(** C67 refuted: in a -> b -> c with a green b, node c gets its colour from the red of
    the root a, not from b. *)
Lemma C67_styled_parent_refuted_proof : ∃ h G D h' sp s q q', reachable h ∧ h_graphs h !! 0 = Some G ∧ g_disp G = Some D ∧ default_styling D ∧ comparable h 0 ∧
  stylize 0 id h = (h', Ok tt) ∧ node_parents h 2 = Ok [1] ∧ style_of h' 1 sp ∧ style_of h' 2 s ∧ ns_colour sp = CName "green" ∧
  ns_colour s = CSat (CHue (CSat (CHue (CName "red") q)) q').
Proof.
  eexists (run [CNew false true disp0; CAddNode 0 (an "a") nargs0; CAddNode 0 (an "b") (nargs0 <| a_style := SDict [("colour"%string, PStr "green")] |>); CAddNode 0 (an "c") nargs0;
    CConnect 0 (an "a") (an "b") eargs0; CConnect 0 (an "b") (an "c") eargs0] empty_heap), _, _, _, _, _, _, _. split; [reach|]. split; [vm_compute; reflexivity|]. split; [vm_compute; reflexivity|].
  split; [by repeat split|]. split; [by_adding|]. split; [vm_compute; reflexivity|]. split; [vm_compute; reflexivity|]. split; [style_read|]. split; [style_read|]. split; [done|]. reflexivity.
Qed.
(** C67 refuted: in the diamond a -> b -> d, a -> c -> d the nodes b and c get different
    hues, but d gets the mixture of two equal colours that neither of them has. *)
Lemma C67_mixed_refuted_proof : ∃ h G D h' s1 s2 s c, reachable h ∧ h_graphs h !! 0 = Some G ∧ g_disp G = Some D ∧ default_styling D ∧ comparable h 0 ∧ (∀ r, ¬ node_styled h r) ∧
  stylize 0 id h = (h', Ok tt) ∧ node_parents h 3 = Ok [1; 2] ∧ style_of h' 1 s1 ∧ style_of h' 2 s2 ∧ style_of h' 3 s ∧
  ns_colour s1 = CSat (CHue (CName "red") (-1 # 20)) ∧ ns_colour s2 = CSat (CHue (CName "red") (1 # 20)) ∧
  ns_colour s = CPale (CMixCons c (CMixCons c CMixNil)) (1 # 20) ∧ ∃ q, (q == 0)%Q ∧ c = CSat (CHue (CName "red") q).
Proof.
  eexists (run (graph_calls ["a"; "b"; "c"; "d"] [("a", "b"); ("b", "d"); ("a", "c"); ("c", "d")])%string empty_heap), _, _, _, _, _, _, _. split; [reach|]. split; [vm_compute; reflexivity|]. split; [vm_compute; reflexivity|].
  split; [by repeat split|]. split; [by_adding|]. split. { intros r (N & HN & Hs). destruct r as [|[|[|[|]]]]; vm_compute in HN; [by injection HN as <-..|done]. }
  split; [vm_compute; reflexivity|]. split; [vm_compute; reflexivity|]. split; [style_read|]. split; [style_read|]. split; [style_read|]. split; [reflexivity|]. split; [reflexivity|].
  split; [reflexivity|]. eexists. split; [|reflexivity]. reflexivity.
Qed.
(** In the diamond the hypotheses of C67_single_partial hold of b, with parent a. *)
Lemma C67_single_ex_proof : ∃ h G D h', reachable h ∧ h_graphs h !! 0 = Some G ∧ g_disp G = Some D ∧ default_styling D ∧ comparable h 0 ∧ stylize 0 id h = (h', Ok tt) ∧
  in_graph h 0 1 ∧ ¬ node_styled h 1 ∧ ¬ rootlike h 0 1 ∧ ¬ on_cycle h 0 1 ∧ node_parents h 1 = Ok [0] ∧ ¬ node_styled h 0.
Proof.
  eexists (run (graph_calls ["a"; "b"; "c"; "d"] [("a", "b"); ("b", "d"); ("a", "c"); ("c", "d")])%string empty_heap), _, _, _. split; [reach|]. split; [vm_compute; reflexivity|]. split; [vm_compute; reflexivity|].
  split; [by repeat split|]. split; [by_adding|]. split; [vm_compute; reflexivity|]. split; [eexists _, _; split; vm_compute; [reflexivity|]; right; left|].
  assert (Hun : ∀ r, ¬ node_styled (run (graph_calls ["a"; "b"; "c"; "d"] [("a", "b"); ("b", "d"); ("a", "c"); ("c", "d")])%string empty_heap) r).
  { intros r (N & HN & Hs). destruct r as [|[|[|[|]]]]; vm_compute in HN; [by injection HN as <-..|done]. }
  split; [apply Hun|]. split. { intros Hroot. eapply (inc_acyclic _ 0); [|apply (Hroot 0)]; [done|]. eexists 0, _. split; [vm_compute; reflexivity|]. done. }
  split; [by apply inc_acyclic|]. split; [vm_compute; reflexivity|apply Hun].
Qed.
(** In the graph x -> z, y -> z the hypotheses of C67_several_partial hold of z. *)
Lemma C67_several_ex_proof : ∃ h G D h', reachable h ∧ h_graphs h !! 0 = Some G ∧ g_disp G = Some D ∧ default_styling D ∧ comparable h 0 ∧ stylize 0 id h = (h', Ok tt) ∧
  in_graph h 0 2 ∧ ¬ node_styled h 2 ∧ ¬ rootlike h 0 2 ∧ ¬ on_cycle h 0 2 ∧ node_parents h 2 = Ok [0; 1] ∧ rootlike h 0 0 ∧ rootlike h 0 1 ∧
  style_of h' 2 (standard_node (CPale (CMixCons (CName "red") (CMixCons (CName "blue") CMixNil)) (1 # 20))).
Proof.
  eexists (run (graph_calls ["x"; "y"; "z"] [("x", "z"); ("y", "z")])%string empty_heap), _, _, _. split; [reach|]. split; [vm_compute; reflexivity|]. split; [vm_compute; reflexivity|].
  split; [by repeat split|]. split; [by_adding|]. split; [vm_compute; reflexivity|]. split; [eexists _, _; split; vm_compute; [reflexivity|]; right; right; left|].
  assert (Hun : ∀ r, ¬ node_styled (run (graph_calls ["x"; "y"; "z"] [("x", "z"); ("y", "z")])%string empty_heap) r).
  { intros r (N & HN & Hs). destruct r as [|[|[|]]]; vm_compute in HN; [by injection HN as <-..|done]. }
  split; [apply Hun|]. split. { intros Hroot. eapply (inc_acyclic _ 0); [|apply (Hroot 0)]; [done|]. eexists 0, _. split; [vm_compute; reflexivity|]. done. }
  split; [by apply inc_acyclic|]. split; [vm_compute; reflexivity|].
  assert (Hno : ∀ p r, r < 2 → ¬ adj (run (graph_calls ["x"; "y"; "z"] [("x", "z"); ("y", "z")])%string empty_heap) 0 p r).
  { intros p r Hr (e & E & HE & _ & Hs & Ht). destruct e as [|[|]]; vm_compute in HE; [injection HE as <-; cbn in Ht; simplify_eq; lia..|done]. }
  split; [intros p Hp; exfalso; eapply Hno; [|done]; lia|]. split; [intros p Hp; exfalso; eapply Hno; [|done]; lia|]. style_read.
Qed.
