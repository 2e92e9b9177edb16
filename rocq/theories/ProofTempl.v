(** The stylists with templates and ratios. *)
From Verif Require Export ProofC22 SpecTemplate ModelMore.
Local Open Scope list_scope.

(** * Without template: as before *)
Lemma inherit_main_none fuel h pale div r : inherit_style_main fuel None h pale div r = inherit_style fuel h pale div r.
Proof.
  revert div r. induction fuel as [|fuel IH]; intros div r; [done|]. cbn [inherit_style_main inherit_style].
  destruct (is_root_or_parents_are_in_loop h r) as [[]|]; cbn [rbind]; [done| |done]. destruct (node_parents h r) as [ps|]; cbn [rbind]; [|done].
  assert (Hm : ∀ l, rmap (λ p, inherit_style_main fuel None h pale 0%Q p) l = rmap (λ p, inherit_style fuel h pale 0%Q p) l).
  { intros l. induction l as [|p l IHl]; [done|]. cbn [rmap]. by rewrite IH, IHl. }
  destruct ps as [|p [|p' ps]]; [| |].
  - destruct (rfilter _ _) as [l|]; cbn [rbind]; [|done]. by rewrite Hm.
  - destruct (node_children h p) as [cs|]; cbn [rbind]; [|done]. destruct (get_child_rank h r p) as [i|]; cbn [rbind]; [|done]. by rewrite IH.
  - destruct (rfilter _ _) as [l|]; cbn [rbind]; [|done]. by rewrite Hm.
Qed.
Lemma sfold_ext {A B} (f f' : B → A → M B) l : (∀ b x h, f b x h = f' b x h) → ∀ b h, sfold f b l h = sfold f' b l h.
Proof. intros H. induction l as [|x l IH]; intros b h; [done|]. cbn [sfold]. unfold sbind. rewrite H. destruct (f' b x h) as [h1 [b1|e]]; [apply IH|done]. Qed.
Lemma siter_ext {A} (f f' : A → M unit) l : (∀ x h, f x h = f' x h) → ∀ h, siter f l h = siter f' l h.
Proof. intros H. induction l as [|x l IH]; intros h; [done|]. cbn [siter]. unfold sbind. rewrite H. destruct (f' x h) as [h1 [b1|e]]; [apply IH|done]. Qed.
Lemma branch_main_none pale div r h : style_branch_main None pale div r h =
  (let* b := sread (λ h, is_root_or_parents_are_in_loop h r) in
   if (b : bool) then sret tt
   else
    let* l := sread (λ h, node_is_in_loop h r) in
    if (l : bool) then sret tt
    else
      let* N := sread (λ h, get_n h r) in
      match n_style N with
      | Some _ => sret tt
      | None =>
          let* sty := sread (λ h, inherit_style (inherit_fuel h) h pale div r) in
          assign_nstyle r sty
      end) h.
Proof.
  unfold style_branch_main, sbind, sread. destruct (is_root_or_parents_are_in_loop h r) as [[]|]; [done| |done]. destruct (node_is_in_loop h r) as [[]|]; [done| |done].
  destruct (get_n h r) as [N|]; [|done]. destruct (n_style N); [done|]. by rewrite inherit_main_none.
Qed.
Lemma stylize_edges_none g h : stylize_edges_main None edge_darkness_ratio g h = stylize_edges_based_on_nodes g h.
Proof. reflexivity. Qed.
Lemma pensieve_none g G D h : h_graphs h !! g = Some G → g_disp G = Some D →
  pensieve_main None None pale_ratio divergence_ratio edge_darkness_ratio g h = stylize_with_pensieve g (d_scheme D) h.
Proof.
  intros HG HD. unfold pensieve_main. rewrite (sread_Ok _ _ _ D). 2: { unfold get_display. rewrite (get_g_Ok _ _ _ HG). cbn [rbind]. by rewrite HD. }
  unfold stylize_with_pensieve. unfold sbind, sread. destruct (nodes h g) as [ns|]; [|done].
  change (sfold (style_root_main None)) with (sfold style_root). destruct (sfold style_root _ ns h) as [h1 [u|x]]; [|done].
  rewrite (siter_ext (style_branch_main None pale_ratio divergence_ratio) style_branch); [done|]. intros r h0. by rewrite branch_main_none.
Qed.
Lemma random_none g G D sh h : h_graphs h !! g = Some G → g_disp G = Some D → random_main None None edge_darkness_ratio g sh h = stylize_randomly g (d_scheme D) sh h.
Proof.
  intros HG HD. unfold random_main. rewrite (sread_Ok _ _ _ D). 2: { unfold get_display. rewrite (get_g_Ok _ _ _ HG). cbn [rbind]. by rewrite HD. }
  reflexivity.
Qed.

Section Templ.
Context (main : option nstyle) (tmpl : option estyle) (pale div dark : Q) (FN : fine_node main) (FE : fine_edge tmpl).

Lemma templated_eq c : templated main c = Ok (node_made main c).
Proof.
  unfold templated, node_made. destruct main as [t|]; [|by cbv]. cbn [default]. cbn in FN. rewrite (ns_copy_eq t FN). cbn [rbind]. by destruct t.
Qed.
Lemma node_made_coloured c : coloured (node_made main c).
Proof. by repeat split; eexists. Qed.

(** * Roots *)
Lemma style_root_mainrun used h g r N : WF h → in_graph h g r → h_nodes h !! r = Some N →
  (n_style N ≠ None ∨ ¬ rootlike h g r) ∧ style_root_main main used r h = (h, Ok used) ∨
  n_style N = None ∧ rootlike h g r ∧
    match get_least_used_colour used with
    | Err x => style_root_main main used r h = (h, Err x)
    | Ok (used', c) => ∃ h', style_root_main main used r h = (h', Ok used') ∧ styles_added g h h' ∧ style_of h' r (node_made main c) ∧ h_edges h' = h_edges h ∧ h_es h' = h_es h ∧
        ∀ r', r' ≠ r → h_nodes h' !! r' = h_nodes h !! r'
    end.
Proof.
  intros W Hr HN. unfold style_root_main. rewrite (sread_Ok _ _ _ N) by (by apply get_n_Ok). destruct (n_style N) as [k|] eqn:Hs; [by left; split; [left|]|].
  destruct (root_read h g r) as (b & Hb & Hbi & _); [done..|]. rewrite (sread_Ok _ _ _ b) by done. destruct b.
  - right. split; [done|]. split; [by apply Hbi|]. destruct (get_least_used_colour used) as [[used' c]|x] eqn:Hu.
    + destruct (in_graph_lookup h W g r Hr) as (N' & HN' & Hg). assert (N' = N) as -> by congruence.
      destruct (assign_run h g r N (node_made main c)) as (h' & Ha & Hsa & Hst & He1 & He2 & Ho); [done..|]. exists h'. split; [|done].
      rewrite (sread_Ok _ _ _ (used', c)) by done. rewrite (sread_Ok _ _ _ (node_made main c)) by apply templated_eq. by rewrite (sbind_step _ _ _ _ _ Ha).
    + by rewrite (sread_Err _ _ _ x).
  - left. split; [|done]. right. intros ?%Hbi. done.
Qed.
Lemma roots_mainrun h0 g ns used : WF h0 → NoDup ns → (∀ r, r ∈ ns → in_graph h0 g r) →
  ∃ rs, rs `sublist_of` ns ∧ (∀ r, r ∈ rs ↔ r ∈ ns ∧ ¬ node_styled h0 r ∧ rootlike h0 g r) ∧
    match pick (length rs) used with
    | Err x => ∃ h', sfold (style_root_main main) used ns h0 = (h', Err x)
    | Ok (used', cl) => ∃ h', sfold (style_root_main main) used ns h0 = (h', Ok used') ∧ styles_added g h0 h' ∧ h_edges h' = h_edges h0 ∧ h_es h' = h_es h0 ∧
        Forall2 (λ r c, style_of h' r (node_made main c)) rs cl ∧ ∀ r, r ∉ rs → h_nodes h' !! r = h_nodes h0 !! r
    end.
Proof.
  revert h0 used. induction ns as [|r ns IH]; intros h0 used W Hnd Hin.
  - exists []. split; [done|]. split; [intros r; rewrite elem_of_nil; tauto|]. cbn. exists h0. split_and!; [done|by apply sa_refl|done..].
  - apply NoDup_cons in Hnd as [Hni Hnd]. assert (Hr : in_graph h0 g r) by (apply Hin; left). destruct (in_graph_lookup h0 W g r Hr) as (N & HN & Hg).
    destruct (style_root_mainrun used h0 g r N W Hr HN) as [[Hno Hrun]|(Hs & Hroot & Hrun)].
    + destruct (IH h0 used W Hnd) as (rs & Hsub & Hrs & Hm); [intros; apply Hin; by right|]. exists rs. split; [by constructor|]. split.
      { intros r'. rewrite Hrs, elem_of_cons. split; [tauto|]. intros ([->|?] & Hs1 & Hs2); [|done]. rewrite (styled_dec h0 r W N HN) in Hs1. tauto. }
      cbn [sfold]. rewrite (sbind_step _ _ _ _ _ Hrun). done.
    + destruct (get_least_used_colour used) as [[used' c]|x] eqn:Hu.
      * destruct Hrun as (h1 & Hrun & Hsa & Hst & He1 & He2 & Ho). pose proof (sa_WF _ _ _ Hsa W) as W1.
        destruct (IH h1 used' W1 Hnd) as (rs & Hsub & Hrs & Hm). { intros r' Hr'. apply (sa_in_graph _ _ _ Hsa), Hin. by right. }
        assert (Hrn : r ∉ rs) by (intros Hi; apply Hrs in Hi as [? _]; done).
        exists (r :: rs). split; [by constructor|]. split.
        { intros r'. rewrite !elem_of_cons, Hrs, (sa_rootlike _ _ _ Hsa). unfold node_styled. split.
          - intros [->|(H1 & H2 & H3)]; [split; [by left|]; split; [|done]; intros (N' & HN' & ?); congruence|]. split; [by right|]. split; [|done].
            rewrite <-(Ho r'); [done|]. by intros ->.
          - intros ([->|H1] & H2 & H3); [by left|]. right. split; [done|]. split; [|done]. rewrite (Ho r'); [done|]. by intros ->. }
        cbn [sfold length pick]. rewrite (sbind_step _ _ _ _ _ Hrun), Hu. cbn [rbind]. destruct (pick (length rs) used') as [[used2 cl]|x]; cbn [rbind].
        -- destruct Hm as (h2 & Hrun2 & Hsa2 & He3 & He4 & HF & Ho2). exists h2. split_and!; [done|by eapply sa_trans|congruence|congruence|..].
           ++ constructor; [|done]. by eapply sa_style_of.
           ++ intros r' Hni'. apply not_elem_of_cons in Hni' as [Hne Hni']. by rewrite Ho2, Ho.
        -- done.
      * (* an empty table: the first unstyled root fails *)
        destruct used as [|p used]; [|cbn in Hu; by destruct (least_used p used)]. cbn in Hu. injection Hu as <-.
        destruct (IH h0 [] W Hnd) as (rs & Hsub & Hrs & Hm); [intros; apply Hin; by right|].
        exists (r :: rs). split; [by constructor|]. split.
        { intros r'. rewrite !elem_of_cons, Hrs. split; [|intros ([->|?] & ? & ?); tauto]. intros [->|?]; [|tauto]. split; [by left|]. split; [|done]. rewrite (styled_dec h0 r W N HN). intros Hx; by apply Hx. }
        cbn. exists h0. by rewrite (sbind_fail _ _ _ _ _ Hrun).
Qed.

(** * Branches *)
(** The colour that a template hands down, read in a later state. *)
Lemma inherit_mainvalue t fuel h0 h g d r seen : main = Some t → WF h0 → styles_added g h0 h → comparable h0 g → in_graph h0 g r → NoDup seen →
  (∀ s, s ∈ seen → path h0 g r s ∧ ¬ path h0 g s r) → length (h_nodes h0) < fuel + length seen →
  ∃ s, inherit_style_main fuel main h pale d r = Ok s ∧ template_colour h0 g (ns_colour t) pale d r (ns_colour s) ∧ (¬ rootlike h0 g r → s = tinted (ns_colour s) t).
Proof.
  intros Hmain W0 S Hc0. pose proof (sa_WF _ _ _ S W0) as W. assert (Hc : comparable h g) by (by eapply sa_comparable).
  assert (Ht : coloured t) by (by rewrite Hmain in FN). revert r d seen. induction fuel as [|fuel IH]; intros r d seen Hr0 Hnd Hseen Hlen.
  - exfalso. assert (length seen ≤ length (seq 0 (length (h_nodes h0)))) as Hle; [|rewrite seq_length in Hle; lia].
    apply submseteq_length, NoDup_submseteq; [done|]. intros s Hs. apply elem_of_seq. split; [lia|]. apply (in_graph_lt h0 g s W0).
    destruct (Hseen s Hs) as [Hp _]. by apply (path_in_graph h0 W0) in Hp as [_ ?].
  - assert (Hr : in_graph h g r) by (by apply (sa_in_graph _ _ _ S)). cbn [inherit_style_main]. rewrite (root_sa g h0 h r) by done.
    destruct (root_read h0 g r) as (b & -> & Hb & Hnb); [done..|]. cbn [rbind]. rewrite Hmain. destruct b.
    + assert (rootlike h0 g r) as Hrt by (by apply Hb). rewrite (ns_copy_eq t Ht). eexists. split; [done|]. split; [by constructor|done].
    + assert (Hnr : ¬ rootlike h0 g r) by (intros ?%Hb; done).
      destruct (Hnb eq_refl) as (p0 & Hp0 & Hp0c). rewrite (node_parents_run h W g) by done. cbn [rbind]. rewrite (pars_sa g h0 h r S).
      assert (Hstep : ∀ p d, p ∈ pars h0 r → ¬ path h0 g r p →
        ∃ s, inherit_style_main fuel main h pale d p = Ok s ∧ template_colour h0 g (ns_colour t) pale d p (ns_colour s) ∧ (¬ rootlike h0 g p → s = tinted (ns_colour s) t)).
      { intros p d' Hp Hnp. apply (elem_of_pars h0 W0 g) in Hp; [|done].
        apply (IH p d' (r :: seen)).
        - by apply (adj_in_graph h0 g p r) in Hp as [? _].
        - constructor; [|done]. intros Hs. destruct (Hseen r Hs). done.
        - intros s [->|Hs]%elem_of_cons; [split; [by apply tc_once|done]|]. destruct (Hseen s Hs) as [H1 H2]. split; [by eapply tc_l|].
          intros H3. apply H2. by eapply tc_r.
        - cbn. lia. }
      destruct (decide (length (pars h0 r) = 1)) as [H1|H1].
      * destruct (pars h0 r) as [|p [|? ?]] eqn:Hps; try done.
        assert (Hp : in_graph h0 g p). { apply (pars_in h0 W0 g r); [done|]. rewrite Hps. left. }
        assert (Ha : adj h0 g p r). { apply (elem_of_pars h0 W0 g); [done|]. rewrite Hps. left. }
        rewrite (node_children_run h W g) by (by apply (sa_in_graph _ _ _ S)). cbn [rbind]. rewrite (rank_sa g h0 h r p) by done.
        assert (Hrk : r ∈ kids h0 p) by (by apply (elem_of_kids h0 W0 g)).
        destruct (get_child_rank h0 r p) as [i|] eqn:Hi. 2: { rewrite (child_rank_run h0 W0 g Hc0), decide_True in Hi by done. done. }
        cbn [rbind]. pose proof (rank_lt h0 g r p i W0 Hc0 Hr0 Hp Hi) as Hlt. rewrite (kids_sa g h0 h p S).
        destruct (div_positive _ _ Hlt) as (q & Hq & Hqq). rewrite Hq. cbn [rbind]. destruct (kids h0 p) as [|k ks] eqn:Hk; [cbn in Hlt; lia|]. cbn [rbind].
        rewrite (recolour_eq t) by done. eexists. split; [done|]. split; [|done]. cbn [ns_colour tinted].
        eapply tcol_one; [done|by rewrite (node_parents_run h0 W0 g), Hps|by rewrite (node_children_run h0 W0 g), Hk|done|]. apply Qmult_comp; [reflexivity|exact Hqq].
      * assert (Hm : ∃ s, (let! ps' := rfilter (λ p, let! b := node_in_loop_with h r (ANode p) in Ok (negb b)) (pars h0 r) in
            let! stys := rmap (λ p, inherit_style_main fuel (Some t) h pale 0%Q p) ps' in
            match stys with
            | [] => Err Unmodelled
            | sty :: _ => recolour t (CPale (mix (map ns_colour stys)) pale)
            end) = Ok s ∧ template_colour h0 g (ns_colour t) pale d r (ns_colour s) ∧ (¬ rootlike h0 g r → s = tinted (ns_colour s) t)).
        { assert (Hrd : ∀ p, p ∈ pars h0 r → ∃ b, node_in_loop_with h r (ANode p) = Ok b ∧ (negb b = true ↔ ¬ path h0 g r p)).
          { intros p Hp. assert (Ha : adj h0 g p r) by (by apply (elem_of_pars h0 W0 g) in Hp). rewrite (loop_with_sa g h0 h r p); [|done|done|done|by eapply (pars_in h0 W0)].
            destruct (with_read h0 g r p) as (b & Hb' & Hbi); [done|done|by eapply (pars_in h0 W0)|].
            exists b. split; [done|]. rewrite negb_true_iff. destruct b; split; try done.
            - intros Hn. destruct Hn. by apply Hbi.
            - intros _ Hpp. assert (false = true) as [=]. apply Hbi. split; [done|]. by apply tc_once. }
          set (keep := λ p, match node_in_loop_with h r (ANode p) with Ok b => negb b | Err _ => false end).
          assert (rfilter (λ p, let! b := node_in_loop_with h r (ANode p) in Ok (negb b)) (pars h0 r) = Ok (base.filter (λ p, keep p = true) (pars h0 r))) as ->.
          { clear H1. revert Hrd. generalize (pars h0 r). intros l Hrd. induction l as [|p ps IHp]; [done|]. cbn [rfilter]. destruct (Hrd p) as (b & Hb' & _); [left|]. rewrite Hb'. cbn [rbind].
            rewrite IHp by (intros; apply Hrd; by right). cbn [rbind]. assert (Hk : keep p = negb b) by (unfold keep; by rewrite Hb'). rewrite filter_cons, Hk. by destruct b. }
          assert (Hkeep : ∀ p, p ∈ pars h0 r → keep p = true ↔ ¬ path h0 g r p). { intros p Hp. unfold keep. by destruct (Hrd p Hp) as (b & -> & ?). }
          cbn [rbind]. destruct (rmap_run (λ p, inherit_style_main fuel (Some t) h pale 0%Q p) (λ p s, template_colour h0 g (ns_colour t) pale 0 p (ns_colour s)) (base.filter (λ p, keep p = true) (pars h0 r))) as (stys & -> & HF).
          { intros p [Hk Hp]%elem_of_list_filter. destruct (Hstep p 0%Q Hp) as (s & Hs & Hts & _); [by apply Hkeep|]. rewrite Hmain in Hs. eauto. }
          cbn [rbind]. assert (Hp0l : p0 ∈ base.filter (λ p, keep p = true) (pars h0 r)).
          { assert (Hp0' : p0 ∈ pars h0 r) by (by apply (elem_of_pars h0 W0 g)). apply elem_of_list_filter. split; [|done]. apply Hkeep; [done|]. intros Hpp. apply Hp0c. by eapply tc_l. }
          destruct stys as [|s0 stys]; [apply Forall2_nil_inv_r in HF; rewrite HF in Hp0l; by apply elem_of_nil in Hp0l|].
          rewrite (recolour_eq t) by done. eexists. split; [done|]. split; [|done]. cbn [ns_colour tinted].
          eapply (tcol_many _ _ _ _ _ _ _ keep); [done|by rewrite (node_parents_run h0 W0 g)|done|done| |done].
          change (map ns_colour (s0 :: stys)) with (ns_colour <$> (s0 :: stys)). apply Forall2_fmap_r. exact HF. }
        rewrite Hmain in *. destruct (pars h0 r) as [|p [|p' ps]] eqn:Hps; [exact Hm|done|exact Hm].
Qed.

Lemma branch_mainpost h0 h g r h' : WF h0 → styles_added g h0 h → in_graph h0 g r → style_branch_main main pale div r h = (h', Ok tt) →
  styles_added g h h' ∧ h_edges h' = h_edges h ∧ h_es h' = h_es h ∧ (¬ rootlike h g r → ¬ on_cycle h g r → node_styled h' r) ∧
  (h' = h ∨ ¬ node_styled h r ∧ ¬ rootlike h g r ∧ ¬ on_cycle h g r ∧ ∀ r', r' ≠ r → h_nodes h' !! r' = h_nodes h !! r') ∧
  (∀ t, main = Some t → comparable h0 g → ¬ node_styled h r → ¬ rootlike h g r → ¬ on_cycle h g r → ∃ c, style_of h' r (tinted c t) ∧ template_colour h0 g (ns_colour t) pale div r c).
Proof.
  intros W0 S0 Hr0. pose proof (sa_WF _ _ _ S0 W0) as W. assert (Hr : in_graph h g r) by (by apply (sa_in_graph _ _ _ S0)).
  destruct (in_graph_lookup h W g r Hr) as (N & HN & Hg). unfold style_branch_main.
  destruct (root_read h g r) as (b & Hb & Hbi & _); [done..|]. rewrite (sread_Ok _ _ _ b) by done. destruct b.
  { intros [= <-]. split_and!; [by apply sa_refl|done|done|intros Hn; destruct Hn; by apply Hbi|by left|]. intros t _ _ _ Hn. destruct Hn. by apply Hbi. }
  destruct (loop_read h g r) as (l & Hl & Hli); [done..|]. rewrite (sread_Ok _ _ _ l) by done. destruct l.
  { intros [= <-]. split_and!; [by apply sa_refl|done|done|intros _ Hn; destruct Hn; by apply Hli|by left|]. intros t _ _ _ _ Hn. destruct Hn. by apply Hli. }
  rewrite (sread_Ok _ _ _ N) by (by apply get_n_Ok). destruct (n_style N) as [k|] eqn:Hs.
  { assert (node_styled h r) by (exists N; by rewrite Hs). intros [= <-]. split_and!; [by apply sa_refl|done|done|done|by left|done]. }
  destruct (inherit_style_main (inherit_fuel h) main h pale div r) as [sty|x] eqn:Hi; [|by rewrite (sread_Err _ _ _ x)]. rewrite (sread_Ok _ _ _ sty) by done.
  destruct (assign_run h g r N sty) as (h1 & Ha & Hsa & Hst & He1 & He2 & Ho); [done..|]. rewrite Ha. intros [= <-]. split_and!; [done..| | |].
  - intros _ _. destruct Hst as (N' & k & HN' & Hk & _). exists N'. by rewrite Hk.
  - right. split_and!; [|intros ?%Hbi; done|intros ?%Hli; done|done]. rewrite (styled_dec h r W N HN), Hs. intros Hx. by apply Hx.
  - intros t Hmain Hc _ Hnr _. destruct (inherit_mainvalue t (inherit_fuel h) h0 h g div r []) as (s & Hs' & Hts & Heq); try done; [by constructor|by intros s Hs'%elem_of_nil| |].
    { unfold inherit_fuel. rewrite (sa_nlen _ _ _ S0). cbn. lia. }
    assert (s = sty) as -> by congruence. exists (ns_colour sty). rewrite <-Heq; [done|]. by rewrite <-(sa_rootlike _ _ _ S0).
Qed.
Lemma branch_maintotal h0 h g r : WF h0 → styles_added g h0 h → CI h → comparable h0 g → (∀ x, in_graph h g x → rootlike h g x → node_styled h x) →
  in_graph h0 g r → ∃ h', style_branch_main main pale div r h = (h', Ok tt).
Proof.
  intros W0 S0 HCI Hc Hroots Hr0. pose proof (sa_WF _ _ _ S0 W0) as W. assert (Hr : in_graph h g r) by (by apply (sa_in_graph _ _ _ S0)).
  destruct (in_graph_lookup h W g r Hr) as (N & HN & Hg). unfold style_branch_main.
  destruct (root_read h g r) as (b & Hb & Hbi & _); [done..|]. rewrite (sread_Ok _ _ _ b) by done. destruct b; [by eexists|].
  destruct (loop_read h g r) as (l & Hl & Hli); [done..|]. rewrite (sread_Ok _ _ _ l) by done. destruct l; [by eexists|].
  rewrite (sread_Ok _ _ _ N) by (by apply get_n_Ok). destruct (n_style N) as [k|] eqn:Hs; [by eexists|].
  assert (∃ sty, inherit_style_main (inherit_fuel h) main h pale div r = Ok sty) as [sty Hi].
  { assert (main = None ∨ ∃ t, main = Some t) as [Hmain|[t Hmain]] by (destruct main; eauto).
    - rewrite Hmain, inherit_main_none. apply (inherit_total (inherit_fuel h) h g pale div r []); [done|done|by eapply sa_comparable|done|done|by constructor|by intros s Hs'%elem_of_nil|unfold inherit_fuel; cbn; lia].
    - destruct (inherit_mainvalue t (inherit_fuel h) h0 h g div r []) as (s & Hs' & _); try done; [by constructor|by intros s Hs'%elem_of_nil| |eauto].
      unfold inherit_fuel. rewrite (sa_nlen _ _ _ S0). cbn. lia. }
  rewrite (sread_Ok _ _ _ sty) by done. destruct (assign_run h g r N sty) as (h1 & Ha & _); [done..|]. eauto.
Qed.
Lemma inherit_main_coloured fuel h p q r s : inherit_style_main fuel main h p q r = Ok s → coloured s.
Proof.
  destruct main as [t|]; [|rewrite inherit_main_none; apply inherit_coloured]. destruct fuel as [|fuel]; [done|]. cbn [inherit_style_main].
  assert (Hrec : ∀ c, recolour t c = Ok s → coloured s) by (intros c; rewrite (recolour_eq t c FN); intros [= <-]; repeat split; by eexists).
  intros (b & _ & H)%rbind_Ok. destruct b; [by eapply copy_coloured|]. apply rbind_Ok in H as (ps & _ & H).
  assert (Hm : (let! ps' := rfilter (λ p, let! b := node_in_loop_with h r (ANode p) in Ok (negb b)) ps in
            let! stys := rmap (λ p0, inherit_style_main fuel (Some t) h p 0%Q p0) ps' in
            match stys with
            | [] => Err Unmodelled
            | sty :: _ => recolour t (CPale (mix (map ns_colour stys)) p)
            end) = Ok s → coloured s).
  { intros (ps' & _ & H')%rbind_Ok. apply rbind_Ok in H' as (stys & _ & H'). destruct stys; [done|]. by eapply Hrec. }
  destruct ps as [|p1 [|p2 ps]]; [by apply Hm| |by apply Hm]. apply rbind_Ok in H as (cs & _ & H). apply rbind_Ok in H as (i & _ & H). cbn [rbind] in H.
  apply rbind_Ok in H as (c & _ & H). by eapply Hrec.
Qed.
Lemma CI_root_main used r : pres CI (style_root_main main used r).
Proof.
  unfold style_root_main. apply pres_bind; [apply pres_read|intros N]. destruct (n_style N); [apply pres_ret|]. apply pres_bind; [apply pres_read|intros b].
  destruct b; [|apply pres_ret]. apply pres_bind; [apply pres_read|intros [u c]]. apply (CI_read coloured).
  - intros h s _. rewrite templated_eq. intros [= <-]. apply node_made_coloured.
  - intros s Hs. apply pres_bind; [by apply CI_assign|intros; apply pres_ret].
Qed.
Lemma CI_branch_main r : pres CI (style_branch_main main pale div r).
Proof.
  unfold style_branch_main. apply pres_bind; [apply pres_read|intros b]. destruct b; [apply pres_ret|]. apply pres_bind; [apply pres_read|intros b].
  destruct b; [apply pres_ret|]. apply pres_bind; [apply pres_read|intros N]. destruct (n_style N); [apply pres_ret|]. apply (CI_read coloured).
  - intros h s _. apply inherit_main_coloured.
  - intros s Hs. by apply CI_assign.
Qed.
Lemma branches_mainpost h0 h g ns h' : WF h0 → styles_added g h0 h → NoDup ns → (∀ r, r ∈ ns → in_graph h0 g r) → siter (style_branch_main main pale div) ns h = (h', Ok tt) →
  styles_added g h h' ∧ h_edges h' = h_edges h ∧ h_es h' = h_es h ∧ (∀ r, r ∈ ns → ¬ rootlike h g r → ¬ on_cycle h g r → node_styled h' r) ∧
  (∀ r, ¬ (r ∈ ns ∧ ¬ node_styled h r ∧ ¬ rootlike h g r ∧ ¬ on_cycle h g r) → h_nodes h' !! r = h_nodes h !! r) ∧
  (∀ t, main = Some t → comparable h0 g → ∀ r, r ∈ ns → ¬ node_styled h r → ¬ rootlike h g r → ¬ on_cycle h g r →
    ∃ c, style_of h' r (tinted c t) ∧ template_colour h0 g (ns_colour t) pale div r c).
Proof.
  intros W0. revert h. induction ns as [|r ns IH]; intros h S0 Hnd Hin; cbn [siter]; pose proof (sa_WF _ _ _ S0 W0) as W.
  - intros [= <-]. split_and!; [by apply sa_refl|done|done|by intros r Hr%elem_of_nil|done|by intros t _ _ r Hr%elem_of_nil].
  - intros (h1 & [] & H1 & H2)%sbind_Ok. apply NoDup_cons in Hnd as [Hni Hnd].
    destruct (branch_mainpost h0 h g r h1 W0 S0) as (S1 & E1 & E2 & Hst & Hch & Hv); [apply Hin; left|done|]. pose proof (sa_WF _ _ _ S1 W) as W1.
    assert (S01 : styles_added g h0 h1) by (by eapply sa_trans).
    destruct (IH h1 S01 Hnd) as (S2 & E3 & E4 & Hst2 & Hch2 & Hv2); [intros; apply Hin; by right|done|].
    assert (Hsame : ∀ r', r' ≠ r → node_styled h1 r' ↔ node_styled h r'). { intros r' Hne. destruct Hch as [->|(_ & _ & _ & Ho)]; [done|]. unfold node_styled. by rewrite Ho. }
    split_and!; [by eapply sa_trans|congruence|congruence|..].
    + intros r' [->|Hr']%elem_of_cons Hn1 Hn2; [eapply sa_node_styled; [done|by apply Hst]|].
      apply Hst2; [done|by rewrite (sa_rootlike _ _ _ S1)|by rewrite (sa_on_cycle _ _ _ S1)].
    + intros r' Hn. rewrite (Hch2 r').
      * destruct Hch as [->|(Hc1 & Hc2 & Hc3 & Ho)]; [done|]. apply Ho. intros ->. apply Hn. split; [left|done].
      * rewrite (sa_rootlike _ _ _ S1), (sa_on_cycle _ _ _ S1). intros (Hr' & Hs & ? & ?). apply Hn. split; [by right|]. split; [|done].
        intros Hs'. apply Hs. eapply sa_node_styled; [exact S1|done].
    + intros t Hmain Hc r' Hr' Hs Hnr Hnc. destruct (decide (r' = r)) as [->|Hne].
      * destruct (Hv t) as (c & Hc1 & Hc2); [done..|]. exists c. split; [|done]. by eapply sa_style_of.
      * apply elem_of_cons in Hr' as [->|Hr']; [done|]. apply (Hv2 t); [done..| | |]; [by rewrite Hsame|by rewrite (sa_rootlike _ _ _ S1)|by rewrite (sa_on_cycle _ _ _ S1)].
Qed.
Lemma branches_maintotal h0 h g ns : WF h0 → styles_added g h0 h → CI h → comparable h0 g → (∀ x, in_graph h g x → rootlike h g x → node_styled h x) → NoDup ns →
  (∀ r, r ∈ ns → in_graph h0 g r) → ∃ h', siter (style_branch_main main pale div) ns h = (h', Ok tt).
Proof.
  intros W0. revert h. induction ns as [|r ns IH]; intros h S0 HCI Hc Hroots Hnd Hin; cbn [siter]; [by eexists|]. apply NoDup_cons in Hnd as [Hni Hnd].
  destruct (branch_maintotal h0 h g r) as [h1 H1]; [done..|apply Hin; left|]. rewrite (sbind_step _ _ _ _ _ H1).
  destruct (branch_mainpost h0 h g r h1 W0 S0) as (S1 & E1 & E2 & Hst & Hch & _); [apply Hin; left|done|].
  assert (S01 : styles_added g h0 h1) by (by eapply sa_trans). apply IH.
  - done.
  - pose proof (CI_branch_main r h HCI) as HI. by rewrite H1 in HI.
  - done.
  - intros x Hx Hrx. eapply sa_node_styled; [exact S1|]. apply Hroots; [by apply (sa_in_graph _ _ _ S1)|by apply (sa_rootlike _ _ _ S1)].
  - done.
  - intros r' Hr'. apply Hin. by right.
Qed.

(** * Edges *)
Definition carriesM (c : option estyle) (a : pv) : Prop := is_number a ∧ (c = tmpl ∧ a = first_arrow tmpl ∨ ∃ c', c = Some (edge_made tmpl c' a)).
Lemma carries_first : carriesM tmpl (first_arrow tmpl).
Proof. split; [|by left]. destruct tmpl as [t|]; [|done]. by destruct FE. Qed.
Lemma edge_mainbase c a col : carriesM c a → match c with
    | None => estyle_ctor [("colour"%string, PCol col)]
    | Some sty => let! cp := es_copy sty in Ok (es_put_colour col (es_reset cp))
    end = Ok (edge_made tmpl col a).
Proof.
  intros [Ha [[-> ->]|[c' ->]]].
  - destruct tmpl as [t|]; [|by cbv]. destruct FE as [_ Hb]. destruct t as [tc [tt'|] tb to tf ts ta tl tw te]; cbn in Hb; destruct tb as [tb|]; try done; reflexivity.
  - destruct tmpl as [t|]; [|by cbv]. reflexivity.
Qed.
Lemma mul_number a v : is_number a → numeric v → v ≠ PNone → ∃ a', py_mul a v = Ok a' ∧ is_number a' ∧ (factor a' == factor a * factor v)%Q.
Proof.
  intros Ha Hv Hn. destruct a as [|y|q| | |], v as [|z|p| | |]; try done; (eexists; split; [reflexivity|split; [done|]]); cbn; try reflexivity.
Qed.
Lemma edge_mainskip c h e : edge_styled h e → style_edge_main dark c e h = (h, Ok c).
Proof. intros (E & HE & Hs). unfold style_edge_main. rewrite (sread_Ok _ _ _ E) by (by apply get_e_Ok). by destruct (e_style E). Qed.
Lemma edge_mainbare c h g e x y E : joins h g e x y → h_edges h !! e = Some E → e_style E = None → in_graph h g x → ¬ node_styled h x → WF h →
  style_edge_main dark c e h = (h, Err AttributeError).
Proof.
  intros (E' & HE' & Hg & Hst & Ht) HE Hs Hx Hns W. assert (E' = E) as -> by congruence. unfold style_edge_main. rewrite (sread_Ok _ _ _ E) by (by apply get_e_Ok). rewrite Hs.
  rewrite (sread_Ok _ _ _ x). 2: { unfold edge_start. rewrite (get_e_Ok _ _ _ HE). cbn [rbind]. by rewrite Hst. }
  destruct (in_graph_lookup h W g x Hx) as (N & HN & _). rewrite (sread_Err _ _ _ AttributeError); [done|]. unfold node_style. rewrite (get_n_Ok _ _ _ HN). cbn [rbind].
  rewrite (styled_dec h x W N HN) in Hns. destruct (n_style N); [|done]. by destruct Hns.
Qed.
Lemma edge_mainrun c a h g e x y E s : WF h → carriesM c a → joins h g e x y → h_edges h !! e = Some E → e_style E = None → style_of h x s →
  (numeric (e_value E) → ∃ h' a', let sty := edge_made tmpl (CDarken (ns_colour s) dark) a' in
    style_edge_main dark c e h = (h', Ok (Some sty)) ∧ is_number a' ∧ (factor a' == factor a * factor (e_value E))%Q ∧
    styles_added g h h' ∧ edge_style_of h' e sty ∧ h_nodes h' = h_nodes h ∧ h_ns h' = h_ns h ∧ ∀ e', e' ≠ e → h_edges h' !! e' = h_edges h !! e') ∧
  (¬ numeric (e_value E) → ∃ x, style_edge_main dark c e h = (h, Err x)).
Proof.
  intros W Hc (E' & HE' & Hg & Hst & Ht) HE Hs Hsx. assert (E' = E) as -> by congruence. unfold style_edge_main. rewrite (sread_Ok _ _ _ E) by (by apply get_e_Ok). rewrite Hs.
  rewrite (sread_Ok _ _ _ x). 2: { unfold edge_start. rewrite (get_e_Ok _ _ _ HE). cbn [rbind]. by rewrite Hst. }
  rewrite (sread_Ok _ _ _ s) by (by apply node_style_read). cbv zeta. set (col := CDarken (ns_colour s) dark).
  rewrite (sread_Ok _ _ _ (edge_made tmpl col a)) by (by apply edge_mainbase).
  split.
  - intros Hn. assert (∃ a', match e_value E with PNone => Ok (edge_made tmpl col a)
      | v => let! a1 := py_mul (es_arrow (edge_made tmpl col a)) v in Ok (edge_made tmpl col a <| es_arrow := a1 |>) end
      = Ok (edge_made tmpl col a') ∧ is_number a' ∧ (factor a' == factor a * factor (e_value E))%Q) as (a' & Ha & Hnum & Hq).
    { change (es_arrow (edge_made tmpl col a)) with a. destruct Hc as [Hna _]. destruct (e_value E) as [|z|q|?|?|?] eqn:Hv; try done.
      - exists a. split; [done|]. split; [done|]. cbn. by rewrite Qmult_1_r.
      - destruct (mul_number a (PInt z)) as (a' & -> & ? & ?); [done..|]. exists a'. done.
      - destruct (mul_number a (PFlt q)) as (a' & -> & ? & ?); [done..|]. exists a'. done. }
    rewrite (sread_Ok _ _ _ _ Ha). destruct (assign_edge_run h g e E (edge_made tmpl col a')) as (h' & Hr & Hsa & Hso & Hn1 & Hn2 & Ho); [done..|].
    exists h', a'. cbv zeta. split_and!; done.
  - intros Hn. destruct Hc as [Hna _]. change (es_arrow (edge_made tmpl col a)) with a. destruct (e_value E) as [| | |v|v|v] eqn:Hv, a; try done; (eexists; by erewrite sread_Err).
Qed.
Lemma edges_mainok h g es c a : WF h → carriesM c a → NoDup es → (∀ e, e ∈ es → ∃ x y, joins h g e x y) → (∀ e, e ∈ unstyled_edges h es → good_edge h g e) →
  ∃ h' c', sfold (style_edge_main dark) c es h = (h', Ok c') ∧ styles_added g h h' ∧ h_nodes h' = h_nodes h ∧ h_ns h' = h_ns h ∧
    (∀ e, e ∉ unstyled_edges h es → h_edges h' !! e = h_edges h !! e) ∧
    ∀ i e, unstyled_edges h es !! i = Some e → ∃ x y s a', joins h g e x y ∧ style_of h x s ∧
      edge_style_of h' e (edge_made tmpl (CDarken (ns_colour s) dark) a') ∧ is_number a' ∧
      (factor a' == factor a * product (factor <$> take (Datatypes.S i) (values_of h (unstyled_edges h es))))%Q.
Proof.
  revert h c a. induction es as [|e es IH]; intros h c a W Hc Hnd Hj Hgood.
  - cbn. exists h, c. split_and!; [done|by apply sa_refl|done..].
  - apply NoDup_cons in Hnd as [Hni Hnd]. destruct (Hj e) as (x & y & Hje); [left|]. pose proof Hje as (E & HE & _). cbn [sfold].
    destruct (e_style E) as [k|] eqn:Hs.
    + assert (edge_styled h e) as He by (exists E; by rewrite Hs). rewrite (sbind_step _ _ _ _ _ (edge_mainskip c h e He)). rewrite (unstyled_skip h e es He) in *.
      apply IH; try done. intros; apply Hj; by right.
    + rewrite (unstyled_take h e es E HE Hs) in *. destruct (Hgood e) as (x' & y' & E' & Hj' & HE' & Hsx & Hnum); [left|].
      assert (E' = E) as -> by congruence. destruct (styled_style h x' W Hsx) as [s Hst].
      destruct (edge_mainrun c a h g e x' y' E s) as [Hrun _]; [done..|]. destruct (Hrun Hnum) as (h1 & a1 & Hr & Hna & Ha & Hsa & Hso & Hn1 & Hn2 & Ho). cbv zeta in Hr, Hso.
      rewrite (sbind_step _ _ _ _ _ Hr). pose proof (unstyled_other h h1 e es Hni Ho) as Hu.
      destruct (IH h1 (Some (edge_made tmpl (CDarken (ns_colour s) dark) a1)) a1) as (h2 & c2 & Hr2 & Hsa2 & Hn3 & Hn4 & Ho2 & Har).
      * by eapply sa_WF.
      * split; [done|]. right. by eexists.
      * done.
      * intros e' He'. destruct (Hj e') as (x1 & y1 & ?); [by right|]. exists x1, y1. by apply (sa_joins _ _ _ Hsa).
      * rewrite Hu. intros e' He'. apply (good_edge_sa _ _ _ _ Hsa Hn1), Hgood. by right.
      * rewrite Hu in *. exists h2, c2. split_and!; [done|by eapply sa_trans|congruence|congruence|..].
        -- intros e' He'. apply not_elem_of_cons in He' as [Hne He']. by rewrite Ho2, Ho.
        -- intros [|i] e' Hi; cbn in Hi.
           ++ injection Hi as <-. exists x', y', s, a1. split_and!; [done..|by eapply sa_edge_style_of|done|]. rewrite (values_of_cons _ _ _ E) by done. cbn. rewrite take_0. cbn.
              by rewrite Qmult_1_r.
           ++ destruct (Har i e' Hi) as (x2 & y2 & s2 & a2 & Hj2 & Hs2 & Hes2 & Hna2 & Ha2). exists x2, y2, s2, a2. split_and!; [by apply (sa_joins _ _ _ Hsa)| |done|done|].
              { destruct Hs2 as (N & k & HN & Hk1 & Hk2). rewrite Hn1 in HN. rewrite Hn2 in Hk2. by exists N, k. }
              rewrite (values_of_cons _ _ _ E) by done. rewrite (values_of_sa _ _ _ _ Hsa) in Ha2. rewrite Ha2, Ha. cbn [take fmap list_fmap product]. by rewrite Qmult_assoc.
Qed.
Lemma edges_mainfail h g es c a : WF h → carriesM c a → NoDup es → (∀ e, e ∈ es → ∃ x y, joins h g e x y) → 
  (∃ e, e ∈ unstyled_edges h es ∧ ¬ good_edge h g e) → ∃ h' x, sfold (style_edge_main dark) c es h = (h', Err x).
Proof.
  revert h c a. induction es as [|e es IH]; intros h c a W Hc Hnd Hj (e0 & He0 & Hbad); [by apply elem_of_nil in He0|].
  apply NoDup_cons in Hnd as [Hni Hnd]. destruct (Hj e) as (x & y & Hje); [left|]. pose proof Hje as (E & HE & _). cbn [sfold].
  assert (Hxg : in_graph h g x) by (by apply (joins_in_graph h g e x y) in Hje as [? _]).
  destruct (e_style E) as [k|] eqn:Hs.
  + assert (edge_styled h e) as He by (exists E; by rewrite Hs). rewrite (sbind_step _ _ _ _ _ (edge_mainskip c h e He)). rewrite (unstyled_skip h e es He) in *.
    apply (IH h c a); try done; eauto using elem_of_list_further.
  + rewrite (unstyled_take h e es E HE Hs) in *. destruct (in_graph_lookup h W g x Hxg) as (N & HN & _).
    destruct (n_style N) as [k|] eqn:Hk.
    2: { exists h, AttributeError. erewrite sbind_fail; [done|]. eapply edge_mainbare; try done. rewrite (styled_dec h x W N HN), Hk. intros Hx. by apply Hx. }
    assert (node_styled h x) as Hsx by (exists N; by rewrite Hk). destruct (styled_style h x W Hsx) as [s Hst].
    destruct (edge_mainrun c a h g e x y E s) as [Hrun Hfail]; [done..|].
    assert (numeric (e_value E) ∨ ¬ numeric (e_value E)) as [Hnum|Hnum] by (destruct (e_value E); cbn; tauto).
    2: { destruct (Hfail Hnum) as (x' & Hr). exists h, x'. by erewrite sbind_fail. }
    destruct (Hrun Hnum) as (h1 & a1 & Hr & Hna & Ha & Hsa & Hso & Hn1 & Hn2 & Ho). cbv zeta in Hr, Hso.
    rewrite (sbind_step _ _ _ _ _ Hr). pose proof (unstyled_other h h1 e es Hni Ho) as Hu.
    apply (IH h1 (Some (edge_made tmpl (CDarken (ns_colour s) dark) a1)) a1).
    * by eapply sa_WF.
    * split; [done|]. right. by eexists.
    * done.
    * intros e' He'. destruct (Hj e') as (x1 & y1 & ?); [by right|]. exists x1, y1. by apply (sa_joins _ _ _ Hsa).
    * rewrite Hu. exists e0. apply elem_of_cons in He0 as [->|He0].
      -- destruct Hbad. by exists x, y, E.
      -- split; [done|]. by rewrite (good_edge_sa _ _ _ _ Hsa Hn1).
Qed.
End Templ.
