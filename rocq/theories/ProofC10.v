(** Indented text: C29, C30. *)
From Verif Require Export ProofText ProofC9.
Local Open Scope string_scope.
Local Open Scope list_scope.

(** * C29 *)
(** C29, as far as it is true.  For every outline printed with any indent unit,
    given explicitly or detected, the parser yields one entry per line, with its
    index, its level and its parent line.  The content is the text of the line if
    the line is at level 0, or the indent unit is a single character, or it does
    not occur in the text. *)
Lemma C29_recovers_partial_proof : ∀ u o lines indent, u ≠ "" →
  (indent = Some u ∨ indent = None ∧ ∀ c, has_char c u → space_or_tab c) →
  outline o → Forall (λ lc, text_line u lc.2) o → Forall2 (printed u) o lines →
  ∃ ls, parse_indentations lines indent = Ok ls ∧ length ls = length o ∧
    ∀ i level text, o !! i = Some (level, text) → ∃ content parent, ls !! i = Some (i, level, content, parent) ∧
      parent_line o i parent ∧ ((level = 0 ∨ String.length u = 1 ∨ ¬ occurs u text) → content = text).
Proof.
  intros u o lines indent Hu Hind Ho Ht Hp.
  destruct (parse_lines u indent Hu Hind o lines [] (MkPState indent None [])) as (ls & Heq & Hlen & Hrec); try done.
  { intros l Hl. cbn in Hl. lia. }
  { cbn. destruct Hind as [->|[-> _]]; [by left|right; auto]. }
  exists ls. split; [exact Heq|]. split; [done|]. intros i level text Hi.
  destruct (lookup_lt_is_Some_2 ls i) as [l Hl]; [rewrite Hlen; by eapply lookup_lt_Some|].
  destruct (Hrec i l Hl) as (lc & s & p & -> & Hlc & Hpar & Hk). cbn in Hlc. assert (lc = (level, text)) as -> by congruence.
  exists s, p. done.
Qed.
(** C29 is false when the indent unit occurs in the text: it is replaced there too. *)
Lemma C29_refuted_proof : ∃ u o lines ls, u ≠ "" ∧ (∀ c, has_char c u → space_or_tab c) ∧ outline o ∧
  Forall (λ lc, text_line u lc.2) o ∧ Forall2 (printed u) o lines ∧ parse_indentations lines None = Ok ls ∧
  o !! 1 = Some (1, "a  b") ∧ ls !! 1 = Some (1, 1, "a    b", Some 0).
Proof.
  exists "  ", [(0, "x"); (1, "a  b")], ["x"; "  a  b"]. eexists. split; [done|].
  assert (∀ c, has_char c "  " → c = " "%char) as Hc.
  { intros c. rewrite !has_char_cons. intros [->|[->|[]%has_char_nil]]; done. }
  split; [intros c ->%Hc; by left|].
  split; [repeat split; lia|]. split.
  { repeat (apply Forall_cons; split); [..|done]; (split; [cbn [snd]; rewrite !has_char_cons; intros Hh; repeat (destruct Hh as [?|Hh]; [done|]); by apply has_char_nil in Hh|]).
    - eexists _, _. split; [done|]. split; [unfold white; vm_compute; lia|]. by intros ?%Hc.
    - eexists _, _. split; [done|]. split; [unfold white; vm_compute; lia|]. by intros ?%Hc. }
  split; [repeat constructor; by exists 0|]. split; [by vm_compute|]. split; [done|]. by vm_compute.
Qed.
(** The example of the documentation, tabs, indent detected; the second line ends
    with a newline. *)
Lemma C29_recovers_ex_proof : let u := String "009"%char "" in let o := [(0, "a"); (1, "b"); (2, "c"); (1, "d"); (0, "e")] in
  let lines := ["a"; u +:+ "b" +:+ line_end; u +:+ u +:+ "c"; u +:+ "d"; "e"] in
  u ≠ "" ∧ (∀ c, has_char c u → space_or_tab c) ∧ outline o ∧ Forall (λ lc, text_line u lc.2) o ∧ Forall2 (printed u) o lines ∧
  parse_indentations lines None = Ok [(0, 0, "a", None); (1, 1, "b", Some 0); (2, 2, "c", Some 1); (3, 1, "d", Some 0); (4, 0, "e", None)].
Proof.
  cbv zeta. split; [done|].
  assert (∀ c, has_char c (String "009"%char "") → c = "009"%char) as Hc.
  { intros c. rewrite !has_char_cons. intros [->|[]%has_char_nil]; done. }
  split; [intros c ->%Hc; by right|]. split; [repeat split; lia|]. split.
  { repeat (apply Forall_cons; split); [..|done];
    (split; [cbn [snd]; rewrite !has_char_cons; intros Hh; repeat (destruct Hh as [?|Hh]; [done|]); by apply has_char_nil in Hh|]);
    (eexists _, _; split; [done|]; split; [unfold white; vm_compute; lia|]; by intros ?%Hc). }
  split; [|by vm_compute]. repeat constructor; [by exists 0|by exists 1|by exists 0..].
Qed.

(** * C30 *)
Lemma pretty_go_suffix x s : ∃ t, pretty_N_go x s = t +:+ s.
Proof.
  revert s. induction (N.lt_wf_0 x) as [x _ IH]; intros s. destruct (decide (0 < x)%N) as [Hx|Hx].
  - rewrite pretty_N_go_step by done. destruct (IH (x `div` 10)%N) with (String (pretty_N_char (x `mod` 10)) s) as [t Ht]; [by apply N.div_lt|].
    exists (t +:+ String (pretty_N_char (x `mod` 10)) ""). rewrite Ht, sapp_assoc. done.
  - assert (x = 0)%N as -> by lia. exists "". by rewrite pretty_N_go_0.
Qed.
Lemma pretty_not_root i : pretty (Z.of_nat i) ≠ "root".
Proof.
  destruct i as [|i]; [done|]. change (pretty (Z.of_nat (Datatypes.S i))) with (pretty (N.pos (Pos.of_succ_nat i))).
  unfold pretty, pretty_N. rewrite decide_False by done. rewrite pretty_N_go_step by lia.
  destruct (pretty_go_suffix (N.pos (Pos.of_succ_nat i) `div` 10) (String (pretty_N_char (N.pos (Pos.of_succ_nat i) `mod` 10)) "")) as [t ->].
  set (c := pretty_N_char _). assert (c ≠ "t"%char) as Hc by (unfold c, pretty_N_char; by repeat case_match). clearbody c.
  intros Heq. assert (String.length t = 3) as Hlen.
  { apply (f_equal String.length) in Heq. rewrite sapp_length in Heq. cbn in Heq. lia. }
  destruct t as [|? [|? [|? [|]]]]; try done. by injection Heq.
Qed.
Lemma line_name_inj i j : line_name i = line_name j → i = j.
Proof. unfold line_name. intros [= H%(inj pretty)]. lia. Qed.
Lemma line_name_root i : line_name i ≠ NStr "root".
Proof. unfold line_name. intros [= H]. by apply pretty_not_root in H. Qed.

(** the parser: indices and earlier parents, whatever the text *)
Lemma parse_line_facts st i line st' l : (∀ j, j ∈ p_stack st → j < i) → parse_line st i line = Ok (st', l) →
  (∀ j, j ∈ p_stack st' → j < Datatypes.S i) ∧ ∃ lv s p, l = (i, lv, s, p) ∧ ∀ j, p = Some j → j < i.
Proof.
  intros Hst. unfold parse_line. cbv zeta.
  set (ind := match p_indent st with Some i => Some i | None => _ end). clearbody ind.
  set (ln := match ind with Some i => _ | None => _ end). clearbody ln.
  destruct ln as [|c ln].
  - destruct (p_level st) as [[|lv]|]; [..|done].
    + intros [= <- <-]. split; [intros j Hj; cbn in Hj; specialize (Hst j Hj); lia|]. by eexists _, _, _.
    + destruct (p_stack st !! lv) as [p|] eqn:Hp; [|done]. intros [= <- <-]. split; [intros j Hj; cbn in Hj; specialize (Hst j Hj); lia|].
      eexists _, _, _. split; [done|]. intros j [= <-]. apply Hst. by eapply elem_of_list_lookup_2.
  - destruct (match_line _) as [[lv content]|]; [|done]. destruct (Nat.ltb _ _) eqn:Hlt; [done|]. apply Nat.ltb_ge in Hlt.
    assert (Hs : ∀ j, j ∈ take lv (p_stack st) ++ [i] → j < Datatypes.S i).
    { intros j [Hj| ->%elem_of_list_singleton]%elem_of_app; [|lia]. apply elem_of_take in Hj as (k & Hj & _). apply elem_of_list_lookup_2 in Hj.
      specialize (Hst j Hj). lia. }
    destruct lv as [|lv].
    + intros [= <- <-]. split; [done|]. by eexists _, _, _.
    + destruct ((take _ _ ++ [i]) !! lv) as [p|] eqn:Hp; [|done]. intros [= <- <-]. split; [done|]. eexists _, _, _. split; [done|].
      intros j [= <-]. rewrite lookup_app_l in Hp by (rewrite take_length; lia). rewrite lookup_take in Hp by lia. apply Hst. by eapply elem_of_list_lookup_2.
Qed.
Lemma parse_loop_facts : ∀ lines st i ls, (∀ j, j ∈ p_stack st → j < i) → parse_loop st i lines = Ok ls →
  length ls = length lines ∧ ∀ k l, ls !! k = Some l → ∃ lv s p, l = (i + k, lv, s, p) ∧ ∀ j, p = Some j → j < i + k.
Proof.
  induction lines as [|line lines IH]; intros st i ls Hst Heq; cbn [parse_loop] in Heq.
  { injection Heq as <-. split; [done|]. by intros k l ?. }
  destruct (parse_line st i line) as [[st1 l1]|] eqn:Hl; [|done]. cbn [rbind] in Heq.
  destruct (parse_loop st1 (Datatypes.S i) lines) as [ls1|] eqn:Hls; [|done]. injection Heq as <-.
  destruct (parse_line_facts st i line st1 l1 Hst Hl) as [Hst1 (lv & s & p & -> & Hp)].
  destruct (IH st1 (Datatypes.S i) ls1 Hst1 Hls) as [Hlen Hrest]. split; [cbn; by rewrite Hlen|].
  intros [|k] l Hk; cbn in Hk.
  - injection Hk as <-. rewrite Nat.add_0_r. by exists lv, s, p.
  - destruct (Hrest k l Hk) as (lv' & s' & p' & -> & Hp'). exists lv', s', p'.
    replace (i + Datatypes.S k) with (Datatypes.S i + k) by lia. done.
Qed.

Definition text_nodes (root : string) (n : nat) : list nview := plain_node "root" (PStr root) :: (line_node <$> seq 0 n).
Definition text_edges (ls : list pline) : list eview := (λ l : pline, line_edge l.1.1.1 l.2) <$> ls.
Lemma text_names root n : v_name <$> text_nodes root n = NStr "root" :: (line_name <$> seq 0 n).
Proof. unfold text_nodes. cbn. f_equal. by rewrite <-list_fmap_compose. Qed.
Lemma text_rows w f g root : ∀ ls n h es, built w f h g (text_nodes root n) es →
  (∀ e, e ∈ es → ∃ i, i < n ∧ w_to e = line_name i) →
  (∀ k l, ls !! k = Some l → ∃ lv s p, l = (n + k, lv, s, p) ∧ ∀ j, p = Some j → j < n + k) →
  ∃ h', siter (indented_row g) ls h = (h', Ok tt) ∧ built w f h' g (text_nodes root (n + length ls)) (es ++ text_edges ls).
Proof.
  induction ls as [|l ls IH]; intros n h es Hb Hes Hls.
  { exists h. cbn. by rewrite Nat.add_0_r, app_nil_r. }
  destruct (Hls 0 l eq_refl) as (lv & s & p & -> & Hp). rewrite Nat.add_0_r in *. cbn [siter].
  set (a := nargs0 <| a_label := PStr ("line " +:+ pretty (Z.of_nat n)) |>).
  destruct (built_add w f h g _ es (pretty (Z.of_nat n)) a Hb) as (h1 & r & Heq1 & Hb1 & _ & _); [|done|].
  { rewrite text_names. change (NStr (pretty (Z.of_nat n))) with (line_name n). rewrite elem_of_cons, elem_of_list_fmap.
    intros [?|(i & ->%line_name_inj & Hi%elem_of_seq)]; [by eapply line_name_root|lia]. }
  assert (text_nodes root n ++ [nview_of (pretty (Z.of_nat n)) a] = text_nodes root (Datatypes.S n)) as Hnodes.
  { unfold text_nodes. cbn [app]. f_equal. by rewrite seq_S, fmap_app. }
  rewrite Hnodes in Hb1.
  assert (Hin : ∀ j, j < Datatypes.S n → line_name j ∈ v_name <$> text_nodes root (Datatypes.S n)).
  { intros j Hj. rewrite text_names. right. apply elem_of_list_fmap. exists j. split; [done|]. apply elem_of_seq. lia. }
  assert (Hroot : NStr "root" ∈ v_name <$> text_nodes root (Datatypes.S n)) by (rewrite text_names; left).
  set (k1 := match p with Some j => line_name j | None => NStr "root" end).
  destruct (built_connect_names w f h1 g _ es k1 (line_name n) eargs0 Hb1) as (h2 & Heq2 & Hb2 & _).
  { unfold k1. destruct p as [j|]; [|done]. apply Hin. specialize (Hp j eq_refl). lia. }
  { apply Hin. lia. }
  { intros (e & He & Hie)%elem_of_list_fmap. unfold w_key in He. injection He as _ He _. destruct (Hes e Hie) as (i & Hi & Hto).
    rewrite Hto in He. apply line_name_inj in He. lia. }
  { done. }
  assert (indented_row g (n, lv, s, p) h = (h2, Ok tt)) as Hrow.
  { unfold indented_row. change (index_name n) with (NStr (pretty (Z.of_nat n))). rewrite (sbind_step _ _ _ _ _ Heq1). unfold k1 in Heq2.
    destruct p as [j|]; by rewrite (sbind_step _ _ _ _ _ Heq2). }
  rewrite (sbind_step _ _ _ _ _ Hrow).
  destruct (IH (Datatypes.S n) h2 (es ++ [eview_of k1 (line_name n) eargs0]) Hb2) as (h3 & Heq3 & Hb3).
  { intros e [He| ->%elem_of_list_singleton]%elem_of_app; [|exists n; split; [lia|done]]. destruct (Hes e He) as (i & ? & ?). exists i. split; [lia|done]. }
  { intros k l Hk. destruct (Hls (Datatypes.S k) l Hk) as (lv' & s' & p' & -> & ?). exists lv', s', p'.
    replace (Datatypes.S n + k) with (n + Datatypes.S k) by lia. done. }
  exists h3. split; [done|]. cbn [length]. replace (n + Datatypes.S (length ls)) with (Datatypes.S n + length ls) by lia.
  rewrite <-app_assoc in Hb3. exact Hb3.
Qed.

(** C30.  from_indented_text fails exactly when the parser fails, and otherwise
    makes a new graph with a node 'root' labelled by the given text, one node per
    line, and one edge for each line, to it from its parent line or from 'root'. *)
Lemma C30_from_text_proof : ∀ h d root lines indent, reachable h →
  match parse_indentations lines indent with
  | Err x => (from_indented_text d root lines indent h).2 = Err x
  | Ok ls => length ls = length lines ∧
      (∀ i l, ls !! i = Some l → l.1.1.1 = i ∧ ∀ j, l.2 = Some j → j < i) ∧
      ∃ h', from_indented_text d root lines indent h = (h', Ok (length (h_graphs h))) ∧
        shows h' (length (h_graphs h)) (plain_node "root" (PStr root) :: (line_node <$> seq 0 (length lines)))
          ((λ l : pline, line_edge l.1.1.1 l.2) <$> ls) ∧
        h_warns h' = h_warns h ∧ flags h' (length (h_graphs h)) = Some (true, true, Some d) ∧ extends h h'
  end.
Proof.
  intros h d root lines indent Hr. pose proof (reachable_WF h Hr) as W.
  destruct (built_new h true true d W) as (h1 & Heq1 & Hb1). set (g := length (h_graphs h)) in *.
  destruct (built_add _ _ h1 g [] [] "root" (nargs0 <| a_label := PStr root |>) Hb1) as (h2 & r & Heq2 & Hb2 & _); [by intros ?%elem_of_nil|done|].
  destruct (parse_indentations lines indent) as [ls|x] eqn:Hparse.
  - unfold parse_indentations in Hparse. destruct (parse_loop_facts lines (MkPState indent None []) 0 ls ltac:(by intros j ?%elem_of_nil) Hparse) as [Hlen Hls].
    split; [done|]. split.
    { intros i l Hi. destruct (Hls i l Hi) as (lv & s & p & -> & Hp). done. }
    destruct (text_rows _ _ g root ls 0 h2 [] Hb2) as (h3 & Heq3 & Hb3); [by intros ? ?%elem_of_nil|done|].
    assert (from_indented_text d root lines indent h = (h3, Ok g)) as Heq.
    { unfold from_indented_text. rewrite (sbind_step _ _ _ _ _ Heq1), (sbind_step _ _ _ _ _ Heq2), (sread_Ok _ _ _ _ Hparse).
      by rewrite (sbind_step _ _ _ _ _ Heq3). }
    exists h3. split; [exact Heq|]. destruct Hb3 as (_ & Hs & Hw & Hf). rewrite <-Hlen. split_and!; try done.
    pose proof (makes_extends h (CFromText d root lines indent) W I eq_refl) as He. simpl in He. by rewrite Heq in He.
  - unfold from_indented_text. rewrite (sbind_step _ _ _ _ _ Heq1), (sbind_step _ _ _ _ _ Heq2). by rewrite (sread_Err _ _ _ _ Hparse).
Qed.

Lemma text_after d root lines indent h h' g : reachable h → from_indented_text d root lines indent h = (h', Ok g) → reachable h'.
Proof. intros Hr Heq. assert (h' = after (CFromText d root lines indent) h) as -> by (simpl; by rewrite Heq). by apply reach_call. Qed.
Lemma text_success d root lines indent h h' g : reachable h → from_indented_text d root lines indent h = (h', Ok g) →
  ∃ ls, parse_indentations lines indent = Ok ls ∧ length ls = length lines ∧
      (∀ i l, ls !! i = Some l → l.1.1.1 = i ∧ ∀ j, l.2 = Some j → j < i) ∧
      shows h' g (text_nodes root (length lines)) (text_edges ls).
Proof.
  intros Hr Heq. pose proof (C30_from_text_proof h d root lines indent Hr) as Hc.
  destruct (parse_indentations lines indent) as [ls|x]; [|rewrite Heq in Hc; done].
  destruct Hc as (Hlen & Hls & h1 & Heq1 & Hs & _). rewrite Heq in Heq1. injection Heq1 as -> ->. by exists ls.
Qed.
Lemma text_edge_elem ls w : (∀ i l, ls !! i = Some l → l.1.1.1 = i ∧ ∀ j, l.2 = Some j → j < i) → w ∈ text_edges ls →
  ∃ i p, w = line_edge i p ∧ i < length ls ∧ ∀ j, p = Some j → j < i.
Proof.
  intros Hls (l & -> & [i Hi]%elem_of_list_lookup)%elem_of_list_fmap. destruct (Hls i l Hi) as [Hl Hp].
  exists i, l.2. rewrite Hl. split; [done|]. split; [by eapply lookup_lt_Some|done].
Qed.

(** C30.  Hence the graph is a tree with root 'root': nothing goes into the root,
    exactly one edge into every other node, every node is reachable from the root,
    and there is no cycle. *)
Lemma C30_tree_proof : ∀ h d root lines indent h' g, reachable h →
  from_indented_text d root lines indent h = (h', Ok g) →
  (∀ r, in_graph h' g r ↔ named h' g (NStr "root") r ∨ ∃ i, i < length lines ∧ named h' g (line_name i) r) ∧
  (∀ i, i < length lines → ∃ r, named h' g (line_name i) r) ∧
  ∃ r0, named h' g (NStr "root") r0 ∧
    (∀ e s, ¬ joins h' g e s r0) ∧
    (∀ r, in_graph h' g r → r ≠ r0 → ∃ e s, joins h' g e s r ∧ ∀ e' s', joins h' g e' s' r → e' = e ∧ s' = s) ∧
    (∀ r, in_graph h' g r → path0 h' g r0 r) ∧
    acyclic h' g.
Proof.
  intros h d root lines indent h' g Hr Heq. pose proof (reachable_WF _ (text_after _ _ _ _ _ _ _ Hr Heq)) as W.
  destruct (text_success _ _ _ _ _ _ _ Hr Heq) as (ls & _ & Hlen & Hls & Hs).
  pose proof (text_names root (length lines)) as Hnames.
  assert (Hname : ∀ k, (∃ r, named h' g k r) ↔ k = NStr "root" ∨ ∃ i, i < length lines ∧ k = line_name i).
  { intros k. rewrite <-(shows_named h' g _ _ k Hs), Hnames, elem_of_cons, elem_of_list_fmap.
    split; (intros [?|(i & ? & Hi)]; [by left|right; exists i]).
    - split; [apply elem_of_seq in Hi; lia|done].
    - split; [done|apply elem_of_seq; lia]. }
  assert (Hto : ∀ i r, i < length lines → named h' g (line_name i) r → ∃ e s p, joins h' g e s r ∧
     named h' g (match p with Some j => line_name j | None => NStr "root" end) s ∧ (∀ j, p = Some j → j < i)).
  { intros i r Hi Hri. destruct (lookup_lt_is_Some_2 ls i) as [l Hl]; [lia|]. destruct (Hls i l Hl) as [Hli Hp].
    assert (line_edge i l.2 ∈ text_edges ls) as Hin.
    { apply elem_of_list_fmap. exists l. split; [by rewrite Hli|by eapply elem_of_list_lookup_2]. }
    destruct (shows_edge _ _ _ _ _ Hs Hin) as (e & E & s & t & HE & Hj & Hn1 & Hn2 & _). cbn in Hn1, Hn2.
    assert (t = r) as -> by (eapply named_inj; eauto). by exists e, s, l.2. }
  assert (Hin : ∀ r, in_graph h' g r ↔ named h' g (NStr "root") r ∨ ∃ i, i < length lines ∧ named h' g (line_name i) r).
  { intros r. split.
    - intros (G & k & HG & Hk). destruct (proj1 (Hname k)) as [->|(i & Hi & ->)]; [by exists r, G|left; by exists G|right; exists i; split; [done|by exists G]].
    - intros [(G & ? & ?)|(i & _ & G & ? & ?)]; by eexists G, _. }
  split; [exact Hin|]. split; [intros i Hi; apply Hname; right; eauto|].
  destruct (proj2 (Hname (NStr "root"))) as [r0 Hr0]; [by left|]. exists r0. split; [done|]. split; [|split; [|split]].
  - intros e s Hj. destruct (shows_joins _ _ _ _ _ _ _ W Hs Hj) as (w & Hw & _ & Hw2).
    destruct (text_edge_elem ls w Hls Hw) as (i & p & -> & _). cbn in Hw2. apply (line_name_root i). eapply named_name; eauto.
  - intros r [Hrr|(i & Hi & Hri)]%Hin Hne; [destruct Hne; eapply named_inj; eauto|].
    destruct (Hto i r Hi Hri) as (e & s & p & Hj & _). exists e, s. split; [done|]. intros e' s' Hj'.
    destruct (shows_node _ _ _ _ _ _ W Hs Hri) as (v & Hv & Hvn & N & HN & HgN & Hid & _ & _ & _ & _ & _ & _ & _ & Hnin).
    assert (∃ w0, filter (λ w, w_to w = v_name v) (text_edges ls) = [w0]) as [w0 Hw0].
    { rewrite Hvn. destruct (lookup_lt_is_Some_2 ls i) as [l Hl]; [lia|]. exists (line_edge i l.2).
      rewrite <-(take_drop_middle _ _ _ Hl). unfold text_edges. rewrite fmap_app, filter_app, fmap_cons, filter_cons.
      destruct (Hls i l Hl) as [Hli _]. rewrite Hli, decide_True by done.
      rewrite !filter_none; [done|..].
      - intros w (l' & -> & [k Hk]%elem_of_list_lookup)%elem_of_list_fmap. rewrite lookup_drop in Hk. destruct (Hls _ _ Hk) as [Hlk _].
        rewrite Hlk. intros ?%line_name_inj. lia.
      - intros w (l' & -> & [k Hk]%elem_of_list_lookup)%elem_of_list_fmap. apply lookup_take_Some in Hk as [Hk ?]. destruct (Hls _ _ Hk) as [Hlk _].
        rewrite Hlk. intros ?%line_name_inj. lia. }
    rewrite Hw0 in Hnin. inversion Hnin as [|ie ? ? ? _ Hnil]; subst. inversion Hnil; subst.
    assert (Hone : ∀ e1 s1, joins h' g e1 s1 r → e1 = ie.2).
    { intros e1 s1 (E1 & HE1 & HgE1 & Hs1 & Ht1). destruct (get_edge_id_live h' e1 E1 g W HE1 HgE1) as (s2 & t2 & Ns & Nt & u & Hs2 & Ht2 & HNs & HNt & _ & _ & _ & _ & _ & Hi2).
      assert (t2 = r) as -> by congruence. assert (Nt = N) as -> by congruence.
      match goal with Heq : [ie] = n_in N |- _ => rewrite <-Heq in Hi2 end. apply elem_of_list_singleton in Hi2. by rewrite <-Hi2. }
    assert (e' = e) as -> by (by rewrite (Hone _ _ Hj), (Hone _ _ Hj')). split; [done|].
    destruct Hj as (E1 & ? & _ & ? & _). destruct Hj' as (E2 & ? & _ & ? & _). congruence.
  - intros r [Hrr|(i & Hi & Hri)]%Hin; [assert (r = r0) as -> by (eapply named_inj; eauto); apply rtc_refl|].
    revert r Hi Hri. induction i as [i IH] using lt_wf_ind. intros r Hi Hri.
    destruct (Hto i r Hi Hri) as (e & s & p & Hj & Hsn & Hp).
    eapply rtc_r; [|exists e; exact Hj]. destruct p as [j|].
    + specialize (Hp j eq_refl). apply (IH j Hp); [lia|done].
    + assert (s = r0) as -> by (eapply named_inj; eauto). apply rtc_refl.
  - destruct (rank_exists (Z.of_nat <$> seq 0 (length lines))) as [rank Hrank].
    assert (Hrk : ∀ i, i < length lines → rank (line_name i) = Z.of_nat i).
    { intros i Hi. apply Hrank, elem_of_list_fmap. exists i. split; [done|]. apply elem_of_seq. lia. }
    apply (shows_acyclic _ _ _ _ (λ k, if decide (k = NStr "root") then (-1)%Z else rank k) W Hs).
    intros w Hw. destruct (text_edge_elem ls w Hls Hw) as (i & p & -> & Hi & Hp). cbn.
    rewrite (decide_False (P := line_name i = _)) by apply line_name_root. rewrite Hrk by lia. destruct p as [j|].
    + specialize (Hp j eq_refl). rewrite decide_False by apply line_name_root. rewrite Hrk by lia. lia.
    + rewrite decide_True by done. lia.
Qed.
Lemma imap_indexed {A C D} (f : nat → C → D) (u : A → C) (ix : A → nat) (ls : list A) : (∀ i l, ls !! i = Some l → ix l = i) →
  imap f (u <$> ls) = (λ l, f (ix l) (u l)) <$> ls.
Proof.
  intros Hix. apply list_eq. intros i. rewrite list_lookup_imap, !list_lookup_fmap. destruct (ls !! i) as [l|] eqn:Hl; [|done]. cbn.
  by rewrite (Hix i l Hl).
Qed.
(** C30.  Hence for a printed outline the edges are those from each line's parent
    line, and from 'root' to the lines of level 0. *)
Lemma C30_outline_proof : ∀ h d root u o lines indent, reachable h → u ≠ "" →
  (indent = Some u ∨ indent = None ∧ ∀ c, has_char c u → space_or_tab c) →
  outline o → Forall (λ lc, text_line u lc.2) o → Forall2 (printed u) o lines →
  ∃ h' g ps, from_indented_text d root lines indent h = (h', Ok g) ∧ length ps = length o ∧
    (∀ i p, ps !! i = Some p → parent_line o i p) ∧
    shows h' g (plain_node "root" (PStr root) :: (line_node <$> seq 0 (length o))) (imap line_edge ps).
Proof.
  intros h d root u o lines indent Hr Hu Hind Ho Ht Hp.
  destruct (C29_recovers_partial_proof u o lines indent Hu Hind Ho Ht Hp) as (ls & Hls & Hlen & Hrec).
  pose proof (C30_from_text_proof h d root lines indent Hr) as Hc. rewrite Hls in Hc.
  destruct Hc as (Hlen' & Hidx & h' & Heq & Hs & _). exists h', (length (h_graphs h)), (snd <$> ls).
  split; [done|]. split; [by rewrite fmap_length|]. split.
  - intros i p Hps. rewrite list_lookup_fmap in Hps. apply fmap_Some in Hps as (l & Hl & ->). destruct (lookup_lt_is_Some_2 o i) as [[lv tx] Hi]; [rewrite <-Hlen; by eapply lookup_lt_Some|].
    destruct (Hrec i lv tx Hi) as (c & p & Hl' & Hpar & _). assert (Some l = Some (i, lv, c, p)) as [= ->] by (by transitivity (ls !! i)). exact Hpar.
  - rewrite <-Hlen, Hlen'. assert (imap line_edge (snd <$> ls) = (λ l : pline, line_edge l.1.1.1 l.2) <$> ls) as ->; [|exact Hs].
    apply (imap_indexed line_edge (λ l : pline, l.2) (λ l : pline, l.1.1.1)). intros i l Hl. by destruct (Hidx i l Hl).
Qed.
(** Three lines, the second one below the first; and a text that is refused. *)
Lemma C30_from_text_ex_proof : reachable sample ∧
  parse_indentations ["a"; "  b"; "c"] None = Ok [(0, 0, "a", None); (1, 1, "b", Some 0); (2, 0, "c", None)] ∧
  ((λ l : pline, line_edge l.1.1.1 l.2) <$> [(0, 0, "a", None); (1, 1, "b", Some 0); (2, 0, "c", None)]) =
    [plain_edge (nm "root") (nm "0") None PNone; plain_edge (nm "0") (nm "1") None PNone; plain_edge (nm "root") (nm "2") None PNone] ∧
  (from_indented_text disp0 "text" ["a"; "  b"; "c"] None sample).2 = Ok 2 ∧
  parse_indentations ["  a"; "b"] None = Err ValueError.
Proof. split; [apply sample_reachable|]. by vm_compute. Qed.
(** C30, instance for outlines: five lines indented by tabs. *)
Lemma C30_outline_ex_proof : let u := String "009"%char "" in let o := [(0, "a"); (1, "b"); (2, "c"); (1, "d"); (0, "e")] in
  let lines := ["a"; u +:+ "b" +:+ line_end; u +:+ u +:+ "c"; u +:+ "d"; "e"] in
  reachable sample ∧ u ≠ "" ∧ (∀ c, has_char c u → space_or_tab c) ∧ outline o ∧ Forall (λ lc, text_line u lc.2) o ∧
  Forall2 (printed u) o lines ∧ (from_indented_text disp0 "text" lines None sample).2 = Ok 2.
Proof.
  cbv zeta. split; [apply sample_reachable|]. destruct C29_recovers_ex_proof as (H1 & H2 & H3 & H4 & H5 & _).
  split_and!; try done.
Qed.
