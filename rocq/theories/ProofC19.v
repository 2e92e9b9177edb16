(** Overwriting styles and colours. *)
From Verif Require Export ProofC18 SpecOver.
From Verif Require Import ProofCompl.
Local Open Scope list_scope.

Lemma omap_snoc_last {A B} (f : A → option B) l1 l2 : last (omap f (l1 ++ l2)) = match last (omap f l2) with Some x => Some x | None => last (omap f l1) end.
Proof. rewrite omap_app, last_app. done. Qed.
Lemma entry_app d1 d2 k : entry (d1 ++ d2) k = match entry d2 k with Some v => Some v | None => entry d1 k end.
Proof. apply omap_snoc_last. Qed.
Lemma some_entry_app d1 d2 k : some_entry (d1 ++ d2) k = match some_entry d2 k with Some v => Some v | None => some_entry d1 k end.
Proof. apply omap_snoc_last. Qed.
Lemma colour_set_app d1 d2 k o1 o2 o3 : colour_set d1 k o1 o2 → colour_set d2 k o2 o3 → colour_set (d1 ++ d2) k o1 o3.
Proof. unfold colour_set. rewrite some_entry_app. destruct (some_entry d2 k); [done|]. destruct (some_entry d1 k); [intros H ->; done|intros -> ->; done]. Qed.
Lemma applied_app d1 d2 s1 s2 s3 : applied d1 s1 s2 → applied d2 s2 s3 → applied (d1 ++ d2) s1 s3.
Proof.
  intros [A1 A2 A3 A4 A5 A6 A7 A8 A9] [B1 B2 B3 B4 B5 B6 B7 B8 B9]. split; try (by eapply colour_set_app); rewrite entry_app.
  - rewrite B1, A1. by destruct (entry d2 "opacity"%string).
  - rewrite B2, A2. by destruct (entry d2 "font"%string).
  - rewrite B3, A3. by destruct (entry d2 "text_size"%string).
  - rewrite B4, A4. by destruct (entry d2 "shape"%string).
  - rewrite B5, A5. by destruct (entry d2 "shape_style"%string).
  - destruct (entry d2 "colour"%string); [done|]. by rewrite B6.
Qed.
Lemma applied_nil s : applied [] s s.
Proof. by split. Qed.
Lemma entry_one k v k' : entry [(k, v)] k' = if decide (k = k') then Some v else None.
Proof. unfold entry. cbn. by destruct (decide (k = k')). Qed.
Lemma some_entry_one k v k' : some_entry [(k, v)] k' = if decide (k = k') then match v with PNone => None | v => Some v end else None.
Proof. unfold some_entry. cbn. destruct (decide (k = k')); [|done]. by destruct v. Qed.
Lemma applied_one s kv s' : coloured s → ns_complement1 s kv = Ok s' → applied [kv] s s'.
Proof.
  destruct kv as [k v]. intros ([f Hf] & [b Hb] & [t Ht]). unfold ns_complement1.
  assert (Hset : ∀ K (o o' : option colour), (k ≠ K ∨ v = PNone → o' = o) → (k = K → v ≠ PNone → ∃ c, to_colour v = Ok c ∧ o' = Some c) → colour_set [(k, v)] K o o').
  { intros K o o' H1 H2. unfold colour_set. rewrite some_entry_one. destruct (decide (k = K)) as [->|]; [|by apply H1; left]. destruct v; try (by apply H1; right); by apply H2. }
  unfold eqb. case_bool_decide as H1; [subst k|].
  { unfold ns_set_colour. destruct (to_colour v) as [c|] eqn:Hv; [|done]. cbn [rbind]. intros [= <-]. destruct s; cbn in *; subst. split; rewrite ?entry_one; try done; apply Hset; done. }
  case_bool_decide as H2; [subst k|].
  { unfold ns_set_fill. intros Hs. split; rewrite ?entry_one; try (apply Hset); try (intros [=]); destruct v; cbn in Hs; simplify_eq; try done; intros; eauto; destruct H as [|]; done. }
  case_bool_decide as H3; [subst k|].
  { unfold ns_set_border. intros Hs. split; rewrite ?entry_one; try (apply Hset); try (intros [=]); destruct v; cbn in Hs; simplify_eq; try done; intros; eauto; destruct H as [|]; done. }
  case_bool_decide as H4; [subst k|].
  { unfold ns_set_text. intros Hs. split; rewrite ?entry_one; try (apply Hset); try (intros [=]); destruct v; cbn in Hs; simplify_eq; try done; intros; eauto; destruct H as [|]; done. }
  case_bool_decide as H5; [done|]. destruct (underscored k) eqn:Hu; [by destruct (dmem _ _)|].
  assert (Hkeep : ∀ s', ns_colour s' = ns_colour s → ns_fill s' = ns_fill s → ns_border s' = ns_border s → ns_text s' = ns_text s →
     ns_opacity s' = (if decide (k = "opacity"%string) then v else ns_opacity s) → ns_font s' = (if decide (k = "font"%string) then v else ns_font s) →
     ns_text_size s' = (if decide (k = "text_size"%string) then v else ns_text_size s) → ns_shape s' = (if decide (k = "shape"%string) then v else ns_shape s) →
     ns_shape_style s' = (if decide (k = "shape_style"%string) then v else ns_shape_style s) → applied [(k, v)] s s').
  { intros s0 K1 K2 K3 K4 K5 K6 K7 K8 K9. split; rewrite ?entry_one.
    - rewrite K5. by destruct (decide (k = "opacity"%string)).
    - rewrite K6. by destruct (decide (k = "font"%string)).
    - rewrite K7. by destruct (decide (k = "text_size"%string)).
    - rewrite K8. by destruct (decide (k = "shape"%string)).
    - rewrite K9. by destruct (decide (k = "shape_style"%string)).
    - by rewrite decide_False.
    - apply Hset; done.
    - apply Hset; done.
    - apply Hset; done. }
  repeat (case_bool_decide; [subst k; intros [= <-]; by apply Hkeep|]). intros [= <-]. by apply Hkeep; rewrite ?decide_False.
Qed.
Lemma complement_applied d s s' : coloured s → ns_complement d s = Ok s' → applied d s s'.
Proof.
  revert s. induction d as [|kv d IH]; intros s Hc; [intros [= <-]; apply applied_nil|]. unfold ns_complement. cbn [rfold].
  destruct (ns_complement1 s kv) as [s1|] eqn:H1; [|done]. cbn [rbind]. intros H2. apply (applied_app [kv] d s s1 s'); [by apply applied_one|].
  apply IH; [by eapply complement1_coloured|done].
Qed.

Definition override_node (g : gref) (kv : name * sdict) : M unit :=
  let* G := sread (λ h, get_g h g) in
  let* r := sread (λ _, dgetR (g_nodes G) kv.1) in
  node_complement r kv.2.
Lemma stylize_nodes g sh h G D : h_graphs h !! g = Some G → g_disp G = Some D → node_styles_only D →
  stylize g sh h = (do* stylize_with_pensieve g (d_scheme D) in siter (override_node g) (d_node_styles D)) h.
Proof.
  intros HG HD ((H1 & H2 & H3) & H4 & H5 & H6). unfold stylize. rewrite (sread_Ok _ _ _ D). 2: { unfold get_display. rewrite (get_g_Ok _ _ _ HG). cbn [rbind]. by rewrite HD. }
  rewrite H1, H2, H3, H4, H5, H6. cbn [when_dict siter]. rewrite eqb_same. unfold sbind, sret. destruct (stylize_with_pensieve g (d_scheme D) h) as [h1 [[]|x]]; [|done].
  change (λ kv, _) with (override_node g). by destruct (siter (override_node g) (d_node_styles D) h1) as [h2 [[]|x]].
Qed.
Lemma override_node_run g kv h h' : override_node g kv h = (h', Ok tt) → ∃ k s s', style_ref h g kv.1 = Some k ∧ h_ns h !! k = Some s ∧ ns_complement kv.2 s = Ok s' ∧ h' = h <| h_ns := <[k := s']> (h_ns h) |>.
Proof.
  unfold override_node, style_ref, sread, sbind, get_g, dgetR, node_complement. destruct (h_graphs h !! g) as [G|]; [|done]. cbn. destruct (dget (g_nodes G) kv.1) as [r|]; [|done]. cbn.
  unfold get_n, sbind, sread. destruct (h_nodes h !! r) as [N|]; [|done]. cbn. destruct (n_style N) as [k|]; [|done].
  intros (s & s' & ? & ? & ->)%complement_ns_inv. by exists k, s, s'.
Qed.
Lemma complement_app d1 d2 s : ns_complement (d1 ++ d2) s = rbind (ns_complement d1 s) (ns_complement d2).
Proof. unfold ns_complement. revert s. induction d1 as [|kv d1 IH]; intros s; [done|]. cbn [rfold app]. destruct (ns_complement1 s kv); [|done]. apply IH. Qed.
Lemma style_ref_ns h l g n : style_ref (h <| h_ns := l |>) g n = style_ref h g n.
Proof. done. Qed.
Lemma entries_cons h g kv kvs k : entries_for h g (kv :: kvs) k = (if decide (style_ref h g kv.1 = Some k) then kv.2 else []) ++ entries_for h g kvs k.
Proof. done. Qed.
Lemma overrides_run g kvs h h' : siter (override_node g) kvs h = (h', Ok tt) → h' = h <| h_ns := h_ns h' |> ∧ length (h_ns h') = length (h_ns h) ∧
  ∀ k s, h_ns h !! k = Some s → ∃ s', h_ns h' !! k = Some s' ∧ ns_complement (entries_for h g kvs k) s = Ok s'.
Proof.
  revert h. induction kvs as [|kv kvs IH]; intros h; cbn [siter].
  - intros [= <-]. split_and!; [by destruct h|done|]. intros k s Hs. by exists s.
  - intros (h1 & [] & H1 & H2)%sbind_Ok. destruct (override_node_run _ _ _ _ H1) as (k0 & s0 & s0' & Hk0 & Hs0 & Hc0 & ->).
    destruct (IH _ H2) as (E & L & HF). split_and!.
    + rewrite E. by destruct h.
    + rewrite L. cbn. by rewrite insert_length.
    + intros k s Hs. rewrite entries_cons, complement_app. destruct (decide (k = k0)) as [->|Hne].
      * assert (s0 = s) as -> by congruence. rewrite decide_True by done. rewrite Hc0. cbn [rbind]. apply HF. cbn. rewrite list_lookup_insert; [done|]. by eapply lookup_lt_Some.
      * rewrite decide_False by congruence. cbn [ns_complement rfold rbind]. apply HF. cbn. by rewrite list_lookup_insert_ne.
Qed.

(** C68.  With overwrites only for single nodes (node_styles), a successful call of
    stylize does what the default stylist does, and then changes nothing but style
    objects: each of them by exactly the entries given for the nodes that have it. *)
Lemma C68_exact_partial_proof : ∀ h g G D sh h', h_graphs h !! g = Some G → g_disp G = Some D → node_styles_only D → stylize g sh h = (h', Ok tt) →
  ∃ h1, stylize_with_pensieve g (d_scheme D) h = (h1, Ok tt) ∧ h' = h1 <| h_ns := h_ns h' |> ∧ length (h_ns h') = length (h_ns h1) ∧
  ∀ k s, h_ns h1 !! k = Some s → ∃ s', h_ns h' !! k = Some s' ∧ ns_complement (entries_for h1 g (d_node_styles D) k) s = Ok s'.
Proof.
  intros h g G D sh h' HG HD Hd. rewrite (stylize_nodes g sh h G D) by done. intros (h1 & [] & H1 & H2)%sbind_Ok. exists h1. split; [done|]. by apply overrides_run.
Qed.

Lemma pensieve_post h g G scheme h' : WF h → h_graphs h !! g = Some G → stylize_with_pensieve g scheme h = (h', Ok tt) → styling_effect g G scheme h h'.
Proof.
  intros W HG. rewrite pensieve_split. intros (h2 & [] & H1 & H2)%sbind_Ok.
  destruct (nodes_phase h g G (colours_used0 scheme) h2) as (rs & used & cl & Hsub & Hrs & Hp & HF & S & E1 & E2 & Hst); [done..|].
  destruct (edge_phase h g G h2) as [Hok Hfail]; [done..|].
  assert (Hin : ∀ e, e ∈ all_edges h G → ∃ x y, joins h g e x y) by (intros e; by apply elem_of_all_edges).
  destruct (list_decide (later_good h g) (unstyled_edges h (all_edges h G))) as [Hgood|Hbad].
  { intros e He. apply later_decide; [done|]. apply Hin. by eapply elem_of_unstyled. }
  2: { destruct (Hfail Hbad) as (? & ? & ? & _). congruence. }
  destruct (Hok Hgood) as (h3 & Hr & S2 & Hn1 & Hn2 & Hes & Har). assert (h3 = h') as -> by congruence. split; try done.
  - by eapply sa_trans.
  - intros r Hr'. rewrite <-Hst by done. unfold node_styled. by rewrite Hn1.
  - exists rs, used, cl. split_and!; try done. eapply Forall2_impl; [done|]. intros r c (s & ? & ?). exists s. split; [done|]. by eapply sa_style_of.
Qed.
Lemma sa_unshared g h h' : styles_added g h h' → unshared h → unshared h'.
Proof.
  intros S Hu r1 r2 N1 N2 k H1 H2 Hk1 Hk2. destruct (decide (length (h_ns h) ≤ k)) as [Hle|Hlt]; [by eapply (sa_node_inj _ _ _ S)|].
  destruct (sa_node_bwd _ _ _ _ _ S H1) as (M1 & HM1 & _ & [F1|(_ & _ & k' & ? & ?)]); [|assert (k' = k) by congruence; lia].
  destruct (sa_node_bwd _ _ _ _ _ S H2) as (M2 & HM2 & _ & [F2|(_ & _ & k' & ? & ?)]); [|assert (k' = k) by congruence; lia].
  apply (Hu r1 r2 M1 M2 k); congruence.
Qed.
Lemma style_ref_named h g n r N : WF h → named h g n r → h_nodes h !! r = Some N → style_ref h g n = n_style N.
Proof.
  intros W (G & HG & Hin) HN. unfold style_ref. rewrite HG. cbn. rewrite (dget_in_Some _ n r) by (done || by eapply wf_gkeys). cbn. by rewrite HN.
Qed.
Lemma overrides_ref g kvs h h' : siter (override_node g) kvs h = (h', Ok tt) → ∀ n d, (n, d) ∈ kvs → is_Some (style_ref h g n).
Proof.
  revert h. induction kvs as [|kv kvs IH]; intros h; cbn [siter]; [by intros _ n d Hn%elem_of_nil|]. intros (h1 & [] & H1 & H2)%sbind_Ok n d Hn.
  destruct (override_node_run _ _ _ _ H1) as (k0 & s0 & s0' & Hk0 & Hs0 & Hc0 & ->). apply elem_of_cons in Hn as [<-|Hn]; [eauto|].
  apply (IH _ H2 n d Hn).
Qed.
Lemma entries_single h g kvs k n d : NoDup kvs.*1 → (n, d) ∈ kvs → style_ref h g n = Some k → (∀ n', style_ref h g n' = Some k → n' = n) → entries_for h g kvs k = d.
Proof.
  intros Hnd Hin Hk Hu. induction kvs as [|[n0 d0] kvs IH]; [by apply elem_of_nil in Hin|]. rewrite entries_cons. cbn [fst snd]. cbn in Hnd. apply NoDup_cons in Hnd as [Hni Hnd].
  assert (Hrest : n ∉ kvs.*1 → entries_for h g kvs k = []).
  { clear - Hu. induction kvs as [|[n1 d1] kvs IH]; [done|]. intros Hn. rewrite entries_cons. cbn [fst snd]. cbn in Hn. apply not_elem_of_cons in Hn as [Hn1 Hn2]. rewrite decide_False by (intros ?%Hu; congruence). by rewrite IH. }
  apply elem_of_cons in Hin as [[= <- <-]|Hin].
  - rewrite decide_True by done. rewrite Hrest by done. apply app_nil_r.
  - rewrite decide_False; [by apply IH|]. intros ->%Hu. destruct Hni. apply elem_of_list_fmap. by exists (n, d).
Qed.
Lemma entries_none h g kvs k : (∀ n d, (n, d) ∈ kvs → style_ref h g n ≠ Some k) → entries_for h g kvs k = [].
Proof. induction kvs as [|[n d] kvs IH]; intros H; [done|]. rewrite entries_cons. cbn [fst snd]. rewrite decide_False by (eapply H; left). apply IH. intros. eapply H. by right. Qed.
Lemma style_ref_node h g n k : style_ref h g n = Some k → ∃ r N, named h g n r ∧ h_nodes h !! r = Some N ∧ n_style N = Some k.
Proof.
  unfold style_ref. intros (G & HG & (r & Hr & (N & HN & Hk)%bind_Some)%bind_Some)%bind_Some. exists r, N. split_and!; [|done|done]. exists G. split; [done|]. by apply dget_Some_in.
Qed.
(** C68.  If no two nodes share a style object, then afterwards each node with an
    overwrite has the style that the stylist gave it, or that it had, with the entries
    of its overwrite; and every other node and every edge has the same style as without
    overwrites.  Missing: shared style objects (C68_shared_refuted), and that the entry
    'colour' shows (C68_colour_refuted). *)
Lemma C68_shows_partial_proof : ∀ h g G D sh h', reachable h → h_graphs h !! g = Some G → g_disp G = Some D → node_styles_only D → NoDup (d_node_styles D).*1 → unshared h →
  stylize g sh h = (h', Ok tt) → ∃ h1, stylize_with_pensieve g (d_scheme D) h = (h1, Ok tt) ∧
  (∀ n d r, (n, d) ∈ d_node_styles D → named h g n r → ∃ s s', style_of h1 r s ∧ style_of h' r s' ∧ applied d s s') ∧
  (∀ r s, (∀ n d, (n, d) ∈ d_node_styles D → ¬ named h g n r) → style_of h1 r s → style_of h' r s) ∧
  (∀ e s, edge_style_of h1 e s → edge_style_of h' e s).
Proof.
  intros h g G D sh h' Hr HG HD Hd Hnd Hu Hrun. pose proof (reachable_WF h Hr) as W. rewrite (stylize_nodes g sh h G D) in Hrun by done. apply sbind_Ok in Hrun as (h1 & [] & H1 & H2).
  exists h1. split; [done|]. destruct (pensieve_post h g G (d_scheme D) h1) as [S _ _ _ _ _]; [done..|]. pose proof (sa_WF _ _ _ S W) as W1. pose proof (sa_unshared _ _ _ S Hu) as Hu1.
  destruct (overrides_run _ _ _ _ H2) as (E & L & HF). pose proof (overrides_ref _ _ _ _ H2) as Href.
  assert (HC : CI h1). { pose proof (CI_pensieve g (d_scheme D) h (reachable_CI h Hr)) as HI. by rewrite H1 in HI. }
  assert (Hnm : ∀ n r, named h1 g n r ↔ named h g n r) by (intros n r; unfold named; by rewrite (sa_graphs _ _ _ S)).
  split_and!.
  - intros n d r Hin Hn. destruct (Href n d Hin) as [k Hk]. destruct (style_ref_node _ _ _ _ Hk) as (r' & N & Hn' & HN & HNk).
    assert (r' = r) as -> by (apply (named_inj h1 g n r' r W1 Hn'); by apply Hnm).
    destruct (lookup_lt_is_Some_2 (h_ns h1) k) as [s Hs]; [by eapply wf_nstyle|]. destruct (HF k s Hs) as (s' & Hs' & Hc).
    rewrite (entries_single h1 g _ k n d) in Hc; [|done|done|done|].
    2: { intros n' Hk'. destruct (style_ref_node _ _ _ _ Hk') as (r2 & N2 & Hn2 & HN2 & HNk2). assert (r2 = r) as -> by (by apply (Hu1 r2 r N2 N k)).
         destruct (con_member _ (WF_consistent h1 W1) _ _ _ Hn2) as (N3 & HN3 & <- & _). destruct (con_member _ (WF_consistent h1 W1) _ _ _ Hn') as (N4 & HN4 & <- & _). congruence. }
    exists s, s'. split; [by exists N, k|]. split; [exists N, k; rewrite E; done|]. apply complement_applied; [|done]. by eapply (style_coloured h1 r); [|exists N, k].
  - intros r s Hno (N & k & HN & Hk & Hs). destruct (HF k s Hs) as (s' & Hs' & Hc). rewrite entries_none in Hc.
    + injection Hc as ->. exists N, k. rewrite E. done.
    + intros n d Hin Hk'. destruct (style_ref_node _ _ _ _ Hk') as (r2 & N2 & Hn2 & HN2 & HNk2). assert (r2 = r) as -> by (by apply (Hu1 r2 r N2 N k)). by apply (Hno n d Hin), Hnm.
  - intros e s He. rewrite E. done.
Qed.
Lemma colour_only d s s' : coloured s → (∀ k v, (k, v) ∈ d → k = "colour"%string) → ns_complement d s = Ok s' → s' = s <| ns_colour := ns_colour s' |>.
Proof.
  revert s. induction d as [|[k v] d IH]; intros s Hc Hd; [intros [= <-]; by destruct s|]. unfold ns_complement. cbn [rfold]. assert (k = "colour"%string) as -> by (eapply Hd; left).
  cbn [ns_complement1]. rewrite eqb_same. unfold ns_set_colour. destruct (to_colour v) as [c|]; [|done]. cbn [rbind]. intros H.
  assert (ns_put_colour c s = s <| ns_colour := c |>) as Hp. { destruct Hc as ([? E1] & [? E2] & [? E3]). destruct s; cbn in *; subst. done. }
  rewrite Hp in H. apply IH in H; [|by destruct s|intros ? ? ?; eapply Hd; by right]. rewrite H. by destruct s.
Qed.
(** C68.  Overwrites that have only the entry 'colour' never show in the DOT text of any
    node. *)
Lemma C68_colour_partial_proof : ∀ h g G D sh h', reachable h → h_graphs h !! g = Some G → g_disp G = Some D → node_styles_only D →
  (∀ n d k v, (n, d) ∈ d_node_styles D → (k, v) ∈ d → k = "colour"%string) → stylize g sh h = (h', Ok tt) →
  ∃ h1, stylize_with_pensieve g (d_scheme D) h = (h1, Ok tt) ∧ ∀ env r, node_graphviz env h' r = node_graphviz env h1 r.
Proof.
  intros h g G D sh h' Hr HG HD Hd Hcol Hrun. destruct (C68_exact_partial_proof h g G D sh h') as (h1 & H1 & E & L & HF); [done..|]. exists h1. split; [done|]. intros env r.
  assert (HC : CI h1). { pose proof (CI_pensieve g (d_scheme D) h (reachable_CI h Hr)) as HI. by rewrite H1 in HI. }
  assert (Hs : ∀ k s, h_ns h1 !! k = Some s → ∃ c, h_ns h' !! k = Some (s <| ns_colour := c |>)).
  { intros k s Hs. destruct (HF k s Hs) as (s2 & Hs2 & Hc). exists (ns_colour s2). rewrite Hs2. f_equal. eapply colour_only; [|..|exact Hc].
    - destruct HC as [HC _]. rewrite Forall_forall in HC. apply HC. by eapply elem_of_list_lookup_2.
    - intros k' v (nd & Hin & Hnd)%elem_of_list_bind. destruct nd as [n d]. cbn in Hin. destruct (decide _); [|by apply elem_of_nil in Hin]. by eapply Hcol. }
  assert (Hsty : ∀ k, h_ns h1 !! k = None → h_ns h' !! k = None). { intros k. rewrite !lookup_ge_None, L. done. }
  revert E Hs Hsty. generalize (h_ns h'). intros l -> Hs Hsty. unfold node_graphviz.
  change (node_display_label env (h1 <| h_ns := l |>) r) with (node_display_label env h1 r). change (get_n (h1 <| h_ns := l |>) r) with (get_n h1 r).
  destruct (node_display_label env h1 r) as [lab|]; [|done]. cbn [rbind]. destruct (get_n h1 r) as [N|] eqn:HN; [|done]. cbn [rbind]. destruct (n_style N) as [k|] eqn:Hk; [|done].
  unfold node_style. change (get_n (h1 <| h_ns := l |>) r) with (get_n h1 r). rewrite HN. cbn [rbind]. rewrite Hk. cbn [h_ns set]. destruct (h_ns h1 !! k) as [s|] eqn:Hsk.
  - destruct (Hs k s Hsk) as [c Hc]. cbn. rewrite Hc. reflexivity.
  - cbn. rewrite (Hsty k Hsk). reflexivity.
Qed.
(** A representation for append with nodes, edges and overwrites, and programs that
    use it. *)
Definition over_repr (ns : list name) (es : list (name * name)) (styles : dict name sdict) (colours : dict name pv) (ecolours : dict ekey pv) : grepr :=
  MkRepr None None None None None None None None None None None (inr ns) ((λ p, E2 p.1 p.2) <$> es) (Some styles) None (Some colours) (Some ecolours).
Lemma over_exists h g ns es st co ec : allowed h (CAppend g (ODict (over_repr ns es st co ec))).
Proof. split; [done|]. cbn. intros p c a (x & ? & _)%elem_of_list_fmap. done. Qed.
Ltac reach_over := apply run_reachable; [exact reach_start|]; cbn [all_allowed]; repeat (split; [match goal with |- allowed _ (CAppend _ _) => apply over_exists | _ => by vm_compute; repeat split end|]); exact I.
(** C68 refuted: a -> b, appended with node_styles making a green.  The colour of the
    style of a is green afterwards, but its DOT text is as before, in every environment. *)
Lemma C68_colour_refuted_proof : ∃ h G D h1 h' s, reachable h ∧ h_graphs h !! 0 = Some G ∧ g_disp G = Some D ∧ node_styles_only D ∧
  d_node_styles D = [(nm "a", [("colour"%string, PStr "green")])] ∧ stylize_with_pensieve 0 (d_scheme D) h = (h1, Ok tt) ∧ stylize 0 id h = (h', Ok tt) ∧ named h 0 (nm "a") 0 ∧
  style_of h' 0 s ∧ ns_colour s = CName "green" ∧ ns_fill s = Some (CLighten (CName "red") (1 # 2)) ∧ ∀ env, node_graphviz env h' 0 = node_graphviz env h1 0.
Proof.
  eexists (run [CNew false true disp0; CAppend 0 (ODict (over_repr [nm "a"; nm "b"] [(nm "a", nm "b")] [(nm "a", [("colour"%string, PStr "green")])] [] []))] empty_heap), _, _, _, _, _.
  split; [reach_over|]. split; [vm_compute; reflexivity|]. split; [vm_compute; reflexivity|]. split; [by repeat split|]. split; [vm_compute; reflexivity|]. split; [vm_compute; reflexivity|].
  split; [vm_compute; reflexivity|]. split; [eexists; split; [vm_compute; reflexivity|]; left|]. split; [style_read|]. split; [reflexivity|]. split; [reflexivity|]. intros env. vm_compute. reflexivity.
Qed.
(** C68 refuted: a and b were given the same NodeStyle object; the shape for a alone
    changes b, too. *)
Lemma C68_shared_refuted_proof : ∃ h G D h1 h' s1 s', reachable h ∧ h_graphs h !! 0 = Some G ∧ g_disp G = Some D ∧ node_styles_only D ∧
  d_node_styles D = [(nm "a", [("shape"%string, PStr "circle")])] ∧ stylize_with_pensieve 0 (d_scheme D) h = (h1, Ok tt) ∧ stylize 0 id h = (h', Ok tt) ∧ named h 0 (nm "b") 1 ∧
  style_of h1 1 s1 ∧ style_of h' 1 s' ∧ ns_shape s1 = PStr "box" ∧ ns_shape s' = PStr "circle".
Proof.
  eexists (run [CNew false true disp0; CAddNode 0 (an "a") (nargs0 <| a_style := SDict [] |>); CAddNode 0 (an "b") (nargs0 <| a_style := SObj 0 |>);
    CAppend 0 (ODict (over_repr [] [] [(nm "a", [("shape"%string, PStr "circle")])] [] []))] empty_heap), _, _, _, _, _, _.
  split; [reach_over|]. split; [vm_compute; reflexivity|]. split; [vm_compute; reflexivity|]. split; [by repeat split|]. split; [vm_compute; reflexivity|]. split; [vm_compute; reflexivity|].
  split; [vm_compute; reflexivity|]. split; [eexists; split; [vm_compute; reflexivity|]; right; left|]. split; [style_read|]. split; [style_read|]. split; reflexivity.
Qed.
(** Node a of a -> b becomes a circle with a white border: the hypotheses of
    C68_shows_partial hold. *)
Lemma C68_shows_ex_proof : ∃ h G D h' s, reachable h ∧ h_graphs h !! 0 = Some G ∧ g_disp G = Some D ∧ node_styles_only D ∧ NoDup (d_node_styles D).*1 ∧ unshared h ∧
  d_node_styles D = [(nm "a", [("shape"%string, PStr "circle"); ("border_colour"%string, PStr "white")])] ∧ stylize 0 id h = (h', Ok tt) ∧ named h 0 (nm "a") 0 ∧
  style_of h' 0 s ∧ ns_shape s = PStr "circle" ∧ ns_border s = Some (CName "white").
Proof.
  eexists (run [CNew false true disp0; CAppend 0 (ODict (over_repr [nm "a"; nm "b"] [(nm "a", nm "b")] [(nm "a", [("shape"%string, PStr "circle"); ("border_colour"%string, PStr "white")])] [] []))] empty_heap), _, _, _, _.
  split; [reach_over|]. split; [vm_compute; reflexivity|]. split; [vm_compute; reflexivity|]. split; [by repeat split|]. split; [dec|].
  split. { intros r1 r2 N1 N2 k H1 H2 Hk. destruct r1 as [|[|]]; vm_compute in H1; [injection H1 as <-; done..|done]. }
  split; [vm_compute; reflexivity|]. split; [vm_compute; reflexivity|]. split; [eexists; split; [vm_compute; reflexivity|]; left|]. split; [style_read|]. split; reflexivity.
Qed.
