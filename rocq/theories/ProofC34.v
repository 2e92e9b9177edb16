(** When styling with overwrites succeeds: C68, C69.  Rendering: C55. *)
From Verif Require Export SpecAssign ProofC31 ProofC17.
From Verif Require Import ProofCompl.
Local Open Scope string_scope.
Local Open Scope list_scope.

Lemma siter_total {A} (I : heap → Prop) (f : A → M unit) l : (∀ x h, x ∈ l → I h → ∃ h', f x h = (h', Ok tt) ∧ I h') → 
  ∀ h, I h → ∃ h', siter f l h = (h', Ok tt) ∧ I h'.
Proof.
  induction l as [|x l IH]; intros H h Hi; [by exists h|]. destruct (H x h) as (h1 & H1 & Hi1); [left|done|].
  destruct (IH (λ y h' Hy, H y h' ltac:(by right)) h1 Hi1) as (h2 & H2 & Hi2). exists h2. split; [|done].
  cbn [siter]. unfold sbind. by rewrite H1.
Qed.
Lemma colour_like_ok v : colour_like v → ∃ c, to_colour v = Ok c.
Proof. intros [(s & ->)|(c & ->)]; by eexists. Qed.

Lemma complement1_ok s k v : style_entry k v → ∃ s', ns_complement1 s (k, v) = Ok s'.
Proof.
  intros (Hu & Hm & Hc). unfold ns_complement1, eqb.
  case_bool_decide as H1. { subst. destruct Hc as [Hv|[_ ?]]; [dec| |done]. destruct (colour_like_ok v Hv) as (c & Hcv). unfold ns_set_colour. rewrite Hcv. by eexists. }
  case_bool_decide as H2. { subst. destruct Hc as [[(x & ->)|(x & ->)]|[-> _]]; [dec|by eexists..]. }
  case_bool_decide as H3. { subst. destruct Hc as [[(x & ->)|(x & ->)]|[-> _]]; [dec|by eexists..]. }
  case_bool_decide as H4. { subst. destruct Hc as [[(x & ->)|(x & ->)]|[-> _]]; [dec|by eexists..]. }
  case_bool_decide as H5.
  { exfalso. unfold nstyle_other_attrs in H5. 
    repeat (apply elem_of_cons in H5 as [->|H5]; [first [discriminate Hu | apply Hm; dec]|]). by apply elem_of_nil in H5. }
  unfold underscored. rewrite Hu. repeat (case_bool_decide; [by eexists|]). by eexists.
Qed.
Lemma complement_ok d s : (∀ k v, (k, v) ∈ d → style_entry k v) → ∃ s', ns_complement d s = Ok s'.
Proof.
  unfold ns_complement. revert s. induction d as [|[k v] d IH]; intros s H; [by exists s|]. cbn [rfold].
  destruct (complement1_ok s k v) as (s1 & ->); [apply H; left|]. cbn [rbind]. apply IH. intros. apply H. by right.
Qed.
Lemma kw_in d k v : kw d k v = v ∨ (k, kw d k v) ∈ d.
Proof. unfold kw. destruct (dget d k) eqn:Hd; [right; by apply dget_Some_in|by left]. Qed.
Lemma ector_ok d : (∀ k v, (k, v) ∈ d → edge_argument k v) → ∃ s, estyle_ctor d = Ok s.
Proof.
  intros H. unfold estyle_ctor, check_kwargs.
  assert (forallb (λ k, bool_decide (k ∈ estyle_keys)) (dkeys d) = true) as ->.
  { apply forallb_forall. intros k Hk%elem_of_list_In%elem_of_dkeys. destruct Hk as (v & Hv). destruct (H _ _ Hv) as [Hin _]. apply bool_decide_eq_true.
    unfold edge_attr_names, estyle_keys in *. set_solver. }
  cbn [rbind]. 
  assert (Ht : colour_like (kw d "text_colour" PNone) ∨ kw d "text_colour" PNone = PNone).
  { destruct (kw_in d "text_colour" PNone) as [->|Hin]; [by right|]. destruct (H _ _ Hin) as [_ Hc]. apply Hc. dec. }
  assert (Hm : colour_like (kw d "colour" (PCol default_colour)) ∨ kw d "colour" (PCol default_colour) = PNone).
  { destruct (kw_in d "colour" (PCol default_colour)) as [->|Hin]; [left; right; by eexists|]. destruct (H _ _ Hin) as [_ Hc]. apply Hc. dec. }
  assert (Hor : ∀ a b, (colour_like a ∨ a = PNone) → colour_like b → colour_like (py_or a b)).
  { intros a b [Ha| ->] Hb; [|done]. unfold py_or. by destruct (truthy a). }
  destruct (colour_like_ok (py_or (kw d "colour" (PCol default_colour)) (py_or (kw d "text_colour" PNone) (PCol default_colour)))) as (c & ->).
  { apply Hor; [done|]. apply Hor; [done|]. right. by eexists. }
  cbn [rbind]. destruct Ht as [[(x & ->)|(x & ->)]| ->]; by eexists.
Qed.

Lemma ector_flag d s : estyle_ctor d = Ok s → ∃ b, es_text_based s = Some b.
Proof.
  unfold estyle_ctor. destruct (check_kwargs _ _); [|done]. cbn [rbind]. destruct (to_colour _) as [c|]; [|done]. cbn [rbind].
  destruct (es_set_text _ _) as [t|] eqn:Ht; [|done]. cbn [rbind]. intros [= <-].
  assert (∃ b, es_text_based t = Some b) as (b & Hb).
  { unfold es_set_text in Ht. destruct (kw d "text_colour" PNone); try (injection Ht as <-; by eexists); cbn in Ht; try discriminate Ht; injection Ht as <-; by eexists. }
  unfold es_put_colour. destruct (es_text _); eexists; [exact Hb|reflexivity].
Qed.
Section overwrites.
  Context (g : gref) (G : graph) (D : display) (HD : g_disp G = Some D) (h1 : heap) (HG1 : h_graphs h1 !! g = Some G) (W1 : WF h1).
  Record good (h : heap) : Prop := {
    gd_wf : WF h; gd_ci : CI h; gd_graphs : h_graphs h = h_graphs h1;
    gd_nodes : ∀ r, node_styled h1 r → node_styled h r;
    gd_ids : ∀ e i, has_id h1 g e i → has_id h g e i;
    gd_edges : ∀ e x y, joins h g e x y → edge_styled h e;
    gd_text : no_copied_styles h }.
  Lemma gd_named h n r : good h → named h1 g n r → named h g n r.
  Proof. intros Gd. unfold named. by rewrite (gd_graphs _ Gd). Qed.
  Lemma gd_g h : good h → h_graphs h !! g = Some G.
  Proof. intros Gd. by rewrite (gd_graphs _ Gd). Qed.
  Lemma gd_dget h n r : good h → named h1 g n r → dgetR (g_nodes G) n = Ok r.
  Proof. intros Gd (G' & HG' & Hin). assert (G' = G) as -> by congruence. apply dgetR_Ok, dget_in_Some; [by eapply wf_gkeys|done]. Qed.
  Lemma gd_style h r : good h → node_styled h1 r → ∃ N k s, h_nodes h !! r = Some N ∧ n_style N = Some k ∧ h_ns h !! k = Some s ∧ coloured s.
  Proof.
    intros Gd Hs. destruct (gd_nodes _ Gd r Hs) as (N & HN & Hk). destruct (n_style N) as [k|] eqn:E; [|done].
    destruct (lookup_lt_is_Some_2 (h_ns h) k) as [s Hs']; [by eapply (wf_nstyle _ (gd_wf _ Gd))|]. exists N, k, s. split_and!; try done.
    destruct (gd_ci _ Gd) as [C _]. rewrite Forall_lookup in C. by eapply C.
  Qed.
  Lemma gd_edge h e i : good h → has_id h1 g e i → ∃ d E k s, edges_dict h g = Ok d ∧ dgetR d i = Ok e ∧ h_edges h !! e = Some E ∧ e_graph E = Some g ∧ e_style E = Some k ∧
    h_es h !! k = Some s ∧ text_coloured s ∧ ∃ b, es_text_based s = Some b.
  Proof.
    intros Gd Hi%(gd_ids _ Gd). destruct (edges_dict_run h g G (gd_wf _ Gd) (gd_g _ Gd)) as (d & Hd & Hnd & Hv & Hids).
    pose proof Hi as (x & y & E & Nx & Ny & Hj & HE & _). destruct (gd_edges _ Gd e x y Hj) as (E' & HE' & Hk). assert (E' = E) as -> by congruence.
    destruct (e_style E) as [k|] eqn:Ek; [|done]. destruct (lookup_lt_is_Some_2 (h_es h) k) as [s Hs]; [by eapply (wf_estyle _ (gd_wf _ Gd))|].
    exists d, E, k, s. split; [done|]. split.
    { apply dgetR_Ok. assert (e ∈ dvals d) as (i' & Hin)%elem_of_dvals. { rewrite Hv. apply (elem_of_out_all h g G); [apply Gd|by apply gd_g|by eexists _, _]. }
      assert (i' = i) as ->. { pose proof (Hids _ _ Hin) as (x' & y' & E' & Nx' & Ny' & (? & ? & ? & ? & ?) & ? & ? & ? & ->). destruct Hi as (x2 & y2 & E2 & Nx2 & Ny2 & (? & ? & ? & ? & ?) & ? & ? & ? & ->). by simplify_eq. }
      by apply dget_in_Some. }
    destruct Hj as (E2 & HE2 & Hg & _). assert (E2 = E) as -> by congruence. split_and!; try done.
    - destruct (gd_ci _ Gd) as [_ C]. rewrite Forall_lookup in C. by eapply C.
    - pose proof (gd_text _ Gd k s Hs). destruct (es_text_based s); [by eexists|done].
  Qed.
  Lemma step_node_style h n d r : good h → named h1 g n r → node_styled h1 r → (∀ k v, (k, v) ∈ d → style_entry k v) →
    ∃ h', override_node g (n, d) h = (h', Ok tt) ∧ good h'.
  Proof.
    intros Gd Hn Hst Hd. destruct (gd_style h r Gd Hst) as (N & k & s & HN & Hk & Hs & Hc). destruct (complement_ok d s Hd) as (s' & Hs').
    exists (h <| h_ns := <[k := s']> (h_ns h) |>). split.
    - unfold override_node, sbind at 1, sread. rewrite (get_g_Ok _ _ _ (gd_g _ Gd)). unfold sbind at 1, sread. cbn [fst snd]. rewrite (gd_dget h n r Gd Hn).
      unfold node_complement, sbind, sread. rewrite (get_n_Ok _ _ _ HN), Hk. by apply complement_ns_ok with s.
    - destruct Gd as [A1 A2 A3 A4 A5 A6 A7]. split; try done.
      + apply WF_ns; [done|]. by rewrite insert_length.
      + pose proof (CI_upd_ns k d h A2) as HC. by rewrite (complement_ns_ok h k s s' d Hs Hs') in HC.
  Qed.
  Context (Hov : d_overwrite D = true).
  Lemma allowed_ok h : good h → overwrite_allowed h (Some g) = Ok true.
  Proof. intros Gd. unfold overwrite_allowed. rewrite (get_g_Ok _ _ _ (gd_g _ Gd)). cbn [rbind]. by rewrite HD, Hov. Qed.
  Lemma good_restyled h e E s : good h → h_edges h !! e = Some E → text_coloured s → es_text_based s ≠ None → WF (ProofC31.restyled h e E s) → good (ProofC31.restyled h e E s).
  Proof.
    intros [A1 A2 A3 A4 A5 A6 A7] HE Ht Hb W'. split; try done.
    - destruct A2 as [C1 C2]. split; [done|]. apply Forall_app. split; [done|]. by constructor.
    - intros e' i Hi. apply has_id_restyled; [done|]. by apply A5.
    - intros e' x y (E' & HE' & Hg & Hs & Ht'). cbn in HE'. destruct (decide (e' = e)) as [->|Hne].
      + eexists. cbn. rewrite list_lookup_insert by (by eapply lookup_lt_Some). by split.
      + rewrite list_lookup_insert_ne in HE' by done. destruct (A6 e' x y) as (E2 & HE2 & Hk2); [by exists E'|]. exists E2. cbn. by rewrite list_lookup_insert_ne.
    - intros k s' Hs'. cbn in Hs'. apply lookup_app_Some in Hs' as [Hs'|[_ Hs']]; [by eapply A7|]. 
      destruct (k - length (h_es h)); cbn in Hs'; [by injection Hs' as <-|done].
  Qed.
  Lemma step_edge_style h i d e : good h → has_id h1 g e i → (∀ k v, (k, v) ∈ d → edge_argument k v) →
    ∃ h', override_edge g (i, d) h = (h', Ok tt) ∧ good h'.
  Proof.
    intros Gd Hi Hd. destruct (gd_edge h e i Gd Hi) as (ds & E & k & s & Hds & He & HE & Hg & Hk & Hs & _). destruct (ector_ok d Hd) as (s' & Hs').
    assert (Hrun : override_edge g (i, d) h = (ProofC31.restyled h e E s', Ok tt)).
    { unfold override_edge, sbind at 1, sread. rewrite Hds. unfold sbind at 1, sread. cbn [fst snd]. rewrite He. 
      unfold edge_set_style, sbind at 1, sread. rewrite (get_e_Ok _ _ _ HE), Hk, Hg. unfold sbind at 1 2. rewrite (allowed_ok _ Gd). unfold sret, resolve_estyle, sbind, sread. rewrite Hs'.
      unfold new_es, sret, upd_e. cbn. by rewrite HE. }
    exists (ProofC31.restyled h e E s'). split; [done|]. apply good_restyled; try done.
    - by eapply ector_coloured.
    - destruct (ector_flag d s' Hs') as [b Hb]. by rewrite Hb.
    - eapply WF_data_only; [apply Gd|]. pose proof (dpres_override_e g (i, d) h) as HI. by rewrite Hrun in HI.
  Qed.
  Lemma step_edge_colour h i v e : good h → has_id h1 g e i → colour_like v →
    ∃ h', overwrite_edge_colour g (i, OvColour v) h = (h', Ok tt) ∧ good h'.
  Proof.
    intros Gd Hi Hv. destruct (gd_edge h e i Gd Hi) as (ds & E & k & s & Hds & He & HE & Hg & Hk & Hs & Ht & b & Hb). destruct (colour_like_ok v Hv) as (c & Hc).
    assert (∃ t, overwrite_edge_colour g (i, OvColour v) h = (ProofC31.restyled h e E t, Ok tt) ∧ text_coloured t ∧ es_text_based t ≠ None) as (t & Hrun & Ht' & Hb').
    { unfold overwrite_edge_colour, sbind at 1, sread. rewrite Hds. unfold sbind at 1, sread. cbn [fst snd]. rewrite He.
      unfold sbind at 1, sread. rewrite (get_e_Ok _ _ _ HE), Hk. unfold sbind at 1, sread. rewrite Hs. unfold sbind at 1, sread. rewrite (es_copy_eq s b Ht Hb).
      unfold sbind at 1, sread. unfold es_set_colour. rewrite Hc. cbn [rbind]. eexists. split; [|split].
      - unfold sbind at 1, new_es. unfold edge_set_style, sbind at 1, sread, get_e. cbn [h_edges set]. 
        change (h_edges (h <| h_es := _ |>)) with (h_edges h). rewrite HE, Hk, Hg. unfold sbind at 1 2.
        change (overwrite_allowed (h <| h_es := _ |>) (Some g)) with (overwrite_allowed h (Some g)). rewrite (allowed_ok _ Gd). unfold sret, resolve_estyle, sbind, sret, upd_e.
        change (h_edges (h <| h_es := _ |>)) with (h_edges h). rewrite HE. reflexivity.
      - by eexists.
      - done. }
    exists (ProofC31.restyled h e E t). split; [done|]. apply good_restyled; try done.
    eapply WF_data_only; [apply Gd|]. pose proof (dpres_overwrite_e g (i, OvColour v) h) as HI. by rewrite Hrun in HI.
  Qed.
  Lemma step_node_colour h n v r : good h → named h1 g n r → node_styled h1 r → colour_like v →
    ∃ h', overwrite_node_colour g (n, v) h = (h', Ok tt) ∧ good h'.
  Proof.
    intros Gd Hn Hst Hv. destruct (gd_style h r Gd Hst) as (N & k & s & HN & Hk & Hs & Hc). destruct (colour_like_ok v Hv) as (c & Hcv).
    pose proof (gd_named h n r Gd Hn) as (G' & HG' & Hin). destruct (wf_gnodes _ (gd_wf _ Gd) g G' n r HG' Hin) as (N' & HN' & _ & Hg). assert (N' = N) as -> by congruence.
    assert (∃ t, overwrite_node_colour g (n, v) h = (h <| h_nodes := <[r := N <| n_style := Some (length (h_ns h)) |>]> (h_nodes h) |> <| h_ns := h_ns h ++ [t] |>, Ok tt)) as (t & Hrun).
    { unfold overwrite_node_colour, sbind at 1, sread. rewrite (get_g_Ok _ _ _ (gd_g _ Gd)). unfold sbind at 1, sread. cbn [fst snd]. rewrite (gd_dget h n r Gd Hn).
      unfold sbind at 1, sread, node_style. rewrite (get_n_Ok _ _ _ HN). cbn [rbind]. rewrite Hk, Hs. unfold sbind at 1, sread. rewrite (ns_copy_eq s Hc).
      unfold sbind at 1, sread, ns_set_colour. rewrite Hcv. cbn [rbind]. eexists. unfold assign_nstyle, sbind at 1, new_ns. unfold node_set_style, sbind at 1, sread, get_n.
      change (h_nodes (h <| h_ns := _ |>)) with (h_nodes h). rewrite HN, Hk, Hg. unfold sbind at 1 2.
      change (overwrite_allowed (h <| h_ns := _ |>) (Some g)) with (overwrite_allowed h (Some g)). rewrite (allowed_ok _ Gd). unfold sret, resolve_nstyle, sbind, sret, upd_n.
      change (h_nodes (h <| h_ns := _ |>)) with (h_nodes h). rewrite HN. reflexivity. }
    eexists. split; [exact Hrun|]. 
    assert (W' : WF (h <| h_nodes := <[r := N <| n_style := Some (length (h_ns h)) |>]> (h_nodes h) |> <| h_ns := h_ns h ++ [t] |>)).
    { eapply WF_data_only; [apply Gd|]. pose proof (dpres_overwrite_n g (n, v) h) as HI. by rewrite Hrun in HI. }
    pose proof (CI_overwrite_n g (n, v) h (gd_ci _ Gd)) as HC. rewrite Hrun in HC. destruct Gd as [A1 A2 A3 A4 A5 A6 A7]. split; try done.
    - intros r' Hr'. destruct (decide (r' = r)) as [->|Hne].
      + eexists. cbn. rewrite list_lookup_insert by (by eapply lookup_lt_Some). by split.
      + destruct (A4 r' Hr') as (M & HM & ?). exists M. cbn. by rewrite list_lookup_insert_ne.
    - intros e i Hi. destruct (A5 e i Hi) as (x & y & E & Nx & Ny & Hj & HE & HNx & HNy & ->).
      assert (Hid : ∀ z Nz, h_nodes h !! z = Some Nz → ∃ Nz', <[r := N <| n_style := Some (length (h_ns h)) |>]> (h_nodes h) !! z = Some Nz' ∧ n_id Nz' = n_id Nz).
      { intros z Nz Hz. destruct (decide (z = r)) as [->|Hne]; [|exists Nz; by rewrite list_lookup_insert_ne]. 
        eexists. rewrite list_lookup_insert by (by eapply lookup_lt_Some). split; [done|]. cbn. congruence. }
      destruct (Hid x Nx HNx) as (Nx' & HNx' & Ex), (Hid y Ny HNy) as (Ny' & HNy' & Ey).
      exists x, y, E, Nx', Ny'. rewrite Ex, Ey. done.
  Qed.
End overwrites.

(** C69.  If the default stylist succeeds, so does stylize with overwrites that fit the graph:
    they are for nodes and edges that are there, with attributes that exist and colours that
    are strings or Colours, and, except for node_styles alone, overwriting is allowed. *)
Lemma C69_succeeds_partial_proof : ∀ h g G D sh h1, reachable h → h_graphs h !! g = Some G → g_disp G = Some D → pensieve_only D →
  stylize_with_pensieve g (d_scheme D) h = (h1, Ok tt) → overwrites_fit h1 g D → no_copied_styles h1 → ∃ h', stylize g sh h = (h', Ok tt).
Proof.
  intros h g G D sh h1 Hr HG HD Hp H1 [F1 F2 F3 F4 F5] Hnc. pose proof (reachable_WF h Hr) as W. rewrite (stylize_overrides g sh h G D) by done.
  unfold sbind at 1. rewrite H1. destruct (pensieve_post h g G (d_scheme D) h1) as [S _ He _ _ _]; [done..|]. pose proof (sa_WF _ _ _ S W) as W1.
  assert (HG1 : h_graphs h1 !! g = Some G) by (by rewrite (sa_graphs _ _ _ S)).
  assert (Gd : good g h1 h1).
  { split; try done.
    - pose proof (CI_pensieve g (d_scheme D) h (reachable_CI h Hr)) as HI. by rewrite H1 in HI.
    - intros e x y Hj. apply He. apply (elem_of_all_edges h g); [done..|]. exists x, y. by apply (sa_joins _ _ _ S). }
  destruct (siter_total (good g h1) (override_node g) (d_node_styles D)) with h1 as (h2 & H2 & G2); [|done|].
  { intros [n d] h' Hin Gd'. destruct (F1 n d Hin) as [(r & Hn & Hs) Hd]. eapply (step_node_style g G h1); done. }
  unfold sbind at 1. rewrite H2.
  destruct (siter_total (good g h1) (override_edge g) (d_edge_styles D)) with h2 as (h3 & H3 & G3); [|done|].
  { intros [n d] h' Hin Gd'. destruct (F2 n d Hin) as [(r & Hn) Hd]. eapply (step_edge_style g G D HD h1); try done. apply F5. left. intros E. rewrite E in Hin. by apply elem_of_nil in Hin. }
  unfold sbind at 1. rewrite H3.
  destruct (siter_total (good g h1) (overwrite_node_colour g) (d_node_colours D)) with h3 as (h4 & H4 & G4); [|done|].
  { intros [n d] h' Hin Gd'. destruct (F3 n d Hin) as [(r & Hn & Hs) Hd]. eapply (step_node_colour g G D HD h1); try done. apply F5. right. left. intros E. rewrite E in Hin. by apply elem_of_nil in Hin. }
  unfold sbind at 1. rewrite H4.
  destruct (siter_total (good g h1) (overwrite_edge_colour g) (d_edge_colours D)) with h4 as (h5 & H5 & G5); [|done|].
  { intros [n d] h' Hin Gd'. destruct (F4 n d Hin) as [(r & Hn) (v & -> & Hd)]. eapply (step_edge_colour g G D HD h1); try done. apply F5. right. right. intros E. rewrite E in Hin. by apply elem_of_nil in Hin. }
  by exists h5.
Qed.
(** C68.  If the default stylist succeeds, so does stylize with styles for nodes of the graph
    that the stylist leaves with a style: any attribute that does not start with an underscore
    and is not a method may be given, colours as strings or Colours. *)
Lemma C68_succeeds_partial_proof : ∀ h g G D sh h1, reachable h → h_graphs h !! g = Some G → g_disp G = Some D → node_styles_only D →
  stylize_with_pensieve g (d_scheme D) h = (h1, Ok tt) →
  (∀ n d, (n, d) ∈ d_node_styles D → (∃ r, named h g n r ∧ node_styled h1 r) ∧ ∀ k v, (k, v) ∈ d → style_entry k v) → ∃ h', stylize g sh h = (h', Ok tt).
Proof.
  intros h g G D sh h1 Hr HG HD Hd H1 F1. pose proof (reachable_WF h Hr) as W. rewrite (stylize_nodes g sh h G D) by done. unfold sbind at 1. rewrite H1.
  destruct (pensieve_post h g G (d_scheme D) h1) as [S _ He _ _ _]; [done..|]. pose proof (sa_WF _ _ _ S W) as W1.
  assert (HG1 : h_graphs h1 !! g = Some G) by (by rewrite (sa_graphs _ _ _ S)). 
  pose proof (CI_pensieve g (d_scheme D) h (reachable_CI h Hr)) as HI. rewrite H1 in HI. cbn in HI.
  destruct (siter_total (λ h', WF h' ∧ h_graphs h' = h_graphs h1 ∧ h_nodes h' = h_nodes h1) (override_node g) (d_node_styles D)) with h1 as (h2 & H2 & _); [|done|by exists h2].
  intros [n d] h' Hin (W' & Eg & En). destruct (F1 n d Hin) as [(r & (G' & HG' & Hn) & (N & HN & Hs)) Hd']. assert (G' = G) as -> by congruence.
  destruct (n_style N) as [k|] eqn:Hk; [|done]. rewrite <-En in HN. destruct (lookup_lt_is_Some_2 (h_ns h') k) as [s Hs']; [by eapply (wf_nstyle _ W')|].
  destruct (complement_ok d s Hd') as (s' & Hs''). exists (h' <| h_ns := <[k := s']> (h_ns h') |>). split.
  - unfold override_node, sbind at 1, sread. rewrite (get_g_Ok h' g G) by (by rewrite Eg). unfold sbind at 1, sread. cbn [fst snd].
    assert (dgetR (g_nodes G) n = Ok r) as -> by (apply dgetR_Ok, dget_in_Some; [exact (wf_gkeys _ W g G HG)|done]).
    unfold node_complement, sbind, sread. rewrite (get_n_Ok _ _ _ HN), Hk. by apply complement_ns_ok with s.
  - split; [|done]. apply WF_ns; [done|]. by rewrite insert_length.
Qed.

(** C55.  With the default stylist and no overwrites, render styles the graph as stylize does,
    draws the result, and rendering again gives the same text and changes nothing. *)
Lemma C55_render_partial_proof : ∀ env h g G D dir pad sh h' s, reachable h → h_graphs h !! g = Some G → g_disp G = Some D → default_styling D →
  render env g dir pad sh h = (h', Ok s) →
  stylize g sh h = (h', Ok tt) ∧ graphviz_str env h' g dir PNone PNone pad = Ok s ∧ ∀ sh', render env g dir pad sh' h' = (h', Ok s).
Proof.
  intros env h g G D dir pad sh h' s Hr HG HD Hd. unfold render, sbind at 1. destruct (stylize g sh h) as [h1 [[]|x]] eqn:H1; [|done].
  unfold sread. intros [= <- Hs]. split; [done|]. split; [done|]. intros sh'. unfold sbind. 
  rewrite (C55_default_partial_proof h g G D sh sh' h1 Hr HG HD Hd H1). by rewrite Hs.
Qed.

(** C69.  Example: a -> b with all four kinds of overwrites meets the conditions. *)
Lemma C69_succeeds_ex_proof : ∃ h G D h1, reachable h ∧ h_graphs h !! 0 = Some G ∧ g_disp G = Some D ∧ pensieve_only D ∧
  stylize_with_pensieve 0 (d_scheme D) h = (h1, Ok tt) ∧ overwrites_fit h1 0 D ∧ no_copied_styles h1 ∧
  d_node_styles D ≠ [] ∧ d_edge_styles D ≠ [] ∧ d_node_colours D ≠ [] ∧ d_edge_colours D ≠ [].
Proof.
  exists (run [CNew false true (disp0 <| d_overwrite := true |> <| d_edge_styles := [((nm "a", nm "b", RId None), [("arrow_size", PInt 2)])] |>
    <| d_node_styles := [(nm "a", [("shape", PStr "circle"); ("fill_colour", PStr "red"); ("peripheries", PInt 2)])] |> <| d_node_colours := [(nm "b", PStr "green")] |>
    <| d_edge_colours := [((nm "a", nm "b", RId None), OvColour (PStr "green"))] |>);
    CAddNode 0 (an "a") nargs0; CAddNode 0 (an "b") nargs0; CConnect 0 (an "a") (an "b") eargs0] empty_heap).
  do 3 eexists. split; [reach|]. split; [by vm_compute|]. split; [by vm_compute|]. split; [by vm_compute|]. split; [vm_compute; reflexivity|].
  split; [|split; [|by vm_compute]].
  - split.
    + intros n d Hin. vm_compute in Hin. apply elem_of_list_singleton in Hin. injection Hin as -> ->. split.
      * exists 0. split; [eexists; split; [by vm_compute|dec]|eexists; by vm_compute].
      * intros k v Hin. repeat (apply elem_of_cons in Hin as [[= -> ->]|Hin]); [..|by apply elem_of_nil in Hin]; (split; [done|]; split; [dec|]; intros Hk); try (left; left; by eexists).
        exfalso. revert Hk. apply (bool_decide_unpack (¬ _)). by vm_compute.
    + intros n d Hin. vm_compute in Hin. apply elem_of_list_singleton in Hin. injection Hin as -> ->. split.
      * exists 0. do 5 eexists. split; [eexists; by vm_compute|]. by vm_compute.
      * intros k v Hin. apply elem_of_list_singleton in Hin. injection Hin as -> ->. split; [dec|]. intros Hk. exfalso. revert Hk. apply (bool_decide_unpack (¬ _)). by vm_compute.
    + intros n d Hin. vm_compute in Hin. apply elem_of_list_singleton in Hin. injection Hin as -> ->. split; [|left; by eexists].
      exists 1. split; [eexists; split; [by vm_compute|dec]|eexists; by vm_compute].
    + intros n d Hin. vm_compute in Hin. apply elem_of_list_singleton in Hin. injection Hin as -> ->. split; [|eexists; split; [done|left; by eexists]].
      exists 0. do 5 eexists. split; [eexists; by vm_compute|]. by vm_compute.
    + done.
  - intros [|k] s; [|done]. vm_compute. by intros [= <-].
Qed.
(** C55.  Example: rendering the second sample graph. *)
Lemma C55_render_ex_proof : ∃ G D h' s, reachable sample ∧ h_graphs sample !! 1 = Some G ∧ g_disp G = Some D ∧ default_styling D ∧
  render env0 1 "" PNone (λ l, l) sample = (h', Ok s) ∧ length (h_ns h') = 2.
Proof.
  do 4 eexists. split; [apply sample_reachable|]. split; [by vm_compute|]. split; [by vm_compute|]. split; [by vm_compute|].
  split; [vm_compute; reflexivity|by vm_compute].
Qed.
