(** Overwriting the styles and colours of single edges: C69. *)
From Verif Require Export ProofC21 ProofGlobal.
Local Open Scope list_scope.

Definition restyled (h : heap) (e : eref) (E : edge) (s : estyle) : heap :=
  h <| h_edges := <[e := E <| e_style := Some (length (h_es h)) |>]> (h_edges h) |> <| h_es := h_es h ++ [s] |>.
Lemma has_id_restyled h e E s g e' i : h_edges h !! e = Some E → has_id (restyled h e E s) g e' i ↔ has_id h g e' i.
Proof.
  intros HE. assert (Hj : ∀ x y, joins (restyled h e E s) g e' x y ↔ joins h g e' x y).
  { intros x y. unfold joins, restyled. cbn. destruct (decide (e' = e)) as [->|Hne]; [|by rewrite list_lookup_insert_ne].
    rewrite list_lookup_insert by (by eapply lookup_lt_Some). rewrite HE. split; intros (E' & [= <-] & H); eauto. }
  unfold has_id. split.
  - intros (x & y & E' & Nx & Ny & Hj' & HE' & H1 & H2 & ->). apply Hj in Hj'. cbn in HE', H1, H2. destruct (decide (e' = e)) as [->|Hne].
    + rewrite list_lookup_insert in HE' by (by eapply lookup_lt_Some). injection HE' as <-. by exists x, y, E, Nx, Ny.
    + rewrite list_lookup_insert_ne in HE' by done. by exists x, y, E', Nx, Ny.
  - intros (x & y & E' & Nx & Ny & Hj' & HE' & H1 & H2 & ->). apply Hj in Hj'. destruct (decide (e' = e)) as [->|Hne].
    + assert (E' = E) as -> by congruence. eexists x, y, _, Nx, Ny. split; [done|]. cbn. rewrite list_lookup_insert by (by eapply lookup_lt_Some). by split.
    + exists x, y, E', Nx, Ny. split; [done|]. cbn. by rewrite list_lookup_insert_ne.
Qed.
Lemma estyle_restyled_ne h e E s e' s' : WF h → e' ≠ e → edge_style_of (restyled h e E s) e' s' ↔ edge_style_of h e' s'.
Proof.
  intros W Hne. unfold edge_style_of, restyled. cbn. rewrite list_lookup_insert_ne by done. split.
  - intros (M & j & HM & Hj & Hsj). exists M, j. split_and!; [done..|]. rewrite lookup_app_l in Hsj; [done|]. by eapply (wf_estyle _ W e' M).
  - intros (M & j & HM & Hj & Hsj). exists M, j. split_and!; [done..|]. by apply lookup_app_l_Some.
Qed.
Lemma estyle_restyled h e E s : h_edges h !! e = Some E → edge_style_of (restyled h e E s) e s.
Proof.
  intros HE. eexists _, _. cbn. split; [apply list_lookup_insert; by eapply lookup_lt_Some|]. split; [done|]. by rewrite lookup_app_r, Nat.sub_diag by lia.
Qed.

Lemma sa_has_id g h h' e i : WF h → styles_added g h h' → has_id h' g e i ↔ has_id h g e i.
Proof.
  intros W S. pose proof (sa_WF _ _ _ S W) as W'.
  assert (HN : ∀ r, n_id <$> h_nodes h' !! r = n_id <$> h_nodes h !! r).
  { intros r. destruct (h_nodes h !! r) as [N|] eqn:E1, (h_nodes h' !! r) as [N'|] eqn:E2; try done.
    - destruct (sa_node _ _ _ S r N N' E1 E2) as [-> _]. done.
    - apply lookup_lt_Some in E1. apply lookup_ge_None in E2. rewrite (sa_nlen _ _ _ S) in E2. lia.
    - apply lookup_lt_Some in E2. apply lookup_ge_None in E1. rewrite (sa_nlen _ _ _ S) in E2. lia. }
  assert (HE : e_raw <$> h_edges h' !! e = e_raw <$> h_edges h !! e).
  { destruct (h_edges h !! e) as [N|] eqn:E1, (h_edges h' !! e) as [N'|] eqn:E2; try done.
    - destruct (sa_edge _ _ _ S e N N' E1 E2) as [-> _]. done.
    - apply lookup_lt_Some in E1. apply lookup_ge_None in E2. rewrite (sa_elen _ _ _ S) in E2. lia.
    - apply lookup_lt_Some in E2. apply lookup_ge_None in E1. rewrite (sa_elen _ _ _ S) in E2. lia. }
  unfold has_id. split; intros (x & y & E & Nx & Ny & Hj & H1 & H2 & H3 & ->).
  - pose proof (HN x) as Hx. pose proof (HN y) as Hy. rewrite H2 in Hx. rewrite H3 in Hy. rewrite H1 in HE. symmetry in Hx, Hy, HE.
    apply fmap_Some in Hx as (Nx' & ? & ->), Hy as (Ny' & ? & ->), HE as (E' & ? & ->). exists x, y, E', Nx', Ny'. split_and!; try done. by apply (sa_joins _ _ _ S).
  - pose proof (HN x) as Hx. pose proof (HN y) as Hy. rewrite H2 in Hx. rewrite H3 in Hy. rewrite H1 in HE. 
    apply fmap_Some in Hx as (Nx' & ? & ->), Hy as (Ny' & ? & ->), HE as (E' & ? & ->). exists x, y, E', Nx', Ny'. split_and!; try done. by apply (sa_joins _ _ _ S).
Qed.

Section loop.
  Context {A} (g : gref) (step : edge_id * A → M unit) (R : A → estyle → estyle → Prop).
  Context (step_dpres : ∀ kv, dpres (step kv)).
  Context (step_run : ∀ kv h h', WF h → step kv h = (h', Ok tt) → ∃ e E s', has_id h g e kv.1 ∧ h_edges h !! e = Some E ∧
    (∀ s, edge_style_of h e s → R kv.2 s s') ∧ h' = restyled h e E s').
  Lemma edge_loop kvs : ∀ h h', WF h → NoDup kvs.*1 → siter step kvs h = (h', Ok tt) →
    h' = h <| h_edges := h_edges h' |> <| h_es := h_es h' |> ∧ WF h' ∧ (∀ e i, has_id h' g e i ↔ has_id h g e i) ∧
    (∀ e i s, has_id h g e i → edge_style_of h e s →
      match dget kvs i with None => edge_style_of h' e s | Some a => ∃ s', R a s s' ∧ edge_style_of h' e s' end) ∧
    (∀ e s, (∀ i, has_id h g e i → i ∉ kvs.*1) → edge_style_of h e s → edge_style_of h' e s).
  Proof.
    induction kvs as [|[i0 a0] kvs IH]; intros h h' W Hnd; cbn [siter].
    { intros [= <-]. split; [by destruct h|]. done. }
    intros (h1 & [] & H1 & H2)%sbind_Ok. rewrite fmap_cons in Hnd. apply NoDup_cons in Hnd as [Hni Hnd]. cbn [fst] in *.
    assert (W1 : WF h1). { eapply WF_data_only; [exact W|]. pose proof (step_dpres (i0, a0) h) as HI. by rewrite H1 in HI. }
    destruct (step_run _ _ _ W H1) as (e0 & E0 & s0 & Hid0 & HE0 & HR & E1). cbn [fst snd] in *.
    assert (Hids : ∀ e i, has_id h1 g e i ↔ has_id h g e i) by (intros; rewrite E1; by apply has_id_restyled).
    destruct (IH h1 h' W1 Hnd H2) as (Eh & W' & Hids' & HA & HB). split_and!.
    - rewrite Eh, E1. by destruct h.
    - done.
    - intros e i. by rewrite Hids', Hids.
    - intros e i s Hid Hs. change (dget ((i0, a0) :: kvs) i) with (if decide (i = i0) then Some a0 else dget kvs i).
      destruct (decide (i = i0)) as [->|Hne].
      + assert (e = e0) as -> by exact (has_id_inj h g e e0 i0 W Hid Hid0). exists s0. split; [by apply HR|].
        pose proof (HA e0 i0 s0) as HA0. destruct (dget kvs i0) eqn:Hg. { apply dget_Some_in in Hg. destruct Hni. apply elem_of_list_fmap. by eexists (_, _). }
        apply HA0; [by apply Hids|]. rewrite E1. by apply estyle_restyled.
      + assert (e ≠ e0) as Hne'. { intros ->. apply Hne. destruct Hid as (x & y & E & Nx & Ny & (? & ? & ? & ? & ?) & ? & ? & ? & ->), Hid0 as (x' & y' & E' & Nx' & Ny' & (? & ? & ? & ? & ?) & ? & ? & ? & ->). by simplify_eq. }
        apply HA; [by apply Hids|]. rewrite E1. by apply estyle_restyled_ne.
    - intros e s Hno Hs. assert (e ≠ e0) as Hne'. { intros ->. apply (Hno i0 Hid0). rewrite fmap_cons. left. }
      apply HB. { intros i Hi%Hids Hin. apply (Hno i Hi). rewrite fmap_cons. by right. } rewrite E1. by apply estyle_restyled_ne.
  Qed.
End loop.

Lemma set_estyle_run h h' e k : edge_set_style e (SObj k) h = (h', Ok tt) → ∃ E, h_edges h !! e = Some E ∧ h' = h <| h_edges := <[e := E <| e_style := Some k |>]> (h_edges h) |>.
Proof.
  unfold edge_set_style. intros (? & E & [HE%get_e_inv ->]%sread_inv & (h1 & [] & H1 & H2)%sbind_Ok)%sbind_Ok. exists E. split; [done|].
  assert (h1 = h) as ->. { destruct (e_style E); [|by injection H1]. apply sbind_Ok in H1 as (? & b & [_ ->]%sread_inv & H1). destruct b; [|done]. by injection H1. }
  unfold resolve_estyle, sbind, sret, upd_e in H2. rewrite HE in H2. by injection H2.
Qed.
Lemma edges_dict_id h g d k e : WF h → edges_dict h g = Ok d → dgetR d k = Ok e → has_id h g e k.
Proof.
  intros W Hd He%dgetR_Ok%dget_Some_in. destruct (h_graphs h !! g) as [G|] eqn:HG.
  - destruct (edges_dict_run h g G W HG) as (d' & Hd' & _ & _ & Hid). apply Hid. congruence.
  - unfold edges_dict, nodes, get_g in Hd. by rewrite HG in Hd.
Qed.
Lemma override_edge_run g kv h h' : WF h → override_edge g kv h = (h', Ok tt) → ∃ e E s', has_id h g e kv.1 ∧ h_edges h !! e = Some E ∧
    (∀ s : estyle, edge_style_of h e s → estyle_ctor kv.2 = Ok s') ∧ h' = restyled h e E s'.
Proof.
  intros W. unfold override_edge. intros (? & d & [Hd ->]%sread_inv & (? & e & [He ->]%sread_inv & H)%sbind_Ok)%sbind_Ok.
  unfold edge_set_style in H. apply sbind_Ok in H as (? & E & [HE%get_e_inv ->]%sread_inv & (h1 & [] & H1 & H2)%sbind_Ok).
  assert (h1 = h) as ->. { destruct (e_style E); [|by injection H1]. apply sbind_Ok in H1 as (? & b & [_ ->]%sread_inv & H1). destruct b; [|done]. by injection H1. }
  apply sbind_Ok in H2 as (h1 & o & H2 & H3). unfold resolve_estyle in H2. apply sbind_Ok in H2 as (? & sty & [Hsty ->]%sread_inv & (? & k & Hnew & [= <- <-])%sbind_Ok).
  unfold new_es in Hnew. injection Hnew as <- <-. unfold upd_e in H3. cbn in H3. rewrite HE in H3. injection H3 as <-.
  exists e, E, sty. split; [by eapply edges_dict_id|]. split; [done|]. split; [done|]. reflexivity.
Qed.
Lemma ecopy_recolour s v s1 s2 : es_copy s = Ok s1 → es_set_colour v (es_reset s1) = Ok s2 → ∃ c, to_colour v = Ok c ∧ s2 = etinted c s.
Proof.
  unfold es_copy. destruct (estyle_ctor _) as [cp|] eqn:Hcp; [|done]. cbn [rbind]. destruct (es_text_based s) as [b|]; [|done]. intros [= <-].
  unfold es_set_colour. destruct (to_colour v) as [c|]; [|done]. cbn [rbind]. intros [= <-]. exists c. split; [done|].
  unfold estyle_ctor in Hcp. destruct (check_kwargs _ _); [|done]. cbn [rbind] in Hcp. unfold kw in Hcp.
  destruct (es_text s) as [t|]; cbn in Hcp; injection Hcp as <-; reflexivity.
Qed.
Definition ecolour_rel (o : ovr) (s s' : estyle) : Prop := match o with OvColour v => ∃ c, to_colour v = Ok c ∧ s' = etinted c s | OvStyle _ => False end.
Lemma overwrite_edge_run g kv h h' : WF h → overwrite_edge_colour g kv h = (h', Ok tt) → ∃ e E s', has_id h g e kv.1 ∧ h_edges h !! e = Some E ∧
    (∀ s : estyle, edge_style_of h e s → ecolour_rel kv.2 s s') ∧ h' = restyled h e E s'.
Proof.
  intros W. unfold overwrite_edge_colour. intros (? & d & [Hd ->]%sread_inv & (? & e & [He ->]%sread_inv & (? & E & [HE%get_e_inv ->]%sread_inv & H)%sbind_Ok)%sbind_Ok)%sbind_Ok.
  destruct (e_style E) as [k|] eqn:Hk; [|done]. apply sbind_Ok in H as (? & sty & [Hs ->]%sread_inv & (? & cp & [Hcp ->]%sread_inv & H)%sbind_Ok).
  destruct (h_es h !! k) as [sty'|] eqn:Hsty; [|done]. injection Hs as ->.
  destruct (kv.2) as [v|dd] eqn:Hkv. 2: { by apply sbind_Ok in H as (? & ? & _ & H). }
  apply sbind_Ok in H as (? & cp' & [Hcp' ->]%sread_inv & (h1 & k' & Hnew & H)%sbind_Ok). unfold new_es in Hnew. injection Hnew as <- <-.
  destruct (ecopy_recolour _ _ _ _ Hcp Hcp') as (c & Hc & ->). apply set_estyle_run in H as (E' & HE' & ->). cbn in HE'. assert (E' = E) as -> by congruence.
  exists e, E, (etinted c sty). split; [by eapply edges_dict_id|]. split; [done|]. split; [|reflexivity].
  intros s (E' & k' & HE2 & Hk2 & Hs2). assert (E' = E) as -> by congruence. assert (s = sty) as -> by congruence. by exists c.
Qed.
Lemma dpres_override_e g kv : dpres (override_edge g kv).
Proof. unfold override_edge. dpresM. Qed.
Lemma dpres_overwrite_e g kv : dpres (overwrite_edge_colour g kv).
Proof. unfold overwrite_edge_colour. dpresM. Qed.

(** C69.  With overwriting allowed and only edge styles and edge colours given, a
    successful call of stylize does what the default stylist does; then each edge for
    which a style is given has a new style made of the given attributes; then each edge
    for which a colour is given is drawn in that colour, line and text, with its other
    attributes kept, except that the label style becomes the default one; the other
    edges and all nodes look as without the overwrites. *)
Lemma C69_edges_partial_proof : ∀ h g G D sh h', reachable h → h_graphs h !! g = Some G → g_disp G = Some D → edge_overwrites_only D →
  NoDup (d_edge_styles D).*1 → NoDup (d_edge_colours D).*1 → (∀ i d, (i, d) ∈ d_edge_styles D → NoDup d.*1) →
  stylize g sh h = (h', Ok tt) → ∃ h1, stylize_with_pensieve g (d_scheme D) h = (h1, Ok tt) ∧
  (∀ r s, style_of h' r s ↔ style_of h1 r s) ∧
  (∀ e i s1, has_id h g e i → edge_style_of h1 e s1 → ∃ s2,
    match dget (d_edge_styles D) i with None => s2 = s1 | Some d => emade_of d s2 end ∧
    match dget (d_edge_colours D) i with
    | None => edge_style_of h' e s2
    | Some o => ∃ v c, o = OvColour v ∧ to_colour v = Ok c ∧ edge_style_of h' e (etinted c s2)
    end) ∧
  (∀ e s, (∀ i, ¬ has_id h g e i) → edge_style_of h1 e s → edge_style_of h' e s).
Proof.
  intros h g G D sh h' Hr HG HD (Hp & Hn & Hc) Hnd1 Hnd2 Hnd3. rewrite (stylize_overrides g sh h G D) by done. pose proof (reachable_WF h Hr) as W. rewrite Hn, Hc. cbn [siter].
  intros (h1 & [] & H1 & (h2 & [] & [= <-] & (h3 & [] & H3 & (h4 & [] & [= <-] & H5)%sbind_Ok)%sbind_Ok)%sbind_Ok)%sbind_Ok. exists h1. split; [done|].
  destruct (pensieve_post h g G (d_scheme D) h1) as [S _ _ _ _ _]; [done..|]. pose proof (sa_WF _ _ _ S W) as W1.
  assert (Hid : ∀ e i, has_id h1 g e i ↔ has_id h g e i) by (intros; by apply sa_has_id).
  destruct (edge_loop g (override_edge g) (λ d _ s', estyle_ctor d = Ok s') (dpres_override_e g) (override_edge_run g) _ _ _ W1 Hnd1 H3) as (E3 & W3 & Hid3 & HA3 & HB3).
  destruct (edge_loop g (overwrite_edge_colour g) ecolour_rel (dpres_overwrite_e g) (overwrite_edge_run g) _ _ _ W3 Hnd2 H5) as (E5 & W5 & Hid5 & HA5 & HB5).
  split_and!.
  - intros r s. rewrite E5, E3. done.
  - intros e i s1 Hi Hs1. apply Hid in Hi. specialize (HA3 e i s1 Hi Hs1). apply Hid3 in Hi.
    assert (∃ s2, match dget (d_edge_styles D) i with None => s2 = s1 | Some d => emade_of d s2 end ∧ edge_style_of h3 e s2) as (s2 & Hs2 & Hs3).
    { destruct (dget (d_edge_styles D) i) as [d|] eqn:Hd; [|by exists s1]. destruct HA3 as (s' & Hct & Hs'). exists s'. split; [|done].
      destruct (ector_made d s'); [|done..]. apply (Hnd3 i d). by apply dget_Some_in. }
    exists s2. split; [done|]. specialize (HA5 e i s2 Hi Hs3). destruct (dget (d_edge_colours D) i) as [o|]; [|done].
    destruct HA5 as (s' & Hrel & Hs'). destruct o as [v|]; [|done]. destruct Hrel as (c & Hc' & ->). by exists v, c.
  - intros e s Hno Hs. apply HB5. { intros i Hi%Hid3%Hid. by destruct (Hno i). } apply HB3; [|done]. intros i Hi%Hid. by destruct (Hno i).
Qed.

(** A graph with two edges, overwriting allowed: one edge gets a style and a colour, the
    other one a colour. *)
Lemma C69_edges_ex_proof : ∃ h G D h', reachable h ∧ h_graphs h !! 0 = Some G ∧ g_disp G = Some D ∧ edge_overwrites_only D ∧
  NoDup (d_edge_styles D).*1 ∧ NoDup (d_edge_colours D).*1 ∧ (∀ i d, (i, d) ∈ d_edge_styles D → NoDup d.*1) ∧
  stylize 0 id h = (h', Ok tt) ∧
  edge_style_of h' 0 (MkEStyle (CName "green") (Some (CName "green")) (Some true) (PInt 1) (PStr "helvetica") (PInt 8) (PInt 2) (PStr "below") (PInt 1) []) ∧
  ∃ s, edge_style_of h' 1 s ∧ es_colour s = CName "blue" ∧ es_arrow s = PFlt (1 # 2).
Proof.
  eexists (run [CNew false true (disp0 <| d_overwrite := true |> <| d_edge_styles := [((nm "a", nm "b", RId None), [("arrow_size", PInt 2); ("label_style", PStr "above")])] |>
    <| d_edge_colours := [((nm "a", nm "b", RId None), OvColour (PStr "green")); ((nm "b", nm "c", RId None), OvColour (PStr "blue"))] |>);
    CAddNode 0 (AName (nm "a")) nargs0; CAddNode 0 (AName (nm "b")) nargs0; CAddNode 0 (AName (nm "c")) nargs0;
    CConnect 0 (AName (nm "a")) (AName (nm "b")) eargs0; CConnect 0 (AName (nm "b")) (AName (nm "c")) eargs0] empty_heap), _, _, _.
  split; [reach|]. split; [vm_compute; reflexivity|]. split; [vm_compute; reflexivity|]. split; [by repeat split|]. split; [dec|]. split; [dec|].
  split; [intros i d [= -> ->]%elem_of_list_singleton; dec|].
  split; [vm_compute; reflexivity|]. split; [style_read|]. eexists. split; [style_read|]. by split.
Qed.
