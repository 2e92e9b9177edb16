(** Overwriting colours, and the styles of single edges: C69. *)
From Verif Require Export ProofC19.
From Verif Require ProofC9.
Local Open Scope list_scope.

Lemma set_style_locked h r N g G D a : h_nodes h !! r = Some N → n_graph N = Some g → n_style N ≠ None → h_graphs h !! g = Some G → g_disp G = Some D → d_overwrite D = false →
  node_set_style r a h = (h, Err RuntimeError).
Proof.
  intros HN Hg Hs HG HD Ho. unfold node_set_style. rewrite (sread_Ok _ _ _ N) by (by apply get_n_Ok). destruct (n_style N); [|done].
  unfold sbind, sread. rewrite Hg. cbn [overwrite_allowed]. rewrite (get_g_Ok _ _ _ HG). cbn [rbind]. rewrite HD. by rewrite Ho.
Qed.
Lemma set_estyle_locked h e E g G D a : h_edges h !! e = Some E → e_graph E = Some g → e_style E ≠ None → h_graphs h !! g = Some G → g_disp G = Some D → d_overwrite D = false →
  edge_set_style e a h = (h, Err RuntimeError).
Proof.
  intros HN Hg Hs HG HD Ho. unfold edge_set_style. rewrite (sread_Ok _ _ _ E) by (by apply get_e_Ok). destruct (e_style E); [|done].
  unfold sbind, sread. rewrite Hg. cbn [overwrite_allowed]. rewrite (get_g_Ok _ _ _ HG). cbn [rbind]. rewrite HD. by rewrite Ho.
Qed.
Lemma WF_ns h l : WF h → length l = length (h_ns h) → WF (h <| h_ns := l |>).
Proof. intros W Hl. destruct W. split; try done; cbn; rewrite Hl; done. Qed.
Lemma sread_inv {A} (f : heap → res A) h h' a : sread f h = (h', Ok a) → f h = Ok a ∧ h' = h.
Proof. unfold sread. destruct (f h); [|done]. by intros [= -> ->]. Qed.
Lemma get_n_inv h r N : get_n h r = Ok N → h_nodes h !! r = Some N.
Proof. unfold get_n. destruct (h_nodes h !! r); [|done]. by intros [= ->]. Qed.
Lemma get_e_inv h r N : get_e h r = Ok N → h_edges h !! r = Some N.
Proof. unfold get_e. destruct (h_edges h !! r); [|done]. by intros [= ->]. Qed.
Definition override_edge (g : gref) (kv : edge_id * sdict) : M unit :=
  let* d := sread (λ h, edges_dict h g) in
  let* e := sread (λ _, dgetR d kv.1) in
  edge_set_style e (SDict kv.2).
Lemma stylize_overrides g sh h G D : h_graphs h !! g = Some G → g_disp G = Some D → pensieve_only D →
  stylize g sh h = (do* stylize_with_pensieve g (d_scheme D) in do* siter (override_node g) (d_node_styles D) in do* siter (override_edge g) (d_edge_styles D) in
    do* siter (overwrite_node_colour g) (d_node_colours D) in siter (overwrite_edge_colour g) (d_edge_colours D)) h.
Proof.
  intros HG HD (H1 & H2 & H3). unfold stylize. rewrite (sread_Ok _ _ _ D). 2: { unfold get_display. rewrite (get_g_Ok _ _ _ HG). cbn [rbind]. by rewrite HD. }
  rewrite H1, H2, H3. cbn [when_dict]. rewrite eqb_same. change (λ kv : name * sdict, _) with (override_node g). change (λ kv : edge_id * sdict, _) with (override_edge g).
  unfold sbind, sret. destruct (stylize_with_pensieve g (d_scheme D) h) as [h1 [[]|x]]; [|done].
  destruct (siter (override_node g) (d_node_styles D) h1) as [h2 [[]|x]]; [|done]. destruct (siter (override_edge g) (d_edge_styles D) h2) as [h3 [[]|x]]; [|done].
  destruct (siter (overwrite_node_colour g) (d_node_colours D) h3) as [h4 [[]|x]]; [|done]. by destruct (siter (overwrite_edge_colour g) (d_edge_colours D) h4) as [h5 [[]|x]].
Qed.
(** C69.  Unless style_overwrite_allowed was given, the default stylist and any entry
    in the overwrites of edge styles, node colours or edge colours never go together:
    stylize does not succeed. *)
Lemma C69_never_partial_proof : ∀ h g G D sh h', reachable h → h_graphs h !! g = Some G → g_disp G = Some D → pensieve_only D → d_overwrite D = false →
  d_edge_styles D ≠ [] ∨ d_node_colours D ≠ [] ∨ d_edge_colours D ≠ [] → stylize g sh h ≠ (h', Ok tt).
Proof.
  intros h g G D sh h' Hr HG HD Hp Ho Hne. rewrite (stylize_overrides g sh h G D) by done. pose proof (reachable_WF h Hr) as W.
  intros (h1 & [] & H1 & (h2 & [] & H2 & (h3 & [] & H3 & (h4 & [] & H4 & H5)%sbind_Ok)%sbind_Ok)%sbind_Ok)%sbind_Ok.
  destruct (pensieve_post h g G (d_scheme D) h1) as [S _ Hes _ _ _]; [done..|]. pose proof (sa_WF _ _ _ S W) as W1. destruct (overrides_run _ _ _ _ H2) as (E2 & L2 & _). assert (W2 : WF h2) by (rewrite E2; by apply WF_ns).
  assert (HG1 : h_graphs h1 !! g = Some G) by (by rewrite (sa_graphs _ _ _ S)). assert (HG2 : h_graphs h2 !! g = Some G) by (by rewrite E2).
  assert (Hed : ∀ d k e, edges_dict h2 g = Ok d → dgetR d k = Ok e → ∃ E, h_edges h2 !! e = Some E ∧ e_graph E = Some g ∧ e_style E ≠ None).
  { intros d k e Hd He%dgetR_Ok. destruct (edges_dict_run h2 g G W2 HG2) as (d' & Hd' & _ & Hv & _).
    assert (d' = d) as -> by congruence. assert (e ∈ out_all h2 G) as Hin. { rewrite <-Hv. apply elem_of_list_fmap. exists (k, e). split; [done|]. by apply dget_Some_in. }
    apply (elem_of_out_all h2 g) in Hin as (x & y & Hj); [|done..]. assert (Hj1 : joins h1 g e x y) by (by rewrite E2 in Hj).
    destruct (Hes e) as (E & HE & Hs). { apply (elem_of_all_edges h g G); [done..|]. exists x, y. by apply (sa_joins _ _ _ S). }
    exists E. rewrite E2. split; [done|]. split; [|done]. destruct Hj1 as (E' & HE' & ? & _). congruence. }
  assert (d_edge_styles D = []) as He0.
  { destruct (d_edge_styles D) as [|kv kvs]; [done|]. cbn [siter] in H3. apply sbind_Ok in H3 as (h2' & [] & H3 & _). unfold override_edge in H3.
    apply sbind_Ok in H3 as (? & d & [Hd ->]%sread_inv & (? & e & [He ->]%sread_inv & H3)%sbind_Ok).
    destruct (Hed d kv.1 e) as (E & HE & HgE & Hs); [done..|]. rewrite (set_estyle_locked h2 e E g G D) in H3 by done. done. }
  rewrite He0 in H3. injection H3 as <-.
  assert (d_node_colours D = []) as Hn0.
  { destruct (d_node_colours D) as [|kv kvs]; [done|]. cbn [siter] in H4. apply sbind_Ok in H4 as (h2' & [] & H4 & _). unfold overwrite_node_colour in H4.
    apply sbind_Ok in H4 as (? & G' & [HG' ->]%sread_inv & (? & r & [Hr' ->]%sread_inv & (? & sty & [Hsty ->]%sread_inv & (? & cp & [Hcp ->]%sread_inv & (? & cp' & [Hcp' ->]%sread_inv & H4)%sbind_Ok)%sbind_Ok)%sbind_Ok)%sbind_Ok).
    assert (G' = G) as -> by (rewrite (get_g_Ok _ _ _ HG2) in HG'; congruence). apply dgetR_Ok, dget_Some_in in Hr'.
    unfold node_style in Hsty. destruct (get_n h2 r) as [N|] eqn:HN; [|done]. cbn [rbind] in Hsty. apply get_n_inv in HN. destruct (n_style N) as [k|] eqn:Hk; [|done].
    assert (HN1 : h_nodes h1 !! r = Some N) by (by rewrite E2 in HN). assert (n_graph N = Some g) as HgN.
    { destruct (proj1 (in_graph_node h1 g r W1)) as (N' & HN' & ?); [by exists G, kv.1|]. congruence. }
    unfold assign_nstyle in H4. apply sbind_Ok in H4 as (h3 & k' & Hnew & H4). unfold new_ns in Hnew. injection Hnew as <- <-.
    rewrite (set_style_locked _ r N g G D) in H4; [done|done|done|by rewrite Hk|done..]. }
  rewrite Hn0 in H4. injection H4 as <-.
  destruct (d_edge_colours D) as [|kv kvs]; [destruct Hne as [|[|]]; done|]. cbn [siter] in H5. apply sbind_Ok in H5 as (h2' & [] & H5 & _). unfold overwrite_edge_colour in H5.
  apply sbind_Ok in H5 as (? & d & [Hd ->]%sread_inv & (? & e & [He ->]%sread_inv & (? & E & [HE ->]%sread_inv & H5)%sbind_Ok)%sbind_Ok).
  destruct (Hed d kv.1 e) as (E' & HE' & HgE & Hs); [done..|]. apply get_e_inv in HE. assert (E' = E) as -> by congruence. destruct (e_style E) as [k|] eqn:Hk; [|done].
  apply sbind_Ok in H5 as (? & sty & [_ ->]%sread_inv & (? & cp & [_ ->]%sread_inv & H5)%sbind_Ok). destruct kv.2 as [v|d'].
  - apply sbind_Ok in H5 as (? & cp' & [_ ->]%sread_inv & (h3 & k' & Hnew & H5)%sbind_Ok). unfold new_es in Hnew. injection Hnew as <- <-.
    rewrite (set_estyle_locked _ e E g G D) in H5; [done|done|done|by rewrite Hk|done..].
  - apply sbind_Ok in H5 as (? & ? & _ & H5). done.
Qed.

Lemma recolour_value s v s1 s2 : coloured s → ns_copy s = Ok s1 → ns_set_colour v (ns_reset s1) = Ok s2 → ∃ c, to_colour v = Ok c ∧ s2 = tinted c s.
Proof.
  intros Hs H1. unfold ns_set_colour. destruct (to_colour v) as [c|]; [|done]. cbn [rbind]. intros [= <-]. exists c. split; [done|].
  pose proof (recolour_eq s c Hs) as Hre. unfold recolour in Hre. rewrite H1 in Hre. cbn [rbind] in Hre. assert (Hinj : ∀ x y : nstyle, Ok x = Ok y → x = y) by (by intros ?? [= ->]). by apply Hinj.
Qed.
Lemma colour_step g kv h h' : CI h → overwrite_node_colour g kv h = (h', Ok tt) → ∃ r N k s c, named h g kv.1 r ∧ h_nodes h !! r = Some N ∧ n_style N = Some k ∧ h_ns h !! k = Some s ∧
  to_colour kv.2 = Ok c ∧ h' = h <| h_nodes := <[r := N <| n_style := Some (length (h_ns h)) |>]> (h_nodes h) |> <| h_ns := h_ns h ++ [tinted c s] |>.
Proof.
  intros [HC _]. unfold overwrite_node_colour.
  intros (? & G & [HG ->]%sread_inv & (? & r & [Hr ->]%sread_inv & (? & sty & [Hsty ->]%sread_inv & (? & cp & [Hcp ->]%sread_inv & (? & cp' & [Hcp' ->]%sread_inv & H)%sbind_Ok)%sbind_Ok)%sbind_Ok)%sbind_Ok)%sbind_Ok.
  unfold get_g in HG. destruct (h_graphs h !! g) as [G'|] eqn:HG'; [|done]. injection HG as ->. apply dgetR_Ok, dget_Some_in in Hr.
  unfold node_style in Hsty. destruct (get_n h r) as [N|] eqn:HN; [|done]. cbn [rbind] in Hsty. apply get_n_inv in HN. destruct (n_style N) as [k|] eqn:Hk; [|done].
  destruct (h_ns h !! k) as [s|] eqn:Hs; [|done]. injection Hsty as ->. destruct (recolour_value sty kv.2 cp cp') as (c & Hc & ->); [|done..|].
  { rewrite Forall_forall in HC. apply HC. by eapply elem_of_list_lookup_2. }
  exists r, N, k, sty, c. split_and!; try done; [by exists G|]. unfold assign_nstyle in H. apply sbind_Ok in H as (h3 & k' & Hnew & H). unfold new_ns in Hnew. injection Hnew as <- <-.
  unfold node_set_style in H. rewrite (sread_Ok _ _ _ N) in H by (by apply get_n_Ok). apply sbind_Ok in H as (h3 & [] & H1 & H2).
  assert (h3 = h <| h_ns := h_ns h ++ [tinted c sty] |>) as ->.
  { rewrite Hk in H1. apply sbind_Ok in H1 as (? & b & [_ ->]%sread_inv & H1). destruct b; [|done]. by injection H1. }
  unfold resolve_nstyle, sbind, sret, upd_n in H2. cbn in H2. rewrite HN in H2. injection H2 as <-. reflexivity.
Qed.
Lemma dpres_overwrite_n g kv : dpres (overwrite_node_colour g kv).
Proof. unfold overwrite_node_colour. dpresM. Qed.
Lemma colours_run g kvs : ∀ h h', WF h → CI h → NoDup kvs.*1 → siter (overwrite_node_colour g) kvs h = (h', Ok tt) →
  h' = h <| h_nodes := h_nodes h' |> <| h_ns := h_ns h' |> ∧
  (∀ n v r, (n, v) ∈ kvs → named h g n r → ∃ s c, style_of h r s ∧ to_colour v = Ok c ∧ style_of h' r (tinted c s)) ∧
  (∀ r s, (∀ n v, (n, v) ∈ kvs → ¬ named h g n r) → style_of h r s → style_of h' r s).
Proof.
  induction kvs as [|[n0 v0] kvs IH]; intros h h' W HC Hnd; cbn [siter].
  { intros [= <-]. split; [by destruct h|]. split; [by intros ? ? ? ?%elem_of_nil|done]. }
  intros (h1 & [] & H1 & H2)%sbind_Ok. cbn in Hnd. apply NoDup_cons in Hnd as [Hni Hnd].
  assert (HC1 : CI h1). { pose proof (CI_overwrite_n g (n0, v0) h HC) as HI. by rewrite H1 in HI. }
  assert (W1 : WF h1). { eapply WF_data_only; [exact W|]. pose proof (dpres_overwrite_n g (n0, v0) h) as HI. by rewrite H1 in HI. }
  destruct (colour_step _ _ _ _ HC H1) as (r0 & N & k & s0 & c & Hn0 & HN & Hk & Hs0 & Hc & E1). cbn [fst snd] in *.
  assert (Hnm : ∀ n r, named h1 g n r ↔ named h g n r) by (intros; by rewrite E1).
  assert (Hold : ∀ r s, r ≠ r0 → style_of h r s ↔ style_of h1 r s).
  { intros r s Hne. rewrite E1. unfold style_of. cbn. rewrite list_lookup_insert_ne by done. split.
    - intros (M & j & HM & Hj & Hsj). exists M, j. split_and!; [done..|]. by apply lookup_app_l_Some.
    - intros (M & j & HM & Hj & Hsj). exists M, j. split_and!; [done..|]. rewrite lookup_app_l in Hsj; [done|]. by eapply (wf_nstyle _ W r M). }
  assert (Hnew : style_of h1 r0 (tinted c s0)).
  { rewrite E1. eexists _, _. cbn. split; [apply list_lookup_insert; by eapply lookup_lt_Some|]. split; [done|]. by rewrite lookup_app_r, Nat.sub_diag by lia. }
  destruct (IH h1 h' W1 HC1 Hnd H2) as (E & HA & HB). split_and!.
  - rewrite E, E1. by destruct h.
  - intros n v r [[= -> ->]|Hin]%elem_of_cons Hn.
    + assert (r = r0) as -> by exact (named_inj h g n0 r r0 W Hn Hn0). exists s0, c. split; [by exists N, k|]. split; [done|]. apply HB; [|done].
      intros n' v' Hin' Hn'%Hnm. destruct Hni. apply elem_of_list_fmap. exists (n', v'). split; [|done]. cbn; eapply (ProofC9.named_name h g _ _ r0 W); eassumption.
    + destruct (HA n v r Hin) as (s & c' & Hs & Hc' & Hs'); [by apply Hnm|]. exists s, c'. split_and!; try done. apply Hold; [|done]. intros ->.
      destruct Hni. apply elem_of_list_fmap. exists (n, v). split; [|done]. cbn; eapply (ProofC9.named_name h g _ _ r0 W); eassumption.
  - intros r s Hno Hs. apply HB; [intros n v Hin Hn%Hnm; by apply (Hno n v); [right|]|]. apply Hold; [|done]. intros ->. apply (Hno n0 v0); [left|done].
Qed.
(** C69.  With overwriting allowed and only node colours given, a successful call of
    stylize does what the default stylist does; then each named node has the given
    colour, with fill, border and text colours derived from it, and the other attributes
    it got from the stylist or had before; all other nodes have the same style as without
    the overwrites, and so have the edges, also those that start at a named node. *)
Lemma C69_node_colours_partial_proof : ∀ h g G D sh h', reachable h → h_graphs h !! g = Some G → g_disp G = Some D → node_colours_only D → NoDup (d_node_colours D).*1 →
  stylize g sh h = (h', Ok tt) → ∃ h1, stylize_with_pensieve g (d_scheme D) h = (h1, Ok tt) ∧
  (∀ n v r, (n, v) ∈ d_node_colours D → named h g n r → ∃ s c, style_of h1 r s ∧ to_colour v = Ok c ∧ style_of h' r (tinted c s)) ∧
  (∀ r s, (∀ n v, (n, v) ∈ d_node_colours D → ¬ named h g n r) → style_of h1 r s → style_of h' r s) ∧
  (∀ e s, edge_style_of h' e s ↔ edge_style_of h1 e s).
Proof.
  intros h g G D sh h' Hr HG HD (Hp & He & Hn & Hc) Hnd. rewrite (stylize_overrides g sh h G D) by done. pose proof (reachable_WF h Hr) as W. rewrite He, Hn, Hc. cbn [siter].
  intros (h1 & [] & H1 & (h2 & [] & [= <-] & (h3 & [] & [= <-] & (h4 & [] & H4 & [= <-])%sbind_Ok)%sbind_Ok)%sbind_Ok)%sbind_Ok. exists h1. split; [done|].
  destruct (pensieve_post h g G (d_scheme D) h1) as [S _ _ _ _ _]; [done..|]. pose proof (sa_WF _ _ _ S W) as W1.
  assert (HC1 : CI h1). { pose proof (CI_pensieve g (d_scheme D) h (reachable_CI h Hr)) as HI. by rewrite H1 in HI. }
  destruct (colours_run g _ h1 h4 W1 HC1 Hnd H4) as (E & HA & HB).
  assert (Hnm : ∀ n r, named h1 g n r ↔ named h g n r) by (intros n r; unfold named; by rewrite (sa_graphs _ _ _ S)). split_and!.
  - intros n v r Hin Hn'. apply (HA n v r Hin). by apply Hnm.
  - intros r s Hno. apply HB. intros n v Hin Hn'%Hnm. by apply (Hno n v).
  - intros e s. by rewrite E.
Qed.
(** C69 refuted: a -> b, appended with the colour green for node a.  stylize raises
    RuntimeError although nothing had a style before. *)
Lemma C69_node_colour_refuted_proof : ∃ h G D h', reachable h ∧ h_graphs h !! 0 = Some G ∧ g_disp G = Some D ∧ node_colours_only D ∧ d_overwrite D = false ∧ (∀ r, ¬ node_styled h r) ∧
  d_node_colours D = [(nm "a", PStr "green")] ∧ named h 0 (nm "a") 0 ∧ stylize 0 id h = (h', Err RuntimeError).
Proof.
  eexists (run [CNew false true disp0; CAppend 0 (ODict (over_repr [nm "a"; nm "b"] [(nm "a", nm "b")] [] [(nm "a", PStr "green")] []))] empty_heap), _, _, _.
  split; [reach_over|]. split; [vm_compute; reflexivity|]. split; [vm_compute; reflexivity|]. split; [by repeat split|]. split; [done|].
  split. { intros r (N & HN & Hs). destruct r as [|[|]]; vm_compute in HN; [by injection HN as <-..|done]. }
  split; [vm_compute; reflexivity|]. split; [eexists; split; [vm_compute; reflexivity|]; left|]. vm_compute; reflexivity.
Qed.
(** C69 refuted, with overwriting allowed: a becomes green, but the edge from a to b has
    the shade of red that it had without the overwrite. *)
Lemma C69_edge_shade_refuted_proof : ∃ h G D h' s es, reachable h ∧ h_graphs h !! 0 = Some G ∧ g_disp G = Some D ∧ node_colours_only D ∧ NoDup (d_node_colours D).*1 ∧ d_overwrite D = true ∧
  d_node_colours D = [(nm "a", PStr "green")] ∧ named h 0 (nm "a") 0 ∧ stylize 0 id h = (h', Ok tt) ∧ joins h' 0 0 0 1 ∧ style_of h' 0 s ∧ ns_colour s = CName "green" ∧
  edge_style_of h' 0 es ∧ es_colour es = CDarken (CName "red") (1 # 10).
Proof.
  eexists (run [CNew false true (disp0 <| d_overwrite := true |>); CAppend 0 (ODict (over_repr [nm "a"; nm "b"] [(nm "a", nm "b")] [] [(nm "a", PStr "green")] []))] empty_heap), _, _, _, _, _.
  split; [reach_over|]. split; [vm_compute; reflexivity|]. split; [vm_compute; reflexivity|]. split; [by repeat split|]. split; [dec|]. split; [done|]. split; [vm_compute; reflexivity|].
  split; [eexists; split; [vm_compute; reflexivity|]; left|]. split; [vm_compute; reflexivity|]. split; [eexists; split; [vm_compute; reflexivity|by repeat split]|].
  split; [style_read|]. split; [reflexivity|]. split; [style_read|]. reflexivity.
Qed.
