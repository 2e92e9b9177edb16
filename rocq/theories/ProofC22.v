(** The random stylist: C70. *)
From Verif Require Export ProofC21.
Local Open Scope list_scope.

Definition random_node (used : dict colour nat) (r : nref) : M (dict colour nat) :=
  let* (used, c) := sread (λ _, get_least_used_colour used) in
  let* sty := sread (λ _, nstyle_ctor [("colour"%string, PCol c)]) in
  do* assign_nstyle r sty in
  sret used.
Lemma stylize_random g sh h G D : h_graphs h !! g = Some G → g_disp G = Some D → random_styling D →
  stylize g sh h = (do* sfold random_node (colours_used0 (d_scheme D)) (sh (dvals (g_nodes G))) in stylize_edges_based_on_nodes g) h.
Proof.
  intros HG HD (H1 & H2 & H3 & H4 & H5 & H6 & H7). unfold stylize. rewrite (sread_Ok _ _ _ D). 2: { unfold get_display. rewrite (get_g_Ok _ _ _ HG). cbn [rbind]. by rewrite HD. }
  rewrite H1, H2, H3, H4, H5, H6, H7. cbn [when_dict siter]. assert (eqb (PStr "random") (PStr "pensieve") = false) as -> by done. rewrite eqb_same.
  transitivity (stylize_randomly g (d_scheme D) sh h).
  { unfold sbind, sret. by destruct (stylize_randomly g (d_scheme D) sh h) as [h1 [[]|x]]. }
  unfold stylize_randomly. by rewrite (sread_Ok _ _ _ (dvals (g_nodes G))) by (by apply nodes_run).
Qed.
(** A node that can get a style. *)
Definition free (D : display) (N : node) : Prop := n_style N = None ∨ d_overwrite D = true.
#[local] Instance free_dec D N : Decision (free D N).
Proof. unfold free. apply _. Defined.
Lemma random_step h g G D r N used used' c : h_graphs h !! g = Some G → g_disp G = Some D → h_nodes h !! r = Some N → n_graph N = Some g → get_least_used_colour used = Ok (used', c) →
  random_node used r h = if decide (free D N)
    then (h <| h_nodes := <[r := N <| n_style := Some (length (h_ns h)) |>]> (h_nodes h) |> <| h_ns := h_ns h ++ [standard_node c] |>, Ok used')
    else (h <| h_ns := h_ns h ++ [standard_node c] |>, Err RuntimeError).
Proof.
  intros HG HD HN Hg Hu. unfold random_node. rewrite (sread_Ok _ _ _ (used', c)) by done. destruct (root_style_ex c) as [s Hs]. rewrite (sread_Ok _ _ _ s) by done.
  apply root_style_eq in Hs as ->. destruct (decide (free D N)) as [Hf|Hf].
  - unfold assign_nstyle, new_ns, node_set_style, sbind, sread, sret, resolve_nstyle, upd_n, get_n. cbn. rewrite HN. cbn. destruct (n_style N) as [k|] eqn:Hk; cbn.
    + destruct Hf as [Hf|Hf]; [by rewrite Hk in Hf|]. rewrite Hg. cbn. unfold get_g. cbn. rewrite HG. cbn. rewrite HD. cbn. rewrite Hf. cbn. rewrite ?HN. reflexivity.
    + by rewrite ?HN.
  - unfold assign_nstyle. unfold sbind at 1, new_ns. unfold sbind at 1. rewrite (set_style_locked _ r N g G D); try done.
    + intros Hn. apply Hf. by left.
    + destruct (d_overwrite D) eqn:Ho; [|done]. destruct Hf. by right.
Qed.
Lemma dpres_random used r : dpres (random_node used r).
Proof. unfold random_node. dpresM. Qed.
Lemma random_loop g G D : g_disp G = Some D → ∀ rs h used, WF h → h_graphs h !! g = Some G → NoDup rs → (∀ r, r ∈ rs → in_graph h g r) →
  ((∀ r N, r ∈ rs → h_nodes h !! r = Some N → free D N) →
   match pick (length rs) used with
   | Err x => ∃ h', sfold random_node used rs h = (h', Err x)
   | Ok (used', cl) => ∃ h' l, sfold random_node used rs h = (h', Ok used') ∧ WF h' ∧ h' = h <| h_nodes := h_nodes h' |> <| h_ns := h_ns h ++ l |> ∧
       (∀ r, h_nodes h' !! r = (λ N, N <| n_style := (h_nodes h' !! r) ≫= n_style |>) <$> h_nodes h !! r) ∧
       (∀ r, r ∉ rs → h_nodes h' !! r = h_nodes h !! r) ∧ Forall2 (λ r c, style_of h' r (standard_node c)) rs cl
   end) ∧
  ((∃ r N, r ∈ rs ∧ h_nodes h !! r = Some N ∧ ¬ free D N) → used ≠ [] → ∃ h', sfold random_node used rs h = (h', Err RuntimeError)).
Proof.
  intros HD. induction rs as [|r rs IH]; intros h used W HG Hnd Hin.
  { split; [|by intros (? & ? & ?%elem_of_nil & _)]. intros _. cbn. exists h, []. split_and!; try done; [by rewrite app_nil_r; destruct h|]. intros r. destruct (h_nodes h !! r) as [N|]; [|done]. cbn. by destruct N. }
  apply NoDup_cons in Hnd as [Hni Hnd]. destruct (in_graph_lookup h W g r) as (N & HN & Hg); [apply Hin; left|]. cbn [sfold length pick].
  destruct (get_least_used_colour used) as [[used' c]|x] eqn:Hu.
  2: { split; [|destruct used as [|p used]; [done|]; cbn in Hu; by destruct (least_used p used)]. intros _. cbn. exists h. apply sbind_fail. unfold random_node. by rewrite (sread_Err _ _ _ x). }
  cbn [rbind]. pose proof (random_step h g G D r N used used' c HG HD HN Hg Hu) as Hstep. destruct (decide (free D N)) as [Hf|Hf].
  - set (h1 := h <| h_nodes := _ |> <| h_ns := _ |>) in Hstep. pose proof (lookup_lt_Some _ _ _ HN) as Hlt.
    assert (W1 : WF h1). { eapply WF_data_only; [exact W|]. pose proof (dpres_random used r h) as HI. by rewrite Hstep in HI. }
    assert (Ho : ∀ r', r' ≠ r → h_nodes h1 !! r' = h_nodes h !! r') by (intros; unfold h1; cbn; by rewrite list_lookup_insert_ne).
    assert (Hr1 : h_nodes h1 !! r = Some (N <| n_style := Some (length (h_ns h)) |>)) by (unfold h1; cbn; by apply list_lookup_insert).
    destruct (IH h1 used') as [IH1 IH2]; [done|done|done| |]. { intros r' Hr'. destruct (Hin r') as (G' & k & ? & ?); [by right|]. by exists G', k. }
    split.
    + intros Hfree. rewrite (sbind_step _ _ _ _ _ Hstep). assert (∀ r' N', r' ∈ rs → h_nodes h1 !! r' = Some N' → free D N') as Hf1.
      { intros r' N' Hr' HN'. apply (Hfree r'); [by right|]. rewrite <-Ho; [done|]. by intros ->. }
      specialize (IH1 Hf1). destruct (pick (length rs) used') as [[used2 cl]|x]; cbn [rbind]; [|done].
      destruct IH1 as (h2 & l & Hr & W2 & E & Hn & Ho2 & HF). exists h2, (standard_node c :: l). split_and!; [done|done|..].
      * rewrite E. unfold h1. destruct h. cbn. by rewrite <-app_assoc.
      * intros r'. destruct (decide (r' = r)) as [->|Hne].
        -- rewrite Hn at 1. rewrite Hr1, HN. cbn. done.
        -- rewrite Hn at 1. by rewrite Ho.
      * intros r' [Hne Hni']%not_elem_of_cons. by rewrite Ho2, Ho.
      * constructor; [|done]. exists (N <| n_style := Some (length (h_ns h)) |>), (length (h_ns h)). split_and!; [by rewrite Ho2|done|]. rewrite E. cbn.
        rewrite <-app_assoc, lookup_app_r, Nat.sub_diag by lia. done.
    + intros (r' & N' & Hr' & HN' & Hf') Hne. rewrite (sbind_step _ _ _ _ _ Hstep). apply elem_of_cons in Hr' as [->|Hr']; [congruence|]. apply IH2.
      * exists r', N'. split; [done|]. split; [|done]. rewrite Ho; [done|]. by intros ->.
      * intros ->. destruct used as [|p used]; [done|]. cbn in Hu. destruct (least_used p used) as [cc kk] eqn:Hl. injection Hu as Hx _.
        revert Hx. clear. unfold dset. destruct p as [a b]. cbn. by destruct (decide _).
  - split.
    + intros Hfree. destruct Hf. apply (Hfree r); [left|done].
    + intros _ _. eexists. by apply sbind_fail.
Qed.

Lemma random_nodes h g G sh : WF h → h_graphs h !! g = Some G → (∀ l, sh l ≡ₚ l) → NoDup (sh (dvals (g_nodes G))) ∧ ∀ r, r ∈ sh (dvals (g_nodes G)) ↔ in_graph h g r.
Proof. intros W HG Hsh. split; [rewrite Hsh; by eapply (NoDup_nodes h g G)|]. intros r. rewrite (Hsh _). by apply elem_of_nodes. Qed.
#[local] Instance numeric_dec v : Decision (numeric v).
Proof. destruct v; cbn; apply _. Defined.
Lemma edges_from h g G : WF h → h_graphs h !! g = Some G → (∀ e x y, joins h g e x y → node_styled h x) →
  ((∀ e x y E, joins h g e x y → h_edges h !! e = Some E → e_style E = None → numeric (e_value E)) → ∃ h', stylize_edges_based_on_nodes g h = (h', Ok tt)) ∧
  (∀ h', stylize_edges_based_on_nodes g h = (h', Ok tt) → styles_added g h h' ∧ h_nodes h' = h_nodes h ∧ h_ns h' = h_ns h ∧
    ∀ e x y, joins h g e x y → ¬ edge_styled h e → ∃ s a, style_of h' x s ∧ edge_style_of h' e (standard_edge (CDarken (ns_colour s) (1 # 10)%Q) a)).
Proof.
  intros W HG Hst. unfold stylize_edges_based_on_nodes. rewrite (sread_Ok _ _ _ (all_edges h G)) by (by apply graph_edges_run).
  assert (Hin : ∀ e, e ∈ all_edges h G → ∃ x y, joins h g e x y) by (intros e; by apply elem_of_all_edges). assert (Hnd : NoDup (all_edges h G)) by apply NoDup_nub.
  assert (Hun : ∀ e, e ∈ unstyled_edges h (all_edges h G) → ∃ x y E, joins h g e x y ∧ h_edges h !! e = Some E ∧ e_style E = None).
  { intros e [He1 He2]%elem_of_list_filter. destruct (Hin e He2) as (x & y & Hj). pose proof Hj as (E & HE & _). exists x, y, E. split_and!; try done. by rewrite HE in He1. }
  split.
  - intros Hnum. destruct (edges_ok h g (all_edges h G) None (1 # 2)%Q) as (h' & c' & Hr & _); [done|by left|done|done| |exists h'; by rewrite (sbind_step _ _ _ _ _ Hr)].
    intros e He. destruct (Hun e He) as (x & y & E & Hj & HE & Hs). exists x, y, E. split_and!; eauto.
  - intros h' Hr0. destruct (list_decide (good_edge h g) (unstyled_edges h (all_edges h G))) as [Hgood|Hbad].
    { intros e He. destruct (Hun e He) as (x & y & E & Hj & HE & Hs). destruct (decide (numeric (e_value E))) as [Hn|Hn]; [left; exists x, y, E; split_and!; eauto|right].
      intros (x' & y' & E' & _ & HE' & _ & Hn'). congruence. }
    2: { destruct (edges_fail h g (all_edges h G) None (1 # 2)%Q) as (h2 & x & Hr & _); [done|by left|done..|]. by rewrite (sbind_fail _ _ _ _ _ Hr) in Hr0. }
    destruct (edges_ok h g (all_edges h G) None (1 # 2)%Q) as (h2 & c' & Hr & S & Hn1 & Hn2 & _ & Har); [done|by left|done..|]. rewrite (sbind_step _ _ _ _ _ Hr) in Hr0.
    injection Hr0 as <-. split_and!; try done. intros e x y Hj Hn. assert (He : e ∈ unstyled_edges h (all_edges h G)).
    { apply elem_of_unstyled_iff. left. split; [|done]. apply (elem_of_all_edges h g); eauto. }
    apply elem_of_list_lookup in He as [i Hi]. destruct (Har i e Hi) as (x' & y' & s & a & Hj' & Hs & Hes & _).
    assert (x' = x) as -> by (destruct Hj as (? & ? & _ & ? & _), Hj' as (? & ? & _ & ? & _); congruence). exists s, a. split; [|done]. by apply (sa_style_of g h h2).
Qed.

(** What is known after the loop over the nodes. *)
Lemma random_after h g G D sh : WF h → h_graphs h !! g = Some G → g_disp G = Some D → (∀ l, sh l ≡ₚ l) →
  ((d_overwrite D = true ∨ ∀ r, in_graph h g r → ¬ node_styled h r) → d_scheme D ≠ [] → ∃ h1 used cl, pick (length (g_nodes G)) (colours_used0 (d_scheme D)) = Ok (used, cl) ∧
    sfold random_node (colours_used0 (d_scheme D)) (sh (dvals (g_nodes G))) h = (h1, Ok used) ∧ WF h1 ∧ h_graphs h1 = h_graphs h ∧ h_edges h1 = h_edges h ∧ h_es h1 = h_es h ∧
    Forall2 (λ r c, style_of h1 r (standard_node c)) (sh (dvals (g_nodes G))) cl ∧ ∀ r, in_graph h g r → node_styled h1 r) ∧
  (d_overwrite D = false → d_scheme D ≠ [] → (∃ r, in_graph h g r ∧ node_styled h r) → ∃ h1, sfold random_node (colours_used0 (d_scheme D)) (sh (dvals (g_nodes G))) h = (h1, Err RuntimeError)).
Proof.
  intros W HG HD Hsh. destruct (random_nodes h g G sh W HG Hsh) as [Hnd Hin]. destruct (random_loop g G D HD (sh (dvals (g_nodes G))) h (colours_used0 (d_scheme D))) as [H1 H2]; [done|done|done|by intros r ?%Hin|].
  assert (Hlen : length (sh (dvals (g_nodes G))) = length (g_nodes G)) by (rewrite Hsh; unfold dvals; by rewrite fmap_length). split.
  - intros Hfree Hne. destruct (C43_rotation_proof (d_scheme D) (length (g_nodes G)) Hne) as (used & cl & Hp & _). rewrite Hlen, Hp in H1. destruct H1 as (h1 & l & Hr & W1 & E & Hn & Ho & HF).
    { intros r N Hr HN. unfold free. destruct Hfree as [?|Hun]; [by right|left]. destruct (n_style N) eqn:Hs; [|done]. destruct (Hun r); [by apply Hin|]. exists N. by rewrite Hs. }
    exists h1, used, cl. split_and!; try done; try (by rewrite E). intros r Hr'%Hin. apply elem_of_list_lookup in Hr' as [i Hi].
    destruct (Forall2_lookup_l _ _ _ _ _ HF Hi) as (c & _ & (N & k & HN & Hk & _)). exists N. by rewrite Hk.
  - intros Ho Hne (r & Hr & N & HN & Hs). apply H2.
    + exists r, N. split; [by apply Hin|]. split; [done|]. intros [?|?]; congruence.
    + intros Hx. destruct (C43_rotation_proof (d_scheme D) 1 Hne) as (used & cl & Hp & _). rewrite Hx in Hp. done.
Qed.

(** C70.  With the stylist 'random', a non-empty scheme and values of the unstyled edges
    that are None or numbers, stylize succeeds if no node has a style or overwriting is
    allowed. *)
Lemma C70_succeeds_partial_proof : ∀ h g G D sh, reachable h → h_graphs h !! g = Some G → g_disp G = Some D → random_styling D → (∀ l, sh l ≡ₚ l) → d_scheme D ≠ [] →
  d_overwrite D = true ∨ (∀ r, in_graph h g r → ¬ node_styled h r) →
  (∀ e x y E, joins h g e x y → h_edges h !! e = Some E → e_style E = None → numeric (e_value E)) → ∃ h', stylize g sh h = (h', Ok tt).
Proof.
  intros h g G D sh Hr HG HD Hd Hsh Hne Hfree Hnum. pose proof (reachable_WF h Hr) as W. rewrite (stylize_random g sh h G D) by done.
  destruct (random_after h g G D sh W HG HD Hsh) as [HA _]. destruct (HA Hfree Hne) as (h1 & used & cl & _ & Hrun & W1 & Eg & Ee & Ees & _ & Hst). rewrite (sbind_step _ _ _ _ _ Hrun).
  destruct (edges_from h1 g G W1) as [Hok _]; [by rewrite Eg| |].
  - intros e x y Hj. apply Hst. destruct (joins_in_graph h g e x y W) as [? _]; [|done]. unfold joins in *. by rewrite <-Ee.
  - apply Hok. intros e x y E Hj HE. apply (Hnum e x y E); [|by rewrite <-Ee]. unfold joins in *. by rewrite <-Ee.
Qed.
(** C70.  When it succeeds, the i-th node in the shuffled order has the default style
    with the i-th colour of the scheme, in turn; every edge that had no style has the
    default style with the colour of its start a tenth darker (for the arrow size see
    C70_arrow_partial); the styles of the other edges are unchanged. *)
Lemma C70_effect_partial_proof : ∀ h g G D sh h' ns, reachable h → h_graphs h !! g = Some G → g_disp G = Some D → random_styling D → (∀ l, sh l ≡ₚ l) → d_scheme D ≠ [] →
  stylize g sh h = (h', Ok tt) → nodes h g = Ok ns →
  (∀ i r, sh ns !! i = Some r → ∃ c, distinct (d_scheme D) !! (i mod length (distinct (d_scheme D))) = Some c ∧ style_of h' r (standard_node c)) ∧
  (∀ e x y, joins h g e x y → ¬ edge_styled h e → ∃ s a, style_of h' x s ∧ edge_style_of h' e (standard_edge (CDarken (ns_colour s) (1 # 10)%Q) a)) ∧
  (∀ e s, edge_style_of h e s → edge_style_of h' e s).
Proof.
  intros h g G D sh h' ns Hr HG HD Hd Hsh Hne Hrun Hns. pose proof (reachable_WF h Hr) as W. rewrite (nodes_run h g G) in Hns by done. injection Hns as <-.
  rewrite (stylize_random g sh h G D) in Hrun by done. destruct (random_after h g G D sh W HG HD Hsh) as [HA HB].
  assert (Hfree : d_overwrite D = true ∨ ∀ r, in_graph h g r → ¬ node_styled h r).
  { destruct (d_overwrite D) eqn:Ho; [by left|right]. intros r Hi Hs. destruct (HB eq_refl Hne) as [h1 Hx]; [eauto|]. by rewrite (sbind_fail _ _ _ _ _ Hx) in Hrun. }
  destruct (HA Hfree Hne) as (h1 & used & cl & Hp & Hrun1 & W1 & Eg & Ee & Ees & HF & Hst). rewrite (sbind_step _ _ _ _ _ Hrun1) in Hrun.
  destruct (edges_from h1 g G W1) as [_ Hed]; [by rewrite Eg| |].
  { intros e x y Hj. apply Hst. destruct (joins_in_graph h g e x y W) as [? _]; [|done]. unfold joins in *. by rewrite <-Ee. }
  destruct (Hed h' Hrun) as (S & Hn1 & Hn2 & Har). split_and!.
  - intros i r Hi. destruct (Forall2_lookup_l _ _ _ _ _ HF Hi) as (c & Hc & Hs). exists c. split; [|by apply (sa_style_of g h1 h' S)].
    destruct (C43_rotation_proof (d_scheme D) (length (g_nodes G)) Hne) as (u' & cl' & Hp' & Hlen & Hrot & _). assert (cl' = cl) as -> by congruence.
    rewrite <-Hrot; [done|]. rewrite <-Hlen. by eapply lookup_lt_Some.
  - intros e x y Hj Hn. apply (Har e x y); [unfold joins in *; by rewrite Ee|]. unfold edge_styled in *. by rewrite Ee.
  - intros e s Hs. apply (sa_edge_style_of g h1 h' S). unfold edge_style_of in *. by rewrite Ee, Ees.
Qed.
(** C70.  If some node has a style already, and overwriting is not allowed, it raises
    RuntimeError. *)
Lemma C70_raises_partial_proof : ∀ h g G D sh, reachable h → h_graphs h !! g = Some G → g_disp G = Some D → random_styling D → (∀ l, sh l ≡ₚ l) → d_scheme D ≠ [] →
  d_overwrite D = false → (∃ r, in_graph h g r ∧ node_styled h r) → ∃ h', stylize g sh h = (h', Err RuntimeError).
Proof.
  intros h g G D sh Hr HG HD Hd Hsh Hne Ho Hs. pose proof (reachable_WF h Hr) as W. rewrite (stylize_random g sh h G D) by done.
  destruct (random_after h g G D sh W HG HD Hsh) as [_ HB]. destruct (HB Ho Hne Hs) as [h1 Hx]. exists h1. by apply sbind_fail.
Qed.
(** C70 refuted: a -> b with the stylist 'random' and no styles.  The first stylize
    succeeds, the second raises RuntimeError. *)
Lemma C70_again_refuted_proof : ∃ h G D h1 h2, reachable h ∧ h_graphs h !! 0 = Some G ∧ g_disp G = Some D ∧ random_styling D ∧ d_overwrite D = false ∧
  (∀ r, in_graph h 0 r → ¬ node_styled h r) ∧ stylize 0 id h = (h1, Ok tt) ∧ reachable h1 ∧ stylize 0 id h1 = (h2, Err RuntimeError).
Proof.
  eexists (run [CNew false true (disp0 <| d_stylist := PStr "random" |>); CAppend 0 (ODict (over_repr [nm "a"; nm "b"] [(nm "a", nm "b")] [] [] []))] empty_heap), _, _, _, _.
  split; [reach_over|]. split; [vm_compute; reflexivity|]. split; [vm_compute; reflexivity|]. split; [by repeat split|]. split; [done|].
  split. { intros r _ (N & HN & Hs). destruct r as [|[|]]; vm_compute in HN; [by injection HN as <-..|done]. }
  split; [vm_compute; reflexivity|]. split; [|vm_compute; reflexivity].
  match goal with |- reachable ?h1 => change (reachable (run [CNew false true (disp0 <| d_stylist := PStr "random" |>); CAppend 0 (ODict (over_repr [nm "a"; nm "b"] [(nm "a", nm "b")] [] [] [])); CStylize 0 id] empty_heap)) end.
  reach_over.
Qed.
(** C70, an instance: a -> b -> c with the scheme red, blue, the order reversed.  c is
    red, b is blue, a is red again; the edge from a is a tenth darker than red. *)
Lemma C70_ex_proof : ∃ h G D h' s, reachable h ∧ h_graphs h !! 0 = Some G ∧ g_disp G = Some D ∧ random_styling D ∧ d_scheme D = [CName "red"; CName "blue"] ∧ (∀ r, in_graph h 0 r → ¬ node_styled h r) ∧
  nodes h 0 = Ok [0; 1; 2] ∧ (∀ l : list nat, reverse l ≡ₚ l) ∧ stylize 0 reverse h = (h', Ok tt) ∧ style_of h' 2 (standard_node (CName "red")) ∧ style_of h' 1 (standard_node (CName "blue")) ∧
  style_of h' 0 (standard_node (CName "red")) ∧ joins h' 0 0 0 1 ∧ edge_style_of h' 0 s ∧ es_colour s = CDarken (CName "red") (1 # 10).
Proof.
  eexists (run [CNew false true (disp0 <| d_stylist := PStr "random" |> <| d_scheme := [CName "red"; CName "blue"] |>); CAppend 0 (ODict (over_repr [nm "a"; nm "b"; nm "c"] [(nm "a", nm "b"); (nm "b", nm "c")] [] [] []))] empty_heap), _, _, _, _.
  split; [reach_over|]. split; [vm_compute; reflexivity|]. split; [vm_compute; reflexivity|]. split; [by repeat split|]. split; [done|].
  split. { intros r _ (N & HN & Hs). destruct r as [|[|[|]]]; vm_compute in HN; [by injection HN as <-..|done]. }
  split; [vm_compute; reflexivity|]. split; [apply reverse_Permutation|]. split; [vm_compute; reflexivity|]. split; [style_read|]. split; [style_read|]. split; [style_read|].
  split; [eexists; split; [vm_compute; reflexivity|by repeat split]|]. split; [style_read|]. reflexivity.
Qed.
