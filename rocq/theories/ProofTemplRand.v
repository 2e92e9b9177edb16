(** The random stylist with templates. *)
From Verif Require Export ProofTempl.
Local Open Scope list_scope.

Definition random_mainnode (main : option nstyle) (used : dict colour nat) (r : nref) : M (dict colour nat) :=
  let* (used, c) := sread (λ _, get_least_used_colour used) in
  let* sty := sread (λ _, templated main c) in
  do* assign_nstyle r sty in
  sret used.
#[local] Instance free_dec D N : Decision (free D N).
Proof. unfold free. apply _. Defined.
#[local] Instance numeric_dec v : Decision (numeric v).
Proof. destruct v; cbn; apply _. Defined.
Lemma random_mainsplit main tmpl dark g sh h G D : h_graphs h !! g = Some G → g_disp G = Some D →
  random_main main tmpl dark g sh h = (do* sfold (random_mainnode main) (colours_used0 (d_scheme D)) (sh (dvals (g_nodes G))) in stylize_edges_main tmpl dark g) h.
Proof.
  intros HG HD. unfold random_main. rewrite (sread_Ok _ _ _ D). 2: { unfold get_display. rewrite (get_g_Ok _ _ _ HG). cbn [rbind]. by rewrite HD. }
  by rewrite (sread_Ok _ _ _ (dvals (g_nodes G))) by (by apply nodes_run).
Qed.
Lemma random_mainstep main h g G D r N used used' c : fine_node main → h_graphs h !! g = Some G → g_disp G = Some D → h_nodes h !! r = Some N → n_graph N = Some g → get_least_used_colour used = Ok (used', c) →
  random_mainnode main used r h = if decide (free D N)
    then (h <| h_nodes := <[r := N <| n_style := Some (length (h_ns h)) |>]> (h_nodes h) |> <| h_ns := h_ns h ++ [node_made main c] |>, Ok used')
    else (h <| h_ns := h_ns h ++ [node_made main c] |>, Err RuntimeError).
Proof.
  intros FN HG HD HN Hg Hu. unfold random_mainnode. rewrite (sread_Ok _ _ _ (used', c)) by done. rewrite (sread_Ok _ _ _ (node_made main c)) by (by apply templated_eq). destruct (decide (free D N)) as [Hf|Hf].
  - unfold assign_nstyle, new_ns, node_set_style, sbind, sread, sret, resolve_nstyle, upd_n, get_n. cbn. rewrite HN. cbn. destruct (n_style N) as [k|] eqn:Hk; cbn.
    + destruct Hf as [Hf|Hf]; [by rewrite Hk in Hf|]. rewrite Hg. cbn. unfold get_g. cbn. rewrite HG. cbn. rewrite HD. cbn. rewrite Hf. cbn. rewrite ?HN. reflexivity.
    + by rewrite ?HN.
  - unfold assign_nstyle. unfold sbind at 1, new_ns. unfold sbind at 1. rewrite (set_style_locked _ r N g G D); try done.
    + intros Hn. apply Hf. by left.
    + destruct (d_overwrite D) eqn:Ho; [|done]. destruct Hf. by right.
Qed.
Lemma dpres_randomM main used r : dpres (random_mainnode main used r).
Proof. unfold random_mainnode. dpresM. Qed.
Lemma random_mainloop main g G D : fine_node main → g_disp G = Some D → ∀ rs h used, WF h → h_graphs h !! g = Some G → NoDup rs → (∀ r, r ∈ rs → in_graph h g r) →
  ((∀ r N, r ∈ rs → h_nodes h !! r = Some N → free D N) →
   match pick (length rs) used with
   | Err x => ∃ h', sfold (random_mainnode main) used rs h = (h', Err x)
   | Ok (used', cl) => ∃ h' l, sfold (random_mainnode main) used rs h = (h', Ok used') ∧ WF h' ∧ h' = h <| h_nodes := h_nodes h' |> <| h_ns := h_ns h ++ l |> ∧
       (∀ r, h_nodes h' !! r = (λ N, N <| n_style := (h_nodes h' !! r) ≫= n_style |>) <$> h_nodes h !! r) ∧
       (∀ r, r ∉ rs → h_nodes h' !! r = h_nodes h !! r) ∧ Forall2 (λ r c, style_of h' r (node_made main c)) rs cl
   end) ∧
  ((∃ r N, r ∈ rs ∧ h_nodes h !! r = Some N ∧ ¬ free D N) → used ≠ [] → ∃ h', sfold (random_mainnode main) used rs h = (h', Err RuntimeError)).
Proof.
  intros FN HD. induction rs as [|r rs IH]; intros h used W HG Hnd Hin.
  { split; [|by intros (? & ? & ?%elem_of_nil & _)]. intros _. cbn. exists h, []. split_and!; try done; [by rewrite app_nil_r; destruct h|]. intros r. destruct (h_nodes h !! r) as [N|]; [|done]. cbn. by destruct N. }
  apply NoDup_cons in Hnd as [Hni Hnd]. destruct (in_graph_lookup h W g r) as (N & HN & Hg); [apply Hin; left|]. cbn [sfold length pick].
  destruct (get_least_used_colour used) as [[used' c]|x] eqn:Hu.
  2: { split; [|destruct used as [|p used]; [done|]; cbn in Hu; by destruct (least_used p used)]. intros _. cbn. exists h. apply sbind_fail. unfold random_mainnode. by rewrite (sread_Err _ _ _ x). }
  cbn [rbind]. pose proof (random_mainstep main h g G D r N used used' c FN HG HD HN Hg Hu) as Hstep. destruct (decide (free D N)) as [Hf|Hf].
  - set (h1 := h <| h_nodes := _ |> <| h_ns := _ |>) in Hstep. pose proof (lookup_lt_Some _ _ _ HN) as Hlt.
    assert (W1 : WF h1). { eapply WF_data_only; [exact W|]. pose proof (dpres_randomM main used r h) as HI. by rewrite Hstep in HI. }
    assert (Ho : ∀ r', r' ≠ r → h_nodes h1 !! r' = h_nodes h !! r') by (intros; unfold h1; cbn; by rewrite list_lookup_insert_ne).
    assert (Hr1 : h_nodes h1 !! r = Some (N <| n_style := Some (length (h_ns h)) |>)) by (unfold h1; cbn; by apply list_lookup_insert).
    destruct (IH h1 used') as [IH1 IH2]; [done|done|done| |]. { intros r' Hr'. destruct (Hin r') as (G' & k & ? & ?); [by right|]. by exists G', k. }
    split.
    + intros Hfree. rewrite (sbind_step _ _ _ _ _ Hstep). assert (∀ r' N', r' ∈ rs → h_nodes h1 !! r' = Some N' → free D N') as Hf1.
      { intros r' N' Hr' HN'. apply (Hfree r'); [by right|]. rewrite <-Ho; [done|]. by intros ->. }
      specialize (IH1 Hf1). destruct (pick (length rs) used') as [[used2 cl]|x]; cbn [rbind]; [|done].
      destruct IH1 as (h2 & l & Hr & W2 & E & Hn & Ho2 & HF). exists h2, (node_made main c :: l). split_and!; [done|done|..].
      * rewrite E. unfold h1. destruct h. cbn. by rewrite <-app_assoc.
      * intros r'. destruct (decide (r' = r)) as [->|Hne].
        -- rewrite Hn at 1. rewrite Hr1, HN. cbn. done.
        -- rewrite Hn at 1. by rewrite Ho.
      * intros r' [Hne Hni']%not_elem_of_cons. by rewrite Ho2, Ho.
      * constructor; [|done]. exists (N <| n_style := Some (length (h_ns h)) |>), (length (h_ns h)). split_and!; [by rewrite Ho2|done|]. rewrite E. cbn.
        rewrite <-app_assoc, lookup_app_r, Nat.sub_diag by lia. done.
    + intros (r' & N' & Hr' & HN' & Hf') Hne. rewrite (sbind_step _ _ _ _ _ Hstep). apply elem_of_cons in Hr' as [->|Hr']; [congruence|]. apply IH2.
      * exists r', N'. split; [done|]. split; [|done]. rewrite Ho; [done|]. by intros ->.
      * intros ->. destruct used as [|p used]; [done|]. cbn in Hu. destruct (least_used p used) as [cc kk] eqn:Hl. injection Hu as Hx _.
        revert Hx. clear. unfold dset. destruct p as [a b]. cbn. by destruct (decide _).
  - split.
    + intros Hfree. destruct Hf. apply (Hfree r); [left|done].
    + intros _ _. eexists. by apply sbind_fail.
Qed.

Lemma edges_mainfrom tmpl dark h g G : fine_edge tmpl → WF h → h_graphs h !! g = Some G → (∀ e x y, joins h g e x y → node_styled h x) →
  ((∀ e x y E, joins h g e x y → h_edges h !! e = Some E → e_style E = None → numeric (e_value E)) → ∃ h', stylize_edges_main tmpl dark g h = (h', Ok tt)) ∧
  (∀ h', stylize_edges_main tmpl dark g h = (h', Ok tt) → styles_added g h h' ∧ h_nodes h' = h_nodes h ∧ h_ns h' = h_ns h ∧
    ∀ e x y, joins h g e x y → ¬ edge_styled h e → ∃ s a, style_of h' x s ∧ edge_style_of h' e (edge_made tmpl (CDarken (ns_colour s) dark) a)).
Proof.
  intros FE W HG Hst. unfold stylize_edges_main. rewrite (sread_Ok _ _ _ (all_edges h G)) by (by apply graph_edges_run).
  assert (Hin : ∀ e, e ∈ all_edges h G → ∃ x y, joins h g e x y) by (intros e; by apply elem_of_all_edges). assert (Hnd : NoDup (all_edges h G)) by apply NoDup_nub.
  assert (Hun : ∀ e, e ∈ unstyled_edges h (all_edges h G) → ∃ x y E, joins h g e x y ∧ h_edges h !! e = Some E ∧ e_style E = None).
  { intros e [He1 He2]%elem_of_list_filter. destruct (Hin e He2) as (x & y & Hj). pose proof Hj as (E & HE & _). exists x, y, E. split_and!; try done. by rewrite HE in He1. }
  split.
  - intros Hnum. destruct (edges_mainok tmpl dark FE h g (all_edges h G) tmpl (first_arrow tmpl)) as (h' & c' & Hr & _); [done|by apply carries_first|done|done| |exists h'; by rewrite (sbind_step _ _ _ _ _ Hr)].
    intros e He. destruct (Hun e He) as (x & y & E & Hj & HE & Hs). exists x, y, E. split_and!; eauto.
  - intros h' Hr0. destruct (list_decide (good_edge h g) (unstyled_edges h (all_edges h G))) as [Hgood|Hbad].
    { intros e He. destruct (Hun e He) as (x & y & E & Hj & HE & Hs). destruct (decide (numeric (e_value E))) as [Hn|Hn]; [left; exists x, y, E; split_and!; eauto|right].
      intros (x' & y' & E' & _ & HE' & _ & Hn'). congruence. }
    2: { destruct (edges_mainfail tmpl dark FE h g (all_edges h G) tmpl (first_arrow tmpl)) as (h2 & x & Hr); [done|by apply carries_first|done..|]. by rewrite (sbind_fail _ _ _ _ _ Hr) in Hr0. }
    destruct (edges_mainok tmpl dark FE h g (all_edges h G) tmpl (first_arrow tmpl)) as (h2 & c' & Hr & S & Hn1 & Hn2 & _ & Har); [done|by apply carries_first|done..|]. rewrite (sbind_step _ _ _ _ _ Hr) in Hr0.
    injection Hr0 as <-. split_and!; try done. intros e x y Hj Hn. assert (He : e ∈ unstyled_edges h (all_edges h G)).
    { apply elem_of_unstyled_iff. left. split; [|done]. apply (elem_of_all_edges h g); eauto. }
    apply elem_of_list_lookup in He as [i Hi]. destruct (Har i e Hi) as (x' & y' & s & a & Hj' & Hs & Hes & _).
    assert (x' = x) as -> by (destruct Hj as (? & ? & _ & ? & _), Hj' as (? & ? & _ & ? & _); congruence). exists s, a. split; [|done]. by apply (sa_style_of g h h2).
Qed.

(** What is known after the loop over the nodes. *)
Lemma random_mainafter main h g G D sh : fine_node main → WF h → h_graphs h !! g = Some G → g_disp G = Some D → (∀ l, sh l ≡ₚ l) →
  ((d_overwrite D = true ∨ ∀ r, in_graph h g r → ¬ node_styled h r) → d_scheme D ≠ [] → ∃ h1 used cl, pick (length (g_nodes G)) (colours_used0 (d_scheme D)) = Ok (used, cl) ∧
    sfold (random_mainnode main) (colours_used0 (d_scheme D)) (sh (dvals (g_nodes G))) h = (h1, Ok used) ∧ WF h1 ∧ h_graphs h1 = h_graphs h ∧ h_edges h1 = h_edges h ∧ h_es h1 = h_es h ∧
    Forall2 (λ r c, style_of h1 r (node_made main c)) (sh (dvals (g_nodes G))) cl ∧ ∀ r, in_graph h g r → node_styled h1 r) ∧
  (d_overwrite D = false → d_scheme D ≠ [] → (∃ r, in_graph h g r ∧ node_styled h r) → ∃ h1, sfold (random_mainnode main) (colours_used0 (d_scheme D)) (sh (dvals (g_nodes G))) h = (h1, Err RuntimeError)).
Proof.
  intros FN W HG HD Hsh. destruct (random_nodes h g G sh W HG Hsh) as [Hnd Hin]. destruct (random_mainloop main g G D FN HD (sh (dvals (g_nodes G))) h (colours_used0 (d_scheme D))) as [H1 H2]; [done|done|done|by intros r ?%Hin|].
  assert (Hlen : length (sh (dvals (g_nodes G))) = length (g_nodes G)) by (rewrite Hsh; unfold dvals; by rewrite fmap_length). split.
  - intros Hfree Hne. destruct (C43_rotation_proof (d_scheme D) (length (g_nodes G)) Hne) as (used & cl & Hp & _). rewrite Hlen, Hp in H1. destruct H1 as (h1 & l & Hr & W1 & E & Hn & Ho & HF).
    { intros r N Hr HN. unfold free. destruct Hfree as [?|Hun]; [by right|left]. destruct (n_style N) eqn:Hs; [|done]. destruct (Hun r); [by apply Hin|]. exists N. by rewrite Hs. }
    exists h1, used, cl. split_and!; try done; try (by rewrite E). intros r Hr'%Hin. apply elem_of_list_lookup in Hr' as [i Hi].
    destruct (Forall2_lookup_l _ _ _ _ _ HF Hi) as (c & _ & (N & k & HN & Hk & _)). exists N. by rewrite Hk.
  - intros Ho Hne (r & Hr & N & HN & Hs). apply H2.
    + exists r, N. split; [by apply Hin|]. split; [done|]. intros [?|?]; congruence.
    + intros Hx. destruct (C43_rotation_proof (d_scheme D) 1 Hne) as (used & cl & Hp & _). rewrite Hx in Hp. done.
Qed.

