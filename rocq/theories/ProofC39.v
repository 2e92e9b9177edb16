(** When styling with one style for all nodes and one for all edges succeeds: C71. *)
From Verif Require Export ProofC23 ProofC34.
From Verif Require Import ProofCompl.
From Verif Require Import ProofLetters.
Local Open Scope string_scope.
Local Open Scope list_scope.

Lemma ctor_ok d : (∀ k v, (k, v) ∈ d → node_argument k v) → ∃ s, nstyle_ctor d = Ok s.
Proof.
  intros H. unfold nstyle_ctor, check_kwargs.
  assert (forallb (λ k, bool_decide (k ∈ nstyle_keys)) (dkeys d) = true) as ->.
  { apply forallb_forall. intros k Hk%elem_of_list_In%elem_of_dkeys. destruct Hk as (v & Hv). destruct (H _ _ Hv) as [Hin _]. apply bool_decide_eq_true.
    unfold node_attr_names, nstyle_keys in *. destruct Hin as [Hin| ->]; set_solver. }
  cbn [rbind].
  assert (Hcol : ∀ k, is_colour_key k → k ≠ "colour" → colour_like (kw d k PNone) ∨ kw d k PNone = PNone).
  { intros k Hk Hne. destruct (kw_in d k PNone) as [->|Hin]; [by right|]. destruct (H _ _ Hin) as [_ Hc]. destruct (Hc Hk) as [?|[? _]]; [by left|by right]. }
  assert (Hf := Hcol "fill_colour" ltac:(dec) ltac:(done)). assert (Hb := Hcol "border_colour" ltac:(dec) ltac:(done)). assert (Ht := Hcol "text_colour" ltac:(dec) ltac:(done)).
  assert (Hm : colour_like (kw d "colour" (PCol default_colour))).
  { destruct (kw_in d "colour" (PCol default_colour)) as [->|Hin]; [right; by eexists|]. destruct (H _ _ Hin) as [_ Hc]. destruct Hc as [?|[_ ?]]; [dec|done|done]. }
  assert (Hor : ∀ a b, (colour_like a ∨ a = PNone) → colour_like b → colour_like (py_or a b)).
  { intros a b [Ha| ->] Hb'; [|done]. unfold py_or. by destruct (truthy a). }
  destruct (colour_like_ok (py_or (kw d "colour" (PCol default_colour)) (py_or (kw d "fill_colour" PNone) (py_or (kw d "border_colour" PNone) (PCol default_colour))))) as (c & ->).
  { apply Hor; [by left|]. apply Hor; [done|]. apply Hor; [done|]. right. by eexists. }
  cbn [rbind]. generalize (kw d "fill_colour" PNone), (kw d "border_colour" PNone), (kw d "text_colour" PNone), Hf, Hb, Ht.
  intros f b t [[(x & ->)|(x & ->)]| ->] [[(y & ->)|(y & ->)]| ->] [[(z & ->)|(z & ->)]| ->]; by eexists.
Qed.
Lemma argument_entry k v : node_argument k v → style_entry k v.
Proof.
  intros [Hk Hc]. assert (String.prefix "_" k = false ∧ k ∉ style_methods) as [H1 H2]; [|by split_and!].
  destruct Hk as [Hk| ->]; [|split; [done|dec]]. unfold node_attr_names in Hk.
  repeat (apply elem_of_cons in Hk as [->|Hk]; [split; [done|dec]|]). by apply elem_of_nil in Hk.
Qed.
Lemma ecomplement1_ok s k v : edge_argument k v → (k = "colour" → v ≠ PNone) → ∃ s', es_complement1 s (k, v) = Ok s'.
Proof.
  intros [Hk Hc] Hn. unfold edge_attr_names in Hk.
  apply elem_of_cons in Hk as [->|Hk]. { destruct Hc as [[(x & ->)|(x & ->)]| ->]; [dec|by eexists..|by destruct (Hn eq_refl)]. }
  apply elem_of_cons in Hk as [->|Hk]. { destruct Hc as [[(x & ->)|(x & ->)]| ->]; [dec|by eexists..]. }
  repeat (apply elem_of_cons in Hk as [->|Hk]; [by eexists|]). by apply elem_of_nil in Hk.
Qed.
Lemma ecomplement_ok d s : (∀ k v, (k, v) ∈ d → edge_argument k v ∧ (k = "colour" → v ≠ PNone)) → ∃ s', es_complement d s = Ok s'.
Proof.
  unfold es_complement. revert s. induction d as [|[k v] d IH]; intros s H; [by exists s|]. cbn [rfold].
  destruct (H k v) as [H1 H2]; [left|]. destruct (ecomplement1_ok s k v H1 H2) as (s1 & ->). cbn [rbind]. apply IH. intros. apply H. by right.
Qed.
Lemma smart_ok h g G d : WF h → h_graphs h !! g = Some G → (∀ v, ("shape", v) ∈ d → ∃ s, v = PStr s ∧ (auto_shape s → ∃ r, in_graph h g r)) →
  (∀ k v, (k, v) ∈ d → node_argument k v) → ∃ d', smart_node_style h g d = Ok d' ∧ ∀ k v, (k, v) ∈ d' → node_argument k v.
Proof.
  intros W HG Hs Ha. unfold smart_node_style. destruct (dget d "shape") as [v|] eqn:Hd; [|by exists d]. destruct (Hs v (dget_Some_in _ _ _ Hd)) as (s & -> & Hauto).
  rewrite lower_smalls. destruct (String.prefix "auto" (smalls s)) eqn:Hp; [|by exists d]. destruct (Hauto Hp) as (r & Hr). rewrite (nodes_run h g G) by done. cbn [rbind].
  assert (∃ lens, rmap (λ r, let! N := get_n h r in Ok (String.length (name_str (n_id N)))) (dvals (g_nodes G)) = Ok lens ∧ (lens = [] → dvals (g_nodes G) = [])) as (lens & -> & Hl).
  { assert (Hin : ∀ r, r ∈ dvals (g_nodes G) → in_graph h g r) by (intros x; by apply elem_of_nodes). induction (dvals (g_nodes G)) as [|x l IH]; [by exists []|].
    destruct IH as (lens & Hm & _); [intros; apply Hin; by right|]. destruct (in_graph_lookup h W g x) as (N & HN & _); [apply Hin; left|].
    cbn [rmap]. rewrite (get_n_Ok _ _ _ HN). cbn [rbind]. rewrite Hm. cbn [rbind]. by eexists. }
  cbn [rbind]. destruct lens as [|n lens]. { apply (elem_of_nodes h g G) in Hr; [|done]. rewrite Hl in Hr by done. by apply elem_of_nil in Hr. }
  eexists. split; [done|]. intros k v. destruct (Nat.ltb _ 3); [|apply Ha]. intros Hin.
  assert ((k, v) ∈ d ∨ (k, v) = ("shape", PStr "circle")) as [?|[= -> ->]]; [|by apply Ha|].
  { clear -Hin. induction d as [|[k' v'] d IH]; [apply elem_of_list_singleton in Hin; by right|]. cbn [dset] in Hin. case_decide as Heq.
    - apply elem_of_cons in Hin as [Hin|Hin]; [right; by subst|left; by right].
    - apply elem_of_cons in Hin as [Hin|Hin]; [left; rewrite Hin; left|]. destruct (IH Hin); [left; by right|by right]. }
  split; [left; dec|]. intros Hk. exfalso. revert Hk. apply (bool_decide_unpack (¬ _)). by vm_compute.
Qed.

Lemma set_dict_ok h r N g G D d s : h_nodes h !! r = Some N → n_graph N = Some g → h_graphs h !! g = Some G → g_disp G = Some D → (d_overwrite D = true ∨ n_style N = None) → nstyle_ctor d = Ok s →
  node_set_style r (SDict d) h = (h <| h_ns := h_ns h ++ [s] |> <| h_nodes := <[r := N <| n_style := Some (length (h_ns h)) |>]> (h_nodes h) |>, Ok tt).
Proof.
  intros HN Hg HG HD Hor Hs. unfold node_set_style. rewrite (sread_Ok _ _ _ N) by (by apply get_n_Ok).
  assert (match n_style N with None => sret tt | Some _ => let* ok := sread (λ h, overwrite_allowed h (n_graph N)) in if (ok : bool) then sret tt else sraise RuntimeError end h = (h, Ok tt)) as H1.
  { destruct (n_style N); [|done]. destruct Hor as [Ho|]; [|done]. rewrite (sread_Ok _ _ _ true); [done|]. rewrite Hg. cbn [overwrite_allowed]. rewrite (get_g_Ok _ _ _ HG). cbn [rbind]. by rewrite HD, Ho. }
  rewrite (sbind_step _ _ _ _ _ H1). unfold resolve_nstyle, sbind, sread. rewrite Hs. cbn. unfold upd_n. cbn. by rewrite HN.
Qed.
Lemma restyle_ok d s g G D : g_disp G = Some D → nstyle_ctor d = Ok s → ∀ rs h, h_graphs h !! g = Some G → NoDup rs →
  (∀ r, r ∈ rs → ∃ N, h_nodes h !! r = Some N ∧ n_graph N = Some g ∧ (d_overwrite D = true ∨ n_style N = None)) → ∃ h', siter (λ r, node_set_style r (SDict d)) rs h = (h', Ok tt).
Proof.
  intros HD Hs. induction rs as [|r rs IH]; intros h HG Hnd H; [by exists h|]. cbn [siter]. apply NoDup_cons in Hnd as [Hni Hnd]. destruct (H r) as (N & HN & Hg & Hor); [left|].
  rewrite (sbind_step _ _ _ _ _ (set_dict_ok h r N g G D d s HN Hg HG HD Hor Hs)). apply IH; [done|done|]. intros r' Hr'. destruct (H r') as (N' & HN' & ? & ?); [by right|].
  exists N'. split_and!; try done. cbn. rewrite list_lookup_insert_ne; [done|]. by intros ->.
Qed.
Lemma eset_dict_ok h r N g G D d s : h_edges h !! r = Some N → e_graph N = Some g → h_graphs h !! g = Some G → g_disp G = Some D → (d_overwrite D = true ∨ e_style N = None) → estyle_ctor d = Ok s →
  edge_set_style r (SDict d) h = (h <| h_es := h_es h ++ [s] |> <| h_edges := <[r := N <| e_style := Some (length (h_es h)) |>]> (h_edges h) |>, Ok tt).
Proof.
  intros HN Hg HG HD Hor Hs. unfold edge_set_style. rewrite (sread_Ok _ _ _ N) by (by apply get_e_Ok).
  assert (match e_style N with None => sret tt | Some _ => let* ok := sread (λ h, overwrite_allowed h (e_graph N)) in if (ok : bool) then sret tt else sraise RuntimeError end h = (h, Ok tt)) as H1.
  { destruct (e_style N); [|done]. destruct Hor as [Ho|]; [|done]. rewrite (sread_Ok _ _ _ true); [done|]. rewrite Hg. cbn [overwrite_allowed]. rewrite (get_g_Ok _ _ _ HG). cbn [rbind]. by rewrite HD, Ho. }
  rewrite (sbind_step _ _ _ _ _ H1). unfold resolve_estyle, sbind, sread. rewrite Hs. cbn. unfold upd_e. cbn. by rewrite HN.
Qed.
Lemma erestyle_ok d s g G D : g_disp G = Some D → estyle_ctor d = Ok s → ∀ rs h, h_graphs h !! g = Some G → NoDup rs →
  (∀ r, r ∈ rs → ∃ N, h_edges h !! r = Some N ∧ e_graph N = Some g ∧ (d_overwrite D = true ∨ e_style N = None)) → ∃ h', siter (λ r, edge_set_style r (SDict d)) rs h = (h', Ok tt).
Proof.
  intros HD Hs. induction rs as [|r rs IH]; intros h HG Hnd H; [by exists h|]. cbn [siter]. apply NoDup_cons in Hnd as [Hni Hnd]. destruct (H r) as (N & HN & Hg & Hor); [left|].
  rewrite (sbind_step _ _ _ _ _ (eset_dict_ok h r N g G D d s HN Hg HG HD Hor Hs)). apply IH; [done|done|]. intros r' Hr'. destruct (H r') as (N' & HN' & ? & ?); [by right|].
  exists N'. split_and!; try done. cbn. rewrite list_lookup_insert_ne; [done|]. by intros ->.
Qed.
Lemma complement_pass d rs h : WF h → (∀ k v, (k, v) ∈ d → node_argument k v) → (∀ r, r ∈ rs → node_styled h r) → ∃ h', siter (λ r, node_complement r d) rs h = (h', Ok tt).
Proof.
  intros W Ha Hst. destruct (siter_total (λ h, WF h ∧ ∀ r, r ∈ rs → node_styled h r) (λ r, node_complement r d) rs) with (h := h) as (h' & H & _); [|done|eauto].
  intros r h1 Hr [W1 Hst1]. destruct (Hst1 r Hr) as (N & HN & Hk). destruct (n_style N) as [k|] eqn:E; [|done].
  destruct (lookup_lt_is_Some_2 (h_ns h1) k) as [s Hs']; [by eapply (wf_nstyle _ W1)|]. destruct (complement_ok d s) as (s' & Hs''); [intros; by apply argument_entry, Ha|].
  exists (h1 <| h_ns := <[k := s']> (h_ns h1) |>). split_and!.
  - unfold node_complement, sbind, sread. rewrite (get_n_Ok _ _ _ HN), E. by apply complement_ns_ok with s.
  - apply WF_ns; [done|]. by rewrite insert_length.
  - intros r' Hr'. exact (Hst1 r' Hr').
Qed.
Lemma WF_es h l : WF h → length l = length (h_es h) → WF (h <| h_es := l |>).
Proof.
  intros W Hl. destruct W. split; try done; cbn; rewrite Hl; done.
Qed.
Lemma ecomplement_pass d rs h : WF h → (∀ k v, (k, v) ∈ d → edge_argument k v ∧ (k = "colour" → v ≠ PNone)) → (∀ r, r ∈ rs → edge_styled h r) → ∃ h', siter (λ r, edge_complement r d) rs h = (h', Ok tt).
Proof.
  intros W Ha Hst. destruct (siter_total (λ h, WF h ∧ ∀ r, r ∈ rs → edge_styled h r) (λ r, edge_complement r d) rs) with (h := h) as (h' & H & _); [|done|eauto].
  intros r h1 Hr [W1 Hst1]. destruct (Hst1 r Hr) as (N & HN & Hk). destruct (e_style N) as [k|] eqn:E; [|done].
  destruct (lookup_lt_is_Some_2 (h_es h1) k) as [s Hs']; [by eapply (wf_estyle _ W1)|]. destruct (ecomplement_ok d s Ha) as (s' & Hs'').
  assert (Hrun : edge_complement r d h1 = (h1 <| h_es := <[k := s']> (h_es h1) |>, Ok tt)).
  { unfold edge_complement, sbind, sread. rewrite (get_e_Ok _ _ _ HN), E. by apply complement_es_ok with s. }
  eexists. split; [exact Hrun|]. split.
  - apply WF_es; [done|]. by rewrite insert_length.
  - intros r' Hr'. exact (Hst1 r' Hr').
Qed.
Lemma pensieve_total h g G scheme : WF h → CI h → h_graphs h !! g = Some G → comparable h g → scheme ≠ [] →
  (∀ e x y, joins h g e x y → ¬ edge_styled h e → later_good h g e) → ∃ h', stylize_with_pensieve g scheme h = (h', Ok tt).
Proof.
  intros W HCI HG Hc Hne Hgood. rewrite pensieve_split.
  destruct (nodes_phase_total h g G scheme) as [h2 H1]; [done..|]. rewrite (sbind_step _ _ _ _ _ H1).
  destruct (nodes_phase h g G (colours_used0 scheme) h2) as (rs & used & cl & Hsub & Hrs & Hp & HF & S & E1 & E2 & Hst); [done..|].
  destruct (edge_phase h g G h2) as [Hok Hfail]; [done..|]. destruct Hok as (h' & Hr & _); [|eauto]. by apply (unstyled_cond h g G).
Qed.

(** C71.  stylize with a style for all nodes or one for all edges that fit the graph
    succeeds.  (That a second call fails unless overwriting is allowed is
    C71_raises_partial.)  Missing: graphs with an empty colour scheme or with nodes that
    cannot be compared. *)
Lemma C71_succeeds_partial_proof : ∀ h g G D sh, reachable h → h_graphs h !! g = Some G → g_disp G = Some D → global_styles D → d_scheme D ≠ [] → comparable h g →
  global_fit h g D → ∃ h', stylize g sh h = (h', Ok tt).
Proof.
  intros h g G D sh Hreach HG HD Hgl Hne Hc [F1 F2 F3]. pose proof (reachable_WF h Hreach) as W. rewrite (stylize_global g sh h G D) by done.
  assert (∃ h1, node_pass (λ r d, node_set_style r (SDict d)) g (d_gnode D) h = (h1, Ok tt)) as [h1 H1].
  { unfold node_pass, when_dict. destruct (d_gnode D) as [d|]; [|by exists h]. destruct (F1 d eq_refl) as (Ha & Hs & Hor). destruct (smart_ok h g G d W HG Hs Ha) as (d' & Hd' & Ha').
    rewrite (sread_Ok _ _ _ d') by done. rewrite (sread_Ok _ _ _ (dvals (g_nodes G))) by (by apply nodes_run). destruct (ctor_ok d' Ha') as [s Hct].
    apply (restyle_ok d' s g G D); [done..|by eapply NoDup_nodes|]. intros r Hr%(elem_of_nodes h g G); [|done]. destruct (in_graph_lookup h W g r Hr) as (N & HN & Hg). exists N. split_and!; try done.
    destruct Hor as [?|Hno]; [by left|]. right. destruct (n_style N) eqn:E; [|done]. destruct (Hno r Hr). exists N. by rewrite E. }
  rewrite (sbind_step _ _ _ _ _ H1). destruct (node_pass_set g _ h h1 G W HG H1) as (W1 & Eg1 & Ee1 & Es1 & _ & Hn1 & Hi1). assert (HG1 : h_graphs h1 !! g = Some G) by (by rewrite Eg1).
  assert (HCI1 : CI h1).
  { pose proof (reachable_CI h Hreach) as HCI. assert (HI : pres CI (node_pass (λ r d, node_set_style r (SDict d)) g (d_gnode D))).
    { unfold node_pass, when_dict. destruct (d_gnode D); [|apply pres_ret]. apply pres_bind; [apply pres_read|intros ?]. apply pres_bind; [apply pres_read|intros ?]. apply pres_iter. intros. apply CI_node_set_style. }
    specialize (HI h HCI). by rewrite H1 in HI. }
  assert (Hj1 : ∀ e x y, joins h1 g e x y ↔ joins h g e x y) by (intros; unfold joins; by rewrite Ee1).
  assert (∃ h2, edge_pass (λ e d, edge_set_style e (SDict d)) g (d_gedge D) h1 = (h2, Ok tt)) as [h2 H2].
  { unfold edge_pass, when_dict. destruct (d_gedge D) as [d|]; [|by exists h1]. destruct (F2 d eq_refl) as (Ha & Hor). rewrite (sread_Ok _ _ _ (all_edges h1 G)) by (by apply graph_edges_run).
    destruct (ector_ok d) as [s Hct]; [intros; by apply Ha|]. apply (erestyle_ok d s g G D); [done..|apply NoDup_nub|]. intros e He. apply (elem_of_all_edges h1 g) in He as (x & y & Hxy); try done.
    pose proof Hxy as (E & HE & Hg & _). exists E. split_and!; try done. destruct Hor as [?|Hno]; [by left|]. right. destruct (e_style E) eqn:Hes; [|done].
    destruct (Hno e x y); [by apply Hj1|]. exists E. rewrite <-Ee1. by rewrite Hes. }
  rewrite (sbind_step _ _ _ _ _ H2). destruct (edge_pass_set g _ h1 h2 G W1 HG1 H2) as (W2 & Eg2 & En2 & Ens2 & _ & He2 & Hi2). assert (HG2 : h_graphs h2 !! g = Some G) by (by rewrite Eg2).
  assert (HCI2 : CI h2).
  { assert (HI : pres CI (edge_pass (λ e d, edge_set_style e (SDict d)) g (d_gedge D))).
    { unfold edge_pass, when_dict. destruct (d_gedge D); [|apply pres_ret]. apply pres_bind; [apply pres_read|intros ?]. apply pres_iter. intros. apply CI_edge_set_style. }
    specialize (HI h1 HCI1). by rewrite H2 in HI. }
  assert (Hj2 : ∀ e x y, joins h2 g e x y ↔ joins h g e x y). { intros e x y. rewrite <-Hj1. by apply joins_same. }
  assert (Hadj : ∀ x y, adj h2 g x y ↔ adj h g x y).
  { intros x y. split; intros (e & Hxy); exists e; [by apply Hj2|by apply Hj2]. }
  assert (Hpath : ∀ x y, path h2 g x y ↔ path h g x y).
  { intros x y. split; intros Hp; induction Hp as [x y Hxy|x y z Hxy Hp IH]; [apply tc_once|eapply tc_l; [|exact IH]|apply tc_once|eapply tc_l; [|exact IH]]; by apply Hadj. }
  assert (Hin : ∀ r, in_graph h2 g r ↔ in_graph h g r) by (intros r; unfold in_graph; by rewrite Eg2, Eg1).
  assert (Hc2 : comparable h2 g).
  { intros x y X Y Hx%Hin Hy%Hin HX HY. rewrite En2, Hn1 in HX, HY. destruct (h_nodes h !! x) as [X0|] eqn:HX0; [|done]. destruct (h_nodes h !! y) as [Y0|] eqn:HY0; [|done].
    cbn in HX, HY. injection HX as <-. injection HY as <-. exact (Hc x y X0 Y0 Hx Hy HX0 HY0). }
  assert (Hst1 : d_gnode D ≠ None → ∀ r, in_graph h g r → node_styled h2 r).
  { destruct (d_gnode D) as [d|]; [|done]. intros _ r Hr. destruct (Hi1 d eq_refl) as (d' & _ & Hall). apply (elem_of_nodes h g G), elem_of_list_lookup in Hr as [i Hi]; [|done].
    destruct (Hall i r Hi) as (N & s & HN & Hk & _). exists N. by rewrite En2, Hk. }
  assert (Hkeep : ∀ r, in_graph h g r → node_styled h r → node_styled h2 r).
  { intros r Hr Hs. destruct (d_gnode D) as [d|] eqn:Hd; [by apply Hst1|]. cbn in H1. injection H1 as <-. destruct Hs as (N & HN & ?). exists N. by rewrite En2. }
  destruct (pensieve_total h2 g G (d_scheme D)) as [h3 H3]; [done..| |].
  { intros e x y Hxy%Hj2 Hus. assert (Hxy2 : joins h2 g e x y) by (by apply Hj2). pose proof Hxy2 as (E & HE & _).
    destruct (d_gedge D) as [d|] eqn:Hd.
    - destruct Hus. assert (He : e ∈ all_edges h1 G) by (apply (elem_of_all_edges h1 g); [done|done|]; exists x, y; by apply Hj1). apply elem_of_list_lookup in He as [i Hi].
      destruct (Hi2 d eq_refl i e Hi) as (N & s & HN & Hk & _). exists N. by rewrite Hk.
    - cbn in H2. injection H2 as <-. rewrite Ee1 in HE. destruct (F3 eq_refl e x y E Hxy HE) as [Hsty Hnum].
      { destruct (e_style E) eqn:Hes; [|done]. destruct Hus. exists E. by rewrite Ee1, Hes. }
      exists x, y, E. split_and!; [done|by rewrite Ee1| |done]. assert (Hx : in_graph h g x). { destruct (adj_in_graph h g x y W) as [? _]; [by exists e|done]. }
      destruct Hsty as [Hgn|[Hs|[Hs|Hs]]].
      + left. by apply Hst1.
      + left. by apply Hkeep.
      + right; left. intros p Hp%Hadj. apply Hpath. by apply Hs.
      + right; right. intros Hcy. apply Hs. by apply Hpath. }
  rewrite (sbind_step _ _ _ _ _ H3). destruct (pensieve_post h2 g G (d_scheme D) h3) as [S _ _ _ _ _]; [done..|]. pose proof (sa_WF _ _ _ S W2) as W3.
  assert (HG3 : h_graphs h3 !! g = Some G) by (by rewrite (sa_graphs _ _ _ S)).
  assert (∃ h4, node_pass node_complement g (d_gnode D) h3 = (h4, Ok tt)) as [h4 H4].
  { unfold node_pass, when_dict. destruct (d_gnode D) as [d|]; [|by exists h3]. destruct (F1 d eq_refl) as (Ha & Hs & _). 
    destruct (smart_ok h3 g G d W3 HG3) as (d' & Hd' & Ha'); [|done|].
    { intros v Hv. destruct (Hs v Hv) as (s & ? & Hau). exists s. split; [done|]. intros Hx. destruct (Hau Hx) as (r & Hr). exists r. apply (sa_in_graph _ _ _ S). by apply Hin. }
    rewrite (sread_Ok _ _ _ d') by done. rewrite (sread_Ok _ _ _ (dvals (g_nodes G))) by (by apply nodes_run). apply complement_pass; [done..|].
    intros r Hr. eapply sa_node_styled; [exact S|]. apply Hst1; [done|]. by apply (elem_of_nodes h g G). }
  rewrite (sbind_step _ _ _ _ _ H4). destruct (node_pass_frame g _ h3 h4 H4) as [E4 L4]. assert (W4 : WF h4) by (rewrite E4; by apply WF_ns). assert (HG4 : h_graphs h4 !! g = Some G) by (by rewrite E4).
  unfold edge_pass, when_dict. destruct (d_gedge D) as [d|]; [|by eexists]. destruct (F2 d eq_refl) as (Ha & _). rewrite (sread_Ok _ _ _ (all_edges h4 G)) by (by apply graph_edges_run).
  apply ecomplement_pass; [done..|]. intros e He. apply (elem_of_all_edges h4 g) in He as (x & y & Hxy); try done.
  assert (joins h3 g e x y) as Hxy3 by (rewrite E4 in Hxy; exact Hxy). apply (sa_joins _ _ _ S), Hj2, Hj1 in Hxy3.
  assert (He : e ∈ all_edges h1 G) by (apply (elem_of_all_edges h1 g); eauto). apply elem_of_list_lookup in He as [i Hi]. destruct (Hi2 d eq_refl i e Hi) as (N & s & HN & Hk & _).
  assert (edge_styled h3 e) as (N3 & HN3 & Hk3). { apply (sa_edge_styled _ _ _ S). exists N. by rewrite Hk. }
  exists N3. split; [|done]. rewrite E4. exact HN3.
Qed.
(** The cycle a -> b -> a with an automatic shape and the colour blue for all nodes and the
    line width 7 for all edges: everything fits. *)
Lemma C71_succeeds_ex_proof : ∃ h G D, reachable h ∧ h_graphs h !! 0 = Some G ∧ g_disp G = Some D ∧ global_styles D ∧ d_scheme D ≠ [] ∧ comparable h 0 ∧ global_fit h 0 D ∧
  d_gnode D = Some [("shape", PStr "Auto"); ("colour", PStr "blue")]%string ∧ d_gedge D = Some [("line_width", PInt 7)]%string ∧ on_cycle h 0 0.
Proof.
  eexists (run [CNew false true (disp0 <| d_gnode := Some [("shape", PStr "Auto"); ("colour", PStr "blue")]%string |> <| d_gedge := Some [("line_width", PInt 7)]%string |>);
    CAppend 0 (ODict (over_repr [nm "a"; nm "b"] [(nm "a", nm "b"); (nm "b", nm "a")] [] [] []))] empty_heap), _, _.
  split; [reach_over|]. split; [vm_compute; reflexivity|]. split; [vm_compute; reflexivity|]. split; [by repeat split|]. split; [done|].
  split. { intros x y X Y _ _ HX HY _. destruct x as [|[|]], y as [|[|]]; vm_compute in HX, HY; try done; injection HX as <-; injection HY as <-; done. }
  split.
  - split; [| |done].
    + intros d [= <-]. split_and!.
      * intros k v Hin. repeat (apply elem_of_cons in Hin as [[= -> ->]|Hin]; [split; [left; dec|]|]); [| |by apply elem_of_nil in Hin].
        -- intros Hk. exfalso. revert Hk. apply (bool_decide_unpack (¬ _)). by vm_compute.
        -- intros _. left. left. by eexists.
      * intros v Hin. repeat (apply elem_of_cons in Hin as [Hin|Hin]; [|]); [injection Hin as ->|done|by apply elem_of_nil in Hin].
        eexists. split; [done|]. intros _. exists 0. eexists _, _. split; [vm_compute; reflexivity|]. left.
      * right. intros r _ (N & HN & Hs). destruct r as [|[|]]; vm_compute in HN; [by injection HN as <-..|done].
    + intros d [= <-]. split.
      * intros k v Hin. apply elem_of_list_singleton in Hin as [= -> ->]. split; [|done]. split; [dec|]. intros Hk. exfalso. revert Hk. apply (bool_decide_unpack (¬ _)). by vm_compute.
      * right. intros e x y _ (N & HN & Hs). destruct e as [|[|]]; vm_compute in HN; [by injection HN as <-..|done].
  - split; [done|]. split; [done|]. apply (tc_l _ _ 1); [|apply tc_once]; [eexists 0, _|eexists 1, _]; (split; [vm_compute; reflexivity|done]).
Qed.
