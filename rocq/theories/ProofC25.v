(** Inverting the colours of a style: C73. *)
From Verif Require Export ProofC13 SpecOver SpecMore.
From Verif Require Import ProofGlobal Samples.
Local Open Scope list_scope.

Lemma ns_invert_run s : coloured s → ∃ s', ns_invert s = Ok s' ∧ coloured s' ∧
  ns_colour s' = CInvert (ns_colour s) ∧
  ns_fill s' = (if ns_fill_based s then Some (CLighten (CInvert (ns_colour s)) (1 # 2)) else CInvert <$> ns_fill s) ∧
  ns_border s' = (if ns_border_based s then Some (CDarken (CInvert (ns_colour s)) (1 # 6)) else CInvert <$> ns_border s) ∧
  ns_text s' = (if ns_text_based s then CGray <$> ns_fill s' else CInvert <$> ns_text s) ∧
  (ns_opacity s', ns_font s', ns_text_size s', ns_shape s', ns_shape_style s', ns_extra s') = (ns_opacity s, ns_font s, ns_text_size s, ns_shape s, ns_shape_style s, []) ∧ ns_lighter s' = true ∧
  derived s' = derived s.
Proof.
  destruct s as [c [f|] [b|] [t|] fb bb tb li op fo ts sh ss ex]; intros Hc; try (by destruct Hc as ([? ?] & [? ?] & [? ?])).
  destruct fb, bb, tb; (destruct (ns_invert _) as [s'|] eqn:E; vm_compute in E; [|done]; injection E as <-; eexists; split; [reflexivity|]); repeat split; cbn; eauto.
Qed.
Lemma ctor_flags d s : NoDup d.*1 → nstyle_ctor d = Ok s → ns_fill_based s = bool_decide (some_entry d "fill_colour"%string = None) ∧
  ns_border_based s = bool_decide (some_entry d "border_colour"%string = None) ∧ ns_text_based s = bool_decide (some_entry d "text_colour"%string = None).
Proof.
  intros Hnd. unfold nstyle_ctor. destruct (check_kwargs nstyle_keys d); [|done]. cbn [rbind].
  destruct (to_colour _) as [c|] eqn:Hc; [|done]. cbn [rbind]. intros H. clear Hc.
  rewrite !some_entry_kw by done.
  destruct (ns_set_fill _ _) as [s1|] eqn:H1 in H; [|done]. cbn [rbind] in H. destruct (ns_set_border _ _) as [s2|] eqn:H2 in H; [|done]. cbn [rbind] in H.
  destruct (ns_set_text _ _) as [s3|] eqn:H3 in H; [|done]. cbn [rbind] in H. injection H as <-.
  unfold ns_set_fill, ns_set_border, ns_set_text in *.
  destruct (kw d "fill_colour"%string PNone) as [| | | | |] eqn:Kf; cbn [to_colour rbind] in H1; try done; injection H1 as <-;
  destruct (kw d "border_colour"%string PNone) as [| | | | |] eqn:Kb; cbn [to_colour rbind] in H2; try done; injection H2 as <-;
  destruct (kw d "text_colour"%string PNone) as [| | | | |] eqn:Kt; cbn [to_colour rbind] in H3; try done; injection H3 as <-; done.
Qed.
Lemma flag_if {B} (o : option pv) (x y : B) : (if bool_decide (o = None) then x else y) = match o with None => x | Some _ => y end.
Proof. destruct o; [by rewrite bool_decide_false|by rewrite bool_decide_true]. Qed.

(** C73.  invert_colours of a NodeStyle made with the arguments [d] has the inverse of the
    main colour, the inverses of the colours that were given, and derives the others
    from the new main colour as a style with a lighter fill does; everything else
    stays.  Missing: that a darker fill stays darker (C73_lighter_refuted). *)
Lemma C73_node_partial_proof : ∀ d s, NoDup d.*1 → nstyle_ctor d = Ok s → ∃ s', ns_invert s = Ok s' ∧
  ns_colour s' = CInvert (ns_colour s) ∧
  ns_fill s' = (match some_entry d "fill_colour"%string with None => Some (CLighten (CInvert (ns_colour s)) (1 # 2)) | Some _ => CInvert <$> ns_fill s end) ∧
  ns_border s' = (match some_entry d "border_colour"%string with None => Some (CDarken (CInvert (ns_colour s)) (1 # 6)) | Some _ => CInvert <$> ns_border s end) ∧
  ns_text s' = (match some_entry d "text_colour"%string with None => CGray <$> ns_fill s' | Some _ => CInvert <$> ns_text s end) ∧
  (ns_opacity s', ns_font s', ns_text_size s', ns_shape s', ns_shape_style s') = (ns_opacity s, ns_font s, ns_text_size s, ns_shape s, ns_shape_style s).
Proof.
  intros d s Hnd Hs. assert (Hc : coloured s) by (destruct C56_coloured_partial_proof as (_ & HC & _); by eapply HC). destruct (ns_invert_run s Hc) as (s' & H & _ & H1 & H2 & H3 & H4 & H5 & _).
  destruct (ctor_flags d s Hnd Hs) as (F1 & F2 & F3). rewrite F1 in H2. rewrite F2 in H3. rewrite F3 in H4. exists s'. split; [done|]. split; [done|].
  injection H5 as ->->->->->_. rewrite flag_if in H2. rewrite flag_if in H3. rewrite flag_if in H4. by split_and!.
Qed.
(** C73.  invert_colours works for every NodeStyle in use, and gives again a style with all
    colours; inverting twice gives the double inverses of the colours that were not
    derived and derives the others from the double inverse of the main colour.  So it
    gives the old style back if double inversion does and the fill was the lighter one. *)
Lemma C73_twice_partial_proof : ∀ h k s, reachable h → h_ns h !! k = Some s → ∃ s1 s2, ns_invert s = Ok s1 ∧ coloured s1 ∧ ns_invert s1 = Ok s2 ∧
  ns_colour s2 = CInvert (CInvert (ns_colour s)) ∧
  ns_fill s2 = (if ns_fill_based s then Some (CLighten (CInvert (CInvert (ns_colour s))) (1 # 2)) else CInvert ∘ CInvert <$> ns_fill s) ∧
  ns_border s2 = (if ns_border_based s then Some (CDarken (CInvert (CInvert (ns_colour s))) (1 # 6)) else CInvert ∘ CInvert <$> ns_border s) ∧
  ns_text s2 = (if ns_text_based s then CGray <$> ns_fill s2 else CInvert ∘ CInvert <$> ns_text s).
Proof.
  intros h k s Hr Hk. destruct C56_coloured_partial_proof as (HC0 & _). destruct (HC0 h Hr) as [HC _]. specialize (HC k s Hk).
  destruct (ns_invert_run s HC) as (s1 & E1 & C1 & H1 & H2 & H3 & H4 & _ & _ & D1). destruct (ns_invert_run s1 C1) as (s2 & E2 & _ & K1 & K2 & K3 & K4 & _).
  exists s1, s2. unfold derived in D1. injection D1 as D1 D2 D3. rewrite D1 in K2. rewrite D2 in K3. rewrite D3 in K4. rewrite H1 in *. split; [done|]. split; [done|]. split; [done|]. split; [done|]. split; [|split].
  - rewrite K2, H2. destruct (ns_fill_based s); [done|]. by destruct (ns_fill s).
  - rewrite K3, H3. destruct (ns_border_based s); [done|]. by destruct (ns_border s).
  - rewrite K4, H4. destruct (ns_text_based s); [done|]. by destruct (ns_text s).
Qed.
(** C73 refuted: with lighter_fill=False the inverted style has a fill lighter than its
    main colour. *)
Lemma C73_lighter_refuted_proof : ∃ s s', nstyle_ctor [("colour", PStr "red"); ("lighter_fill", PInt 0)]%string = Ok s ∧ ns_fill s = Some (CDarken (CName "red") (1 # 2)) ∧
  ns_invert s = Ok s' ∧ ns_fill s' = Some (CLighten (CInvert (CName "red")) (1 # 2)).
Proof. eexists _, _. repeat (split; [vm_compute; reflexivity|]). vm_compute. reflexivity. Qed.
(** C73 refuted: a fill colour that was assigned after the style was made (by complement,
    as the option node_styles does) is not inverted but lost. *)
Lemma C73_assigned_refuted_proof : ∃ s s1 s2, nstyle_ctor [("colour", PStr "red")]%string = Ok s ∧ ns_complement [("fill_colour", PStr "white")]%string s = Ok s1 ∧ ns_fill s1 = Some (CName "white") ∧
  ns_invert s1 = Ok s2 ∧ ns_fill s2 = Some (CLighten (CInvert (CName "red")) (1 # 2)).
Proof. eexists _, _, _. repeat (split; [vm_compute; reflexivity|]). vm_compute. reflexivity. Qed.
(** C73.  The same for EdgeStyle; the label style is lost.  Missing: the label style
    (C73_label_style_refuted), and styles of copied graphs (they raise AttributeError). *)
Lemma C73_edge_partial_proof : (∀ d s, NoDup d.*1 → estyle_ctor d = Ok s → ∃ s', es_invert s = Ok s' ∧ es_colour s' = CInvert (es_colour s) ∧
    es_text s' = (match some_entry d "text_colour"%string with None => Some (CInvert (es_colour s)) | Some _ => CInvert <$> es_text s end) ∧
    (es_opacity s', es_font s', es_text_size s', es_arrow s', es_line_width s') = (es_opacity s, es_font s, es_text_size s, es_arrow s, es_line_width s)) ∧
  (∀ s, es_invert (es_deepcopy s) = Err AttributeError).
Proof.
  split.
  - intros d s Hnd. unfold estyle_ctor. destruct (check_kwargs estyle_keys d); [|done]. cbn [rbind]. destruct (to_colour _) as [c|] eqn:Hc; [|done]. cbn [rbind]. clear Hc. rewrite some_entry_kw by done. intros H.
    destruct (es_set_text _ _) as [s1|] eqn:H1 in H; [|done]. cbn [rbind] in H. injection H as <-. unfold es_set_text in H1.
    destruct (kw d "text_colour"%string PNone) as [| | | | |] eqn:Kt; cbn [to_colour rbind] in H1; try done; injection H1 as <-; (destruct (es_invert _) as [s'|] eqn:E; vm_compute in E; [|done]; injection E as <-; eexists; split; [reflexivity|]); repeat split.
  - intros s. unfold es_invert. by rewrite C57_deepcopy_partial_proof.
Qed.
(** C73 refuted for edges: the label style is lost. *)
Lemma C73_label_style_refuted_proof : ∃ s s', estyle_ctor [("label_style", PStr "above")]%string = Ok s ∧ es_invert s = Ok s' ∧ es_label_style s = PStr "above" ∧ es_label_style s' = PStr "below".
Proof. eexists _, _. repeat (split; [vm_compute; reflexivity|]). vm_compute. reflexivity. Qed.
(** C73, concretely: a red style with white fill; and an edge style with black text. *)
Lemma C73_ex_proof : ∃ s s' t t', nstyle_ctor [("colour", PStr "red"); ("fill_colour", PStr "white")]%string = Ok s ∧ ns_invert s = Ok s' ∧ ns_colour s' = CInvert (CName "red") ∧ ns_fill s' = Some (CInvert (CName "white")) ∧
  ns_border s' = Some (CDarken (CInvert (CName "red")) (1 # 6)) ∧ ns_text s' = Some (CGray (CInvert (CName "white"))) ∧
  estyle_ctor [("colour", PStr "red"); ("text_colour", PStr "black")]%string = Ok t ∧ es_invert t = Ok t' ∧ es_text t' = Some (CInvert (CName "black")).
Proof. eexists _, _, _, _. repeat (split; [vm_compute; reflexivity|]). vm_compute. reflexivity. Qed.
