(** Property theorems; the proofs are in ProofC25.v. *)
From Verif Require Import ProofC25.
Local Open Scope list_scope.

(** C73.  invert_colours of a NodeStyle made with the arguments [d] has the inverse of the
    main colour, the inverses of the colours that were given, and derives the others
    from the new main colour as a style with a lighter fill does; everything else
    stays.  Missing: that a darker fill stays darker (C73_lighter_refuted). *)
Theorem C73_node_partial : ∀ d s, NoDup d.*1 → nstyle_ctor d = Ok s → ∃ s', ns_invert s = Ok s' ∧
  ns_colour s' = CInvert (ns_colour s) ∧
  ns_fill s' = (match some_entry d "fill_colour"%string with None => Some (CLighten (CInvert (ns_colour s)) (1 # 2)) | Some _ => CInvert <$> ns_fill s end) ∧
  ns_border s' = (match some_entry d "border_colour"%string with None => Some (CDarken (CInvert (ns_colour s)) (1 # 6)) | Some _ => CInvert <$> ns_border s end) ∧
  ns_text s' = (match some_entry d "text_colour"%string with None => CGray <$> ns_fill s' | Some _ => CInvert <$> ns_text s end) ∧
  (ns_opacity s', ns_font s', ns_text_size s', ns_shape s', ns_shape_style s') = (ns_opacity s, ns_font s, ns_text_size s, ns_shape s, ns_shape_style s).
Proof. exact C73_node_partial_proof. Qed.
Print Assumptions C73_node_partial.

(** C73.  invert_colours works for every NodeStyle in use, and gives again a style with all
    colours; inverting twice gives the double inverses of the colours that were not
    derived and derives the others from the double inverse of the main colour.  So it
    gives the old style back if double inversion does and the fill was the lighter one. *)
Theorem C73_twice_partial : ∀ h k s, reachable h → h_ns h !! k = Some s → ∃ s1 s2, ns_invert s = Ok s1 ∧ coloured s1 ∧ ns_invert s1 = Ok s2 ∧
  ns_colour s2 = CInvert (CInvert (ns_colour s)) ∧
  ns_fill s2 = (if ns_fill_based s then Some (CLighten (CInvert (CInvert (ns_colour s))) (1 # 2)) else CInvert ∘ CInvert <$> ns_fill s) ∧
  ns_border s2 = (if ns_border_based s then Some (CDarken (CInvert (CInvert (ns_colour s))) (1 # 6)) else CInvert ∘ CInvert <$> ns_border s) ∧
  ns_text s2 = (if ns_text_based s then CGray <$> ns_fill s2 else CInvert ∘ CInvert <$> ns_text s).
Proof. exact C73_twice_partial_proof. Qed.
Print Assumptions C73_twice_partial.

(** C73 refuted: with lighter_fill=False the inverted style has a fill lighter than its
    main colour. *)
Theorem C73_lighter_refuted : ∃ s s', nstyle_ctor [("colour", PStr "red"); ("lighter_fill", PInt 0)]%string = Ok s ∧ ns_fill s = Some (CDarken (CName "red") (1 # 2)) ∧
  ns_invert s = Ok s' ∧ ns_fill s' = Some (CLighten (CInvert (CName "red")) (1 # 2)).
Proof. exact C73_lighter_refuted_proof. Qed.
Print Assumptions C73_lighter_refuted.

(** C73 refuted: a fill colour that was assigned after the style was made (by complement,
    as the option node_styles does) is not inverted but lost. *)
Theorem C73_assigned_refuted : ∃ s s1 s2, nstyle_ctor [("colour", PStr "red")]%string = Ok s ∧ ns_complement [("fill_colour", PStr "white")]%string s = Ok s1 ∧ ns_fill s1 = Some (CName "white") ∧
  ns_invert s1 = Ok s2 ∧ ns_fill s2 = Some (CLighten (CInvert (CName "red")) (1 # 2)).
Proof. exact C73_assigned_refuted_proof. Qed.
Print Assumptions C73_assigned_refuted.

(** C73.  The same for EdgeStyle; the label style is lost.  Missing: the label style
    (C73_label_style_refuted), and styles of copied graphs (they raise AttributeError). *)
Theorem C73_edge_partial : (∀ d s, NoDup d.*1 → estyle_ctor d = Ok s → ∃ s', es_invert s = Ok s' ∧ es_colour s' = CInvert (es_colour s) ∧
    es_text s' = (match some_entry d "text_colour"%string with None => Some (CInvert (es_colour s)) | Some _ => CInvert <$> es_text s end) ∧
    (es_opacity s', es_font s', es_text_size s', es_arrow s', es_line_width s') = (es_opacity s, es_font s, es_text_size s, es_arrow s, es_line_width s)) ∧
  (∀ s, es_invert (es_deepcopy s) = Err AttributeError).
Proof. exact C73_edge_partial_proof. Qed.
Print Assumptions C73_edge_partial.

(** C73 refuted for edges: the label style is lost. *)
Theorem C73_label_style_refuted : ∃ s s', estyle_ctor [("label_style", PStr "above")]%string = Ok s ∧ es_invert s = Ok s' ∧ es_label_style s = PStr "above" ∧ es_label_style s' = PStr "below".
Proof. exact C73_label_style_refuted_proof. Qed.
Print Assumptions C73_label_style_refuted.

(** C73, concretely: a red style with white fill; and an edge style with black text. *)
Example C73_ex : ∃ s s' t t', nstyle_ctor [("colour", PStr "red"); ("fill_colour", PStr "white")]%string = Ok s ∧ ns_invert s = Ok s' ∧ ns_colour s' = CInvert (CName "red") ∧ ns_fill s' = Some (CInvert (CName "white")) ∧
  ns_border s' = Some (CDarken (CInvert (CName "red")) (1 # 6)) ∧ ns_text s' = Some (CGray (CInvert (CName "white"))) ∧
  estyle_ctor [("colour", PStr "red"); ("text_colour", PStr "black")]%string = Ok t ∧ es_invert t = Ok t' ∧ es_text t' = Some (CInvert (CName "black")).
Proof. exact C73_ex_proof. Qed.
Print Assumptions C73_ex.
