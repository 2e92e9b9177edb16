(** Property theorems; the proofs are in ProofC47.v. *)
From Verif Require Import ProofC47.
Local Open Scope string_scope.
Local Open Scope list_scope.

(** C79.  style.complement with several attributes assigns them one after the other and
    touches no other attribute. *)
Theorem C79_many : ∀ h s t d d', reachable h → h_ns h !! s = Some t → Forall2 (stored_entry node_attr_names) d d' →
  ∃ h1 t1, set_nstyle s d h = (h1, Ok tt) ∧ h_ns h1 !! s = Some t1 ∧
    node_attrs t1 = set_all (node_attrs t) d' ∧ (∀ r, uses h r s → style_of h1 r t1).
Proof. exact C79_many_proof. Qed.
Print Assumptions C79_many.

(** C79.  The same for edge style objects. *)
Theorem C79_edge_many : ∀ h s t d d', reachable h → h_es h !! s = Some t → Forall2 (stored_entry edge_attr_names) d d' →
  ∃ h1 t1, set_estyle s d h = (h1, Ok tt) ∧ h_es h1 !! s = Some t1 ∧
    edge_attrs t1 = set_all (edge_attrs t) d' ∧ (∀ e, edge_uses h e s → edge_style_of h1 e t1).
Proof. exact C79_edge_many_proof. Qed.
Print Assumptions C79_edge_many.

(** C79.  If a later entry has a name with an underscore that is no attribute, complement
    raises ValueError; the entries before it stay assigned, those after it are not looked
    at. *)
Theorem C79_stops : ∀ h s t d1 d1' k v d2, reachable h → h_ns h !! s = Some t → Forall2 (stored_entry node_attr_names) d1 d1' →
  String.prefix "_" k = true → k ∉ nstyle_other_attrs → k ∉ (ns_extra t).*1 →
  ∃ t1, set_nstyle s (d1 ++ (k, v) :: d2) h = (h <| h_ns := <[s := t1]> (h_ns h) |>, Err ValueError) ∧
    node_attrs t1 = set_all (node_attrs t) d1'.
Proof. exact C79_stops_proof. Qed.
Print Assumptions C79_stops.

(** C79.  The same for edge style objects. *)
Theorem C79_edge_stops : ∀ h s t d1 d1' k v d2, reachable h → h_es h !! s = Some t → Forall2 (stored_entry edge_attr_names) d1 d1' →
  String.prefix "_" k = true → k ∉ estyle_other_attrs → k ∉ (es_extra t).*1 →
  ∃ t1, set_estyle s (d1 ++ (k, v) :: d2) h = (h <| h_es := <[s := t1]> (h_es h) |>, Err ValueError) ∧
    edge_attrs t1 = set_all (edge_attrs t) d1'.
Proof. exact C79_edge_stops_proof. Qed.
Print Assumptions C79_edge_stops.

(** A half-assigned style: the shape of the style shared by a and b is set before the entry
    _x raises; the text size after it is not. *)
Example C79_stops_ex : reachable shared ∧
  Forall2 (stored_entry node_attr_names) [("shape", PStr "circle")] [("shape", PStr "circle")] ∧
  (∃ t h1 t1, h_ns shared !! 0 = Some t ∧ "_x" ∉ (ns_extra t).*1 ∧ "_x" ∉ nstyle_other_attrs ∧
    set_nstyle 0 [("shape", PStr "circle"); ("_x", PInt 1); ("text_size", PInt 20)] shared = (h1, Err ValueError) ∧
    style_of h1 0 t1 ∧ style_of h1 1 t1 ∧ ns_shape t1 = PStr "circle" ∧ ns_text_size t1 = ns_text_size t ∧ ns_shape t = PStr "box").
Proof. exact C79_stops_ex_proof. Qed.
Print Assumptions C79_stops_ex.

(** C79.  So it is not true that a complement that raises leaves the style as it was. *)
Theorem C79_atomic_refuted : ∃ h s d h1 t, reachable h ∧ set_nstyle s d h = (h1, Err ValueError) ∧ h_ns h !! s = Some t ∧ h_ns h1 !! s ≠ Some t.
Proof. exact C79_atomic_refuted_proof. Qed.
Print Assumptions C79_atomic_refuted.

(** Two attributes and an integer are assigned at once to the style shared by a and b. *)
Example C79_many_ex : reachable shared ∧
  Forall2 (stored_entry node_attr_names) [("shape", PStr "circle"); ("colour", PStr "blue"); ("text_size", PInt 20)]
    [("shape", PStr "circle"); ("colour", PCol (CName "blue")); ("text_size", PInt 20)] ∧
  (∃ t t1, h_ns shared !! 0 = Some t ∧ (set_nstyle 0 [("shape", PStr "circle"); ("colour", PStr "blue"); ("text_size", PInt 20)] shared).2 = Ok tt ∧
    h_ns (set_nstyle 0 [("shape", PStr "circle"); ("colour", PStr "blue"); ("text_size", PInt 20)] shared).1 !! 0 = Some t1 ∧
    ns_shape t1 = PStr "circle" ∧ ns_colour t1 = CName "blue" ∧ ns_text_size t1 = PInt 20).
Proof. exact C79_many_ex_proof. Qed.
Print Assumptions C79_many_ex.

(** C73.  Whether the text colour of an edge style was given is remembered: after inverting a
    style made with the arguments [d], assigning another main colour and inverting again,
    the text has the inverse of the new main colour if no text colour was given, and the
    double inverse of the given one otherwise. *)
Theorem C73_edge_again : ∀ d s s1 v c s2, NoDup d.*1 → estyle_ctor d = Ok s → es_invert s = Ok s1 → stores "colour" v (PCol c) →
  es_complement [("colour", v)] s1 = Ok s2 → ∃ s3, es_invert s2 = Ok s3 ∧ es_colour s3 = CInvert c ∧
  es_text s3 = (match some_entry d "text_colour"%string with None => Some (CInvert c) | Some _ => CInvert ∘ CInvert <$> es_text s end).
Proof. exact C73_edge_again_proof. Qed.
Print Assumptions C73_edge_again.

(** An edge style without and one with a text colour, inverted, made green and inverted. *)
Example C73_edge_again_ex : ∃ s s1 s2 s3 t t1 t2 t3, estyle_ctor [("colour", PStr "red")]%string = Ok s ∧ es_invert s = Ok s1 ∧
  es_complement [("colour", PStr "green")]%string s1 = Ok s2 ∧ es_invert s2 = Ok s3 ∧ es_text s3 = Some (CInvert (CName "green")) ∧
  estyle_ctor [("colour", PStr "red"); ("text_colour", PStr "blue")]%string = Ok t ∧ es_invert t = Ok t1 ∧
  es_complement [("colour", PStr "green")]%string t1 = Ok t2 ∧ es_invert t2 = Ok t3 ∧ es_text t3 = Some (CInvert (CInvert (CName "blue"))).
Proof. exact C73_edge_again_ex_proof. Qed.
Print Assumptions C73_edge_again_ex.
