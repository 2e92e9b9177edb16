(** Property theorems; the proofs are in ProofC49.v. *)
From Verif Require Import ProofC49.
Local Open Scope string_scope.
Local Open Scope list_scope.

(** C88.  reset_colours takes the fill, border and text colours away and changes nothing else,
    neither of this style nor of anything else. *)
Theorem C88_reset : ∀ h s t, h_ns h !! s = Some t → ∃ h1 t1, reset_nstyle s h = (h1, Ok tt) ∧ only_nstyle s h h1 ∧ h_ns h1 !! s = Some t1 ∧
  node_attrs t1 = set_all (node_attrs t) [("fill_colour", PNone); ("border_colour", PNone); ("text_colour", PNone)] ∧
  (∀ r, uses h r s → style_of h1 r t1).
Proof. exact C88_reset_proof. Qed.
Print Assumptions C88_reset.

(** C88.  For edge styles only the text colour is taken away; the text is then drawn in the main
    colour. *)
Theorem C88_edge_reset : ∀ h s t, h_es h !! s = Some t → ∃ h1 t1, reset_estyle s h = (h1, Ok tt) ∧ only_estyle s h h1 ∧ h_es h1 !! s = Some t1 ∧
  edge_attrs t1 = set_all (edge_attrs t) [("text_colour", PNone)] ∧ es_text_colour t1 = es_colour t ∧
  (∀ e, edge_uses h e s → edge_style_of h1 e t1).
Proof. exact C88_edge_reset_proof. Qed.
Print Assumptions C88_edge_reset.

(** C88.  If the main colour is assigned after that, the style has the colours that a new style
    of this colour and the same lighter_fill has, all of them derived; the other
    attributes stay, and all nodes that use the style show it. *)
Theorem C88_recolour : ∀ h s t v c, h_ns h !! s = Some t → stores "colour" v (PCol c) →
  ∃ h1 h2 t2 t0, reset_nstyle s h = (h1, Ok tt) ∧ set_nstyle s [("colour", v)] h1 = (h2, Ok tt) ∧ only_nstyle s h h2 ∧ h_ns h2 !! s = Some t2 ∧
    nstyle_ctor [("colour", PCol c); ("lighter_fill", PInt (if ns_lighter t then 1 else 0))] = Ok t0 ∧ ns_colour t0 = c ∧
    node_attrs t2 = set_all (node_attrs t) [("colour", PCol c); ("fill_colour", colour_value (ns_fill t0)); ("border_colour", colour_value (ns_border t0)); ("text_colour", colour_value (ns_text t0))] ∧
    derived t2 = (true, true, true) ∧ ns_lighter t2 = ns_lighter t ∧
    (∀ r, uses h r s → style_of h2 r t2).
Proof. exact C88_recolour_proof. Qed.
Print Assumptions C88_recolour.

(** C88.  The same for edge styles: the text gets the new main colour. *)
Theorem C88_edge_recolour : ∀ h s t v c, h_es h !! s = Some t → stores "colour" v (PCol c) →
  ∃ h1 h2 t2, reset_estyle s h = (h1, Ok tt) ∧ set_estyle s [("colour", v)] h1 = (h2, Ok tt) ∧ only_estyle s h h2 ∧ h_es h2 !! s = Some t2 ∧
    edge_attrs t2 = set_all (edge_attrs t) [("colour", PCol c); ("text_colour", PCol c)] ∧ es_text_based t2 = Some true ∧
    (∀ e, edge_uses h e s → edge_style_of h2 e t2).
Proof. exact C88_edge_recolour_proof. Qed.
Print Assumptions C88_edge_recolour.

(** A colour that was given is lost too; between the two calls there is none. *)
Example C88_given_ex : ∃ h s t h1 t1 h2 t2, reachable h ∧ h_ns h !! s = Some t ∧ ns_text t = Some (CName "black") ∧ uses h 0 s ∧
  reset_nstyle s h = (h1, Ok tt) ∧ style_of h1 0 t1 ∧ ns_text t1 = None ∧
  set_nstyle s [("colour", PStr "blue")] h1 = (h2, Ok tt) ∧ style_of h2 0 t2 ∧ ns_text t2 = Some (CGray (CLighten (CName "blue") (1 # 2))).
Proof. exact C88_given_ex_proof. Qed.
Print Assumptions C88_given_ex.

(** A style shared by a and b, and its copy used by c: a and b become blue, c stays. *)
Example C88_ex : reachable shared ∧ uses shared 0 0 ∧ uses shared 1 0 ∧
  (∃ t h1 h2 t2, h_ns shared !! 0 = Some t ∧ ns_fill t = Some (CLighten (CName "red") (1 # 2)) ∧ reset_nstyle 0 shared = (h1, Ok tt) ∧
    set_nstyle 0 [("colour", PStr "blue")] h1 = (h2, Ok tt) ∧ style_of h2 0 t2 ∧ style_of h2 1 t2 ∧ ns_fill t2 = Some (CLighten (CName "blue") (1 # 2)) ∧ style_of h2 2 t).
Proof. exact C88_ex_proof. Qed.
Print Assumptions C88_ex.
