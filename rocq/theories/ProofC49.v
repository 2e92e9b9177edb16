(** Resetting the colours of a style object and giving it another colour: C88. *)
From Verif Require Export SpecObj ModelReset Samples ProofC33.
From Verif Require Import ProofCompl.
Local Open Scope string_scope.
Local Open Scope list_scope.

Lemma colour_stored v c : stores "colour" v (PCol c) → to_colour v = Ok c.
Proof. intros Hv. inversion Hv as [s Hk|c' Hk|v' Hk]; subst; [done|done|]. exfalso. apply Hk. dec. Qed.
(** C88.  reset_colours takes the fill, border and text colours away and changes nothing else,
    neither of this style nor of anything else. *)
Lemma C88_reset_proof : ∀ h s t, h_ns h !! s = Some t → ∃ h1 t1, reset_nstyle s h = (h1, Ok tt) ∧ only_nstyle s h h1 ∧ h_ns h1 !! s = Some t1 ∧
  node_attrs t1 = set_all (node_attrs t) [("fill_colour", PNone); ("border_colour", PNone); ("text_colour", PNone)] ∧
  (∀ r, uses h r s → style_of h1 r t1).
Proof.
  intros h s t Hs. exists (h <| h_ns := <[s := ns_reset t]> (h_ns h) |>), (ns_reset t).
  assert (Hl : <[s := ns_reset t]> (h_ns h) !! s = Some (ns_reset t)) by (apply list_lookup_insert; by eapply lookup_lt_Some).
  split; [unfold reset_nstyle, upd_ns; by rewrite Hs|]. split; [|split; [exact Hl|split; [by destruct t|]]].
  - constructor; simpl; try done; [by rewrite insert_length|]. intros s' Hne. by rewrite list_lookup_insert_ne.
  - intros r (N & HN & Hu). by exists N, s.
Qed.
(** C88.  For edge styles only the text colour is taken away; the text is then drawn in the main
    colour. *)
Lemma C88_edge_reset_proof : ∀ h s t, h_es h !! s = Some t → ∃ h1 t1, reset_estyle s h = (h1, Ok tt) ∧ only_estyle s h h1 ∧ h_es h1 !! s = Some t1 ∧
  edge_attrs t1 = set_all (edge_attrs t) [("text_colour", PNone)] ∧ es_text_colour t1 = es_colour t ∧
  (∀ e, edge_uses h e s → edge_style_of h1 e t1).
Proof.
  intros h s t Hs. exists (h <| h_es := <[s := es_reset t]> (h_es h) |>), (es_reset t).
  assert (Hl : <[s := es_reset t]> (h_es h) !! s = Some (es_reset t)) by (apply list_lookup_insert; by eapply lookup_lt_Some).
  split; [unfold reset_estyle, upd_es; by rewrite Hs|]. split; [|split; [exact Hl|split; [by destruct t|split; [by destruct t|]]]].
  - constructor; simpl; try done; [by rewrite insert_length|]. intros s' Hne. by rewrite list_lookup_insert_ne.
  - intros r (N & HN & Hu). by exists N, s.
Qed.
(** C88.  If the main colour is assigned after that, the style has the colours that a new style
    of this colour and the same lighter_fill has, all of them derived; the other
    attributes stay, and all nodes that use the style show it. *)
Lemma C88_recolour_proof : ∀ h s t v c, h_ns h !! s = Some t → stores "colour" v (PCol c) →
  ∃ h1 h2 t2 t0, reset_nstyle s h = (h1, Ok tt) ∧ set_nstyle s [("colour", v)] h1 = (h2, Ok tt) ∧ only_nstyle s h h2 ∧ h_ns h2 !! s = Some t2 ∧
    nstyle_ctor [("colour", PCol c); ("lighter_fill", PInt (if ns_lighter t then 1 else 0))] = Ok t0 ∧ ns_colour t0 = c ∧
    node_attrs t2 = set_all (node_attrs t) [("colour", PCol c); ("fill_colour", colour_value (ns_fill t0)); ("border_colour", colour_value (ns_border t0)); ("text_colour", colour_value (ns_text t0))] ∧
    derived t2 = (true, true, true) ∧ ns_lighter t2 = ns_lighter t ∧
    (∀ r, uses h r s → style_of h2 r t2).
Proof.
  intros h s t v c Hs Hv. pose proof (colour_stored _ _ Hv) as Hc.
  set (t2 := ns_put_colour c (ns_reset t)). set (h1 := h <| h_ns := <[s := ns_reset t]> (h_ns h) |>).
  assert (Hlt : s < length (h_ns h)) by (by eapply lookup_lt_Some).
  assert (Hl : h_ns h1 !! s = Some (ns_reset t)) by (simpl; by apply list_lookup_insert).
  assert (Hset : set_nstyle s [("colour", v)] h1 = (h1 <| h_ns := <[s := t2]> (h_ns h1) |>, Ok tt)).
  { eapply complement_ns_ok; [exact Hl|]. unfold ns_complement. simpl. unfold ns_set_colour. by rewrite Hc. }
  exists h1, (h1 <| h_ns := <[s := t2]> (h_ns h1) |>), t2.
  assert (Hctor : ∃ t0, nstyle_ctor [("colour", PCol c); ("lighter_fill", PInt (if ns_lighter t then 1 else 0))] = Ok t0 ∧ ns_colour t0 = c ∧ (ns_fill t0, ns_border t0, ns_text t0) = (ns_fill t2, ns_border t2, ns_text t2)).
  { subst t2. destruct t as [c0 f b tx fb bb tb li op fo ts sh ss ex]. destruct li; eexists; (split; [cbn; reflexivity|]); by split. }
  destruct Hctor as (t0 & H0 & Hc0 & Heq). injection Heq as H1 H2 H3. exists t0. rewrite H1, H2, H3.
  split; [unfold reset_nstyle, upd_ns; by rewrite Hs|]. split; [exact Hset|].
  assert (Hl2 : <[s := t2]> (h_ns h1) !! s = Some t2) by (apply list_lookup_insert; simpl; by rewrite insert_length).
  split; [|split; [exact Hl2|split; [done|split; [done|split; [by subst t2; destruct t|split; [by subst t2; destruct t|split; [by subst t2; destruct t|]]]]]]].
  - constructor; simpl; try done; [by rewrite !insert_length|]. intros s' Hne. by rewrite !list_lookup_insert_ne.
  - intros r (N & HN & Hu). by exists N, s.
Qed.
(** C88.  The same for edge styles: the text gets the new main colour. *)
Lemma C88_edge_recolour_proof : ∀ h s t v c, h_es h !! s = Some t → stores "colour" v (PCol c) →
  ∃ h1 h2 t2, reset_estyle s h = (h1, Ok tt) ∧ set_estyle s [("colour", v)] h1 = (h2, Ok tt) ∧ only_estyle s h h2 ∧ h_es h2 !! s = Some t2 ∧
    edge_attrs t2 = set_all (edge_attrs t) [("colour", PCol c); ("text_colour", PCol c)] ∧ es_text_based t2 = Some true ∧
    (∀ e, edge_uses h e s → edge_style_of h2 e t2).
Proof.
  intros h s t v c Hs Hv. pose proof (colour_stored _ _ Hv) as Hc.
  set (t2 := es_put_colour c (es_reset t)). set (h1 := h <| h_es := <[s := es_reset t]> (h_es h) |>).
  assert (Hlt : s < length (h_es h)) by (by eapply lookup_lt_Some).
  assert (Hl : h_es h1 !! s = Some (es_reset t)) by (simpl; by apply list_lookup_insert).
  assert (Hset : set_estyle s [("colour", v)] h1 = (h1 <| h_es := <[s := t2]> (h_es h1) |>, Ok tt)).
  { eapply complement_es_ok; [exact Hl|]. unfold es_complement. simpl. unfold es_set_colour. by rewrite Hc. }
  exists h1, (h1 <| h_es := <[s := t2]> (h_es h1) |>), t2.
  split; [unfold reset_estyle, upd_es; by rewrite Hs|]. split; [exact Hset|].
  assert (Hl2 : <[s := t2]> (h_es h1) !! s = Some t2) by (apply list_lookup_insert; simpl; by rewrite insert_length).
  split; [|split; [exact Hl2|split; [by subst t2; destruct t|split; [by subst t2; destruct t|]]]].
  - constructor; simpl; try done; [by rewrite !insert_length|]. intros s' Hne. by rewrite !list_lookup_insert_ne.
  - intros r (N & HN & Hu). by exists N, s.
Qed.
Definition inked_calls : list call := graph_calls ["a"] [] ++ [CNStyleNew [("colour", PStr "red"); ("text_colour", PStr "black")]; CNodeStyle 0 (SObj 0)].
Definition inked : heap := Eval vm_compute in run inked_calls empty_heap.
Lemma inked_reachable : reachable inked.
Proof. assert (inked = run inked_calls empty_heap) as -> by (vm_compute; reflexivity). reach. Qed.
(** A colour that was given is lost too; between the two calls there is none. *)
Lemma C88_given_ex_proof : ∃ h s t h1 t1 h2 t2, reachable h ∧ h_ns h !! s = Some t ∧ ns_text t = Some (CName "black") ∧ uses h 0 s ∧
  reset_nstyle s h = (h1, Ok tt) ∧ style_of h1 0 t1 ∧ ns_text t1 = None ∧
  set_nstyle s [("colour", PStr "blue")] h1 = (h2, Ok tt) ∧ style_of h2 0 t2 ∧ ns_text t2 = Some (CGray (CLighten (CName "blue") (1 # 2))).
Proof.
  exists inked, 0. eexists _, _, _, _, _.
  split; [exact inked_reachable|]. split; [vm_compute; reflexivity|]. split; [by vm_compute|]. split; [eexists; by vm_compute|].
  split; [vm_compute; reflexivity|]. split; [do 2 eexists; by vm_compute|]. split; [by vm_compute|].
  split; [vm_compute; reflexivity|]. split; [do 2 eexists; by vm_compute|]. by vm_compute.
Qed.
(** A style shared by a and b, and its copy used by c: a and b become blue, c stays. *)
Lemma C88_ex_proof : reachable shared ∧ uses shared 0 0 ∧ uses shared 1 0 ∧
  (∃ t h1 h2 t2, h_ns shared !! 0 = Some t ∧ ns_fill t = Some (CLighten (CName "red") (1 # 2)) ∧ reset_nstyle 0 shared = (h1, Ok tt) ∧
    set_nstyle 0 [("colour", PStr "blue")] h1 = (h2, Ok tt) ∧ style_of h2 0 t2 ∧ style_of h2 1 t2 ∧ ns_fill t2 = Some (CLighten (CName "blue") (1 # 2)) ∧ style_of h2 2 t).
Proof.
  split; [apply shared_reachable|]. split; [eexists; by vm_compute|]. split; [eexists; by vm_compute|].
  eexists _, _, _, _. split; [vm_compute; reflexivity|]. split; [by vm_compute|]. split; [vm_compute; reflexivity|]. split; [vm_compute; reflexivity|].
  split; [do 2 eexists; by vm_compute|]. split; [do 2 eexists; by vm_compute|]. split; [by vm_compute|]. do 2 eexists; by vm_compute.
Qed.
