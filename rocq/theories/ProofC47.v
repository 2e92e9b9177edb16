(** Assigning several attributes of a style object at once, and what a complement that raises
    leaves behind: C79. *)
From Verif Require Export SpecObj SpecOver SpecMore ProofC33 Samples.
From Verif Require Import ProofGlobal ProofC25 ProofCompl.
Local Open Scope string_scope.
Local Open Scope list_scope.

Lemma ns_complement_cons kv d t : ns_complement (kv :: d) t = rbind (ns_complement [kv] t) (ns_complement d).
Proof. unfold ns_complement. simpl. by destruct (ns_complement1 t kv). Qed.
Lemma es_complement_cons kv d t : es_complement (kv :: d) t = rbind (es_complement [kv] t) (es_complement d).
Proof. unfold es_complement. simpl. by destruct (es_complement1 t kv). Qed.
Lemma complement_n_all d d' t : coloured t → Forall2 (stored_entry node_attr_names) d d' →
  ∃ t1, ns_complement d t = Ok t1 ∧ node_attrs t1 = set_all (node_attrs t) d' ∧ coloured t1.
Proof.
  intros Hc F. revert t Hc. induction F as [|[k v] [k' w] d d' (Hk & Hin & Hw) F IH]; intros t Hc; [by exists t|]. simpl in *. subst k'.
  destruct (complement1_n t k v w Hc Hin Hw) as (t1 & Ht1 & Ha). pose proof (complement_coloured _ _ _ Hc Ht1) as Hc1.
  destruct (IH t1 Hc1) as (t2 & Ht2 & Ha2 & Hc2). exists t2. rewrite ns_complement_cons, Ht1. split; [done|]. split; [|done].
  unfold set_all in *. simpl. by rewrite Ha2, Ha.
Qed.
Lemma complement_e_all d d' t : text_coloured t → Forall2 (stored_entry edge_attr_names) d d' →
  ∃ t1, es_complement d t = Ok t1 ∧ edge_attrs t1 = set_all (edge_attrs t) d' ∧ text_coloured t1.
Proof.
  intros Hc F. revert t Hc. induction F as [|[k v] [k' w] d d' (Hk & Hin & Hw) F IH]; intros t Hc; [by exists t|]. simpl in *. subst k'.
  destruct (complement1_e t k v w Hc Hin Hw) as (t1 & Ht1 & Ha). pose proof (ecomplement_coloured _ _ _ Hc Ht1) as Hc1.
  destruct (IH t1 Hc1) as (t2 & Ht2 & Ha2 & Hc2). exists t2. rewrite es_complement_cons, Ht1. split; [done|]. split; [|done].
  unfold set_all in *. simpl. by rewrite Ha2, Ha.
Qed.

(** C79.  style.complement with several attributes assigns them one after the other and
    touches no other attribute. *)
Lemma C79_many_proof : ∀ h s t d d', reachable h → h_ns h !! s = Some t → Forall2 (stored_entry node_attr_names) d d' →
  ∃ h1 t1, set_nstyle s d h = (h1, Ok tt) ∧ h_ns h1 !! s = Some t1 ∧
    node_attrs t1 = set_all (node_attrs t) d' ∧ (∀ r, uses h r s → style_of h1 r t1).
Proof.
  intros h s t d d' Hr Hs F. destruct (reachable_CI _ Hr) as [C _]. rewrite Forall_lookup in C.
  destruct (complement_n_all d d' t (C _ _ Hs) F) as (t1 & Ht1 & Ha & _).
  assert (Hl : <[s := t1]> (h_ns h) !! s = Some t1) by (apply list_lookup_insert; by eapply lookup_lt_Some).
  eexists _, t1. split; [by eapply set_n_ok|]. split; [done|]. split; [done|].
  intros r (N & HN & Hu). by exists N, s.
Qed.
(** C79.  The same for edge style objects. *)
Lemma C79_edge_many_proof : ∀ h s t d d', reachable h → h_es h !! s = Some t → Forall2 (stored_entry edge_attr_names) d d' →
  ∃ h1 t1, set_estyle s d h = (h1, Ok tt) ∧ h_es h1 !! s = Some t1 ∧
    edge_attrs t1 = set_all (edge_attrs t) d' ∧ (∀ e, edge_uses h e s → edge_style_of h1 e t1).
Proof.
  intros h s t d d' Hr Hs F. destruct (reachable_CI _ Hr) as [_ C]. rewrite Forall_lookup in C.
  destruct (complement_e_all d d' t (C _ _ Hs) F) as (t1 & Ht1 & Ha & _).
  assert (Hl : <[s := t1]> (h_es h) !! s = Some t1) by (apply list_lookup_insert; by eapply lookup_lt_Some).
  eexists _, t1. split; [by eapply set_e_ok|]. split; [done|]. split; [done|].
  intros r (N & HN & Hu). by exists N, s.
Qed.

Lemma complement1_n_extra t k v w t1 : k ∈ node_attr_names → stores k v w → ns_complement [(k, v)] t = Ok t1 → ns_extra t1 = ns_extra t.
Proof.
  intros Hks Hw. unfold node_attr_names in Hks.
  destruct t as [tc tf tb tt0 fb bb tb' tl to tfo ts tsh tss tex].
  repeat (apply elem_of_cons in Hks as [->|Hks]); [..|by apply elem_of_nil in Hks];
  stored Hw; cbn; try (intros [= <-]; reflexivity); destruct tf; try destruct tb; try destruct tt0; cbn; intros [= <-]; reflexivity.
Qed.
Lemma complement1_e_extra t k v w t1 : k ∈ edge_attr_names → stores k v w → es_complement [(k, v)] t = Ok t1 → es_extra t1 = es_extra t.
Proof.
  intros Hks Hw. unfold edge_attr_names in Hks.
  destruct t as [tc tt0 tb to tfo ts tar tl tlw tex].
  repeat (apply elem_of_cons in Hks as [->|Hks]); [..|by apply elem_of_nil in Hks];
  stored Hw; cbn; try (intros [= <-]; reflexivity); destruct tt0; cbn; intros [= <-]; reflexivity.
Qed.
Lemma complement_n_extra d d' t t1 : Forall2 (stored_entry node_attr_names) d d' → ns_complement d t = Ok t1 → ns_extra t1 = ns_extra t.
Proof.
  intros F. revert t. induction F as [|[k v] [k' w] d d' (Hk & Hin & Hw) F IH]; intros t; [by intros [= <-]|]. simpl in *. subst k'.
  rewrite ns_complement_cons. intros (t2 & H2 & H1)%rbind_Ok. rewrite (IH _ H1). by eapply complement1_n_extra.
Qed.
Lemma complement_e_extra d d' t t1 : Forall2 (stored_entry edge_attr_names) d d' → es_complement d t = Ok t1 → es_extra t1 = es_extra t.
Proof.
  intros F. revert t. induction F as [|[k v] [k' w] d d' (Hk & Hin & Hw) F IH]; intros t; [by intros [= <-]|]. simpl in *. subst k'.
  rewrite es_complement_cons. intros (t2 & H2 & H1)%rbind_Ok. rewrite (IH _ H1). by eapply complement1_e_extra.
Qed.
Lemma complement1_n_stop t k v : String.prefix "_" k = true → k ∉ nstyle_other_attrs → k ∉ (ns_extra t).*1 → ns_complement1 t (k, v) = Err ValueError.
Proof.
  intros Hp Hk Hx. assert (∀ x, String.prefix "_" x = false → eqb k x = false) as Hne.
  { intros x Hf. apply bool_decide_eq_false. intros ->. congruence. }
  unfold ns_complement1. rewrite !Hne by done. rewrite bool_decide_eq_false_2 by done. unfold underscored. rewrite Hp.
  by rewrite (proj2 (dmem_false _ _) Hx).
Qed.
Lemma complement1_e_stop t k v : String.prefix "_" k = true → k ∉ estyle_other_attrs → k ∉ (es_extra t).*1 → es_complement1 t (k, v) = Err ValueError.
Proof.
  intros Hp Hk Hx. assert (∀ x, String.prefix "_" x = false → eqb k x = false) as Hne.
  { intros x Hf. apply bool_decide_eq_false. intros ->. congruence. }
  unfold es_complement1. rewrite !Hne by done. rewrite bool_decide_eq_false_2 by done. unfold underscored. rewrite Hp.
  by rewrite (proj2 (dmem_false _ _) Hx).
Qed.
Lemma complement_ns_stop h s t t1 d1 kv d2 x : h_ns h !! s = Some t → ns_complement d1 t = Ok t1 → ns_complement1 t1 kv = Err x →
  complement_ns s (d1 ++ kv :: d2) h = (h <| h_ns := <[s := t1]> (h_ns h) |>, Err x).
Proof.
  intros Hs. unfold complement_ns, sbind at 1, sread. rewrite Hs. revert h t Hs. induction d1 as [|kv' d1 IH]; intros h t Hs Hd Hx.
  - injection Hd as ->. simpl. unfold sbind at 1, upd_ns at 1. rewrite Hs, Hx. f_equal. destruct h; simpl in *. by rewrite list_insert_id.
  - rewrite ns_complement_cons in Hd. apply rbind_Ok in Hd as (t2 & H2 & Hd). simpl. unfold sbind at 1, upd_ns at 1. rewrite Hs.
    unfold ns_complement in H2. simpl in H2. destruct (ns_complement1 t kv') as [t2'|]; [|done]. simpl in H2. injection H2 as ->.
    rewrite (IH (h <| h_ns := <[s := t2]> (h_ns h) |>) t2); [|simpl; apply list_lookup_insert; by eapply lookup_lt_Some|done|done].
    f_equal. destruct h; simpl. by rewrite insert_again.
Qed.
Lemma complement_es_stop h s t t1 d1 kv d2 x : h_es h !! s = Some t → es_complement d1 t = Ok t1 → es_complement1 t1 kv = Err x →
  complement_es s (d1 ++ kv :: d2) h = (h <| h_es := <[s := t1]> (h_es h) |>, Err x).
Proof.
  intros Hs. unfold complement_es, sbind at 1, sread. rewrite Hs. revert h t Hs. induction d1 as [|kv' d1 IH]; intros h t Hs Hd Hx.
  - injection Hd as ->. simpl. unfold sbind at 1, upd_es at 1. rewrite Hs, Hx. f_equal. destruct h; simpl in *. by rewrite list_insert_id.
  - rewrite es_complement_cons in Hd. apply rbind_Ok in Hd as (t2 & H2 & Hd). simpl. unfold sbind at 1, upd_es at 1. rewrite Hs.
    unfold es_complement in H2. simpl in H2. destruct (es_complement1 t kv') as [t2'|]; [|done]. simpl in H2. injection H2 as ->.
    rewrite (IH (h <| h_es := <[s := t2]> (h_es h) |>) t2); [|simpl; apply list_lookup_insert; by eapply lookup_lt_Some|done|done].
    f_equal. destruct h; simpl. by rewrite insert_again.
Qed.

(** C79.  If a later entry has a name with an underscore that is no attribute, complement
    raises ValueError; the entries before it stay assigned, those after it are not looked
    at. *)
Lemma C79_stops_proof : ∀ h s t d1 d1' k v d2, reachable h → h_ns h !! s = Some t → Forall2 (stored_entry node_attr_names) d1 d1' →
  String.prefix "_" k = true → k ∉ nstyle_other_attrs → k ∉ (ns_extra t).*1 →
  ∃ t1, set_nstyle s (d1 ++ (k, v) :: d2) h = (h <| h_ns := <[s := t1]> (h_ns h) |>, Err ValueError) ∧
    node_attrs t1 = set_all (node_attrs t) d1'.
Proof.
  intros h s t d1 d1' k v d2 Hr Hs F Hp Hk Hx. destruct (reachable_CI _ Hr) as [C _]. rewrite Forall_lookup in C.
  destruct (complement_n_all d1 d1' t (C _ _ Hs) F) as (t1 & Ht1 & Ha & _). exists t1. split; [|done].
  eapply complement_ns_stop; [done|done|]. apply complement1_n_stop; [done|done|]. by rewrite (complement_n_extra d1 d1' t t1).
Qed.
(** C79.  The same for edge style objects. *)
Lemma C79_edge_stops_proof : ∀ h s t d1 d1' k v d2, reachable h → h_es h !! s = Some t → Forall2 (stored_entry edge_attr_names) d1 d1' →
  String.prefix "_" k = true → k ∉ estyle_other_attrs → k ∉ (es_extra t).*1 →
  ∃ t1, set_estyle s (d1 ++ (k, v) :: d2) h = (h <| h_es := <[s := t1]> (h_es h) |>, Err ValueError) ∧
    edge_attrs t1 = set_all (edge_attrs t) d1'.
Proof.
  intros h s t d1 d1' k v d2 Hr Hs F Hp Hk Hx. destruct (reachable_CI _ Hr) as [_ C]. rewrite Forall_lookup in C.
  destruct (complement_e_all d1 d1' t (C _ _ Hs) F) as (t1 & Ht1 & Ha & _). exists t1. split; [|done].
  eapply complement_es_stop; [done|done|]. apply complement1_e_stop; [done|done|]. by rewrite (complement_e_extra d1 d1' t t1).
Qed.
(** A half-assigned style: the shape of the style shared by a and b is set before the entry
    _x raises; the text size after it is not. *)
Lemma C79_stops_ex_proof : reachable shared ∧
  Forall2 (stored_entry node_attr_names) [("shape", PStr "circle")] [("shape", PStr "circle")] ∧
  (∃ t h1 t1, h_ns shared !! 0 = Some t ∧ "_x" ∉ (ns_extra t).*1 ∧ "_x" ∉ nstyle_other_attrs ∧
    set_nstyle 0 [("shape", PStr "circle"); ("_x", PInt 1); ("text_size", PInt 20)] shared = (h1, Err ValueError) ∧
    style_of h1 0 t1 ∧ style_of h1 1 t1 ∧ ns_shape t1 = PStr "circle" ∧ ns_text_size t1 = ns_text_size t ∧ ns_shape t = PStr "box").
Proof.
  split; [exact (proj1 C79_ex_proof)|]. split.
  { constructor; [|constructor]. split; [reflexivity|]. split; [dec|]. apply stores_other; apply (bool_decide_unpack (¬ _)); vm_compute; exact I. }
  eexists _, _, _. split; [vm_compute; reflexivity|]. split; [dec|]. split; [dec|]. split; [vm_compute; reflexivity|].
  split; [do 2 eexists; by vm_compute|]. split; [do 2 eexists; by vm_compute|]. by vm_compute.
Qed.
(** C79.  So it is not true that a complement that raises leaves the style as it was. *)
Lemma C79_atomic_refuted_proof : ∃ h s d h1 t, reachable h ∧ set_nstyle s d h = (h1, Err ValueError) ∧ h_ns h !! s = Some t ∧ h_ns h1 !! s ≠ Some t.
Proof.
  destruct C79_stops_ex_proof as (Hr & _ & t & h1 & t1 & Ht & _ & _ & Hset & (N & k & HN & Hk & Ht1) & _ & Hs1 & _ & Hs).
  exists shared, 0, [("shape", PStr "circle"); ("_x", PInt 1); ("text_size", PInt 20)], h1, t.
  split; [done|]. split; [exact Hset|]. split; [done|].
  vm_compute in Hset. injection Hset as <-. vm_compute in Ht. injection Ht as <-. intros [=].
Qed.
(** Two attributes and an integer are assigned at once to the style shared by a and b. *)
Lemma C79_many_ex_proof : reachable shared ∧
  Forall2 (stored_entry node_attr_names) [("shape", PStr "circle"); ("colour", PStr "blue"); ("text_size", PInt 20)]
    [("shape", PStr "circle"); ("colour", PCol (CName "blue")); ("text_size", PInt 20)] ∧
  (∃ t t1, h_ns shared !! 0 = Some t ∧ (set_nstyle 0 [("shape", PStr "circle"); ("colour", PStr "blue"); ("text_size", PInt 20)] shared).2 = Ok tt ∧
    h_ns (set_nstyle 0 [("shape", PStr "circle"); ("colour", PStr "blue"); ("text_size", PInt 20)] shared).1 !! 0 = Some t1 ∧
    ns_shape t1 = PStr "circle" ∧ ns_colour t1 = CName "blue" ∧ ns_text_size t1 = PInt 20).
Proof.
  split; [exact (proj1 C79_ex_proof)|]. split.
  { repeat (constructor; [split; [reflexivity|]; split; [dec|];
      first [apply stores_name; dec|apply stores_other; apply (bool_decide_unpack (¬ _)); vm_compute; exact I]|]). constructor. }
  eexists _, _. split; [vm_compute; reflexivity|]. split; [by vm_compute|]. split; [vm_compute; reflexivity|]. by vm_compute.
Qed.

(** C73.  Whether the text colour of an edge style was given is remembered: after inverting a
    style made with the arguments [d], assigning another main colour and inverting again,
    the text has the inverse of the new main colour if no text colour was given, and the
    double inverse of the given one otherwise. *)
Lemma C73_edge_again_proof : ∀ d s s1 v c s2, NoDup d.*1 → estyle_ctor d = Ok s → es_invert s = Ok s1 → stores "colour" v (PCol c) →
  es_complement [("colour", v)] s1 = Ok s2 → ∃ s3, es_invert s2 = Ok s3 ∧ es_colour s3 = CInvert c ∧
  es_text s3 = (match some_entry d "text_colour"%string with None => Some (CInvert c) | Some _ => CInvert ∘ CInvert <$> es_text s end).
Proof.
  intros d s s1 v c s2 Hnd Hs H1 Hv H2.
  revert Hs. unfold estyle_ctor. destruct (check_kwargs estyle_keys d); [|done]. cbn [rbind]. destruct (to_colour _) as [c0|] eqn:Hc0; [|done]. cbn [rbind]. clear Hc0.
  rewrite some_entry_kw by done. intros H. destruct (es_set_text _ _) as [s0|] eqn:H0 in H; [|done]. cbn [rbind] in H. injection H as <-. unfold es_set_text in H0.
  assert (to_colour v = Ok c) as Hc.
  { clear -Hv. inversion Hv as [s' Hk|c' Hk|v' Hk]; subst; [done|done|]. exfalso. apply Hk. dec. }
  assert (es_complement [("colour"%string, v)] s1 = Ok (es_put_colour c s1)) as Hco by (unfold es_complement; cbn; unfold es_set_colour; by rewrite Hc).
  rewrite Hco in H2. injection H2 as <-. clear Hco Hv Hc.
  destruct (kw d "text_colour"%string PNone) as [| | | | |] eqn:Kt; cbn [to_colour rbind] in H0; try done; injection H0 as <-; vm_compute in H1; injection H1 as <-;
    (eexists; split; [vm_compute; reflexivity|]; by split).
Qed.
(** An edge style without and one with a text colour, inverted, made green and inverted. *)
Lemma C73_edge_again_ex_proof : ∃ s s1 s2 s3 t t1 t2 t3, estyle_ctor [("colour", PStr "red")]%string = Ok s ∧ es_invert s = Ok s1 ∧
  es_complement [("colour", PStr "green")]%string s1 = Ok s2 ∧ es_invert s2 = Ok s3 ∧ es_text s3 = Some (CInvert (CName "green")) ∧
  estyle_ctor [("colour", PStr "red"); ("text_colour", PStr "blue")]%string = Ok t ∧ es_invert t = Ok t1 ∧
  es_complement [("colour", PStr "green")]%string t1 = Ok t2 ∧ es_invert t2 = Ok t3 ∧ es_text t3 = Some (CInvert (CInvert (CName "blue"))).
Proof. eexists _, _, _, _, _, _, _, _. repeat (split; [vm_compute; reflexivity|]). vm_compute. reflexivity. Qed.
