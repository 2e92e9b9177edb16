(** Passes that give all nodes or all edges a style; used for C71. *)
From Verif Require Export ProofC22.
From Verif Require Import ProofCompl.
From Verif Require Import ProofLetters.
Local Open Scope list_scope.

Lemma entry_dget d k : NoDup d.*1 → entry d k = dget d k.
Proof.
  intros Hnd. induction d as [|[k0 v0] d IH]; [done|]. cbn in Hnd. apply NoDup_cons in Hnd as [Hni Hnd]. change ((k0, v0) :: d) with ([(k0, v0)] ++ d).
  rewrite entry_app, entry_one, IH by done. cbn. unfold eqb. destruct (decide (k0 = k)) as [->|Hne].
  - rewrite (proj2 (dget_None d k)) by done. by rewrite ?decide_True, ?bool_decide_true.
  - rewrite ?decide_False, ?bool_decide_false by done. by destruct (dget d k).
Qed.
Lemma kw_entry d k v : NoDup d.*1 → kw d k v = default v (entry d k).
Proof. intros Hnd. unfold kw. rewrite entry_dget by done. by destruct (dget d k). Qed.
Lemma some_entry_kw d k : NoDup d.*1 → some_entry d k = match kw d k PNone with PNone => None | v => Some v end.
Proof.
  intros Hnd. rewrite kw_entry by done. induction d as [|[k0 v0] d IH]; [done|]. cbn in Hnd. apply NoDup_cons in Hnd as [Hni Hnd]. change ((k0, v0) :: d) with ([(k0, v0)] ++ d).
  rewrite some_entry_app, IH, some_entry_one, entry_app, entry_one by done. destruct (entry d k) as [v|] eqn:He; cbn.
  - destruct (decide (k0 = k)) as [->|]; [|by destruct v]. rewrite entry_dget in He by done. apply dget_Some_in in He. destruct Hni. apply elem_of_list_fmap. by exists (k, v).
  - destruct (decide (k0 = k)); [|done]. by destruct v0.
Qed.
Lemma ctor_made d s : NoDup d.*1 → nstyle_ctor d = Ok s → made_of d s.
Proof.
  intros Hnd. unfold nstyle_ctor. destruct (check_kwargs nstyle_keys d); [|done]. cbn [rbind].
  rewrite !(kw_entry d "colour"%string), !(kw_entry d "lighter_fill"%string), !(kw_entry d "opacity"%string), !(kw_entry d "font"%string), !(kw_entry d "text_size"%string), !(kw_entry d "shape"%string), !(kw_entry d "shape_style"%string) by done.
  destruct (to_colour _) as [c|] eqn:Hc; [|done]. cbn [rbind]. intros H.
  assert (Hf := some_entry_kw d "fill_colour"%string Hnd). assert (Hb := some_entry_kw d "border_colour"%string Hnd). assert (Ht := some_entry_kw d "text_colour"%string Hnd).
  assert (Hcol : to_colour (first_truthy [default (PCol (CHexa "#AAAAAA")) (entry d "colour"); default PNone (entry d "fill_colour"); default PNone (entry d "border_colour"); PCol (CHexa "#AAAAAA")]%string) = Ok c).
  { rewrite <-Hc. unfold py_or. rewrite <-!(kw_entry d "fill_colour"%string), <-!(kw_entry d "border_colour"%string) by done. cbn [first_truthy]. unfold default_colour. done. }
  destruct (ns_set_fill _ _) as [s1|] eqn:H1 in H; [|done]. cbn [rbind] in H. destruct (ns_set_border _ _) as [s2|] eqn:H2 in H; [|done]. cbn [rbind] in H.
  destruct (ns_set_text _ _) as [s3|] eqn:H3 in H; [|done]. cbn [rbind] in H. injection H as <-. clear Hc.
  unfold ns_set_fill, ns_set_border, ns_set_text in *.
  destruct (kw d "fill_colour"%string PNone) as [| | | | |] eqn:Kf; cbn [to_colour rbind] in H1; try done; injection H1 as <-;
  destruct (kw d "border_colour"%string PNone) as [| | | | |] eqn:Kb; cbn [to_colour rbind] in H2; try done; injection H2 as <-;
  destruct (kw d "text_colour"%string PNone) as [| | | | |] eqn:Kt; cbn [to_colour rbind] in H3; try done; injection H3 as <-;
  split; try done; unfold colour_given; rewrite ?Hf, ?Hb, ?Ht; cbn; try (by destruct (truthy _)); eauto.
Qed.
Lemma list_max_lt l k : 0 < k → list_max l < k ↔ ∀ x, x ∈ l → x < k.
Proof.
  intros Hk. induction l as [|x l IH]; cbn.
  - split; [|lia]. by intros _ x ?%elem_of_nil.
  - rewrite Nat.max_lub_lt_iff, IH. split; [intros [? ?] y [->|?]%elem_of_cons; eauto|]. intros H. split; [apply H; left|]. intros y Hy. apply H. by right.
Qed.
Lemma smart_shaped h g d d' : WF h → NoDup d.*1 → smart_node_style h g d = Ok d' → shaped h g d d'.
Proof.
  intros W Hnd. unfold smart_node_style, shaped. rewrite entry_dget by done. destruct (dget d "shape"%string) as [v|] eqn:Hs.
  2: { intros [= <-]. right. split; [done|]. intros s [=]. }
  destruct v as [| | |s| |]; try done. unfold auto_shape. rewrite lower_smalls. destruct (String.prefix "auto" (smalls s)) eqn:Ha.
  2: { intros [= <-]. right. split; [done|]. intros s' [= <-]. congruence. }
  destruct (nodes h g) as [ns|] eqn:Hns; [|done]. cbn [rbind]. destruct (rmap _ ns) as [lens|] eqn:Hl; [|done]. cbn [rbind].
  assert (Hshort : short_names h g ↔ list_max lens < 3).
  { rewrite list_max_lt by lia. unfold nodes in Hns. destruct (get_g h g) as [G|] eqn:HG; [|done]. apply get_g_inv in HG. cbn in Hns. injection Hns as <-. apply rmap_Ok in Hl. split.
    - intros Hsh x Hx. apply elem_of_list_lookup in Hx as [i Hi]. destruct (Forall2_lookup_r _ _ _ _ _ Hl Hi) as (r & Hr & Hx). destruct (get_n h r) as [N|] eqn:HN; [|done]. apply get_n_inv in HN.
      cbn in Hx. injection Hx as <-. apply (Hsh (n_id N) r). apply elem_of_list_lookup_2, elem_of_dvals in Hr as [k Hk]. destruct (wf_gnodes _ W g G k r) as (N' & HN' & ? & ?); [done..|].
      exists G. split; [done|]. by assert (k = n_id N) as -> by congruence.
    - intros Hx n r (G' & HG' & Hin). assert (G' = G) as -> by congruence. destruct (wf_gnodes _ W g G n r) as (N & HN & ? & ?); [done..|].
      assert (r ∈ dvals (g_nodes G)) as Hr by (apply elem_of_dvals; eauto). apply elem_of_list_lookup in Hr as [i Hi]. destruct (Forall2_lookup_l _ _ _ _ _ Hl Hi) as (x & Hxi & Hxe).
      rewrite (get_n_Ok _ _ _ HN) in Hxe. cbn in Hxe. injection Hxe as <-. apply elem_of_list_lookup_2, Hx in Hxi. congruence. }
  destruct lens as [|x lens]; [done|]. destruct (Nat.ltb_spec (list_max (x :: lens)) 3) as [Hlt|Hge]; intros [= <-].
  - left. exists s. assert (Hk : "shape"%string ∈ dkeys d) by (apply elem_of_list_fmap; exists ("shape"%string, PStr s); split; [done|by apply dget_Some_in]).
    assert (Hkeys : (dset d "shape"%string (PStr "circle")).*1 = d.*1) by (by apply dkeys_dset_old). split_and!; [done|done|by apply Hshort|done|].
    intros k. rewrite !entry_dget by (by rewrite ?Hkeys). by rewrite dget_dset.
  - right. split; [done|]. intros s' [= <-] _ Hsh%Hshort. lia.
Qed.
Lemma shaped_nodup h g d d' : NoDup d.*1 → shaped h g d d' → NoDup d'.*1.
Proof. intros Hnd [(s & _ & _ & _ & -> & _)|[-> _]]; done. Qed.

Lemma set_dict_run r d h h' : node_set_style r (SDict d) h = (h', Ok tt) → ∃ N s, h_nodes h !! r = Some N ∧ nstyle_ctor d = Ok s ∧
  h' = h <| h_ns := h_ns h ++ [s] |> <| h_nodes := <[r := N <| n_style := Some (length (h_ns h)) |>]> (h_nodes h) |>.
Proof.
  unfold node_set_style. intros (h0 & N & [HN%get_n_inv ->]%sread_inv & (h1 & [] & H1 & (h2 & o & H2 & H3)%sbind_Ok)%sbind_Ok)%sbind_Ok.
  assert (h1 = h) as ->. { destruct (n_style N); [|by injection H1 as <-]. apply sbind_Ok in H1 as (? & b & [_ ->]%sread_inv & H1). destruct b; [by injection H1 as <-|done]. }
  unfold resolve_nstyle in H2. apply sbind_Ok in H2 as (? & s & [Hs ->]%sread_inv & (? & k & Hk & Ho)%sbind_Ok). injection Hk as <- <-. injection Ho as <- <-.
  unfold upd_n in H3. cbn in H3. rewrite HN in H3. injection H3 as <-. by exists N, s.
Qed.
Lemma restyle_nodes d : ∀ rs h h', siter (λ r, node_set_style r (SDict d)) rs h = (h', Ok tt) → NoDup rs →
  h' = h <| h_ns := h_ns h' |> <| h_nodes := h_nodes h' |> ∧ (∃ l, h_ns h' = h_ns h ++ l) ∧
  (∀ r, h_nodes h' !! r = (λ N, N <| n_style := (h_nodes h' !! r) ≫= n_style |>) <$> h_nodes h !! r) ∧ (∀ r, r ∉ rs → h_nodes h' !! r = h_nodes h !! r) ∧
  ∀ i r, rs !! i = Some r → ∃ N s, h_nodes h' !! r = Some N ∧ n_style N = Some (length (h_ns h) + i) ∧ h_ns h' !! (length (h_ns h) + i) = Some s ∧ nstyle_ctor d = Ok s.
Proof.
  induction rs as [|r rs IH]; intros h h'; cbn [siter].
  - intros [= <-] _. split_and!; [by destruct h|exists []; by rewrite app_nil_r| |done|done]. intros r. destruct (h_nodes h !! r) as [N|]; [|done]. cbn. by destruct N.
  - intros (h1 & [] & H1 & H2)%sbind_Ok [Hni Hnd]%NoDup_cons. destruct (set_dict_run r d h h1 H1) as (N & s & HN & Hs & ->). clear H1. pose proof (lookup_lt_Some _ _ _ HN) as Hlt.
    destruct (IH _ _ H2 Hnd) as (E & [l Hl] & Hn & Ho & Hi). cbn in Hl, Hn, Ho, Hi. rewrite app_length in Hi. cbn in Hi. split_and!.
    + rewrite E. by destruct h.
    + exists (s :: l). rewrite Hl. by rewrite <-app_assoc.
    + intros r'. destruct (decide (r' = r)) as [->|Hne].
      * rewrite Hn at 1. rewrite list_lookup_insert, HN by done. done.
      * rewrite Hn at 1. by rewrite list_lookup_insert_ne.
    + intros r' [Hne Hr']%not_elem_of_cons. rewrite Ho by done. by rewrite list_lookup_insert_ne.
    + intros [|i] r' Hr'; cbn in Hr'.
      * injection Hr' as <-. exists (N <| n_style := Some (length (h_ns h)) |>), s. rewrite Nat.add_0_r. split_and!; [rewrite Ho by done; by rewrite list_lookup_insert|done| |done].
        rewrite Hl, <-app_assoc, lookup_app_r, Nat.sub_diag by lia. done.
      * destruct (Hi i r' Hr') as (N' & s' & ? & Hk & ? & ?). exists N', s'. replace (length (h_ns h) + Datatypes.S i) with (length (h_ns h) + 1 + i) by lia. done.
Qed.
Lemma complement_run r d h h' : node_complement r d h = (h', Ok tt) → ∃ N k s s', h_nodes h !! r = Some N ∧ n_style N = Some k ∧ h_ns h !! k = Some s ∧ ns_complement d s = Ok s' ∧
  h' = h <| h_ns := <[k := s']> (h_ns h) |>.
Proof.
  unfold node_complement. intros (h0 & N & [HN%get_n_inv ->]%sread_inv & H)%sbind_Ok. destruct (n_style N) as [k|] eqn:Hk; [|done]. 
  apply complement_ns_inv in H as (s & s' & ? & ? & ->). by exists N, k, s, s'.
Qed.
Lemma complement_nodes d : ∀ rs h h', siter (λ r, node_complement r d) rs h = (h', Ok tt) → NoDup rs →
  (∀ r1 r2 N1 N2 k, r1 ∈ rs → r2 ∈ rs → h_nodes h !! r1 = Some N1 → h_nodes h !! r2 = Some N2 → n_style N1 = Some k → n_style N2 = Some k → r1 = r2) →
  h' = h <| h_ns := h_ns h' |> ∧ length (h_ns h') = length (h_ns h) ∧ (∀ r, r ∈ rs → ∃ s s', style_of h r s ∧ ns_complement d s = Ok s' ∧ style_of h' r s') ∧
  (∀ k, (∀ r N, r ∈ rs → h_nodes h !! r = Some N → n_style N ≠ Some k) → h_ns h' !! k = h_ns h !! k).
Proof.
  induction rs as [|r rs IH]; intros h h'; cbn [siter].
  - intros [= <-] _ _. split_and!; try done; [by destruct h|]. by intros r ?%elem_of_nil.
  - intros (h1 & [] & H1 & H2)%sbind_Ok [Hni Hnd]%NoDup_cons Hinj. destruct (complement_run r d h h1 H1) as (N & k & s & s' & HN & Hk & Hs & Hc & ->). clear H1. pose proof (lookup_lt_Some _ _ _ Hs) as Hlt.
    destruct (IH _ _ H2 Hnd) as (E & L & HA & HB). { intros r1 r2 N1 N2 k' Hr1 Hr2. apply Hinj; by right. } cbn in L, HA, HB. rewrite insert_length in L.
    assert (Hfree : ∀ r' N', r' ∈ rs → h_nodes h !! r' = Some N' → n_style N' ≠ Some k). { intros r' N' Hr' HN' Hk'. destruct Hni. assert (r' = r) as <-; [|done]. apply (Hinj r' r N' N k); try done; [by right|left]. }
    split_and!.
    + rewrite E. by destruct h.
    + done.
    + intros r' [->|Hr']%elem_of_cons.
      * exists s, s'. split_and!; [by exists N, k|done|]. exists N, k. split_and!; [by rewrite E|done|]. rewrite HB by done. by apply list_lookup_insert.
      * destruct (HA r' Hr') as (s2 & s2' & (N2 & k2 & HN2 & Hk2 & Hs2) & Hc2 & Hst). exists s2, s2'. split_and!; try done. exists N2, k2. cbn in HN2, Hs2. split_and!; try done.
        rewrite list_lookup_insert_ne in Hs2; [done|]. intros ->. by apply (Hfree r' N2).
    + intros k' Hk'. rewrite HB. 2: { intros r' N' Hr'. apply Hk'. by right. } rewrite list_lookup_insert_ne; [done|]. intros ->. apply (Hk' r N); [left|done|done].
Qed.
Lemma set_edict_run r d h h' : edge_set_style r (SDict d) h = (h', Ok tt) → ∃ N s, h_edges h !! r = Some N ∧ estyle_ctor d = Ok s ∧
  h' = h <| h_es := h_es h ++ [s] |> <| h_edges := <[r := N <| e_style := Some (length (h_es h)) |>]> (h_edges h) |>.
Proof.
  unfold edge_set_style. intros (h0 & N & [HN%get_e_inv ->]%sread_inv & (h1 & [] & H1 & (h2 & o & H2 & H3)%sbind_Ok)%sbind_Ok)%sbind_Ok.
  assert (h1 = h) as ->. { destruct (e_style N); [|by injection H1 as <-]. apply sbind_Ok in H1 as (? & b & [_ ->]%sread_inv & H1). destruct b; [by injection H1 as <-|done]. }
  unfold resolve_estyle in H2. apply sbind_Ok in H2 as (? & s & [Hs ->]%sread_inv & (? & k & Hk & Ho)%sbind_Ok). injection Hk as <- <-. injection Ho as <- <-.
  unfold upd_e in H3. cbn in H3. rewrite HN in H3. injection H3 as <-. by exists N, s.
Qed.
Lemma restyle_edges d : ∀ rs h h', siter (λ r, edge_set_style r (SDict d)) rs h = (h', Ok tt) → NoDup rs →
  h' = h <| h_es := h_es h' |> <| h_edges := h_edges h' |> ∧ (∃ l, h_es h' = h_es h ++ l) ∧
  (∀ r, h_edges h' !! r = (λ N, N <| e_style := (h_edges h' !! r) ≫= e_style |>) <$> h_edges h !! r) ∧ (∀ r, r ∉ rs → h_edges h' !! r = h_edges h !! r) ∧
  ∀ i r, rs !! i = Some r → ∃ N s, h_edges h' !! r = Some N ∧ e_style N = Some (length (h_es h) + i) ∧ h_es h' !! (length (h_es h) + i) = Some s ∧ estyle_ctor d = Ok s.
Proof.
  induction rs as [|r rs IH]; intros h h'; cbn [siter].
  - intros [= <-] _. split_and!; [by destruct h|exists []; by rewrite app_nil_r| |done|done]. intros r. destruct (h_edges h !! r) as [N|]; [|done]. cbn. by destruct N.
  - intros (h1 & [] & H1 & H2)%sbind_Ok [Hni Hnd]%NoDup_cons. destruct (set_edict_run r d h h1 H1) as (N & s & HN & Hs & ->). clear H1. pose proof (lookup_lt_Some _ _ _ HN) as Hlt.
    destruct (IH _ _ H2 Hnd) as (E & [l Hl] & Hn & Ho & Hi). cbn in Hl, Hn, Ho, Hi. rewrite app_length in Hi. cbn in Hi. split_and!.
    + rewrite E. by destruct h.
    + exists (s :: l). rewrite Hl. by rewrite <-app_assoc.
    + intros r'. destruct (decide (r' = r)) as [->|Hne].
      * rewrite Hn at 1. rewrite list_lookup_insert, HN by done. done.
      * rewrite Hn at 1. by rewrite list_lookup_insert_ne.
    + intros r' [Hne Hr']%not_elem_of_cons. rewrite Ho by done. by rewrite list_lookup_insert_ne.
    + intros [|i] r' Hr'; cbn in Hr'.
      * injection Hr' as <-. exists (N <| e_style := Some (length (h_es h)) |>), s. rewrite Nat.add_0_r. split_and!; [rewrite Ho by done; by rewrite list_lookup_insert|done| |done].
        rewrite Hl, <-app_assoc, lookup_app_r, Nat.sub_diag by lia. done.
      * destruct (Hi i r' Hr') as (N' & s' & ? & Hk & ? & ?). exists N', s'. replace (length (h_es h) + Datatypes.S i) with (length (h_es h) + 1 + i) by lia. done.
Qed.
Lemma ecomplement_run r d h h' : edge_complement r d h = (h', Ok tt) → ∃ N k s s', h_edges h !! r = Some N ∧ e_style N = Some k ∧ h_es h !! k = Some s ∧ es_complement d s = Ok s' ∧
  h' = h <| h_es := <[k := s']> (h_es h) |>.
Proof.
  unfold edge_complement. intros (h0 & N & [HN%get_e_inv ->]%sread_inv & H)%sbind_Ok. destruct (e_style N) as [k|] eqn:Hk; [|done]. 
  apply complement_es_inv in H as (s & s' & ? & ? & ->). by exists N, k, s, s'.
Qed.
Lemma complement_edges d : ∀ rs h h', siter (λ r, edge_complement r d) rs h = (h', Ok tt) → NoDup rs →
  (∀ r1 r2 N1 N2 k, r1 ∈ rs → r2 ∈ rs → h_edges h !! r1 = Some N1 → h_edges h !! r2 = Some N2 → e_style N1 = Some k → e_style N2 = Some k → r1 = r2) →
  h' = h <| h_es := h_es h' |> ∧ length (h_es h') = length (h_es h) ∧ (∀ r, r ∈ rs → ∃ s s', edge_style_of h r s ∧ es_complement d s = Ok s' ∧ edge_style_of h' r s') ∧
  (∀ k, (∀ r N, r ∈ rs → h_edges h !! r = Some N → e_style N ≠ Some k) → h_es h' !! k = h_es h !! k).
Proof.
  induction rs as [|r rs IH]; intros h h'; cbn [siter].
  - intros [= <-] _ _. split_and!; try done; [by destruct h|]. by intros r ?%elem_of_nil.
  - intros (h1 & [] & H1 & H2)%sbind_Ok [Hni Hnd]%NoDup_cons Hinj. destruct (ecomplement_run r d h h1 H1) as (N & k & s & s' & HN & Hk & Hs & Hc & ->). clear H1. pose proof (lookup_lt_Some _ _ _ Hs) as Hlt.
    destruct (IH _ _ H2 Hnd) as (E & L & HA & HB). { intros r1 r2 N1 N2 k' Hr1 Hr2. apply Hinj; by right. } cbn in L, HA, HB. rewrite insert_length in L.
    assert (Hfree : ∀ r' N', r' ∈ rs → h_edges h !! r' = Some N' → e_style N' ≠ Some k). { intros r' N' Hr' HN' Hk'. destruct Hni. assert (r' = r) as <-; [|done]. apply (Hinj r' r N' N k); try done; [by right|left]. }
    split_and!.
    + rewrite E. by destruct h.
    + done.
    + intros r' [->|Hr']%elem_of_cons.
      * exists s, s'. split_and!; [by exists N, k|done|]. exists N, k. split_and!; [by rewrite E|done|]. rewrite HB by done. by apply list_lookup_insert.
      * destruct (HA r' Hr') as (s2 & s2' & (N2 & k2 & HN2 & Hk2 & Hs2) & Hc2 & Hst). exists s2, s2'. split_and!; try done. exists N2, k2. cbn in HN2, Hs2. split_and!; try done.
        rewrite list_lookup_insert_ne in Hs2; [done|]. intros ->. by apply (Hfree r' N2).
    + intros k' Hk'. rewrite HB. 2: { intros r' N' Hr'. apply Hk'. by right. } rewrite list_lookup_insert_ne; [done|]. intros ->. apply (Hk' r N); [left|done|done].
Qed.

Lemma entry_in d k v : NoDup d.*1 → (k, v) ∈ d → entry d k = Some v.
Proof. intros Hnd Hin. rewrite entry_dget by done. by apply dget_in_Some. Qed.
Lemma ctor_text d s : NoDup d.*1 → nstyle_ctor d = Ok s → some_entry d "text_colour"%string ≠ None → ns_text_based s = false.
Proof.
  intros Hnd. rewrite some_entry_kw by done. unfold nstyle_ctor. destruct (check_kwargs nstyle_keys d); [|done]. cbn [rbind]. destruct (to_colour _) as [c|]; [|done]. cbn [rbind]. intros H Hne.
  destruct (ns_set_fill _ _) as [s1|] eqn:H1 in H; [|done]. cbn [rbind] in H. destruct (ns_set_border _ _) as [s2|] eqn:H2 in H; [|done]. cbn [rbind] in H.
  destruct (ns_set_text _ _) as [s3|] eqn:H3 in H; [|done]. cbn [rbind] in H. injection H as <-. unfold ns_set_text in H3.
  assert (is_Some (ns_text s3) ∧ ns_text_based s3 = false) as [[t Ht] <-]. { destruct (kw d "text_colour"%string PNone); try done; injection H3 as <-; cbn; split; eauto. }
  destruct s3 as [? [] [] ? ? ? ? ? ? ? ? ? ? ?]; cbn in *; subst; done.
Qed.
Lemma ctor_keys d s k v : nstyle_ctor d = Ok s → (k, v) ∈ d → k ∈ nstyle_keys.
Proof.
  unfold nstyle_ctor, check_kwargs. destruct (forallb _ (dkeys d)) eqn:Hk; [|done]. intros _ Hin. rewrite forallb_forall in Hk.
  assert (In k (dkeys d)) as Hi%Hk. { apply elem_of_list_In, elem_of_list_fmap. by exists (k, v). } by apply bool_decide_eq_true in Hi.
Qed.
Lemma complement1_made d s k v s2 : NoDup d.*1 → nstyle_ctor d = Ok s → (k, v) ∈ d → entry d "colour"%string ≠ Some (PStr "") → ns_complement1 s (k, v) = Ok s2 → s2 = s.
Proof.
  intros Hnd Hs Hin Hcol Hc. pose proof (ctor_made d s Hnd Hs) as [M1 M2 M3 M4 M5 M6 M7 M8 M9 M10]. pose proof (ctor_text d s Hnd Hs) as Ht. pose proof (ctor_keys d s k v Hs Hin) as Hk.
  assert (HC : coloured s) by (by eapply ctor_coloured). pose proof (entry_in d k v Hnd Hin) as He. assert (Hse : some_entry d k = match v with PNone => None | v => Some v end).
  { rewrite some_entry_kw, kw_entry, He by done. by destruct v. }
  unfold nstyle_keys in Hk. repeat (apply elem_of_cons in Hk as [->|Hk]); [..|by apply elem_of_nil in Hk]; unfold ns_complement1 in Hc; cbn in Hc; unfold colour_given in *; rewrite ?He, ?Hse in *; cbn in *.
  - unfold ns_set_colour in Hc. assert (truthy v = true) as Htr. { destruct v as [| | |w|c|]; try done. by destruct w. } rewrite Htr in M7. rewrite M7 in Hc. cbn in Hc. injection Hc as <-.
    destruct HC as ([? E1] & [? E2] & [? E3]). destruct s; cbn in *; subst. done.
  - destruct v; cbn in *; try done; try (by injection Hc as <-); injection Hc as <-; destruct M8 as (c' & [= <-] & E1); destruct s; cbn in *; by subst.
  - destruct v; cbn in *; try done; try (by injection Hc as <-); injection Hc as <-; destruct M9 as (c' & [= <-] & E1); destruct s; cbn in *; by subst.
  - injection Hc as <-. destruct s; cbn in *; by subst.
  - injection Hc as <-. destruct s; cbn in *; by subst.
  - destruct v; cbn in *; try done; try (by injection Hc as <-); injection Hc as <-; destruct M10 as (c' & [= <-] & E1); specialize (Ht ltac:(done)); destruct s; cbn in *; by subst.
  - injection Hc as <-. destruct s; cbn in *; by subst.
  - injection Hc as <-. destruct s; cbn in *; by subst.
  - injection Hc as <-. destruct s; cbn in *; by subst.
  - injection Hc as <-. destruct s; cbn in *; by subst.
Qed.
Lemma complement_made d s s2 : NoDup d.*1 → nstyle_ctor d = Ok s → entry d "colour"%string ≠ Some (PStr "") → ns_complement d s = Ok s2 → s2 = s.
Proof.
  intros Hnd Hs Hcol. unfold ns_complement. assert (∀ l, l ⊆ d → rfold ns_complement1 s l = Ok s2 → s2 = s) as H; [|by apply H].
  induction l as [|[k v] l IH]; intros Hl; cbn [rfold]; [by intros [= <-]|]. destruct (ns_complement1 s (k, v)) as [s1|] eqn:H1; [|done]. cbn [rbind].
  rewrite (complement1_made d s k v s1) by (done || (apply Hl; left)). apply IH. intros x Hx. apply Hl. by right.
Qed.
Lemma ector_made d s : NoDup d.*1 → estyle_ctor d = Ok s → emade_of d s ∧ (kw d "text_colour"%string PNone = PNone → es_text_based s = Some true) ∧ (kw d "text_colour"%string PNone ≠ PNone → es_text_based s = Some false).
Proof.
  intros Hnd. unfold estyle_ctor. destruct (check_kwargs estyle_keys d); [|done]. cbn [rbind].
  rewrite !(kw_entry d "colour"%string), !(kw_entry d "opacity"%string), !(kw_entry d "font"%string), !(kw_entry d "text_size"%string), !(kw_entry d "arrow_size"%string), !(kw_entry d "label_style"%string), !(kw_entry d "line_width"%string) by done.
  destruct (to_colour _) as [c|] eqn:Hc; [|done]. cbn [rbind]. intros H. assert (Ht := some_entry_kw d "text_colour"%string Hnd).
  assert (Hcol : to_colour (first_truthy [default (PCol (CHexa "#AAAAAA")) (entry d "colour"); default PNone (entry d "text_colour"); PCol (CHexa "#AAAAAA")]%string) = Ok c).
  { rewrite <-Hc. unfold py_or. rewrite <-!(kw_entry d "text_colour"%string) by done. cbn [first_truthy]. unfold default_colour. done. }
  destruct (es_set_text _ _) as [s1|] eqn:H1 in H; [|done]. cbn [rbind] in H. injection H as <-. clear Hc. unfold es_set_text in *.
  destruct (kw d "text_colour"%string PNone) as [| | | | |] eqn:Kt; cbn [to_colour rbind] in H1; try done; injection H1 as <-; (split; [|split; done]);
  split; try done; unfold colour_given; rewrite ?Ht; cbn; eauto.
Qed.
Lemma ector_keys d s k v : estyle_ctor d = Ok s → (k, v) ∈ d → k ∈ estyle_keys.
Proof.
  unfold estyle_ctor, check_kwargs. destruct (forallb _ (dkeys d)) eqn:Hk; [|done]. intros _ Hin. rewrite forallb_forall in Hk.
  assert (In k (dkeys d)) as Hi%Hk. { apply elem_of_list_In, elem_of_list_fmap. by exists (k, v). } by apply bool_decide_eq_true in Hi.
Qed.
Lemma ecomplement1_made d s k v s2 : NoDup d.*1 → estyle_ctor d = Ok s → (k, v) ∈ d → entry d "colour"%string ≠ Some (PStr "") → es_complement1 s (k, v) = Ok s2 → s2 = s.
Proof.
  intros Hnd Hs Hin Hcol Hc. pose proof (ector_made d s Hnd Hs) as ([M1 M2 M3 M4 M5 M6 M7 M8] & Hb1 & Hb2). pose proof (ector_keys d s k v Hs Hin) as Hk.
  pose proof (entry_in d k v Hnd Hin) as He. assert (Hse : some_entry d k = match v with PNone => None | v => Some v end).
  { rewrite some_entry_kw, kw_entry, He by done. by destruct v. } rewrite kw_entry in Hb1, Hb2 by done.
  unfold estyle_keys in Hk. repeat (apply elem_of_cons in Hk as [->|Hk]); [..|by apply elem_of_nil in Hk]; unfold es_complement1 in Hc; cbn in Hc; unfold colour_given in *; rewrite ?He, ?Hse in *; cbn in *.
  - unfold es_set_colour in Hc. assert (truthy v = true) as Htr. { destruct v as [| | |w|c|]; try done. by destruct w. } rewrite Htr in M7. rewrite M7 in Hc. cbn in Hc. injection Hc as <-.
    assert (is_Some (es_text s)) as [? E1]. { destruct (some_entry d "text_colour"%string); [destruct M8 as (? & _ & ->); eauto|rewrite M8; eauto]. } destruct s; cbn in *; subst. done.
  - injection Hc as <-. destruct s; cbn in *; by subst.
  - injection Hc as <-. destruct s; cbn in *; by subst.
  - destruct v; cbn in *; try done; injection Hc as <-; [specialize (Hb1 eq_refl)|destruct M8 as (c' & [= <-] & E1); specialize (Hb2 ltac:(done))..]; destruct s; cbn in *; by subst.
  - injection Hc as <-. destruct s; cbn in *; by subst.
  - injection Hc as <-. destruct s; cbn in *; by subst.
  - injection Hc as <-. destruct s; cbn in *; by subst.
  - injection Hc as <-. destruct s; cbn in *; by subst.
Qed.
Lemma ecomplement_made d s s2 : NoDup d.*1 → estyle_ctor d = Ok s → entry d "colour"%string ≠ Some (PStr "") → es_complement d s = Ok s2 → s2 = s.
Proof.
  intros Hnd Hs Hcol. unfold es_complement. assert (∀ l, l ⊆ d → rfold es_complement1 s l = Ok s2 → s2 = s) as H; [|by apply H].
  induction l as [|[k v] l IH]; intros Hl; cbn [rfold]; [by intros [= <-]|]. destruct (es_complement1 s (k, v)) as [s1|] eqn:H1; [|done]. cbn [rbind].
  rewrite (ecomplement1_made d s k v s1) by (done || (apply Hl; left)). apply IH. intros x Hx. apply Hl. by right.
Qed.

Definition node_pass (f : nref → sdict → M unit) (g : gref) (o : option sdict) : M unit :=
  when_dict o (λ d, let* d := sread (λ h, smart_node_style h g d) in let* ns := sread (λ h, nodes h g) in siter (λ r, f r d) ns).
Definition edge_pass (f : eref → sdict → M unit) (g : gref) (o : option sdict) : M unit :=
  when_dict o (λ d, let* es := sread (λ h, graph_edges h g) in siter (λ e, f e d) es).
Lemma stylize_global g sh h G D : h_graphs h !! g = Some G → g_disp G = Some D → global_styles D →
  stylize g sh h = (do* node_pass (λ r d, node_set_style r (SDict d)) g (d_gnode D) in do* edge_pass (λ e d, edge_set_style e (SDict d)) g (d_gedge D) in
    do* stylize_with_pensieve g (d_scheme D) in do* node_pass node_complement g (d_gnode D) in edge_pass edge_complement g (d_gedge D)) h.
Proof.
  intros HG HD (H1 & H4 & H5 & H6 & H7). unfold stylize. rewrite (sread_Ok _ _ _ D). 2: { unfold get_display. rewrite (get_g_Ok _ _ _ HG). cbn [rbind]. by rewrite HD. }
  rewrite H1, H4, H5, H6, H7. rewrite eqb_same. cbn [siter]. unfold node_pass, edge_pass.
  set (P1 := when_dict (d_gnode D) _). set (P2 := when_dict (d_gedge D) _). set (P4 := when_dict (d_gnode D) _). set (P5 := when_dict (d_gedge D) _).
  unfold sbind, sret. destruct (P1 h) as [h1 [[]|x]]; [|done]. destruct (P2 h1) as [h2 [[]|x]]; [|done]. destruct (stylize_with_pensieve g (d_scheme D) h2) as [h3 [[]|x]]; [|done]. done.
Qed.
Lemma dpres_node_pass f g o : (∀ r d, dpres (f r d)) → dpres (node_pass f g o).
Proof. intros Hf. unfold node_pass, when_dict. destruct o; dpresM; apply Hf. Qed.
Lemma dpres_edge_pass f g o : (∀ r d, dpres (f r d)) → dpres (edge_pass f g o).
Proof. intros Hf. unfold edge_pass, when_dict. destruct o; dpresM; apply Hf. Qed.
