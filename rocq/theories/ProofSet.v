(** Exact results of add_node, connect and the setters. *)
From Verif Require Export ProofOps SpecOps.

Lemma put_node_same h r N : h_nodes h !! r = Some N → put_node h r N [] [] = h.
Proof. intros HN. apply heap_eq; simpl; rewrite ?app_nil_r; try done. by apply list_insert_id. Qed.
Lemma put_edge_same h r N : h_edges h !! r = Some N → put_edge h r N [] [] = h.
Proof. intros HN. apply heap_eq; simpl; rewrite ?app_nil_r; try done. by apply list_insert_id. Qed.
Lemma put_node_put h r N N' l l' w w' : put_node (put_node h r N l w) r N' l' w' = put_node h r N' (l ++ l') (w ++ w').
Proof. apply heap_eq; simpl; rewrite ?list_insert_insert, ?app_assoc; done. Qed.
Lemma put_edge_put h r N N' l l' w w' : put_edge (put_edge h r N l w) r N' l' w' = put_edge h r N' (l ++ l') (w ++ w').
Proof. apply heap_eq; simpl; rewrite ?list_insert_insert, ?app_assoc; done. Qed.
Lemma put_node_lookup h r N l w : r < length (h_nodes h) → h_nodes (put_node h r N l w) !! r = Some N.
Proof. intros Hr. simpl. by rewrite list_lookup_insert. Qed.
Lemma put_edge_lookup h r N l w : r < length (h_edges h) → h_edges (put_edge h r N l w) !! r = Some N.
Proof. intros Hr. simpl. by rewrite list_lookup_insert. Qed.

Lemma resolve_nstyle_eq a h : resolve_nstyle a h =
  match restyled nstyle_ctor (length (h_ns h)) None a with
  | Ok (st, l) => (h <| h_ns := h_ns h ++ l |>, Ok st)
  | Err x => (h, Err x)
  end.
Proof.
  destruct a as [|d|s|]; simpl; unfold sret, sraise; rewrite ?heap_ns_nil; try done.
  unfold sbind, sread, new_ns, sret. by destruct (nstyle_ctor d).
Qed.
Lemma resolve_estyle_eq a h : resolve_estyle a h =
  match restyled estyle_ctor (length (h_es h)) None a with
  | Ok (st, l) => (h <| h_es := h_es h ++ l |>, Ok st)
  | Err x => (h, Err x)
  end.
Proof.
  destruct a as [|d|s|]; simpl; unfold sret, sraise; rewrite ?heap_es_nil; try done.
  unfold sbind, sread, new_es, sret. by destruct (estyle_ctor d).
Qed.

(** the overwrite check of the style setters *)
Lemma restyle_check h (st : option sref) og :
  (match st with
   | None => sret tt
   | Some _ => let* ok := sread (λ h, overwrite_allowed h og) in
               if (ok : bool) then sret tt else sraise RuntimeError
   end) h = (h, may_restyle h st og).
Proof.
  destruct st as [s|]; [|done]. unfold sbind, sread, overwrite_allowed. simpl. destruct og as [g|]; [|done].
  unfold get_g. destruct (h_graphs h !! g) as [G|]; [|done]. simpl. destruct (g_disp G) as [d|]; [|done].
  by destruct (d_overwrite d).
Qed.

Lemma node_set_style_eq h r N a : h_nodes h !! r = Some N →
  node_set_style r a h =
  match may_restyle h (n_style N) (n_graph N) with
  | Err x => (h, Err x)
  | Ok _ => match restyled nstyle_ctor (length (h_ns h)) (n_style N) a with
            | Err x => (h, Err x)
            | Ok (st, l) => (put_node h r (N <| n_style := st |>) l [], Ok tt)
            end
  end.
Proof.
  intros HN. unfold node_set_style. rewrite (sread_Ok _ _ _ N) by (by apply get_n_Ok).
  unfold sbind at 1. rewrite restyle_check. destruct (may_restyle h (n_style N) (n_graph N)) as [[]|x]; [|done].
  unfold sbind. rewrite resolve_nstyle_eq. destruct a as [|d|s|]; simpl.
  - rewrite heap_ns_nil. unfold sret. f_equal. assert (N <| n_style := n_style N |> = N) as -> by by destruct N.
    by rewrite put_node_same.
  - destruct (nstyle_ctor d) as [sty|x]; [|done]. simpl. rewrite (upd_n_run _ _ N) by done. f_equal.
    apply heap_eq; simpl; rewrite ?app_nil_r; done.
  - rewrite heap_ns_nil. rewrite (upd_n_run _ _ N) by done. f_equal. apply heap_eq; simpl; rewrite ?app_nil_r; done.
  - done.
Qed.
Lemma edge_set_style_eq h r N a : h_edges h !! r = Some N →
  edge_set_style r a h =
  match may_restyle h (e_style N) (e_graph N) with
  | Err x => (h, Err x)
  | Ok _ => match restyled estyle_ctor (length (h_es h)) (e_style N) a with
            | Err x => (h, Err x)
            | Ok (st, l) => (put_edge h r (N <| e_style := st |>) l [], Ok tt)
            end
  end.
Proof.
  intros HN. unfold edge_set_style. rewrite (sread_Ok _ _ _ N) by (by apply get_e_Ok).
  unfold sbind at 1. rewrite restyle_check. destruct (may_restyle h (e_style N) (e_graph N)) as [[]|x]; [|done].
  unfold sbind. rewrite resolve_estyle_eq. destruct a as [|d|s|]; simpl.
  - rewrite heap_es_nil. unfold sret. f_equal. assert (N <| e_style := e_style N |> = N) as -> by by destruct N.
    by rewrite put_edge_same.
  - destruct (estyle_ctor d) as [sty|x]; [|done]. simpl. rewrite (upd_e_run _ _ N) by done. f_equal.
    apply heap_eq; simpl; rewrite ?app_nil_r; done.
  - rewrite heap_es_nil. rewrite (upd_e_run _ _ N) by done. f_equal. apply heap_eq; simpl; rewrite ?app_nil_r; done.
  - done.
Qed.

Lemma when_node_style_eq h r N a : h_nodes h !! r = Some N →
  when_style a (node_set_style r a) h =
  match optional_style nstyle_ctor h (length (h_ns h)) (n_style N) (n_graph N) a with
  | Err x => (h, Err x)
  | Ok (st, l) => (put_node h r (N <| n_style := st |>) l [], Ok tt)
  end.
Proof.
  intros HN. destruct a; simpl when_style; cbn [optional_style]; try (rewrite (node_set_style_eq h r N) by done; by destruct may_restyle).
  unfold sret. f_equal. assert (N <| n_style := n_style N |> = N) as -> by by destruct N. by rewrite put_node_same.
Qed.
Lemma when_edge_style_eq h r N a : h_edges h !! r = Some N →
  when_style a (edge_set_style r a) h =
  match optional_style estyle_ctor h (length (h_es h)) (e_style N) (e_graph N) a with
  | Err x => (h, Err x)
  | Ok (st, l) => (put_edge h r (N <| e_style := st |>) l [], Ok tt)
  end.
Proof.
  intros HN. destruct a; simpl when_style; cbn [optional_style]; try (rewrite (edge_set_style_eq h r N) by done; by destruct may_restyle).
  unfold sret. f_equal. assert (N <| e_style := e_style N |> = N) as -> by by destruct N. by rewrite put_edge_same.
Qed.

Lemma node_value_eq h r N v : h_nodes h !! r = Some N →
  when_val v (node_set_value r v) h =
  if n_frozen N && negb (eqb v PNone) then (h, Err RuntimeError)
  else (put_node h r (N <| n_value := keep_or v (n_value N) |>) [] [], Ok tt).
Proof.
  intros HN. assert (v = PNone ∨ v ≠ PNone) as [->|Hv] by (destruct v; auto).
  - rewrite eqb_same. simpl. rewrite andb_false_r. assert (N <| n_value := n_value N |> = N) as -> by by destruct N.
    by rewrite put_node_same.
  - assert (eqb v PNone = false) as -> by (by apply eqb_false). rewrite andb_true_r.
    assert (when_val v (node_set_value r v) = node_set_value r v) as -> by by destruct v.
    assert (keep_or v (n_value N) = v) as -> by by destruct v.
    unfold node_set_value. rewrite (sread_Ok _ _ _ N) by (by apply get_n_Ok). destruct (n_frozen N); [done|].
    rewrite (upd_n_run _ _ N) by done. f_equal. apply heap_eq; simpl; rewrite ?app_nil_r; done.
Qed.
Lemma edge_value_eq h r N v : h_edges h !! r = Some N →
  when_val v (edge_set_value r v) h =
  if e_frozen N && negb (eqb v PNone) then (h, Err RuntimeError)
  else (put_edge h r (N <| e_value := keep_or v (e_value N) |>) [] [], Ok tt).
Proof.
  intros HN. assert (v = PNone ∨ v ≠ PNone) as [->|Hv] by (destruct v; auto).
  - rewrite eqb_same. simpl. rewrite andb_false_r. assert (N <| e_value := e_value N |> = N) as -> by by destruct N.
    by rewrite put_edge_same.
  - assert (eqb v PNone = false) as -> by (by apply eqb_false). rewrite andb_true_r.
    assert (when_val v (edge_set_value r v) = edge_set_value r v) as -> by by destruct v.
    assert (keep_or v (e_value N) = v) as -> by by destruct v.
    unfold edge_set_value. rewrite (sread_Ok _ _ _ N) by (by apply get_e_Ok). destruct (e_frozen N); [done|].
    rewrite (upd_e_run _ _ N) by done. f_equal. apply heap_eq; simpl; rewrite ?app_nil_r; done.
Qed.
Lemma node_label_eq h r N v : h_nodes h !! r = Some N →
  when_val v (node_set_label r v) h = (put_node h r (N <| n_label := keep_or v (n_label N) |>) [] [], Ok tt).
Proof.
  intros HN. assert (v = PNone ∨ v ≠ PNone) as [->|Hv] by (destruct v; auto).
  - simpl. assert (N <| n_label := n_label N |> = N) as -> by by destruct N. by rewrite put_node_same.
  - assert (when_val v (node_set_label r v) = node_set_label r v) as -> by by destruct v.
    assert (keep_or v (n_label N) = v) as -> by by destruct v.
    unfold node_set_label. rewrite (upd_n_run _ _ N) by done. f_equal. apply heap_eq; simpl; rewrite ?app_nil_r; done.
Qed.
Lemma edge_label_eq h r N v : h_edges h !! r = Some N →
  when_val v (edge_set_label r v) h = (put_edge h r (N <| e_label := keep_or v (e_label N) |>) [] [], Ok tt).
Proof.
  intros HN. assert (v = PNone ∨ v ≠ PNone) as [->|Hv] by (destruct v; auto).
  - simpl. assert (N <| e_label := e_label N |> = N) as -> by by destruct N. by rewrite put_edge_same.
  - assert (when_val v (edge_set_label r v) = edge_set_label r v) as -> by by destruct v.
    assert (keep_or v (e_label N) = v) as -> by by destruct v.
    unfold edge_set_label. rewrite (upd_e_run _ _ N) by done. f_equal. apply heap_eq; simpl; rewrite ?app_nil_r; done.
Qed.

Lemma set_node_eq h r N a : h_nodes h !! r = Some N → set_node r a h = node_updated h r N a [].
Proof.
  intros HN. assert (Hlt : r < length (h_nodes h)) by (by eapply lookup_lt_Some).
  unfold set_node, node_updated. unfold sbind at 1. rewrite (when_node_style_eq h r N) by done.
  destruct (optional_style nstyle_ctor _ _ _ _ _) as [[st l]|x]; [|by rewrite put_node_same].
  set (h1 := put_node h r _ l []). unfold sbind at 1.
  rewrite (node_label_eq h1 r (N <| n_style := st |>)) by (by apply put_node_lookup).
  set (N1 := N <| n_style := st |> <| n_label := _ |>).
  assert (put_node h1 r N1 [] [] = put_node h r N1 l []) as Hp.
  { unfold h1. rewrite put_node_put, !app_nil_r. done. }
  change (n_label (N <| n_style := st |>)) with (n_label N). fold N1. rewrite Hp.
  unfold sbind. rewrite (node_value_eq _ r N1) by (by apply put_node_lookup).
  change (n_frozen N1) with (n_frozen N). destruct (n_frozen N && negb (eqb (a_value a) PNone)); [done|].
  rewrite put_node_put, !app_nil_r. done.
Qed.
Lemma set_edge_eq h r N a : h_edges h !! r = Some N → set_edge r a h = edge_updated h r N a [].
Proof.
  intros HN. assert (Hlt : r < length (h_edges h)) by (by eapply lookup_lt_Some).
  unfold set_edge, edge_updated. unfold sbind at 1. rewrite (when_edge_style_eq h r N) by done.
  destruct (optional_style estyle_ctor _ _ _ _ _) as [[st l]|x]; [|by rewrite put_edge_same].
  set (h1 := put_edge h r _ l []). unfold sbind at 1.
  rewrite (edge_label_eq h1 r (N <| e_style := st |>)) by (by apply put_edge_lookup).
  set (N1 := N <| e_style := st |> <| e_label := _ |>).
  assert (put_edge h1 r N1 [] [] = put_edge h r N1 l []) as Hp.
  { unfold h1. rewrite put_edge_put, !app_nil_r. done. }
  change (e_label (N <| e_style := st |>)) with (e_label N). fold N1. rewrite Hp.
  unfold sbind. rewrite (edge_value_eq _ r N1) by (by apply put_edge_lookup).
  change (e_frozen N1) with (e_frozen N). destruct (e_frozen N && negb (eqb (c_value a) PNone)); [done|].
  rewrite put_edge_put, !app_nil_r. done.
Qed.

Lemma lenient_ok m : lenient m = true ↔ ok_mode m.
Proof. unfold lenient, ok_mode. rewrite orb_true_iff. unfold eqb. by rewrite !bool_decide_eq_true. Qed.
Lemma warning_of_ok m w : ok_mode m → mode_warns m w = warning_of m w.
Proof. by intros [->| ->]. Qed.

Lemma node_updated_warns h r N a w : h_nodes h !! r = Some N →
  node_updated (h <| h_warns := h_warns h ++ w |>) r N a [] = node_updated h r N a w.
Proof.
  intros HN. unfold node_updated.
  change (optional_style nstyle_ctor (h <| h_warns := h_warns h ++ w |>)) with (optional_style nstyle_ctor h).
  change (h_ns (h <| h_warns := h_warns h ++ w |>)) with (h_ns h).
  destruct (optional_style nstyle_ctor _ _ _ _ _) as [[st l]|x]; [destruct (n_frozen N && _)|];
    f_equal; apply heap_eq; simpl; rewrite ?app_nil_r; done.
Qed.
Lemma edge_updated_warns h r N a w : h_edges h !! r = Some N →
  edge_updated (h <| h_warns := h_warns h ++ w |>) r N a [] = edge_updated h r N a w.
Proof.
  intros HN. unfold edge_updated.
  change (optional_style estyle_ctor (h <| h_warns := h_warns h ++ w |>)) with (optional_style estyle_ctor h).
  change (h_es (h <| h_warns := h_warns h ++ w |>)) with (h_es h).
  destruct (optional_style estyle_ctor _ _ _ _ _) as [[st l]|x]; [destruct (e_frozen N && _)|];
    f_equal; apply heap_eq; simpl; rewrite ?app_nil_r; done.
Qed.

Lemma add_node_existing_eq h g G s r N a : h_graphs h !! g = Some G → dget (g_nodes G) (NStr s) = Some r →
  h_nodes h !! r = Some N →
  add_node g (AName (NStr s)) a h =
  if lenient (a_mode a) then node_updated h r N a (warning_of (a_mode a) (WNode (NStr s))) else (h, Err KeyError).
Proof.
  intros HG Hr HN. rewrite (add_node_existing h g G s r) by done.
  destruct (decide (ok_mode (a_mode a))) as [Hm|Hm].
  - rewrite (proj2 (lenient_ok _)) by done. rewrite (set_node_eq _ r N) by done.
    rewrite node_updated_warns by done. by rewrite warning_of_ok.
  - destruct (lenient (a_mode a)) eqn:Hl; [|done]. by apply lenient_ok in Hl.
Qed.

Lemma add_node_fresh_eq h g G s a : h_graphs h !! g = Some G → dget (g_nodes G) (NStr s) = None →
  add_node g (AName (NStr s)) a h =
  let G1 := G <| g_counter := (g_counter G + 1)%Z |> in
  match restyled nstyle_ctor (length (h_ns h)) None (a_style a) with
  | Err x => (h <| h_graphs := <[g := G1]> (h_graphs h) |>, Err x)
  | Ok (st, l) =>
    (h <| h_nodes := h_nodes h ++ [MkNode (Some g) (NStr s) (a_value a) (a_label a) (a_tooltip a) st false
                                     (a_params a) [] [] (g_counter G)] |>
       <| h_graphs := <[g := G1 <| g_nodes := g_nodes G ++ [(NStr s, length (h_nodes h))] |>]> (h_graphs h) |>
       <| h_ns := h_ns h ++ l |>, Ok (Some (length (h_nodes h))))
  end.
Proof.
  intros HG Hr. destruct (add_node_fresh h g G s a HG Hr) as (l & ost & Hres & ->).
  rewrite resolve_nstyle_eq in Hres. simpl.
  destruct (restyled nstyle_ctor (length (h_ns h)) None (a_style a)) as [[st l']|x].
  - injection Hres as Hh <-. apply app_inv_head in Hh as <-. done.
  - injection Hres as Hh <-. done.
Qed.

Lemma edge_ctor_eq h g s t Ns Nt a :
  let i := (n_id Ns, n_id Nt, RId (c_id a)) in
  h_nodes h !! s = Some Ns → h_nodes h !! t = Some Nt → i ∉ dkeys (n_out Ns) → i ∉ dkeys (n_in Nt) →
  edge_ctor g s t a h =
  match restyled estyle_ctor (length (h_es h)) None (c_style a) with
  | Err x => (h, Err x)
  | Ok (st, l) =>
    (h <| h_nodes := imap (with_new_edge s t i (length (h_edges h))) (h_nodes h) |>
       <| h_edges := h_edges h ++ [new_edge g s t a st] |>
       <| h_es := h_es h ++ l |>, Ok (length (h_edges h)))
  end.
Proof.
  intros i HNs HNt Ho Hi. destruct (edge_ctor_run h g s t Ns Nt a HNs HNt Ho Hi) as (l & ost & Hres & ->).
  rewrite resolve_estyle_eq in Hres. simpl.
  destruct (restyled estyle_ctor (length (h_es h)) None (c_style a)) as [[st l']|x].
  - injection Hres as Hh <-. apply app_inv_head in Hh as <-. f_equal.
    apply heap_eq; simpl; try done. apply list_eq. intros r. rewrite with_entry_lookup, list_lookup_imap. done.
  - injection Hres as Hh <-. done.
Qed.

Lemma connect_eq h g x y a s t Ns Nt : WF h → get_node h g x = Ok s → get_node h g y = Ok t →
  h_nodes h !! s = Some Ns → h_nodes h !! t = Some Nt →
  let i := (n_id Ns, n_id Nt, RId (c_id a)) in
  connect g x y a h =
  match dget (n_out Ns) i with
  | None =>
      match restyled estyle_ctor (length (h_es h)) None (c_style a) with
      | Err x => (h, Err x)
      | Ok (st, l) =>
        (h <| h_nodes := imap (with_new_edge s t i (length (h_edges h))) (h_nodes h) |>
           <| h_edges := h_edges h ++ [new_edge g s t a st] |>
           <| h_es := h_es h ++ l |>, Ok (length (h_edges h)))
      end
  | Some e => match h_edges h !! e with
              | None => (h, Err Unmodelled)
              | Some E => if lenient (c_mode a) then edge_updated h e E a (warning_of (c_mode a) (WEdge i)) else (h, Err ValueError)
              end
  end.
Proof.
  intros W Hs Ht HNs HNt i. rewrite (connect_run h g x y a s t Ns Nt) by done. simpl. fold i.
  destruct (get_node_Ok h g x s) as (G & N & HG & HN & Hgs & _); [done..|].
  destruct (get_node_Ok h g y t) as (G' & N' & HG' & HN' & Hgt & _); [done..|].
  assert (N = Ns) as -> by congruence. assert (N' = Nt) as -> by congruence.
  destruct (dget (n_out Ns) i) as [e|] eqn:He.
  - apply dget_Some_in in He. destruct (WF_out_entry h s Ns i e) as (? & E & ? & ? & ? & HE & _); [done..|]. rewrite HE.
    destruct (decide (ok_mode (c_mode a))) as [Hm|Hm].
    + rewrite (proj2 (lenient_ok _)) by done. rewrite (set_edge_eq _ e E) by done.
      rewrite edge_updated_warns by done. by rewrite warning_of_ok.
    + destruct (lenient (c_mode a)) eqn:Hl; [|done]. by apply lenient_ok in Hl.
  - apply dget_None in He. apply edge_ctor_eq; [done..|].
    rewrite <-(WF_mirror_keys h s t Ns Nt (RId (c_id a))); [done|done|done|done|congruence|eauto].
Qed.
