(** What the core operations (ModelCore.v) do to the heap, and that they keep
    the heap invariant. *)
From Verif Require Export ProofWF.

(** * Heap equalities *)
Lemma heap_eq h h' : h_nodes h = h_nodes h' → h_edges h = h_edges h' → h_graphs h = h_graphs h' →
  h_ns h = h_ns h' → h_es h = h_es h' → h_warns h = h_warns h' → h = h'.
Proof. destruct h, h'; simpl; intros; by subst. Qed.
Lemma heap_ns_nil h : h <| h_ns := h_ns h ++ [] |> = h.
Proof. destruct h; unfold set; simpl. by rewrite app_nil_r. Qed.
Lemma heap_es_nil h : h <| h_es := h_es h ++ [] |> = h.
Proof. destruct h; unfold set; simpl. by rewrite app_nil_r. Qed.
Lemma heap_nodes_same h r N : h_nodes h !! r = Some N → h <| h_nodes := <[r := N]> (h_nodes h) |> = h.
Proof. intros. destruct h; unfold set; simpl in *. by rewrite list_insert_id. Qed.
Lemma heap_edges_same h r N : h_edges h !! r = Some N → h <| h_edges := <[r := N]> (h_edges h) |> = h.
Proof. intros. destruct h; unfold set; simpl in *. by rewrite list_insert_id. Qed.

(** * Style arguments *)
(** A style object passed by the caller exists. *)
Definition nsarg_ok (h : heap) (a : sarg) : Prop :=
  match a with SObj s => s < length (h_ns h) | _ => True end.
Definition esarg_ok (h : heap) (a : sarg) : Prop :=
  match a with SObj s => s < length (h_es h) | _ => True end.

Lemma resolve_nstyle_run a h : ∃ l ro, resolve_nstyle a h = (h <| h_ns := h_ns h ++ l |>, ro) ∧
  (∀ s, ro = Ok (Some s) → nsarg_ok h a → s < length (h_ns h ++ l)) ∧
  (∀ x, ro = Err x → l = []) ∧
  (ro = Ok None ↔ a = SNone) ∧ (a = SNone → l = []) ∧ (∀ s, a = SObj s → ro = Ok (Some s) ∧ l = []).
Proof.
  destruct a as [|d|s|]; simpl.
  - exists [], (Ok None). rewrite heap_ns_nil. naive_solver.
  - unfold sbind, sread, new_ns. destruct (nstyle_ctor d) as [sty|x].
    + exists [sty], (Ok (Some (length (h_ns h)))). split; [done|]. rewrite app_length. simpl.
      split_and!; try done; naive_solver lia.
    + exists [], (Err x). rewrite heap_ns_nil. naive_solver.
  - exists [], (Ok (Some s)). rewrite heap_ns_nil, app_nil_r. naive_solver.
  - exists [], (Err TypeError). rewrite heap_ns_nil. naive_solver.
Qed.
Lemma resolve_estyle_run a h : ∃ l ro, resolve_estyle a h = (h <| h_es := h_es h ++ l |>, ro) ∧
  (∀ s, ro = Ok (Some s) → esarg_ok h a → s < length (h_es h ++ l)) ∧
  (∀ x, ro = Err x → l = []) ∧
  (ro = Ok None ↔ a = SNone) ∧ (a = SNone → l = []) ∧ (∀ s, a = SObj s → ro = Ok (Some s) ∧ l = []).
Proof.
  destruct a as [|d|s|]; simpl.
  - exists [], (Ok None). rewrite heap_es_nil. naive_solver.
  - unfold sbind, sread, new_es. destruct (estyle_ctor d) as [sty|x].
    + exists [sty], (Ok (Some (length (h_es h)))). split; [done|]. rewrite app_length. simpl.
      split_and!; try done; naive_solver lia.
    + exists [], (Err x). rewrite heap_es_nil. naive_solver.
  - exists [], (Ok (Some s)). rewrite heap_es_nil, app_nil_r. naive_solver.
  - exists [], (Err TypeError). rewrite heap_es_nil. naive_solver.
Qed.

(** * The setters *)

(** [style_locked]: the object has a style and its graph forbids (or cannot
    answer about) overwriting. *)
Definition style_locked (h : heap) (st : option sref) (og : option gref) : Prop :=
  is_Some st ∧ overwrite_allowed h og ≠ Ok true.

Lemma node_set_style_run h r N a : h_nodes h !! r = Some N →
  (style_locked h (n_style N) (n_graph N) ∧ ∃ x, node_set_style r a h = (h, Err x)) ∨
  (¬ style_locked h (n_style N) (n_graph N) ∧ ∃ l st ro,
     node_set_style r a h = (h <| h_nodes := <[r := N <| n_style := st |>]> (h_nodes h) |>
                               <| h_ns := h_ns h ++ l |>, ro) ∧
     (st = n_style N ∨ ∃ s, st = Some s ∧ (nsarg_ok h a → s < length (h_ns h ++ l))) ∧
     (a = SNone → l = [] ∧ st = n_style N ∧ ro = Ok tt) ∧ (∀ x, ro = Err x → l = [] ∧ st = n_style N) ∧
     (ro = Ok tt → a ≠ SNone → ∃ s, st = Some s ∧ (a = SObj s ∨ ∃ d sty, a = SDict d ∧ s = length (h_ns h) ∧ l = [sty])) ∧
     (∀ s, a = SObj s → st = Some s ∧ l = [] ∧ ro = Ok tt)).
Proof.
  intros HN. unfold node_set_style. rewrite (sread_Ok _ _ _ N) by (by apply get_n_Ok).
  assert (Hrest : ∃ l st ro, sbind (resolve_nstyle a) (λ s, match s with
       | Some s => upd_n r (λ N, N <| n_style := Some s |>) | None => sret tt end) h
     = (h <| h_nodes := <[r := N <| n_style := st |>]> (h_nodes h) |>
                               <| h_ns := h_ns h ++ l |>, ro) ∧
     (st = n_style N ∨ ∃ s, st = Some s ∧ (nsarg_ok h a → s < length (h_ns h ++ l))) ∧
     (a = SNone → l = [] ∧ st = n_style N ∧ ro = Ok tt) ∧ (∀ x, ro = Err x → l = [] ∧ st = n_style N) ∧
     (ro = Ok tt → a ≠ SNone → ∃ s, st = Some s ∧ (a = SObj s ∨ ∃ d sty, a = SDict d ∧ s = length (h_ns h) ∧ l = [sty])) ∧
     (∀ s, a = SObj s → st = Some s ∧ l = [] ∧ ro = Ok tt)).
  { assert (Hsame : N <| n_style := n_style N |> = N) by by destruct N.
    destruct a as [|d|s|]; simpl.
    - exists [], (n_style N), (Ok tt). rewrite Hsame, heap_nodes_same, heap_ns_nil by done. naive_solver.
    - unfold sbind, sread, new_ns. destruct (nstyle_ctor d) as [sty|x].
      + exists [sty], (Some (length (h_ns h))), (Ok tt). unfold upd_n. simpl. rewrite HN. simpl.
        split; [by destruct h|]. rewrite app_length. simpl. split_and!; try done; [naive_solver lia|].
        intros _ _. eexists. split; [done|]. right. by eexists _, _.
      + exists [], (n_style N), (Err x). rewrite Hsame, heap_nodes_same, heap_ns_nil by done. naive_solver.
    - unfold sbind, sret, upd_n. exists [], (Some s), (Ok tt). rewrite HN. rewrite app_nil_r.
      split; [by destruct h|]. naive_solver.
    - exists [], (n_style N), (Err TypeError). rewrite Hsame, heap_nodes_same, heap_ns_nil by done. naive_solver. }
  destruct (n_style N) as [s0|] eqn:Hst.
  - destruct (overwrite_allowed h (n_graph N)) as [[]|x] eqn:Hov.
    + right. split; [unfold style_locked; naive_solver|].
      erewrite sbind_step; [exact Hrest|]. unfold sbind, sread. by rewrite Hov.
    + left. split; [unfold style_locked; split; [by eexists|by rewrite Hov]|].
      exists RuntimeError. erewrite sbind_fail; [done|]. unfold sbind, sread. by rewrite Hov.
    + left. split; [unfold style_locked; split; [by eexists|by rewrite Hov]|].
      exists x. erewrite sbind_fail; [done|]. unfold sbind, sread. by rewrite Hov.
  - right. split; [unfold style_locked; by intros [[? ?] _]|]. done.
Qed.

Lemma edge_set_style_run h r N a : h_edges h !! r = Some N →
  (style_locked h (e_style N) (e_graph N) ∧ ∃ x, edge_set_style r a h = (h, Err x)) ∨
  (¬ style_locked h (e_style N) (e_graph N) ∧ ∃ l st ro,
     edge_set_style r a h = (h <| h_edges := <[r := N <| e_style := st |>]> (h_edges h) |>
                               <| h_es := h_es h ++ l |>, ro) ∧
     (st = e_style N ∨ ∃ s, st = Some s ∧ (esarg_ok h a → s < length (h_es h ++ l))) ∧
     (a = SNone → l = [] ∧ st = e_style N ∧ ro = Ok tt) ∧ (∀ x, ro = Err x → l = [] ∧ st = e_style N) ∧
     (ro = Ok tt → a ≠ SNone → ∃ s, st = Some s ∧ (a = SObj s ∨ ∃ d sty, a = SDict d ∧ s = length (h_es h) ∧ l = [sty])) ∧
     (∀ s, a = SObj s → st = Some s ∧ l = [] ∧ ro = Ok tt)).
Proof.
  intros HN. unfold edge_set_style. rewrite (sread_Ok _ _ _ N) by (by apply get_e_Ok).
  assert (Hrest : ∃ l st ro, sbind (resolve_estyle a) (λ s, match s with
       | Some s => upd_e r (λ N, N <| e_style := Some s |>) | None => sret tt end) h
     = (h <| h_edges := <[r := N <| e_style := st |>]> (h_edges h) |>
                               <| h_es := h_es h ++ l |>, ro) ∧
     (st = e_style N ∨ ∃ s, st = Some s ∧ (esarg_ok h a → s < length (h_es h ++ l))) ∧
     (a = SNone → l = [] ∧ st = e_style N ∧ ro = Ok tt) ∧ (∀ x, ro = Err x → l = [] ∧ st = e_style N) ∧
     (ro = Ok tt → a ≠ SNone → ∃ s, st = Some s ∧ (a = SObj s ∨ ∃ d sty, a = SDict d ∧ s = length (h_es h) ∧ l = [sty])) ∧
     (∀ s, a = SObj s → st = Some s ∧ l = [] ∧ ro = Ok tt)).
  { assert (Hsame : N <| e_style := e_style N |> = N) by by destruct N.
    destruct a as [|d|s|]; simpl.
    - exists [], (e_style N), (Ok tt). rewrite Hsame, heap_edges_same, heap_es_nil by done. naive_solver.
    - unfold sbind, sread, new_es. destruct (estyle_ctor d) as [sty|x].
      + exists [sty], (Some (length (h_es h))), (Ok tt). unfold upd_e. simpl. rewrite HN. simpl.
        split; [by destruct h|]. rewrite app_length. simpl. split_and!; try done; [naive_solver lia|].
        intros _ _. eexists. split; [done|]. right. by eexists _, _.
      + exists [], (e_style N), (Err x). rewrite Hsame, heap_edges_same, heap_es_nil by done. naive_solver.
    - unfold sbind, sret, upd_e. exists [], (Some s), (Ok tt). rewrite HN. rewrite app_nil_r.
      split; [by destruct h|]. naive_solver.
    - exists [], (e_style N), (Err TypeError). rewrite Hsame, heap_edges_same, heap_es_nil by done. naive_solver. }
  destruct (e_style N) as [s0|] eqn:Hst.
  - destruct (overwrite_allowed h (e_graph N)) as [[]|x] eqn:Hov.
    + right. split; [unfold style_locked; naive_solver|].
      erewrite sbind_step; [exact Hrest|]. unfold sbind, sread. by rewrite Hov.
    + left. split; [unfold style_locked; split; [by eexists|by rewrite Hov]|].
      exists RuntimeError. erewrite sbind_fail; [done|]. unfold sbind, sread. by rewrite Hov.
    + left. split; [unfold style_locked; split; [by eexists|by rewrite Hov]|].
      exists x. erewrite sbind_fail; [done|]. unfold sbind, sread. by rewrite Hov.
  - right. split; [unfold style_locked; by intros [[? ?] _]|]. done.
Qed.

(** * add_node *)
Definition ok_mode (m : string) : Prop := m = "ignore"%string ∨ m = "warn"%string.
#[global] Instance ok_mode_dec m : Decision (ok_mode m).
Proof. unfold ok_mode. apply _. Defined.
Definition mode_warns (m : string) (w : warning) : list warning :=
  if eqb m "ignore"%string then [] else [w].

Lemma mode_run (m : string) w x h :
  (if eqb m "ignore"%string then sret tt else if eqb m "warn"%string then warn w else sraise x) h
  = (if decide (ok_mode m) then (h <| h_warns := h_warns h ++ mode_warns m w |>, Ok tt) else (h, Err x)).
Proof.
  unfold mode_warns. destruct (eqb m "ignore"%string) eqn:E1.
  - apply eqb_is in E1. destruct (decide (ok_mode m)) as [_|Hn]; [|by destruct Hn; left]. unfold sret. f_equal.
    destruct h; unfold set; simpl. by rewrite app_nil_r.
  - apply eqb_isnt in E1. destruct (eqb m "warn"%string) eqn:E2.
    + apply eqb_is in E2. by destruct (decide (ok_mode m)) as [_|Hn]; [|destruct Hn; right].
    + apply eqb_isnt in E2. destruct (decide (ok_mode m)) as [[?|?]|_]; done.
Qed.

(** the value a passed argument gives to a field *)
Definition given (v old : pv) : pv := match v with PNone => old | _ => v end.

(** the three assignments made on an existing node, in order *)
Definition set_node (r : nref) (a : nargs) : M (option nref) :=
  do* when_style (a_style a) (node_set_style r (a_style a)) in
  do* when_val (a_label a) (node_set_label r (a_label a)) in
  do* when_val (a_value a) (node_set_value r (a_value a)) in
  sret (Some r).

Lemma set_node_run h r N a : h_nodes h !! r = Some N →
  ∃ l st lb vl ro, set_node r a h =
    (h <| h_nodes := <[r := N <| n_style := st |> <| n_label := lb |> <| n_value := vl |>]> (h_nodes h) |>
       <| h_ns := h_ns h ++ l |>, ro) ∧
    (a_style a = SNone → l = [] ∧ st = n_style N) ∧
    (st = n_style N ∨ ∃ s, st = Some s ∧ (nsarg_ok h (a_style a) → s < length (h_ns h ++ l))) ∧
    (style_locked h (n_style N) (n_graph N) → st = n_style N) ∧
    (lb = n_label N ∨ lb = given (a_label a) (n_label N)) ∧
    (vl = n_value N ∨ (n_frozen N = false ∧ vl = given (a_value a) (n_value N))) ∧
    (∀ x, ro = Ok x → x = Some r ∧ lb = given (a_label a) (n_label N) ∧ vl = given (a_value a) (n_value N) ∧
       (a_style a ≠ SNone → ¬ style_locked h (n_style N) (n_graph N) ∧
          ∃ s, st = Some s ∧ (a_style a = SObj s ∨ ∃ d sty, a_style a = SDict d ∧ s = length (h_ns h) ∧ l = [sty])) ∧
       (a_value a ≠ PNone → n_frozen N = false)) ∧
    (∀ x, ro = Err x → a_style a ≠ SNone ∨ (n_frozen N = true ∧ a_value a ≠ PNone)) ∧
    (a_style a = SNone → a_value a = PNone ∨ n_frozen N = false → ro = Ok (Some r)).
Proof.
  intros HN. unfold set_node.
  assert (Hst : ∃ l st ro, when_style (a_style a) (node_set_style r (a_style a)) h =
    (h <| h_nodes := <[r := N <| n_style := st |>]> (h_nodes h) |> <| h_ns := h_ns h ++ l |>, ro) ∧
    (a_style a = SNone → l = [] ∧ st = n_style N ∧ ro = Ok tt) ∧
    (st = n_style N ∨ ∃ s, st = Some s ∧ (nsarg_ok h (a_style a) → s < length (h_ns h ++ l))) ∧
    (style_locked h (n_style N) (n_graph N) → st = n_style N) ∧
    (ro = Ok tt → a_style a ≠ SNone → ¬ style_locked h (n_style N) (n_graph N) ∧
       ∃ s, st = Some s ∧ (a_style a = SObj s ∨ ∃ d sty, a_style a = SDict d ∧ s = length (h_ns h) ∧ l = [sty]))).
  { assert (Hsame : N <| n_style := n_style N |> = N) by by destruct N.
    assert (a_style a = SNone ∨ a_style a ≠ SNone) as [Ha|Ha] by (destruct (a_style a); auto).
    - rewrite Ha. simpl. exists [], (n_style N), (Ok tt).
      rewrite Hsame, heap_nodes_same, heap_ns_nil by done. naive_solver.
    - assert (when_style (a_style a) (node_set_style r (a_style a)) = node_set_style r (a_style a)) as ->
        by by destruct (a_style a).
      destruct (node_set_style_run h r N (a_style a) HN) as [(Hl & x & ->)|(Hl & l & st & ro & -> & H1 & H2 & H3 & H4 & H5)].
      + exists [], (n_style N), (Err x). rewrite Hsame, heap_nodes_same, heap_ns_nil by done. naive_solver.
      + exists l, st, ro. split; [done|]. naive_solver. }
  destruct Hst as (l & st & ro & Hrun & H1 & H2 & H3 & H4).
  destruct ro as [[]|x].
  2:{ erewrite sbind_fail by exact Hrun. exists l, st, (n_label N), (n_value N), (Err x).
      split; [by destruct N|]. naive_solver. }
  erewrite sbind_step by exact Hrun. clear Hrun.
  set (h1 := h <| h_nodes := _ |> <| h_ns := _ |>). set (N1 := N <| n_style := st |>) in *.
  assert (HN1 : h_nodes h1 !! r = Some N1).
  { subst h1. simpl. rewrite list_lookup_insert; [done|]. by eapply lookup_lt_Some. }
  assert (Hlb : when_val (a_label a) (node_set_label r (a_label a)) h1 =
     (h1 <| h_nodes := <[r := N1 <| n_label := given (a_label a) (n_label N1) |>]> (h_nodes h1) |>, Ok tt)).
  { unfold given, when_val, node_set_label. destruct (a_label a) eqn:Ha;
      try (by erewrite upd_n_run by exact HN1).
    assert (N1 <| n_label := n_label N1 |> = N1) as -> by by destruct N.
    by rewrite heap_nodes_same by done. }
  erewrite sbind_step by exact Hlb. clear Hlb.
  set (h2 := h1 <| h_nodes := _ |>). set (N2 := N1 <| n_label := given (a_label a) (n_label N1) |>) in *.
  assert (HN2 : h_nodes h2 !! r = Some N2).
  { subst h2. simpl. rewrite list_lookup_insert; [done|]. rewrite insert_length. by eapply lookup_lt_Some. }
  assert (Hh2 : ∀ f, h2 <| h_nodes := <[r := f]> (h_nodes h2) |> =
     h <| h_nodes := <[r := f]> (h_nodes h) |> <| h_ns := h_ns h ++ l |>).
  { intros f. subst h2 h1. apply heap_eq; simpl; try done. by rewrite !list_insert_insert. }
  destruct (decide (a_value a = PNone)) as [Hv|Hv].
  - rewrite Hv. simpl. exists l, st, (given (a_label a) (n_label N)), (n_value N), (Ok (Some r)). split.
    + unfold sbind, sret. f_equal. rewrite <-(heap_nodes_same h2 r N2) by done.
      by rewrite Hh2.
    + split_and!; try naive_solver.
  - assert (when_val (a_value a) (node_set_value r (a_value a)) = node_set_value r (a_value a)) as ->
        by by destruct (a_value a).
    assert (given (a_value a) (n_value N) = a_value a) as Hgv by by destruct (a_value a).
    unfold node_set_value. rewrite sbind_assoc. rewrite (sread_Ok _ _ _ N2) by (by apply get_n_Ok).
    change (n_frozen N2) with (n_frozen N). destruct (n_frozen N) eqn:Hf.
    + exists l, st, (given (a_label a) (n_label N)), (n_value N), (Err RuntimeError). split.
      * unfold sbind, sraise. f_equal. rewrite <-(heap_nodes_same h2 r N2) by done.
        by rewrite Hh2.
      * split_and!; try naive_solver.
    + exists l, st, (given (a_label a) (n_label N)), (a_value a), (Ok (Some r)). split.
      * erewrite sbind_step; [|by apply upd_n_run]. unfold sret. f_equal. by rewrite Hh2.
      * rewrite Hgv. split_and!; try naive_solver.
Qed.

(** an existing name *)
Lemma add_node_existing h g G s r a : h_graphs h !! g = Some G → dget (g_nodes G) (NStr s) = Some r →
  add_node g (AName (NStr s)) a h =
  if decide (ok_mode (a_mode a))
  then set_node r a (h <| h_warns := h_warns h ++ mode_warns (a_mode a) (WNode (NStr s)) |>)
  else (h, Err KeyError).
Proof.
  intros HG Hr. unfold add_node. rewrite (sread_Ok _ _ _ G) by (by apply get_g_Ok).
  unfold dmem. rewrite Hr. unfold sbind at 1. rewrite mode_run.
  destruct (decide (ok_mode (a_mode a))); [|done].
  rewrite (sread_Ok _ _ _ r); [done|]. unfold get_node. erewrite get_g_Ok by done. simpl.
  unfold dgetR. by rewrite Hr.
Qed.

(** a fresh name *)
Lemma add_node_fresh h g G s a : h_graphs h !! g = Some G → dget (g_nodes G) (NStr s) = None →
  ∃ l ost, resolve_nstyle (a_style a) h = (h <| h_ns := h_ns h ++ l |>, ost) ∧
  add_node g (AName (NStr s)) a h =
  match ost with
  | Err x => (h <| h_graphs := <[g := G <| g_counter := (g_counter G + 1)%Z |>]> (h_graphs h) |>, Err x)
  | Ok st =>
    (h <| h_nodes := h_nodes h ++ [MkNode (Some g) (NStr s) (a_value a) (a_label a) (a_tooltip a) st false
                                     (a_params a) [] [] (g_counter G)] |>
       <| h_graphs := <[g := G <| g_counter := (g_counter G + 1)%Z |>
                              <| g_nodes := g_nodes G ++ [(NStr s, length (h_nodes h))] |>]> (h_graphs h) |>
       <| h_ns := h_ns h ++ l |>, Ok (Some (length (h_nodes h))))
  end.
Proof.
  intros HG Hr.
  destruct (resolve_nstyle_run (a_style a) h) as (l & ost & Hres & _ & Hl & _). exists l, ost. split; [done|].
  unfold add_node. rewrite (sread_Ok _ _ _ G) by (by apply get_g_Ok).
  unfold dmem. rewrite Hr. unfold generate_node_index. rewrite sbind_assoc.
  rewrite (sread_Ok _ _ _ G) by (by apply get_g_Ok). rewrite sbind_assoc.
  erewrite sbind_step by (by apply upd_g_run). rewrite sret_bind.
  set (h1 := h <| h_graphs := _ |>). unfold node_ctor. rewrite sbind_assoc.
  assert (Hres1 : resolve_nstyle (a_style a) h1 = (h1 <| h_ns := h_ns h ++ l |>, ost)).
  { revert Hres. unfold resolve_nstyle, sbind, sread, sret, new_ns, sraise. subst h1.
    destruct (a_style a) as [|d|k|]; try destruct (nstyle_ctor d); intros [= Hh <-]; f_equal; try done;
      destruct h; unfold set in *; simpl in *; congruence. }
  assert (HG1 : h_graphs h1 !! g = Some (G <| g_counter := (g_counter G + 1)%Z |>)).
  { subst h1. simpl. rewrite list_lookup_insert; [done|]. by eapply lookup_lt_Some. }
  destruct ost as [st|x].
  2:{ erewrite sbind_fail by exact Hres1. f_equal. rewrite (Hl x) by done. subst h1. destruct h.
      unfold set. simpl. by rewrite app_nil_r. }
  erewrite sbind_step by exact Hres1. rewrite sbind_assoc. erewrite sbind_step by done.
  rewrite sbind_assoc.
  set (h2 := h1 <| h_ns := _ |>). set (h3 := h2 <| h_nodes := _ |>).
  assert (HG3 : h_graphs h3 !! g = Some (G <| g_counter := (g_counter G + 1)%Z |>)) by done.
  erewrite sbind_step by (by apply upd_g_run). rewrite sret_bind.
  erewrite sbind_step.
  2:{ apply upd_g_run. simpl. rewrite list_lookup_insert; [done|]. by eapply lookup_lt_Some. }
  unfold sret. f_equal.
  assert (Hf : dset (g_nodes G) (NStr s) (length (h_nodes h)) = g_nodes G ++ [(NStr s, length (h_nodes h))]).
  { apply dset_fresh. by apply dget_None. }
  apply heap_eq; simpl; try done.
  rewrite !list_insert_insert. unfold set. simpl. rewrite Hf. rewrite dset_same; [done|].
  rewrite <-Hf. rewrite dget_dset. by rewrite decide_True.
Qed.

(** a Node object *)
Lemma add_node_node h g G r N a : h_graphs h !! g = Some G → h_nodes h !! r = Some N →
  add_node g (ANode r) a h =
  match dget (g_nodes G) (n_id N), n_graph N with
  | Some r', _ => (h, if eqb (n_graph N) (Some g) && eqb r' r then Ok None else Err ValueError)
  | None, Some _ => (h, Err ValueError)
  | None, None => (h <| h_graphs := <[g := G <| g_nodes := g_nodes G ++ [(n_id N, r)] |>]> (h_graphs h) |>,
                   Ok (Some r))
  end.
Proof.
  intros HG HN. unfold add_node. rewrite (sread_Ok _ _ _ N) by (by apply get_n_Ok).
  rewrite (sread_Ok _ _ _ G) by (by apply get_g_Ok).
  destruct (dget (g_nodes G) (n_id N)) eqn:Hd.
  - destruct (eqb (n_graph N) (Some g) && eqb n r); by destruct (n_graph N).
  - destruct (n_graph N); [done|]. erewrite sbind_step by (by apply upd_g_run). unfold sret.
    by rewrite dset_fresh by (by apply dget_None).
Qed.

(** WF-preservation *)
Lemma data_only_node h h' r N N' :
  h_nodes h !! r = Some N → h_nodes h' = <[r := N']> (h_nodes h) →
  h_edges h' = h_edges h → h_graphs h' = h_graphs h →
  length (h_ns h) ≤ length (h_ns h') → length (h_es h) ≤ length (h_es h') →
  n_graph N' = n_graph N → n_id N' = n_id N → n_out N' = n_out N → n_in N' = n_in N →
  n_index N' = n_index N →
  (n_style N' = n_style N ∨ ∃ s, n_style N' = Some s ∧ s < length (h_ns h')) → data_only h h'.
Proof.
  intros HN Hn He Hg Hns Hes H1 H2 H3 H4 H5 H6. split; [| | |done|done].
  - intros k. rewrite Hn. destruct (decide (k = r)) as [->|].
    + rewrite HN, list_lookup_insert by (by eapply lookup_lt_Some). naive_solver.
    + rewrite list_lookup_insert_ne by done. destruct (h_nodes h !! k); naive_solver.
  - intros k. rewrite He. destruct (h_edges h !! k); naive_solver.
  - intros k. rewrite Hg. by destruct (h_graphs h !! k).
Qed.
Lemma data_only_edge h h' r N N' :
  h_edges h !! r = Some N → h_edges h' = <[r := N']> (h_edges h) →
  h_nodes h' = h_nodes h → h_graphs h' = h_graphs h →
  length (h_ns h) ≤ length (h_ns h') → length (h_es h) ≤ length (h_es h') →
  e_graph N' = e_graph N → e_raw N' = e_raw N → e_start N' = e_start N → e_end N' = e_end N →
  (e_style N' = e_style N ∨ ∃ s, e_style N' = Some s ∧ s < length (h_es h')) → data_only h h'.
Proof.
  intros HN He Hn Hg Hns Hes H1 H2 H3 H4 H6. split; [| | |done|done].
  - intros k. rewrite Hn. destruct (h_nodes h !! k); naive_solver.
  - intros k. rewrite He. destruct (decide (k = r)) as [->|].
    + rewrite HN, list_lookup_insert by (by eapply lookup_lt_Some). naive_solver.
    + rewrite list_lookup_insert_ne by done. destruct (h_edges h !! k); naive_solver.
  - intros k. rewrite Hg. by destruct (h_graphs h !! k).
Qed.
Lemma data_only_same h h' :
  h_edges h' = h_edges h → h_nodes h' = h_nodes h → h_graphs h' = h_graphs h →
  length (h_ns h) ≤ length (h_ns h') → length (h_es h) ≤ length (h_es h') → data_only h h'.
Proof.
  intros He Hn Hg ? ?. split; rewrite ?He, ?Hn, ?Hg; try done.
  - intros k. destruct (h_nodes h !! k); naive_solver.
  - intros k. destruct (h_edges h !! k); naive_solver.
  - intros k. by destruct (h_graphs h !! k).
Qed.
Lemma data_only_graph h h' g G G' : h_graphs h !! g = Some G → h_graphs h' = <[g := G']> (h_graphs h) →
  g_nodes G' = g_nodes G →
  h_edges h' = h_edges h → h_nodes h' = h_nodes h →
  length (h_ns h) ≤ length (h_ns h') → length (h_es h) ≤ length (h_es h') → data_only h h'.
Proof.
  intros HG Hg ? He Hn ? ?. split; rewrite ?He, ?Hn, ?Hg; try done.
  - intros k. destruct (h_nodes h !! k); naive_solver.
  - intros k. destruct (h_edges h !! k); naive_solver.
  - intros k. destruct (decide (k = g)) as [->|].
    + rewrite HG, list_lookup_insert by (by eapply lookup_lt_Some). naive_solver.
    + rewrite list_lookup_insert_ne by done. by destruct (h_graphs h !! k).
Qed.

Lemma app_length_le {A} (l k : list A) : length l ≤ length (l ++ k).
Proof. rewrite app_length. lia. Qed.

Lemma set_node_data_only h r a : nsarg_ok h (a_style a) → data_only h (set_node r a h).1 ∨ h_nodes h !! r = None.
Proof.
  intros Hok. destruct (h_nodes h !! r) as [N|] eqn:HN; [left|by right].
  destruct (set_node_run h r N a HN) as (l & st & lb & vl & ro & -> & _ & Hst & _). simpl.
  eapply data_only_node; simpl; try done.
  - apply app_length_le.
  - naive_solver.
Qed.

Lemma node_set_style_data_only h r a : nsarg_ok h a → data_only h (node_set_style r a h).1.
Proof.
  intros Hok. destruct (h_nodes h !! r) as [N|] eqn:HN.
  - destruct (node_set_style_run h r N a HN) as [(_ & x & ->)|(_ & l & st & ro & -> & Hst & _)]; simpl.
    + apply data_only_refl.
    + eapply data_only_node; simpl; try done; [apply app_length_le|naive_solver].
  - unfold node_set_style. rewrite (sread_Err _ _ _ Unmodelled); [apply data_only_refl|].
    unfold get_n. by rewrite HN.
Qed.
Lemma edge_set_style_data_only h r a : esarg_ok h a → data_only h (edge_set_style r a h).1.
Proof.
  intros Hok. destruct (h_edges h !! r) as [N|] eqn:HN.
  - destruct (edge_set_style_run h r N a HN) as [(_ & x & ->)|(_ & l & st & ro & -> & Hst & _)]; simpl.
    + apply data_only_refl.
    + eapply data_only_edge; simpl; try done; [apply app_length_le|naive_solver].
  - unfold edge_set_style. rewrite (sread_Err _ _ _ Unmodelled); [apply data_only_refl|].
    unfold get_e. by rewrite HN.
Qed.
Lemma upd_n_data_only h r f :
  (∀ N, n_graph (f N) = n_graph N ∧ n_id (f N) = n_id N ∧ n_out (f N) = n_out N ∧ n_in (f N) = n_in N ∧
        n_index (f N) = n_index N ∧ n_style (f N) = n_style N) → data_only h (upd_n r f h).1.
Proof.
  intros Hf. unfold upd_n. destruct (h_nodes h !! r) as [N|] eqn:HN; simpl; [|apply data_only_refl].
  specialize (Hf N). eapply data_only_node; simpl; naive_solver.
Qed.
Lemma upd_e_data_only h r f :
  (∀ N, e_graph (f N) = e_graph N ∧ e_raw (f N) = e_raw N ∧ e_start (f N) = e_start N ∧ e_end (f N) = e_end N ∧
        e_style (f N) = e_style N) → data_only h (upd_e r f h).1.
Proof.
  intros Hf. unfold upd_e. destruct (h_edges h !! r) as [N|] eqn:HN; simpl; [|apply data_only_refl].
  specialize (Hf N). eapply data_only_edge; simpl; naive_solver.
Qed.
Lemma upd_g_data_only h r f : (∀ G, g_nodes (f G) = g_nodes G) → data_only h (upd_g r f h).1.
Proof.
  intros Hf. unfold upd_g. destruct (h_graphs h !! r) as [N|] eqn:HN; simpl; [|apply data_only_refl].
  specialize (Hf N). eapply data_only_graph; simpl; naive_solver.
Qed.

Lemma WF_add_node_call h g x a : WF h → nsarg_ok h (a_style a) →
  (∀ r N, x = ANode r → h_nodes h !! r = Some N → n_graph N ≠ None) → WF (add_node g x a h).1.
Proof.
  intros W Hok Hx. destruct (h_graphs h !! g) as [G|] eqn:HG.
  2:{ assert (get_g h g = Err Unmodelled) as Hgg by (unfold get_g; by rewrite HG).
      destruct x as [[s|z]|r|]; unfold add_node; try done.
      - by rewrite (sread_Err _ _ _ _ Hgg).
      - destruct (get_n h r) eqn:HN.
        + rewrite (sread_Ok _ _ _ _ HN). by rewrite (sread_Err _ _ _ _ Hgg).
        + by rewrite (sread_Err _ _ _ _ HN). }
  destruct x as [[s|z]|r|]; try done.
  - destruct (dget (g_nodes G) (NStr s)) as [r|] eqn:Hr.
    + rewrite (add_node_existing h g G s r) by done. destruct (decide (ok_mode (a_mode a))); [|done].
      set (h1 := h <| h_warns := _ |>).
      assert (D1 : data_only h h1) by (by apply data_only_same).
      destruct (set_node_data_only h1 r a) as [D|Hn]; [done| |].
      * eapply WF_data_only; [done|]. by eapply data_only_trans.
      * apply dget_Some_in in Hr. destruct (wf_gnodes _ W g G _ _ HG Hr) as (N & HN & _).
        change (h_nodes h1 !! r) with (h_nodes h !! r) in Hn. congruence.
    + destruct (add_node_fresh h g G s a HG Hr) as (l & ost & Hres & ->).
      destruct ost as [st|x].
      * simpl. apply (WF_add_node h _ g G (MkNode (Some g) (NStr s) (a_value a) (a_label a) (a_tooltip a) st false
                                     (a_params a) [] [] (g_counter G))
            (G <| g_counter := (g_counter G + 1)%Z |> <| g_nodes := g_nodes G ++ [(NStr s, length (h_nodes h))] |>));
          simpl; try done.
        -- by apply dget_None.
        -- intros k ->. destruct (resolve_nstyle_run (a_style a) h) as (l' & ro' & Hr' & Hlt & _).
           rewrite Hres in Hr'. injection Hr' as Hh <-.
           assert (l = l') as <- by (destruct h; unfold set in Hh; simpl in Hh; simplify_eq; done).
           by apply Hlt.
        -- apply app_length_le.
      * simpl. eapply WF_data_only; [done|]. by eapply data_only_graph.
  - destruct (h_nodes h !! r) as [N|] eqn:HN.
    2:{ unfold add_node. rewrite (sread_Err _ _ _ Unmodelled); [done|]. unfold get_n. by rewrite HN. }
    rewrite (add_node_node h g G r N) by done. specialize (Hx r N eq_refl HN).
    destruct (dget (g_nodes G) (n_id N)); [by destruct (n_graph N)|]. by destruct (n_graph N).
Qed.
