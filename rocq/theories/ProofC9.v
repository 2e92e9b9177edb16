(** Building graphs: C27, C30, C31. *)
From Verif Require Export ProofBuild ProofFrame Samples.
From Coq Require Import Lqa.
Local Open Scope string_scope.
Local Open Scope list_scope.

(** * C27 *)
Definition plain_nodes (l : list string) : list nview := (λ s, plain_node s PNone) <$> l.
Lemma plain_names l : v_name <$> plain_nodes l = NStr <$> l.
Proof. unfold plain_nodes. by rewrite <-list_fmap_compose. Qed.
Lemma plain_name_in l s : NStr s ∈ v_name <$> plain_nodes l ↔ s ∈ l.
Proof. rewrite plain_names, elem_of_list_fmap. split; [intros (? & [= ->] & ?); done|eauto]. Qed.

Lemma add_once w f h g l es s : built w f h g (plain_nodes (distinct l)) es →
  ∃ h' r, add_node g (AName (NStr s)) (nargs0 <| a_mode := "ignore" |>) h = (h', Ok (Some r)) ∧
    built w f h' g (plain_nodes (distinct (l ++ [s]))) es ∧ named h' g (NStr s) r ∧ (∀ k r, named h g k r → named h' g k r).
Proof.
  intros Hb. rewrite distinct_snoc. destruct (decide (s ∈ l)) as [Hin|Hin].
  - destruct (built_same w f h g _ es s (nargs0 <| a_mode := "ignore" |>) Hb) as (r & ? & ?); try done.
    { apply plain_name_in. by apply elem_of_distinct. }
    exists h, r. done.
  - destruct (built_add w f h g _ es s (nargs0 <| a_mode := "ignore" |>) Hb) as (h' & r & ? & ? & ? & ?); try done.
    { rewrite plain_name_in. by rewrite elem_of_distinct. }
    exists h', r. split; [done|]. split; [|done]. unfold plain_nodes. by rewrite fmap_app.
Qed.

Lemma zip_rows_cons i (s : string) start (t : string) end_ (l : pv) labels :
  zip (zip (zip (seq i (length (s :: start))) (s :: start)) (t :: end_)) (l :: labels) =
  (i, s, t, l) :: zip (zip (zip (seq (Datatypes.S i) (length start)) start) end_) labels.
Proof. done. Qed.
Lemma from_lists_rows w f g : ∀ start end_ labels i h l es, built w f h g (plain_nodes (distinct l)) es →
  (∀ e z, e ∈ es → w_id e = Some (NInt z) → (z < Z.of_nat i)%Z) →
  ∃ h', siter (from_lists_row g) (zip (zip (zip (seq i (length start)) start) end_) labels) h = (h', Ok tt) ∧
    built w f h' g (plain_nodes (distinct (l ++ row_names start end_ labels))) (es ++ row_edges (Z.of_nat i) start end_ labels).
Proof.
  induction start as [|s start IH]; intros end_ labels i h l es Hb Hid.
  { exists h. simpl. rewrite !app_nil_r. done. }
  destruct end_ as [|t end_].
  { exists h. simpl. rewrite !app_nil_r. done. }
  destruct labels as [|lb labels].
  { exists h. simpl. rewrite !app_nil_r. done. }
  rewrite zip_rows_cons. cbn [siter row_names row_edges].
  destruct (add_once w f h g l es s Hb) as (h1 & r1 & Heq1 & Hb1 & Hn1 & _).
  destruct (add_once w f h1 g (l ++ [s]) es t Hb1) as (h2 & r2 & Heq2 & Hb2 & Hn2 & Hm2).
  set (a := eargs0 <| c_id := Some (NInt (Z.of_nat i)) |> <| c_label := lb |>).
  destruct (built_connect w f h2 g (plain_nodes (distinct ((l ++ [s]) ++ [t]))) es (ANode r1) (ANode r2) a r1 r2 (NStr s) (NStr t) Hb2)
    as (h3 & Heq3 & Hb3 & _ & _); [by apply (named_denotes h2 g (NStr s)), Hm2; [apply Hb2|]|by apply (named_denotes h2 g (NStr t)); [apply Hb2|]|by apply Hm2|done| |done|].
  { intros (e & He & Hin)%elem_of_list_fmap. unfold w_key in He. injection He as _ _ He. specialize (Hid e (Z.of_nat i) Hin (eq_sym He)). lia. }
  assert (from_lists_row g (i, s, t, lb) h = (h3, Ok tt)) as Hrow.
  { unfold from_lists_row. rewrite (sbind_step _ _ _ _ _ Heq1), (sbind_step _ _ _ _ _ Heq2), (sbind_step _ _ _ _ _ Heq3). done. }
  rewrite (sbind_step _ _ _ _ _ Hrow). destruct (IH end_ labels (Datatypes.S i) h3 _ _ Hb3) as (h4 & Heq4 & Hb4).
  { intros e z [Hin| ->%elem_of_list_singleton]%elem_of_app; [|cbn; intros [= <-]; lia].
    intros Hz. specialize (Hid e z Hin Hz). lia. }
  exists h4. split; [done|]. rewrite <-!app_assoc in Hb4. cbn [app] in Hb4.
  replace (Z.of_nat (Datatypes.S i)) with (Z.of_nat i + 1)%Z in Hb4 by lia. exact Hb4.
Qed.

(** C27.  from_lists succeeds on any lists of node names: it makes a new graph whose
    nodes are the distinct names, in the order in which they first appear reading
    the rows from left to right and from top to bottom, all of them plain; it has
    exactly one edge for each row, in order, with the row number as id and the
    given label; rows beyond the shortest list are ignored; nothing is warned. *)
Lemma C27_from_lists_proof : ∀ h d start end_ labels strict, reachable h →
  ∃ h', from_lists d start end_ labels strict h = (h', Ok (length (h_graphs h))) ∧
    shows h' (length (h_graphs h)) ((λ s, plain_node s PNone) <$> distinct (row_names start end_ labels)) (row_edges 0 start end_ labels) ∧
    h_warns h' = h_warns h ∧ flags h' (length (h_graphs h)) = Some (strict, true, Some d) ∧ extends h h'.
Proof.
  intros h d start end_ labels strict Hr. pose proof (reachable_WF h Hr) as W.
  destruct (built_new h strict true d W) as (h1 & Heq1 & Hb1).
  destruct (from_lists_rows _ _ _ start end_ labels 0 h1 [] [] Hb1) as (h2 & Heq2 & Hb2); [by intros ? ? ?%elem_of_nil|].
  assert (from_lists d start end_ labels strict h = (h2, Ok (length (h_graphs h)))) as Heq.
  { unfold from_lists, zip_rows. by rewrite (sbind_step _ _ _ _ _ Heq1), (sbind_step _ _ _ _ _ Heq2). }
  exists h2. split; [exact Heq|]. destruct Hb2 as (_ & Hs & Hw & Hf). split_and!; try done.
  pose proof (makes_extends h (CFromLists d start end_ labels strict) W I eq_refl) as He. simpl in He. by rewrite Heq in He.
Qed.
(** Three rows, with a name and a pair that occur twice. *)
Lemma C27_from_lists_ex_proof : reachable sample ∧
  row_names ["b"; "a"; "b"; "x"] ["a"; "c"; "a"] [PStr "u"; PNone; PInt 3; PNone] = ["b"; "a"; "a"; "c"; "b"; "a"] ∧
  distinct ["b"; "a"; "a"; "c"; "b"; "a"] = ["b"; "a"; "c"] ∧
  row_edges 0 ["b"; "a"; "b"; "x"] ["a"; "c"; "a"] [PStr "u"; PNone; PInt 3; PNone] =
    [plain_edge (nm "b") (nm "a") (Some (NInt 0)) (PStr "u"); plain_edge (nm "a") (nm "c") (Some (NInt 1)) PNone;
     plain_edge (nm "b") (nm "a") (Some (NInt 2)) (PInt 3)].
Proof. split; [apply sample_reachable|]. by vm_compute. Qed.

(** * C31 *)
Lemma sfold_app {A B} (f : B → A → M B) l k b h : sfold f b (l ++ k) h = sbind (sfold f b l) (λ b, sfold f b k) h.
Proof.
  revert b h. induction l as [|x l IH]; intros b h; [done|]. cbn [sfold app]. rewrite sbind_assoc.
  destruct (f b x h) as [h1 [b1|x1]] eqn:E.
  - rewrite !(sbind_step _ _ _ _ _ E). apply IH.
  - by rewrite !(sbind_fail _ _ _ _ _ E).
Qed.
Lemma sfold_map {A C B} (f : B → A → M B) (u : C → A) l b h : sfold f b (map u l) h = sfold (λ b x, f b (u x)) b l h.
Proof.
  revert b h. induction l as [|x l IH]; intros b h; [done|]. cbn [sfold map]. unfold sbind. destruct (f b (u x) h) as [h1 [b1|]]; [apply IH|done].
Qed.
Lemma sfold_prod {A B C} (f : B → A → C → M B) l k b h :
  sfold (λ b x, sfold (λ b y, f b x y) b k) b l h = sfold (λ b xy, f b xy.1 xy.2) b (list_prod l k) h.
Proof.
  revert b h. induction l as [|x l IH]; intros b h; [done|]. cbn [sfold list_prod]. rewrite sfold_app.
  unfold sbind. rewrite (sfold_map _ (λ y, (x, y)) k). cbn [fst snd]. destruct (sfold _ b k h) as [h1 [b1|]]; [apply IH|done].
Qed.
Lemma clamp_lt p u : (0 <= u)%Q → (u < 1)%Q → qltb u (clamp p) = if Qlt_le_dec u p then true else false.
Proof.
  intros H0 H1. unfold qltb, clamp.
  assert (Hle : ∀ x y : Q, Qle_bool x y = true ∧ (x <= y)%Q ∨ Qle_bool x y = false ∧ (y < x)%Q).
  { intros x y. destruct (Qle_bool x y) eqn:E; [left|right]; (split; [done|]); [by apply Qle_bool_iff|].
    apply Qnot_le_lt. intros ?%Qle_bool_iff. congruence. }
  destruct (Hle p 0%Q) as [[-> Hp]|[-> Hp]].
  - assert (Qle_bool 1 0 = false) as -> by done. cbv iota. destruct (Hle 0%Q u) as [[-> _]|[_ ?]]; [|lra].
    destruct (Qlt_le_dec u p); [lra|done].
  - destruct (Hle 1%Q p) as [[-> Hp1]|[-> Hp1]].
    + destruct (Hle 1%Q u) as [[_ ?]|[-> _]]; [lra|]. destruct (Qlt_le_dec u p); [done|lra].
    + destruct (Hle p u) as [[-> ?]|[-> ?]]; (destruct (Qlt_le_dec u p); [|]); try done; lra.
Qed.
Lemma drawn_edges_elem cycle p draws pairs k w : w ∈ drawn_edges cycle p draws k pairs →
  ∃ a b, (a, b) ∈ pairs ∧ w = plain_edge (NStr (pretty a)) (NStr (pretty b)) None PNone ∧ (cycle = true ∨ (a < b)%Z).
Proof.
  revert k. induction pairs as [|[a b] pairs IH]; intros k; simpl; [by intros ?%elem_of_nil|].
  intros [Hw|Hw]%elem_of_app; [|destruct (IH _ Hw) as (a' & b' & ? & ?); exists a', b'; split; [by right|done]].
  destruct (Qlt_le_dec _ _); [|by apply elem_of_nil in Hw]. destruct (cycle || (a <? b)%Z) eqn:E; [|by apply elem_of_nil in Hw].
  apply elem_of_list_singleton in Hw as ->. exists a, b. split; [left|]. split; [done|].
  apply orb_true_iff in E as [?|?%Z.ltb_lt]; auto.
Qed.
Lemma drawn_edges_all cycle p draws pairs k i a b : (∀ k, (draws k < p)%Q) → pairs !! i = Some (a, b) → cycle = true ∨ (a < b)%Z →
  plain_edge (NStr (pretty a)) (NStr (pretty b)) None PNone ∈ drawn_edges cycle p draws k pairs.
Proof.
  intros Hd. revert k i. induction pairs as [|[a' b'] pairs IH]; intros k [|i] Hi Hab; simplify_eq/=; apply elem_of_app.
  - left. destruct (Qlt_le_dec _ _) as [?|Hle]; [|pose proof (Hd k); lra].
    assert (cycle || (a <? b)%Z = true) as -> by (apply orb_true_iff; destruct Hab; [left|right; apply Z.ltb_lt]; done). left.
  - right. eauto.
Qed.
Lemma drawn_edges_none cycle p draws pairs k : (∀ k, (p <= draws k)%Q) → drawn_edges cycle p draws k pairs = [].
Proof.
  intros Hd. revert k. induction pairs as [|[a b] pairs IH]; intros k; [done|]. simpl. rewrite IH, app_nil_r.
  destruct (Qlt_le_dec _ _); [|done]. pose proof (Hd k). lra.
Qed.

Definition draw_step (g : gref) (cycle : bool) (p : Q) (draws : nat → Q) (k : nat) (ab : Z * Z) : M nat :=
  do* (if qltb (draws k) (clamp p) then
         if (cycle || (ab.1 <? ab.2)%Z)
         then do* connect g (AName (NStr (pretty ab.1))) (AName (NStr (pretty ab.2))) eargs0 in sret tt
         else sret tt
       else sret tt) in
  sret (Datatypes.S k).
Lemma random_draws w f g ns cycle p draws : (∀ k, (0 <= draws k)%Q ∧ (draws k < 1)%Q) → ∀ todo done_ k h es,
  built w f h g ns es → NoDup (done_ ++ todo) →
  (∀ e, e ∈ es → ∃ a b, (a, b) ∈ done_ ∧ e = plain_edge (NStr (pretty a)) (NStr (pretty b)) None PNone) →
  (∀ a b, (a, b) ∈ todo → NStr (pretty a) ∈ v_name <$> ns ∧ NStr (pretty b) ∈ v_name <$> ns) →
  ∃ h' k', sfold (draw_step g cycle p draws) k todo h = (h', Ok k') ∧ built w f h' g ns (es ++ drawn_edges cycle p draws k todo).
Proof.
  intros Hd. induction todo as [|[a b] todo IH]; intros done_ k h es Hb Hnd Hes Hns.
  { exists h, k. cbn. rewrite app_nil_r. done. }
  assert (Hdone : NoDup ((done_ ++ [(a, b)]) ++ todo)) by (by rewrite <-app_assoc).
  assert (Hskip : ∃ h' k', sfold (draw_step g cycle p draws) (Datatypes.S k) todo h = (h', Ok k') ∧ built w f h' g ns (es ++ drawn_edges cycle p draws (Datatypes.S k) todo)).
  { apply (IH (done_ ++ [(a, b)])); [done..| |].
    - intros e He. destruct (Hes e He) as (a' & b' & ? & ?). exists a', b'. rewrite elem_of_app. auto.
    - intros a' b' Hin. apply Hns. by right. }
  cbn [sfold drawn_edges]. unfold draw_step at 1. cbn [fst snd]. rewrite clamp_lt by apply Hd.
  destruct (Qlt_le_dec (draws k) p); [|rewrite sbind_assoc, !sret_bind; exact Hskip].
  destruct (cycle || (a <? b)%Z); [|rewrite sbind_assoc, !sret_bind; exact Hskip]. clear Hskip.
  destruct (Hns a b) as [Ha Hb']; [left|].
  destruct (built_connect_names w f h g ns es _ _ eargs0 Hb Ha Hb') as (h1 & Heq & Hb1 & _); [|done|].
  { intros (e & He & Hin)%elem_of_list_fmap. destruct (Hes e Hin) as (a' & b' & Hab & ->). unfold w_key in He. simpl in He.
    injection He as H1%(inj pretty) H2%(inj pretty). subst. apply NoDup_app in Hnd as (_ & Hnd & _). apply (Hnd (a', b')); [done|left]. }
  destruct (IH (done_ ++ [(a, b)]) (Datatypes.S k) h1 (es ++ [eview_of (NStr (pretty a)) (NStr (pretty b)) eargs0]) Hb1 Hdone) as (h2 & k2 & Heq2 & Hb2).
  { intros e [He| ->%elem_of_list_singleton]%elem_of_app.
    - destruct (Hes e He) as (a' & b' & ? & ?). exists a', b'. rewrite elem_of_app. auto.
    - exists a, b. split; [|done]. apply elem_of_app. right. left. }
  { intros a' b' Hin. apply Hns. by right. }
  exists h2, k2. rewrite !sbind_assoc, (sbind_step _ _ _ _ _ Heq), !sret_bind. split; [exact Heq2|]. by rewrite <-app_assoc in Hb2.
Qed.

Lemma built_add_all w f g : ∀ l h done_, built w f h g (plain_nodes done_) [] → NoDup (done_ ++ l) →
  ∃ h', siter (λ s, do* add_node g (AName (NStr s)) nargs0 in sret tt) l h = (h', Ok tt) ∧ built w f h' g (plain_nodes (done_ ++ l)) [].
Proof.
  induction l as [|s l IH]; intros h done_ Hb Hnd; [exists h; by rewrite app_nil_r|].
  destruct (built_add w f h g _ [] s nargs0 Hb) as (h1 & r & Heq & Hb1 & _); [|done|].
  { rewrite plain_name_in. intros Hin. apply NoDup_app in Hnd as (_ & Hnd & _). apply (Hnd s); [done|left]. }
  destruct (IH h1 (done_ ++ [s])) as (h2 & Heq2 & Hb2).
  { unfold plain_nodes. by rewrite fmap_app. }
  { by rewrite <-app_assoc. }
  exists h2. rewrite <-app_assoc in Hb2. split; [|exact Hb2].
  cbn [siter]. by rewrite sbind_assoc, (sbind_step _ _ _ _ _ Heq), sret_bind.
Qed.
Lemma siter_map {A C} (f : A → M unit) (u : C → A) l h : siter f (u <$> l) h = siter (λ x, f (u x)) l h.
Proof.
  revert h. induction l as [|x l IH]; intros h; [done|]. cbn [siter fmap list_fmap]. unfold sbind. destruct (f (u x) h) as [h1 [b1|]]; [apply IH|done].
Qed.
Lemma NoDup_prod {A B} (l : list A) (k : list B) : NoDup l → NoDup k → NoDup (list_prod l k).
Proof.
  intros Hl Hk. induction Hl as [|x l Hx Hl IH]; [constructor|]. cbn [list_prod]. apply NoDup_app. split_and!; [|intros p (y & <- & _)%elem_of_list_In%in_map_iff|done].
  - apply (NoDup_fmap_2 (λ y, (x, y)) k Hk).
  - intros [? _]%elem_of_list_In%in_prod_iff. by apply Hx, elem_of_list_In.
Qed.
Lemma NoDup_numbers n start : NoDup (numbers n start).
Proof. unfold numbers. apply NoDup_fmap_2_strong; [intros; lia|apply NoDup_seq]. Qed.
Lemma node_numbers_eq n start : node_numbers n start = numbers n start.
Proof. unfold node_numbers, numbers. apply map_ext. intros; lia. Qed.

(** C31.  Graph.random, for every outcome of the draws: the nodes are named by
    [num_nodes] consecutive integers, in order, and the edges are those of the
    pairs (first node, second node), taken row by row, whose draw is below the
    probability and that are permitted: all pairs with [cycle], otherwise those
    from a smaller to a larger number. *)
Lemma C31_random_proof : ∀ h d n strict cycle start p ord draws, reachable h → (∀ k, 0 <= draws k < 1)%Q →
  ∃ h', random_graph d n strict cycle start p ord draws h = (h', Ok (length (h_graphs h))) ∧
    shows h' (length (h_graphs h)) ((λ i, plain_node (pretty i) PNone) <$> numbers n start)
      (drawn_edges cycle p draws 0 (list_prod (numbers n start) (numbers n start))) ∧
    h_warns h' = h_warns h ∧ flags h' (length (h_graphs h)) = Some (strict, ord, Some d) ∧ extends h h'.
Proof.
  intros h d n strict cycle start p ord draws Hr Hd. pose proof (reachable_WF h Hr) as W.
  destruct (built_new h strict ord d W) as (h1 & Heq1 & Hb1). set (g := length (h_graphs h)) in *.
  destruct (built_add_all _ _ g (pretty <$> numbers n start) h1 [] Hb1) as (h2 & Heq2 & Hb2).
  { apply NoDup_fmap_2; [apply _|apply NoDup_numbers]. }
  rewrite siter_map in Heq2. cbn [app] in Hb2.
  destruct (random_draws _ _ g _ cycle p draws Hd (list_prod (numbers n start) (numbers n start)) [] 0 h2 [] Hb2) as (h3 & k & Heq3 & Hb3).
  { apply NoDup_prod; apply NoDup_numbers. }
  { by intros ? ?%elem_of_nil. }
  { intros a b Hab%elem_of_list_In%in_prod_iff. rewrite <-!elem_of_list_In in Hab. destruct Hab.
    split; apply plain_name_in, elem_of_list_fmap; eauto. }
  assert (random_graph d n strict cycle start p ord draws h = (h3, Ok g)) as Heq.
  { unfold random_graph. rewrite node_numbers_eq, (sbind_step _ _ _ _ _ Heq1). cbv zeta. rewrite (sbind_step _ _ _ _ _ Heq2).
    unfold draw_step in Heq3. erewrite sbind_step; [reflexivity|]. rewrite <-Heq3.
    exact (sfold_prod (λ k n1 n2, do* (if qltb (draws k) (clamp p) then
                 if (cycle || (n1 <? n2)%Z)
                 then do* connect g (AName (NStr (pretty n1))) (AName (NStr (pretty n2))) eargs0 in sret tt
                 else sret tt
               else sret tt) in
          sret (Datatypes.S k)) (numbers n start) (numbers n start) 0 h2). }
  exists h3. split; [exact Heq|]. destruct Hb3 as (_ & Hs & Hw & Hf). split_and!; try done.
  - unfold plain_nodes in Hs. by rewrite <-list_fmap_compose in Hs.
  - pose proof (makes_extends h (CRandom d n strict cycle start p ord draws) W I eq_refl) as He. simpl in He. by rewrite Heq in He.
Qed.

(** Reading the edges off [shows]. *)
Lemma shows_joins h g ns es e x y : WF h → shows h g ns es → joins h g e x y →
  ∃ w, w ∈ es ∧ named h g (w_from w) x ∧ named h g (w_to w) y.
Proof.
  intros W Hs Hj. destruct (shows_all_edges h g ns es e x y W Hs Hj) as (w & Hw & E & s & t & HE & (E1 & HE1 & _ & Hs1 & Ht1) & Hn1 & Hn2 & _).
  destruct Hj as (E2 & HE2 & _ & Hs2 & Ht2). exists w. simplify_eq. done.
Qed.
Lemma named_name h g k1 k2 r : WF h → named h g k1 r → named h g k2 r → k1 = k2.
Proof.
  intros W (G & HG & H1) H2. destruct (wf_gnodes _ W g G k1 r HG H1) as (N & HN & Hid & _).
  destruct (named_id h g k2 r N W H2 HN). congruence.
Qed.
(** A numbering of the names that grows along every edge excludes cycles. *)
Lemma shows_acyclic h g ns es (rank : name → Z) : WF h → shows h g ns es →
  (∀ w, w ∈ es → (rank (w_from w) < rank (w_to w))%Z) → acyclic h g.
Proof.
  intros W Hs Hrank.
  assert (Hp : ∀ x y, path h g x y → ∃ k1 k2, named h g k1 x ∧ named h g k2 y ∧ (rank k1 < rank k2)%Z).
  { intros x y Hp. induction Hp as [x y [e Hj]|x y z [e Hj] _ (k1 & k2 & Hk1 & Hk2 & Hlt)].
    - destruct (shows_joins h g ns es e x y W Hs Hj) as (w & Hw & Hx & Hy). exists (w_from w), (w_to w). split_and!; auto.
    - destruct (shows_joins h g ns es e x y W Hs Hj) as (w & Hw & Hx & Hy). exists (w_from w), k2. split_and!; try done.
      specialize (Hrank w Hw). assert (w_to w = k1) as Heqk by (eapply named_name; eauto). rewrite Heqk in Hrank. lia. }
  intros x Hc. destruct (Hp x x Hc) as (k1 & k2 & Hk1 & Hk2 & Hlt). assert (k1 = k2) as -> by (eapply named_name; eauto). lia.
Qed.

(** the number a name stands for *)
Lemma rank_exists (l : list Z) : ∃ rank : name → Z, ∀ a, a ∈ l → rank (NStr (pretty a)) = a.
Proof.
  induction l as [|a l [rank IH]]; [exists (λ _, 0%Z); by intros ? ?%elem_of_nil|].
  exists (λ k, if decide (k = NStr (pretty a)) then a else rank k). intros b Hb.
  destruct (decide (NStr (pretty b) = NStr (pretty a))) as [[= He%(inj pretty)]|Hne]; [done|].
  apply elem_of_cons in Hb as [->|Hb]; [done|auto].
Qed.
(** C31.  Hence, without [cycle], the graph has no directed cycle. *)
Lemma C31_acyclic_proof : ∀ h d n strict start p ord draws h' g, reachable h → (∀ k, 0 <= draws k < 1)%Q →
  random_graph d n strict false start p ord draws h = (h', Ok g) → acyclic h' g.
Proof.
  intros h d n strict start p ord draws h' g Hr Hd Heq.
  destruct (C31_random_proof h d n strict false start p ord draws Hr Hd) as (h1 & Heq1 & Hs & _).
  rewrite Heq in Heq1. injection Heq1 as -> ->.
  assert (reachable h1) as Hr1.
  { assert (h1 = after (CRandom d n strict false start p ord draws) h) as -> by (simpl; by rewrite Heq). by apply reach_call. }
  destruct (rank_exists (numbers n start)) as [rank Hrank].
  eapply (shows_acyclic h1 _ _ _ rank (reachable_WF _ Hr1) Hs).
  intros w Hw. destruct (drawn_edges_elem _ _ _ _ _ _ Hw) as (a & b & Hab%elem_of_list_In%in_prod_iff & -> & [?|Hlt]); [done|].
  rewrite <-!elem_of_list_In in Hab. destruct Hab. cbn. by rewrite !Hrank.
Qed.
(** C31.  With a probability of at most 0 there is no edge; with one of at least 1
    there is an edge between every permitted pair of nodes. *)
Lemma C31_extremes_proof : ∀ h d n strict cycle start p ord draws h' g, reachable h → (∀ k, 0 <= draws k < 1)%Q →
  random_graph d n strict cycle start p ord draws h = (h', Ok g) →
  ((p <= 0)%Q → ∀ e x y, ¬ joins h' g e x y) ∧
  ((1 <= p)%Q → ∀ a b, a ∈ numbers n start → b ∈ numbers n start → cycle = true ∨ (a < b)%Z →
     ∃ e x y, named h' g (NStr (pretty a)) x ∧ named h' g (NStr (pretty b)) y ∧ joins h' g e x y).
Proof.
  intros h d n strict cycle start p ord draws h' g Hr Hd Heq.
  destruct (C31_random_proof h d n strict cycle start p ord draws Hr Hd) as (h1 & Heq1 & Hs & _).
  rewrite Heq in Heq1. injection Heq1 as -> ->.
  assert (reachable h1) as Hr1.
  { assert (h1 = after (CRandom d n strict cycle start p ord draws) h) as -> by (simpl; by rewrite Heq). by apply reach_call. }
  pose proof (reachable_WF _ Hr1) as W1. split.
  - intros Hp e x y Hj. rewrite drawn_edges_none in Hs by (intros k; destruct (Hd k); lra).
    destruct (shows_joins _ _ _ _ _ _ _ W1 Hs Hj) as (w & ?%elem_of_nil & _). done.
  - intros Hp a b Ha Hb Hab. assert ((a, b) ∈ list_prod (numbers n start) (numbers n start)) as [i Hi]%elem_of_list_lookup.
    { apply elem_of_list_In, in_prod_iff. by rewrite <-!elem_of_list_In. }
    assert (∀ k, draws k < p)%Q as Hlt by (intros k; destruct (Hd k); lra).
    pose proof (drawn_edges_all cycle p draws _ 0 i a b Hlt Hi Hab) as Hin.
    destruct (shows_edge _ _ _ _ _ Hs Hin) as (e & E & x & y & HE & Hj & Hx & Hy & _). eauto 10.
Qed.
(** Three nodes and alternating draws: one edge. *)
Lemma C31_random_ex_proof : reachable sample ∧ (∀ k, 0 <= (if Nat.even k then 1#4 else 3#4) < 1)%Q ∧
  numbers 3 1 = [1; 2; 3]%Z ∧
  drawn_edges false (1#2) (λ k, if Nat.even k then 1#4 else 3#4)%Q 0 (list_prod [1; 2; 3]%Z [1; 2; 3]%Z) =
    [plain_edge (nm "1") (nm "3") None PNone].
Proof. split; [apply sample_reachable|]. split; [intros k; destruct (Nat.even k); lra|]. by vm_compute. Qed.
