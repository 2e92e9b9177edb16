(** from_object with names as hashes (C28). *)
From Verif Require Export ProofBuild ProofDfs ProofC11.
Local Open Scope list_scope.

(** * An object graph *)
(** Every listed object is next to [o] or to an object listed before it. *)
Definition from_earlier {Obj} (next : Obj → list Obj) (K L : list Obj) : Prop :=
  ∀ l1 x l2, L = l1 ++ x :: l2 → ∃ p, p ∈ K ++ l1 ∧ x ∈ next p.

Section order.
  Context {Obj : Type} `{EqDecision Obj} (next : Obj → list Obj).
  Implicit Types (o c x y : Obj) (L T cs des sub acc K : list Obj).
  Lemma from_earlier_mono K K' L : (∀ x, x ∈ K → x ∈ K') → from_earlier next K L → from_earlier next K' L.
  Proof. intros HK HL l1 x l2 Heq. destruct (HL l1 x l2 Heq) as (p & [Hp|Hp]%elem_of_app & Hx); exists p; rewrite elem_of_app; auto. Qed.
  Lemma from_earlier_snoc K L x p : from_earlier next K L → p ∈ K ++ L → x ∈ next p → from_earlier next K (L ++ [x]).
  Proof.
    intros HL Hp Hx l1 y l2 Heq. induction l2 as [|z l2' _] using rev_ind.
    - apply app_inj_tail in Heq as [-> ->]. eauto.
    - rewrite app_comm_cons, app_assoc in Heq. apply app_inj_tail in Heq as [-> _]. by apply (HL l1 y l2').
  Qed.
  Lemma from_earlier_add K L x p : from_earlier next K L → p ∈ K ++ L → x ∈ next p → from_earlier next K (add_new L x).
  Proof. intros ???. unfold add_new. destruct (decide _); [done|]. by eapply from_earlier_snoc. Qed.
  Lemma from_earlier_tail K x L : from_earlier next K (x :: L) → from_earlier next (K ++ [x]) L.
  Proof. intros HL l1 y l2 ->. destruct (HL (x :: l1) y l2 eq_refl) as (p & Hp & Hy). exists p. by rewrite <-app_assoc. Qed.
  Lemma from_earlier_fold o sub K acc : from_earlier next [o] acc → from_earlier next K sub → (∀ x, x ∈ K → x ∈ o :: acc) →
    from_earlier next [o] (fold_left add_new sub acc).
  Proof.
    revert K acc. induction sub as [|x sub IH]; intros K acc Ha Hs HK; simpl; [done|].
    destruct (Hs [] x sub eq_refl) as (p & Hp & Hx). rewrite app_nil_r in Hp.
    apply (IH (K ++ [x])).
    - eapply from_earlier_add; [done| |exact Hx]. by apply HK.
    - by apply from_earlier_tail.
    - intros y [Hy| ->%elem_of_list_singleton]%elem_of_app; apply elem_of_cons.
      + apply HK, elem_of_cons in Hy as [->|Hy]; [by left|]. right. apply elem_of_add_new. by left.
      + right. apply elem_of_add_new. by right.
  Qed.
  Lemma gloop_earlier rec o cs des dd T L D T' : (∀ c T L D T', rec c T = Ok (L, D, T') → from_earlier next [c] L) →
    (∀ c, c ∈ cs → c ∈ next o) → from_earlier next [o] des →
    gloop false rec cs des dd T = Ok (L, D, T') → from_earlier next [o] L.
  Proof.
    intros Hrec. revert des dd T. induction cs as [|c cs IH]; intros des dd T Hcs Hdes; simpl; [by intros [= <- _ _]|].
    destruct (obj_in c T); [apply IH; [intros; apply Hcs; by right|done]|].
    destruct (rec c T) as [[[ca cd] T1]|] eqn:Hc; [|done]. simpl. apply IH; [intros; apply Hcs; by right|].
    rewrite obj_merge_list, add_first_list. apply (from_earlier_fold o ca [c]).
    - eapply from_earlier_add; [done| |apply Hcs; left]. apply elem_of_app. left. left.
    - by eapply Hrec.
    - intros x ->%elem_of_list_singleton. right. apply elem_of_add_new. by right.
  Qed.
  Lemma gdfs_earlier fuel o T L D T' : gdfs false fuel next o T = Ok (L, D, T') → from_earlier next [o] L.
  Proof.
    revert o T L D T'. induction fuel as [|fuel IH]; intros o T L D T'; [done|]. cbn [gdfs].
    destruct (next o) as [|c cs] eqn:Ho; [intros [= <- _ _] [] ? ? [=]|].
    intros Hg. eapply gloop_earlier; [exact IH| | |exact Hg]; [by rewrite Ho|]. intros [] ? ? [=].
  Qed.
  Lemma obj_relatives_earlier fuel o L : obj_relatives fuel next None o = Ok L → from_earlier next [o] L.
  Proof.
    unfold obj_relatives. rewrite obj_dfs_gdfs. destruct (gdfs _ _ _ _ _) as [[[L' D] T]|] eqn:Hg; [|done].
    intros [= <-]. by eapply gdfs_earlier.
  Qed.
End order.

(** * Naming again, with the default mode *)
Lemma WF_warn h w : WF h → WF (h <| h_warns := w |>).
Proof. intros []. by constructor. Qed.
Lemma put_node_warns' h r N N' w : h_nodes h !! r = Some N → N' = N → put_node h r N' [] w = h <| h_warns := h_warns h ++ w |>.
Proof. intros HN ->. apply heap_eq; cbn; rewrite ?app_nil_r; try done. by apply list_insert_id. Qed.
Lemma put_edge_warns' h r N N' w : h_edges h !! r = Some N → N' = N → put_edge h r N' [] w = h <| h_warns := h_warns h ++ w |>.
Proof. intros HN ->. apply heap_eq; cbn; rewrite ?app_nil_r; try done. by apply list_insert_id. Qed.
Lemma again_node w f h g ns es s l : built w f h g ns es → plain_node s (PStr l) ∈ ns →
  ∃ w' h' r, add_node g (AName (NStr s)) (nargs0 <| a_label := PStr l |>) h = (h', Ok (Some r)) ∧ built w' f h' g ns es.
Proof.
  intros (W & Hs & Hw & Hf) Hin. destruct (shows_view h g ns es _ Hs Hin) as (r & Hr & N & HN & HgN & Hid & Hl & Hv & _). cbn in Hr, Hid, Hl, Hv.
  rewrite (add_node_existing_spec h g s _ r N) by done.
  change (lenient (a_mode (nargs0 <| a_label := PStr l |>))) with true. cbv iota.
  exists (h_warns h ++ [WNode (NStr s)]), (h <| h_warns := h_warns h ++ [WNode (NStr s)] |>), r. split.
  - unfold node_updated. cbn -[put_node]. rewrite andb_false_r. rewrite (put_node_warns' h r N); [done..|].
    destruct N; cbn in *; by subst.
  - split; [by apply WF_warn|]. split_and!; done.
Qed.
Lemma again_edge w f h g ns es a b : built w f h g ns es → plain_edge a b None PNone ∈ es →
  ∃ w' h' e, connect g (AName a) (AName b) eargs0 h = (h', Ok e) ∧ built w' f h' g ns es.
Proof.
  intros (W & Hs & Hw & Hf) Hin. destruct (shows_edge h g ns es _ Hs Hin) as (e & E & s & t & HE & Hj & Hn1 & Hn2 & Hraw & Hl & Hv & _). cbn in Hn1, Hn2, Hraw, Hl, Hv.
  destruct (joins_in_graph h g e s t W Hj) as [(G & k & HG & Hk) (G' & k' & HG' & Hk')].
  destruct (wf_gnodes _ W g G k s HG Hk) as (Ns & HNs & _). destruct (wf_gnodes _ W g G' k' t HG' Hk') as (Nt & HNt & _).
  rewrite (connect_existing_spec h g (AName a) (AName b) eargs0 s t Ns Nt e E) by (done || by apply named_denotes).
  change (lenient (c_mode eargs0)) with true. cbv iota.
  set (W1 := WEdge (n_id Ns, n_id Nt, RId (c_id eargs0))).
  exists (h_warns h ++ [W1]), (h <| h_warns := h_warns h ++ [W1] |>), e. split.
  - unfold edge_updated. cbn -[put_edge]. rewrite andb_false_r. rewrite (put_edge_warns' h e E); [done..|].
    destruct E; cbn in *; by subst.
  - split; [by apply WF_warn|]. split_and!; done.
Qed.

(** * The loops *)
Lemma siter_app' {A} (f : A → M unit) l k h : siter f (l ++ k) h = (do* siter f l in siter f k) h.
Proof.
  revert h. induction l as [|x l IH]; intros h; [done|]. cbn. unfold sbind at 1 2 3. destruct (f x h) as [h1 [[]|]]; [|done]. apply IH.
Qed.
Lemma siter_flat {A B} (f : B → M unit) (k : A → list B) l h : siter (λ x, siter f (k x)) l h = siter f (l ≫= k) h.
Proof.
  revert h. induction l as [|x l IH]; intros h; [done|]. rewrite bind_cons, siter_app'. cbn. unfold sbind.
  destruct (siter f (k x) h) as [h1 [[]|]]; [|done]. apply IH.
Qed.
Lemma siter_ext' {A} (f f' : A → M unit) l h : (∀ x h, f x h = f' x h) → siter f l h = siter f' l h.
Proof.
  intros Hf. revert h. induction l as [|x l IH]; intros h; [done|]. cbn. unfold sbind. rewrite Hf. destruct (f' x h) as [h1 [[]|]]; [|done]. apply IH.
Qed.
Lemma siter_filter {A B} (P : A → Prop) `{!∀ x, Decision (P x)} (f : B → M unit) (k : A → B) l h :
  siter (λ x, if bool_decide (P x) then f (k x) else sret tt) l h = siter f (k <$> filter P l) h.
Proof.
  revert h. induction l as [|x l IH]; intros h; [done|]. rewrite filter_cons. cbn. unfold sbind at 1.
  destruct (decide (P x)) as [Hx|Hx].
  - rewrite bool_decide_true by done. cbn. unfold sbind. destruct (f (k x) h) as [h1 [[]|]]; [|done]. apply IH.
  - rewrite bool_decide_false by done. cbn. apply IH.
Qed.
Lemma bind_split {A B} (F : A → list B) (xs : list A) l1 y l2 : xs ≫= F = l1 ++ y :: l2 →
  ∃ a x b k1 k2, xs = a ++ x :: b ∧ F x = k1 ++ y :: k2 ∧ l1 = (a ≫= F) ++ k1.
Proof.
  revert l1. induction xs as [|x xs IH]; intros l1 Heq; [by destruct l1|]. rewrite bind_cons in Heq.
  apply app_eq_inv in Heq as [(k & Hk & Heq)|(k & Hk & Heq)].
  - destruct k as [|z k].
    + destruct (IH [] (eq_sym Heq)) as (a & x' & b & k1 & k2 & -> & HF & Hl). exists (x :: a), x', b, k1, k2. by rewrite bind_cons, <-app_assoc, <-Hl, Hk, !app_nil_r.
    + injection Heq as -> Heq. exists [], x, xs, l1, k. done.
  - subst l1. destruct (IH k Heq) as (a & x' & b & k1 & k2 & -> & HF & ->). exists (x :: a), x', b, k1, k2. by rewrite bind_cons, app_assoc.
Qed.

Section from.
  Context {Obj : Type} `{EqDecision Obj}.
  Variables (children parents : Obj → list Obj) (hs ostr : Obj → string).
  Hypothesis hs_inj : ∀ x y, hs x = hs y → x = y.
  Implicit Types (os des anc : list Obj) (ps : list (Obj * Obj)).
  Local Notation onode := (λ o, plain_node (hs o) (PStr (ostr o))).
  Local Notation oedge := (λ xy : Obj * Obj, plain_edge (NStr (hs xy.1)) (NStr (hs xy.2)) None PNone).
  Local Notation add o g := (add_node g (AName (NStr (hs o))) (nargs0 <| a_label := PStr (ostr o) |>)).
  Definition step_obj (g : gref) (t : Obj * (Obj * Obj)) : M unit :=
    do* add t.1 g in do* connect g (AName (NStr (hs t.2.1))) (AName (NStr (hs t.2.2))) eargs0 in sret tt.

  Lemma onode_in os o : NStr (hs o) ∈ v_name <$> (onode <$> os) ↔ o ∈ os.
  Proof.
    rewrite <-list_fmap_compose, elem_of_list_fmap. split; [|intros Ho; by exists o].
    intros (o' & Heq & Ho'). cbn in Heq. injection Heq as Heq. by apply hs_inj in Heq as <-.
  Qed.
  Lemma oedge_in ps x y : (NStr (hs x), NStr (hs y), RId None) ∈ w_key <$> (oedge <$> ps) ↔ (x, y) ∈ ps.
  Proof.
    rewrite <-list_fmap_compose, elem_of_list_fmap. split; [|intros Ho; by exists (x, y)].
    intros ([x' y'] & Heq & Ho'). cbn in Heq. injection Heq as H1 H2. by apply hs_inj in H1 as <-, H2 as <-.
  Qed.
  Lemma add_obj w f h g os ps o : built w f h g (onode <$> os) (oedge <$> ps) →
    ∃ w' h' r, add o g h = (h', Ok (Some r)) ∧ built w' f h' g (onode <$> add_new os o) (oedge <$> ps).
  Proof.
    intros Hb. unfold add_new. destruct (decide (o ∈ os)) as [Ho|Ho].
    - eapply again_node; [exact Hb|]. apply elem_of_list_fmap. by exists o.
    - destruct (built_add w f h g _ _ (hs o) (nargs0 <| a_label := PStr (ostr o) |>) Hb) as (h' & r & Heq & Hb' & _); [by rewrite onode_in|done|].
      exists w, h', r. split; [done|]. by rewrite fmap_app.
  Qed.
  Lemma connect_obj w f h g os ps x y : built w f h g (onode <$> os) (oedge <$> ps) → x ∈ os → y ∈ os →
    ∃ w' h' e, connect g (AName (NStr (hs x))) (AName (NStr (hs y))) eargs0 h = (h', Ok e) ∧ built w' f h' g (onode <$> os) (oedge <$> add_new ps (x, y)).
  Proof.
    intros Hb Hx Hy. unfold add_new. destruct (decide ((x, y) ∈ ps)) as [Ho|Ho].
    - eapply again_edge; [exact Hb|]. apply elem_of_list_fmap. by exists (x, y).
    - destruct (built_connect_names w f h g _ _ (NStr (hs x)) (NStr (hs y)) eargs0 Hb) as (h' & Heq & Hb' & _); try done; [by apply onode_in..|by rewrite oedge_in|].
      eexists w, h', _. split; [exact Heq|]. by rewrite fmap_app.
  Qed.
  Lemma steps_obj g ts : ∀ w f h os ps, built w f h g (onode <$> os) (oedge <$> ps) →
    (∀ l1 t l2, ts = l1 ++ t :: l2 → t.2.1 ∈ os ++ l1.*1 ++ [t.1] ∧ t.2.2 ∈ os ++ l1.*1 ++ [t.1]) →
    ∃ w' h', siter (step_obj g) ts h = (h', Ok tt) ∧ built w' f h' g (onode <$> fold_left add_new ts.*1 os) (oedge <$> fold_left add_new ts.*2 ps).
  Proof.
    induction ts as [|t ts IH]; intros w f h os ps Hb Hok; [by exists w, h|].
    destruct (add_obj w f h g os ps t.1 Hb) as (w1 & h1 & r & H1 & Hb1).
    destruct (Hok [] t ts eq_refl) as [Ha Hc]. cbn in Ha, Hc.
    assert (Hmem : ∀ o, o ∈ os ++ [t.1] → o ∈ add_new os t.1).
    { intros o. rewrite elem_of_add_new, elem_of_app, elem_of_list_singleton. done. }
    destruct (connect_obj w1 f h1 g (add_new os t.1) ps t.2.1 t.2.2 Hb1) as (w2 & h2 & e & H2 & Hb2); [by apply Hmem..|].
    destruct (IH w2 f h2 _ _ Hb2) as (w3 & h3 & H3 & Hb3).
    { intros l1 t' l2 ->. destruct (Hok (t :: l1) t' l2 eq_refl) as [H4 H5]. revert H4 H5. cbn.
      repeat rewrite ?elem_of_app, ?elem_of_add_new, ?elem_of_cons. tauto. }
    exists w3, h3. split; [|by destruct t as [? []]]. cbn. unfold sbind at 1. unfold step_obj at 1. unfold sbind. rewrite H1, H2. exact H3.
  Qed.

  (** The forest. *)
  Variables (U : list Obj) (obj : Obj).
  Hypothesis conv : ∀ x y, y ∈ children x ↔ x ∈ parents y.
  Hypothesis single : ∀ x y z, x ∈ parents z → y ∈ parents z → x = y.
  Hypothesis acyc : ∀ x, ¬ tc (λ x y, y ∈ children x) x x.
  Local Notation C := (λ x y, y ∈ children x).
  Local Notation P := (λ x y, y ∈ parents x).
  Lemma tc_conv x y : tc P x y ↔ tc C y x.
  Proof.
    split.
    - induction 1 as [x y H|x y z H _ IH]; [apply tc_once; by apply conv|]. eapply tc_r; [exact IH|]. by apply conv.
    - induction 1 as [x y H|x y z H _ IH]; [apply tc_once; by apply conv|]. eapply tc_r; [exact IH|]. by apply conv.
  Qed.
  Lemma steps_fun n x y z : nsteps P n x y → nsteps P n x z → y = z.
  Proof.
    intros Hy. revert z. induction Hy as [x|n x y0 y Hx _ IH]; intros z Hz; inversion Hz; subst; [done|].
    apply IH. by rewrite (single y0 y1 x).
  Qed.
  Lemma steps_acyc n m x y : nsteps P n x y → nsteps P m x y → n = m.
  Proof.
    assert (∀ n d x y, nsteps P n x y → ¬ nsteps P (n + S d) x y) as H.
    { intros n' d x' y' H1 H2. apply nsteps_add_inv in H2 as (z & H2 & H3). assert (z = y') as -> by by eapply steps_fun.
      apply (acyc y'). apply tc_conv, tc_nsteps. exists (S d). split; [lia|done]. }
    intros Hn Hm. destruct (Nat.lt_trichotomy n m) as [Hlt|[?|Hlt]]; [|done|].
    - destruct (H n (m - n - 1) x y Hn). by replace (n + S (m - n - 1)) with m by lia.
    - destruct (H m (n - m - 1) x y Hm). by replace (m + S (n - m - 1)) with n by lia.
  Qed.
  Lemma anc_steps anc : NoDup anc → from_earlier parents [obj] anc → ∀ k a, anc !! k = Some a → nsteps P (S k) obj a.
  Proof.
    intros Hnd He k. induction (lt_wf k) as [k _ IH]. intros a Ha.
    destruct (He (take k anc) a (drop (S k) anc)) as (p & Hp & Hap); [symmetry; by apply take_drop_middle|].
    assert (∃ m, m ≤ k ∧ nsteps P m obj p) as (m & Hm & Hst).
    { cbn in Hp. apply elem_of_cons in Hp as [->|[i Hi]%elem_of_list_lookup]; [exists 0; split; [lia|constructor]|].
      apply lookup_take_Some in Hi as [Hi Hik]. exists (S i). split; [lia|]. by apply IH. }
    assert (nsteps P (S m) obj a) as Hst' by (eapply nsteps_r; [exact Hst|done]). destruct (decide (m = k)) as [->|Hne]; [done|].
    assert (is_Some (anc !! m)) as [b Hb]. { apply lookup_lt_is_Some. apply lookup_lt_Some in Ha. lia. }
    assert (b = a) as ->. { eapply (steps_fun (S m)); [apply IH; [lia|done]|done]. }
    destruct Hne. by eapply NoDup_lookup.
  Qed.

  Lemma from_object_forest h d strict fuel : WF h → obj ∈ U → (∀ x y, x ∈ U → y ∈ children x ∨ y ∈ parents x → y ∈ U) → length U ≤ fuel →
    ∃ h' os ps, from_object children parents (λ o, NStr (hs o)) ostr fuel d obj strict None None h = (h', Ok (length (h_graphs h))) ∧
      shows h' (length (h_graphs h)) (onode <$> os) (oedge <$> ps) ∧ flags h' (length (h_graphs h)) = Some (strict, true, Some d) ∧
      NoDup os ∧ NoDup ps ∧ (∀ x, x ∈ os ↔ x = obj ∨ tc C obj x ∨ tc C x obj) ∧ (∀ x y, (x, y) ∈ ps ↔ y ∈ children x ∧ x ∈ os ∧ y ∈ os).
  Proof.
    intros W Ho HU Hf.
    destruct (gdfs_top children false U (λ x y Hx Hy, HU x y Hx (or_introl Hy)) fuel obj Ho Hf) as (des & D1 & T1 & Hd & Hdn & _ & Hdi & _).
    destruct (gdfs_top parents false U (λ x y Hx Hy, HU x y Hx (or_intror Hy)) fuel obj Ho Hf) as (anc & D2 & T2 & Ha & Han & _ & Hai & _).
    assert (Hd' : obj_relatives fuel children None obj = Ok des) by (unfold obj_relatives; by rewrite obj_dfs_gdfs, Hd).
    assert (Ha' : obj_relatives fuel parents None obj = Ok anc) by (unfold obj_relatives; by rewrite obj_dfs_gdfs, Ha).
    pose proof (obj_relatives_earlier children fuel obj des Hd') as Hde.
    pose proof (obj_relatives_earlier parents fuel obj anc Ha') as Hae.
    pose proof (anc_steps anc Han Hae) as Hast.
    set (F1 := λ c, (λ p, (c, (p, c))) <$> filter (λ p, p ∈ obj :: des) (parents c)).
    set (F2 := λ p, (λ c, (p, (p, c))) <$> filter (λ c, c ∈ obj :: anc) (children p)).
    assert (E1 : ∀ c, c ∈ des → ∃ p, (c, (p, c)) ∈ F1 c).
    { intros c (l1 & l2 & Heq)%elem_of_list_split. destruct (Hde l1 c l2 Heq) as (p & Hp & Hc). exists p.
      apply elem_of_list_fmap. exists p. split; [done|]. apply elem_of_list_filter. split; [|by apply conv].
      subst des. revert Hp. rewrite !elem_of_app, !elem_of_cons, elem_of_app, elem_of_nil. tauto. }
    assert (E2 : ∀ p, p ∈ anc → ∃ c, (p, (p, c)) ∈ F2 p).
    { intros p (l1 & l2 & Heq)%elem_of_list_split. destruct (Hae l1 p l2 Heq) as (c & Hp & Hc). exists c.
      apply elem_of_list_fmap. exists c. split; [done|]. apply elem_of_list_filter. split; [|by apply conv].
      subst anc. revert Hp. rewrite !elem_of_app, !elem_of_cons, elem_of_app, elem_of_nil. tauto. }
    assert (M1 : ∀ l c, (∀ c, c ∈ l → c ∈ des) → c ∈ (l ≫= F1).*1 ↔ c ∈ l).
    { intros l c Hl. rewrite elem_of_list_fmap. split.
      - intros ([c' xy] & -> & (c0 & (p & [= -> ->] & _)%elem_of_list_fmap & Hc)%elem_of_list_bind). done.
      - intros Hc. destruct (E1 c (Hl c Hc)) as [p Hp]. exists (c, (p, c)). split; [done|]. apply elem_of_list_bind. by exists c. }
    assert (M2 : ∀ l c, (∀ c, c ∈ l → c ∈ anc) → c ∈ (l ≫= F2).*1 ↔ c ∈ l).
    { intros l c Hl. rewrite elem_of_list_fmap. split.
      - intros ([c' xy] & -> & (c0 & (p & [= -> ->] & _)%elem_of_list_fmap & Hc)%elem_of_list_bind). done.
      - intros Hc. destruct (E2 c (Hl c Hc)) as [p Hp]. exists (c, (c, p)). split; [done|]. apply elem_of_list_bind. by exists c. }
    unfold from_object. destruct (built_new h strict true d W) as (h0 & H0 & Hb0). unfold sbind at 1. rewrite H0.
    set (g := length (h_graphs h)) in *. set (f := Some (strict, true, Some d)) in *.
    destruct (add_obj (h_warns h) f h0 g [] [] obj Hb0) as (w1 & h1 & r & H1 & Hb1). unfold sbind at 1. rewrite H1.
    unfold sbind at 1. unfold sread at 1. rewrite Hd'. unfold sbind at 1. unfold sread at 1. rewrite Ha'.
    destruct (steps_obj g (des ≫= F1) w1 f h1 [obj] [] Hb1) as (w2 & h2 & H2 & Hb2).
    { intros l1 t l2 (a & c & b & k1 & k2 & Heq & HF & ->)%bind_split.
      assert (t ∈ F1 c) as (p & -> & [Hp Hpc]%elem_of_list_filter)%elem_of_list_fmap by (rewrite HF; apply elem_of_app; right; left).
      cbn. split; [|rewrite elem_of_cons, !elem_of_app, elem_of_list_singleton; tauto].
      destruct (Hde a c b Heq) as (p' & Hp' & Hc). apply conv in Hc. rewrite (single p p' c) by done.
      rewrite elem_of_cons, fmap_app, !elem_of_app. cbn in Hp'. apply elem_of_cons in Hp' as [->|Hp']; [by left|]. right. left. left.
      apply M1; [|done]. intros x Hx. rewrite Heq. apply elem_of_app. by left. }
    destruct (steps_obj g (anc ≫= F2) w2 f h2 _ _ Hb2) as (w3 & h3 & H3 & Hb3).
    { intros l1 t l2 (a & p & b & k1 & k2 & Heq & HF & ->)%bind_split.
      assert (t ∈ F2 p) as (c & -> & [Hp Hpc]%elem_of_list_filter)%elem_of_list_fmap by (rewrite HF; apply elem_of_app; right; left).
      cbn. split; [rewrite !elem_of_app, elem_of_list_singleton; tauto|].
      rewrite elem_of_app, elem_of_fold_add_new, elem_of_list_singleton. apply elem_of_cons in Hp as [->|Hp]; [by left; left|].
      right. rewrite fmap_app, !elem_of_app. left. left. apply M2; [intros x Hx; rewrite Heq; apply elem_of_app; by left|].
      apply elem_of_list_lookup in Hp as [j Hj]. pose proof (Hast j c Hj) as Hcj.
      assert (nsteps P (S (S j)) obj p) as Hpj by (eapply nsteps_r; [exact Hcj|]; by apply conv).
      assert (nsteps P (S (length a)) obj p) as Hpa by (apply Hast; rewrite Heq; by apply list_lookup_middle).
      pose proof (steps_acyc _ _ _ _ Hpj Hpa) as [= Hlen]. rewrite Heq in Hj. rewrite lookup_app_l in Hj by lia. by eapply elem_of_list_lookup_2. }
    set (os := fold_left _ _ _) in Hb3. set (ps := fold_left _ _ _) in Hb3. exists h3, os, ps.
    assert (Hos : ∀ x, x ∈ os ↔ x = obj ∨ x ∈ des ∨ x ∈ anc).
    { intros x. unfold os. rewrite !elem_of_fold_add_new, elem_of_list_singleton, M1, M2 by done. tauto. }
    split_and!.
    - unfold sbind at 1. rewrite (siter_ext' _ (λ c, siter (step_obj g) (F1 c))).
      2:{ intros c hh. unfold F1. by rewrite <-(siter_filter (λ p, p ∈ obj :: des) (step_obj g) (λ p, (c, (p, c)))). }
      rewrite siter_flat, H2.
      unfold sbind at 1. rewrite (siter_ext' _ (λ p, siter (step_obj g) (F2 p))).
      2:{ intros c hh. unfold F2. by rewrite <-(siter_filter (λ p, p ∈ obj :: anc) (step_obj g) (λ p, (c, (c, p)))). }
      rewrite siter_flat, H3. done.
    - apply Hb3.
    - apply Hb3.
    - apply NoDup_fold_add_new, NoDup_fold_add_new, NoDup_singleton.
    - apply NoDup_fold_add_new, NoDup_fold_add_new, NoDup_nil_2.
    - intros x. rewrite Hos, Hdi, Hai. rewrite tc_conv. split; [naive_solver|].
      intros [->|[Hx|Hx]]; [by left|..]; (destruct (decide (x = obj)) as [->|]; [by left|]); right; [left|right]; done.
    - intros x y. unfold ps. rewrite !elem_of_fold_add_new, elem_of_nil.
      assert (Q1 : (x, y) ∈ (des ≫= F1).*2 ↔ y ∈ des ∧ x ∈ parents y ∧ x ∈ obj :: des).
      { rewrite elem_of_list_fmap. split.
        - intros ([z xy] & Heq & (c0 & (p & [= -> ->] & [??]%elem_of_list_filter)%elem_of_list_fmap & Hc)%elem_of_list_bind). cbn in Heq. by injection Heq as -> ->.
        - intros (Hy & Hxy & Hx). exists (y, (x, y)). split; [done|]. apply elem_of_list_bind. exists y. split; [|done].
          apply elem_of_list_fmap. exists x. split; [done|]. by apply elem_of_list_filter. }
      assert (Q2 : (x, y) ∈ (anc ≫= F2).*2 ↔ x ∈ anc ∧ y ∈ children x ∧ y ∈ obj :: anc).
      { rewrite elem_of_list_fmap. split.
        - intros ([z xy] & Heq & (c0 & (p & [= -> ->] & [??]%elem_of_list_filter)%elem_of_list_fmap & Hc)%elem_of_list_bind). cbn in Heq. by injection Heq as -> ->.
        - intros (Hy & Hxy & Hx). exists (x, (x, y)). split; [done|]. apply elem_of_list_bind. exists x. split; [|done].
          apply elem_of_list_fmap. exists y. split; [done|]. by apply elem_of_list_filter. }
      rewrite Q1, Q2, !elem_of_cons, <-conv, !Hos. split; [tauto|]. intros (Hxy & Hx & Hy).
      destruct Hy as [->|[Hy|Hy]].
      + (* the end is the object: the start is its parent *)
        assert (x ≠ obj). { intros ->. by apply (acyc obj), tc_once. }
        right. split; [|by split; [|left]]. apply Hai. split; [|done]. apply tc_once. by apply conv.
      + left. right. split; [done|]. split; [done|].
        pose proof Hy as (l1 & l2 & Heq)%elem_of_list_split. destruct (Hde l1 y l2 Heq) as (p & Hp & Hc). apply conv in Hc.
        rewrite (single x p y); [|by apply conv|done]. cbn in Hp. apply elem_of_cons in Hp as [->|Hp]; [by left|]. right. rewrite Heq. apply elem_of_app. by left.
      + right. split; [|split; [done|by right]]. apply Hai in Hy as [Hy _]. apply Hai.
        assert (tc P obj x) as Hox by (eapply tc_r; [exact Hy|]; by apply conv). split; [done|]. intros ->.
        apply (acyc obj), tc_conv. done.
  Qed.
End from.

(** C28, partial.  Missing: integer hashes (what hash returns), objects with more
    than one parent and cycles; see the refuted statements.  What holds: if the hash of
    every object is a string, different for different objects, __children__ and
    __parents__ are converse to each other, no object has two parents or is its own
    descendant, and finitely many objects are related to [obj], then from_object
    returns a graph whose nodes are exactly the object, its descendants and its ancestors,
    labelled with their strings, with exactly one edge for each parent and child among them. *)
Lemma C28_forest_partial_proof : ∀ (Obj : Type) (dec : EqDecision Obj) (children parents : Obj → list Obj) (hs ostr : Obj → string)
  (U : list Obj) (obj : Obj) (h : heap) (d : display) (strict : bool) (fuel : nat), reachable h →
  (∀ x y, hs x = hs y → x = y) →
  (∀ x y, y ∈ children x ↔ x ∈ parents y) →
  (∀ x y z, x ∈ parents z → y ∈ parents z → x = y) →
  (∀ x, ¬ tc (λ x y, y ∈ children x) x x) →
  obj ∈ U → (∀ x y, x ∈ U → y ∈ children x ∨ y ∈ parents x → y ∈ U) → length U ≤ fuel →
  let g := length (h_graphs h) in
  ∃ h' os ps, from_object children parents (λ o, NStr (hs o)) ostr fuel d obj strict None None h = (h', Ok g) ∧
    shows h' g ((λ o, plain_node (hs o) (PStr (ostr o))) <$> os) ((λ xy, plain_edge (NStr (hs xy.1)) (NStr (hs xy.2)) None PNone) <$> ps) ∧
    flags h' g = Some (strict, true, Some d) ∧ NoDup os ∧ NoDup ps ∧
    (∀ x, x ∈ os ↔ x = obj ∨ tc (λ x y, y ∈ children x) obj x ∨ tc (λ x y, y ∈ children x) x obj) ∧
    (∀ x y, (x, y) ∈ ps ↔ y ∈ children x ∧ x ∈ os ∧ y ∈ os).
Proof.
  intros Obj dec children parents hs ostr U obj h d strict fuel W%reachable_WF Hinj Hconv Hs Hac Ho HU Hf.
  by apply (from_object_forest children parents hs ostr Hinj U obj Hconv Hs Hac).
Qed.
(** An object 0 with the children 1 and 2, and 2 has the child 1. *)
Definition two_parents : nat → list nat := λ n, match n with 0 => [1; 2] | 2 => [1] | _ => [] end.
Definition two_parents_up : nat → list nat := λ n, match n with 1 => [0; 2] | 2 => [0] | _ => [] end.
(** C28 refuted for string hashes: 0 has the children 1 and 2, and 2 has the child 1.
    The descendants of 0 are 1 and 2, and the edge from 2 to 1 is made before the
    node of 2. *)
Lemma C28_two_parents_refuted_proof : ∃ (children parents : nat → list nat) (hs ostr : nat → string) h obj, reachable h ∧
  (∀ x y, hs x = hs y → x = y) ∧ (∀ x y, y ∈ children x ↔ x ∈ parents y) ∧ (∀ x y, y ∈ children x → y ≤ 2) ∧ (∀ x, ¬ tc (λ x y, y ∈ children x) x x) ∧
  ∀ fuel, 3 ≤ fuel → (from_object children parents (λ o, NStr (hs o)) ostr fuel disp0 obj false None None h).2 = Err KeyError.
Proof.
  exists two_parents, two_parents_up, (λ n, pretty (Z.of_nat n)), (λ n, pretty (Z.of_nat n)), empty_heap, 0. split_and!; [constructor| | | | |].
  - intros x y Hxy. apply (inj pretty) in Hxy. lia.
  - intros x y. destruct x as [|[|[|x]]], y as [|[|[|y]]]; cbn; rewrite ?elem_of_cons, ?elem_of_nil; lia.
  - intros x y. destruct x as [|[|[|x]]]; cbn; rewrite ?elem_of_cons, ?elem_of_nil; lia.
  - set (rk := λ n : nat, match n with 0 => 0 | 2 => 1 | 1 => 2 | _ => 3 end).
    assert (∀ x y, tc (λ x y, y ∈ two_parents x) x y → rk x < rk y) as H.
    { assert (∀ x y, y ∈ two_parents x → rk x < rk y) as H1.
      { intros x y. destruct x as [|[|[|x]]]; cbn; rewrite ?elem_of_cons, ?elem_of_nil; intros Hy; try done; [destruct Hy as [->|[->|[]]]|destruct Hy as [->|[]]]; cbn; lia. }
      induction 1 as [x y H|x y z H _ IH]; [by apply H1|]. apply H1 in H. lia. }
    intros x Hx%H. lia.
  - intros fuel Hf. do 3 (destruct fuel as [|fuel]; [lia|]). by vm_compute.
Qed.
(** An object 0 with the children 1 and 2 and the parent 3, which has the other child 4. *)
Definition forest_down : nat → list nat := λ n, match n with 0 => [1; 2] | 3 => [0; 4] | _ => [] end.
Definition forest_up : nat → list nat := λ n, match n with 0 | 4 => [3] | 1 | 2 => [0] | _ => [] end.
(** C28, instance: 0 has the children 1 and 2 and the parent 3, which has another
    child 4; the hypotheses hold, and the graph of 0 has the nodes 0 to 3. *)
Lemma C28_forest_ex_proof : reachable sample ∧ (∀ x y, y ∈ forest_down x ↔ x ∈ forest_up y) ∧
  (∀ x y z, x ∈ forest_up z → y ∈ forest_up z → x = y) ∧ (∀ x, ¬ tc (λ x y, y ∈ forest_down x) x x) ∧
  0 ∈ [0; 1; 2; 3; 4] ∧ (∀ x y, x ∈ [0; 1; 2; 3; 4] → y ∈ forest_down x ∨ y ∈ forest_up x → y ∈ [0; 1; 2; 3; 4]) ∧
  ∃ h', from_object forest_down forest_up (λ n, NStr (pretty (Z.of_nat n))) (λ n, pretty (Z.of_nat n)) 5 disp0 0 true None None sample = (h', Ok 2) ∧
    names_of h' 2 = [NStr "0"; NStr "1"; NStr "2"; NStr "3"] ∧
    ids_of h' 2 = [(NStr "0", NStr "1", RId None); (NStr "0", NStr "2", RId None); (NStr "3", NStr "0", RId None)].
Proof.
  split; [apply sample_reachable|]. split_and!.
  - intros x y. destruct x as [|[|[|[|[|x]]]]], y as [|[|[|[|[|y]]]]]; cbn; rewrite ?elem_of_cons, ?elem_of_nil; lia.
  - intros x y z. destruct z as [|[|[|[|[|z]]]]]; cbn; rewrite ?elem_of_cons, ?elem_of_nil; lia.
  - set (rk := λ n : nat, match n with 3 => 0 | 0 => 1 | _ => 2 end).
    assert (∀ x y, tc (λ x y, y ∈ forest_down x) x y → rk x < rk y) as H.
    { assert (∀ x y, y ∈ forest_down x → rk x < rk y) as H1.
      { intros x y. destruct x as [|[|[|[|x]]]]; cbn; rewrite ?elem_of_cons, ?elem_of_nil; intros Hy; try done; destruct Hy as [->|[->|[]]]; cbn; lia. }
      induction 1 as [x y H|x y z H _ IH]; [by apply H1|]. apply H1 in H. lia. }
    intros x Hx%H. lia.
  - left.
  - intros x y Hx. rewrite !elem_of_cons, elem_of_nil in Hx. destruct Hx as [->|[->|[->|[->|[->|[]]]]]]; cbn; rewrite ?elem_of_cons, ?elem_of_nil; lia.
  - eexists. split; [vm_compute; reflexivity|]. by vm_compute.
Qed.
