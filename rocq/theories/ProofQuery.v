(** The read-only queries in closed form. *)
From Verif Require Export ProofAdj ProofDfs ModelQuery.

(** * relations that agree on an invariant *)
Section agree.
  Context {A} (R S : relation A) (P : A → Prop).
  Context (HRS : ∀ x, P x → ∀ y, R x y ↔ S x y) (HP : ∀ x y, P x → S x y → P y).
  Lemma agree_nsteps n x y : P x → nsteps R n x y ↔ nsteps S n x y.
  Proof.
    revert x. induction n as [|n IH]; intros x Hx.
    - split; intros H; inversion_clear H; constructor.
    - split; intros H; inversion_clear H as [|? ? z ? Hz Hy].
      + apply HRS in Hz; [|done]. econstructor; [done|]. apply IH; [by eapply HP|done].
      + econstructor; [by apply HRS|]. apply IH; [by eapply HP|done].
  Qed.
  Lemma agree_tc x y : P x → tc R x y ↔ tc S x y.
  Proof. intros Hx. rewrite !tc_nsteps. split; intros (n & ? & ?); exists n; (split; [done|]); by apply agree_nsteps. Qed.
  Lemma agree_rtc x y : P x → rtc R x y ↔ rtc S x y.
  Proof. intros Hx. rewrite !rtc_tc. by rewrite agree_tc. Qed.
End agree.
Lemma tc_flip {A} (R : relation A) x y : tc (flip R) x y ↔ tc R y x.
Proof.
  split.
  - induction 1 as [x y H|x y z H _ IH]; [by apply tc_once|]. eapply tc_r; [done|]. done.
  - induction 1 as [x y H|x y z H _ IH]; [by apply tc_once|]. eapply tc_r; [done|]. done.
Qed.
Lemma nsteps_flip {A} (R : relation A) n x y : nsteps (flip R) n x y ↔ nsteps R n y x.
Proof.
  assert (∀ (R : relation A) x y, nsteps (flip R) n x y → nsteps R n y x) as H.
  { clear R x y. induction n as [|n IH]; intros R x y Hxy.
    - inversion_clear Hxy. constructor.
    - inversion_clear Hxy as [|? ? z ? Hz Hy]. eapply nsteps_r; [by apply IH|done]. }
  split; [apply H|]. intros Hyx. apply H. done.
Qed.

(** * children and parents *)
Definition end_of (h : heap) (e : eref) : option nref := match h_edges h !! e with Some E => e_end E | None => None end.
Definition start_of (h : heap) (e : eref) : option nref := match h_edges h !! e with Some E => e_start E | None => None end.
Definition outs (h : heap) (r : nref) : list eref := match h_nodes h !! r with Some N => dvals (n_out N) | None => [] end.
Definition ins (h : heap) (r : nref) : list eref := match h_nodes h !! r with Some N => dvals (n_in N) | None => [] end.
Definition kids (h : heap) (r : nref) : list nref := omap (end_of h) (outs h r).
Definition pars (h : heap) (r : nref) : list nref := omap (start_of h) (ins h r).

Lemma rmap_omap {A B} (f : A → res B) (p : A → option B) l :
  (∀ x, x ∈ l → ∃ y, p x = Some y ∧ f x = Ok y) → rmap f l = Ok (omap p l).
Proof.
  induction l as [|x l IH]; intros Hl; [done|]. cbn [rmap omap list_omap]. destruct (Hl x) as (y & Hp & Hf); [left|].
  rewrite Hf. simpl. rewrite IH by (intros; apply Hl; by right). simpl. by rewrite Hp.
Qed.

Section queries.
  Context (h : heap) (W : WF h).
  Implicit Types (g : gref) (r x y : nref) (e : eref).

  Lemma outs_joins g r e : in_graph h g r → e ∈ outs h r ↔ ∃ t, joins h g e r t.
  Proof. intros (N & HN & Hg)%in_graph_node; [|done]. unfold outs. rewrite HN. by apply out_joins. Qed.
  Lemma ins_joins g r e : in_graph h g r → e ∈ ins h r ↔ ∃ s, joins h g e s r.
  Proof. intros (N & HN & Hg)%in_graph_node; [|done]. unfold ins. rewrite HN. by apply in_joins. Qed.
  Lemma NoDup_outs r : NoDup (outs h r).
  Proof. unfold outs. destruct (h_nodes h !! r) eqn:HN; [by eapply NoDup_out_edges|constructor]. Qed.
  Lemma NoDup_ins r : NoDup (ins h r).
  Proof. unfold ins. destruct (h_nodes h !! r) eqn:HN; [by eapply NoDup_in_edges|constructor]. Qed.
  Lemma joins_end g e x y : joins h g e x y → end_of h e = Some y.
  Proof. intros (E & HE & _ & _ & ?). unfold end_of. by rewrite HE. Qed.
  Lemma joins_start g e x y : joins h g e x y → start_of h e = Some x.
  Proof. intros (E & HE & _ & ? & _). unfold start_of. by rewrite HE. Qed.

  Lemma in_graph_lookup g r : in_graph h g r → ∃ N, h_nodes h !! r = Some N ∧ n_graph N = Some g.
  Proof. intros Hr. by apply in_graph_node. Qed.
  Lemma get_node_in_graph g a r : get_node h g a = Ok r → in_graph h g r.
  Proof. intros Hr. destruct (get_node_Ok h g a r) as (G & N & ? & ? & ? & ?); [done..|]. apply in_graph_node; eauto. Qed.
  Lemma node_graph_run g r : in_graph h g r → node_graph h r = Ok g.
  Proof. intros (N & HN & Hg)%in_graph_lookup. unfold node_graph. rewrite (get_n_Ok _ _ _ HN). simpl. by rewrite Hg. Qed.

  Lemma get_outward_edges_run g a r : get_node h g a = Ok r → get_outward_edges h g a = Ok (outs h r).
  Proof.
    intros Hr. unfold get_outward_edges. rewrite Hr. simpl.
    destruct (get_node_Ok h g a r) as (G & N & ? & HN & ? & ?); [done..|].
    rewrite (outward_edges_run h r N) by done. unfold outs. by rewrite HN.
  Qed.
  Lemma get_inward_edges_run g a r : get_node h g a = Ok r → get_inward_edges h g a = Ok (ins h r).
  Proof.
    intros Hr. unfold get_inward_edges. rewrite Hr. simpl.
    destruct (get_node_Ok h g a r) as (G & N & ? & HN & ? & ?); [done..|].
    rewrite (inward_edges_run h r N) by done. unfold ins. by rewrite HN.
  Qed.
  Lemma get_children_run g a r : get_node h g a = Ok r → get_children h g a = Ok (kids h r).
  Proof.
    intros Hr. unfold get_children. rewrite (get_outward_edges_run _ _ _ Hr). simpl.
    apply rmap_omap. intros e He. apply (outs_joins g) in He as (t & Hj); [|by eapply get_node_in_graph].
    exists t. split; [by eapply joins_end|]. destruct Hj as (E & HE & _ & _ & Ht).
    unfold edge_end. rewrite (get_e_Ok _ _ _ HE). simpl. by rewrite Ht.
  Qed.
  Lemma get_parents_run g a r : get_node h g a = Ok r → get_parents h g a = Ok (pars h r).
  Proof.
    intros Hr. unfold get_parents. rewrite (get_inward_edges_run _ _ _ Hr). simpl.
    apply rmap_omap. intros e He. apply (ins_joins g) in He as (t & Hj); [|by eapply get_node_in_graph].
    exists t. split; [by eapply joins_start|]. destruct Hj as (E & HE & _ & Ht & _).
    unfold edge_start. rewrite (get_e_Ok _ _ _ HE). simpl. by rewrite Ht.
  Qed.
  Lemma get_children_node g r : in_graph h g r → get_children h g (ANode r) = Ok (kids h r).
  Proof. intros. apply get_children_run. by apply get_node_self. Qed.
  Lemma get_parents_node g r : in_graph h g r → get_parents h g (ANode r) = Ok (pars h r).
  Proof. intros. apply get_parents_run. by apply get_node_self. Qed.
  Lemma node_children_run g r : in_graph h g r → node_children h r = Ok (kids h r).
  Proof. intros Hr. unfold node_children. rewrite (node_graph_run _ _ Hr). simpl. by apply get_children_node. Qed.
  Lemma node_parents_run g r : in_graph h g r → node_parents h r = Ok (pars h r).
  Proof. intros Hr. unfold node_parents. rewrite (node_graph_run _ _ Hr). simpl. by apply get_parents_node. Qed.

  Lemma elem_of_kids g r t : in_graph h g r → t ∈ kids h r ↔ adj h g r t.
  Proof.
    intros Hr. unfold kids. rewrite elem_of_list_omap. split.
    - intros (e & He & Ht). apply (outs_joins g) in He as (t' & Hj); [|done].
      assert (t' = t) as -> by (apply joins_end in Hj; congruence). by exists e.
    - intros [e He]. exists e. split; [|by eapply joins_end]. apply (outs_joins g); eauto.
  Qed.
  Lemma elem_of_pars g r t : in_graph h g r → t ∈ pars h r ↔ adj h g t r.
  Proof.
    intros Hr. unfold pars. rewrite elem_of_list_omap. split.
    - intros (e & He & Ht). apply (ins_joins g) in He as (t' & Hj); [|done].
      assert (t' = t) as -> by (apply joins_start in Hj; congruence). by exists e.
    - intros [e He]. exists e. split; [|by eapply joins_start]. apply (ins_joins g); eauto.
  Qed.
  Lemma kids_in g r t : in_graph h g r → t ∈ kids h r → in_graph h g t.
  Proof. intros Hr Ht%(elem_of_kids g); [|done]. by destruct (adj_in_graph h g r t). Qed.
  Lemma pars_in g r t : in_graph h g r → t ∈ pars h r → in_graph h g t.
  Proof. intros Hr Ht%(elem_of_pars g); [|done]. by destruct (adj_in_graph h g t r). Qed.

  (** * comparing nodes of one graph *)
  Lemma node_eqb_run g x y : in_graph h g x → in_graph h g y → node_eqb h x y = bool_decide (x = y).
  Proof.
    intros (Nx & HNx & Hgx)%in_graph_lookup (Ny & HNy & Hgy)%in_graph_lookup. unfold node_eqb. rewrite HNx, HNy.
    destruct (eqb x y) eqn:He; simpl.
    - apply eqb_is in He as ->. by rewrite bool_decide_true.
    - apply eqb_isnt in He. rewrite bool_decide_false by done. apply eqb_false. intros [= _ Hid].
      apply He. by eapply (WF_name_inj h g x y Nx Ny).
  Qed.
  Definition all_in g (l : list nref) : Prop := ∀ x, x ∈ l → in_graph h g x.
  Lemma all_in_app g l l' : all_in g l → all_in g l' → all_in g (l ++ l').
  Proof. intros H1 H2 x [?|?]%elem_of_app; auto. Qed.
  Lemma all_in_one g x : in_graph h g x → all_in g [x].
  Proof. by intros Hx y ->%elem_of_list_singleton. Qed.
  Lemma all_in_cons g x l : all_in g (x :: l) ↔ in_graph h g x ∧ all_in g l.
  Proof. unfold all_in. setoid_rewrite elem_of_cons. naive_solver. Qed.
  Lemma all_in_nil g : all_in g [].
  Proof. by intros x ?%elem_of_nil. Qed.
  Lemma node_in_run g x l : in_graph h g x → all_in g l → node_in h x l = obj_in x l.
  Proof.
    intros Hx Hl. unfold node_in, obj_in. induction l as [|y l IH]; [done|]. apply all_in_cons in Hl as [Hy Hl]. cbn [existsb].
    rewrite (node_eqb_run g) by done. rewrite IH by done. destruct (decide (x = y)) as [->|Hne].
    - rewrite bool_decide_true by done. simpl. symmetry. apply bool_decide_eq_true. left.
    - rewrite bool_decide_false by done. simpl. apply bool_decide_ext. rewrite elem_of_cons. tauto.
  Qed.

  (** * the traversals *)
  Lemma merge_run g sub subd acc accd : all_in g sub → all_in g acc →
    merge_relatives h sub subd acc accd = obj_merge sub subd acc accd.
  Proof.
    revert acc accd. induction sub as [|x sub IH]; intros acc accd Hs Ha; [done|]. cbn [merge_relatives obj_merge].
    apply all_in_cons in Hs as [Hx Hs]. rewrite (node_in_run g) by done. destruct (obj_in x acc); [by apply IH|].
    apply IH; [done|]. apply all_in_app; [done|by apply all_in_one].
  Qed.
  Lemma merge_all_in g sub (subd : dict nat (list nref)) acc accd : all_in g sub → all_in g acc → all_in g (obj_merge sub subd acc accd).1.
  Proof. intros Hs Ha x. rewrite obj_merge_list, elem_of_fold_add_new. intros [?|?]; auto. Qed.
  Lemma first_all_in g c des (dd : dict nat (list nref)) : in_graph h g c → all_in g des → all_in g (add_first c des dd).1.
  Proof. intros Hc Hd x. rewrite add_first_list, elem_of_add_new. intros [?| ->]; auto. Qed.

  Definition rec_ok g (rec rec' : nref → list nref → res dfs_out) : Prop :=
    ∀ c T, in_graph h g c → all_in g T → rec c T = rec' c T ∧
      ∀ L D T', rec' c T = Ok (L, D, T') → all_in g L ∧ all_in g T'.

  Lemma desc_loop_run g rec rec' cs des dd T : rec_ok g rec rec' → all_in g cs → all_in g des → all_in g T →
    desc_loop rec h cs des dd T = gloop false rec' cs des dd T ∧
    ∀ L D T', gloop false rec' cs des dd T = Ok (L, D, T') → all_in g L ∧ all_in g T'.
  Proof.
    intros Hrec. revert des dd T. induction cs as [|c cs IH]; intros des dd T Hcs Hdes HT; cbn [desc_loop gloop].
    { split; [done|]. by intros L D T' [= <- <- <-]. }
    apply all_in_cons in Hcs as [Hc Hcs]. rewrite (node_in_run g) by done. destruct (obj_in c T); [by apply IH|].
    rewrite (node_in_run g) by done. destruct (Hrec c T) as [Hr Hpost]; [done..|]. rewrite Hr.
    change (if obj_in c des then (des, dd) else (des ++ [c], dset dd 1 (dget_list dd 1 ++ [c]))) with (add_first c des dd).
    pose proof (first_all_in g c des dd Hc Hdes) as Hf.
    destruct (add_first c des dd) as [des1 dd1]. simpl in Hf |- *.
    destruct (rec' c T) as [[[ca cd] T1]|]; simpl; [|split; [done|by intros]].
    destruct (Hpost _ _ _ eq_refl) as [Hca HT1]. rewrite (merge_run g) by done.
    pose proof (merge_all_in g ca cd des1 dd1 Hca Hf) as Hm.
    destruct (obj_merge ca cd des1 dd1) as [m1 m2]. by apply IH.
  Qed.
  Lemma anc_loop_run g rec rec' cs des dd T : rec_ok g rec rec' → all_in g cs → all_in g des → all_in g T →
    anc_loop rec h cs des dd T = gloop true rec' cs des dd T ∧
    ∀ L D T', gloop true rec' cs des dd T = Ok (L, D, T') → all_in g L ∧ all_in g T'.
  Proof.
    intros Hrec. revert des dd T. induction cs as [|c cs IH]; intros des dd T Hcs Hdes HT; cbn [anc_loop gloop].
    { split; [done|]. by intros L D T' [= <- <- <-]. }
    apply all_in_cons in Hcs as [Hc Hcs]. rewrite !(node_in_run g) by done.
    change (if obj_in c des then (des, dd) else (des ++ [c], dset dd 1 (dget_list dd 1 ++ [c]))) with (add_first c des dd).
    pose proof (first_all_in g c des dd Hc Hdes) as Hf.
    destruct (add_first c des dd) as [des1 dd1]. simpl in Hf |- *.
    destruct (obj_in c T); [by apply IH|].
    destruct (Hrec c T) as [Hr Hpost]; [done..|]. rewrite Hr.
    destruct (rec' c T) as [[[ca cd] T1]|]; simpl; [|split; [done|by intros]].
    destruct (Hpost _ _ _ eq_refl) as [Hca HT1]. rewrite (merge_run g) by done.
    pose proof (merge_all_in g ca cd des1 dd1 Hca Hf) as Hm.
    destruct (obj_merge ca cd des1 dd1) as [m1 m2]. by apply IH.
  Qed.
  Lemma get_desc_run g fuel : rec_ok g (λ r T, get_desc fuel h g (ANode r) T) (gdfs false fuel (kids h)).
  Proof.
    induction fuel as [|fuel IH]; intros r T Hr HT; cbn [get_desc gdfs]; [split; [done|by intros]|].
    rewrite (get_node_self h g r) by done. cbn [rbind]. rewrite (get_children_node g r) by done. cbn [rbind].
    assert (HTr : all_in g (T ++ [r])) by (apply all_in_app; [done|by apply all_in_one]).
    assert (Hk : all_in g (kids h r)) by (intros x ?; by eapply kids_in).
    destruct (kids h r) as [|c cs] eqn:Hks.
    - split; [done|]. intros L D T' [= <- <- <-]. split; [apply all_in_nil|done].
    - apply desc_loop_run; [done|done|apply all_in_nil|done].
  Qed.
  Lemma get_anc_run g fuel : rec_ok g (λ r T, get_anc fuel h g (ANode r) T) (gdfs true fuel (pars h)).
  Proof.
    induction fuel as [|fuel IH]; intros r T Hr HT; cbn [get_anc gdfs]; [split; [done|by intros]|].
    rewrite (get_node_self h g r) by done. cbn [rbind]. rewrite (get_parents_node g r) by done. cbn [rbind].
    assert (HTr : all_in g (T ++ [r])) by (apply all_in_app; [done|by apply all_in_one]).
    assert (Hk : all_in g (pars h r)) by (intros x ?; by eapply pars_in).
    destruct (pars h r) as [|c cs] eqn:Hks.
    - split; [done|]. intros L D T' [= <- <- <-]. split; [apply all_in_nil|done].
    - apply anc_loop_run; [done|done|apply all_in_nil|done].
  Qed.
  (** the traversals only look at the node their argument stands for *)
  Lemma get_desc_arg g fuel a r T : get_node h g a = Ok r → get_desc fuel h g a T = get_desc fuel h g (ANode r) T.
  Proof.
    intros Hr. destruct fuel as [|fuel]; [done|]. cbn [get_desc]. rewrite Hr.
    rewrite (get_node_self h g r) by (by eapply get_node_in_graph || done). done.
  Qed.
  Lemma get_anc_arg g fuel a r T : get_node h g a = Ok r → get_anc fuel h g a T = get_anc fuel h g (ANode r) T.
  Proof.
    intros Hr. destruct fuel as [|fuel]; [done|]. cbn [get_anc]. rewrite Hr.
    rewrite (get_node_self h g r) by (by eapply get_node_in_graph || done). done.
  Qed.

  Lemma tc_kids g r x : in_graph h g r → tc (λ x y, y ∈ kids h x) r x ↔ path h g r x.
  Proof.
    apply agree_tc.
    - intros y Hy z. by apply elem_of_kids.
    - intros y z Hy Hz. by destruct (adj_in_graph h g y z).
  Qed.
  Lemma nsteps_kids g r n x : in_graph h g r → nsteps (λ x y, y ∈ kids h x) n r x ↔ walk h g n r x.
  Proof.
    apply agree_nsteps.
    - intros y Hy z. by apply elem_of_kids.
    - intros y z Hy Hz. by destruct (adj_in_graph h g y z).
  Qed.
  Lemma tc_pars g r x : in_graph h g r → tc (λ x y, y ∈ pars h x) r x ↔ path h g x r.
  Proof.
    intros Hr. unfold path. rewrite <-(tc_flip (adj h g)). revert Hr. apply agree_tc.
    - intros y Hy z. by apply elem_of_pars.
    - intros y z Hy Hz. by destruct (adj_in_graph h g z y).
  Qed.
  Lemma nsteps_pars g r n x : in_graph h g r → nsteps (λ x y, y ∈ pars h x) n r x ↔ walk h g n x r.
  Proof.
    intros Hr. unfold walk. rewrite <-(nsteps_flip (adj h g)). revert Hr. apply agree_nsteps.
    - intros y Hy z. by apply elem_of_pars.
    - intros y z Hy Hz. by destruct (adj_in_graph h g z y).
  Qed.

  Lemma get_desc_spec g a r : get_node h g a = Ok r →
    ∃ L D T, get_desc (graph_fuel h g) h g a [] = Ok (L, D, T) ∧ NoDup L ∧
      (∀ x, x ∈ L ↔ path h g r x ∧ x ≠ r) ∧
      all_at (λ k x, 1 ≤ k ∧ walk h g k r x ∧ x ∈ L) D.
  Proof.
    intros Ha. pose proof (get_node_in_graph _ _ _ Ha) as Hr. rewrite (get_desc_arg g _ a r) by done.
    destruct (get_node_Ok h g a r) as (G & N & HG & HN & Hg & Hin); [done..|].
    destruct (get_desc_run g (graph_fuel h g) r []) as [-> _]; [done|apply all_in_nil|].
    assert (HU : ∀ x, x ∈ dvals (g_nodes G) ↔ in_graph h g x).
    { intros x. rewrite elem_of_dvals. split; [intros [k Hk]; by exists G, k|]. intros (G' & k & HG' & Hk).
      assert (G' = G) as -> by congruence. eauto. }
    destruct (gdfs_top (kids h) false (dvals (g_nodes G))) with (fuel := graph_fuel h g) (o := r)
      as (L & D & T & Hrun & HL & _ & HLi & HD).
    - intros x y Hx%HU Hy. apply HU. by eapply kids_in.
    - by apply HU.
    - unfold graph_fuel. rewrite HG. unfold dvals. rewrite map_length. lia.
    - exists L, D, T. split_and!; [done..| |].
      + intros x. rewrite HLi. by rewrite (tc_kids g r x).
      + eapply all_at_mono; [|exact HD]. simpl. intros k x (? & ? & ?). split_and!; [done| |done]. by apply nsteps_kids.
  Qed.
  Lemma get_anc_spec g a r : get_node h g a = Ok r →
    ∃ L D T, get_anc (graph_fuel h g) h g a [] = Ok (L, D, T) ∧ NoDup L ∧
      (∀ x, x ∈ L ↔ path h g x r) ∧
      all_at (λ k x, 1 ≤ k ∧ walk h g k x r ∧ x ∈ L) D.
  Proof.
    intros Ha. pose proof (get_node_in_graph _ _ _ Ha) as Hr. rewrite (get_anc_arg g _ a r) by done.
    destruct (get_node_Ok h g a r) as (G & N & HG & HN & Hg & Hin); [done..|].
    destruct (get_anc_run g (graph_fuel h g) r []) as [-> _]; [done|apply all_in_nil|].
    assert (HU : ∀ x, x ∈ dvals (g_nodes G) ↔ in_graph h g x).
    { intros x. rewrite elem_of_dvals. split; [intros [k Hk]; by exists G, k|]. intros (G' & k & HG' & Hk).
      assert (G' = G) as -> by congruence. eauto. }
    destruct (gdfs_top (pars h) true (dvals (g_nodes G))) with (fuel := graph_fuel h g) (o := r)
      as (L & D & T & Hrun & HL & _ & HLi & HD).
    - intros x y Hx%HU Hy. apply HU. by eapply pars_in.
    - by apply HU.
    - unfold graph_fuel. rewrite HG. unfold dvals. rewrite map_length. lia.
    - exists L, D, T. split_and!; [done..| |].
      + intros x. rewrite HLi. by rewrite (tc_pars g r x).
      + eapply all_at_mono; [|exact HD]. simpl. intros k x (? & ? & ?). split_and!; [done| |done]. by apply nsteps_pars.
  Qed.

  Lemma get_descendants_spec g a r : get_node h g a = Ok r →
    ∃ L, get_descendants h g a = Ok L ∧ NoDup L ∧ ∀ x, x ∈ L ↔ path h g r x ∧ x ≠ r.
  Proof. intros Ha. destruct (get_desc_spec g a r Ha) as (L & D & T & Hrun & ? & ? & _). exists L. unfold get_descendants. by rewrite Hrun. Qed.
  Lemma get_ancestors_spec g a r : get_node h g a = Ok r →
    ∃ L, get_ancestors h g a = Ok L ∧ NoDup L ∧ ∀ x, x ∈ L ↔ path h g x r.
  Proof. intros Ha. destruct (get_anc_spec g a r Ha) as (L & D & T & Hrun & ? & ? & _). exists L. unfold get_ancestors. by rewrite Hrun. Qed.
  Lemma path_in_graph g x y : path h g x y → in_graph h g x ∧ in_graph h g y.
  Proof.
    induction 1 as [x y H|x y z H _ [_ IH]]; [by apply adj_in_graph|]. split; [|done]. by destruct (adj_in_graph h g x y).
  Qed.
End queries.
