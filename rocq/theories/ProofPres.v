(** The builders and the stylist preserve the heap invariant. *)
From Verif Require Export ProofRemove ModelBuild ModelStylize.

(** There are at least [n] node styles and [m] edge styles. *)
Definition sizes (n m : nat) (h : heap) : Prop := n ≤ length (h_ns h) ∧ m ≤ length (h_es h).
Definition Inv (n m : nat) (h : heap) : Prop := WF h ∧ sizes n m h.

Ltac pstep :=
  match goal with
  | |- pres _ (sbind _ _) => apply pres_bind; [|intros ?]
  | |- pres _ (siter _ _) => apply pres_iter; intros ? ?
  | |- pres _ (sfold _ _ _) => apply pres_fold; intros ? ? ?
  | |- pres _ (sret _) => apply pres_ret
  | |- pres _ (sraise _) => apply pres_raise
  | |- pres _ (sread _) => apply pres_read
  | |- pres _ (match ?x with _ => _ end) => destruct x
  end.
Ltac presM := repeat pstep.

Lemma sizes_upd_n n m r f : pres (sizes n m) (upd_n r f).
Proof. intros h H. unfold upd_n. by destruct (h_nodes h !! r). Qed.
Lemma sizes_upd_e n m r f : pres (sizes n m) (upd_e r f).
Proof. intros h H. unfold upd_e. by destruct (h_edges h !! r). Qed.
Lemma sizes_upd_g n m r f : pres (sizes n m) (upd_g r f).
Proof. intros h H. unfold upd_g. by destruct (h_graphs h !! r). Qed.
Lemma sizes_new_n n m N : pres (sizes n m) (new_n N).
Proof. by intros h H. Qed.
Lemma sizes_new_e n m N : pres (sizes n m) (new_e N).
Proof. by intros h H. Qed.
Lemma sizes_new_g n m N : pres (sizes n m) (new_g N).
Proof. by intros h H. Qed.
Lemma sizes_new_ns n m N : pres (sizes n m) (new_ns N).
Proof. intros h [H1 H2]. split; simpl; rewrite ?app_length; simpl; lia. Qed.
Lemma sizes_new_es n m N : pres (sizes n m) (new_es N).
Proof. intros h [H1 H2]. split; simpl; rewrite ?app_length; simpl; lia. Qed.
Lemma sizes_warn n m w : pres (sizes n m) (warn w).
Proof. by intros h H. Qed.
#[global] Hint Resolve sizes_upd_n sizes_upd_e sizes_upd_g sizes_new_n sizes_new_e sizes_new_g
  sizes_new_ns sizes_new_es sizes_warn : pres.
Ltac presS := repeat first [solve [auto with pres] | pstep].

Lemma sizes_node_set_style n m r a : pres (sizes n m) (node_set_style r a).
Proof. unfold node_set_style, resolve_nstyle. presS. Qed.
Lemma sizes_edge_set_style n m r a : pres (sizes n m) (edge_set_style r a).
Proof. unfold edge_set_style, resolve_estyle. presS. Qed.
#[global] Hint Resolve sizes_node_set_style sizes_edge_set_style : pres.
Lemma sizes_add_node n m g x a : pres (sizes n m) (add_node g x a).
Proof.
  unfold add_node, generate_node_index, node_ctor, resolve_nstyle, when_style, when_val, node_set_label, node_set_value.
  presS.
Qed.
Lemma sizes_connect n m g x y a : pres (sizes n m) (connect g x y a).
Proof.
  unfold connect, edge_ctor, resolve_estyle, append_outward, append_inward, when_style, when_val, edge_set_label, edge_set_value.
  presS.
Qed.
Lemma sizes_remove_self n m e : pres (sizes n m) (remove_self e).
Proof. unfold remove_self, remove_outward, remove_inward. presS. Qed.
#[global] Hint Resolve sizes_add_node sizes_connect sizes_remove_self : pres.
Lemma sizes_remove_node n m g x : pres (sizes n m) (remove_node g x).
Proof. unfold remove_node. presS. Qed.

Lemma Inv_pres {A} n m (c : M A) : pres (sizes n m) c → (∀ h, Inv n m h → WF (c h).1) → pres (Inv n m) c.
Proof. intros Hs Hw h H. split; [by apply Hw|]. apply Hs, H. Qed.

(** style arguments that denote objects in any heap with at least so many styles *)
Definition nsarg_lt (n : nat) (a : sarg) : Prop := ∀ s, a = SObj s → s < n.
Lemma nsarg_lt_ok n m h a : nsarg_lt n a → sizes n m h → nsarg_ok h a.
Proof. intros Ha [H _]. destruct a; simpl; try done. specialize (Ha _ eq_refl). lia. Qed.
Lemma esarg_lt_ok n m h a : nsarg_lt m a → sizes n m h → esarg_ok h a.
Proof. intros Ha [_ H]. destruct a; simpl; try done. specialize (Ha _ eq_refl). lia. Qed.
Lemma nsarg_ok_lt h a : nsarg_ok h a → nsarg_lt (length (h_ns h)) a.
Proof. intros Ha s ->. done. Qed.
Lemma esarg_ok_lt h a : esarg_ok h a → nsarg_lt (length (h_es h)) a.
Proof. intros Ha s ->. done. Qed.

Lemma Inv_add_node n m g k a : nsarg_lt n (a_style a) → pres (Inv n m) (add_node g (AName k) a).
Proof.
  intros Ha. apply Inv_pres; [auto with pres|]. intros h [W S].
  apply WF_add_node_call; [done|by eapply nsarg_lt_ok|done].
Qed.
Lemma Inv_connect n m g x y a : nsarg_lt m (c_style a) → pres (Inv n m) (connect g x y a).
Proof.
  intros Ha. apply Inv_pres; [auto with pres|]. intros h [W S].
  apply WF_connect; [done|by eapply esarg_lt_ok].
Qed.
Lemma Inv_remove_node n m g x : pres (Inv n m) (remove_node g x).
Proof. apply Inv_pres; [apply sizes_remove_node|]. intros h [W S]. by apply WF_remove_node. Qed.
Lemma Inv_new_graph n m strict ordering d : pres (Inv n m) (new_graph strict ordering d).
Proof. intros h [W S]. split; [|done]. by apply (WF_new_graph h _ (MkGraph [] strict ordering 0 (Some d))). Qed.
Lemma Inv_data_only {A} n m (c : M A) : (∀ h, data_only h (c h).1) → pres (Inv n m) c.
Proof.
  intros Hc h [W [S1 S2]]. specialize (Hc h). split; [by eapply WF_data_only|].
  pose proof (do_ns _ _ Hc). pose proof (do_es _ _ Hc). split; lia.
Qed.
Lemma nsarg_lt_SNone n : nsarg_lt n SNone.
Proof. done. Qed.
Lemma nsarg_lt_SDict n d : nsarg_lt n (SDict d).
Proof. done. Qed.
#[global] Hint Resolve Inv_add_node Inv_connect Inv_remove_node Inv_new_graph nsarg_lt_SNone nsarg_lt_SDict : pres.
#[global] Hint Extern 1 (nsarg_lt _ _) => (let s := fresh in let Hs := fresh in intros s Hs; discriminate Hs) : pres.
Ltac presI := repeat first [solve [eauto with pres] | pstep].

(** * Builders *)
Lemma Inv_from_lists_row n m g row : pres (Inv n m) (from_lists_row g row).
Proof. unfold from_lists_row. presI. Qed.
#[global] Hint Resolve Inv_from_lists_row : pres.
Lemma Inv_from_lists n m d s t e strict : pres (Inv n m) (from_lists d s t e strict).
Proof. unfold from_lists. presI. Qed.
Lemma Inv_from_object n m `{EqDecision Obj} (children parents : Obj → list Obj) hash ostr fuel d o strict md mh :
  pres (Inv n m) (from_object children parents hash ostr fuel d o strict md mh).
Proof. unfold from_object. presI. Qed.
Lemma Inv_indented_row n m g l : pres (Inv n m) (indented_row g l).
Proof. unfold indented_row. presI. Qed.
#[global] Hint Resolve Inv_indented_row : pres.
Lemma Inv_from_indented_text n m d root lines indent : pres (Inv n m) (from_indented_text d root lines indent).
Proof. unfold from_indented_text. presI. Qed.
Lemma Inv_random_graph n m d k strict cycle si p ord draws : pres (Inv n m) (random_graph d k strict cycle si p ord draws).
Proof. unfold random_graph. presI. Qed.

(** ** append *)
Lemma Inv_upd_disp n m g f : pres (Inv n m) (upd_disp g f).
Proof.
  unfold upd_disp. presM. apply Inv_data_only. intros h. by apply upd_g_data_only.
Qed.
Lemma Inv_upd_strict n m g b : pres (Inv n m) (upd_g g (λ G, G <| g_strict := b |>)).
Proof. apply Inv_data_only. intros h. by apply upd_g_data_only. Qed.
Lemma Inv_upd_ordering n m g b : pres (Inv n m) (upd_g g (λ G, G <| g_ordering := b |>)).
Proof. apply Inv_data_only. intros h. by apply upd_g_data_only. Qed.
#[global] Hint Resolve Inv_upd_disp Inv_upd_strict Inv_upd_ordering : pres.

(** the styles a representation mentions exist *)
Definition espec_styles (m : nat) (s : espec) : Prop :=
  match s with E3 _ _ a => nsarg_lt m (c_style a) | _ => True end.
Definition repr_styles (n m : nat) (d : grepr) : Prop :=
  (∀ nd kv, r_nodes d = inl nd → kv ∈ nd → nsarg_lt n (a_style kv.2)) ∧
  (∀ s, s ∈ r_edges d → espec_styles m s).

Lemma pres_when_some {A} I (o : option A) (f : A → M unit) : (∀ a, pres I (f a)) → pres I (when_some o f).
Proof. intros Hf. destruct o; simpl; [apply Hf|apply pres_ret]. Qed.

Lemma Inv_append_repr n m g d : repr_styles n m d → pres (Inv n m) (append_repr g d).
Proof.
  intros [Hn He]. unfold append_repr.
  repeat (apply pres_bind; [apply pres_when_some; intros ?; presI|intros _]).
  apply pres_bind; [|intros _].
  { destruct (r_nodes d) as [nd|ns] eqn:Hd.
    - apply pres_iter. intros kv Hkv. presM. apply Inv_add_node. by eapply Hn.
    - presI. }
  apply pres_bind; [|intros ed].
  { apply pres_fold. intros b s Hs. specialize (He s Hs). destruct s; simpl in *; presI. }
  repeat (apply pres_bind; [apply pres_when_some; intros ?; presI|intros _]).
  apply pres_when_some; intros ?; presI.
Qed.

Lemma graph_repr_styles h g d : WF h → graph_repr h g = Ok d → repr_styles (length (h_ns h)) (length (h_es h)) d.
Proof.
  intros W. unfold graph_repr. intros (G & HG & Hd)%rbind_Ok. apply get_g_inv in HG.
  apply rbind_Ok in Hd as ([nd el] & Hf & Hd).
  assert ((∀ kv, kv ∈ nd → nsarg_lt (length (h_ns h)) (a_style kv.2)) ∧ (∀ s, s ∈ el → espec_styles (length (h_es h)) s)) as [Hnd Hel].
  { revert Hf. 
    apply (rfold_inv _ (λ _ '(nd, el), (∀ kv, kv ∈ nd → nsarg_lt (length (h_ns h)) (a_style kv.2)) ∧
       (∀ s, s ∈ el → espec_styles (length (h_es h)) s)) (dvals (g_nodes G)) ([], []) (nd, el)).
    - split; intros ? []%elem_of_nil.
    - intros l1 x l2 [nd1 el1] [nd2 el2] _ [H1 H2]. intros (N & HN & Hr)%rbind_Ok. apply get_n_inv in HN.
      apply rbind_Ok in Hr as (es & Hes & Hr). apply rbind_Ok in Hr as (l & Hl & [= <- <-]).
      split.
      + assert (∀ (k : name) (v : nargs) (l : dict name nargs) kv, kv ∈ dset l k v → kv ∈ l ∨ kv.2 = v) as Hds.
        { clear. intros k v l. induction l as [|[k' v'] l IH]; intros kv; simpl.
          - intros ->%elem_of_list_singleton. by right.
          - destruct (decide (k = k')) as [->|].
            + intros [->|?]%elem_of_cons; [by right|left; by right].
            + intros [->|Hin]%elem_of_cons; [left; left|]. destruct (IH _ Hin); [left; by right|by right]. }
        intros kv [?| ->]%Hds; [by apply H1|]. simpl. unfold style_arg.
        destruct (n_style N) as [s|] eqn:Hs; [|done]. intros s' [= <-]. by eapply wf_nstyle.
      + intros s [?|Hs]%elem_of_app; [by apply H2|].
        apply rmap_Ok in Hl. apply elem_of_list_lookup in Hs as [i Hi].
        eapply Forall2_lookup_r in Hl as (e & He & Her); [|exact Hi].
        unfold edge_repr in Her. apply rbind_Ok in Her as (i' & _ & Her).
        apply rbind_Ok in Her as (E & _ & Her). apply rbind_Ok in Her as (id & _ & Her).
        apply rbind_Ok in Her as (lbl & Hlbl & Her). unfold edge_raw_label in Hlbl.
        apply rbind_Ok in Hlbl as (? & _ & Hlbl). done. }
  destruct (g_disp G) as [D|]; [|done]. injection Hd as <-. split; simpl.
  - intros nd' kv [= <-]. apply Hnd.
  - apply Hel.
Qed.

Definition gobj_styles (n m : nat) (o : gobj) : Prop :=
  match o with ODict d => repr_styles n m d | _ => True end.
Lemma obj_dict_styles h o d : WF h → gobj_styles (length (h_ns h)) (length (h_es h)) o → obj_dict h o = Ok d →
  repr_styles (length (h_ns h)) (length (h_es h)) d.
Proof.
  intros W Ho. destruct o as [g|d'|]; simpl in *; [|naive_solver|done].
  destruct (graph_repr h g) as [d'|x] eqn:Hg; [|by destruct x]. intros [= <-]. by eapply graph_repr_styles.
Qed.
Lemma repr_styles_mono n m n' m' d : n ≤ n' → m ≤ m' → repr_styles n m d → repr_styles n' m' d.
Proof.
  intros Hn Hm [H1 H2]. split.
  - intros nd kv Hd Hkv s Hs. specialize (H1 nd kv Hd Hkv s Hs). lia.
  - intros s Hs. specialize (H2 s Hs). destruct s; simpl in *; try done. intros k Hk. specialize (H2 k Hk). lia.
Qed.

Lemma WF_append h g o : WF h → gobj_styles (length (h_ns h)) (length (h_es h)) o → WF (graph_append g o h).1.
Proof.
  intros W Ho. unfold graph_append, sbind, sread. destruct (obj_dict h o) as [d|x] eqn:Hd; [|done].
  apply (Inv_append_repr (length (h_ns h)) (length (h_es h))); [by eapply obj_dict_styles|].
  split; [done|]. split; lia.
Qed.
Lemma Inv_append n m g d : repr_styles n m d → pres (Inv n m) (graph_append g (ODict d)).
Proof. intros Hd. unfold graph_append. intros h HI. by apply Inv_append_repr. Qed.
Lemma WF_append_all h g os : WF h → (∀ o, o ∈ os → gobj_styles (length (h_ns h)) (length (h_es h)) o) →
  WF (append_all g os h).1.
Proof.
  intros W Hos. unfold append_all.
  enough (Inv (length (h_ns h)) (length (h_es h)) (siter (graph_append g) os h).1) as [? _] by done.
  assert (H : pres (Inv (length (h_ns h)) (length (h_es h))) (siter (graph_append g) os)); [|apply H; split; [done|split; lia]].
  apply pres_iter. intros o Ho. specialize (Hos o Ho). revert Hos. generalize (length (h_ns h)), (length (h_es h)).
  clear. intros n m Ho h [W S]. unfold graph_append, sbind, sread. destruct (obj_dict h o) as [d|x] eqn:Hd; [|done].
  assert (repr_styles (length (h_ns h)) (length (h_es h)) d) as Hs.
  { eapply obj_dict_styles; [done| |done]. destruct o; simpl in *; try done. by eapply repr_styles_mono; try apply S. }
  destruct (Inv_append_repr _ _ g d Hs h) as [W' S']; [split; [done|split; lia]|].
  split; [done|]. destruct S, S'. split; lia.
Qed.

Lemma WF_graph_of h strict ordering d o : WF h → gobj_styles (length (h_ns h)) (length (h_es h)) o →
  WF (graph_of strict ordering d o h).1.
Proof.
  intros W Ho. unfold graph_of. set (d' := match o with ODict r => _ | _ => d end).
  destruct (Inv_new_graph (length (h_ns h)) (length (h_es h)) strict ordering d' h) as [W1 _]; [split; [done|split; lia]|].
  unfold sbind. simpl. simpl in W1. pose proof (WF_append _ (length (h_graphs h)) o W1) as H.
  destruct (graph_append _ _ _) as [h2 [[]|x]]; simpl in *; by apply H.
Qed.
Lemma WF_from_dict h d r : WF h → repr_styles (length (h_ns h)) (length (h_es h)) r → WF (from_dict d r h).1.
Proof.
  intros W Ho. unfold from_dict.
  assert (H : pres (Inv (length (h_ns h)) (length (h_es h))) (from_dict d r)).
  { unfold from_dict. presM; [auto with pres|by apply Inv_append]. }
  apply H. split; [done|split; lia].
Qed.

Lemma sarg_or_lt n a b : nsarg_lt n a → nsarg_lt n b → nsarg_lt n (sarg_or a b).
Proof. by destruct a. Qed.
Lemma add_repr_styles n m f order d1 d2 d : repr_styles n m d1 → repr_styles n m d2 →
  add_repr f order d1 d2 = Ok d → repr_styles n m d.
Proof.
  intros [Hn1 He1] [Hn2 He2]. unfold add_repr. intros (nds & Hnds & Hd)%rbind_Ok.
  apply rbind_Ok in Hd as (eds & Heds & [= <-]). split; simpl.
  - intros nd kv [= <-] Hkv. apply rmap_Ok in Hnds. apply elem_of_list_lookup in Hkv as [i Hi].
    eapply Forall2_lookup_r in Hnds as (k & _ & Hk); [|exact Hi].
    apply rbind_Ok in Hk as (a & Ha & [= <-]). simpl. unfold add_node_entry in Ha.
    assert (∀ d, (∀ nd kv, r_nodes d = inl nd → kv ∈ nd → nsarg_lt n (a_style kv.2)) →
       ∀ k a, dget (repr_nodes d) k = Some a → nsarg_lt n (a_style a)) as Hg.
    { clear. intros d Hd k a Ha. apply dget_Some_in in Ha. unfold repr_nodes in Ha.
      destruct (r_nodes d) as [nd|] eqn:Hnd; [|by apply elem_of_nil in Ha]. exact (Hd nd _ eq_refl Ha). }
    destruct (dget (repr_nodes d1) k) as [a1|] eqn:H1, (dget (repr_nodes d2) k) as [a2|] eqn:H2; try done.
    + apply rbind_Ok in Ha as (v & _ & [= <-]). simpl. apply sarg_or_lt; eauto.
    + injection Ha as <-. eauto.
    + injection Ha as <-. eauto.
  - assert (∀ kv, kv ∈ eds → nsarg_lt m (c_style kv.2)) as Hel.
    { assert (He : ∀ s, s ∈ r_edges d1 ++ r_edges d2 → espec_styles m s) by (intros s [?|?]%elem_of_app; auto).
      revert Heds. generalize (r_edges d1 ++ r_edges d2) He. clear. intros es He.
      apply (rfold_inv _ (λ _ acc, ∀ kv, kv ∈ acc → nsarg_lt m (c_style kv.2)) es [] eds).
      - intros ? []%elem_of_nil.
      - intros l1 s l2 acc acc' Hes Hacc. assert (Hs : espec_styles m s).
        { apply He. rewrite Hes. apply elem_of_app. right. left. }
        assert (∀ (k : name * name * option name) (v : eargs) (l : dict _ eargs) kv, kv ∈ dset l k v → kv ∈ l ∨ kv.2 = v) as Hds.
        { clear. intros k v l. induction l as [|[k' v'] l IH]; intros kv; simpl.
          - intros ->%elem_of_list_singleton. by right.
          - destruct (decide (k = k')) as [->|].
            + intros [->|?]%elem_of_cons; [by right|left; by right].
            + intros [->|Hin]%elem_of_cons; [left; left|]. destruct (IH _ Hin); [left; by right|by right]. }
        destruct s as [|p c a2| |]; simpl; try done.
        destruct (dget acc (p, c, c_id a2)) as [a1|] eqn:Ha1.
        + intros (v & _ & [= <-])%rbind_Ok kv [?| ->]%Hds; [by apply Hacc|]. simpl.
          apply sarg_or_lt; [|done]. by apply (Hacc (p, c, c_id a2, a1)), dget_Some_in.
        + intros [= <-] kv [?| ->]%Hds; [by apply Hacc|done]. }
    intros s (kv & -> & Hkv)%elem_of_list_fmap. simpl. by apply Hel.
Qed.
Lemma WF_add_graphs h dflt f order g1 g2 : WF h → WF (add_graphs dflt f order g1 g2 h).1.
Proof.
  intros W. unfold add_graphs, sbind, sread.
  destruct (graph_repr h g1) as [d1|x1] eqn:H1; [|done].
  destruct (graph_repr h g2) as [d2|x2] eqn:H2; [|done].
  destruct (get_g h g2) as [G2|x] eqn:HG2; [|done].
  pose proof (graph_repr_styles _ _ _ W H1) as S1. pose proof (graph_repr_styles _ _ _ W H2) as S2.
  set (c := when_some _ _).
  assert (HI : Inv (length (h_ns h)) (length (h_es h)) (c h).1).
  { assert (pres (Inv (length (h_ns h)) (length (h_es h))) c) as Hc.
    { apply pres_when_some. intros a. apply Inv_upd_disp. }
    apply Hc. split; [done|split; lia]. }
  destruct (c h) as [h1 [[]|x]]; simpl in *; [|apply HI].
  destruct (add_repr f order d1 d2) as [d|x] eqn:Hd; [|apply HI]. destruct HI as [W1 [Sn Se]].
  apply WF_graph_of; [done|]. simpl. eapply repr_styles_mono; [exact Sn|exact Se|].
  eapply add_repr_styles; [exact S1|exact S2|exact Hd].
Qed.

(** * Styling *)
(** a computation that changes only data fields *)
Definition dpres {A} (c : M A) : Prop := ∀ h, data_only h (c h).1.
Lemma dpres_ret {A} (a : A) : dpres (sret a).
Proof. intros h. apply data_only_refl. Qed.
Lemma dpres_raise {A} x : dpres (sraise x : M A).
Proof. intros h. apply data_only_refl. Qed.
Lemma dpres_read {A} (f : heap → res A) : dpres (sread f).
Proof. intros h. apply data_only_refl. Qed.
Lemma dpres_bind {A B} (c : M A) (k : A → M B) : dpres c → (∀ a, dpres (k a)) → dpres (sbind c k).
Proof.
  intros Hc Hk h. unfold sbind. specialize (Hc h). destruct (c h) as [h1 [a|x]]; simpl in *; [|done].
  eapply data_only_trans; [done|]. apply Hk.
Qed.
Lemma dpres_iter {A} (f : A → M unit) l : (∀ x, dpres (f x)) → dpres (siter f l).
Proof. intros Hf. induction l; simpl; [apply dpres_ret|]. by apply dpres_bind. Qed.
Lemma dpres_fold {A B} (f : B → A → M B) l b : (∀ b x, dpres (f b x)) → dpres (sfold f b l).
Proof. intros Hf. revert b. induction l; intros b; simpl; [apply dpres_ret|]. by apply dpres_bind. Qed.
Lemma dpres_node_style r d : dpres (node_set_style r (SDict d)).
Proof. intros h. by apply node_set_style_data_only. Qed.
Lemma dpres_edge_style r d : dpres (edge_set_style r (SDict d)).
Proof. intros h. by apply edge_set_style_data_only. Qed.
Lemma dpres_edge_style_none r : dpres (edge_set_style r SNone).
Proof. intros h. by apply edge_set_style_data_only. Qed.
Lemma dpres_assign_nstyle r sty : dpres (assign_nstyle r sty).
Proof.
  intros h. unfold assign_nstyle, sbind, new_ns. eapply data_only_trans; [|apply node_set_style_data_only].
  - apply data_only_same; simpl; try done. apply app_length_le.
  - simpl. rewrite app_length. simpl. lia.
Qed.
Lemma dpres_assign_estyle e sty : dpres (let* k := new_es sty in edge_set_style e (SObj k)).
Proof.
  intros h. unfold sbind, new_es. eapply data_only_trans; [|apply edge_set_style_data_only].
  - apply data_only_same; simpl; try done. apply app_length_le.
  - simpl. rewrite app_length. simpl. lia.
Qed.
Lemma dpres_new_ns sty : dpres (new_ns sty).
Proof. intros h. apply data_only_same; simpl; try done. apply app_length_le. Qed.
Lemma dpres_new_es sty : dpres (new_es sty).
Proof. intros h. apply data_only_same; simpl; try done. apply app_length_le. Qed.
Lemma dpres_upd_ns s f : dpres (upd_ns s f).
Proof.
  intros h. unfold upd_ns. destruct (h_ns h !! s) as [sty|]; [|apply data_only_refl].
  destruct (f sty); [|apply data_only_refl]. apply data_only_same; simpl; try done. by rewrite insert_length.
Qed.
Lemma dpres_upd_es s f : dpres (upd_es s f).
Proof.
  intros h. unfold upd_es. destruct (h_es h !! s) as [sty|]; [|apply data_only_refl].
  destruct (f sty); [|apply data_only_refl]. apply data_only_same; simpl; try done. by rewrite insert_length.
Qed.
Lemma dpres_complement_ns s d : dpres (complement_ns s d).
Proof. unfold complement_ns. apply dpres_bind; [apply dpres_read|]. intros _. apply dpres_iter. intros kv. apply dpres_upd_ns. Qed.
Lemma dpres_complement_es s d : dpres (complement_es s d).
Proof. unfold complement_es. apply dpres_bind; [apply dpres_read|]. intros _. apply dpres_iter. intros kv. apply dpres_upd_es. Qed.
#[global] Hint Resolve dpres_complement_ns dpres_complement_es dpres_node_style dpres_edge_style dpres_edge_style_none dpres_assign_nstyle dpres_assign_estyle
  dpres_upd_ns dpres_upd_es : pres.
Ltac dstep :=
  match goal with
  | |- dpres (sbind (new_es _) _) => apply dpres_assign_estyle
  | |- dpres (sbind _ _) => apply dpres_bind; [|intros ?]
  | |- dpres (siter _ _) => apply dpres_iter; intros ?
  | |- dpres (sfold _ _ _) => apply dpres_fold; intros ? ?
  | |- dpres (sret _) => apply dpres_ret
  | |- dpres (sraise _) => apply dpres_raise
  | |- dpres (sread _) => apply dpres_read
  | |- dpres (match ?x with _ => _ end) => destruct x
  end.
Ltac dpresM := repeat first [solve [auto with pres] | dstep].

Lemma dpres_style_root used r : dpres (style_root used r).
Proof. unfold style_root. dpresM. Qed.
Lemma dpres_style_branch r : dpres (style_branch r).
Proof. unfold style_branch. dpresM. Qed.
Lemma dpres_style_edge carry e : dpres (style_edge carry e).
Proof.
  unfold style_edge.
  apply dpres_bind; [apply dpres_read|intros E]. destruct (e_style E); [apply dpres_ret|].
  apply dpres_bind; [apply dpres_read|intros s]. apply dpres_bind; [apply dpres_read|intros nsty].
  apply dpres_bind; [apply dpres_read|intros sty]. apply dpres_bind; [apply dpres_read|intros sty'].
  intros h. unfold sbind at 1, new_es. eapply data_only_trans; [apply (dpres_assign_estyle e sty')|].
  unfold sbind. simpl. destruct (edge_set_style e _ _) as [h1 [[]|x]]; apply data_only_refl.
Qed.
#[global] Hint Resolve dpres_style_root dpres_style_branch dpres_style_edge : pres.
Lemma dpres_stylize g shuffle : dpres (stylize g shuffle).
Proof.
  unfold stylize, when_dict, stylize_with_pensieve, stylize_randomly, stylize_edges_based_on_nodes,
    node_complement, edge_complement, overwrite_node_colour, overwrite_edge_colour. dpresM.
Qed.
Lemma WF_stylize h g shuffle : WF h → WF (stylize g shuffle h).1.
Proof. intros W. eapply WF_data_only; [done|]. apply dpres_stylize. Qed.
