(** Lemmas on the Python dictionaries and the monads of the model. *)
From Verif Require Export Heap.

Lemma sublist_NoDup {A} (l k : list A) : l `sublist_of` k → NoDup k → NoDup l.
Proof.
  induction 1 as [|x l k H IH|x l k H IH]; [done| |].
  - rewrite !NoDup_cons. intros [Hx ?]. split; [|auto]. intros Hl. apply Hx.
    by eapply elem_of_submseteq; [done|apply sublist_submseteq].
  - rewrite NoDup_cons. intros [??]. auto.
Qed.

Lemma dict_functional {K V} (d : dict K V) k v v' : NoDup (dkeys d) → (k, v) ∈ d → (k, v') ∈ d → v = v'.
Proof.
  induction d as [|[k1 v1] d IH]; simpl; [by intros _ ?%elem_of_nil|].
  inversion_clear 1 as [|?? Hk Hd]. rewrite !elem_of_cons. intros [[= -> ->]|H1] [[= ->]|H2]; try done.
  - destruct Hk. apply elem_of_list_fmap. by exists (k1, v').
  - simplify_eq. destruct Hk. apply elem_of_list_fmap. by exists (k1, v).
  - auto.
Qed.

Section dict.
  Context {K V : Type} `{EqDecision K}.
  Implicit Types (d : dict K V) (k : K) (v : V).

  Lemma dget_Some_in d k v : dget d k = Some v → (k, v) ∈ d.
  Proof.
    induction d as [|[k' v'] d IH]; simpl; [done|].
    destruct (decide (k = k')) as [->|]; intros; [simplify_eq; left|right; auto].
  Qed.
  Lemma dget_in_Some d k v : NoDup (dkeys d) → (k, v) ∈ d → dget d k = Some v.
  Proof.
    induction d as [|[k' v'] d IH]; simpl; [by intros _ ?%elem_of_nil|].
    inversion_clear 1. intros [[= -> ->]|Hin]%elem_of_cons; [by rewrite decide_True|].
    rewrite decide_False; [auto|]. intros ->. apply H0.
    apply elem_of_list_fmap. by exists (k', v).
  Qed.
  Lemma dget_None d k : dget d k = None ↔ k ∉ dkeys d.
  Proof.
    induction d as [|[k' v'] d IH]; simpl.
    - split; [intros _ ?%elem_of_nil; done|done].
    - rewrite elem_of_cons. destruct (decide (k = k')); [naive_solver|]. rewrite IH. naive_solver.
  Qed.
  Lemma dget_is_Some d k : is_Some (dget d k) ↔ k ∈ dkeys d.
  Proof.
    destruct (dget d k) eqn:E.
    - split; [intros _|eauto]. apply dget_Some_in in E. apply elem_of_list_fmap. by exists (k, v).
    - split; [intros [? ?]; done|]. by apply dget_None in E.
  Qed.
  Lemma elem_of_dkeys d k : k ∈ dkeys d ↔ ∃ v, (k, v) ∈ d.
  Proof.
    unfold dkeys. rewrite elem_of_list_fmap. split.
    - intros ([??] & -> & ?); eauto.
    - intros [v ?]. by exists (k, v).
  Qed.
  Lemma elem_of_dvals d v : v ∈ dvals d ↔ ∃ k, (k, v) ∈ d.
  Proof.
    unfold dvals. rewrite elem_of_list_fmap. split.
    - intros ([??] & -> & ?); eauto.
    - intros [k ?]. by exists (k, v).
  Qed.
  Lemma dmem_true d k : dmem d k = true ↔ k ∈ dkeys d.
  Proof.
    rewrite <-dget_is_Some. unfold dmem.
    destruct (dget d k); split; intros H; [by eexists|done|done|by destruct H].
  Qed.
  Lemma dmem_false d k : dmem d k = false ↔ k ∉ dkeys d.
  Proof. rewrite <-dmem_true. by destruct (dmem d k). Qed.

  (** a fresh key goes to the end *)
  Lemma dset_fresh d k v : k ∉ dkeys d → dset d k v = d ++ [(k, v)].
  Proof.
    induction d as [|[k' v'] d IH]; simpl; [done|].
    rewrite elem_of_cons. intros. rewrite decide_False by naive_solver.
    rewrite IH; naive_solver.
  Qed.
  Lemma dkeys_dset_old d k v : k ∈ dkeys d → dkeys (dset d k v) = dkeys d.
  Proof.
    induction d as [|[k' v'] d IH]; simpl; [by intros ?%elem_of_nil|].
    rewrite elem_of_cons. destruct (decide (k = k')); simpl; [done|].
    intros [?|?]; [done|]. by rewrite IH.
  Qed.
  Lemma dset_same d k v : dget d k = Some v → dset d k v = d.
  Proof.
    induction d as [|[k' v'] d IH]; simpl; [done|].
    destruct (decide (k = k')); intros; simplify_eq; [done|]. by rewrite IH.
  Qed.
  Lemma NoDup_dkeys_dset d k v : NoDup (dkeys d) → NoDup (dkeys (dset d k v)).
  Proof.
    intros. destruct (decide (k ∈ dkeys d)); [by rewrite dkeys_dset_old|].
    rewrite dset_fresh by done. unfold dkeys. rewrite map_app. apply NoDup_app. split_and!; [done| |].
    - intros k' Hk ->%elem_of_list_singleton. done.
    - apply NoDup_singleton.
  Qed.
  Lemma NoDup_dkeys_snoc d k v : NoDup (dkeys d) → k ∉ dkeys d → NoDup (dkeys (d ++ [(k, v)])).
  Proof. intros. rewrite <-dset_fresh by done. by apply NoDup_dkeys_dset. Qed.
  Lemma dget_dset d k v k' : dget (dset d k v) k' = if decide (k' = k) then Some v else dget d k'.
  Proof.
    induction d as [|[k1 v1] d IH]; simpl.
    - by destruct (decide (k' = k)).
    - destruct (decide (k = k1)) as [->|]; simpl; [by destruct (decide (k' = k1))|].
      rewrite IH. destruct (decide (k' = k1)), (decide (k' = k)); congruence.
  Qed.
  Lemma elem_of_dset d k v k' v' : NoDup (dkeys d) →
    (k', v') ∈ dset d k v ↔ (k' = k ∧ v' = v) ∨ (k' ≠ k ∧ (k', v') ∈ d).
  Proof.
    intros Hd. assert (Hd' := NoDup_dkeys_dset d k v Hd). split.
    - intros H%dget_in_Some; [|done]. rewrite dget_dset in H.
      destruct (decide (k' = k)); [left; naive_solver|right]. split; [done|]. by apply dget_Some_in.
    - intros Hcase. apply dget_Some_in. rewrite dget_dset.
      destruct Hcase as [[-> ->]|[? ?]]; [by rewrite decide_True|].
      rewrite decide_False by done. by apply dget_in_Some.
  Qed.

  (** deletion is filtering *)
  Lemma ddel_filter d k : NoDup (dkeys d) → ddel d k = filter (λ kv, kv.1 ≠ k) (d : list (K * V)).
  Proof.
    induction d as [|[k' v'] d IH]; [done|]. inversion_clear 1.
    rewrite filter_cons. cbn [ddel fst]. destruct (decide (k = k')) as [->|].
    - rewrite decide_False by naive_solver. symmetry. clear IH H1.
      induction d as [|[k2 v2] d IH]; [done|]. rewrite filter_cons. cbn [dkeys map fst] in *.
      rewrite decide_True.
      + f_equal. apply IH. intros ?. apply H0. by right.
      + intros ->. apply H0. by left.
    - rewrite decide_True by naive_solver. f_equal. auto.
  Qed.
  Lemma elem_of_ddel d k k' v' : NoDup (dkeys d) → (k', v') ∈ ddel d k ↔ k' ≠ k ∧ (k', v') ∈ d.
  Proof. intros. rewrite ddel_filter by done. by rewrite elem_of_list_filter. Qed.
  Lemma ddel_sublist d k : ddel d k `sublist_of` d.
  Proof.
    induction d as [|[k' v'] d IH]; simpl; [done|].
    destruct (decide (k = k')); [by apply sublist_cons|by apply sublist_skip].
  Qed.
  Lemma NoDup_dkeys_ddel d k : NoDup (dkeys d) → NoDup (dkeys (ddel d k)).
  Proof.
    intros. eapply sublist_NoDup; [|done]. unfold dkeys. apply fmap_sublist, ddel_sublist.
  Qed.
  Lemma ddel_app_fresh d k v : k ∉ dkeys d → ddel (d ++ [(k, v)]) k = d.
  Proof.
    induction d as [|[k' v'] d IH]; simpl; [by rewrite decide_True|].
    rewrite elem_of_cons. intros. rewrite decide_False by naive_solver. f_equal. naive_solver.
  Qed.
  Lemma ddel_notin d k : k ∉ dkeys d → ddel d k = d.
  Proof.
    induction d as [|[k' v'] d IH]; simpl; [done|].
    rewrite elem_of_cons. intros. rewrite decide_False by naive_solver. f_equal. naive_solver.
  Qed.
  Lemma length_ddel d k : k ∈ dkeys d → S (length (ddel d k)) = length d.
  Proof.
    induction d as [|[k' v'] d IH]; simpl; [by intros ?%elem_of_nil|].
    rewrite elem_of_cons. destruct (decide (k = k')); [done|]. intros [?|?]; [done|].
    simpl. f_equal. auto.
  Qed.
  Lemma dkeys_app d d' : dkeys (d ++ d') = dkeys d ++ dkeys d'.
  Proof. apply map_app. Qed.
  Lemma dvals_app d d' : dvals (d ++ d') = dvals d ++ dvals d'.
  Proof. apply map_app. Qed.
  Lemma dgetR_Ok d k v : dgetR d k = Ok v ↔ dget d k = Some v.
  Proof. unfold dgetR. destruct (dget d k); naive_solver. Qed.
  Lemma dgetR_Err d k x : dgetR d k = Err x ↔ dget d k = None ∧ x = KeyError.
  Proof. unfold dgetR. destruct (dget d k); naive_solver. Qed.
End dict.

Lemma eqb_true {A} `{EqDecision A} (x y : A) : eqb x y = true ↔ x = y.
Proof. apply bool_decide_eq_true. Qed.
Lemma eqb_false {A} `{EqDecision A} (x y : A) : eqb x y = false ↔ x ≠ y.
Proof. apply bool_decide_eq_false. Qed.
Lemma eqb_is {A} `{EqDecision A} (x y : A) : eqb x y = true → x = y.
Proof. apply eqb_true. Qed.
Lemma eqb_isnt {A} `{EqDecision A} (x y : A) : eqb x y = false → x ≠ y.
Proof. apply eqb_false. Qed.
Lemma eqb_same {A} `{EqDecision A} (x : A) : eqb x x = true.
Proof. by apply eqb_true. Qed.

Section nub.
  Context {A : Type} `{EqDecision A}.
  Implicit Types (x : A) (l acc : list A).
  Lemma elem_of_add_new acc x y : y ∈ add_new acc x ↔ y ∈ acc ∨ y = x.
  Proof.
    unfold add_new. destruct (decide (x ∈ acc)); [naive_solver|].
    rewrite elem_of_app, elem_of_list_singleton. done.
  Qed.
  Lemma NoDup_add_new acc x : NoDup acc → NoDup (add_new acc x).
  Proof.
    intros. unfold add_new. destruct (decide (x ∈ acc)); [done|]. apply NoDup_app.
    split_and!; [done| |apply NoDup_singleton]. intros ? ? ->%elem_of_list_singleton. done.
  Qed.
  Lemma elem_of_fold_add_new l acc y : y ∈ fold_left add_new l acc ↔ y ∈ acc ∨ y ∈ l.
  Proof.
    revert acc. induction l as [|x l IH]; intros acc; simpl.
    - rewrite elem_of_nil. naive_solver.
    - rewrite IH, elem_of_add_new, elem_of_cons. naive_solver.
  Qed.
  Lemma NoDup_fold_add_new l acc : NoDup acc → NoDup (fold_left add_new l acc).
  Proof. revert acc. induction l as [|x l IH]; intros acc ?; simpl; auto using NoDup_add_new. Qed.
  Lemma elem_of_nub l y : y ∈ nub l ↔ y ∈ l.
  Proof. unfold nub. rewrite elem_of_fold_add_new, elem_of_nil. naive_solver. Qed.
  Lemma NoDup_nub l : NoDup (nub l).
  Proof. apply NoDup_fold_add_new, NoDup_nil_2. Qed.
  Lemma fold_add_new_NoDup l acc :
    NoDup (acc ++ l) → fold_left add_new l acc = acc ++ l.
  Proof.
    revert acc. induction l as [|x l IH]; intros acc Hnd; simpl; [by rewrite app_nil_r|].
    unfold add_new at 2. rewrite decide_False.
    - rewrite IH; rewrite <-(assoc_L (++)); done.
    - apply NoDup_app in Hnd as (_ & Hd & _). intros Hx. apply (Hd x Hx). left.
  Qed.
  Lemma nub_NoDup l : NoDup l → nub l = l.
  Proof. intros. unfold nub. by rewrite fold_add_new_NoDup. Qed.
End nub.

(** * The error monad *)
Lemma rbind_Ok {A B} (m : res A) (k : A → res B) b :
  rbind m k = Ok b ↔ ∃ a, m = Ok a ∧ k a = Ok b.
Proof. destruct m; simpl; naive_solver. Qed.
Lemma rbind_Err {A B} (m : res A) (k : A → res B) x :
  rbind m k = Err x ↔ m = Err x ∨ ∃ a, m = Ok a ∧ k a = Err x.
Proof. destruct m; simpl; naive_solver. Qed.

Lemma rmap_Ok {A B} (f : A → res B) l ys :
  rmap f l = Ok ys ↔ Forall2 (λ x y, f x = Ok y) l ys.
Proof.
  revert ys. induction l as [|x l IH]; intros ys; simpl.
  - split; [intros [= <-]; constructor|by inversion 1].
  - rewrite rbind_Ok. split.
    + intros (y & Hy & (ys' & Hys & [= <-])%rbind_Ok). constructor; [done|]. by apply IH.
    + inversion_clear 1. eexists; split; [done|]. apply rbind_Ok. eexists. split; [by apply IH|done].
Qed.
Lemma rmap_total {A B} (f : A → res B) (p : A → B) l :
  (∀ x, x ∈ l → f x = Ok (p x)) → rmap f l = Ok (map p l).
Proof.
  induction l as [|x l IH]; intros H; simpl; [done|].
  rewrite H by left. simpl. rewrite IH; [done|]. intros. apply H. by right.
Qed.
Lemma rfilter_total {A} (f : A → res bool) (P : A → Prop) `{!∀ x, Decision (P x)} l :
  (∀ x, x ∈ l → f x = Ok (bool_decide (P x))) → rfilter f l = Ok (filter P l).
Proof.
  induction l as [|x l IH]; intros Hf; simpl; [done|].
  rewrite Hf by left. simpl. rewrite IH; [|intros; apply Hf; by right]. simpl.
  rewrite filter_cons. by destruct (decide (P x)) as [HP|HP];
    [rewrite bool_decide_true by done|rewrite bool_decide_false by done].
Qed.
Lemma rfold_total {A B} (f : B → A → res B) (p : B → A → B) (I : B → Prop) l b :
  I b → (∀ b x, x ∈ l → I b → f b x = Ok (p b x) ∧ I (p b x)) →
  rfold f b l = Ok (fold_left p l b) ∧ I (fold_left p l b).
Proof.
  revert b. induction l as [|x l IH]; intros b HI H; simpl; [done|].
  destruct (H b x) as [-> ?]; [left|done|]. simpl. apply IH; [done|]. intros. apply H; [by right|done].
Qed.
Lemma rfold_inv {A B} (f : B → A → res B) (I : list A → B → Prop) l b b' :
  I [] b → (∀ l1 x l2 b b', l = l1 ++ x :: l2 → I l1 b → f b x = Ok b' → I (l1 ++ [x]) b') →
  rfold f b l = Ok b' → I l b'.
Proof.
  intros H0 Hstep. cut (∀ l2 l1 b0, l = l1 ++ l2 → I l1 b0 → rfold f b0 l2 = Ok b' → I l b').
  { intros Hc. by apply (Hc l [] b). }
  clear H0. induction l2 as [|x l2 IH]; intros l1 b0 Hl HI; simpl.
  - intros [= <-]. by rewrite Hl, app_nil_r.
  - intros (b1 & Hf & Hr)%rbind_Ok. apply (IH (l1 ++ [x]) b1); [|eauto|done].
    by rewrite <-(assoc_L (++)).
Qed.

(** * The state monad *)
Lemma sbind_Ok {A B} (m : M A) (k : A → M B) h h' b :
  sbind m k h = (h', Ok b) ↔ ∃ h1 a, m h = (h1, Ok a) ∧ k a h1 = (h', Ok b).
Proof. unfold sbind. destruct (m h) as [h1 [a|x]]; naive_solver. Qed.
Lemma sbind_Err {A B} (m : M A) (k : A → M B) h h' x :
  sbind m k h = (h', Err x) ↔
  m h = (h', Err x) ∨ ∃ h1 a, m h = (h1, Ok a) ∧ k a h1 = (h', Err x).
Proof. unfold sbind. destruct (m h) as [h1 [a|y]]; naive_solver. Qed.
Lemma sbind_step {A B} (m : M A) (k : A → M B) h h1 a :
  m h = (h1, Ok a) → sbind m k h = k a h1.
Proof. unfold sbind. by intros ->. Qed.
Lemma sbind_fail {A B} (m : M A) (k : A → M B) h h1 x :
  m h = (h1, Err x) → sbind m k h = (h1, Err x).
Proof. unfold sbind. by intros ->. Qed.

(** [pres I m]: running [m] in a state satisfying [I] ends in one, whether it
    returns or raises. *)
Definition pres {A} (I : heap → Prop) (m : M A) : Prop := ∀ h, I h → I (m h).1.

Lemma pres_ret {A} (I : heap → Prop) (a : A) : pres I (sret a).
Proof. by intros h. Qed.
Lemma pres_raise {A} (I : heap → Prop) x : pres I (sraise x : M A).
Proof. by intros h. Qed.
Lemma pres_read {A} (I : heap → Prop) (f : heap → res A) : pres I (sread f).
Proof. by intros h. Qed.
Lemma pres_bind {A B} (I : heap → Prop) (m : M A) (k : A → M B) :
  pres I m → (∀ a, pres I (k a)) → pres I (sbind m k).
Proof.
  intros Hm Hk h HI. unfold sbind. specialize (Hm h HI). destruct (m h) as [h1 [a|x]]; simpl in *; [|done].
  by apply Hk.
Qed.
(** with what is known about the value returned *)
Lemma pres_bind_post {A B} (I : heap → Prop) (m : M A) (k : A → M B) :
  pres I m → (∀ h h' a, I h → m h = (h', Ok a) → I h' → I (k a h').1) → pres I (sbind m k).
Proof.
  intros Hm Hk h HI. unfold sbind. specialize (Hm h HI). destruct (m h) as [h1 [a|x]] eqn:E; simpl in *; [|done].
  by eapply Hk.
Qed.
Lemma pres_read_bind {A B} (I : heap → Prop) (f : heap → res A) (k : A → M B) :
  (∀ h a, I h → f h = Ok a → I (k a h).1) → pres I (sbind (sread f) k).
Proof.
  intros H h HI. unfold sbind, sread. destruct (f h) eqn:E; [by apply H|done].
Qed.
Lemma pres_iter {A} (I : heap → Prop) (f : A → M unit) l : (∀ x, x ∈ l → pres I (f x)) → pres I (siter f l).
Proof.
  induction l as [|x l IH]; intros H; simpl; [apply pres_ret|].
  apply pres_bind; [apply H; left|]. intros _. apply IH. intros. apply H. by right.
Qed.
Lemma pres_fold {A B} (I : heap → Prop) (f : B → A → M B) l b : (∀ b x, x ∈ l → pres I (f b x)) → pres I (sfold f b l).
Proof.
  revert b. induction l as [|x l IH]; intros b H; simpl; [apply pres_ret|].
  apply pres_bind; [apply H; left|]. intros b'. apply IH. intros. apply H. by right.
Qed.
Lemma pres_if {A} (I : heap → Prop) (b : bool) (m1 m2 : M A) : pres I m1 → pres I m2 → pres I (if b then m1 else m2).
Proof. by destruct b. Qed.

Lemma sread_Ok {A B} (f : heap → res A) (k : A → M B) h a : f h = Ok a → sbind (sread f) k h = k a h.
Proof. unfold sbind, sread. by intros ->. Qed.
Lemma sread_Err {A B} (f : heap → res A) (k : A → M B) h x : f h = Err x → sbind (sread f) k h = (h, Err x).
Proof. unfold sbind, sread. by intros ->. Qed.
Lemma sret_bind {A B} (a : A) (k : A → M B) h : sbind (sret a) k h = k a h.
Proof. done. Qed.
Lemma sbind_assoc {A B C} (m : M A) (k : A → M B) (k' : B → M C) h :
  sbind (sbind m k) k' h = sbind m (λ a, sbind (k a) k') h.
Proof. unfold sbind. by destruct (m h) as [h1 [a|x]]. Qed.
Lemma get_n_Ok h r N : h_nodes h !! r = Some N → get_n h r = Ok N.
Proof. unfold get_n. by intros ->. Qed.
Lemma get_e_Ok h r N : h_edges h !! r = Some N → get_e h r = Ok N.
Proof. unfold get_e. by intros ->. Qed.
Lemma get_g_Ok h r N : h_graphs h !! r = Some N → get_g h r = Ok N.
Proof. unfold get_g. by intros ->. Qed.
Lemma get_n_inv h r N : get_n h r = Ok N → h_nodes h !! r = Some N.
Proof. unfold get_n. destruct (h_nodes h !! r); naive_solver. Qed.
Lemma get_e_inv h r N : get_e h r = Ok N → h_edges h !! r = Some N.
Proof. unfold get_e. destruct (h_edges h !! r); naive_solver. Qed.
Lemma get_g_inv h r N : get_g h r = Ok N → h_graphs h !! r = Some N.
Proof. unfold get_g. destruct (h_graphs h !! r); naive_solver. Qed.
Lemma upd_n_run h r N f : h_nodes h !! r = Some N →
  upd_n r f h = (h <| h_nodes := <[r := f N]> (h_nodes h) |>, Ok tt).
Proof. unfold upd_n. by intros ->. Qed.
Lemma upd_e_run h r N f : h_edges h !! r = Some N →
  upd_e r f h = (h <| h_edges := <[r := f N]> (h_edges h) |>, Ok tt).
Proof. unfold upd_e. by intros ->. Qed.
Lemma upd_g_run h r N f : h_graphs h !! r = Some N →
  upd_g r f h = (h <| h_graphs := <[r := f N]> (h_graphs h) |>, Ok tt).
Proof. unfold upd_g. by intros ->. Qed.
