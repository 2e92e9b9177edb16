(** The traversals on objects with at most one predecessor, and on chains. *)
From Verif Require Export ProofC2c.

(** ** a depth limit when every object is reached in one way *)
Section forest.
  Context {Obj : Type} `{EqDecision Obj} (next : Obj → list Obj) (root : Obj).
  Local Notation R := (λ x y, y ∈ next x).
  Context (Hu : ∀ x y z, rtc R root x → rtc R root y → z ∈ next x → z ∈ next y → z ≠ root → x = y).
  Implicit Types (o c x y z : Obj) (cs des T L P : list Obj) (dd : dict nat (list Obj)).
  (** a step below the root that does not return to it *)
  Definition below (x y : Obj) : Prop := rtc R root x ∧ y ∈ next x ∧ y ≠ root.

  Lemma below_rtc k x : nsteps below k root x → rtc R root x.
  Proof.
    intros Hk. destruct k as [|k]; [by inversion Hk|]. apply nsteps_inv_r in Hk as (y & _ & Hy & ? & _).
    eapply rtc_r; [exact Hy|done].
  Qed.
  Lemma below_back i a b x : nsteps below i a x → nsteps below i b x → a = b.
  Proof.
    revert x. induction i as [|i IH]; intros x Ha Hb; [inversion Ha; inversion Hb; congruence|].
    apply nsteps_inv_r in Ha as (y & Ha & Hy1 & Hy2 & Hy3). apply nsteps_inv_r in Hb as (z & Hb & Hz1 & Hz2 & _).
    assert (y = z) as -> by (by eapply Hu). by eapply IH.
  Qed.
  Lemma below_root k x : nsteps below (S k) x root → False.
  Proof. intros (y & _ & _ & _ & ?)%nsteps_inv_r. done. Qed.
  Lemma below_lt i d x : nsteps below i root x → nsteps below (i + S d) root x → False.
  Proof.
    intros Hi Hj. rewrite Nat.add_comm in Hj. apply nsteps_add_inv in Hj as (y & Hy & Hx).
    rewrite <-(below_back i root y x) in Hy by done. by eapply below_root.
  Qed.
  Lemma below_depth i j x : nsteps below i root x → nsteps below j root x → i = j.
  Proof.
    intros Hi Hj. destruct (lt_eq_lt_dec i j) as [[Hlt|?]|Hlt]; [|done|]; exfalso.
    - apply (below_lt i (j - i - 1) x Hi). by replace (i + S (j - i - 1)) with j by lia.
    - apply (below_lt j (i - j - 1) x Hj). by replace (j + S (i - j - 1)) with i by lia.
  Qed.
  Lemma below_disjoint j o c1 c2 m1 m2 x : nsteps below j root o → below o c1 → below o c2 →
    nsteps below m1 c1 x → nsteps below m2 c2 x → c1 = c2.
  Proof.
    intros Ho H1 H2 Hm1 Hm2.
    assert (m1 = m2) as ->; [|by eapply below_back].
    assert (j + S m1 = j + S m2); [|lia].
    apply (below_depth _ _ x); (eapply nsteps_trans; [exact Ho|]).
    - exact (nsteps_l _ _ _ _ _ H1 Hm1).
    - exact (nsteps_l _ _ _ _ _ H2 Hm2).
  Qed.
  Lemma below_nocycle j o m : nsteps below j root o → nsteps below (S m) o o → False.
  Proof.
    intros Ho Hm. assert (j + S m = j); [|lia]. apply (below_depth _ _ o); [|done]. by eapply nsteps_trans.
  Qed.

  (** the result of a call on [c] *)
  Definition forest_post (d : nat) (c : Obj) (T : list Obj) (out : trav_out) : Prop :=
    let '(L, D, T') := out in
    (∀ x, x ∈ T → x ∈ T') ∧
    (∀ x, x ∈ T' → x ∈ T ∨ (c ∈ T' ∧ ∃ m, nsteps below m c x)) ∧
    (∀ m x, 1 ≤ m ≤ d → nsteps below m c x → x ∈ L).

  Lemma forest_loop d rec j o cs P des dd T0 T :
    nsteps below j root o →
    (∀ c T, below o c → (∀ m x, nsteps below m c x → x ∉ T) → root ∈ T → ∃ out, rec c T = Ok out ∧ forest_post d c T out) →
    (∀ m x, nsteps below m o x → x ∉ T0) →
    (∀ c, c ∈ cs → c ∈ next o) → root ∈ T → (∀ x, x ∈ T0 → x ∈ T) → o ∈ T →
    (∀ x, x ∈ T → x ∈ T0 ∨ x = o ∨ ∃ c m, c ∈ P ∧ c ∈ T ∧ below o c ∧ nsteps below m c x) →
    (∀ c m x, c ∈ P → m ≤ d → below o c → nsteps below m c x → x ∈ des) →
    ∃ L D T', gloop false rec cs des dd T = Ok (L, D, T') ∧
      (∀ x, x ∈ T0 → x ∈ T') ∧ o ∈ T' ∧
      (∀ x, x ∈ T' → x ∈ T0 ∨ ∃ m, nsteps below m o x) ∧
      (∀ c m x, c ∈ P ∨ c ∈ cs → m ≤ d → below o c → nsteps below m c x → x ∈ L).
  Proof.
    intros Ho Hrec HT0o. revert P des dd T. induction cs as [|c cs IH]; intros P des dd T Hcs HrT HT0 HoT HT Hdes.
    - exists des, dd, T. simpl. split_and!; try done.
      + intros x [?|[->|(c & m & _ & _ & Hc & Hm)]]%HT; [by left|right; exists 0; constructor|].
        right. exists (S m). by eapply nsteps_l.
      + intros c m x [?|?%elem_of_nil]; [|done]. by apply Hdes.
    - assert (Hoc : c ∈ next o) by (apply Hcs; left). pose proof (below_rtc _ _ Ho) as Hro.
      simpl. destruct (obj_in c T) eqn:HcT.
      + apply obj_in_true in HcT.
        destruct (IH P des dd T) as (L & D & T' & Hrun & ? & ? & ? & Hcov); try done.
        { intros; apply Hcs; by right. }
        exists L, D, T'. split_and!; try done. intros c' m x Hc' Hmd Hb Hm.
        assert (c' ∈ P ∨ c' ∈ cs) as Hor; [|by eapply Hcov].
        destruct Hc' as [?|[->|?]%elem_of_cons]; [by left| |by right]. left.
        destruct (HT c HcT) as [Hc0|[->|(c1 & m1 & HcP & _ & Hb1 & Hm1)]].
        * exfalso. eapply (HT0o 1 c); [|done]. by apply nsteps_once.
        * exfalso. eapply (below_nocycle j o 0); [done|]. by apply nsteps_once.
        * by rewrite <-(below_disjoint j o c1 c m1 0 c) by (done || constructor).
      + apply obj_in_false in HcT. assert (Hb : below o c) by (split_and!; [done..|by intros ->]).
        destruct (Hrec c T) as ([[ca cd] T1] & Hr & HTT1 & HT1 & HL1); [done| |done|].
        { intros m x Hm HxT. destruct (HT x HxT) as [Hx0|[->|(c1 & m1 & _ & Hc1T & Hb1 & Hm1)]].
          - eapply (HT0o (S m) x); [|done]. by eapply nsteps_l.
          - eapply (below_nocycle j o m); [done|]. by eapply nsteps_l.
          - apply HcT. by rewrite <-(below_disjoint j o c1 c m1 m x). }
        rewrite Hr. cbn [rbind]. rewrite obj_merge_list, add_first_list.
        set (des1 := fold_left add_new ca (add_new des c)).
        assert (Hdes1 : ∀ x, x ∈ des1 ↔ x ∈ des ∨ x = c ∨ x ∈ ca).
        { intros x. unfold des1. rewrite elem_of_fold_add_new, elem_of_add_new. tauto. }
        destruct (IH (c :: P) des1 (obj_merge ca cd (add_new des c) (add_first c des dd).2).2 T1)
          as (L & D & T' & Hrun & ? & ? & ? & Hcov).
        * intros; apply Hcs; by right.
        * by apply HTT1.
        * intros x Hx. by apply HTT1, HT0.
        * by apply HTT1.
        * intros x [Hx|[HcT1 [m Hm]]]%HT1.
          -- destruct (HT x Hx) as [?|[?|(c1 & m1 & ? & ? & ? & ?)]]; [by left|by right; left|].
             right. right. exists c1, m1. split_and!; [by right|by apply HTT1|done..].
          -- right. right. exists c, m. split_and!; [left|done..].
        * intros c1 m x [->|HcP]%elem_of_cons Hmd Hb1 Hm; apply Hdes1; [|left; by eapply Hdes].
          destruct m as [|m]; [right; left; by inversion Hm|]. right. right. eapply HL1; [|exact Hm]. lia.
        * exists L, D, T'. split_and!; try done. intros c1 m x Hc1. apply Hcov.
          destruct Hc1 as [?|[->|?]%elem_of_cons]; [left; by right|left; left|by right].
  Qed.

  Lemma forest_dfs fuel d j c T : (0 <= d)%Z → Z.to_nat d < fuel → nsteps below j root c →
    (∀ m x, nsteps below m c x → x ∉ T) → c = root ∨ root ∈ T →
    ∃ out, obj_dfs fuel next (Some d) c T = Ok out ∧ forest_post (Z.to_nat d) c T out.
  Proof.
    revert d j c T. induction fuel as [|fuel IH]; intros d j c T Hd Hf Hj HT Hroot; [lia|]. cbn [obj_dfs].
    destruct (d <=? 0)%Z eqn:Hle.
    - eexists. split; [done|]. simpl. split_and!; [done|auto|]. intros m x ? _. lia.
    - destruct (next c) as [|c0 cs0] eqn:Hno.
      + eexists. split; [done|]. simpl. split_and!.
        * intros x ?. apply elem_of_app. by left.
        * intros x [?| ->%elem_of_list_singleton]%elem_of_app; [by left|]. right.
          split; [apply elem_of_app; right; by apply elem_of_list_singleton|]. exists 0. constructor.
        * intros [|m] x ? Hm; [lia|]. inversion Hm as [|? ? y ? (_ & Hy & _) _]; subst. rewrite Hno in Hy. by apply elem_of_nil in Hy.
      + rewrite obj_loop_gloop, <-Hno.
        destruct (forest_loop (Z.to_nat (d - 1)) (λ c t, obj_dfs fuel next (Some (d - 1)%Z) c t) j c (next c) [] [] [(1, [])] T (T ++ [c]))
          as (L & D & T' & Hrun & HT1 & HcT & HT' & Hcov).
        * done.
        * intros c1 T1 Hb HT1 Hr. apply (IH (d - 1)%Z (S j)); [lia|lia| |done|by right]. by eapply nsteps_r.
        * done.
        * done.
        * apply elem_of_app. destruct Hroot as [->|?]; [right; by apply elem_of_list_singleton|by left].
        * intros x ?. apply elem_of_app. by left.
        * apply elem_of_app. right. by apply elem_of_list_singleton.
        * intros x [?| ->%elem_of_list_singleton]%elem_of_app; auto.
        * by intros c1 m x ?%elem_of_nil.
        * exists (L, D, T'). split; [exact Hrun|]. simpl. split_and!; [done| |].
          -- intros x [?|?]%HT'; auto.
          -- intros [|m] x ? Hm; [lia|]. inversion Hm as [|? ? y ? Hy Hyx]; subst.
             eapply (Hcov y m); [right; by destruct Hy as (_ & ? & _)|lia|done|done].
  Qed.

  Lemma below_walk k x : nsteps R k root x → x ≠ root → ∃ k', 1 ≤ k' ≤ k ∧ nsteps below k' root x.
  Proof.
    revert x. induction k as [|k IH]; intros x Hk Hx; [by inversion Hk|].
    apply nsteps_inv_r in Hk as (y & Hk & Hy).
    assert (below y x) by (split_and!; [apply rtc_nsteps; eauto|done|done]).
    destruct (decide (y = root)) as [->|Hne].
    - exists 1. split; [lia|]. by apply nsteps_once.
    - destruct (IH y Hk Hne) as (k' & ? & ?). exists (S k'). split; [lia|]. by eapply nsteps_r.
  Qed.
End forest.

(** ** distances along a chain *)
Section chain.
  Context {Obj : Type} `{EqDecision Obj} (next : Obj → list Obj) (b : bool) (root : Obj).
  Local Notation R := (λ x y, y ∈ next x).
  Context (Hu : ∀ x y z, rtc R root x → y ∈ next x → z ∈ next x → y = z).
  Context (Hac : b = true → ∀ x, rtc R root x → ¬ tc R x x).

  Implicit Types (o c x y z : Obj) (cs des T L : list Obj) (dd : dict nat (list Obj)).
  (** the objects of a chain with their distances *)
  Definition chain_dict (L : list Obj) : dict nat (list Obj) := imap (λ i x, (S i, [x])) L.
  Lemma chain_dict_cons x L : chain_dict (x :: L) = (1, [x]) :: map (λ kv, (S kv.1, kv.2)) (chain_dict L).
  Proof. unfold chain_dict. rewrite imap_cons. f_equal. change (map ?f ?l) with (f <$> l). rewrite fmap_imap. by apply imap_ext. Qed.
  Lemma elem_chain_dict L k l : (k, l) ∈ chain_dict L ↔ ∃ i x, L !! i = Some x ∧ k = S i ∧ l = [x].
  Proof.
    unfold chain_dict. rewrite elem_of_lookup_imap. split.
    - intros (i & x & [= -> ->] & ?). eauto.
    - intros (i & x & ? & -> & ->). eauto.
  Qed.
  Fixpoint chained (o : Obj) (L : list Obj) : Prop :=
    match L with [] => True | x :: L => x ∈ next o ∧ chained x L end.
  Lemma chained_step o L i x : chained o L → L !! i = Some x → nsteps R (S i) o x.
  Proof.
    revert o i. induction L as [|y L IH]; intros o i Hch Hi; [done|]. destruct Hch as [Hy HL]. destruct i as [|i]; simplify_eq/=.
    - by apply nsteps_once.
    - eapply nsteps_l; [exact Hy|]. by apply IH.
  Qed.
  Lemma chained_walk o L i x y : rtc R root o → chained o L → L !! i = Some x → nsteps R (S i) o y → x = y.
  Proof.
    revert o i. induction L as [|z L IH]; intros o i Ho Hch Hi Hw; [done|]. destruct Hch as [Hz HL].
    inversion Hw as [|? ? w ? Hw1 Hw2]; subst. assert (w = z) as -> by (by eapply Hu).
    destruct i as [|i]; simplify_eq/=; [by inversion Hw2|]. eapply IH; [|done..]. by eapply rtc_r.
  Qed.

  Lemma fold_S_fresh (subd : dict nat (list Obj)) (d : dict nat (list Obj)) :
    NoDup (dkeys subd) → (∀ k, k ∈ dkeys subd → S k ∉ dkeys d) →
    fold_left (λ d kv, dset d (S kv.1) kv.2) subd d = d ++ map (λ kv, (S kv.1, kv.2)) subd.
  Proof.
    revert d. induction subd as [|[k l] subd IH]; intros d Hnd Hf; simpl; [by rewrite app_nil_r|].
    apply NoDup_cons in Hnd as [Hk Hnd]. rewrite dset_fresh by (apply Hf; left). rewrite IH.
    - by rewrite <-app_assoc.
    - done.
    - intros k' Hk'. unfold dkeys. rewrite map_app, elem_of_app. intros [?|Hx].
      + by eapply (Hf k'); [right|].
      + simpl in Hx. apply elem_of_list_singleton in Hx. simplify_eq. done.
  Qed.
  Lemma fold_S_same (subd d : dict nat (list Obj)) : (∀ k l, (k, l) ∈ subd → dget d (S k) = Some l) →
    fold_left (λ d kv, dset d (S kv.1) kv.2) subd d = d.
  Proof.
    induction subd as [|[k l] subd IH]; intros Hs; simpl; [done|]. rewrite dset_same by (apply Hs; left).
    apply IH. intros; apply Hs; by right.
  Qed.
  Lemma chain_keys L : NoDup (dkeys (chain_dict L)) ∧ ∀ k, k ∈ dkeys (chain_dict L) → 1 ≤ k.
  Proof.
    induction L as [|x L [IH1 IH2]]; [split; [constructor|by intros k ?%elem_of_nil]|]. rewrite chain_dict_cons.
    assert (dkeys (map (λ kv : nat * list Obj, (S kv.1, kv.2)) (chain_dict L)) = S <$> dkeys (chain_dict L)) as He.
    { unfold dkeys. rewrite map_map. change (S <$> ?l) with (map S l). by rewrite map_map. }
    change (dkeys ((1, [x]) :: ?l)) with (1 :: dkeys l). rewrite He. split.
    - apply NoDup_cons. split; [|by apply NoDup_fmap; [intros ???; lia|]].
      intros (k & ? & Hk%IH2)%elem_of_list_fmap. lia.
    - intros k [->|(k' & -> & _)%elem_of_list_fmap]%elem_of_cons; lia.
  Qed.
  Lemma merge_same sub (subd d : dict nat (list Obj)) acc : (∀ k l, (k, l) ∈ subd → dget d (S k) = Some l) →
    obj_merge sub subd acc d = (fold_left add_new sub acc, d).
  Proof.
    intros Hs. revert acc. induction sub as [|x sub IH]; intros acc; [done|]. cbn [obj_merge fold_left]. unfold add_new at 2.
    destruct (decide (x ∈ acc)).
    - rewrite (proj2 (obj_in_true _ _)) by done. apply IH.
    - rewrite (proj2 (obj_in_false _ _)) by done. rewrite fold_S_same by done. apply IH.
  Qed.
  Lemma fold_add_fresh (l acc : list Obj) : NoDup l → (∀ x, x ∈ l → x ∉ acc) → fold_left add_new l acc = acc ++ l.
  Proof.
    revert acc. induction l as [|x l IH]; intros acc Hnd Hf; cbn [fold_left]; [by rewrite app_nil_r|].
    apply NoDup_cons in Hnd as [Hx Hnd]. unfold add_new at 2. rewrite decide_False by (apply Hf; left).
    rewrite IH; [by rewrite <-app_assoc|done|]. intros y Hy [?| ->%elem_of_list_singleton]%elem_of_app; [|done].
    by eapply (Hf y); [right|].
  Qed.
  Lemma merge_chain c ca cd : NoDup (c :: ca) → (cd = chain_dict ca ∨ ca = [] ∧ cd = [(1, [])]) →
    obj_merge ca cd [c] [(1, [c])] = (c :: ca, chain_dict (c :: ca)).
  Proof.
    intros [Hc Hnd]%NoDup_cons Hcd. destruct ca as [|y ca]; [by destruct Hcd as [->|[_ ->]]|].
    destruct Hcd as [->|[? _]]; [|done]. cbn [obj_merge].
    assert (y ≠ c) as Hyc by (intros ->; apply Hc; left).
    rewrite (proj2 (obj_in_false _ _)) by (by intros ?%elem_of_list_singleton).
    destruct (chain_keys (y :: ca)) as [Hk1 Hk2].
    assert (Hk3 : ∀ k, k ∈ dkeys (chain_dict (y :: ca)) → S k ∉ dkeys [(1, [c])]).
    { intros k Hk%Hk2. unfold dkeys. cbn [map fst]. intros ?%elem_of_list_singleton. lia. }
    rewrite fold_S_fresh by done.
    change ([(1, [c])] ++ map (λ kv : nat * list Obj, (S kv.1, kv.2)) (chain_dict (y :: ca)))
      with ((1, [c]) :: map (λ kv : nat * list Obj, (S kv.1, kv.2)) (chain_dict (y :: ca))).
    rewrite <-chain_dict_cons. rewrite merge_same.
    - f_equal. apply NoDup_cons in Hnd as [Hy Hnd]. rewrite fold_add_fresh; [done|done|].
      intros z Hz. cbn [app]. intros [->|Hz']%elem_of_cons; [apply Hc; by right|]. by apply elem_of_list_singleton in Hz' as ->.
    - intros k l Hkl. apply dget_in_Some; [apply chain_keys|]. rewrite (chain_dict_cons c). right.
      apply elem_of_list_fmap. by exists (k, l).
  Qed.

  (** the result of a call on [o] *)
  Definition chain_post (o : Obj) (T : list Obj) (out : trav_out) : Prop :=
    let '(L, D, T') := out in
    chained o L ∧ NoDup (o :: L) ∧ (∀ x, x ∈ L → x ∉ T) ∧ o ∈ T' ∧
    (D = chain_dict L ∨ L = [] ∧ D = [(1, [])]).

  Lemma chain_rest rec c cs des dd T : (∀ x, x ∈ cs → x = c) → c ∈ T → (b = true → c ∈ des) →
    gloop b rec cs des dd T = Ok (des, dd, T).
  Proof.
    intros Hcs HcT Hdes. induction cs as [|x cs IH]; [done|]. assert (x = c) as -> by (apply Hcs; left). cbn [gloop].
    rewrite (proj2 (obj_in_true _ _)) by done. assert (gloop b rec cs des dd T = Ok (des, dd, T)) as He by (apply IH; intros; apply Hcs; by right).
    destruct b; [|done]. unfold add_first. by rewrite (proj2 (obj_in_true _ _)) by auto.
  Qed.
  Lemma chain_dfs fuel o T out : rtc R root o → (b = true → ∀ x, tc R o x → x ∉ T) →
    o ∉ T → gdfs b fuel next o T = Ok out → chain_post o T out.
  Proof.
    revert o T out. induction fuel as [|fuel IH]; intros o T out Ho HT HoT Hrun; [done|]. cbn [gdfs] in Hrun.
    destruct (next o) as [|c cs] eqn:Hno.
    - simplify_eq. simpl. split_and!; [done|apply NoDup_singleton|by intros ? ?%elem_of_nil| |by left].
      apply elem_of_app. right. by apply elem_of_list_singleton.
    - assert (Hcs : ∀ x, x ∈ cs → x = c) by (intros x Hx; apply (Hu o); rewrite ?Hno; [done|by right|left]).
      assert (Hoc : c ∈ next o) by (rewrite Hno; left).
      assert (HoT1 : o ∈ T ++ [o]) by (apply elem_of_app; right; by apply elem_of_list_singleton).
      cbn [gloop] in Hrun. destruct (obj_in c (T ++ [o])) eqn:HcT.
      + apply obj_in_true in HcT. assert (b = true ∨ b = false) as [Hb|Hb] by (destruct b; auto).
        * exfalso. apply elem_of_app in HcT as [HcT| ->%elem_of_list_singleton].
          -- eapply (HT Hb c); [|done]. by apply tc_once.
          -- eapply (Hac Hb o Ho). by apply tc_once.
        * assert (gloop b (gdfs b fuel next) cs [] [(1, [])] (T ++ [o]) = Ok out) as Hrun' by (by rewrite Hb in Hrun |- *).
          rewrite (chain_rest _ c) in Hrun' by (done || congruence). simplify_eq. simpl.
          split_and!; [done|apply NoDup_singleton|by intros ? ?%elem_of_nil|done|by right].
      + apply obj_in_false in HcT. destruct (gdfs b fuel next c (T ++ [o])) as [[[ca cd] T1]|] eqn:Hr; [|done].
        assert (rtc R root c) as Hrc by (by eapply rtc_r).
        destruct (IH c (T ++ [o]) (ca, cd, T1)) as (Hch & Hnd & Hfr & HcT1 & Hcd); [done| |done|done|].
        { intros Hb x Hx [Hx'| ->%elem_of_list_singleton]%elem_of_app.
          - eapply (HT Hb x); [|done]. by eapply tc_l.
          - eapply (Hac Hb o Ho). by eapply tc_l. }
        assert (add_first c [] [(1, [])] = ([c], [(1, [c])])) as Hf by reflexivity.
        cbn [rbind] in Hrun. rewrite Hf in Hrun. cbn [fst snd] in Hrun.
        rewrite merge_chain in Hrun by done. cbn [fst snd] in Hrun.
        rewrite (chain_rest _ c) in Hrun; [|done|done|intros _; left]. simplify_eq. simpl. split_and!.
        * done.
        * done.
        * apply NoDup_cons. split; [|done]. intros [->|Hx]%elem_of_cons; [by apply HcT|]. by eapply Hfr.
        * intros x [->|Hx]%elem_of_cons HxT; [apply HcT; apply elem_of_app; by left|]. eapply Hfr; [done|]. apply elem_of_app. by left.
        * eapply (gdfs_grow next b); [exact Hr|done].
        * by left.
  Qed.
End chain.
