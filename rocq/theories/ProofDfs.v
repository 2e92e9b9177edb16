(** Correctness of the depth-first traversals, over an arbitrary finite relation. *)
From Verif Require Export ProofDict ModelTraverse.

Section dfs.
  Context {Obj : Type} `{EqDecision Obj}.
  Implicit Types (sub acc : list Obj) (subd accd : dict nat (list Obj)) (next : Obj → list Obj) (o c x y : Obj) (L T cs des : list Obj) (dd : dict nat (list Obj)).

  Lemma obj_in_true x L : obj_in x L = true ↔ x ∈ L.
  Proof. unfold obj_in. by rewrite bool_decide_eq_true. Qed.
  Lemma obj_in_false x L : obj_in x L = false ↔ x ∉ L.
  Proof. unfold obj_in. by rewrite bool_decide_eq_false. Qed.

  (** One traversal with a switch: [b = true] lists an object that was already
      visited (ancestors of a node), [b = false] does not. *)
  Definition add_first c des dd : list Obj * dict nat (list Obj) :=
    if obj_in c des then (des, dd) else (des ++ [c], dset dd 1 (obj_dget dd 1 ++ [c])).
  Fixpoint gloop (b : bool) (rec : Obj → list Obj → res trav_out) cs des dd T : res trav_out :=
    match cs with
    | [] => Ok (des, dd, T)
    | c :: cs' =>
        if obj_in c T then
          if b then gloop b rec cs' (add_first c des dd).1 (add_first c des dd).2 T
          else gloop b rec cs' des dd T
        else
          let! (ca, cd, T) := rec c T in
          let m := obj_merge ca cd (add_first c des dd).1 (add_first c des dd).2 in
          gloop b rec cs' m.1 m.2 T
    end.
  Fixpoint gdfs (b : bool) (fuel : nat) next o T : res trav_out :=
    match fuel with
    | 0 => Err OutOfFuel
    | S fuel =>
        match next o with
        | [] => Ok ([], [], T ++ [o])
        | cs => gloop b (gdfs b fuel next) cs [] [(1, [])] (T ++ [o])
        end
    end.

  Lemma obj_loop_gloop rec cs des dd T : obj_loop rec cs des dd T = gloop false rec cs des dd T.
  Proof.
    revert des dd T. induction cs as [|c cs IH]; intros des dd T; simpl; [done|].
    destruct (obj_in c T); [apply IH|].
    fold (add_first c des dd). destruct (add_first c des dd) as [des1 dd1]. simpl.
    destruct (rec c T) as [[[ca cd] T1]|]; [|done]. simpl.
    destruct (obj_merge ca cd des1 dd1) as [m1 m2]. apply IH.
  Qed.
  Lemma gloop_ext b rec rec' cs des dd T : (∀ c T, rec c T = rec' c T) → gloop b rec cs des dd T = gloop b rec' cs des dd T.
  Proof.
    intros Hr. revert des dd T. induction cs as [|c cs IH]; intros des dd T; simpl; [done|].
    destruct (obj_in c T), b; rewrite ?IH; try done.
    - rewrite Hr. destruct (rec' c T) as [[[? ?] ?]|]; [|done]. simpl. apply IH.
    - rewrite Hr. destruct (rec' c T) as [[[? ?] ?]|]; [|done]. simpl. apply IH.
  Qed.
  Lemma obj_dfs_gdfs fuel next o T : obj_dfs fuel next None o T = gdfs false fuel next o T.
  Proof.
    revert o T. induction fuel as [|fuel IH]; intros o T; [done|]. cbn [obj_dfs gdfs].
    destruct (next o) as [|c cs]; [done|]. rewrite obj_loop_gloop. by apply gloop_ext.
  Qed.

  (** ** merging *)
  Lemma obj_merge_list sub subd acc accd : (obj_merge sub subd acc accd).1 = fold_left add_new sub acc.
  Proof.
    revert acc accd. induction sub as [|x sub IH]; intros acc accd; simpl; [done|]. unfold add_new at 2.
    destruct (decide (x ∈ acc)) as [Hx|Hx].
    - rewrite (proj2 (obj_in_true _ _)) by done. apply IH.
    - rewrite (proj2 (obj_in_false _ _)) by done. apply IH.
  Qed.
  Lemma add_first_list c des dd : (add_first c des dd).1 = add_new des c.
  Proof.
    unfold add_first, add_new. destruct (decide (c ∈ des)) as [Hx|Hx].
    - by rewrite (proj2 (obj_in_true _ _)).
    - by rewrite (proj2 (obj_in_false _ _)).
  Qed.

  (** A property of all the entries of a distance dictionary. *)
  Definition all_at (P : nat → Obj → Prop) dd : Prop := ∀ k l x, (k, l) ∈ dd → x ∈ l → P k x.
  Lemma dset_in {V} (d : dict nat V) k v k' v' : (k', v') ∈ dset d k v → (k' = k ∧ v' = v) ∨ (k', v') ∈ d.
  Proof.
    induction d as [|[k0 v0] d IH]; simpl.
    - intros [= -> ->]%elem_of_list_singleton. by left.
    - destruct (decide (k = k0)) as [->|].
      + intros [[= -> ->]|?]%elem_of_cons; [by left|right; by right].
      + intros [[= -> ->]|[?|?]%IH]%elem_of_cons; [right; by left|by left|right; by right].
  Qed.
  Lemma all_at_dset P dd k l : all_at P dd → (∀ x, x ∈ l → P k x) → all_at P (dset dd k l).
  Proof. intros Hd Hl k' l' x [[-> ->]|Hin]%dset_in Hx; [by apply Hl|by eapply Hd]. Qed.
  Lemma all_at_dget P dd k : all_at P dd → ∀ x, x ∈ obj_dget dd k → P k x.
  Proof.
    intros Hd x Hx. unfold obj_dget in Hx. destruct (dget dd k) as [l|] eqn:Hl; [|by apply elem_of_nil in Hx].
    apply dget_Some_in in Hl. by eapply Hd.
  Qed.
  Lemma all_at_fold P subd dd : all_at P dd → all_at (λ k x, P (S k) x) subd →
    all_at P (fold_left (λ d kv, dset d (S kv.1) kv.2) subd dd).
  Proof.
    revert dd. induction subd as [|[k l] subd IH]; intros dd Hd Hs; simpl; [done|]. apply IH.
    - apply all_at_dset; [done|]. intros x Hx. eapply (Hs k l); [left|done].
    - intros k' l' x Hin Hx. eapply Hs; [by right|done].
  Qed.
  Lemma all_at_merge P sub subd acc accd : all_at P accd → all_at (λ k x, P (S k) x) subd →
    all_at P (obj_merge sub subd acc accd).2.
  Proof.
    revert acc accd. induction sub as [|x sub IH]; intros acc accd Ha Hs; simpl; [done|].
    destruct (obj_in x acc); [by apply IH|]. apply IH; [|done]. by apply all_at_fold.
  Qed.
  Lemma all_at_first P c des dd : all_at P dd → P 1 c → all_at P (add_first c des dd).2.
  Proof.
    intros Hd Hc. unfold add_first. destruct (obj_in c des); [done|]. simpl. apply all_at_dset; [done|].
    intros x [Hx| ->%elem_of_list_singleton]%elem_of_app; [|done]. by eapply all_at_dget.
  Qed.
  Lemma all_at_mono (P Q : nat → Obj → Prop) dd : (∀ k x, P k x → Q k x) → all_at P dd → all_at Q dd.
  Proof. intros HPQ Hd k l x ? ?. eapply HPQ, Hd; done. Qed.

  (** ** the main induction *)
  Section spec.
    Context (next : Obj → list Obj) (b : bool) (U : list Obj).
    Context (HU : ∀ x y, x ∈ U → y ∈ next x → y ∈ U).
    Local Notation R := (λ x y, y ∈ next x).
    Local Notation unseen T := (length (filter (λ x, x ∉ T) U)).

    (** what a call on [o] with [T] visited adds: [new] *)
    Definition dfs_post o T (out : trav_out) : Prop :=
      let '(L, D, T') := out in
      ∃ rest, let new := o :: rest in
      T' = T ++ new ∧ NoDup T' ∧ (∀ x, x ∈ new → x ∈ U) ∧
      (∀ x y, x ∈ new → y ∈ next x → y ∈ T') ∧
      (∀ x, x ∈ new → rtc R o x) ∧
      (∀ x, x ∈ rest → ∃ y, y ∈ new ∧ x ∈ next y) ∧
      NoDup L ∧
      (∀ x, x ∈ L ↔ if b then ∃ y, y ∈ new ∧ x ∈ next y else x ∈ rest) ∧
      all_at (λ k x, 1 ≤ k ∧ nsteps R k o x ∧ x ∈ L) D.

    Definition loop_post o cs des T (out : trav_out) : Prop :=
      let '(L, D, T') := out in
      ∃ new,
      T' = T ++ new ∧ NoDup T' ∧ (∀ x, x ∈ new → x ∈ U) ∧
      (∀ c, c ∈ cs → c ∈ T') ∧
      (∀ x y, x ∈ new → y ∈ next x → y ∈ T') ∧
      (∀ x, x ∈ new → ∃ c, c ∈ cs ∧ rtc R c x) ∧
      (∀ x, x ∈ new → x ∈ cs ∨ ∃ y, y ∈ new ∧ x ∈ next y) ∧
      NoDup L ∧
      (∀ x, x ∈ L ↔ x ∈ des ∨ if b then x ∈ cs ∨ ∃ y, y ∈ new ∧ x ∈ next y else x ∈ new) ∧
      all_at (λ k x, 1 ≤ k ∧ nsteps R k o x ∧ x ∈ L) D.

    Lemma unseen_le T T' : (∀ x, x ∈ T → x ∈ T') → unseen T' ≤ unseen T.
    Proof.
      intros Hs. clear HU. induction U as [|u V IH]; [done|]. rewrite !filter_cons.
      assert (length (filter (λ x, x ∉ T') V) ≤ length (filter (λ x, x ∉ T) V)).
      { clear -Hs. induction V as [|u V IH]; [done|]. rewrite !filter_cons.
        destruct (decide (u ∉ T')), (decide (u ∉ T)); simpl; try lia. naive_solver. }
      destruct (decide (u ∉ T')), (decide (u ∉ T)); simpl; try lia. naive_solver.
    Qed.
    Lemma unseen_lt T o : o ∈ U → o ∉ T → unseen (T ++ [o]) < unseen T.
    Proof.
      intros Ho HT. clear HU. induction U as [|u V IH]; [by apply elem_of_nil in Ho|]. rewrite !filter_cons.
      assert (length (filter (λ x, x ∉ T ++ [o]) V) ≤ length (filter (λ x, x ∉ T) V)) as Hle.
      { clear -HT. induction V as [|u V IH]; [done|]. rewrite !filter_cons.
        destruct (decide (u ∉ T ++ [o])) as [H1|H1], (decide (u ∉ T)) as [H2|H2]; simpl; try lia.
        rewrite elem_of_app in H1. naive_solver. }
      apply elem_of_cons in Ho as [->|Ho].
      - rewrite decide_False; [|rewrite elem_of_app, elem_of_list_singleton; naive_solver].
        rewrite decide_True by done. simpl. lia.
      - specialize (IH Ho). destruct (decide (u ∉ T ++ [o])) as [H1|H1], (decide (u ∉ T)) as [H2|H2]; simpl; try lia.
        rewrite elem_of_app in H1. naive_solver.
    Qed.

    Lemma gloop_spec fuel rec o cs des dd T :
      (∀ c T, c ∈ U → c ∉ T → NoDup T → unseen T ≤ fuel → ∃ out, rec c T = Ok out ∧ dfs_post c T out) →
      (∀ c, c ∈ cs → c ∈ U ∧ c ∈ next o) → NoDup T → unseen T ≤ fuel →
      NoDup des → all_at (λ k x, 1 ≤ k ∧ nsteps R k o x ∧ x ∈ des) dd →
      ∃ out, gloop b rec cs des dd T = Ok out ∧ loop_post o cs des T out.
    Proof.
      intros Hrec. revert des dd T. induction cs as [|c cs IH]; intros des dd T Hcs HT Hun Hdes Hdd.
      - exists (des, dd, T). split; [done|]. exists []. rewrite app_nil_r.
        assert (∀ P : Obj → Prop, ∀ x, x ∈ [] → P x) as Hn by (by intros P x ?%elem_of_nil).
        split_and!; try done; try by apply Hn.
        + by intros x y ?%elem_of_nil.
        + intros x. split; [by left|]. intros [?|Hx]; [done|]. destruct b.
          * destruct Hx as [?%elem_of_nil|(? & ?%elem_of_nil & _)]; done.
          * by apply elem_of_nil in Hx.
      - destruct (Hcs c) as [HcU Hoc]; [left|].
        assert (Hcs' : ∀ c, c ∈ cs → c ∈ U ∧ c ∈ next o) by (intros; apply Hcs; by right).
        assert (Hstep1 : nsteps R 1 o c) by (by apply nsteps_once).
        assert (Hdd1 : all_at (λ k x, 1 ≤ k ∧ nsteps R k o x ∧ x ∈ add_new des c) (add_first c des dd).2).
        { apply all_at_first.
          - eapply all_at_mono; [|exact Hdd]. simpl. intros k x (? & ? & ?). split_and!; [done..|].
            apply elem_of_add_new. by left.
          - split_and!; [done..|]. apply elem_of_add_new. by right. }
        simpl. destruct (obj_in c T) eqn:HcT.
        + apply obj_in_true in HcT. destruct b eqn:Hb.
          * destruct (IH (add_new des c) (add_first c des dd).2 T) as ([[L D] T'] & Hrun & new & -> & HT' & HnU & Hcov & Hcl & Hre & Hor & HL & HLi & HD);
              [done|done|done|by apply NoDup_add_new|done|].
            rewrite add_first_list. exists (L, D, T ++ new). split; [done|]. exists new. rewrite Hb. split_and!; try done.
            -- intros c' [->|Hc']%elem_of_cons; [apply elem_of_app; by left|by apply Hcov].
            -- intros x Hx. destruct (Hre x Hx) as (c' & ? & ?). exists c'. split; [by right|done].
            -- intros x Hx. destruct (Hor x Hx) as [?|?]; [left; by right|by right].
            -- intros x. rewrite Hb in HLi. rewrite HLi, elem_of_add_new, elem_of_cons. tauto.
          * destruct (IH des dd T) as ([[L D] T'] & Hrun & new & -> & HT' & HnU & Hcov & Hcl & Hre & Hor & HL & HLi & HD); [done..|].
            exists (L, D, T ++ new). split; [done|]. exists new. rewrite Hb. split_and!; try done.
            -- intros c' [->|Hc']%elem_of_cons; [apply elem_of_app; by left|by apply Hcov].
            -- intros x Hx. destruct (Hre x Hx) as (c' & ? & ?). exists c'. split; [by right|done].
            -- intros x Hx. destruct (Hor x Hx) as [?|?]; [left; by right|by right].
            -- by rewrite Hb in HLi.
        + apply obj_in_false in HcT.
          destruct (Hrec c T) as ([[ca cd] T1] & Hr & rest & HT1 & HT1nd & HnU & Hcl & Hre & Hrest & Hca & Hcai & Hcd); [done..|].
          rewrite Hr. cbn [rbind]. rewrite obj_merge_list, add_first_list.
          set (des1 := fold_left add_new ca (add_new des c)).
          assert (Hdes1 : ∀ x, x ∈ des1 ↔ x ∈ des ∨ x = c ∨ x ∈ ca).
          { intros x. unfold des1. rewrite elem_of_fold_add_new, elem_of_add_new. tauto. }
          destruct (IH des1 (obj_merge ca cd (add_new des c) (add_first c des dd).2).2 T1)
            as ([[L D] T'] & Hrun & new & HT' & HTn & HnU' & Hcov & Hcl' & Hre' & Hor & HL & HLi & HD).
          { done. }
          { done. }
          { etrans; [|exact Hun]. apply unseen_le. intros x Hx. rewrite HT1. apply elem_of_app. by left. }
          { unfold des1. by apply NoDup_fold_add_new, NoDup_add_new. }
          { apply all_at_merge.
            - eapply all_at_mono; [|exact Hdd1]. simpl. intros k x (? & ? & Hx). split_and!; [done..|].
              apply Hdes1. apply elem_of_add_new in Hx. tauto.
            - eapply all_at_mono; [|exact Hcd]. simpl. intros k x (? & ? & ?). split_and!; [lia| |].
              + by eapply nsteps_l.
              + apply Hdes1. tauto. }
          exists (L, D, T'). split; [exact Hrun|]. exists ((c :: rest) ++ new).
          assert (Hin : ∀ x, x ∈ (c :: rest) ++ new ↔ x ∈ c :: rest ∨ x ∈ new) by (intros; by rewrite elem_of_app).
          assert (HT1' : ∀ x, x ∈ T1 → x ∈ T') by (intros x ?; rewrite HT'; apply elem_of_app; by left).
          split_and!.
          * rewrite HT', HT1. by rewrite <-(assoc_L (++)).
          * done.
          * intros x [Hx|Hx]%Hin; [by apply HnU|by apply HnU'].
          * intros c' [->|Hc']%elem_of_cons; [|by apply Hcov]. apply HT1'. rewrite HT1. apply elem_of_app. right. left.
          * intros x y [Hx|Hx]%Hin Hy; [apply HT1'; by eapply Hcl|by eapply Hcl'].
          * intros x [Hx|Hx]%Hin; [exists c; split; [left|by apply Hre]|].
            destruct (Hre' x Hx) as (c' & ? & ?). exists c'. split; [by right|done].
          * intros x [Hx|Hx]%Hin.
            -- apply elem_of_cons in Hx as [->|Hx]; [left; left|]. right.
               destruct (Hrest x Hx) as (y & ? & ?). exists y. rewrite Hin. tauto.
            -- destruct (Hor x Hx) as [?|(y & ? & ?)]; [left; by right|right; exists y; rewrite Hin; tauto].
          * done.
          * intros x. rewrite HLi, Hdes1, Hcai. destruct b.
            -- rewrite !elem_of_cons. split.
               ++ intros [[?|[->|(y & ? & ?)]]|[?|(y & ? & ?)]]; [by left|by right; left; left| |by right; left; right|].
                  ** right. right. exists y. rewrite Hin. tauto.
                  ** right. right. exists y. rewrite Hin. tauto.
               ++ intros [?|[[->|?]|(y & [?|?]%Hin & ?)]]; [by left; left|by left; right; left|by right; left| |].
                  ** left. right. right. eauto.
                  ** right. right. eauto.
            -- rewrite Hin, elem_of_cons. tauto.
          * done.
    Qed.

    Lemma gdfs_spec fuel o T : o ∈ U → o ∉ T → NoDup T → unseen T ≤ fuel →
      ∃ out, gdfs b fuel next o T = Ok out ∧ dfs_post o T out.
    Proof.
      revert o T. induction fuel as [|fuel IH]; intros o T Ho HoT HT Hun.
      - pose proof (unseen_lt T o Ho HoT). lia.
      - assert (HTo : NoDup (T ++ [o])).
        { apply NoDup_app. split_and!; [done| |apply NoDup_singleton]. intros x Hx ->%elem_of_list_singleton. done. }
        assert (H0 : dfs_post o T ([], [], T ++ [o]) ∨ next o ≠ []).
        { destruct (next o) as [|c cs] eqn:Hno; [left|by right]. exists []. split_and!; try done.
          - by intros x ->%elem_of_list_singleton.
          - intros x y ->%elem_of_list_singleton. rewrite Hno. by intros ?%elem_of_nil.
          - by intros x ->%elem_of_list_singleton.
          - by intros x ?%elem_of_nil.
          - constructor.
          - intros x. destruct b; [|done]. split; [by intros ?%elem_of_nil|].
            intros (y & ->%elem_of_list_singleton & Hx). by rewrite Hno in Hx.
          - by intros k l x ?%elem_of_nil. }
        destruct (next o) as [|c0 cs0] eqn:Hno.
        { exists ([], [], T ++ [o]). simpl. rewrite Hno. split; [done|]. by destruct H0. }
        clear H0. destruct (gloop_spec fuel (gdfs b fuel next) o (next o) [] [(1, [])] (T ++ [o]))
          as ([[L D] T'] & Hrun & new & HT' & HTn & HnU & Hcov & Hcl & Hre & Hor & HL & HLi & HD).
        + intros c T0 ? ? ? ?. by apply IH.
        + intros c Hc. split; [|done]. by eapply HU.
        + done.
        + pose proof (unseen_lt T o Ho HoT). lia.
        + constructor.
        + intros k l x [= -> ->]%elem_of_list_singleton. by intros ?%elem_of_nil.
        + exists (L, D, T'). split; [simpl; rewrite Hno; by rewrite Hno in Hrun|].
          exists new. split_and!; try done.
          * by rewrite HT', <-(assoc_L (++)).
          * intros x [->|?]%elem_of_cons; [done|by apply HnU].
          * intros x y [->|?]%elem_of_cons ?; [by apply Hcov|by eapply Hcl].
          * intros x [->|Hx]%elem_of_cons; [done|]. destruct (Hre x Hx) as (c & ? & ?). by eapply rtc_l.
          * intros x Hx. destruct (Hor x Hx) as [?|(y & ? & ?)]; [exists o; split; [left|done]|exists y; split; [by right|done]].
          * intros x. rewrite HLi, elem_of_nil. destruct b; [|tauto]. split.
            -- intros [[]|[?|(y & ? & ?)]]; [exists o; split; [left|done]|exists y; split; [by right|done]].
            -- intros (y & [->|?]%elem_of_cons & ?); [right; by left|right; right; eauto].
    Qed.

    (** From an empty list of visited objects. *)
    Lemma gdfs_top fuel o : o ∈ U → length U ≤ fuel →
      ∃ L D T, gdfs b fuel next o [] = Ok (L, D, T) ∧ NoDup L ∧
        (∀ x, x ∈ T ↔ rtc R o x) ∧
        (∀ x, x ∈ L ↔ if b then tc R o x else tc R o x ∧ x ≠ o) ∧
        all_at (λ k x, 1 ≤ k ∧ nsteps R k o x ∧ x ∈ L) D.
    Proof.
      intros Ho Hf. destruct (gdfs_spec fuel o []) as ([[L D] T] & Hrun & rest & HT & HTn & HnU & Hcl & Hre & Hrest & HL & HLi & HD).
      - done.
      - apply not_elem_of_nil.
      - constructor.
      - etrans; [|exact Hf]. apply filter_length.
      - simpl in HT. subst T. exists L, D, (o :: rest).
        assert (Hall : ∀ x, x ∈ o :: rest ↔ rtc R o x).
        { intros x. split; [apply Hre|]. revert x. apply rtc_ind_r; [left|]. intros y z _ Hyz IH. by eapply Hcl. }
        split_and!; try done. intros x. rewrite HLi. destruct b.
        + split.
          * intros (y & Hy%Hall & ?). by eapply tc_rtc_l; [|apply tc_once].
          * intros (n & Hn & Hx)%tc_nsteps. destruct n as [|n]; [lia|]. apply nsteps_inv_r in Hx as (y & Hy & ?).
            exists y. split; [|done]. apply Hall. apply rtc_nsteps; eauto.
        + split.
          * intros Hx. assert (x ≠ o) as Hne.
            { intros ->. simpl in HTn. by apply NoDup_cons in HTn as [? _]. }
            split; [|done]. assert (rtc R o x) as [->|?]%rtc_tc by (apply Hall; by right); done.
          * intros [Hx%tc_rtc%Hall ?]. by apply elem_of_cons in Hx as [->|?].
    Qed.
  End spec.

  (** ** traversal with a depth limit *)
  Section limit.
    Context (next : Obj → list Obj).
    Local Notation R := (λ x y, y ∈ next x).

    (** the result of a call on [o]: everything listed is within [d] steps, was not
        visited before, and everything visited on the way is listed *)
    Definition lim_post (d : nat) o T (out : trav_out) : Prop :=
      let '(L, D, T') := out in
      NoDup L ∧ (∀ x, x ∈ T → x ∈ T') ∧
      (∀ x, x ∈ T' → x ∈ T ∨ x = o ∨ x ∈ L) ∧
      (∀ x, x ∈ L → x ∉ T ∧ x ≠ o ∧ ∃ k, 1 ≤ k ≤ d ∧ nsteps R k o x) ∧
      (∀ x, 1 ≤ d → x ∈ next o → x ∈ T ∨ x = o ∨ x ∈ L) ∧
      all_at (λ k x, 1 ≤ k ≤ d ∧ nsteps R k o x ∧ x ∈ L) D.

    Lemma lim_loop d rec o cs des dd T0 T :
      (∀ c T, c ∉ T → ∃ out, rec c T = Ok out ∧ lim_post d c T out) →
      (∀ c, c ∈ cs → c ∈ next o) → NoDup des →
      (∀ x, x ∈ T0 → x ∈ T) → o ∈ T → (∀ x, x ∈ T → x ∈ T0 ∨ x = o ∨ x ∈ des) →
      (∀ x, x ∈ des → x ∉ T0 ∧ x ≠ o ∧ ∃ k, 1 ≤ k ≤ S d ∧ nsteps R k o x) →
      all_at (λ k x, 1 ≤ k ≤ S d ∧ nsteps R k o x ∧ x ∈ des) dd →
      ∃ L D T', gloop false rec cs des dd T = Ok (L, D, T') ∧
        NoDup L ∧ (∀ x, x ∈ T0 → x ∈ T') ∧ (∀ x, x ∈ des → x ∈ L) ∧
        (∀ x, x ∈ T' → x ∈ T0 ∨ x = o ∨ x ∈ L) ∧
        (∀ x, x ∈ L → x ∉ T0 ∧ x ≠ o ∧ ∃ k, 1 ≤ k ≤ S d ∧ nsteps R k o x) ∧
        (∀ x, x ∈ cs → x ∈ T0 ∨ x = o ∨ x ∈ L) ∧
        o ∈ T' ∧
        all_at (λ k x, 1 ≤ k ≤ S d ∧ nsteps R k o x ∧ x ∈ L) D.
    Proof.
      intros Hrec. revert des dd T. induction cs as [|c cs IH]; intros des dd T Hcs Hnd HT0 HoT HT Hdes Hdd.
      - exists des, dd, T. simpl. split_and!; try done. by intros x ?%elem_of_nil.
      - assert (Hoc : c ∈ next o) by (apply Hcs; left).
        simpl. destruct (obj_in c T) eqn:HcT.
        + apply obj_in_true in HcT.
          destruct (IH des dd T) as (L & D & T' & Hrun & ? & ? & Hsub & ? & ? & Hcov & ? & ?); try done.
          { intros; apply Hcs; by right. }
          exists L, D, T'. split_and!; try done.
          intros x [->|Hx]%elem_of_cons; [|by apply Hcov]. destruct (HT c HcT) as [?|[?|?]]; auto.
        + apply obj_in_false in HcT.
          destruct (Hrec c T) as ([[ca cd] T1] & Hr & Hca & HTT1 & HT1 & HL1 & _ & HD1); [done|].
          rewrite Hr. cbn [rbind]. rewrite obj_merge_list, add_first_list.
          set (des1 := fold_left add_new ca (add_new des c)).
          assert (Hdes1 : ∀ x, x ∈ des1 ↔ x ∈ des ∨ x = c ∨ x ∈ ca).
          { intros x. unfold des1. rewrite elem_of_fold_add_new, elem_of_add_new. tauto. }
          assert (HcT0 : c ∉ T0) by (intros ?; apply HcT; by apply HT0).
          assert (Hco : c ≠ o) by (by intros ->).
          destruct (IH des1 (obj_merge ca cd (add_new des c) (add_first c des dd).2).2 T1)
            as (L & D & T' & Hrun & ? & ? & Hsub & ? & ? & Hcov & ? & ?).
          * intros; apply Hcs; by right.
          * unfold des1. by apply NoDup_fold_add_new, NoDup_add_new.
          * intros x Hx. by apply HTT1, HT0.
          * by apply HTT1.
          * intros x Hx. rewrite Hdes1. destruct (HT1 x Hx) as [Hx'|[->|?]]; [|auto..]. destruct (HT x Hx') as [?|[?|?]]; auto.
          * intros x [Hx|[->|Hx]]%Hdes1; [by apply Hdes| |].
            -- split_and!; [done..|]. exists 1. split; [lia|]. by apply nsteps_once.
            -- destruct (HL1 x Hx) as (HxT & Hxc & k & ? & ?). split_and!; [naive_solver|by intros ->|].
               exists (S k). split; [lia|]. by eapply nsteps_l.
          * apply all_at_merge.
            -- apply all_at_first.
               ++ eapply all_at_mono; [|exact Hdd]. simpl. intros k x (? & ? & ?). rewrite Hdes1. tauto.
               ++ split_and!; [lia|lia|by apply nsteps_once|apply Hdes1; tauto].
            -- eapply all_at_mono; [|exact HD1]. simpl. intros k x (? & ? & ?). rewrite Hdes1. split_and!; [lia|lia| |tauto].
               by eapply nsteps_l.
          * exists L, D, T'. split_and!; try done.
            -- intros x Hx. apply Hsub, Hdes1. by left.
            -- intros x [->|Hx]%elem_of_cons; [|by apply Hcov]. right. right. apply Hsub, Hdes1. auto.
    Qed.

    Lemma lim_dfs fuel d o T : (0 <= d)%Z → Z.to_nat d < fuel → o ∉ T →
      ∃ out, obj_dfs fuel next (Some d) o T = Ok out ∧ lim_post (Z.to_nat d) o T out.
    Proof.
      revert d o T. induction fuel as [|fuel IH]; intros d o T Hd Hf Ho; [lia|]. cbn [obj_dfs].
      destruct (d <=? 0)%Z eqn:Hle.
      - assert (d = 0)%Z as -> by lia. eexists. split; [done|]. simpl. split_and!; [constructor|done|auto| |lia|].
        + by intros x ?%elem_of_nil.
        + by intros k l x ?%elem_of_nil.
      - assert (Z.to_nat d = S (Z.to_nat (d - 1))) as Hs by lia.
        destruct (next o) as [|c0 cs0] eqn:Hno.
        + eexists. split; [done|]. simpl. split_and!; [constructor| | |by intros x ?%elem_of_nil| |by intros k l x ?%elem_of_nil].
          * intros x ?. apply elem_of_app. by left.
          * intros x [?| ->%elem_of_list_singleton]%elem_of_app; auto.
          * intros x _. rewrite Hno. by intros ?%elem_of_nil.
        + rewrite obj_loop_gloop, <-Hno.
          destruct (lim_loop (Z.to_nat (d - 1)) (λ c t, obj_dfs fuel next (Some (d - 1)%Z) c t) o (next o) [] [(1, [])] T (T ++ [o]))
            as (L & D & T' & Hrun & Hnd & HT & _ & HT' & HL & Hcov & Ho' & HD).
          * intros c T1 Hc. apply IH; [lia|lia|done].
          * done.
          * constructor.
          * intros x ?. apply elem_of_app. by left.
          * apply elem_of_app. right. by apply elem_of_list_singleton.
          * intros x [?| ->%elem_of_list_singleton]%elem_of_app; auto.
          * by intros x ?%elem_of_nil.
          * intros k l x [= -> ->]%elem_of_list_singleton. by intros ?%elem_of_nil.
          * exists (L, D, T'). split; [exact Hrun|]. simpl. rewrite Hs. split_and!; try done. intros x _. apply Hcov.
    Qed.

    (** A limit that is not smaller than the number of objects has no effect. *)
    Context (U : list Obj) (HU : ∀ x y, x ∈ U → y ∈ next x → y ∈ U).
    Local Notation unseen T := (length (filter (λ x, x ∉ T) U)).

    Lemma lim_big_loop (rec rec' : Obj → list Obj → res trav_out) n cs des dd T :
      (∀ c T, c ∈ U → c ∉ T → unseen T ≤ n → rec c T = rec' c T) →
      (∀ c T L D T', rec' c T = Ok (L, D, T') → ∀ x, x ∈ T → x ∈ T') →
      (∀ c, c ∈ cs → c ∈ U) → unseen T ≤ n →
      gloop false rec cs des dd T = gloop false rec' cs des dd T.
    Proof.
      intros Hrec Hgrow. revert des dd T. induction cs as [|c cs IH]; intros des dd T Hcs Hun; simpl; [done|].
      destruct (obj_in c T) eqn:HcT.
      - apply IH; [|done]. intros; apply Hcs; by right.
      - apply obj_in_false in HcT. rewrite Hrec; [|apply Hcs; left|done|done].
        destruct (rec' c T) as [[[ca cd] T1]|] eqn:Hr; [|done]. cbn [rbind]. apply IH; [intros; apply Hcs; by right|].
        etrans; [|exact Hun]. by eapply unseen_le, Hgrow.
    Qed.
    Lemma gloop_grow b (rec : Obj → list Obj → res trav_out) cs des dd T L D T' :
      (∀ c T L D T', rec c T = Ok (L, D, T') → ∀ x, x ∈ T → x ∈ T') →
      gloop b rec cs des dd T = Ok (L, D, T') → ∀ x, x ∈ T → x ∈ T'.
    Proof.
      intros Hrec. revert des dd T. induction cs as [|c cs IH]; intros des dd T Hrun x Hx; simpl in Hrun; [by simplify_eq|].
      destruct (obj_in c T).
      - destruct b; by eapply IH.
      - destruct (rec c T) as [[[ca cd] T1]|] eqn:Hr; [|done]. cbn [rbind] in Hrun. eapply IH; [exact Hrun|]. by eapply Hrec.
    Qed.
    Lemma gdfs_grow b fuel o T L D T' : gdfs b fuel next o T = Ok (L, D, T') → ∀ x, x ∈ T → x ∈ T'.
    Proof.
      revert o T L D T'. induction fuel as [|fuel IH]; intros o T L D T' Hrun x Hx; [done|]. cbn [gdfs] in Hrun.
      destruct (next o) as [|c cs].
      - simplify_eq. apply elem_of_app. by left.
      - eapply (gloop_grow b _ _ _ _ _ _ _ _ IH Hrun). apply elem_of_app. by left.
    Qed.
    Lemma lim_big fuel d o T : o ∈ U → o ∉ T → unseen T ≤ Z.to_nat d →
      obj_dfs fuel next (Some d) o T = obj_dfs fuel next None o T.
    Proof.
      rewrite obj_dfs_gdfs.
      revert d o T. induction fuel as [|fuel IH]; intros d o T Ho HoT Hun; [done|]. cbn [obj_dfs gdfs].
      pose proof (unseen_lt next U T o Ho HoT) as Hlt.
      destruct (d <=? 0)%Z eqn:Hle; [lia|]. destruct (next o) as [|c cs] eqn:Hno; [done|].
      rewrite obj_loop_gloop, <-Hno. eapply (lim_big_loop _ _ (Z.to_nat (d - 1))).
      - intros c1 T1 ? ? ?. by apply IH.
      - intros c1 T1 L D T' Hrun. by eapply gdfs_grow.
      - intros c1 Hc1. by eapply HU.
      - lia.
    Qed.
  End limit.
End dfs.
