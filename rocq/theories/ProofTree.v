(** Node.get_tree_str and BasicGraph.get_tree_str (C22). *)
From Verif Require Export ProofC2c SpecTree.
Local Open Scope string_scope.
Local Open Scope list_scope.

Lemma sapp_assoc (a b c : string) : (a +:+ b) +:+ c = a +:+ (b +:+ c).
Proof. induction a as [|x a IH]; [done|]. change (String x ((a +:+ b) +:+ c) = String x (a +:+ (b +:+ c))). by rewrite IH. Qed.
Lemma sapp_nil (a : string) : a +:+ "" = a.
Proof. induction a as [|x a IH]; [done|]. change (String x (a +:+ "") = String x a). by rewrite IH. Qed.

Section tree.
  Context (env : penv) (h : heap) (W : WF h) (g : gref) (U : list nref) (HU : ∀ x, x ∈ U ↔ in_graph h g x) (HUn : NoDup U).
  Definition lbl (r : nref) : string := match node_label env h r with Ok s => s | Err _ => "" end.
  Lemma lbl_run r : in_graph h g r → node_label env h r = Ok (lbl r).
  Proof.
    intros Hr. unfold lbl. destruct (in_graph_lookup h W g r Hr) as (N & HN & _). unfold node_label. by rewrite (get_n_Ok _ _ _ HN).
  Qed.
  Local Notation unseen T := (length (filter (λ x, x ∉ T) U)).

  Lemma kids_run r : in_graph h g r → node_children h r = Ok (kids h r).
  Proof. apply (node_children_run h W). Qed.

  (** ** lines of a forest *)
  Lemma expanded_line f x : faithful h f → x ∈ expanded f → (x, false) ∈ lines f.
  Proof.
    induction f as [|r b below IH1 next IH2]; simpl; [by intros _ ?%elem_of_nil|]. intros (Hb & Hf1 & Hf2).
    rewrite !elem_of_app, elem_of_cons, elem_of_app. intros [Hx|[Hx|Hx]]; [|auto..].
    destruct below as [|r' b' ? ?]; [by apply elem_of_nil in Hx|]. apply elem_of_list_singleton in Hx as ->.
    destruct b; [done|]. by left.
  Qed.
  Lemma top_line f x : x ∈ tops f → ∃ b, (x, b) ∈ lines f.
  Proof.
    induction f as [|r b below _ next IH]; simpl; [by intros ?%elem_of_nil|]. intros [->|Hx]%elem_of_cons; [exists b; left|].
    destruct (IH Hx) as [b' ?]. exists b'. right. apply elem_of_app. by right.
  Qed.
  Lemma child_line f x y : faithful h f → x ∈ expanded f → in_graph h g x → y ∈ kids h x → ∃ b, (y, b) ∈ lines f.
  Proof.
    intros Hf Hx Hg Hy. revert Hf Hx. induction f as [|r b below IH1 next IH2]; simpl; [by intros _ ?%elem_of_nil|]. intros (Hb & Hf1 & Hf2).
    rewrite !elem_of_app. intros [Hx|[Hx|Hx]].
    - destruct below as [|r' b' b1 b2] eqn:Hbe; [by apply elem_of_nil in Hx|]. apply elem_of_list_singleton in Hx as ->. rewrite <-Hbe in *.
      destruct b; [by subst|]. rewrite kids_run in Hb by done. injection Hb as Hb. rewrite Hb in Hy. apply top_line in Hy as [b0 ?].
      exists b0. right. apply elem_of_app. by left.
    - destruct IH1 as [b0 ?]; [done..|]. exists b0. right. apply elem_of_app. by left.
    - destruct IH2 as [b0 ?]; [done..|]. exists b0. right. apply elem_of_app. by right.
  Qed.
  Lemma count_lines f : faithful h f → (∀ r b, (r, b) ∈ lines f → in_graph h g r) →
    length (lines f) = length (tops f) + sum_list ((λ x, length (kids h x)) <$> expanded f).
  Proof.
    induction f as [|r b below IH1 next IH2]; [done|]. cbn [faithful lines tops expanded]. intros (Hb & Hf1 & Hf2) Hin.
    assert (∀ l k, sum_list (l ++ k) = sum_list l + sum_list k) as Happ.
    { clear. induction l as [|x l IH]; intros k; [done|]. simpl. rewrite IH. lia. }
    cbn [length]. rewrite !fmap_app, !Happ, app_length, IH1, IH2; [|done| |done|].
    - destruct below as [|r' b' b1 b2] eqn:Hbe; [simpl; lia|]. rewrite <-Hbe in *. destruct b; [by subst|].
      assert (in_graph h g r) as Hr by (apply (Hin r false); left).
      rewrite kids_run in Hb by done. injection Hb as Hb. cbn. rewrite Hb. lia.
    - intros x b0 ?. apply (Hin x b0). right. apply elem_of_app. by right.
    - intros x b0 ?. apply (Hin x b0). right. apply elem_of_app. by left.
  Qed.

  (** ** what holds of a printed forest that started with the list [added] *)
  Record printed (added : list nref) (f : forest) : Prop := {
    pr_faithful : faithful h f;
    pr_nodup : NoDup (expanded f);
    pr_new : ∀ x, x ∈ expanded f → x ∉ added;
    pr_star : ∀ pre r post, lines f = pre ++ (r, true) :: post → r ∈ added ∨ (r, false) ∈ pre;
    pr_in : ∀ r b, (r, b) ∈ lines f → in_graph h g r;
    pr_exp : ∀ r, (r, false) ∈ lines f → kids h r ≠ [] → r ∈ expanded f;
    pr_nonleaf : ∀ r b, (r, b) ∈ lines f → b = true ∨ r ∈ expanded f → kids h r ≠ [] }.
  Definition grows (added added' l : list nref) : Prop := ∀ x, x ∈ added' ↔ x ∈ added ∨ x ∈ l.

  Lemma printed_nil A : printed A FNil.
  Proof.
    split; simpl; try done.
    - constructor.
    - by intros x ?%elem_of_nil.
    - by intros [|? ?] ? ?.
    - by intros ? ? ?%elem_of_nil.
    - by intros ? ?%elem_of_nil.
    - by intros ? ? ?%elem_of_nil.
  Qed.
  Lemma lines_cons r b below next : lines (FCons r b below next) = lines (FCons r b below FNil) ++ lines next.
  Proof. simpl. by rewrite app_nil_r. Qed.
  Lemma expanded_cons r b below next : expanded (FCons r b below next) = expanded (FCons r b below FNil) ++ expanded next.
  Proof. simpl. by rewrite app_nil_r, app_assoc. Qed.
  Lemma app_split {A} (l1 l2 pre post : list A) x : l1 ++ l2 = pre ++ x :: post →
    (∃ p, l1 = pre ++ x :: p) ∨ (∃ p, pre = l1 ++ p ∧ l2 = p ++ x :: post).
  Proof.
    revert pre. induction l1 as [|y l1 IH]; intros pre H; simpl in H; [right; by exists pre|].
    destruct pre as [|z pre]; simpl in H; injection H as -> H; [left; by exists l1|].
    destruct (IH pre H) as [(p & ->)|(p & -> & ->)]; [left; by exists p|right; by exists p].
  Qed.
  Lemma printed_cons A A1 r b below next :
    printed A (FCons r b below FNil) → grows A A1 (expanded (FCons r b below FNil)) → printed A1 next →
    printed A (FCons r b below next).
  Proof.
    intros H1 HA H2. pose proof (pr_faithful _ _ H1) as (Hb & Hf & _). pose proof (pr_faithful _ _ H2) as Hf2.
    split.
    - done.
    - rewrite expanded_cons. apply NoDup_app. split_and!; [apply H1| |apply H2]. intros x Hx1 Hx2.
      apply (pr_new _ _ H2 x Hx2). apply HA. by right.
    - intros x. rewrite expanded_cons, elem_of_app. intros [Hx|Hx]; [by apply (pr_new _ _ H1)|].
      intros HxA. apply (pr_new _ _ H2 x Hx). apply HA. by left.
    - intros pre x post Heq. rewrite lines_cons in Heq. apply app_split in Heq as [(p & Heq)|(p & -> & Heq)].
      + by apply (pr_star _ _ H1 _ _ _ Heq).
      + destruct (pr_star _ _ H2 _ _ _ Heq) as [Hx|Hx].
        * apply HA in Hx as [?|Hx]; [by left|]. right. apply elem_of_app. left. by apply expanded_line; [apply H1|].
        * right. apply elem_of_app. by right.
    - intros x b0. rewrite lines_cons, elem_of_app. intros [?|?]; [by eapply (pr_in _ _ H1)|by eapply (pr_in _ _ H2)].
    - intros x. rewrite lines_cons, elem_of_app, expanded_cons, elem_of_app. intros [?|?] ?; [left; by apply (pr_exp _ _ H1)|right; by apply (pr_exp _ _ H2)].
    - intros x b0 Hx [->|He].
      + rewrite lines_cons, elem_of_app in Hx. destruct Hx; [by eapply (pr_nonleaf _ _ H1); [|left]|by eapply (pr_nonleaf _ _ H2); [|left]].
      + rewrite expanded_cons, elem_of_app in He. destruct He as [He|He].
        * eapply (pr_nonleaf _ _ H1); [|by right]. apply expanded_line; [apply H1|done].
        * eapply (pr_nonleaf _ _ H2); [|by right]. apply expanded_line; [apply H2|done].
  Qed.
  Lemma printed_ext A A' f : (∀ x, x ∈ A ↔ x ∈ A') → printed A f → printed A' f.
  Proof.
    intros HA H. split; try apply H.
    - intros x Hx ?%HA. by apply (pr_new _ _ H x).
    - intros pre r post Heq. rewrite <-HA. by apply (pr_star _ _ H _ _ _ Heq).
  Qed.

  Definition nonleaf (A : list nref) : Prop := ∀ x, x ∈ A → in_graph h g x ∧ kids h x ≠ [].
  (** the result of printing node [r] *)
  Definition tree_ok (r : nref) (indent : string) (A : list nref) (out : res (string * list nref)) : Prop :=
    ∃ (b : bool) below A', out = Ok (lbl r +:+ (if b then "*" else "") +:+ NL +:+ print_below lbl indent below, A') ∧
      printed A (FCons r b below FNil) ∧ grows A A' (expanded (FCons r b below FNil)).

  Lemma grows_nonleaf A A' f : nonleaf A → printed A f → grows A A' (expanded f) → nonleaf A'.
  Proof.
    intros HA H Hg x [?|Hx]%Hg; [by apply HA|]. pose proof (expanded_line f x (pr_faithful _ _ H) Hx).
    split; [by eapply (pr_in _ _ H)|]. eapply (pr_nonleaf _ _ H); [done|by right].
  Qed.

  Lemma tree_loop_run rec r indent cs acc A (n : nat) : in_graph h g r → kids h r ≠ [] → nonleaf A →
    (∀ c indent A, in_graph h g c → nonleaf A → unseen A < n → tree_ok c indent A (rec c indent A)) →
    all_in h g cs → unseen (A ++ [r]) < n →
    ∃ f A', tree_loop rec r indent cs acc A = Ok (acc +:+ print_below lbl indent f, A') ∧ tops f = cs ∧
      printed (A ++ [r]) f ∧ (∀ x, x ∈ A' ↔ x ∈ A ∨ (cs ≠ [] ∧ x = r) ∨ x ∈ expanded f).
  Proof.
    intros Hr Hk HA Hrec. revert acc A HA. induction cs as [|c cs IH]; intros acc A HA Hcs Hun.
    { exists FNil, A. cbn [tree_loop print_below]. rewrite sapp_nil. split_and!; [done..|apply printed_nil|].
      intros x. simpl. rewrite elem_of_nil. naive_solver. }
    apply all_in_cons in Hcs as [Hc Hcs]. cbn [tree_loop]. cbv zeta.
    assert (HAr : nonleaf (A ++ [r])) by (intros x [?| ->%elem_of_list_singleton]%elem_of_app; [by apply HA|done]).
    set (last := match cs with [] => true | _ :: _ => false end).
    set (ind := indent +:+ (if last then "  " else VERTICAL +:+ " ")).
    destruct (Hrec c ind (A ++ [r]) Hc HAr Hun) as (b & below & A1 & -> & Hp1 & Hg1). cbn [rbind].
    assert (Hn1 : nonleaf A1) by (by eapply grows_nonleaf).
    assert (HrA1 : r ∈ A1) by (apply Hg1; left; apply elem_of_app; right; by apply elem_of_list_singleton).
    assert (Hext : ∀ x, x ∈ A1 ++ [r] ↔ x ∈ A1).
    { intros x. rewrite elem_of_app, elem_of_list_singleton. naive_solver. }
    destruct (IH (acc +:+ indent +:+ (if last then CORNER else TWO_WAY) +:+ " " +:+ lbl c +:+ (if b then "*" else "") +:+ NL +:+ print_below lbl ind below) A1)
      as (f2 & A' & Hrun & Htops & Hp2 & HA'); [done|done| |].
    { eapply Nat.le_lt_trans; [|exact Hun]. apply (unseen_le (kids h)). intros x Hx. apply Hext, Hg1. by left. }
    exists (FCons c b below f2), A'. rewrite Hrun. split_and!.
    - f_equal. f_equal. cbn [print_below]. subst ind last.
      assert ((match f2 with FNil => true | FCons _ _ _ _ => false end) = match cs with [] => true | _ :: _ => false end) as ->.
      { rewrite <-Htops. by destruct f2. }
      by rewrite !sapp_assoc.
    - cbn [tops]. by rewrite Htops.
    - eapply printed_cons; [done|done|]. by eapply printed_ext.
    - intros x. rewrite HA'. unfold grows in Hg1. rewrite (Hg1 x), (expanded_cons c b below f2), elem_of_app, elem_of_app, elem_of_list_singleton.
      naive_solver.
  Qed.

  Lemma tree_str_run fuel r indent A : in_graph h g r → nonleaf A → unseen A < fuel →
    tree_ok r indent A (tree_str fuel env h r indent A).
  Proof.
    revert r indent A. induction fuel as [|fuel IH]; intros r indent A Hr HA Hun; [lia|]. cbn [tree_str].
    rewrite lbl_run by done. cbn [rbind]. rewrite (node_in_run h W g) by (done || intros x Hx; by apply HA).
    destruct (obj_in r A) eqn:HrA.
    - apply obj_in_true in HrA. exists true, FNil, A. split_and!.
      + by rewrite sapp_nil.
      + split; simpl.
        * done.
        * constructor.
        * by intros x ?%elem_of_nil.
        * intros [|? pre] x post [= <-]; [by left|]. by destruct pre.
        * by intros x b [= -> ->]%elem_of_list_singleton.
        * by intros x [= ]%elem_of_list_singleton.
        * intros x b [= -> ->]%elem_of_list_singleton _. by apply HA.
      + intros x. simpl. rewrite elem_of_nil. naive_solver.
    - apply obj_in_false in HrA. rewrite kids_run by done. cbn [rbind].
      destruct (kids h r) as [|c0 cs0] eqn:Hk.
      + cbn [tree_loop]. exists false, FNil, A. split_and!.
        * by rewrite sapp_nil.
        * split; simpl.
          -- split; [|done]. by rewrite kids_run, Hk.
          -- constructor.
          -- by intros x ?%elem_of_nil.
          -- intros [|? pre] x post [= ]. by destruct pre.
          -- by intros x b [= -> ->]%elem_of_list_singleton.
          -- by intros x [= ->]%elem_of_list_singleton.
          -- intros x b [= -> ->]%elem_of_list_singleton [?|?%elem_of_nil]; done.
        * intros x. simpl. rewrite elem_of_nil. naive_solver.
      + rewrite <-Hk. assert (Hne : kids h r ≠ []) by (by rewrite Hk).
        destruct (tree_loop_run (λ c i ad, tree_str fuel env h c i ad) r indent (kids h r) (lbl r +:+ NL) A fuel)
          as (f & A' & -> & Htops & Hp & HA').
        * done.
        * done.
        * done.
        * intros c ind A1 ? ? ?. by apply IH.
        * intros c. by apply (kids_in h W).
        * assert (unseen (A ++ [r]) < unseen A); [|lia]. apply (unseen_lt (kids h)); [by apply HU|done].
        * exists false, f, A'. assert (Hff : f ≠ FNil) by (intros ->; simpl in Htops; congruence).
          assert (He : expanded (FCons r false f FNil) = r :: expanded f) by (simpl; destruct f; [done|]; by rewrite app_nil_r).
          split_and!.
          -- f_equal. f_equal. simpl. by rewrite !sapp_assoc.
          -- split.
             ++ simpl. split_and!; [|apply Hp|done]. by rewrite Htops, kids_run.
             ++ rewrite He. apply NoDup_cons. split; [|apply Hp]. intros Hx. apply (pr_new _ _ Hp r Hx). apply elem_of_app. right. by apply elem_of_list_singleton.
             ++ intros x. rewrite He. intros [->|Hx]%elem_of_cons; [done|]. intros HxA. apply (pr_new _ _ Hp x Hx). apply elem_of_app. by left.
             ++ intros pre x post. simpl. rewrite app_nil_r. destruct pre as [|p pre]; [done|]. intros [= <- Heq].
                destruct (pr_star _ _ Hp _ _ _ Heq) as [[?| ->%elem_of_list_singleton]%elem_of_app|?]; [by left|right; left|right; by right].
             ++ intros x b. simpl. rewrite app_nil_r. intros [[= -> ->]|Hx]%elem_of_cons; [done|]. by eapply (pr_in _ _ Hp).
             ++ intros x. rewrite He. simpl. rewrite app_nil_r. intros [[= ->]|Hx]%elem_of_cons ?; [left|right]. by apply (pr_exp _ _ Hp).
             ++ intros x b. rewrite He. simpl. rewrite app_nil_r, !elem_of_cons. intros Hl Hx.
                destruct (decide (x = r)) as [->|Hxr]; [done|]. destruct Hl as [[= -> ->]|Hl]; [done|].
                eapply (pr_nonleaf _ _ Hp); [done|]. naive_solver.
          -- intros x. rewrite He, elem_of_cons, HA'. naive_solver.
  Qed.
End tree.
