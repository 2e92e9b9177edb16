(** C29: whatever the parser yields is an outline. *)
From Verif Require Export SpecText ModelParse ProofDict.
Local Open Scope string_scope.
Local Open Scope list_scope.

Definition entry (l : pline) : nat * string := (l.1.1.2, l.1.2).
Lemma match_line_text s lv c : match_line s = Some (lv, c) → c ≠ "".
Proof.
  unfold match_line. destruct (strip4 s) as [k [|a r]]; [done|]. destruct (ModelParse.is_space a) eqn:Ha; [done|]. intros [= <- <-].
  cbn [take_while]. destruct (decide (a = newline)) as [->|Hn]; [done|]. unfold eqb. rewrite bool_decide_eq_false_2 by done. done.
Qed.
(** The lines on the stack: the line at each level, not ended by a later one. *)
Definition stack_of (o : list (nat * string)) (st : list nat) : Prop :=
  ∀ l j, st !! l = Some j → (∃ s, o !! j = Some (l, s) ∧ s ≠ "") ∧ ∀ j' l' s, j < j' → o !! j' = Some (l', s) → s ≠ "" → l < l'.
Lemma stack_parent o st l j e : stack_of o st → st !! l = Some j → e.1 = S l → ∀ rest, parent_text (o ++ e :: rest) (length o) (Some j).
Proof.
  intros Hst Hj He rest. destruct (Hst l j Hj) as [(s & Hs & Hne) Hlater]. unfold parent_text.
  rewrite fmap_app, lookup_app_r by (by rewrite fmap_length). rewrite fmap_length, Nat.sub_diag. cbn. rewrite He.
  assert (j < length o) as Hlt by (by eapply lookup_lt_Some). split; [done|]. split; [exists s; by rewrite lookup_app_l|].
  intros j' s' Hj' Ho. rewrite lookup_app_l in Ho by lia. destruct (decide (s' = "")); [done|]. specialize (Hlater j' l s' ltac:(lia) Ho ltac:(done)). lia.
Qed.
Lemma parse_line_outline o st line st' l : stack_of o (p_stack st) → (∀ lv, p_level st = Some lv → length (p_stack st) = S lv) →
  parse_line st (length o) line = Ok (st', l) →
  stack_of (o ++ [entry l]) (p_stack st') ∧ (∀ lv, p_level st' = Some lv → length (p_stack st') = S lv) ∧ length (p_stack st') = S (entry l).1 ∧
  (entry l).1 ≤ length (p_stack st) ∧ l.1.1.1 = length o ∧ ∀ rest, parent_text (o ++ entry l :: rest) (length o) l.2.
Proof.
  intros Hst Hlv. unfold parse_line. cbv zeta.
  set (ind := match p_indent st with Some i => Some i | None => _ end). clearbody ind.
  set (ln := match ind with Some i => _ | None => _ end). clearbody ln.
  assert (Hzero : ∀ e rest, e.1 = 0 → parent_text (o ++ e :: rest) (length o) None).
  { intros e rest He. unfold parent_text. rewrite fmap_app, lookup_app_r by (by rewrite fmap_length). rewrite fmap_length, Nat.sub_diag. cbn. by rewrite He. }
  destruct ln as [|c ln].
  - destruct (p_level st) as [lv|]; [|done]. specialize (Hlv lv eq_refl).
    assert (∀ x, x.2 = "" → stack_of (o ++ [x]) (p_stack st)) as Hst'.
    { intros x Hx l' j Hj. destruct (Hst l' j Hj) as [(s & Hs & Hne) Hlater]. split; [exists s; split; [|done]; by apply lookup_app_l_Some|].
      intros j' l2 s' Hjj Hl Hs'. apply lookup_app_Some in Hl as [Hl|[_ Hl]]; [by eapply Hlater|]. apply list_lookup_singleton_Some in Hl as [_ ->]. done. }
    destruct lv as [|lv].
    + intros [= <- <-]. cbn. split_and!; [by apply Hst'|naive_solver|done|lia|done|]. intros rest. by apply Hzero.
    + destruct (p_stack st !! lv) as [p|] eqn:Hp; [|done]. intros [= <- <-]. cbn. split_and!; [by apply Hst'|naive_solver|done|lia|done|].
      intros rest. by eapply stack_parent.
  - destruct (match_line _) as [[lv content]|] eqn:Hm; [|done]. apply match_line_text in Hm. destruct (Nat.ltb _ _) eqn:Hlt; [done|]. apply Nat.ltb_ge in Hlt.
    assert (length (take lv (p_stack st) ++ [length o]) = S lv) as Hlen by (rewrite app_length, take_length; cbn; lia).
    assert (stack_of (o ++ [(lv, content)]) (take lv (p_stack st) ++ [length o])) as Hst'.
    { intros l' j Hj. apply lookup_app_Some in Hj as [Hj|[Hge Hj]].
      - apply lookup_take_Some in Hj as [Hj Hl']. destruct (Hst l' j Hj) as [(s & Hs & Hne) Hlater]. split; [exists s; split; [|done]; by apply lookup_app_l_Some|].
        intros j' l2 s' Hjj Hl Hs'. apply lookup_app_Some in Hl as [Hl|[_ Hl]]; [by eapply Hlater|]. apply list_lookup_singleton_Some in Hl as [_ [= -> ->]]. done.
      - apply list_lookup_singleton_Some in Hj as [Hz <-]. rewrite take_length in Hge, Hz. assert (l' = lv) as -> by lia.
        split; [exists content; split; [|done]; by apply list_lookup_middle|]. intros j' l2 s' Hjj Hl. apply lookup_lt_Some in Hl. rewrite app_length in Hl. cbn in Hl. lia. }
    destruct lv as [|lv].
    + intros [= <- <-]. cbn -[take]. split_and!; [done|naive_solver|done|lia|done|]. intros rest. by apply Hzero.
    + destruct ((take _ _ ++ [_]) !! lv) as [p|] eqn:Hp; [|done]. intros [= <- <-]. cbn -[take]. split_and!; [done|naive_solver|done|lia|done|].
      intros rest. rewrite lookup_app_l in Hp by (rewrite take_length; lia). rewrite lookup_take in Hp by lia. by eapply stack_parent.
Qed.
Lemma parse_loop_outline : ∀ lines o st ls, stack_of o (p_stack st) → (∀ lv, p_level st = Some lv → length (p_stack st) = S lv) →
  parse_loop st (length o) lines = Ok ls →
  length ls = length lines ∧ outline_from (length (p_stack st)) (entry <$> ls) ∧
  ∀ k l, ls !! k = Some l → l.1.1.1 = length o + k ∧ parent_text (o ++ (entry <$> ls)) (length o + k) l.2.
Proof.
  induction lines as [|line lines IH]; intros o st ls Hst Hlv Heq; cbn [parse_loop] in Heq.
  { injection Heq as <-. done. }
  destruct (parse_line st (length o) line) as [[st1 l1]|] eqn:Hl; [|done]. cbn [rbind] in Heq.
  destruct (parse_loop st1 (S (length o)) lines) as [ls1|] eqn:Hls; [|done]. injection Heq as <-.
  destruct (parse_line_outline o st line st1 l1 Hst Hlv Hl) as (Hst1 & Hlv1 & Hlen1 & Hle & Hidx & Hpar).
  replace (S (length o)) with (length (o ++ [entry l1])) in Hls by (rewrite app_length; cbn; lia).
  destruct (IH (o ++ [entry l1]) st1 ls1 Hst1 Hlv1 Hls) as (Hlen & Hout & Hrest).
  split; [cbn; by rewrite Hlen|]. split.
  { rewrite fmap_cons. cbn [outline_from]. rewrite Hlen1 in Hout. destruct (entry l1) as [lv s]. done. }
  intros [|k] l Hk; cbn [lookup list_lookup] in Hk.
  - injection Hk as <-. rewrite Nat.add_0_r. split; [done|]. rewrite fmap_cons. apply Hpar.
  - destruct (Hrest k l Hk) as [Hi Hp]. rewrite app_length in Hi, Hp. cbn [length] in Hi, Hp. rewrite <-app_assoc in Hp.
    rewrite fmap_cons. replace (length o + S k) with (length o + 1 + k) by lia. done.
Qed.

(** C29, whatever the lines are: if the parser accepts them then it yields one entry
    per line, numbered from 0, whose levels form an outline (it starts at level 0 and no
    level is more than one deeper than the one before), and the parent of each entry
    is the last earlier entry one level up that is not blank.  So a line that is too
    deep is always rejected. *)
Lemma C29_outline_proof : ∀ lines indent ls, parse_indentations lines indent = Ok ls →
  let o := (λ l : pline, (l.1.1.2, l.1.2)) <$> ls in
  length ls = length lines ∧ outline o ∧ ∀ i l, ls !! i = Some l → l.1.1.1 = i ∧ parent_text o i l.2.
Proof.
  intros lines indent ls Heq. destruct (parse_loop_outline lines [] (MkPState indent None []) ls) as (H1 & H2 & H3); [by intros l j ?|done|exact Heq|].
  cbv zeta. split; [done|]. split; [done|]. intros i l Hi. exact (H3 i l Hi).
Qed.
(** Lines with two blank ones; and lines that are rejected. *)
Lemma C29_outline_ex_proof : 
  parse_indentations ["a"; ""; "    b"; ""; "c"] None = Ok [(0, 0, "a", None); (1, 0, "", None); (2, 1, "b", Some 0); (3, 1, "", Some 0); (4, 0, "c", None)] ∧
  parse_indentations ["a"; "    b"; "            c"] None = Err ValueError.
Proof. by vm_compute. Qed.
