(** C29: which lines are blank for the parser, and how texts start. *)
From Verif Require Export SpecText ModelParse ProofText ProofC30.
Local Open Scope string_scope.
Local Open Scope list_scope.

Lemma rstrip_empty s : rstrip_nl s = "" ↔ ∃ k, s = times k line_end.
Proof.
  split.
  - induction s as [|c s IH]; intros H; [by exists 0|]. cbn in H. destruct (rstrip_nl s) eqn:Hr; [|done].
    destruct (IH eq_refl) as [k ->]. exists (S k). destruct (decide (c = newline)) as [->|Hn]; [done|]. unfold eqb in H. by rewrite bool_decide_eq_false_2 in H.
  - intros [k ->]. apply rstrip_newlines.
Qed.
Lemma replace_ne old n s : s ≠ "" → replace_n old four_spaces n 0 s ≠ "".
Proof. destruct s as [|c s]; [done|]. intros _. destruct n; cbn [replace_n]; [done|]. destruct (String.prefix _ _); done. Qed.
Lemma match_line_start s lv c : match_line s = Some (lv, c) → ∃ a r, c = String a r ∧ ¬ white a.
Proof.
  unfold match_line. destruct (strip4 s) as [k [|a r]]; [done|]. destruct (ModelParse.is_space a) eqn:Ha; [done|]. intros [= <- <-].
  cbn [take_while]. destruct (decide (a = newline)) as [->|Hn]; [done|]. unfold eqb. rewrite bool_decide_eq_false_2 by done. cbn.
  eexists _, _. split; [done|]. by apply is_space_false.
Qed.
Lemma parse_line_content st i line st' l : parse_line st i line = Ok (st', l) →
  (l.1.2 = "" ↔ ∃ k, line = times k line_end) ∧ (l.1.2 ≠ "" → ∃ a r, l.1.2 = String a r ∧ ¬ white a).
Proof.
  unfold parse_line. cbv zeta. set (ind := match p_indent st with Some i => Some i | None => _ end). clearbody ind.
  set (ln := match ind with Some i => _ | None => _ end).
  assert (Hln : ln = "" ↔ rstrip_nl line = "").
  { unfold ln. destruct ind as [u|]; [|done]. split; [|by intros ->]. intros H. destruct (decide (rstrip_nl line = "")) as [|Hne]; [done|]. by destruct (replace_ne u _ _ Hne H). }
  rewrite rstrip_empty in Hln. clearbody ln. destruct ln as [|c ln].
  - destruct (p_level st) as [[|lv]|]; [| |done].
    + intros [= <- <-]. cbn. split; [|done]. naive_solver.
    + destruct (p_stack st !! lv); [|done]. intros [= <- <-]. cbn. split; [|done]. naive_solver.
  - destruct (match_line _) as [[lv content]|] eqn:Hm; [|done]. apply match_line_start in Hm as (a & r & -> & Hw). destruct (Nat.ltb _ _); [done|].
    assert (∀ l, l.1.2 = String a r → (l.1.2 = "" ↔ ∃ k, line = times k line_end) ∧ (l.1.2 ≠ "" → ∃ a r, (l : pline).1.2 = String a r ∧ ¬ white a)) as Hx.
    { intros l0 ->. split; [|eauto]. split; [done|]. intros H%Hln. done. }
    destruct lv as [|lv].
    + intros [= <- <-]. by apply Hx.
    + destruct ((take _ _ ++ [_]) !! lv); [|done]. intros [= <- <-]. by apply Hx.
Qed.

(** C29, whatever the lines are: if the parser accepts them then the text of an entry is
    empty exactly if its line consists of line ends only, and otherwise starts with a
    character that is no white space.  So a line that is indented by a part of the unit, or
    that has only spaces, is rejected. *)
Lemma C29_content_proof : ∀ lines indent ls, parse_indentations lines indent = Ok ls →
  ∀ i line l, lines !! i = Some line → ls !! i = Some l →
  (l.1.2 = "" ↔ ∃ k, line = times k line_end) ∧ (l.1.2 ≠ "" → ∃ c s, l.1.2 = String c s ∧ ¬ white c).
Proof.
  intros lines indent. unfold parse_indentations. generalize (MkPState indent None []), 0. induction lines as [|x lines IH]; intros st n ls Heq i line l Hi Hl; [done|].
  cbn [parse_loop] in Heq. destruct (parse_line st n x) as [[st1 l1]|] eqn:H1; [|done]. cbn [rbind] in Heq.
  destruct (parse_loop st1 (S n) lines) as [ls1|] eqn:Hls; [|done]. injection Heq as <-. destruct i as [|i]; cbn in Hi, Hl.
  - injection Hi as <-. injection Hl as <-. by eapply parse_line_content.
  - by eapply IH.
Qed.
(** C29, instance: a blank line between two others; and rejected lines, indented by six
    spaces where the unit is four, or with spaces only. *)
Lemma C29_content_ex_proof : parse_indentations ["a"; line_end; "    b"] None = Ok [(0, 0, "a", None); (1, 0, "", None); (2, 1, "b", Some 0)] ∧
  parse_indentations ["a"; "    b"; "      c"] None = Err ValueError ∧ parse_indentations ["a"; "    b"; "    "] None = Err ValueError.
Proof. by vm_compute. Qed.

Lemma parse_blank st n k lv : p_level st = Some lv → length (p_stack st) = S lv → ∃ st' p, parse_line st n (times k line_end) = Ok (st', (n, lv, "", p)).
Proof.
  intros Hl Hs. unfold parse_line. rewrite rstrip_newlines. cbv zeta.
  assert (match match p_indent st with Some i => Some i | None => None end with Some i => replace_n i four_spaces (String.length "" - String.length (drop_while (λ c, char_in c i) "")) 0 "" | None => "" end = "") as -> by (by destruct (p_indent st)).
  rewrite Hl. destruct lv as [|lv]; [by eexists _, _|]. destruct (lookup_lt_is_Some_2 (p_stack st) lv) as [p ->]; [lia|]. by eexists _, _.
Qed.
Lemma parse_loop_blank k : ∀ lines o st ls, stack_of o (p_stack st) → (∀ lv, p_level st = Some lv → length (p_stack st) = S lv) → lines ≠ [] ∨ p_level st ≠ None →
  parse_loop st (length o) lines = Ok ls → ∃ lv p, parse_loop st (length o) (lines ++ [times k line_end]) = Ok (ls ++ [(length o + length lines, lv, "", p)]) ∧
    match last ls with Some l => lv = l.1.1.2 | None => p_level st = Some lv end.
Proof.
  induction lines as [|line lines IH]; intros o st ls Hst Hlv Hne Heq; cbn [parse_loop app] in *.
  - injection Heq as <-. destruct Hne as [|Hne]; [done|]. destruct (p_level st) as [lv|] eqn:Hl; [|done].
    destruct (parse_blank st (length o) k lv) as (st' & p & Hp); [done|by apply Hlv|]. rewrite Hp. cbn. exists lv, p. by rewrite Nat.add_0_r.
  - destruct (parse_line st (length o) line) as [[st1 l1]|] eqn:Hl; [|done]. cbn [rbind] in *.
    destruct (parse_loop st1 (S (length o)) lines) as [ls1|] eqn:Hls; [|done]. injection Heq as <-.
    destruct (parse_line_outline o st line st1 l1 Hst Hlv Hl) as (Hst1 & Hlv1 & Hlen1 & _).
    assert (p_level st1 = Some (l1.1.1.2)) as Hsome.
    { unfold parse_line in Hl. cbv zeta in Hl. repeat case_match; simplify_eq; done. }
    replace (S (length o)) with (length (o ++ [entry l1])) in * by (rewrite app_length; cbn; lia).
    destruct (IH (o ++ [entry l1]) st1 ls1 Hst1 Hlv1) as (lv & p & Hr & Hlast); [right; by rewrite Hsome|done|].
    rewrite Hr. cbn [rbind]. exists lv, p. split.
    + rewrite app_length. cbn [length app]. by replace (length o + 1 + length lines) with (length o + S (length lines)) by lia.
    + rewrite last_cons. destruct (last ls1); [done|]. congruence.
Qed.

(** C29.  A line of line ends only, after at least one other line, is always accepted: it
    gives an entry with empty text at the level of the entry before. *)
Lemma C29_blank_proof : ∀ lines indent ls l k, parse_indentations lines indent = Ok ls → last ls = Some l →
  ∃ p, parse_indentations (lines ++ [times k line_end]) indent = Ok (ls ++ [(length lines, l.1.1.2, "", p)]).
Proof.
  intros lines indent ls l k Heq Hlast. destruct (parse_loop_blank k lines [] (MkPState indent None []) ls) as (lv & p & Hr & Hl); [by intros ? ? ?|done| |exact Heq|].
  { left. intros ->. cbn in Heq. injection Heq as <-. done. }
  rewrite Hlast in Hl. subst lv. exists p. exact Hr.
Qed.
(** C29, instance: two line ends after a line of level 1. *)
Lemma C29_blank_ex_proof : ∃ ls l, parse_indentations ["a"; "    b"] None = Ok ls ∧ last ls = Some l ∧
  parse_indentations ["a"; "    b"; times 2 line_end] None = Ok (ls ++ [(2, 1, "", Some 0)]).
Proof. eexists _, _. split; [vm_compute; reflexivity|]. split; vm_compute; reflexivity. Qed.
